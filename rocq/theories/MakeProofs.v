(** Proofs for C84-C87: the targets of a YAML project are tidy. *)
From stdpp Require Import base gmap list strings relations.
From Verif Require Import TopDirModel DriverModel RegistryModel.
From Verif Require Import PathModel FindModel FileHashModel FileHashSpec FilesModel FilesSpec.
From Verif Require Import ContextModel RunnerModel RunnerSpec RunnerSpec2 ChainModel YamlModel YamlSpec.
From Verif Require Import MainModel MainSpec ProjModel ProjSpec EndSpec BuildModel BuildSpec MakeModel MakeSpec.
From Verif Require Import ProjLaid ProjProofs ProjProofs4.
Local Open Scope list_scope.

Section owner.
  Context (reg : gmap string nat) (objs : list shape).

  Definition parents (x : nat) : list nat := filter (fun p => x ∈ children objs p) (seq 0 (length objs)).
  Lemma children_lt p x : x ∈ children objs p -> p < length objs.
  Proof. unfold children. destruct (objs !! p) eqn:E; [intros _; by eapply lookup_lt_Some|by intros ?%elem_of_nil]. Qed.
  Lemma parents_in p x : p ∈ parents x <-> x ∈ children objs p.
  Proof.
    unfold parents. rewrite elem_of_list_filter, elem_of_seq. split; [tauto|]. intros Hc. split; [done|]. apply children_lt in Hc. lia.
  Qed.
  Lemma parents_nodup x : NoDup (parents x).
  Proof. apply NoDup_filter, NoDup_seq. Qed.
  Lemma parents_one p x : parents x = [p] <-> x ∈ children objs p /\ forall p', x ∈ children objs p' -> p' = p.
  Proof.
    split.
    - intros E. split; [apply parents_in; rewrite E; by left|]. intros p' Hp'%parents_in. rewrite E in Hp'. by apply elem_of_list_singleton in Hp'.
    - intros [H1 H2]. apply parents_in in H1. pose proof (parents_nodup x) as Hn.
      destruct (parents x) as [|p1 [|p2 l]] eqn:E; [by apply elem_of_nil in H1| |].
      + by apply elem_of_list_singleton in H1 as ->.
      + exfalso. assert (p1 = p) by (apply H2, parents_in; rewrite E; by left). assert (p2 = p) by (apply H2, parents_in; rewrite E; right; by left).
        subst. inversion Hn as [|? ? Hnin]; subst. apply Hnin. by left.
  Qed.

  Definition is_files (o : nat) : bool := match objs !! o with Some (SFiles _ _ _ _) => true | _ => false end.
  Lemma is_files_rule o : is_files o = true <-> is_rule objs o.
  Proof.
    unfold is_files, is_rule. destruct (objs !! o) as [[]|]; split; intros Hr; try done; try (by destruct Hr as (? & ? & ? & ? & ?)); eauto.
  Qed.
  Definition ownable (x : nat) : bool :=
    match objs !! x with Some (SRef _) => false | _ => negb (is_files x) && bool_decide (map_Forall (fun _ (o : nat) => o <> x) reg) end.
  Lemma ownable_spec x : ownable x = true <-> (forall q, objs !! x <> Some (SRef q)) /\ ~ is_rule objs x /\ forall q, reg !! q <> Some x.
  Proof.
    assert (HF : map_Forall (fun _ (o : nat) => o <> x) reg <-> forall q, reg !! q <> Some x).
    { unfold map_Forall. split; [intros Hm q E; by apply (Hm q x)|intros Hm q o E ->; by apply (Hm q)]. }
    unfold ownable. rewrite <-is_files_rule.
    assert (Hor : negb (is_files x) && bool_decide (map_Forall (fun _ (o : nat) => o <> x) reg) = true <-> is_files x <> true /\ forall q, reg !! q <> Some x).
    { rewrite andb_true_iff, negb_true_iff, bool_decide_eq_true, HF. by rewrite not_true_iff_false. }
    destruct (objs !! x) as [[]|] eqn:E; try (rewrite Hor; split; [intros [? ?]; split; [congruence|done]|tauto]).
    split; [done|]. intros [Hn _]. by destruct (Hn name).
  Qed.

  Fixpoint owner_n (fuel : nat) (x : nat) : option nat :=
    match fuel with
    | 0 => None
    | S fuel =>
        if ownable x then
          match parents x with
          | [p] => if is_files p then Some p else owner_n fuel p
          | _ => None
          end
        else None
    end.

  Context (level : nat -> nat) (Hlevel : forall p x, x ∈ children objs p -> level p < level x).
  Definition owner (x : nat) : option nat := owner_n (S (level x)) x.
  (** Enough fuel. *)
  Lemma owner_enough n m x : level x < n -> level x < m -> owner_n n x = owner_n m x.
  Proof.
    revert m x. induction n as [|n IH]; intros [|m] x Hn Hm; [lia..|]. cbn [owner_n].
    destruct (ownable x); [|done]. destruct (parents x) as [|p [|]] eqn:E; try done. destruct (is_files p); [done|].
    apply parents_one in E as [E _]. apply Hlevel in E. apply IH; lia.
  Qed.
  Lemma owner_eq x : owner x =
    if ownable x then match parents x with [p] => if is_files p then Some p else owner p | _ => None end else None.
  Proof.
    unfold owner at 1. cbn [owner_n]. destruct (ownable x); [|done]. destruct (parents x) as [|p [|]] eqn:E; try done. destruct (is_files p); [done|].
    apply parents_one in E as [E _]. apply Hlevel in E. apply owner_enough; lia.
  Qed.

  Lemma owner_ownable x i : owner x = Some i -> ownable x = true.
  Proof. rewrite owner_eq. by destruct (ownable x). Qed.
  Lemma owner_rule x i : owner x = Some i -> is_rule objs i.
  Proof.
    revert x i. assert (Hn : forall n x i, owner_n n x = Some i -> is_rule objs i); [|intros x i; apply Hn].
    induction n as [|n IH]; intros x i; cbn [owner_n]; [done|]. destruct (ownable x); [|done].
    destruct (parents x) as [|p [|]]; try done. destruct (is_files p) eqn:Ef; [|apply IH]. intros [= <-]. by apply is_files_rule.
  Qed.
  (** Parts belong to what their whole belongs to, or to none. *)
  Lemma owner_child p x : x ∈ children objs p -> is_files p = false -> owner x = None \/ owner x = owner p.
  Proof.
    intros Hx Hp. rewrite (owner_eq x). destruct (ownable x); [|by left]. destruct (parents x) as [|p' [|]] eqn:E; try (by left).
    apply parents_one in E as [_ E]. rewrite <-(E p Hx), Hp. by right.
  Qed.
  Lemma owner_sub p x : x ∈ children objs p -> is_files p = true -> ownable x = true -> (forall p', x ∈ children objs p' -> p' = p) -> owner x = Some p.
  Proof.
    intros Hx Hp Ho Hu. rewrite (owner_eq x), Ho. assert (parents x = [p]) as -> by (by apply parents_one). by rewrite Hp.
  Qed.
  Lemma owner_part i x : rule_part reg objs i x -> (forall q, objs !! x <> Some (SRef q)) -> owner x = Some i.
  Proof.
    intros [Hi Ht] Hr.
    assert (Hg : forall p, tc (sole_part reg objs) p x -> (p = i \/ owner p = Some i) -> owner x = Some i); [|by apply (Hg i); [|left]].
    clear Ht. intros p Ht. revert Hr. induction Ht as [p x (H1 & H2 & H3 & H4)|p y x (H1 & H2 & H3 & H4) Ht IH]; intros Hr Hp.
    - destruct Hp as [->|Hp].
      + apply owner_sub; [done|by apply is_files_rule| |done]. apply ownable_spec. done.
      + rewrite owner_eq. assert (ownable x = true) as -> by (by apply ownable_spec). assert (parents x = [p]) as -> by (by apply parents_one).
        destruct (is_files p) eqn:Ef; [|done]. exfalso. apply owner_ownable, ownable_spec in Hp as (_ & Hp & _). by apply Hp, is_files_rule.
    - apply IH; [done|]. right.
      assert (Hy : forall q, objs !! y <> Some (SRef q)).
      { intros q E. assert (Hz : exists z, z ∈ children objs y) by (inversion Ht as [? ? [? _]|? ? ? [? _]]; eauto).
        destruct Hz as [z Hz]. unfold children in Hz. rewrite E in Hz. by apply elem_of_nil in Hz. }
      destruct Hp as [->|Hp].
      + apply owner_sub; [done|by apply is_files_rule| |done]. apply ownable_spec. done.
      + rewrite owner_eq. assert (ownable y = true) as -> by (by apply ownable_spec). assert (parents y = [p]) as -> by (by apply parents_one).
        destruct (is_files p) eqn:Ef; [|done]. exfalso. apply owner_ownable, ownable_spec in Hp as (_ & Hp & _). by apply Hp, is_files_rule.
  Qed.
End owner.
