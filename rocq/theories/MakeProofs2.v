(** Proofs for C84-C87: every run of fab in a YAML project is a build. *)
From stdpp Require Import base gmap list strings relations.
From Verif Require Import TopDirModel DriverModel RegistryModel.
From Verif Require Import PathModel FindModel FileHashModel FileHashSpec FilesModel FilesSpec.
From Verif Require Import ContextModel RunnerModel RunnerSpec RunnerSpec2 ChainModel ChainProofs YamlModel YamlSpec.
From Verif Require Import MainModel MainSpec ProjModel ProjSpec EndSpec BuildModel BuildSpec MakeModel MakeSpec.
From Verif Require Import YamlProofs ProjLaid ProjProofs ProjProofs3 ProjProofs4 ProjProofs7 MakeProofs.
Local Open Scope list_scope.

Lemma slot_children objs (p x : nat) : x ∈ children objs p <-> exists i, slot objs p i x.
Proof.
  unfold children, slot. destruct (objs !! p) as [[]|]; rewrite ?elem_of_list_singleton, ?elem_of_nil, ?elem_of_list_lookup;
    try done; split; (try by intros ->; exists 0); (try by intros (? & ? & ->)); (try done); by intros [? []].
Qed.

Lemma all_allowed (asks : obj -> Prop) does (ts : list nat) cx : (forall x, x ∈ ts -> asks x) -> allowed asks does (all_prog (TPtr <$> ts) cx).
Proof.
  intros Ha. unfold all_prog. constructor; [|intros e; constructor]. intros x Hx. apply elem_of_list_fmap in Hx as (y & [= ->] & Hy). by apply Ha.
Qed.
Lemma seq_allowed (asks : obj -> Prop) does (ts : list nat) cx : (forall x, x ∈ ts -> asks x) -> allowed asks does (seq_prog (TPtr <$> ts) cx).
Proof.
  induction ts as [|t ts IH]; intros Ha; simpl; [constructor|].
  constructor; [intros x Hx%elem_of_list_singleton; injection Hx as ->; apply Ha; by left|].
  intros [e|]; [constructor|]. apply IH. intros x Hx. apply Ha. by right.
Qed.
Lemma arg_allowed (asks : obj -> Prop) does (t : nat) args cx : asks t -> allowed asks does (arg_prog (TPtr t) args cx).
Proof.
  intros Ha. unfold arg_prog. constructor; [|intros e; constructor]. intros x Hx%elem_of_list_singleton. by injection Hx as ->.
Qed.
Lemma allowed_mono (asks : obj -> Prop) (does : label -> Prop) (asks' : obj -> Prop) (does' : label -> Prop) p : allowed asks does p -> (forall x, asks x -> asks' x) -> (forall l, does l -> does' l) -> allowed asks' does' p.
Proof.
  intros Ha H1 H2. revert p Ha. cofix IH. intros p [e|cx ts k Ht Hk|l k Hl Hk]; [apply al_ret|apply al_call|apply al_eff].
  - intros x Hx. by apply H1, Ht.
  - intros e. apply IH, Hk.
  - by apply H2.
  - intros r. apply IH, Hk.
Qed.

Lemma leaf_dec (sh : shape) : (exists t n d, sh = SLeaf t n d) \/ (forall t n d, sh <> SLeaf t n d).
Proof. destruct sh; [right; done..|left; eauto]. Qed.

Lemma laid_means top fns leaf ybool docs s dir n o : laid top fns leaf ybool docs s dir n o -> means top fns leaf ybool docs (y_objs s) dir n o.
Proof. by intros [? ? Hm _ _ _]. Qed.

Section tidy.
  Context (top : string) (fns : list_fns) (leaf : string -> option (node -> string -> bool))
    (ybool : node -> option bool) (docs : string -> option node) (ne : notexist) (s : ystate)
    (lf : string -> node -> string -> option (list string * list string)) (objs' : list shape).
  Notation objs := (y_objs s).
  Notation L := (length objs).
  Notation reg := (snd <$> y_reg s : gmap string nat).
  Context (Hload : loads top fns leaf ybool docs ne s) (Hexp : expands lf (snd <$> y_reg s) objs objs').
  Context (addr : nat -> nat) (leafp : nat -> ctx -> prog) (U : workings).
  Context (Hinj : forall o1 o2, addr o1 = addr o2 -> o1 = o2).
  Context (Hplace : targets_in_place top fns docs lf) (Hleaf : commands_belong reg objs' leafp).
  Notation p := (yaml_build U addr objs' leafp).
  Definition is_new (x : nat) : Prop := L <= x /\ exists tag n d, objs' !! x = Some (SLeaf tag n d).

  Lemma reg_known q (o : nat) : reg !! q = Some o -> o < L /\ exists d, y_reg s !! q = Some (d, o).
  Proof.
    intros Hq. apply lookup_fmap_Some in Hq as ([d x] & <- & Hq). simpl. split; [by eapply reg_lt|by exists d].
  Qed.
  Lemma child_cases (o x : nat) : x ∈ children objs' o ->
    (o < L /\ x < o /\ x ∈ children objs o) \/ (o < L /\ is_new x) \/
    (L <= o /\ x < L /\ (exists q, reg !! q = Some x) /\ exists args, objs' !! o = Some (SArgs x args)).
  Proof.
    intros Hx. destruct (decide (o < L)) as [Hlt|Hge].
    - destruct (objs !! o) as [sh|] eqn:Ho; [|apply lookup_ge_None in Ho; lia].
      destruct (leaf_dec sh) as [Hl|Hnl].
      + destruct Hl as (t & n & d & ->). destruct (proj1 (proj2 (proj2 Hexp)) _ _ _ _ Ho) as [[E _]|[(ts & E & _ & Hts & _)|(t' & ins & outs & ac & E & _ & Ht')]];
          unfold children in Hx; rewrite E in Hx.
        * by apply elem_of_nil in Hx.
        * right; left. split; [done|]. rewrite Forall_forall in Hts. by apply Hts.
        * apply elem_of_list_singleton in Hx as ->. right; left. done.
      + assert (E : objs' !! o = Some sh) by (by apply (proj1 (proj2 Hexp))).
        assert (Hc : x ∈ children objs o) by (unfold children in *; by rewrite E in Hx; rewrite Ho).
        left. split; [done|]. split; [|done]. apply slot_children in Hc as [i Hc]. by eapply loads_down.
    - right; right. apply Nat.nlt_ge in Hge. unfold children in Hx. destruct (objs' !! o) as [sh|] eqn:Ho; [|by apply elem_of_nil in Hx].
      destruct (proj1 (proj2 (proj2 (proj2 Hexp))) _ _ Hge Ho) as [(t & n & d & ->)|(q & u & args & Hq & ->)]; [by apply elem_of_nil in Hx|].
      apply elem_of_list_singleton in Hx as ->. destruct (reg_known _ _ Hq) as [Hlt _]. split; [done|]. split; [done|]. split; [by exists q|by exists args].
  Qed.

  Definition level (x : nat) : nat :=
    if decide (x < L) then L - x else match objs' !! x with Some (SArgs _ _) => 0 | _ => S L end.
  Lemma level_child o x : x ∈ children objs' o -> level o < level x.
  Proof.
    intros [(H1 & H2 & _)|[(H1 & H2 & t & n & d & Hx)|(H1 & H2 & _ & args & Ho)]]%child_cases; unfold level.
    - rewrite !decide_True by lia. lia.
    - rewrite decide_True, decide_False by lia. rewrite Hx. lia.
    - rewrite decide_False, decide_True by lia. rewrite Ho. lia.
  Qed.
  Notation owner := (owner reg objs' level).

  Lemma registered_free (x : nat) i q : reg !! q = Some x -> owner x <> Some i.
  Proof. intros Hq Ho. apply (owner_ownable _ _ _ level_child) in Ho. apply ownable_spec in Ho as (_ & _ & Hn). by apply (Hn q). Qed.
  Lemma args_free (x : nat) u args i : L <= x -> objs' !! x = Some (SArgs u args) -> owner x <> Some i.
  Proof.
    intros Hge Hx Ho. rewrite (owner_eq _ _ _ level_child) in Ho. destruct (ownable _ _ _); [|done].
    destruct (parents objs' x) as [|o [|]] eqn:E; try done. apply parents_one in E as [E _].
    apply child_cases in E as [(? & ? & _)|[(_ & _ & t & n & d & E)|(_ & ? & _)]]; [lia|congruence|lia].
  Qed.

  (** The Target of a rule is its own. *)
  Lemma own_target (o t : nat) ins outs ac : objs' !! o = Some (SFiles t ins outs ac) ->
    (forall q, objs' !! t <> Some (SRef q)) /\ ~ is_rule objs' t /\ (forall q, reg !! q <> Some t) /\ forall o', t ∈ children objs' o' -> o' = o.
  Proof.
    intros Ho. assert (Hc : t ∈ children objs' o) by (unfold children; rewrite Ho; by left).
    destruct (child_cases _ _ Hc) as [(Hlt & Hto & Hc')|[(Hlt & Hnew)|(_ & _ & _ & args & E)]]; [| |congruence].
    - (* a written !Files *)
      assert (Hob : objs !! o = Some (SFiles t ins outs ac)).
      { destruct (objs !! o) as [sh|] eqn:E; [|apply lookup_ge_None in E; lia].
        destruct (leaf_dec sh) as [(t' & n & d & ->)|Hnl].
        - exfalso. unfold children in Hc'. rewrite E in Hc'. by apply elem_of_nil in Hc'.
        - assert (E' : objs' !! o = Some sh) by (by apply (proj1 (proj2 Hexp))). congruence. }
      destruct (loads_laid top fns leaf ybool docs ne s o Hload Hlt) as (q & dir & n & Hw & Hcase).
      assert (Hl : laid top fns leaf ybool docs s dir n o /\ tagged n).
      { destruct Hcase as [[Hl [Ht|[q' Hr]]]|(o' & t' & Hl & Ht & Ho')]; [done|congruence|exfalso].
        destruct Hl as [n o' Hm _ _ _]. destruct (means_tag _ _ _ _ _ _ _ _ _ _ Hm Ht) as (_ & _ & H3 & _).
        destruct (H3 eq_refl) as (? & ? & ? & a & os & _ & _ & _ & Ha & Ho''). assert (a = o) as -> by congruence. congruence. }
      destruct Hl as [Hl [t' Ht']]. destruct Hl as [n o Hm Honly Hlaid _].
      assert (t' = "Files") as ->.
      { destruct (means_tag _ _ _ _ _ _ _ _ _ _ Hm Ht') as (H1 & H2 & H3 & H4 & H5 & H6).
        destruct (decide (t' = "All")) as [E|N1]; [destruct (H1 E) as (_ & os & _ & HH); congruence|].
        destruct (decide (t' = "Seq")) as [E|N2]; [destruct (H2 E) as (_ & os & _ & HH); congruence|].
        destruct (decide (t' = "Deps")) as [E|N3]; [destruct (H3 E) as (? & ? & ? & ? & ? & _ & _ & _ & _ & HH); congruence|].
        destruct (decide (t' = "ArgTarget")) as [E|N4]; [destruct (H4 E) as (_ & ? & ? & ? & ? & _ & _ & _ & HH); congruence|].
        destruct (decide (t' = "Files")) as [->|N5]; [done|]. assert (Hnt : t' ∉ ["All"; "Seq"; "Deps"; "ArgTarget"; "Files"]) by (rewrite !elem_of_cons, elem_of_nil; tauto).
        specialize (H6 Hnt). congruence. }
      destruct (means_tag _ _ _ _ _ _ _ _ _ _ Hm Ht') as (_ & _ & _ & _ & H5 & _).
      destruct (H5 eq_refl) as (fs & t2 & ins2 & outs2 & ac2 & Hd & _ & _ & _ & HH). clear H5.
      destruct (Hplace _ _ _ _ Hw Ht' Hd) as [Htg Hnr].
      assert (Hpl : placed objs n o (field "Target" fs) o 0 t) by (apply placed_files; [done..|]; unfold slot; by rewrite Hob).
      specialize (Honly _ _ _ _ Hpl Htg) as (_ & Huniq & Hlt2 & Hnreg). pose proof (laid_means _ _ _ _ _ _ _ _ _ (Hlaid _ _ _ _ Hpl Htg)) as Hmt.
      split; [|split; [|split]].
      + intros q'. by eapply (tagged_own top fns leaf ybool docs s lf objs' Hexp).
      + intros (t3 & ins3 & outs3 & ac3 & E). destruct Htg as [tg Htg].
        apply (Hnr ins3 outs3). destruct (means_tag _ _ _ _ _ _ _ _ _ _ Hmt Htg) as (H1 & H2 & H3 & H4 & H5 & H6).
        destruct (decide (tg = "All")) as [E'|N1]; [destruct (H1 E') as (_ & os & _ & HHH); apply (kept s lf objs' Hexp) in HHH; [congruence|done]|].
        destruct (decide (tg = "Seq")) as [E'|N2]; [destruct (H2 E') as (_ & os & _ & HHH); apply (kept s lf objs' Hexp) in HHH; [congruence|done]|].
        destruct (decide (tg = "Deps")) as [E'|N3]; [destruct (H3 E') as (? & ? & ? & ? & ? & _ & _ & _ & _ & HHH); apply (kept s lf objs' Hexp) in HHH; [congruence|done]|].
        destruct (decide (tg = "ArgTarget")) as [E'|N4]; [destruct (H4 E') as (_ & ? & ? & ? & ? & _ & _ & _ & HHH); apply (kept s lf objs' Hexp) in HHH; [congruence|done]|].
        destruct (decide (tg = "Files")) as [->|N5].
        * destruct (H5 eq_refl) as (fs' & t4 & ins4 & outs4 & ac4 & Hd' & _ & Hi & Hou & HHH). apply (kept s lf objs' Hexp) in HHH; [|done]. rewrite E in HHH. injection HHH as <- <- <- <-.
          left. by exists fs'.
        * assert (Hnt : tg ∉ ["All"; "Seq"; "Deps"; "ArgTarget"; "Files"]) by (rewrite !elem_of_cons, elem_of_nil; tauto).
          right. exists tg. split; [done|]. split; [done|].
          destruct (proj1 (proj2 (proj2 Hexp)) _ _ _ _ (H6 Hnt)) as [[? _]|[(ts & ? & _)|(t4 & ins4 & outs4 & ac4 & HHH & E' & _)]]; congruence.
      + intros q' Hq'. destruct (reg_known _ _ Hq') as [_ [d Hd']]. by eapply Hnreg.
      + intros o' Ho'. destruct (child_cases _ _ Ho') as [(_ & _ & Hs)|[(_ & Hge & _)|(_ & _ & [q' Hq'] & _)]].
        * apply slot_children in Hs as [i Hs]. by destruct (Huniq _ _ Hs) as [-> _].
        * exfalso. lia.
        * destruct (reg_known _ _ Hq') as [_ [d Hd']]. by destruct (Hnreg q' d).
    - (* made by another decoder *)
      pose proof Hnew as (Hge & tag & n & d & Ht). split; [congruence|]. split; [intros (? & ? & ? & ? & E); congruence|]. split.
      + intros q Hq. apply reg_known in Hq as [? _]. lia.
      + intros o' Ho'. by eapply (proj2 (proj2 (proj2 (proj2 Hexp)))).
  Qed.

  Lemma yb_rule f : f ∈ p_rules p -> exists t ac, objs' !! f_id f = Some (SFiles t (f_in f) (f_out f) ac).
  Proof. exact (files_elem objs' f). Qed.
  Lemma yb_wf : well_formed p.
  Proof.
    split; [exact Hinj| | |].
    - intros f1 f2 H1 H2 E. apply yb_rule in H1 as (t1 & ac1 & H1). apply yb_rule in H2 as (t2 & ac2 & H2).
      rewrite E in H1. destruct f1 as [i1 n1 u1], f2 as [i2 n2 u2]. simpl in *. subst. rewrite H1 in H2. by injection H2 as -> -> -> ->.
    - intros f Hf. apply yb_rule in Hf as (t & ac & Hf). simpl. unfold target_name. by rewrite Hf.
    - intros f cx Hf. apply yb_rule in Hf as (t & ac & Hf). simpl. unfold target_prog, target_of. rewrite Hf. by destruct f.
  Qed.
  Lemma not_files (x : nat) : (forall f, f ∈ p_rules p -> f_id f <> x) -> is_files objs' x = false.
  Proof.
    intros Hn. destruct (is_files objs' x) eqn:E; [|done]. apply is_files_rule in E as (t & ins & outs & ac & E).
    destruct (Hn {| f_id := x; f_in := ins; f_out := outs |}); [|done]. by eapply files_elem_r.
  Qed.

  (** What targets other than rules and references request and do. *)
  Lemma body_allowed (asks : obj -> Prop) does (x : nat) cx : is_files objs' x = false -> (forall q, objs' !! x <> Some (SRef q)) ->
    (forall y, y ∈ children objs' x -> asks y) -> allowed (fun _ => False) does (leafp x cx) -> allowed asks does (target_prog objs' leafp x cx).
  Proof.
    intros Hnf Hnr Hc Hl. assert (Hl' : allowed asks does (leafp x cx)) by (eapply allowed_mono; [exact Hl|done|done]).
    unfold target_prog, children, is_files in *. destruct (objs' !! x) as [[n|ts|ts|t args|t ins outs ac|tag n d]|] eqn:E; try done.
    - by apply all_allowed.
    - by apply seq_allowed.
    - apply arg_allowed, Hc. by left.
  Qed.
  Lemma yb_tidy : tidy p owner.
  Proof.
    split.
    - intros f Hf. pose proof Hf as Hf0. apply yb_rule in Hf as (t & ac & Hf). destruct (own_target _ _ _ _ _ Hf) as (H1 & H2 & H3 & H4).
      assert (Hr : is_rule objs' (f_id f)) by (unfold is_rule; eauto).
      assert (p_sub p f = t) as -> by (simpl; unfold target_of; by rewrite Hf). split.
      + apply (owner_sub _ _ _ level_child); [unfold children; rewrite Hf; by left|by apply is_files_rule|by apply ownable_spec|done].
      + destruct (owner (f_id f)) as [i|] eqn:E; [|done]. apply (owner_ownable _ _ _ level_child), ownable_spec in E as (_ & E & _). done.
    - intros x i Ho. split.
      + apply owner_rule in Ho as (t & ins & outs & ac & Ho). eexists. split; [by eapply files_elem_r|done].
      + apply (owner_ownable _ _ _ level_child), ownable_spec in Ho as (Ho & _). apply (deferred_none addr objs' leafp x). intros q Hq. by apply (Ho q).
    - intros x i cx Ho. pose proof Ho as Ho'. apply (owner_ownable _ _ _ level_child), ownable_spec in Ho' as (Hnr & Hnf & _).
      assert (Hff : is_files objs' x = false) by (destruct (is_files objs' x) eqn:E; [by apply is_files_rule in E|done]).
      apply body_allowed; [done|done| |].
      + intros y Hy. destruct (owner_child reg objs' level level_child _ _ Hy Hff) as [E|E]; [by left|right; exact (eq_trans E Ho)].
      + eapply allowed_mono; [apply Hleaf|done|]. intros l [(i' & n & Hp & ->)|Hl]; [|by right]. left. exists n.
        apply (owner_part _ _ _ level_child) in Hp; [|done]. congruence.
    - intros x cx Ho Hn Hd. apply not_files in Hn.
      assert (Hnr : forall q, objs' !! x <> Some (SRef q)) by (exact (proj1 (deferred_none addr objs' leafp x) Hd)).
      apply body_allowed; [done|done| |].
      + intros y Hy. destruct (owner_child reg objs' level level_child _ _ Hy Hn) as [E|E]; [exact E|exact (eq_trans E Ho)].
      + eapply allowed_mono; [apply Hleaf|done|]. intros l [(i' & n & Hp & ->)|Hl]; [|done]. exfalso.
        apply (owner_part _ _ _ level_child) in Hp; [|done]. congruence.
  Qed.
End tidy.
