From stdpp Require Import base gmap list strings.
From Verif Require SqliteModel SqliteSpec SqliteProofs.
From Verif Require Import PathModel FindModel FileHashModel FileHashSpec FilesModel FilesSpec.
From Verif Require Import ContextModel RunnerModel RunnerSpec ChainModel BuildModel BuildSpec BuildProofs2 BuildProofs3 BuildProofs4 BuildProofs5 StoreSpec.
Local Open Scope list_scope.

(** ** What the statements do to the set of hashes. *)
Section path.
  Context (code : string -> hash) (Hcode : Inj (=) (=) code) (K : Prop).

  (** [K]: nothing is lost. *)
  Inductive path : gset hash -> list SqliteModel.event -> gset hash -> Prop :=
    | p_nil C : path C [] C
    | p_has x u b C l C' : (b = true <-> code x ∈ C) -> path C l C' -> path C (SqliteModel.EvHas x u b :: l) C'
    | p_add x now C l C' : path ({[code x]} ∪ C) l C' -> path C (SqliteModel.EvAdd x now :: l) C'
    | p_del k now C C1 l C' : C1 ⊆ C -> (K -> C ⊆ C1) -> path C1 l C' -> path C (SqliteModel.EvDelete k now :: l) C'.

  Lemma path_app C l C1 l' C' : path C l C1 -> path C1 l' C' -> path C (l ++ l') C'.
  Proof. induction 1; intros; simpl; eauto using path. Qed.

  Lemma contents_elem s h : h ∈ contents code s <-> exists x secs, h = code x /\ (x, secs) ∈ SqliteModel.s_table s.
  Proof.
    unfold contents. rewrite elem_of_list_to_set, elem_of_list_fmap. split.
    - intros ([x secs] & -> & Hin). eauto.
    - intros (x & secs & -> & Hin). by exists (x, secs).
  Qed.
  Lemma contents_code s x : code x ∈ contents code s <-> exists secs, (x, secs) ∈ SqliteModel.s_table s.
  Proof.
    rewrite contents_elem. split.
    - intros (y & secs & E & Hin). apply Hcode in E as ->. eauto.
    - intros (secs & Hin). eauto.
  Qed.
  Lemma contents_count s x : (0 < SqliteModel.sql_count x (SqliteModel.s_table s)) <-> code x ∈ contents code s.
  Proof. by rewrite SqliteProofs.sql_count_pos, contents_code. Qed.

  Lemma contents_same s s' : SqliteModel.s_table s' = SqliteModel.s_table s -> contents code s' = contents code s.
  Proof. unfold contents. by intros ->. Qed.
  Lemma contents_update s s' secs x : SqliteModel.s_table s' = SqliteModel.sql_update secs x (SqliteModel.s_table s) -> contents code s' = contents code s.
  Proof.
    unfold contents. intros ->. f_equal. pose proof (SqliteProofs.update_fst secs x (SqliteModel.s_table s)) as E.
    apply (f_equal (fmap code)) in E. by rewrite <-!list_fmap_compose in E.
  Qed.
  Lemma contents_upsert s s' secs x : SqliteModel.s_table s' = SqliteModel.sql_upsert x secs (SqliteModel.s_table s) ->
    contents code s' = {[code x]} ∪ contents code s.
  Proof.
    intros E. apply set_eq. intros h. rewrite elem_of_union, elem_of_singleton, !contents_elem. split.
    - intros (y & z & -> & Hin). rewrite E in Hin. apply SqliteProofs.elem_of_upsert in Hin. destruct (decide (y = x)) as [->|Hne]; [by left|].
      right. exists y, z. split; [done|]. naive_solver.
    - intros [->|(y & z & -> & Hin)].
      + exists x, secs. split; [done|]. rewrite E. apply SqliteProofs.elem_of_upsert. naive_solver.
      + destruct (decide (y = x)) as [->|Hne].
        * exists x, secs. split; [done|]. rewrite E. apply SqliteProofs.elem_of_upsert. naive_solver.
        * exists y, z. split; [done|]. rewrite E. apply SqliteProofs.elem_of_upsert. naive_solver.
  Qed.

  Lemma step_path s c s' l : SqliteProofs.inv s -> SqliteModel.step s c = Some s' -> SqliteModel.s_log s' = SqliteModel.s_log s ++ l ->
    (K -> nothing_expires (SqliteModel.s_log s) l) -> path (contents code s) l (contents code s').
  Proof.
    intros I Hst Hl HK.
    assert (Hno : SqliteModel.s_log s = SqliteModel.s_log s ++ l -> l = []).
    { intros E. rewrite <-(app_nil_r (SqliteModel.s_log s)) in E at 1. by apply app_inv_head in E. }
    destruct c as [o h|o h|i t|]; simpl in Hst.
    - injection Hst as <-. simpl in Hl. rewrite (Hno Hl). constructor.
    - injection Hst as <-. simpl in Hl. rewrite (Hno Hl). constructor.
    - unfold SqliteModel.go in Hst. destruct (SqliteModel.s_calls s !! i) as [c|]; simpl in Hst; [|done].
      destruct c as [o h|o h now|h b|o h|o h now|o h now|h]; simpl in Hst; try done.
      + destruct (SqliteModel.updateOnAccess o); injection Hst as <-; simpl in Hl; [rewrite (Hno Hl); constructor|].
        apply app_inv_head in Hl as <-. constructor; [|constructor]. by rewrite bool_decide_eq_true, contents_count.
      + injection Hst as <-. simpl in Hl. apply app_inv_head in Hl as <-. constructor; [by rewrite bool_decide_eq_true, contents_count|].
        match goal with |- path _ _ (contents _ ?s') => rewrite (contents_update s s' _ _ eq_refl) end. constructor.
      + injection Hst as <-. simpl in Hl. rewrite (Hno Hl). constructor.
      + injection Hst as <-. simpl in Hl. apply app_inv_head in Hl as <-. constructor. match goal with |- path _ _ (contents _ ?s') => rewrite (contents_upsert s s' _ _ eq_refl) end. constructor.
      + injection Hst as <-. simpl in Hl. apply app_inv_head in Hl as <-. eapply p_del; [| |constructor].
        * intros y Hy. apply contents_elem in Hy as (x & secs & -> & Hin). apply contents_elem. simpl in Hin. apply SqliteProofs.elem_of_delete in Hin as [_ Hin]. eauto.
        * intros HKK. specialize (HK HKK [] _ _ [] eq_refl). intros y Hy. apply contents_elem in Hy as (x & secs & -> & Hin). apply contents_elem.
          exists x, secs. split; [done|]. simpl. apply SqliteProofs.elem_of_delete. split; [|done].
          apply (SqliteProofs.i_rows s I) in Hin as (t' & Ht & ->). rewrite app_nil_r in HK. exact (HK x t' Ht).
    - injection Hst as <-. simpl in Hl. rewrite (Hno Hl). constructor.
  Qed.

  Lemma run_path cs : forall s s' l, SqliteProofs.inv s -> SqliteModel.run s cs = Some s' -> SqliteModel.s_log s' = SqliteModel.s_log s ++ l ->
    (K -> nothing_expires (SqliteModel.s_log s) l) -> path (contents code s) l (contents code s').
  Proof.
    induction cs as [|c cs IH]; intros s s' l I Hr Hl HK; simpl in Hr.
    - injection Hr as <-. rewrite <-(app_nil_r (SqliteModel.s_log s)) in Hl at 1. apply app_inv_head in Hl as <-. constructor.
    - destruct (SqliteModel.step s c) as [s1|] eqn:E; simpl in Hr; [|done].
      assert (exists l1, SqliteModel.s_log s1 = SqliteModel.s_log s ++ l1) as [l1 E1].
      { apply SqliteProofs.step_log in E as [E|[ev E]]; [exists []; by rewrite app_nil_r|by exists [ev]]. }
      assert (exists l2, SqliteModel.s_log s' = SqliteModel.s_log s1 ++ l2) as [l2 E2].
      { clear -Hr. revert s1 Hr. induction cs as [|c' cs IH]; intros s1 Hr; simpl in Hr; [injection Hr as <-; exists []; by rewrite app_nil_r|].
        destruct (SqliteModel.step s1 c') as [s2|] eqn:E; simpl in Hr; [|done]. destruct (IH _ Hr) as [l2 E2].
        apply SqliteProofs.step_log in E as [E|[ev E]]; [exists l2; congruence|]. exists (ev :: l2). by rewrite E2, E, <-app_assoc. }
      assert (l = l1 ++ l2) as ->. { rewrite E2, E1, <-app_assoc in Hl. by apply app_inv_head in Hl. }
      eapply path_app.
      + eapply step_path; [exact I|exact E|exact E1|]. intros HKK m1 k now m2 -> x t Hx. eapply (HK HKK m1 k now (m2 ++ l2)); [by rewrite <-app_assoc|done].
      + eapply IH; [by eapply SqliteProofs.step_inv|exact Hr|exact E2|]. intros HKK m1 k now m2 -> x t Hx. rewrite E1, <-app_assoc in Hx.
        eapply (HK HKK (l1 ++ m1) k now m2); [by rewrite <-app_assoc|done].
  Qed.

  Lemma path_keeps C l C' : K -> path C l C' -> C ⊆ C'.
  Proof. intros HK. induction 1 as [|x u b C l C' _ _ IH|x now C l C' _ IH|k now C C1 l C' _ H1 _ IH]; [done|done| |]; [set_solver|]. by etrans; [apply H1|]. Qed.
  Lemma path_adds C l C' h : path C l C' -> h ∈ C' -> h ∈ C \/ exists x now, h = code x /\ SqliteModel.EvAdd x now ∈ l.
  Proof.
    induction 1 as [|x u b C l C' _ _ IH|x now C l C' _ IH|k now C C1 l C' H1 _ _ IH]; intros Hh; [by left|..]; destruct (IH Hh) as [Hc|(y & n & -> & Hy)].
    - by left.
    - right. exists y, n. split; [done|]. by right.
    - apply elem_of_union in Hc as [Hc|Hc]; [|by left]. apply elem_of_singleton in Hc as ->. right. exists x, now. split; [done|]. by left.
    - right. exists y, n. split; [done|]. by right.
    - left. by apply H1.
    - right. exists y, n. split; [done|]. by right.
  Qed.
End path.

(** ** A database that does the same. *)
#[export] Instance label_eq : EqDecision label.
Proof. solve_decision. Defined.

(** At each time: for which operation, and what is lost and added. *)
Definition script := nat -> option (label * nat * gset hash * gset hash).
Definition base (l : label) (r : nat) (db : gset hash) : gset hash :=
  match l with OpAdd h => match r with 0 => {[h]} ∪ db | _ => db end | _ => db end.
Definition play (F : script) (t : nat) (l : label) (r : nat) (db : gset hash) : gset hash :=
  match F t with
  | Some (l', r', R, A) => if decide (l = l' /\ r = r') then (base l r db ∖ R) ∪ A else base l r db
  | None => base l r db
  end.
(** [others]: what is added by others. *)
Definition script_ok (others : hash -> Prop) (K : Prop) (F : script) : Prop :=
  forall t l r R A, F t = Some (l, r, R, A) ->
    (forall x, x ∈ A -> l = OpAdd x \/ others x) /\ (K -> R = ∅).

Lemma play_sound others F : script_ok others False F -> (forall x, ~ others x) -> forall t h r db, play F t (OpHas h) r db ⊆ db /\ play F t (OpAdd h) r db ⊆ {[h]} ∪ db.
Proof.
  intros Hok Hno t h r db. unfold play. split.
  - destruct (F t) as [[[[l' r'] R] A]|] eqn:E; [|done]. destruct (Hok _ _ _ _ _ E) as [HA _]. case_decide as Hd; [|done]. destruct Hd as [<- <-].
    simpl. intros x [Hx|Hx]%elem_of_union; [by apply elem_of_difference in Hx as [? _]|]. apply HA in Hx as [Hx|Hx]; [done|by destruct (Hno x)].
  - assert (Hb : base (OpAdd h) r db ⊆ {[h]} ∪ db) by (simpl; destruct r; set_solver).
    destruct (F t) as [[[[l' r'] R] A]|] eqn:E; [|done]. destruct (Hok _ _ _ _ _ E) as [HA _]. case_decide as Hd; [|done]. destruct Hd as [<- <-].
    intros x [Hx|Hx]%elem_of_union; [apply elem_of_difference in Hx as [? _]; by apply Hb|]. apply HA in Hx as [Hx|Hx]; [|by destruct (Hno x)].
    injection Hx as <-. apply elem_of_union; left. by apply elem_of_singleton.
Qed.
Lemma play_honest hashf H right F p : script_ok (right_hash hashf H right) False F -> database_honest hashf H right (with_db p (play F)).
Proof.
  intros Hok.
  assert (Hr : forall x, right_hash hashf H right x -> honest hashf H right {[x]}).
  { intros x Hx h fuel fs r Hh Hc. apply elem_of_singleton in Hh as ->. by eapply Hx. }
  split; simpl; intros t h r db x; unfold play.
  - destruct (F t) as [[[[l' r'] R] A]|] eqn:E; [|by left]. destruct (Hok _ _ _ _ _ E) as [HA _]. case_decide as Hd; [|by left]. destruct Hd as [<- <-].
    intros [Hx|Hx]%elem_of_union; [left; by apply elem_of_difference in Hx as [? _]|]. apply HA in Hx as [Hx|Hx]; [done|auto].
  - assert (Hb : forall x, x ∈ base (OpAdd h) r db -> x = h \/ x ∈ db).
    { simpl. intros y Hy. destruct r; [|by right]. apply elem_of_union in Hy as [Hy|Hy]; [left; by apply elem_of_singleton in Hy|by right]. }
    assert (Hb' : x ∈ base (OpAdd h) r db -> x = h \/ x ∈ db \/ honest hashf H right {[x]}) by (intros Hx; apply Hb in Hx as [?|?]; auto).
    destruct (F t) as [[[[l' r'] R] A]|] eqn:E; [|exact Hb']. destruct (Hok _ _ _ _ _ E) as [HA _]. case_decide as Hd; [|exact Hb']. destruct Hd as [<- <-].
    intros [Hx|Hx]%elem_of_union; [apply elem_of_difference in Hx as [? _]; by apply Hb'|]. apply HA in Hx as [Hx|Hx]; [|auto]. injection Hx as <-. by left.
Qed.
Lemma play_keeps others F p : script_ok others True F -> database_keeps (with_db p (play F)).
Proof.
  intros Hok.
  assert (Hb : forall t l r db, base l r db ⊆ play F t l r db).
  { intros t l r db. unfold play. destruct (F t) as [[[[l' r'] R] A]|] eqn:E; [|done]. destruct (Hok _ _ _ _ _ E) as [_ HR]. rewrite (HR I).
    case_decide; [|done]. set_solver. }
  split; [|split]; simpl.
  - intros t h r db. exact (Hb t (OpHas h) r db).
  - intros t h r db x Hx. apply (Hb t (OpAdd h) r db). simpl. destruct r; [apply elem_of_union; by right|done].
  - intros t h db. apply (Hb t (OpAdd h) 0 db). simpl. apply elem_of_union. left. by apply elem_of_singleton.
Qed.

(** The database [C] becomes [C'] in the course of [tr], beginning at time [t], with right
    answers all along. *)
Fixpoint follows (F : script) (tr : list event) (t : nat) (C C' : gset hash) : Prop :=
  match tr with
  | [] => C = C'
  | EvEff _ (OpHash _ _) _ :: tr => follows F tr t C C'
  | EvEff _ (OpHas h) r :: tr => (r = 0 -> h ∉ C) /\ (r = 1 -> h ∈ C) /\ follows F tr (S t) (play F t (OpHas h) r C) C'
  | EvEff _ (OpAdd h) r :: tr => follows F tr (S t) (play F t (OpAdd h) r C) C'
  | EvEff _ _ _ :: tr => follows F tr (S t) C C'
  | _ :: tr => follows F tr t C C'
  end.
Lemma follows_ext F F' tr : forall t C C', (forall u, t <= u -> F' u = F u) -> follows F tr t C C' -> follows F' tr t C C'.
Proof.
  induction tr as [|ev tr IH]; intros t C C' HF Hf; [exact Hf|].
  assert (IHS : forall C, follows F tr (S t) C C' -> follows F' tr (S t) C C') by (intros C1; apply IH; intros; apply HF; lia).
  assert (HP : forall l r, play F' t l r C = play F t l r C) by (intros; unfold play; by rewrite HF).
  destruct ev as [| | | | |g lb r| | |]; simpl in *; try (by apply (IH t)).
  destruct lb as [b o|x|x|o n|n]; simpl in *; [by apply (IH t)|rewrite HP; destruct Hf as (H1 & H2 & H3); auto|rewrite HP; auto|auto|auto].
Qed.

(** What [follows] means. *)
Lemma follows_after F p tr : forall σ C', follows F tr (e_time σ) (e_db σ) C' ->
  e_db (after (with_db p (play F)) σ tr) = C' /\
  forall l1 g h r l2, tr = l1 ++ EvEff g (OpHas h) r :: l2 ->
    (r = 0 -> h ∉ e_db (after (with_db p (play F)) σ l1)) /\ (r = 1 -> h ∈ e_db (after (with_db p (play F)) σ l1)).
Proof.
  induction tr as [|ev tr IH]; intros σ C' Hf.
  - split; [exact Hf|]. intros [|] ? ? ? ? ?; done.
  - assert (Hn : follows F tr (e_time (after_event (with_db p (play F)) σ ev)) (e_db (after_event (with_db p (play F)) σ ev)) C').
    { destruct ev as [| | | | |g lb r| | |]; simpl in *; try exact Hf. destruct lb; simpl in *; try exact Hf. by destruct Hf as (_ & _ & Hf). }
    destruct (IH _ _ Hn) as [H1 H2]. split; [exact H1|]. intros [|ev' l1] g h r l2 E.
    + injection E as -> ->. simpl. simpl in Hf. destruct Hf as (Ha & Hb & _). split; assumption.
    + injection E as <- ->. exact (H2 l1 g h r l2 eq_refl).
Qed.

Section main.
  Context (code : string -> hash) (Hcode : Inj (=) (=) code) (K : Prop) (others : hash -> Prop).

  Lemma play_at F t l r C C1 : F t = Some (l, r, base l r C ∖ C1, C1 ∖ base l r C) -> play F t l r C = C1.
  Proof.
    intros E. unfold play. rewrite E, decide_True by done. apply set_eq. intros x. rewrite elem_of_union, !elem_of_difference.
    destruct (decide (x ∈ base l r C)), (decide (x ∈ C1)); naive_solver.
  Qed.
  Definition put (t : nat) (e : label * nat * gset hash * gset hash) (F : script) : script := fun u => if decide (u = t) then Some e else F u.

  Lemma uses_script tr l : uses code others tr l -> forall C C' t, path code K C l C' ->
    exists C0 F, (forall x, x ∈ C0 -> x ∈ C \/ others x) /\ (K -> C ⊆ C0) /\ script_ok others K F /\ follows F tr t C0 C'.
  Proof.
    assert (Hop : forall (C C1 C0 : gset hash) F t l r, is_db l -> (forall x, x ∈ C0 -> x ∈ C1 \/ others x) -> (K -> C1 ⊆ C0) ->
      (forall x, x ∈ C1 -> x ∈ C \/ l = OpAdd x) -> (K -> base l r C ⊆ C1) -> script_ok others K F ->
      exists F', script_ok others K F' /\ (forall u, S t <= u -> F' u = F u) /\ play F' t l r C = C0).
    { clear l tr. intros C C1 C0 F t l r Hl H0 HK0 H1 HK1 HF. exists (put t (l, r, base l r C ∖ C0, C0 ∖ base l r C) F).
      split; [|split].
      - intros u l' r' R A. unfold put. case_decide as Hd; [|by apply HF]. intros [= <- <- <- <-]. split.
        + intros x Hx. apply elem_of_difference in Hx as [Hx Hn]. apply H0 in Hx as [Hx|Hx]; [|by right]. apply H1 in Hx as [Hx|Hx]; [|by left].
          destruct Hn. destruct l as [b o|h|h|o n|n]; simpl; try done. destruct r; [apply elem_of_union; by right|done].
        + intros HK. specialize (HK0 HK). specialize (HK1 HK). apply set_eq. intros x. split; [|by intros ?%elem_of_empty].
          intros Hx. apply elem_of_difference in Hx as [Hx Hn]. destruct Hn. by apply HK0, HK1.
      - intros u Hu. unfold put. rewrite decide_False by lia. done.
      - apply play_at. unfold put. by rewrite decide_True. }
    induction 1 as [|ev tr0 l0 Hev _ IH|g x r u b tr0 l0 Hb1 Hb2 _ IH|g x r now tr0 l0 _ IH|g h r tr0 l0 Hr _ IH|g h r tr0 l0 Hr _ IH|k now tr0 l0 _ IH|x u b tr0 l0 _ IH|x now tr0 l0 Ho _ IH];
      intros C C' t Hp.
    - inversion Hp; subst. exists C', (fun _ => None). split; [by left|]. split; [done|]. split; [done|done].
    - destruct ev as [| | | | |g lb r| | |]; try (destruct (IH C C' t Hp) as (C0 & F & ? & ? & ? & ?); exists C0, F; by split_and!).
      specialize (Hev _ _ _ eq_refl). destruct lb as [b o|h|h|o n|n]; try (by destruct Hev);
        [destruct (IH C C' t Hp) as (C0 & F & ? & ? & ? & ?)|destruct (IH C C' (S t) Hp) as (C0 & F & ? & ? & ? & ?)..]; exists C0, F; by split_and!.
    - inversion Hp as [|? ? ? ? ? ? Hb Hp'| |]; subst. destruct (IH C C' (S t) Hp') as (C0 & F & H0 & HK & HF & Hf).
      destruct (Hop C C C0 F t (OpHas (code x)) r I H0 HK ltac:(by left) ltac:(done) HF) as (F' & HF' & He & HP).
      exists C, F'. split; [by left|]. split; [done|]. split; [done|]. simpl. split; [|split].
      + intros -> Hin. apply Hb in Hin. by apply Hb1.
      + intros ->. apply Hb. destruct b; [done|]. by destruct (Hb2 eq_refl).
      + rewrite HP. eapply follows_ext; [|exact Hf]. exact He.
    - inversion Hp as [| |? ? ? ? ? Hp'|]; subst. destruct (IH _ C' (S t) Hp') as (C0 & F & H0 & HK & HF & Hf).
      destruct (Hop C _ C0 F t (OpAdd (code x)) r I H0 HK) as (F' & HF' & He & HP); [| |done|].
      { intros y Hy. apply elem_of_union in Hy as [Hy|Hy]; [|by left]. apply elem_of_singleton in Hy as ->. by right. }
      { intros _. simpl. destruct r; [done|]. set_solver. }
      exists C, F'. split; [by left|]. split; [done|]. split; [done|]. simpl. rewrite HP. eapply follows_ext; [|exact Hf]. exact He.
    - destruct (IH C C' (S t) Hp) as (C0 & F & H0 & HK & HF & Hf).
      destruct (Hop C C C0 F t (OpHas h) r I H0 HK ltac:(by left) ltac:(done) HF) as (F' & HF' & He & HP).
      exists C, F'. split; [by left|]. split; [done|]. split; [done|]. simpl. split; [lia|]. split; [lia|].
      rewrite HP. eapply follows_ext; [|exact Hf]. exact He.
    - destruct (IH C C' (S t) Hp) as (C0 & F & H0 & HK & HF & Hf).
      destruct (Hop C C C0 F t (OpAdd h) r I H0 HK ltac:(by left)) as (F' & HF' & He & HP); [|done|].
      { intros _. simpl. by destruct r. }
      exists C, F'. split; [by left|]. split; [done|]. split; [done|]. simpl. rewrite HP. eapply follows_ext; [|exact Hf]. exact He.
    - inversion Hp as [| | |? ? ? C1 ? ? Hs HK1 Hp']; subst. destruct (IH C1 C' t Hp') as (C0 & F & H0 & HK & HF & Hf). exists C0, F.
      split; [|split; [|by split]].
      + intros x Hx. apply H0 in Hx as [Hx|Hx]; [|by right]. left. by apply Hs.
      + intros HKK. etrans; [by apply HK1|by apply HK].
    - inversion Hp; subst. by apply IH.
    - inversion Hp as [| |? ? ? ? ? Hp'|]; subst. destruct (IH _ C' t Hp') as (C0 & F & H0 & HK & HF & Hf). exists C0, F.
      split; [|split; [|by split]].
      + intros y Hy. apply H0 in Hy as [Hy|Hy]; [|by right]. apply elem_of_union in Hy as [Hy|Hy]; [|by left]. apply elem_of_singleton in Hy as ->. by right.
      + intros HKK. specialize (HK HKK). set_solver.
  Qed.
End main.
