From stdpp Require Import base list numbers list_numbers.
From Verif Require Import GateModel.

Definition holds (p : pc) : bool :=
  match p with
  | SetRead _ | SetBroadcast | SetUnlock | WaitTest | WaitTicket | WaitRelease _ | WaitUnlock => true
  | _ => false
  end.
Definition unnotified (p : pc) : bool :=
  match p with WaitRelease false | WaitSleep false => true | _ => false end.

Record inv (g : gate) : Prop := {
  inv_lock : forall i p, g_calls g !! i = Some p -> holds p = true -> g_lock g = Some i;
  inv_held : forall i, g_lock g = Some i -> exists p, g_calls g !! i = Some p /\ holds p = true;
  inv_wake : forall i p, g_open g = true -> g_calls g !! i = Some p -> unnotified p = true ->
              exists j, g_calls g !! j = Some SetBroadcast;
  inv_pass : forall i, g_calls g !! i = Some WaitUnlock -> g_open g = true;
  inv_bc : forall i, g_calls g !! i = Some SetBroadcast -> g_open g = true;
  inv_tick : forall i, g_calls g !! i = Some WaitTicket -> g_open g = false;
}.

Lemma new_inv open : inv (newGate open).
Proof. split; simpl; intros; try done. Qed.

Lemma call_inv p g : holds p = false -> unnotified p = false -> inv g -> inv (call p g).
Proof.
  intros Hp Hn [I1 I2 I3 I4 I5 I6].
  assert (Hl : forall i q, g_calls (call p g) !! i = Some q -> holds q = true \/ unnotified q = true ->
                 g_calls g !! i = Some q).
  { intros i q. simpl. intros [?|[? H]]%lookup_app_Some Hq; [done|].
    apply list_lookup_singleton_Some in H as [_ ->]. destruct Hq; congruence. }
  assert (Hr : forall i q, g_calls g !! i = Some q -> g_calls (call p g) !! i = Some q).
  { intros i q H. simpl. rewrite lookup_app_l; [done|]. by eapply lookup_lt_Some. }
  split; simpl in *.
  - intros i q H Hq. eapply I1; [|done]. eapply Hl; eauto.
  - intros i H. destruct (I2 i H) as (q & ? & ?). exists q. split; [by apply Hr|done].
  - intros i q Ho H Hq. destruct (I3 i q Ho) as [j Hj]; [eapply Hl; eauto|done|]. exists j. by apply Hr.
  - intros i H. eapply I4. eapply Hl; eauto.
  - intros i H. eapply I5. eapply Hl; eauto.
  - intros i H. eapply I6. eapply Hl; eauto.
Qed.

Lemma lookup_at i p g j q :
  g_calls (at_pc i p g) !! j = Some q <-> (j = i /\ q = p /\ i < length (g_calls g)) \/ (j <> i /\ g_calls g !! j = Some q).
Proof.
  simpl. destruct (decide (j = i)) as [->|Hne].
  - split.
    + intros H. assert (i < length (g_calls g)).
      { apply lookup_lt_Some in H. by rewrite insert_length in H. }
      rewrite list_lookup_insert in H by done. left. by simplify_eq.
    + intros [(_ & -> & ?)|[? ?]]; [|done]. by apply list_lookup_insert.
  - rewrite list_lookup_insert_ne by done. naive_solver.
Qed.

Lemma notify_lookup g i q : g_calls (broadcast g) !! i = Some q ->
  exists p, g_calls g !! i = Some p /\ q = notify p.
Proof. simpl. rewrite list_lookup_fmap. intros (p & ? & ->)%fmap_Some. eauto. Qed.

Ltac at_cases :=
  repeat match goal with
  | H : (at_pc _ _ _).(g_calls) !! _ = Some _ |- _ => apply lookup_at in H as [(? & ? & ?)|(? & ?)]; simpl in *
  end; subst; simpl in *; try done.

Lemma go_inv i g g' : inv g -> go i g = Some g' -> inv g'.
Proof.
  intros Hinv H. pose proof Hinv as [I1 I2 I3 I4 I5 I6]. unfold go in H.
  destruct (g_calls g !! i) as [p|] eqn:Ei; simpl in H; [|done].
  pose proof (lookup_lt_Some _ _ _ Ei) as Hlt.
  assert (Huniq : holds p = true -> forall j q, g_calls g !! j = Some q -> holds q = true -> j = i).
  { intros Hp j q Hj Hq. pose proof (I1 _ _ Ei Hp). pose proof (I1 _ _ Hj Hq). congruence. }
  destruct p; simplify_eq.
  - (* SetLock *)
    destruct (g_lock g) eqn:El; [done|]. simplify_eq. split.
    + intros j q Hj Hq. at_cases. by specialize (I1 _ _ H0 Hq).
    + intros j Hj. simpl in Hj. simplify_eq. exists (SetRead v). split; [|done]. apply lookup_at. auto.
    + intros j q Ho Hj Hq. at_cases. destruct (I3 j q Ho H0 Hq) as [k Hk]. exists k. apply lookup_at.
      right. simpl. split; [|done]. intros ->. congruence.
    + intros j Hj. at_cases. eauto.
    + intros j Hj. at_cases. eauto.
    + intros j Hj. at_cases. eauto.
  - (* SetRead *)
    specialize (Huniq eq_refl). split.
    + intros j q Hj Hq. at_cases; [by eapply I1|]. destruct (Huniq _ _ H0 Hq). done.
    + intros j Hj. simpl in Hj. pose proof (I1 _ _ Ei eq_refl). simplify_eq. eexists.
      split; [apply lookup_at; by left|]. by destruct (v && negb (g_open g)).
    + intros j q Ho Hj Hq. at_cases.
      * by destruct (g_open g).
      * destruct (g_open g) eqn:Eo; simpl.
        -- destruct (I3 j q eq_refl H0 Hq) as [k Hk]. destruct (Huniq _ _ Hk eq_refl). congruence.
        -- exists i. apply lookup_at. by left.
    + intros j Hj. at_cases; [by destruct (v && negb (g_open g))|]. destruct (Huniq _ _ H0 eq_refl). done.
    + intros j Hj. at_cases; [by destruct v|]. destruct (Huniq _ _ H0 eq_refl). done.
    + intros j Hj. at_cases; [by destruct (v && negb (g_open g))|]. destruct (Huniq _ _ H0 eq_refl). done.
  - (* SetBroadcast *)
    specialize (Huniq eq_refl).
    assert (Hn : forall p, holds (notify p) = holds p) by (by intros []).
    split.
    + intros j q Hj Hq. apply lookup_at in Hj as [(-> & -> & _)|(Hne & Hj)]; [by eapply I1|].
      apply notify_lookup in Hj as (p & Hj & ->). rewrite Hn in Hq. destruct (Huniq _ _ Hj Hq). done.
    + intros j Hj. simpl in Hj. pose proof (I1 _ _ Ei eq_refl). simplify_eq. exists SetUnlock.
      split; [|done]. apply lookup_at. left. split; [done|]. split; [done|]. simpl. by rewrite fmap_length.
    + intros j q Ho Hj Hq. apply lookup_at in Hj as [(-> & -> & _)|(Hne & Hj)]; [done|].
      apply notify_lookup in Hj as (p & Hj & ->). by destruct p as [| | | | | | |[]|[]| | | |].
    + intros j Hj. apply lookup_at in Hj as [(-> & ? & _)|(Hne & Hj)]; [done|].
      apply notify_lookup in Hj as (p & Hj & Hp). destruct p; try done. by eapply I4.
    + intros j Hj. apply lookup_at in Hj as [(-> & ? & _)|(Hne & Hj)]; [done|].
      apply notify_lookup in Hj as (p & Hj & Hp). destruct p; try done. by eapply I5.
    + intros j Hj. apply lookup_at in Hj as [(-> & ? & _)|(Hne & Hj)]; [done|].
      apply notify_lookup in Hj as (p & Hj & Hp). destruct p; try done. by eapply I6.
  - (* SetUnlock *)
    specialize (Huniq eq_refl). split.
    + intros j q Hj Hq. at_cases. destruct (Huniq _ _ H0 Hq). done.
    + done.
    + intros j q Ho Hj Hq. at_cases. destruct (I3 j q Ho H0 Hq) as [k Hk].
      destruct (Huniq _ _ Hk eq_refl). congruence.
    + intros j Hj. at_cases. eauto.
    + intros j Hj. at_cases. eauto.
    + intros j Hj. at_cases. eauto.
  - (* WaitLock *)
    destruct (g_lock g) eqn:El; [done|]. simplify_eq. split.
    + intros j q Hj Hq. at_cases. by specialize (I1 _ _ H0 Hq).
    + intros j Hj. simpl in Hj. simplify_eq. exists WaitTest. split; [|done]. apply lookup_at. auto.
    + intros j q Ho Hj Hq. at_cases. destruct (I3 j q Ho H0 Hq) as [k Hk]. exists k. apply lookup_at.
      right. simpl. split; [|done]. intros ->. congruence.
    + intros j Hj. at_cases. eauto.
    + intros j Hj. at_cases. eauto.
    + intros j Hj. at_cases. eauto.
  - (* WaitTest *)
    specialize (Huniq eq_refl). split.
    + intros j q Hj Hq. at_cases; [by eapply I1|]. destruct (Huniq _ _ H0 Hq). done.
    + intros j Hj. simpl in Hj. pose proof (I1 _ _ Ei eq_refl). simplify_eq. eexists.
      split; [apply lookup_at; by left|]. by destruct (g_open g).
    + intros j q Ho Hj Hq. at_cases; [by rewrite Ho in Hq|]. destruct (I3 j q Ho H0 Hq) as [k Hk]. exists k.
      apply lookup_at. right. simpl. split; [|done]. intros ->. congruence.
    + intros j Hj. at_cases; [by destruct (g_open g)|]. eauto.
    + intros j Hj. at_cases; [by destruct (g_open g)|]. eauto.
    + intros j Hj. at_cases; [by destruct (g_open g)|]. eauto.
  - (* WaitTicket *)
    specialize (Huniq eq_refl). split.
    + intros j q Hj Hq. at_cases; [by eapply I1|]. destruct (Huniq _ _ H0 Hq). done.
    + intros j Hj. simpl in Hj. pose proof (I1 _ _ Ei eq_refl). simplify_eq. eexists.
      split; [apply lookup_at; by left|]. done.
    + intros j q Ho Hj Hq. simpl in Ho. pose proof (I6 _ Ei). congruence.
    + intros j Hj. at_cases. eauto.
    + intros j Hj. at_cases. eauto.
    + intros j Hj. at_cases. eauto.
  - (* WaitRelease *)
    specialize (Huniq eq_refl). split.
    + intros j q Hj Hq. at_cases. destruct (Huniq _ _ H0 Hq). done.
    + done.
    + intros j q Ho Hj Hq. simpl in Ho.
      assert (exists k, g_calls g !! k = Some SetBroadcast) as [k Hk].
      { at_cases; [|by eapply I3]. by eapply (I3 i). }
      destruct (Huniq _ _ Hk eq_refl). congruence.
    + intros j Hj. at_cases. eauto.
    + intros j Hj. at_cases. eauto.
    + intros j Hj. at_cases. eauto.
  - (* WaitSleep *)
    destruct n; [|done]. simplify_eq. split.
    + intros j q Hj Hq. at_cases. eauto.
    + intros j Hj. simpl in Hj. destruct (I2 _ Hj) as (q & Hq & ?). exists q. split; [|done].
      apply lookup_at. right. split; [|done]. intros ->. by simplify_eq.
    + intros j q Ho Hj Hq. at_cases. destruct (I3 j q Ho H0 Hq) as [k Hk]. exists k.
      apply lookup_at. right. split; [|done]. intros ->. congruence.
    + intros j Hj. at_cases. eauto.
    + intros j Hj. at_cases. eauto.
    + intros j Hj. at_cases. eauto.
  - (* WaitRelock *)
    destruct (g_lock g) eqn:El; [done|]. simplify_eq. split.
    + intros j q Hj Hq. at_cases. by specialize (I1 _ _ H0 Hq).
    + intros j Hj. simpl in Hj. simplify_eq. exists WaitTest. split; [|done]. apply lookup_at. auto.
    + intros j q Ho Hj Hq. at_cases. destruct (I3 j q Ho H0 Hq) as [k Hk]. exists k. apply lookup_at.
      right. simpl. split; [|done]. intros ->. congruence.
    + intros j Hj. at_cases. eauto.
    + intros j Hj. at_cases. eauto.
    + intros j Hj. at_cases. eauto.
  - (* WaitUnlock *)
    specialize (Huniq eq_refl). split.
    + intros j q Hj Hq. at_cases. destruct (Huniq _ _ H0 Hq). done.
    + done.
    + intros j q Ho Hj Hq. at_cases. destruct (I3 j q Ho H0 Hq) as [k Hk].
      destruct (Huniq _ _ Hk eq_refl). congruence.
    + intros j Hj. at_cases. eauto.
    + intros j Hj. at_cases. eauto.
    + intros j Hj. at_cases. eauto.
Qed.

Lemma step_inv g c g' : inv g -> step g c = Some g' -> inv g'.
Proof.
  intros H Hs. destruct c; simpl in Hs; simplify_eq.
  - by apply call_inv.
  - by apply call_inv.
  - by eapply go_inv.
Qed.
Lemma run_inv g cs g' : inv g -> run g cs = Some g' -> inv g'.
Proof.
  revert g. induction cs as [|c cs IH]; simpl; intros g H Hr; [by simplify_eq|].
  destruct (step g c) as [g1|] eqn:E; simpl in Hr; [|done]. eapply IH; [|done]. by eapply step_inv.
Qed.
Lemma reachable_inv open g : reachable open g -> inv g.
Proof. intros [cs H]. eapply run_inv; [apply new_inv|done]. Qed.

(** ** Safety: wait returns only while the gate is open. *)
Lemma wait_returns_open open g i g' :
  reachable open g -> step g (Go i) = Some g' ->
  g_calls g !! i <> Some WaitDone -> g_calls g' !! i = Some WaitDone -> g_open g = true /\ g_open g' = true.
Proof.
  intros Hr Hs Hn Hd. pose proof (reachable_inv _ _ Hr) as Hi. simpl in Hs. unfold go in Hs.
  destruct (g_calls g !! i) as [p|] eqn:Ei; simpl in Hs; [|done].
  pose proof (lookup_lt_Some _ _ _ Ei) as Hlt.
  destruct p; simpl in Hs;
    repeat match goal with
    | H : (if ?b then _ else _) = Some _ |- _ => destruct b
    end; simplify_eq;
    apply lookup_at in Hd as [(_ & Hd & _)|[? ?]]; try done;
    try (by repeat case_match).
  simpl. split; by eapply inv_pass.
Qed.

(** ** No lost wake-up. *)
Definition asleep (p : pc) : bool := match p with WaitSleep false => true | _ => false end.

Lemma stuck_lem open g :
  reachable open g -> (forall i, step g (Go i) = None) ->
  forall i p, g_calls g !! i = Some p ->
    p = WaitDone \/ p = SetDone \/ (p = WaitSleep false /\ g_open g = false).
Proof.
  intros Hr Hst. pose proof (reachable_inv _ _ Hr) as [I1 I2 I3 I4 I5 I6].
  assert (Hl : g_lock g = None).
  { destruct (g_lock g) as [j|] eqn:El; [|done]. destruct (I2 j eq_refl) as (p & Hj & Hp).
    specialize (Hst j). simpl in Hst. unfold go in Hst. rewrite Hj in Hst. simpl in Hst. by destruct p. }
  intros i p Hp. pose proof (Hst i) as Hi. simpl in Hi. unfold go in Hi. rewrite Hp, Hl in Hi. simpl in Hi.
  destruct p; try done; auto.
  - destruct n; [done|]. right. right. split; [done|].
    destruct (g_open g) eqn:Eo; [|done]. destruct (I3 i _ eq_refl Hp eq_refl) as [j Hj].
    specialize (I1 _ _ Hj eq_refl). congruence.
Qed.

(** ** Every execution without new calls is finite. *)
Definition weight (n : nat) (p : pc) : nat :=
  match p with
  | SetLock _ => 8 * n + 4
  | SetRead _ => 8 * n + 3
  | SetBroadcast => 8 * n + 2
  | SetUnlock => 1
  | SetDone => 0
  | WaitLock => 7
  | WaitRelock => 7
  | WaitTest => 6
  | WaitTicket => 4
  | WaitRelease b => (if b then 8 else 0) + 3
  | WaitSleep b => (if b then 8 else 0) + 2
  | WaitUnlock => 1
  | WaitDone => 0
  end.
Definition measure (g : gate) : nat := sum_list_with (weight (length (g_calls g))) (g_calls g).

Lemma sum_insert {A} (f : A -> nat) l i x y : l !! i = Some x ->
  sum_list_with f (<[i:=y]> l) + f x = sum_list_with f l + f y.
Proof.
  revert i. induction l as [|z l IH]; intros [|i] H; simpl in *; simplify_eq; try lia.
  specialize (IH i H). lia.
Qed.
Lemma sum_notify n l : sum_list_with (weight n) (notify <$> l) <= sum_list_with (weight n) l + 8 * length l.
Proof.
  induction l as [|p l IH]; [simpl; lia|]. rewrite fmap_cons. cbn [sum_list_with length].
  assert (weight n (notify p) <= weight n p + 8) by (destruct p as [| | | | | | |[]|[]| | | |]; simpl; lia).
  lia.
Qed.

Lemma go_length i g g' : go i g = Some g' -> length (g_calls g') = length (g_calls g).
Proof.
  unfold go. destruct (g_calls g !! i) as [p|] eqn:Ei; simpl; [|done].
  destruct p; simpl; intros; repeat case_match; simplify_eq; simpl; by rewrite insert_length, ?fmap_length.
Qed.

Lemma go_measure i g g' : go i g = Some g' -> measure g' < measure g.
Proof.
  intros H. unfold measure. rewrite (go_length _ _ _ H). unfold go in H.
  destruct (g_calls g !! i) as [p|] eqn:Ei; simpl in H; [|done].
  destruct p; simpl in H;
    repeat match goal with
    | H : (if ?b then _ else _) = Some _ |- _ => destruct b
    end; simplify_eq; simpl;
    try (match goal with |- context [<[i:=?y]> (g_calls g)] =>
           pose proof (sum_insert (weight (length (g_calls g))) _ _ _ y Ei)
         end; simpl in *; repeat case_match; simpl in *; lia).
  - (* broadcast *)
    assert (Hi : (notify <$> g_calls g) !! i = Some SetBroadcast) by (by rewrite list_lookup_fmap, Ei).
    pose proof (sum_insert (weight (length (g_calls g))) _ _ _ SetUnlock Hi).
    pose proof (sum_notify (length (g_calls g)) (g_calls g)).
    simpl in *. lia.
Qed.

Fixpoint only_go (cs : list choice) : Prop :=
  match cs with [] => True | Go _ :: cs => only_go cs | _ => False end.

Lemma bounded_lem g cs g' : only_go cs -> run g cs = Some g' -> length cs + measure g' <= measure g.
Proof.
  revert g. induction cs as [|c cs IH]; simpl; intros g Hg H; [simplify_eq; lia|].
  destruct c as [| |i]; try done.
  destruct (step g (Go i)) as [g1|] eqn:E; simpl in H; [|done].
  specialize (IH g1 Hg H). simpl in E. apply go_measure in E. lia.
Qed.
