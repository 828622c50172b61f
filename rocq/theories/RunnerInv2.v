(** More invariants of the runner machine: wait groups, the [ran] map, parents, depth. *)
From stdpp Require Import base gmap list strings.
From Verif Require Import ContextModel RunnerModel RunnerSteps RunnerInv.

(** ** Counting *)
Fixpoint countb {A} (f : A -> bool) (l : list A) : nat :=
  match l with
  | [] => 0
  | x :: l => (if f x then 1 else 0) + countb f l
  end.

Lemma countb_app {A} (f : A -> bool) l1 l2 : countb f (l1 ++ l2) = countb f l1 + countb f l2.
Proof. induction l1; simpl; lia. Qed.

Lemma countb_alter {A} (f : A -> bool) h i (l : list A) x :
  l !! i = Some x ->
  countb f (alter h i l) + (if f x then 1 else 0) = countb f l + (if f (h x) then 1 else 0).
Proof.
  revert i. induction l as [|y l IH]; intros [|i] H; simpl in *; simplify_eq; [lia|].
  specialize (IH _ H). unfold alter in IH. lia.
Qed.

Lemma countb_zero {A} (f : A -> bool) (l : list A) i x :
  countb f l = 0 -> l !! i = Some x -> f x = false.
Proof.
  revert i. induction l as [|y l IH]; intros [|i] H Hx; simpl in *; simplify_eq.
  - destruct (f x); [lia|done].
  - destruct (f y); [lia|]. eauto.
Qed.

Lemma countb_pos {A} (f : A -> bool) (l : list A) :
  0 < countb f l -> exists i x, l !! i = Some x /\ f x = true.
Proof.
  induction l as [|y l IH]; simpl; [lia|].
  destruct (f y) eqn:E; [by exists 0, y|].
  intros H. destruct IH as (i & x & H1 & H2); [lia|]. by exists (S i), x.
Qed.

Lemma countb_alter_same {A} (f : A -> bool) h i (l : list A) :
  (forall x, l !! i = Some x -> f (h x) = f x) -> countb f (alter h i l) = countb f l.
Proof.
  intros Hh. destruct (l !! i) as [x|] eqn:E.
  - pose proof (countb_alter f h i l x E) as H. rewrite Hh in H by done. lia.
  - assert (alter h i l = l) as ->; [|done].
    apply list_eq. intros j. destruct (decide (i = j)) as [->|].
    + by rewrite list_lookup_alter, E.
    + by rewrite list_lookup_alter_ne.
Qed.

Lemma countb_none {A} (f : A -> bool) (l : list A) :
  (forall i x, l !! i = Some x -> f x = false) -> countb f l = 0.
Proof.
  induction l as [|y l IH]; intros H; simpl; [done|].
  rewrite (H 0 y) by done. simpl. apply IH. intros i x Hx. by apply (H (S i)).
Qed.

Definition g_done (gr : gor) : bool := match g_st gr with GDone => true | _ => false end.
Definition live_of (c : nat) (gr : gor) : bool :=
  bool_decide (g_call gr = c) && negb (g_done gr).

(** The wait group of a call counts its unfinished goroutines. *)
Definition inv_wg (s : state) : Prop :=
  forall c cl, s_calls s !! c = Some cl -> c_wg cl = countb (live_of c) (s_gors s).

Lemma live_of_set_gst c gr st :
  g_done gr = false -> live_of c (set_gst st gr) =
    (live_of c gr && (match st with GDone => false | _ => true end)).
Proof.
  unfold live_of, g_done. intros H. simpl. rewrite H.
  destruct st; simpl; by destruct (bool_decide _).
Qed.

Lemma countb_live_upd c gr g st (l : list gor) :
  l !! g = Some gr -> g_done gr = false -> st <> GDone ->
  countb (live_of c) (alter (set_gst st) g l) = countb (live_of c) l.
Proof.
  intros Hg Hd Hst. apply countb_alter_same. intros x Hx. simplify_eq.
  rewrite live_of_set_gst by done. destruct st; try done; by rewrite andb_true_r.
Qed.

Lemma inv_wg_holds w s : reachable w s -> inv_wg s.
Proof.
  revert s. apply reachable_ind; [done|].
  intros s ch s' Hre IH Hstep c0 cl0 Hc0.
  apply inv_link_holds in Hre as Hli.
  assert (Hnew : countb (live_of (length (s_calls s))) (s_gors s) = 0).
  { apply countb_none. intros g gr Hg. destruct (Hli _ _ Hg) as (cl & _ & Hc & _).
    apply lookup_lt_Some in Hc. unfold live_of. rewrite bool_decide_eq_false_2 by lia. done. }
  destruct Hstep; proj;
    try (erewrite countb_live_upd; [|done|unfold g_done;
            match goal with Hx : g_st _ = _ |- _ => rewrite Hx end; done|done]);
    inv_lookups; try done; try (by apply IH); try (by apply IH in H).
  - (* spawn, this call *)
    rewrite countb_app. simpl. unfold live_of at 2. simpl. rewrite bool_decide_eq_true_2 by done.
    simpl. apply IH in H. lia.
  - rewrite countb_app. simpl. unfold live_of at 2. simpl. rewrite bool_decide_eq_false_2 by done.
    simpl. apply IH in Hc0. lia.
  - apply IH in H1. pose proof (countb_alter (live_of (g_call gr)) (set_gst GDone) g _ _ H) as Hx.
    rewrite live_of_set_gst in Hx by (unfold g_done; by rewrite H0).
    rewrite andb_false_r in Hx.
    assert (live_of (g_call gr) gr = true) as Hy.
    { unfold live_of, g_done. rewrite H0, bool_decide_eq_true_2; done. }
    rewrite Hy in Hx. lia.
  - apply IH in Hc0. rewrite Hc0. symmetry. apply countb_alter_same. intros x Hx. simplify_eq.
    unfold live_of. simpl. rewrite bool_decide_eq_false_2 by done. done.
Qed.

Lemma wg_zero_done w s c cl g gr :
  reachable w s -> s_calls s !! c = Some cl -> c_wg cl = 0 ->
  s_gors s !! g = Some gr -> g_call gr = c -> g_st gr = GDone.
Proof.
  intros Hre Hc Hw Hg Hgc. apply inv_wg_holds in Hre. rewrite (Hre _ _ Hc) in Hw.
  pose proof (countb_zero _ _ _ _ Hw Hg) as H. unfold live_of in H.
  rewrite bool_decide_eq_true_2 in H by done. unfold g_done in H. simpl in H.
  by destruct (g_st gr).
Qed.

(** ** Parents *)

(** Every call of the new state is an old one, or was just made. *)
Lemma call_step_inv w s ch s' c cl' :
  tstep w s ch s' -> s_calls s' !! c = Some cl' ->
  (exists cl, s_calls s !! c = Some cl /\ c_parent cl' = c_parent cl /\ c_cx cl' = c_cx cl /\
     c_targets cl' = c_targets cl /\
     (c_st cl' = c_st cl \/
      (exists i todo, ch = ChLoop c /\ c_st cl = CLoop i todo /\ forall e, c_st cl' <> CReturned e) \/
      (ch = ChReturn c /\ c_st cl = CWaiting /\ c_wg cl = 0 /\ c_errs cl' = c_errs cl /\
       c_wg cl' = 0 /\ c_st cl' = CReturned (join (c_errs cl))))) \/
  (exists p cx ts, c = length (s_calls s) /\
     cl' = {| c_parent := p; c_cx := cx; c_targets := ts;
              c_errs := replicate (length ts) None; c_wg := 0; c_st := CLoop 0 ts |} /\
     s_calls s' = s_calls s ++ [cl'] /\
     ((p = None /\ ch = ChRun cx ts) \/
      (exists g r gr k, p = Some g /\ ch = ChGo g r /\ s_gors s !! g = Some gr /\
         g_st gr = GBody (Call cx ts k) /\
         s_gors s' = alter (set_gst (GCalling c k)) g (s_gors s)))).
Proof.
  intros Hstep Hc.
  destruct Hstep; proj; inv_lookups;
    try (left; eexists; split; [done|]; proj; split_and!; try done; naive_solver).
  - right. eexists None, _, _. split_and!; try done. eauto.
  - right. eexists _, _, _. split_and!; try done. eauto 10.
Qed.

(** A goroutine inside a nested Run does not move until that Run returns. *)
Lemma calling_step w s ch s' g gr c k :
  tstep w s ch s' -> s_gors s !! g = Some gr -> g_st gr = GCalling c k ->
  s_gors s' !! g = Some gr \/
  (ch = ChReturn c /\ exists cl, s_calls s !! c = Some cl /\ c_parent cl = Some g /\
     c_st cl = CWaiting /\ c_wg cl = 0 /\
     s_gors s' = alter (set_gst (GBody (k (join (c_errs cl))))) g (s_gors s) /\
     s_gors s' !! g = Some (set_gst (GBody (k (join (c_errs cl)))) gr)).
Proof.
  intros Hstep Hg Hst.
  destruct Hstep; proj; try (by left);
    lazymatch goal with
    | |- (_ ++ _) !! _ = _ \/ _ => left; rewrite lookup_app_l by (by eapply lookup_lt_Some); done
    | |- alter _ ?g' _ !! _ = _ \/ _ =>
        destruct (decide (g = g')) as [->|Hne];
          [simplify_eq; try congruence|left; rewrite list_lookup_alter_ne by done; done]
    end.
  right. split; [congruence|]. exists cl. split_and!; try congruence.
  rewrite list_lookup_alter.
  match goal with Hx : s_gors s !! _ = Some _ |- _ => rewrite Hx end. simpl. congruence.
Qed.

Definition inv_parent (s : state) : Prop :=
  (forall c cl g, s_calls s !! c = Some cl -> c_parent cl = Some g ->
     (forall e, c_st cl <> CReturned e) ->
     exists gr k, s_gors s !! g = Some gr /\ g_st gr = GCalling c k) /\
  (forall g gr c k, s_gors s !! g = Some gr -> g_st gr = GCalling c k ->
     exists cl, s_calls s !! c = Some cl /\ c_parent cl = Some g /\
       forall e, c_st cl <> CReturned e).

Lemma inv_parent_holds w s : reachable w s -> inv_parent s.
Proof.
  revert s. apply reachable_ind; [done|].
  intros s ch s' Hre (IH1 & IH2) Hstep.
  apply inv_shape_holds in Hre as Hsh.
  split.
  - intros c0 cl0 g0 Hc0 Hp Hnr.
    destruct (call_step_inv _ _ _ _ _ _ Hstep Hc0)
      as [(cl & Hc & Hp' & _ & _ & Hst)|(p & cx & ts & -> & -> & Hcs & Hch)].
    + destruct (IH1 c0 cl g0) as (gr & k & Hg & Hk); [done|congruence| |].
      { intros e He. destruct Hst as [Hst|[(i & todo & _ & Hst & _)|(_ & Hst & _)]]; try congruence. }
      destruct (calling_step _ _ _ _ _ _ _ _ Hstep Hg Hk) as [Hg'|(-> & Hx)]; [by eauto|].
      exfalso. destruct Hx as (cl2 & Hc2 & Hp2 & Hst2 & Hw2 & _). simplify_eq.
      destruct Hst as [Hst|[(i & todo & ? & _)|Hst]]; try done.
      * assert (Hx : exists cl', s_calls s' !! c0 = Some cl' /\ c_st cl' = CReturned (join (c_errs cl))).
        { clear -Hstep Hc. inversion Hstep; subst; proj; rewrite list_lookup_alter, Hc; simpl;
            simplify_eq; eauto. }
        destruct Hx as (cl' & Hx1 & Hx2). simplify_eq. by eapply Hnr.
      * destruct Hst as (_ & _ & _ & _ & _ & Hst). by eapply Hnr.
    + simpl in Hp. destruct Hch as [[-> _]|(g & r & gr & k & -> & -> & Hg & Hst & Hgs)]; [done|].
      simplify_eq. rewrite Hgs, list_lookup_alter, Hg. simpl. eauto.
  - intros g0 gr0 c0 k0 Hg0 Hk0.
    assert (Hold : forall gr, s_gors s !! g0 = Some gr -> g_st gr = GCalling c0 k0 ->
      s_gors s' !! g0 = Some gr ->
      exists cl, s_calls s' !! c0 = Some cl /\ c_parent cl = Some g0 /\
       forall e, c_st cl <> CReturned e).
    { intros gr Hg Hst Hg'. simplify_eq.
      destruct (IH2 _ _ _ _ Hg Hst) as (cl & Hc & Hp & Hr).
      destruct (call_step _ _ _ _ _ _ Hsh Hstep Hc) as (cl' & Hc' & Hp' & _).
      exists cl'. split_and!; [done|congruence|].
      destruct (call_step_inv _ _ _ _ _ _ Hstep Hc')
        as [(cl2 & Hc2 & _ & _ & _ & [Hs|[(i & todo & _ & _ & Hs)|(-> & Hs & Hw & _)]])|(p & cx & ts & -> & _)].
      - simplify_eq. by rewrite Hs.
      - done.
      - simplify_eq. exfalso.
        inversion Hstep; subst; simplify_eq. proj.
        rewrite list_lookup_alter, Hg in Hg0. simpl in Hg0. injection Hg0 as Hg0.
        rewrite <-Hg0 in Hst. done.
      - apply lookup_lt_Some in Hc. lia. }
    destruct (gor_step_inv _ _ _ _ _ _ Hstep Hg0)
      as [(gr & Hgr & E)|(c & cl & i & o & todo & ca & _ & _ & _ & _ & _ & _ & _ & E)];
      [|rewrite E in Hk0; done].
    destruct Hstep; proj; inv_lookups; try (by eapply Hold);
      try (eapply Hold; [done|done|]; by rewrite list_lookup_alter_ne by done).
    + eapply Hold; [done|done|]. by rewrite lookup_app_l.
    + eexists. rewrite list_lookup_middle by done. done.
Qed.

(** ** Depth *)
Definition c_active (cl : call) : bool :=
  match c_st cl with CReturned _ => false | _ => true end &&
  negb (bool_decide (c_targets cl = [])).

Definition inv_depth (s : state) : Prop := s_depth s = Z.of_nat (countb c_active (s_calls s)).

Lemma c_active_targets cl ts :
  c_targets cl = ts -> c_st cl = CWaiting -> c_active cl = negb (bool_decide (ts = [])).
Proof. intros <- H. unfold c_active. by rewrite H. Qed.

Lemma maybe_dec_depth ts s :
  s_depth ((if decide (ts = ([] : list tref)) then id else dec_depth) s) =
  if decide (ts = []) then s_depth s else (Z.max 0 (s_depth s - 1))%Z.
Proof.
  destruct (decide (ts = [])); [done|]. simpl.
  destruct (Z.ltb_spec (s_depth s - 1) 0); lia.
Qed.

Lemma inv_depth_holds w s : reachable w s -> inv_depth s.
Proof.
  revert s. apply reachable_ind; [done|].
  intros s ch s' Hre IH Hstep. unfold inv_depth in *.
  destruct Hstep; proj; rewrite ?begin_call_depth, ?maybe_dec_depth; proj; rewrite ?countb_app; simpl;
    try (rewrite countb_alter_same; [done|]; intros x Hx; simplify_eq;
         unfold c_active; simpl; by rewrite ?H0); try done.
  - unfold c_active at 2. simpl. destruct (decide (ts = [])) as [->|Hne]; simpl.
    + lia.
    + rewrite bool_decide_eq_false_2 by done. simpl. lia.
  - pose proof (countb_alter c_active (set_cst (CReturned (join (c_errs cl)))) c _ _ H) as Hx.
    rewrite (c_active_targets _ _ eq_refl H0) in Hx.
    unfold c_active at 3 in Hx. simpl in Hx.
    destruct (decide (c_targets cl = [])) as [Hts|Hne]; simpl.
    + rewrite bool_decide_eq_true_2 in Hx by done. simpl in Hx. lia.
    + rewrite bool_decide_eq_false_2 in Hx by done. simpl in Hx. lia.
  - pose proof (countb_alter c_active (set_cst (CReturned (join (c_errs cl)))) c _ _ H) as Hx.
    rewrite (c_active_targets _ _ eq_refl H0) in Hx.
    unfold c_active at 3 in Hx. simpl in Hx.
    destruct (decide (c_targets cl = [])) as [Hts|Hne]; simpl.
    + rewrite bool_decide_eq_true_2 in Hx by done. simpl in Hx. lia.
    + rewrite bool_decide_eq_false_2 in Hx by done. simpl in Hx. lia.
  - unfold c_active at 2. simpl. destruct (decide (ts = [])) as [->|Hne]; simpl.
    + lia.
    + rewrite bool_decide_eq_false_2 by done. simpl. lia.
Qed.
