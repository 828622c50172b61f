(** Invariants relating the event log to the machine state. *)
From stdpp Require Import base gmap list strings.
From Verif Require Import ContextModel RunnerModel RunnerSteps RunnerInv RunnerInv2 RunnerInv3.

(** A step appends at most one event to the log. *)
Lemma log_step w s ch s' :
  tstep w s ch s' -> s_log s' = s_log s \/ exists ev, s_log s' = s_log s ++ [ev].
Proof. intros H; destruct H; proj; eauto. Qed.

Lemma log_mono w s ch s' ev : tstep w s ch s' -> ev ∈ s_log s -> ev ∈ s_log s'.
Proof.
  intros H Hin. destruct (log_step _ _ _ _ H) as [->|[ev' ->]]; [done|].
  apply elem_of_app; by left.
Qed.

Lemma elem_of_snoc {A} (x y : A) l : x ∈ l ++ [y] <-> x ∈ l \/ x = y.
Proof. rewrite elem_of_app, elem_of_list_singleton. done. Qed.

Lemma reachable_tind (w : world) (P : state -> Prop) :
  P init ->
  (forall s ch s', reachable w s -> P s -> tstep w s ch s' -> reachable w s' -> P s') ->
  forall s, reachable w s -> P s.
Proof.
  intros H0 Hs s [sched Hrun]. revert s Hrun.
  induction sched as [|ch sched IH] using rev_ind; intros s Hrun; simpl in *.
  - injection Hrun as <-; done.
  - assert (Hre' : reachable w s) by (by eexists).
    rewrite run_app in Hrun. apply bind_Some in Hrun as (s1 & H1 & H2). simpl in H2.
    apply bind_Some in H2 as (s2 & H2 & H3). injection H3 as <-.
    eapply Hs; [by exists sched|by apply IH|by apply step_tstep|done].
Qed.

(** Split the log at an event: the states around its emission. *)
Lemma log_split w s l1 ev l2 :
  reachable w s -> s_log s = l1 ++ ev :: l2 ->
  exists s1 ch s2, reachable w s1 /\ tstep w s1 ch s2 /\ reachable w s2 /\
    s_log s1 = l1 /\ s_log s2 = l1 ++ [ev].
Proof.
  intros Hre. revert s Hre l2.
  refine (reachable_tind w _ _ _).
  - intros l2 H. destruct l1; done.
  - intros s ch s' Hre IH Hstep Hre' l2 Hl.
    destruct (log_step _ _ _ _ Hstep) as [E|[ev' E]]; [rewrite E in Hl; eauto|].
    rewrite E in Hl. destruct l2 as [|x l2 _] using rev_ind.
    + apply app_inj_tail in Hl as [Hl ->]. exists s, ch, s'. split_and!; try done. by rewrite E, Hl.
    + rewrite app_comm_cons, app_assoc in Hl. apply app_inj_tail in Hl as [Hl ->]. eauto.
Qed.

(** ** Calls and returns *)
Definition inv_calls (s : state) : Prop :=
  (forall c p cx ts, EvCall c p cx ts ∈ s_log s <->
     exists cl, s_calls s !! c = Some cl /\ c_parent cl = p /\ c_cx cl = cx /\ c_targets cl = ts) /\
  (forall c p e, EvRet c p e ∈ s_log s <->
     exists cl, s_calls s !! c = Some cl /\ c_parent cl = p /\ c_st cl = CReturned e) /\
  (forall c cl e, s_calls s !! c = Some cl -> c_st cl = CReturned e ->
     e = join (c_errs cl) /\ c_wg cl = 0).

Lemma inv_calls_holds w s : reachable w s -> inv_calls s.
Proof.
  revert s. apply reachable_ind.
  { split_and!; try done; intros; split; intros H;
      [by apply elem_of_nil in H|naive_solver|by apply elem_of_nil in H|naive_solver]. }
  intros s ch s' Hre (IH1 & IH2 & IH3) Hstep.
  apply inv_shape_holds in Hre as Hsh.
  split_and!.
  - intros c p cx ts. split.
    + intros Hin.
      assert (Hold : EvCall c p cx ts ∈ s_log s -> exists cl, s_calls s' !! c = Some cl /\
                c_parent cl = p /\ c_cx cl = cx /\ c_targets cl = ts).
      { intros Hin'. apply IH1 in Hin' as (cl & Hc & <- & <- & <-).
        destruct (call_step _ _ _ _ _ _ Hsh Hstep Hc) as (cl' & ? & ? & ? & ? & _). eauto. }
      destruct Hstep; proj; try (by apply Hold);
        try (apply elem_of_snoc in Hin as [Hin|Hin]; [by apply Hold|]; simplify_eq).
      all: eexists; rewrite list_lookup_middle by done; done.
    + intros (cl' & Hc' & Hx).
      destruct (call_step_inv _ _ _ _ _ _ Hstep Hc')
        as [(cl & Hc & Hp' & Hcx & Hts & _)|(p' & cx' & ts' & -> & -> & Hcs & Hch)].
      * eapply log_mono; [done|]. apply IH1. exists cl. naive_solver.
      * simpl in Hx. destruct Hx as (-> & -> & ->).
        destruct Hch as [[-> ->]|(g & r & gr & k & -> & -> & Hg & Hst & _)].
        -- inversion Hstep; subst. proj. apply elem_of_snoc. by right.
        -- inversion Hstep; subst; simplify_eq; try congruence.
           proj. apply elem_of_snoc; right. congruence.
  - intros c p e. split.
    + intros Hin.
      assert (Hold : EvRet c p e ∈ s_log s -> exists cl, s_calls s' !! c = Some cl /\
                c_parent cl = p /\ c_st cl = CReturned e).
      { intros Hin'. apply IH2 in Hin' as (cl & Hc & <- & Hst).
        destruct (call_step _ _ _ _ _ _ Hsh Hstep Hc) as (cl' & Hc' & Hp' & _).
        exists cl'. split_and!; [done|done|].
        destruct (call_step_inv _ _ _ _ _ _ Hstep Hc')
          as [(cl2 & Hc2 & _ & _ & _ & [Hs|[(i & todo & _ & Hs & _)|(_ & Hs & _)]])|(p' & cx' & ts' & -> & _)];
          simplify_eq; try congruence.
        apply lookup_lt_Some in Hc. lia. }
      destruct Hstep; proj; try (by apply Hold);
        try (apply elem_of_snoc in Hin as [Hin|Hin]; [by apply Hold|]; simplify_eq).
      all: rewrite list_lookup_alter, H; eexists; done.
    + intros (cl' & Hc' & <- & Hst').
      destruct (call_step_inv _ _ _ _ _ _ Hstep Hc')
        as [(cl & Hc & Hp' & Hcx & Hts & [Hs|[(i & todo & _ & _ & Hs)|(-> & Hs & Hw & _ & _ & Hs')]])
           |(p' & cx' & ts' & -> & -> & Hcs & Hch)].
      * eapply log_mono; [done|]. apply IH2. exists cl. split_and!; [done|done|congruence].
      * exfalso. by eapply Hs.
      * inversion Hstep; subst; simplify_eq; proj; apply elem_of_snoc; right; congruence.
      * done.
  - intros c cl' e Hc' Hst'.
    destruct (call_step_inv _ _ _ _ _ _ Hstep Hc')
        as [(cl & Hc & Hp' & Hcx & Hts & [Hs|[(i & todo & _ & _ & Hs)|(-> & Hs & Hw & He & Hw' & Hs')]])
           |(p' & cx' & ts' & -> & -> & Hcs & Hch)].
    + rewrite Hst' in Hs. symmetry in Hs. pose proof (IH3 _ _ _ Hc Hs) as [He Hw].
      assert (Hdone : forall g gr, s_gors s !! g = Some gr -> g_call gr = c -> g_st gr = GDone).
      { intros. by eapply wg_zero_done. }
      assert (Hgc : forall g gr st, s_gors s !! g = Some gr -> g_st gr = st -> st <> GDone ->
                 g_call gr <> c).
      { intros g gr st Hg Hst Hd Hcc. rewrite (Hdone _ _ Hg Hcc) in Hst. congruence. }
      assert (cl' = cl) as ->; [|done].
      destruct Hstep; proj; inv_lookups; try done; try congruence; exfalso;
        (eapply Hgc; [eassumption|eassumption|done|done]).
    + exfalso. by eapply Hs.
    + rewrite Hs' in Hst'. injection Hst' as <-. by rewrite He.
    + done.
Qed.
