(** Invariants relating the event log to the machine state: requests, runs, registrations. *)
From stdpp Require Import base gmap list strings.
From Verif Require Import ContextModel RunnerModel RunnerSteps RunnerInv RunnerInv2 RunnerInv3 RunnerInv4.

(** ** Requests *)
Definition inv_req (s : state) : Prop :=
  forall c i a o, EvReq c i a o ∈ s_log s <->
    exists g gr, s_gors s !! g = Some gr /\ g_call gr = c /\ g_idx gr = i /\ g_key gr = a /\ g_obj gr = o.

Lemma inv_req_holds w s : reachable w s -> inv_req s.
Proof.
  revert s. apply reachable_ind.
  { intros c i a o. split; [intros H; by apply elem_of_nil in H|intros (g & gr & H & _); done]. }
  intros s ch s' Hre IH Hstep c i a o. split.
  - intros Hin.
    assert (Hold : EvReq c i a o ∈ s_log s -> exists g gr, s_gors s' !! g = Some gr /\
       g_call gr = c /\ g_idx gr = i /\ g_key gr = a /\ g_obj gr = o).
    { intros Hin'. apply IH in Hin' as (g & gr & Hg & <- & <- & <- & <-).
      destruct (gor_step_fwd _ _ _ _ _ _ Hstep Hg) as [st Hg']. by eexists g, _. }
    destruct Hstep; proj; try (by apply Hold);
      try (apply elem_of_snoc in Hin as [Hin|Hin]; [by apply Hold|]; simplify_eq).
    eexists _, _. rewrite list_lookup_middle by done. done.
  - intros (g & gr' & Hg' & <- & <- & <- & <-).
    destruct (gor_step_inv _ _ _ _ _ _ Hstep Hg')
      as [(gr & Hgr & E)|(c & cl & i & o & todo & ca & -> & -> & Hc & Est & _ & _ & Hcs & E)].
    + rewrite E; simpl. eapply log_mono; [done|]. apply IH. eauto 10.
    + inversion Hstep; subst; simplify_eq; proj.
      * apply lookup_lt_Some in Hg'. lia.
      * apply lookup_lt_Some in Hg'. lia.
      * inv_lookups; [|lia]. simpl. apply elem_of_snoc. by right.
Qed.

(** ** Rejections and processed slots *)
Definition inv_rej (w : world) (s : state) : Prop :=
  (forall c i e, EvRej c i e ∈ s_log s ->
     exists cl t, s_calls s !! c = Some cl /\ c_targets cl !! i = Some t /\ i < cpos cl /\
       c_errs cl !! i = Some (Some e) /\
       (forall g gr, s_gors s !! g = Some gr -> g_call gr = c -> g_idx gr <> i) /\
       ((t = TNonPtr /\ e = ENotPointer) \/
        (exists d name, t = TPtr d /\ w_deferred w d = Some name /\ e = EUnresolved name))) /\
  (forall c cl i, s_calls s !! c = Some cl -> i < cpos cl ->
     (exists g gr, s_gors s !! g = Some gr /\ g_call gr = c /\ g_idx gr = i) \/
     (exists e, EvRej c i e ∈ s_log s)).

Lemma rej_step_inv w s ch s' c i e :
  reachable w s -> tstep w s ch s' -> EvRej c i e ∈ s_log s' ->
  EvRej c i e ∈ s_log s \/
  exists cl t todo, ch = ChLoop c /\ s_calls s !! c = Some cl /\ c_st cl = CLoop i (t :: todo) /\
    rejects w s t e /\ s_gors s' = s_gors s /\
    s_calls s' !! c = Some (set_err i (Some e) (set_cst (CLoop (S i) todo) cl)).
Proof.
  intros Hre Hstep Hin.
  destruct Hstep; proj; try (by left);
    try (apply elem_of_snoc in Hin as [Hin|Hin]; [by left|]; simplify_eq).
  right. exists cl, t, todo. rewrite list_lookup_alter, H. done.
Qed.

Lemma inv_rej_holds w s : reachable w s -> inv_rej w s.
Proof.
  revert s. apply reachable_ind.
  { split; [intros c i e H; by apply elem_of_nil in H|done]. }
  intros s ch s' Hre (IH1 & IH2) Hstep.
  apply inv_shape_holds in Hre as Hsh. apply inv_link_holds in Hre as Hli.
  split.
  - intros c i e Hin.
    destruct (rej_step_inv _ _ _ _ _ _ _ Hre Hstep Hin) as [Hin'|(cl & t & todo & -> & Hc & Est & Hrej & Hgs & Hc')].
    + destruct (IH1 _ _ _ Hin') as (cl & t & Hc & Ht & Hi & He & Hng & Hr).
      destruct (call_step _ _ _ _ _ _ Hsh Hstep Hc) as (cl' & Hc' & _ & _ & Ht' & _ & Hp).
      exists cl', t. split_and!; [done|congruence|lia| | |done].
      * pose proof (lookup_lt_Some _ _ _ Hc) as Hlt.
        destruct Hstep; proj; inv_lookups; try done; try lia.
        -- match goal with Hx : c_st ?x = CLoop _ (_ :: _), Hy : s_calls s !! _ = Some ?x |- _ =>
             destruct (shape_next _ _ _ _ _ _ Hsh Hy Hx) as (_ & Hp' & _) end.
           rewrite list_lookup_insert_ne by lia. done.
        -- rewrite list_lookup_insert_ne; [done|]. by eapply Hng.
        -- rewrite list_lookup_insert_ne; [done|]. by eapply Hng.
      * intros g gr' Hg' Hgc.
        destruct (gor_step_inv _ _ _ _ _ _ Hstep Hg')
          as [(gr & Hgr & E)|(c2 & cl2 & i2 & o & todo & ca & -> & -> & Hc2 & Est & _ & _ & Hcs & E)].
        -- rewrite E in *. simpl in *. by eapply Hng.
        -- rewrite E in *. simpl in *. subst c2. simplify_eq.
           destruct (shape_next _ _ _ _ _ _ Hsh Hc Est) as (_ & Hp' & _). lia.
    + destruct (shape_next _ _ _ _ _ _ Hsh Hc Est) as (Ht & Hp & Hl & Hle).
      eexists _, t. split_and!; [done|done| | | |].
      * unfold cpos. simpl. lia.
      * simpl. by apply list_lookup_insert.
      * rewrite Hgs. intros g gr Hg <-.
        destruct (Hli _ _ Hg) as (cl0 & o0 & Hc0 & _ & _ & _ & _ & Hi & _). simplify_eq. lia.
      * inversion Hrej; subst; eauto 10.
  - intros c cl' i Hc' Hi.
    assert (Hold : forall cl, s_calls s !! c = Some cl -> i < cpos cl ->
      (exists g gr, s_gors s' !! g = Some gr /\ g_call gr = c /\ g_idx gr = i) \/
      (exists e, EvRej c i e ∈ s_log s')).
    { intros cl Hc Hi'. destruct (IH2 _ _ _ Hc Hi') as [(g & gr & Hg & Hgc & Hgi)|[e He]].
      - left. destruct (gor_step_fwd _ _ _ _ _ _ Hstep Hg) as [st Hg']. by eexists g, _.
      - right. exists e. by eapply log_mono. }
    destruct (call_step_inv _ _ _ _ _ _ Hstep Hc')
        as [(cl & Hc & Hp' & Hcx & Hts & [Hs|[(j & todo & -> & Hs & Hs2)|(-> & Hs & Hw & He & Hw' & Hs')]])
           |(p' & cx' & ts' & -> & -> & Hcs & Hch)].
    + eapply Hold; [done|]. unfold cpos in *. rewrite Hs, Hts in Hi. done.
    + assert (Hsc : forall st, c_st cl = st -> CLoop j todo = st) by congruence. clear Hs.
      inversion Hstep; subst; simplify_eq; proj; rewrite list_lookup_alter, Hc in Hc'; simpl in Hc'; simplify_eq;
        match goal with Hx : c_st cl = _ |- _ => rename Hx into Hs; apply Hsc in Hs as Hs3; injection Hs3; intros; subst j end.
      * eapply Hold; [done|]. rewrite (shape_end _ _ _ _ Hsh Hc Hs). unfold cpos in Hi. simpl in Hi. done.
      * unfold cpos in Hi. simpl in Hi. match goal with Hx : c_st cl = CLoop ?j _ |- _ => destruct (decide (i = j)) as [->|Hne] end.
        -- right. exists e. apply elem_of_snoc. by right.
        -- eapply Hold; [done|]. unfold cpos. rewrite Hs. lia.
      * unfold cpos in Hi. simpl in Hi. match goal with Hx : c_st cl = CLoop ?j _ |- _ => destruct (decide (i = j)) as [->|Hne] end.
        -- left. eexists _, _. rewrite list_lookup_middle by done. done.
        -- eapply Hold; [done|]. unfold cpos. rewrite Hs. lia.
    + eapply Hold; [done|]. unfold cpos in *. rewrite Hs', Hts in Hi. by rewrite Hs.
    + unfold cpos in Hi. simpl in Hi. lia.
Qed.

(** ** Starts and ends of bodies *)
Definition started (gr : gor) : bool :=
  match g_st gr with GStart | GWait => false | _ => true end.
Definition ended (gr : gor) : bool :=
  match g_st gr with GOpen | GExit | GDone => true | _ => false end.
Definition is_start (a : addr) (ev : event) : bool :=
  match ev with EvStart _ a' _ _ => bool_decide (a' = a) | _ => false end.
Definition is_end (a : addr) (ev : event) : bool :=
  match ev with EvEnd _ a' _ _ => bool_decide (a' = a) | _ => false end.

Definition inv_start (s : state) : Prop :=
  (forall g a o cx, EvStart g a o cx ∈ s_log s ->
     exists gr, s_gors s !! g = Some gr /\ g_key gr = a /\ g_obj gr = o /\ g_cx gr = cx /\
       started gr = true /\ is_Some (s_ran s !! a)) /\
  (forall g gr, s_gors s !! g = Some gr -> is_owner gr = true ->
     EvStart g (g_key gr) (g_obj gr) (g_cx gr) ∈ s_log s) /\
  (forall a, countb (is_start a) (s_log s) = if s_ran s !! a then 1 else 0).

Lemma ran_some_step w s ch s' a : tstep w s ch s' -> is_Some (s_ran s !! a) -> is_Some (s_ran s' !! a).
Proof.
  intros Hstep Ha. destruct (ran_step _ _ _ _ a Hstep) as [->|(g & r & gr & _ & _ & _ & Hc)]; [done|].
  destruct Hc as [(_ & _ & -> & _)|[(e & _ & -> & _)|(_ & -> & _)]]; [by eexists|by apply fmap_is_Some..].
Qed.

Lemma started_step w s ch s' g gr gr' :
  tstep w s ch s' -> s_gors s !! g = Some gr -> s_gors s' !! g = Some gr' ->
  started gr = true -> started gr' = true.
Proof.
  intros Hstep Hg Hg' Hst.
  destruct (choice_go_dec ch g) as [[r ->]|Hch].
  - inversion Hstep; subst; simplify_eq; proj;
      rewrite list_lookup_alter, Hg in Hg'; simpl in Hg'; simplify_eq; unfold started in *; proj; try done.
    match goal with Hx : g_st gr = _ |- _ => by rewrite Hx in Hst end.
  - destruct (gor_other _ _ _ _ _ _ Hstep Hg Hch) as [Hx|(c & k & cl & -> & _ & _ & _ & _ & _ & Hx)];
      rewrite Hx in Hg'; simplify_eq; done.
Qed.

Lemma ended_step w s ch s' g gr gr' :
  tstep w s ch s' -> s_gors s !! g = Some gr -> s_gors s' !! g = Some gr' ->
  ended gr = true -> ended gr' = true.
Proof.
  intros Hstep Hg Hg' Hst.
  destruct (choice_go_dec ch g) as [[r ->]|Hch].
  - inversion Hstep; subst; simplify_eq; proj;
      rewrite list_lookup_alter, Hg in Hg'; simpl in Hg'; simplify_eq; unfold ended in *; proj; try done;
      match goal with Hx : g_st gr = _ |- _ => by rewrite Hx in Hst end.
  - destruct (gor_other _ _ _ _ _ _ Hstep Hg Hch) as [Hx|(c & k & cl & -> & Hk & _ & _ & _ & _ & Hx)];
      rewrite Hx in Hg'; simplify_eq; [done|].
    unfold ended in Hst. by rewrite Hk in Hst.
Qed.

Lemma inv_start_holds w s : reachable w s -> inv_start s.
Proof.
  revert s. apply reachable_ind.
  { split_and!; try done. intros g a o cx H. by apply elem_of_nil in H. }
  intros s ch s' Hre (IH1 & IH2 & IH3) Hstep.
  split_and!.
  - intros g a o cx Hin.
    assert (Hold : EvStart g a o cx ∈ s_log s -> exists gr, s_gors s' !! g = Some gr /\
       g_key gr = a /\ g_obj gr = o /\ g_cx gr = cx /\
       started gr = true /\ is_Some (s_ran s' !! a)).
    { intros Hin'. destruct (IH1 _ _ _ _ Hin') as (gr & Hg & <- & <- & <- & Hst & Hr).
      destruct (gor_step_fwd _ _ _ _ _ _ Hstep Hg) as [st Hg']. eexists. split_and!; try done.
      - by eapply started_step.
      - by eapply ran_some_step. }
    destruct Hstep; proj; try (by apply Hold);
      try (apply elem_of_snoc in Hin as [Hin|Hin]; [by apply Hold|]; simplify_eq).
    rewrite list_lookup_alter, H, lookup_insert. eexists; split_and!; simpl; try done.
  - intros g gr' Hg' Ho.
    destruct (gor_step_inv _ _ _ _ _ _ Hstep Hg')
      as [(gr & Hgr & E)|(c & cl & i & o & todo & ca & _ & _ & _ & _ & _ & _ & _ & E)];
      [|rewrite E in Ho; done].
    destruct (choice_go_dec ch g) as [[r ->]|Hch].
    + destruct (is_owner gr) eqn:Ho'.
      { rewrite E. simpl. eapply log_mono; [done|]. eauto. }
      inversion Hstep; subst; simplify_eq; proj;
        rewrite list_lookup_alter, Hgr in Hg'; simpl in Hg'; simplify_eq; unfold is_owner in *; proj; try done;
        try (match goal with Hx : g_st gr = _ |- _ => by rewrite Hx in Ho' end).
      apply elem_of_snoc. by right.
    + destruct (gor_other _ _ _ _ _ _ Hstep Hgr Hch) as [Hx|(c & k & cl & -> & Hk & _ & _ & _ & _ & Hx)];
        rewrite Hx in Hg'; simplify_eq; simpl; eapply log_mono; eauto.
      apply IH2; [done|]. unfold is_owner. by rewrite Hk.
  - intros a. specialize (IH3 a).
    destruct (ran_step _ _ _ _ a Hstep) as [Hr|(g & r & gr & -> & Hg & Hk & Hcase)].
    + rewrite Hr, <-IH3.
      destruct Hstep; proj; rewrite ?countb_app; simpl; rewrite ?Nat.add_0_r; try done.
      rewrite bool_decide_eq_false_2; [simpl; lia|].
      intros Heq. rewrite Heq, lookup_insert in Hr. rewrite Heq in H1. congruence.
    + destruct Hcase as [(Hn & _ & Hr & Hl & _)|[(e & _ & Hr & Hl & _)|(_ & Hr & Hl & _)]].
      * rewrite Hl, Hr, countb_app, IH3, Hn. simpl. by rewrite bool_decide_eq_true_2.
      * rewrite Hl, Hr, countb_app, IH3. simpl. destruct (s_ran s !! a); simpl; lia.
      * rewrite Hl, Hr, IH3. by destruct (s_ran s !! a).
Qed.

Definition inv_end (s : state) : Prop :=
  (forall g a o e, EvEnd g a o e ∈ s_log s ->
     exists gr oc, s_gors s !! g = Some gr /\ g_key gr = a /\ g_obj gr = o /\ ended gr = true /\
       s_ran s !! a = Some oc /\ o_err oc = wrap o e /\
       EvStart g a o (g_cx gr) ∈ s_log s) /\
  (forall a oc, s_ran s !! a = Some oc ->
     (o_open oc = true \/ exists g gr, s_gors s !! g = Some gr /\ g_key gr = a /\ g_st gr = GOpen) ->
     exists g o e, EvEnd g a o e ∈ s_log s /\ o_err oc = wrap o e) /\
  (forall a, countb (is_end a) (s_log s) <= 1).

Lemma inv_end_holds w s : reachable w s -> inv_end s.
Proof.
  revert s. apply reachable_ind.
  { split_and!; try done. { intros g a o cx H. by apply elem_of_nil in H. } intros; simpl; lia. }
  intros s ch s' Hre (IH1 & IH2 & IH3) Hstep.
  pose proof (inv_ran_holds _ _ Hre) as (R1 & R2 & R3).
  pose proof (inv_start_holds _ _ Hre) as (S1 & S2 & S3).
  (* a body about to return has no end event for its address *)
  assert (Hfresh : forall g gr e0, s_gors s !! g = Some gr -> g_st gr = GBody (Ret e0) ->
     forall g' o' e', EvEnd g' (g_key gr) o' e' ∈ s_log s -> False).
  { intros g gr e0 Hg Hst g' o' e' Hin. destruct (IH1 _ _ _ _ Hin) as (gr' & oc & Hg' & Hk & _ & Hen & Hr & _).
    pose proof (R1 _ _ Hg) as Hok. pose proof (R1 _ _ Hg') as Hok'. unfold st_ok, ended in *.
    rewrite Hst in Hok. rewrite Hk in Hok'. rewrite Hok in Hok'.
    destruct (g_st gr') eqn:Est; try done.
    - assert (g' = g) as ->.
      { eapply R2; eauto; unfold is_owner; [by rewrite Est|by rewrite Hst]. }
      congruence.
    - destruct Hok' as (? & ? & ?); congruence.
    - destruct Hok' as (? & ? & ?); congruence. }
  split_and!.
  - intros g a o e Hin.
    assert (Hold : EvEnd g a o e ∈ s_log s -> exists gr oc, s_gors s' !! g = Some gr /\
       g_key gr = a /\ g_obj gr = o /\ ended gr = true /\
       s_ran s' !! a = Some oc /\ o_err oc = wrap o e /\ EvStart g a o (g_cx gr) ∈ s_log s').
    { intros Hin'. destruct (IH1 _ _ _ _ Hin') as (gr & oc & Hg & Hk & <- & Hst & Hr & He & Hs).
      destruct (gor_step_fwd _ _ _ _ _ _ Hstep Hg) as [st Hg'].
      assert (Hr' : exists oc', s_ran s' !! a = Some oc' /\ o_err oc' = o_err oc).
      { destruct (ran_step _ _ _ _ a Hstep) as [Hr'|(g2 & r & gr2 & -> & Hg2 & Hk2 & Hcase)].
        - rewrite Hr'; eauto.
        - destruct Hcase as [(Hn & _)|[(e2 & Hst2 & _)|(Hst2 & Hr' & _)]].
          + congruence.
          + exfalso. rewrite <-Hk2 in Hin'. by eapply Hfresh.
          + rewrite Hr', Hr. simpl. eauto. }
      destruct Hr' as (oc' & Hr' & He').
      eexists _, oc'. split_and!; try done.
      - by eapply ended_step.
      - congruence.
      - simpl. by eapply log_mono. }
    destruct Hstep; proj; try (by apply Hold);
      try (apply elem_of_snoc in Hin as [Hin|Hin]; [by apply Hold|]; simplify_eq).
    pose proof (R1 _ _ H) as Hok. unfold st_ok in Hok. rewrite H0 in Hok.
    rewrite list_lookup_alter, H, lookup_alter, Hok. eexists _, _; split_and!; simpl; try done.
    apply elem_of_snoc. left. apply (S2 _ gr); [done|]. unfold is_owner. by rewrite H0.
  - intros a oc' Ha Hcl.
    assert (Hold : forall oc, s_ran s !! a = Some oc -> o_err oc' = o_err oc ->
      (o_open oc = true \/ exists g gr, s_gors s !! g = Some gr /\ g_key gr = a /\ g_st gr = GOpen) ->
      exists g o e, EvEnd g a o e ∈ s_log s' /\ o_err oc' = wrap o e).
    { intros oc Hr He Hc. destruct (IH2 _ _ Hr Hc) as (g & o & e & Hin & He').
      exists g, o, e. split; [by eapply log_mono|congruence]. }
    destruct (ran_step _ _ _ _ a Hstep) as [Hr|(g & r & gr & -> & Hg & Hk & Hcase)].
    + rewrite Hr in Ha.
      destruct Hcl as [Hcl|(g & gr' & Hg' & Hk & Hst)]; [eapply Hold; [done|done|]; by left|].
      destruct (gor_step_inv _ _ _ _ _ _ Hstep Hg')
        as [(gr & Hgr & E)|(c & cl & i & o & todo & ca & _ & _ & _ & _ & _ & _ & _ & E)];
        [|rewrite E in Hst; done].
      destruct (choice_go_dec ch g) as [[r ->]|Hch].
      * inversion Hstep; subst; simplify_eq; proj;
          rewrite list_lookup_alter, Hgr in Hg'; simpl in Hg'; simplify_eq; proj; try done.
        pose proof (R1 _ _ Hgr) as Hok. unfold st_ok in Hok.
        match goal with Hx : g_st gr = _ |- _ => rewrite Hx in Hok end.
        rewrite lookup_alter, Hok in Hr. simpl in Hr. rewrite Hok in Ha.
        eexists g, _, _. split; [apply elem_of_snoc; by right|]. injection Ha as <-. injection Hr as Hr. simpl. by symmetry.
      * eapply Hold; [done|done|]. right.
        destruct (gor_other _ _ _ _ _ _ Hstep Hgr Hch) as [Hx|(c & k & cl & -> & Hk' & _ & _ & _ & _ & Hx)];
          rewrite Hx in Hg'; simplify_eq; eauto; done.
    + destruct Hcase as [(Hn & Hst & Hr & Hl & Hg')|[(e & Hst & Hr & Hl & Hg')|(Hst & Hr & Hl & Hg')]].
      * exfalso. rewrite Hr in Ha. simplify_eq. destruct Hcl as [Hcl|(g2 & gr2 & Hg2 & Hk2 & Hst2)]; [done|].
        assert (Hg2' : s_gors s !! g2 = Some gr2).
        { destruct (decide (g2 = g)) as [->|Hne]; [rewrite Hg2 in Hg'; simplify_eq; done|].
          inversion Hstep; subst; simplify_eq; proj; try congruence;
            by rewrite list_lookup_alter_ne in Hg2. }
        pose proof (R1 _ _ Hg2') as Hok. unfold st_ok in Hok. rewrite Hst2, Hk2, Hn in Hok.
        destruct Hok as (? & ? & _). done.
      * rewrite Hl. exists g, (g_obj gr), e. split; [apply elem_of_snoc; by right|].
        rewrite Hr in Ha. destruct (s_ran s !! a); simpl in Ha; simplify_eq. done.
      * rewrite Hr in Ha. destruct (s_ran s !! a) as [oc|] eqn:Hra; simpl in Ha; simplify_eq.
        eapply Hold; [done|done|]. right. eauto.
  - intros a. specialize (IH3 a).
    destruct Hstep; proj; rewrite ?countb_app; simpl; rewrite ?Nat.add_0_r; try done.
    case_bool_decide as Hk; [|lia].
    assert (countb (is_end a) (s_log s) = 0); [|lia].
    apply countb_none. intros i ev Hev. destruct ev; simpl; try done.
    case_bool_decide as Hk2; [|done]. exfalso. subst a. rewrite Hk2 in Hev.
    eapply (Hfresh _ _ _ H H0). eapply elem_of_list_lookup_2, Hev.
Qed.
