(** More invariants of the runner machine: the [ran] map and the event log. *)
From stdpp Require Import base gmap list strings.
From Verif Require Import ContextModel RunnerModel RunnerSteps RunnerInv RunnerInv2.

Definition slot (s : state) (gr : gor) : option (option err) :=
  cl ← s_calls s !! g_call gr; c_errs cl !! g_idx gr.

Lemma slot_set_gst s st gr : slot s (set_gst st gr) = slot s gr.
Proof. done. Qed.

(** Only goroutine [g] itself writes its slot. *)
Lemma slot_step w s ch s' g gr :
  reachable w s -> tstep w s ch s' -> s_gors s !! g = Some gr ->
  (forall r, ch <> ChGo g r) -> slot s' gr = slot s gr.
Proof.
  intros Hre Hstep Hg Hch.
  pose proof (inv_shape_holds _ _ Hre) as Hsh. pose proof (inv_link_holds _ _ Hre) as Hli.
  pose proof (inv_uniq_holds _ _ Hre) as Hu.
  destruct (Hli _ _ Hg) as (cl0 & o0 & Hc0 & _ & _ & _ & _ & Hi & _).
  unfold slot.
  destruct Hstep; proj; try done;
    try (rewrite lookup_app_l by (by eapply lookup_lt_Some); done);
    lazymatch goal with
    | |- context [alter ?f ?c' _ !! _] =>
        destruct (decide (g_call gr = c')) as [Hcc|Hne];
          [|rewrite list_lookup_alter_ne by done; done]
    end;
    try (rewrite Hcc in *; rewrite list_lookup_alter, Hc0; simpl; done).
  - (* reject *)
    destruct (shape_next _ _ _ _ _ _ Hsh H H0) as (_ & Hp & _).
    rewrite Hcc in *. rewrite list_lookup_alter, Hc0. simplify_eq. simpl.
    rewrite list_lookup_insert_ne by lia. done.
  - destruct (decide (g_idx gr = g_idx gr0)) as [Hii|Hii].
    + exfalso. apply (Hch r). f_equal. by eapply Hu.
    + rewrite Hcc in *. rewrite list_lookup_alter, Hc0. simpl.
      rewrite list_lookup_insert_ne by done. done.
  - destruct (decide (g_idx gr = g_idx gr0)) as [Hii|Hii].
    + exfalso. apply (Hch r). f_equal. by eapply Hu.
    + rewrite Hcc in *. rewrite list_lookup_alter, Hc0. simpl.
      rewrite list_lookup_insert_ne by done. done.
Qed.

(** Writing one's own slot. *)
Lemma slot_write w s (g : nat) gr f e :
  reachable w s -> s_gors s !! g = Some gr ->
  (forall cl, s_calls s !! g_call gr = Some cl -> f cl = set_err (g_idx gr) e cl) ->
  (cl ← alter f (g_call gr) (s_calls s) !! g_call gr; c_errs cl !! g_idx gr) = Some e.
Proof.
  intros Hre Hg Hf.
  pose proof (inv_shape_holds _ _ Hre) as Hsh. pose proof (inv_link_holds _ _ Hre) as Hli.
  destruct (Hli _ _ Hg) as (cl0 & o0 & Hc0 & _ & _ & _ & _ & Hi & _).
  pose proof (cpos_le _ _ _ Hsh Hc0) as Hp. destruct (Hsh _ _ Hc0) as [Hl _].
  rewrite list_lookup_alter, Hc0. simpl. rewrite (Hf _ Hc0). simpl.
  apply list_lookup_insert. lia.
Qed.

Definition is_owner (gr : gor) : bool :=
  match g_st gr with GBody _ | GCalling _ _ | GOpen => true | _ => false end.

Definition st_ok (s : state) (gr : gor) : Prop :=
  match g_st gr with
  | GStart => True
  | GWait => is_Some (s_ran s !! g_key gr)
  | GBody _ | GCalling _ _ => s_ran s !! g_key gr = Some {| o_open := false; o_err := None |}
  | GOpen => exists e, s_ran s !! g_key gr = Some {| o_open := false; o_err := e |} /\
                       slot s gr = Some e
  | GExit | GDone => exists e, s_ran s !! g_key gr = Some {| o_open := true; o_err := e |} /\
                       slot s gr = Some e
  end.

Definition inv_ran (s : state) : Prop :=
  (forall g gr, s_gors s !! g = Some gr -> st_ok s gr) /\
  (forall g1 g2 gr1 gr2, s_gors s !! g1 = Some gr1 -> s_gors s !! g2 = Some gr2 ->
     is_owner gr1 = true -> is_owner gr2 = true -> g_key gr1 = g_key gr2 -> g1 = g2) /\
  (forall a oc, s_ran s !! a = Some oc -> o_open oc = false ->
     exists g gr, s_gors s !! g = Some gr /\ g_key gr = a /\ is_owner gr = true).

(** A goroutine changes state only by its own steps and when its nested Run returns. *)
Lemma gor_other w s ch s' g gr :
  tstep w s ch s' -> s_gors s !! g = Some gr -> (forall r, ch <> ChGo g r) ->
  s_gors s' !! g = Some gr \/
  exists c k cl, ch = ChReturn c /\ g_st gr = GCalling c k /\
    s_calls s !! c = Some cl /\ c_parent cl = Some g /\ c_st cl = CWaiting /\ c_wg cl = 0 /\
    s_gors s' !! g = Some (set_gst (GBody (k (join (c_errs cl)))) gr).
Proof.
  intros Hstep Hg Hch.
  destruct Hstep; proj; try (by left);
    lazymatch goal with
    | |- (_ ++ _) !! _ = _ \/ _ => left; rewrite lookup_app_l by (by eapply lookup_lt_Some); done
    | |- alter _ ?g' _ !! _ = _ \/ _ =>
        destruct (decide (g = g')) as [Heq|Hne];
          [|left; rewrite list_lookup_alter_ne by done; done]
    end; try (exfalso; eapply Hch; by rewrite Heq).
  right. subst. simplify_eq. exists c, k, cl. split_and!; try done.
  rewrite list_lookup_alter.
  match goal with Hx : s_gors s !! _ = Some _ |- _ => rewrite Hx end. done.
Qed.

(** How a step changes the [ran] map at the key [a]. *)
Lemma ran_step w s ch s' a :
  tstep w s ch s' ->
  s_ran s' !! a = s_ran s !! a \/
  exists g r gr, ch = ChGo g r /\ s_gors s !! g = Some gr /\ g_key gr = a /\
    ((s_ran s !! a = None /\ g_st gr = GStart /\
      s_ran s' !! a = Some {| o_open := false; o_err := None |} /\
      s_log s' = s_log s ++ [EvStart g a (g_obj gr) (g_cx gr)] /\
      s_gors s' !! g = Some (set_gst (GBody (body w (g_obj gr) (g_cx gr))) gr)) \/
     (exists e, g_st gr = GBody (Ret e) /\
      s_ran s' !! a = (fun o => {| o_open := o_open o; o_err := wrap (g_obj gr) e |}) <$> (s_ran s !! a) /\
      s_log s' = s_log s ++ [EvEnd g a (g_obj gr) e] /\
      s_gors s' !! g = Some (set_gst GOpen gr)) \/
     (g_st gr = GOpen /\
      s_ran s' !! a = (fun o => {| o_open := true; o_err := o_err o |}) <$> (s_ran s !! a) /\
      s_log s' = s_log s /\
      s_gors s' !! g = Some (set_gst GExit gr))).
Proof.
  intros Hstep.
  destruct Hstep; proj; try (by left); destruct (decide (g_key gr = a)) as [<-|Hne].
  all: try (left; rewrite ?lookup_insert_ne, ?lookup_alter_ne by done; done).
  all: right; exists g, r, gr; split_and!; try done.
  - left. rewrite lookup_insert, list_lookup_alter, H. done.
  - right; left. exists e. rewrite lookup_alter, list_lookup_alter, H. done.
  - right; right. rewrite lookup_alter, list_lookup_alter, H. done.
Qed.

Lemma st_ok_mono s s' gr :
  st_ok s gr -> s_ran s' !! g_key gr = s_ran s !! g_key gr -> slot s' gr = slot s gr -> st_ok s' gr.
Proof. unfold st_ok. intros H Hr Hsl. rewrite Hr, Hsl. done. Qed.

Lemma choice_go_dec ch g : (exists r, ch = ChGo g r) \/ (forall r, ch <> ChGo g r).
Proof.
  destruct ch as [| | | |g' r]; try (right; done).
  destruct (decide (g' = g)) as [->|]; [left; eauto|right; congruence].
Qed.

Ltac kill_ok Hok :=
  first [done|destruct Hok as [? Hok]; first [done|destruct Hok as [Hok ?]; first [done|congruence]]].

Lemma st_ok_other w s ch s' g gr :
  reachable w s -> inv_ran s -> tstep w s ch s' -> s_gors s !! g = Some gr ->
  (forall r, ch <> ChGo g r) -> st_ok s' gr.
Proof.
  intros Hre (IH1 & IH2 & IH3) Hstep Hg Hch.
  pose proof (slot_step _ _ _ _ _ _ Hre Hstep Hg Hch) as Hsl.
  pose proof (IH1 _ _ Hg) as Hok.
  destruct (ran_step _ _ _ _ (g_key gr) Hstep) as [Hr|(g2 & r & gr2 & -> & Hg2 & Hk & Hcase)].
  { by eapply st_ok_mono. }
  assert (Hne : g <> g2) by (intros ->; by eapply Hch).
  pose proof (IH1 _ _ Hg2) as Hok2. unfold st_ok in *.
  destruct Hcase as [(Hn & _)|[(e & Hst2 & Hr2 & _)|(Hst2 & Hr2 & _)]].
  - rewrite Hn in Hok. destruct (g_st gr); kill_ok Hok.
  - rewrite Hst2 in Hok2. rewrite Hk in Hok2. rewrite Hr2, Hok2. simpl.
    destruct (g_st gr) eqn:Est; try done;
      first [exfalso; apply Hne; apply (IH2 _ _ _ _ Hg Hg2); unfold is_owner; by rewrite ?Est, ?Hst2
            |by eauto|kill_ok Hok].
  - rewrite Hst2 in Hok2. rewrite Hk in Hok2. destruct Hok2 as (e & Hok2 & _).
    rewrite Hr2, Hok2. simpl.
    destruct (g_st gr) eqn:Est; try done;
      first [exfalso; apply Hne; apply (IH2 _ _ _ _ Hg Hg2); unfold is_owner; by rewrite ?Est, ?Hst2
            |by eauto|kill_ok Hok].
Qed.

Lemma st_ok_self w s g r s' gr gr' :
  reachable w s -> inv_ran s -> tstep w s (ChGo g r) s' -> s_gors s !! g = Some gr ->
  s_gors s' !! g = Some gr' -> st_ok s' gr'.
Proof.
  intros Hre (IH1 & IH2 & IH3) Hstep Hg Hg'.
  pose proof (IH1 _ _ Hg) as Hok. unfold st_ok in Hok.
  inversion Hstep; subst; simplify_eq; proj;
    rewrite list_lookup_alter, Hg in Hg'; simpl in Hg'; simplify_eq; unfold st_ok; proj;
    match goal with Hx : g_st gr = _ |- _ => rewrite Hx in Hok end.
  - by rewrite lookup_insert.
  - done.
  - exists (o_err oc). split; [destruct oc; simpl in *; by subst|].
    unfold slot; proj. by eapply slot_write.
  - rewrite lookup_alter, Hok. simpl. eexists; split; [done|]. unfold slot; proj. by eapply slot_write.
  - done.
  - done.
  - done.
  - destruct Hok as (e & Hok & Hs). rewrite lookup_alter, Hok. simpl. eauto.
  - destruct Hok as (e & Hok & Hs). exists e. split; [done|].
    unfold slot in *; proj. rewrite list_lookup_alter. by destruct (s_calls s !! g_call gr).
Qed.

Lemma inv_ran_holds w s : reachable w s -> inv_ran s.
Proof.
  revert s. apply reachable_ind; [done|].
  intros s ch s' Hre IH Hstep. pose proof IH as (IH1 & IH2 & IH3).
  (* owners of the new state *)
  assert (Hown : forall g gr', s_gors s' !! g = Some gr' -> is_owner gr' = true ->
    exists gr, s_gors s !! g = Some gr /\ g_key gr' = g_key gr /\
      (is_owner gr = true \/ s_ran s !! g_key gr = None)).
  { intros g gr' Hg' Ho.
    destruct (gor_step_inv _ _ _ _ _ _ Hstep Hg')
      as [(gr & Hgr & E)|(c & cl & i & o & todo & ca & _ & _ & _ & _ & _ & _ & _ & E)];
      [|rewrite E in Ho; done].
    exists gr. split; [done|]. split; [by rewrite E|].
    destruct (choice_go_dec ch g) as [[r ->]|Hch].
    - inversion Hstep; subst; simplify_eq; proj;
        rewrite list_lookup_alter, Hgr in Hg'; simpl in Hg'; simplify_eq; unfold is_owner in *; proj;
        try done; try (by right);
        left; match goal with Hx : g_st gr = _ |- _ => by rewrite Hx end.
    - destruct (gor_other _ _ _ _ _ _ Hstep Hgr Hch) as [Hx|(c & k & cl & -> & Hst & _)].
      + simplify_eq. by left.
      + left. unfold is_owner. by rewrite Hst. }
  split_and!.
  - intros g gr' Hg'.
    destruct (gor_step_inv _ _ _ _ _ _ Hstep Hg')
      as [(gr & Hgr & E)|(c & cl & i & o & todo & ca & _ & _ & _ & _ & _ & _ & _ & E)];
      [|rewrite E; unfold st_ok; done].
    destruct (choice_go_dec ch g) as [[r ->]|Hch].
    + by eapply st_ok_self.
    + pose proof (st_ok_other _ _ _ _ _ _ Hre IH Hstep Hgr Hch) as Hok.
      destruct (gor_other _ _ _ _ _ _ Hstep Hgr Hch) as [Hx|(c & k & cl & -> & Hst & _ & _ & _ & _ & Hx)];
        rewrite Hx in Hg'; injection Hg' as <-; [done|].
      unfold st_ok in *. rewrite Hst in Hok. simpl. done.
  - intros g1 g2 gr1' gr2' H1 H2 O1 O2 Hk.
    destruct (Hown _ _ H1 O1) as (gr1 & H1' & K1 & D1).
    destruct (Hown _ _ H2 O2) as (gr2 & H2' & K2 & D2).
    assert (Hcon : forall gr gr2 g, s_gors s !! g = Some gr -> is_owner gr = true -> g_key gr = g_key gr2 ->
      s_ran s !! g_key gr2 = None -> False).
    { clear -IH1. intros gr gr2 g Hg Ho Hk Hn. pose proof (IH1 _ _ Hg) as Hok.
      unfold st_ok, is_owner in *. rewrite Hk, Hn in Hok. destruct (g_st gr); kill_ok Hok. }
    destruct D1 as [D1|D1], D2 as [D2|D2].
    + eapply IH2; eauto. congruence.
    + exfalso. eapply (Hcon gr1 gr2); eauto. congruence.
    + exfalso. eapply (Hcon gr2 gr1); eauto. congruence.
    + (* both just became owners: same step *)
      assert (Hself : forall g gr gr', s_gors s !! g = Some gr -> s_ran s !! g_key gr = None ->
         s_gors s' !! g = Some gr' -> is_owner gr' = true -> exists r, ch = ChGo g r).
      { clear -IH1 Hstep. intros g gr gr' Hg Hn Hg' Ho.
        destruct (choice_go_dec ch g) as [?|Hch]; [done|].
        pose proof (IH1 _ _ Hg) as Hok. unfold st_ok in Hok.
        destruct (gor_other _ _ _ _ _ _ Hstep Hg Hch) as [Hx|(c & k & cl & -> & Hst & _)].
        - simplify_eq. unfold is_owner in Ho. rewrite Hn in Hok.
          destruct (g_st gr'); kill_ok Hok.
        - rewrite Hst, Hn in Hok. done. }
      destruct (Hself _ _ _ H1' D1 H1 O1) as [r1 ->].
      destruct (Hself _ _ _ H2' D2 H2 O2) as [r2 Heq]. congruence.
  - intros a oc' Ha Ho.
    destruct (ran_step _ _ _ _ a Hstep) as [Hr|(g & r & gr & -> & Hg & Hk & Hcase)].
    + rewrite Hr in Ha. destruct (IH3 _ _ Ha Ho) as (g & gr & Hg & Hk & Hown1).
      destruct (choice_go_dec ch g) as [[r ->]|Hch].
      * inversion Hstep; subst; simplify_eq;
          try (unfold is_owner in Hown1;
               match goal with Hx : g_st gr = _ |- _ => rewrite Hx in Hown1 end; done);
          try (eexists g, _; proj; rewrite list_lookup_alter, Hg; done).
        pose proof (IH1 _ _ Hg) as Hok. unfold st_ok in Hok.
        match goal with Hx : g_st gr = _ |- _ => rewrite Hx in Hok end.
        exfalso. proj. destruct Hok as (e & Hok & _).
        rewrite lookup_alter, Hok in Hr. simpl in Hr. done.
      * destruct (gor_other _ _ _ _ _ _ Hstep Hg Hch)
          as [Hx|(c & k & cl & -> & Hst & _ & _ & _ & _ & Hx)]; eauto.
    + destruct Hcase as [(_ & _ & _ & _ & Hg')|[(e & _ & _ & _ & Hg')|(Hst & Hr & _)]]; eauto.
      pose proof (IH1 _ _ Hg) as Hok. unfold st_ok in Hok. rewrite Hst, Hk in Hok.
      destruct Hok as (e & Hok & _). rewrite Hr, Hok in Ha. simpl in Ha. by simplify_eq.
Qed.
