(** Liveness under fair schedules, with any number of client calls (C04). *)
From stdpp Require Import base gmap list strings relations.
From Verif Require Import ContextModel RunnerModel RunnerSteps RunnerSpec RunnerSpec2.
From Verif Require Import RunnerInv RunnerInv2 RunnerInv3 RunnerInv4 RunnerInv5 RunnerInv6 RunnerProofs
  RunnerProgress RunnerTerm.

Global Instance by_agent_dec ag ch : Decision (by_agent ag ch).
Proof. destruct ag, ch; simpl; apply _. Defined.

Lemma gstate_go_done w s g r s' gr :
  step w s (ChGo g r) = Some s' -> s_gors s !! g = Some gr -> g_st gr <> GDone.
Proof. simpl. unfold step_go. intros H Hg E. rewrite Hg in H. simpl in H. by rewrite E in H. Qed.

Lemma done_step w s ch s' g gr :
  tstep w s ch s' -> s_gors s !! g = Some gr -> g_st gr = GDone -> s_gors s' !! g = Some gr.
Proof.
  intros Hstep Hg Hd. destruct (choice_go_dec ch g) as [[r ->]|Hch].
  - inversion Hstep; subst; congruence.
  - destruct (gor_other _ _ _ _ _ _ Hstep Hg Hch) as [?|(c & k & cl & _ & Hst & _)]; [done|congruence].
Qed.

Section exec.
  Context (w : world) (f : nat -> state) (chs : nat -> choice).
  Hypothesis Hex : execution w f chs.
  Hypothesis Hfair : fair w f chs.

  Lemma f_reach n : reachable w (f n).
  Proof.
    destruct Hex as [H0 Hs]. induction n as [|n IH].
    - rewrite H0. by exists [].
    - eapply reachable_step; eauto.
  Qed.
  Lemma f_tstep n : tstep w (f n) (chs n) (f (S n)).
  Proof. apply step_tstep, Hex. Qed.

  Definition ev (n : nat) (Q : state -> Prop) : Prop := exists m, n <= m /\ Q (f m).

  Lemma ev_now n (Q : state -> Prop) : Q (f n) -> ev n Q.
  Proof. by exists n. Qed.
  Lemma ev_trans n (Q Q' : state -> Prop) :
    ev n Q -> (forall m, n <= m -> Q (f m) -> ev m Q') -> ev n Q'.
  Proof.
    intros (m & Hm & HQ) H. destruct (H m Hm HQ) as (m' & Hm' & HQ'). exists m'. split; [lia|done].
  Qed.

  (** A situation in which [ag] can move lasts until it moves. *)
  Lemma moves (P : state -> Prop) ag n :
    (forall s ch s', reachable w s -> P s -> tstep w s ch s' -> reachable w s' ->
       ~ by_agent ag ch -> P s') ->
    (forall s, reachable w s -> P s -> exists ch s', by_agent ag ch /\ step w s ch = Some s') ->
    P (f n) -> exists m, n <= m /\ P (f m) /\ by_agent ag (chs m).
  Proof.
    intros Hstab Hen HP.
    assert (Hsearch : forall d, (P (f (n + d)) /\ forall k, n <= k -> k < n + d -> ~ by_agent ag (chs k)) \/
               exists m, n <= m /\ P (f m) /\ by_agent ag (chs m)).
    { induction d as [|d [[IH1 IH2]|IH]].
      - left. rewrite Nat.add_0_r. split; [done|lia].
      - destruct (decide (by_agent ag (chs (n + d)))) as [Hb|Hb].
        + right. exists (n + d). split_and!; [lia|done|done].
        + left. rewrite Nat.add_succ_r. split.
          * eapply Hstab; [apply f_reach|exact IH1|apply f_tstep|apply (f_reach (S _))|done].
          * intros k H1 H2. destruct (decide (k = n + d)) as [->|]; [done|]. apply IH2; lia.
      - by right. }
    destruct (Hfair ag n) as [(m & Hm & Hb)|(m & Hm & Hno)].
    - destruct (Hsearch (S m - n)) as [[_ H]|H]; [|done].
      exfalso. apply (H m); [lia|lia|done].
    - destruct (Hsearch (m - n)) as [[H _]|H]; [|done].
      replace (n + (m - n)) with m in H by lia.
      destruct (Hen _ (f_reach m) H) as (ch & s' & Hb & Hs). by rewrite (Hno _ Hb) in Hs.
  Qed.

  (** One goroutine step. *)
  Definition gat (g : nat) (gr : gor) (st : gstate) (s : state) : Prop :=
    s_gors s !! g = Some (set_gst st gr).

  Lemma gat_step g gr st n :
    (match st with GStart | GBody _ | GOpen | GExit => True | _ => False end) ->
    gat g gr st (f n) ->
    exists m r, n <= m /\ gat g gr st (f m) /\ chs m = ChGo g r.
  Proof.
    intros Hst Hg.
    destruct (moves (gat g gr st) (AGo g) n) as (m & Hm & Hgm & Hb).
    - intros s ch s' Hre Hgs Hstep _ Hnb.
      destruct (gor_other _ _ _ _ _ _ Hstep Hgs) as [?|(c & k & cl & _ & Hc & _)]; [|done|].
      + intros r ->. by apply Hnb.
      + simpl in Hc. subst st. done.
    - intros s Hre Hgs. destruct (go_enabled w s g _ Hgs Hst) as [s' Hs']. by exists (ChGo g 0), s'.
    - done.
    - exists m. destruct (chs m) as [| | | |g' r]; try done. simpl in Hb. subst g'. by exists r.
  Qed.

  Lemma exit_done g gr n : gat g gr GExit (f n) -> ev n (gat g gr GDone).
  Proof.
    intros Hg. destruct (gat_step g gr GExit n I Hg) as (m & r & Hm & Hgm & Hch).
    exists (S m). split; [lia|]. pose proof (f_tstep m) as Ht. rewrite Hch in Ht.
    unfold gat in *. inversion Ht as [| | | | | | | | | | | | | | |? ? gr0 Hg0 Hst0 Hch0 Hs0]; subst; simplify_eq.
    proj. rewrite list_lookup_alter, Hgm. done.
  Qed.

  Lemma open_done g gr n : gat g gr GOpen (f n) -> ev n (gat g gr GDone).
  Proof.
    intros Hg. destruct (gat_step g gr GOpen n I Hg) as (m & r & Hm & Hgm & Hch).
    pose proof (f_tstep m) as Ht. rewrite Hch in Ht.
    destruct (exit_done g gr (S m)) as (m' & Hm' & H').
    - unfold gat in *. inversion Ht; subst; simplify_eq. proj. rewrite list_lookup_alter, Hgm. done.
    - exists m'. split; [lia|done].
  Qed.

  (** ** Calls *)
  Definition cat (c : nat) (st : cstate) (s : state) : Prop :=
    exists cl, s_calls s !! c = Some cl /\ c_st cl = st.
  Definition returned (c : nat) (s : state) : Prop := exists e, cat c (CReturned e) s.

  Lemma call_at_step s ch s' c cl :
    reachable w s -> tstep w s ch s' -> s_calls s !! c = Some cl ->
    exists cl', s_calls s' !! c = Some cl' /\ c_targets cl' = c_targets cl /\
     (c_st cl' = c_st cl \/
      (exists i todo, ch = ChLoop c /\ c_st cl = CLoop i todo /\ forall e, c_st cl' <> CReturned e) \/
      (ch = ChReturn c /\ c_st cl = CWaiting /\ exists e, c_st cl' = CReturned e)).
  Proof.
    intros Hre Hstep Hc. pose proof (inv_shape_holds _ _ Hre) as Hsh.
    destruct (call_step _ _ _ _ _ _ Hsh Hstep Hc) as (cl' & Hc' & _ & _ & Ht & _).
    exists cl'. split_and!; [done|done|].
    destruct (call_step_inv _ _ _ _ _ _ Hstep Hc')
      as [(cl2 & Hc2 & _ & _ & _ & Hs)|(p & cx & ts & -> & _)].
    - simplify_eq. naive_solver.
    - apply lookup_lt_Some in Hc. lia.
  Qed.

  Lemma loop_step c i todo n :
    cat c (CLoop i todo) (f n) ->
    exists m, n <= m /\ cat c (CLoop i todo) (f m) /\ chs m = ChLoop c.
  Proof.
    intros Hc. destruct (moves (cat c (CLoop i todo)) (ALoop c) n) as (m & Hm & Hcm & Hb).
    - intros s ch s' Hre (cl & Hcl & Hst) Hstep _ Hnb.
      destruct (call_at_step _ _ _ _ _ Hre Hstep Hcl) as (cl' & Hcl' & _ & [Hs|[(j & td & -> & _)|(_ & Hw & _)]]).
      + exists cl'; split; [done|congruence].
      + by destruct Hnb.
      + congruence.
    - intros s Hre (cl & Hcl & Hst). exists (ChLoop c). simpl. unfold step_loop. rewrite Hcl. simpl.
      rewrite Hst. destruct todo; eauto.
    - done.
    - exists m. destruct (chs m) as [| |c'| |]; try done. simpl in Hb. by subst c'.
  Qed.

  Lemma loop_step_to s s' c i t todo :
    tstep w s (ChLoop c) s' -> cat c (CLoop i (t :: todo)) s -> cat c (CLoop (S i) todo) s'.
  Proof.
    intros Ht (cl & Hcl & Hst). unfold cat.
    inversion Ht; subst; simplify_eq; proj; rewrite list_lookup_alter, Hcl; simpl;
      eexists; (split; [done|]); simpl; congruence.
  Qed.
  Lemma loop_end_to s s' c i :
    tstep w s (ChLoop c) s' -> cat c (CLoop i []) s -> cat c CWaiting s'.
  Proof.
    intros Ht (cl & Hcl & Hst). unfold cat.
    inversion Ht; subst; simplify_eq; proj; rewrite list_lookup_alter, Hcl; simpl;
      eexists; (split; [done|]); simpl; congruence.
  Qed.
  Lemma return_to s s' c : tstep w s (ChReturn c) s' -> returned c s'.
  Proof.
    intros Ht. unfold returned, cat.
    inversion Ht; subst; simplify_eq; eexists; proj; rewrite list_lookup_alter;
      match goal with Hx : s_calls s !! c = Some _ |- _ => rewrite Hx end; simpl; eexists; done.
  Qed.

  Lemma loop_ends c i todo n : cat c (CLoop i todo) (f n) -> ev n (cat c CWaiting).
  Proof.
    revert i n. induction todo as [|t todo IH]; intros i n Hc;
      destruct (loop_step _ _ _ _ Hc) as (m & Hm & Hcm & Hch);
      pose proof (f_tstep m) as Ht; rewrite Hch in Ht.
    - exists (S m). split; [lia|]. by eapply loop_end_to.
    - destruct (IH (S i) (S m)) as (m' & Hm' & H'); [by eapply loop_step_to|].
      exists m'. split; [lia|done].
  Qed.

  Definition gor_done (g : nat) (s : state) : Prop :=
    exists gr, s_gors s !! g = Some gr /\ g_st gr = GDone.

  Lemma gor_done_mono g n m : n <= m -> gor_done g (f n) -> gor_done g (f m).
  Proof.
    intros Hm H. induction Hm as [|m Hm IH]; [done|].
    destruct IH as (gr & Hg & Hd). exists gr. split; [|done].
    eapply done_step; eauto using f_tstep.
  Qed.

  Lemma waiting_step s ch s' c g gr :
    reachable w s -> tstep w s ch s' -> cat c CWaiting s ->
    s_gors s' !! g = Some gr -> g_call gr = c -> exists gr', s_gors s !! g = Some gr' /\ g_call gr' = c.
  Proof.
    intros Hre Hstep (cl & Hcl & Hst) Hg Hgc.
    destruct (gor_step_inv _ _ _ _ _ _ Hstep Hg)
      as [(gr0 & Hgr & E)|(c2 & cl2 & i & o & todo & ca & -> & -> & Hc2 & Est & _ & _ & _ & E)].
    - exists gr0. split; [done|]. by rewrite E in Hgc.
    - rewrite E in Hgc. simpl in Hgc. simplify_eq. congruence.
  Qed.

  (** A call whose goroutines all finish returns. *)
  Lemma call_returns c n cl :
    s_calls (f n) !! c = Some cl ->
    (forall m g gr, n <= m -> s_gors (f m) !! g = Some gr -> g_call gr = c -> ev m (gor_done g)) ->
    ev n (returned c).
  Proof.
    intros Hcl Hall.
    assert (Hw : ev n (fun s => cat c CWaiting s \/ returned c s)).
    { destruct (c_st cl) as [i todo| |e] eqn:Est.
      - destruct (loop_ends c i todo n) as (m & Hm & H); [by exists cl|]. exists m. split; [done|by left].
      - apply ev_now. left. by exists cl.
      - apply ev_now. right. exists e. by exists cl. }
    eapply ev_trans; [exact Hw|]. clear cl Hcl Hw. intros n1 Hn1 [Hcw|Hr]; [|by apply ev_now].
    (* from now on, no new goroutine joins until it returns *)
    assert (Hstay : forall m, n1 <= m -> ev n1 (returned c) \/
       (cat c CWaiting (f m) /\ forall g gr, s_gors (f m) !! g = Some gr -> g_call gr = c ->
           exists gr', s_gors (f n1) !! g = Some gr' /\ g_call gr' = c)).
    { intros m Hm. induction Hm as [|m Hm [IH|[IH1 IH2]]]; [by right; eauto|by left|].
      destruct IH1 as (cl & Hcl & Hst).
      destruct (call_at_step _ _ _ _ _ (f_reach m) (f_tstep m) Hcl)
        as (cl' & Hcl' & _ & [Hs|[(j & td & _ & Hs & _)|(_ & _ & e & He)]]); [|congruence|].
      - right. split; [exists cl'; split; [done|congruence]|].
        intros g gr Hg Hgc.
        destruct (waiting_step _ _ _ c g gr (f_reach m) (f_tstep m)) as (gr' & Hg' & Hgc');
          [by exists cl|done|done|]. eauto.
      - left. exists (S m). split; [lia|]. exists e. by exists cl'. }
    assert (Hdone : forall N, exists m, n1 <= m /\ forall g gr, g < N -> s_gors (f n1) !! g = Some gr ->
               g_call gr = c -> gor_done g (f m)).
    { induction N as [|N (m & Hm & IH)]; [exists n1; split; [done|lia]|].
      destruct (s_gors (f n1) !! N) as [gr|] eqn:EN.
      - destruct (decide (g_call gr = c)) as [Hgc|Hne].
        + destruct (Hall n1 N gr Hn1 EN Hgc) as (m' & Hm' & Hd).
          exists (m `max` m'). split; [lia|]. intros g gr' Hlt Hg Hc'.
          destruct (decide (g = N)) as [->|].
          * eapply gor_done_mono; [|exact Hd]. lia.
          * eapply (gor_done_mono g m); [lia|]. eapply IH; eauto. lia.
        + exists m. split; [done|]. intros g gr' Hlt Hg Hc'.
          destruct (decide (g = N)) as [->|]; [congruence|]. eapply IH; eauto. lia.
      - exists m. split; [done|]. intros g gr' Hlt Hg Hc'.
        destruct (decide (g = N)) as [->|]; [congruence|]. eapply IH; eauto. lia. }
    destruct (Hdone (length (s_gors (f n1)))) as (m & Hm & Hd).
    destruct (Hstay m Hm) as [Hr|(Hcm & Hold)]; [done|].
    set (P := fun s => exists cl, s_calls s !! c = Some cl /\ c_st cl = CWaiting /\ c_wg cl = 0).
    assert (HP : P (f m)).
    { destruct Hcm as (cl & Hcl & Hst). exists cl. split_and!; [done|done|].
      rewrite (inv_wg_holds _ _ (f_reach m) _ _ Hcl). apply countb_none. intros g gr Hg.
      unfold live_of. destruct (decide (g_call gr = c)) as [Hgc|Hne].
      - destruct (Hold _ _ Hg Hgc) as (gr' & Hg' & Hgc').
        destruct (Hd g gr' (lookup_lt_Some _ _ _ Hg') Hg' Hgc') as (gr2 & Hg2 & Hd2). simplify_eq.
        unfold g_done. rewrite Hd2. by rewrite andb_false_r.
      - by rewrite bool_decide_eq_false_2. }
    destruct (moves P (AReturn c) m) as (m2 & Hm2 & HP2 & Hb); [| |done|].
    - intros s ch s' Hre (cl & Hcl & Hst & Hwg) Hstep Hre' Hnb.
      destruct (call_at_step _ _ _ _ _ Hre Hstep Hcl)
        as (cl' & Hcl' & _ & [Hs|[(j & td & _ & Hs & _)|(-> & _)]]); [|congruence|by destruct Hnb].
      exists cl'. split_and!; [done|congruence|].
      rewrite (inv_wg_holds _ _ Hre' _ _ Hcl'). apply countb_none. intros g gr Hg.
      unfold live_of. destruct (decide (g_call gr = c)) as [Hgc|Hne]; [|by rewrite bool_decide_eq_false_2].
      destruct (waiting_step _ _ _ c g gr Hre Hstep) as (gr' & Hg' & Hgc'); [by exists cl|done|done|].
      pose proof (wg_zero_done _ _ _ _ _ _ Hre Hcl Hwg Hg' Hgc') as Hd'.
      rewrite (done_step _ _ _ _ _ _ Hstep Hg' Hd') in Hg. simplify_eq.
      unfold g_done. rewrite Hd'. by rewrite andb_false_r.
    - intros s Hre (cl & Hcl & Hst & Hwg). exists (ChReturn c).
      simpl. unfold step_return. rewrite Hcl. simpl. rewrite Hst, Hwg.
      destruct (c_parent cl) as [g|] eqn:Ep; [|eauto].
      destruct (proj1 (inv_parent_holds _ _ Hre) c cl g) as (gr & k & Hg & Hk); [done|done|by rewrite Hst|].
      assert (Hx : forall s1, s_gors (if decide (c_targets cl = []) then s1 else dec_depth s1) = s_gors s1)
        by (intros; by destruct (decide _)).
      rewrite Hx. proj. rewrite Hg. simpl. rewrite Hk, decide_True by done. eauto.
    - exists (S m2). split; [lia|]. pose proof (f_tstep m2) as Ht.
      destruct (chs m2) as [| | |c'|]; try done. simpl in Hb. subst c'. by eapply return_to.
  Qed.

  (** ** Goroutines *)
  Definition Dep (a b : addr) : Prop := exists n, depends w (s_log (f n)) a b.
  Definition fin_at (a : addr) : Prop :=
    forall n g gr cx, s_gors (f n) !! g = Some gr -> g_key gr = a -> finite (body w (g_obj gr) cx).

  Lemma calling_returns g gr c k n :
    gat g gr (GCalling c k) (f n) -> ev n (returned c) ->
    exists m e, n <= m /\ gat g gr (GBody (k e)) (f m).
  Proof.
    intros Hg (m & Hm & e & cl & Hcl & Hst).
    assert (Hx : forall m, n <= m -> gat g gr (GCalling c k) (f m) \/
              exists m e, n <= m /\ gat g gr (GBody (k e)) (f m)).
    { clear -Hex Hg. intros m Hm. induction Hm as [|m Hm [IH|IH]]; [by left| |by right].
      destruct (calling_step _ _ _ _ _ _ _ _ (f_tstep m) IH eq_refl) as [H|(_ & cl & _ & _ & _ & _ & _ & H)].
      - by left.
      - right. exists (S m), (join (c_errs cl)). split; [lia|]. exact H. }
    destruct (Hx m Hm) as [H|H]; [|done].
    destruct (proj2 (inv_parent_holds _ _ (f_reach m)) _ _ _ _ H eq_refl) as (cl' & Hcl' & _ & Hnr).
    simplify_eq. by destruct (Hnr e).
  Qed.

  Definition key_done (a : addr) : Prop :=
    forall n g gr, s_gors (f n) !! g = Some gr -> g_key gr = a -> ev n (gor_done g).

  Lemma gat_done g gr n : ev n (gat g gr GDone) -> ev n (gor_done g).
  Proof. intros (m & Hm & H). exists m. split; [done|]. eexists; split; [exact H|done]. Qed.

  Lemma calling_call_returns a g gr c k n :
    (forall b, tc Dep a b -> key_done b) ->
    gat g gr (GCalling c k) (f n) -> g_key gr = a -> ev n (returned c).
  Proof.
    intros IH Hg Hk.
    destruct (proj2 (inv_parent_holds _ _ (f_reach n)) _ _ _ _ Hg eq_refl) as (cl & Hcl & Hp & Hnr).
    eapply call_returns; [exact Hcl|]. intros m g' gr' Hm Hg' Hgc.
    destruct (inv_link_holds _ _ (f_reach m) _ _ Hg') as (cl' & o & Hc' & Ht & Hk' & _).
    eapply IH; [|exact Hg'|reflexivity]. rewrite Hk'.
    (* the call was already there at time n, with the same targets *)
    assert (Hsame : exists cl2, s_calls (f m) !! c = Some cl2 /\ c_targets cl2 = c_targets cl).
    { clear -Hex Hcl Hm. induction Hm as [|m Hm (cl2 & H1 & H2)]; [eauto|].
      destruct (call_at_step _ _ _ _ _ (f_reach m) (f_tstep m) H1) as (cl3 & H3 & H4 & _).
      exists cl3. split; [done|congruence]. }
    destruct Hsame as (cl2 & Hc2 & Ht2). rewrite Hgc in Hc'. simplify_eq.
    eapply (tc_mono (depends w (s_log (f n)))); [by exists n|].
    change (g_key gr) with (g_key (set_gst (GCalling (g_call gr') k) gr)).
    eapply (call_dep _ _ _ _ (g_call gr') (c_cx cl) (c_targets cl)); [apply f_reach|exact Hg| |].
    - apply (proj1 (inv_calls_holds _ _ (f_reach n))). eauto.
    - rewrite <-Ht2. by eapply elem_of_list_lookup_2.
  Qed.

  Lemma body_done a g gr p :
    (forall b, tc Dep a b -> key_done b) -> g_key gr = a -> finite p ->
    forall n, gat g gr (GBody p) (f n) -> ev n (gat g gr GDone).
  Proof.
    intros IHa Hk Hp.
    induction Hp as [e|cx ts k _ IH|d k _ IH|l k _ IH]; intros n Hg;
      destruct (gat_step _ _ (GBody _) n I Hg) as (m & r & Hm & Hgm & Hch);
      pose proof (f_tstep m) as Ht; rewrite Hch in Ht; remember (f (S m)) as s' eqn:Es.
    - destruct (open_done g gr (S m)) as (m' & Hm' & H').
      + unfold gat in *. inversion Ht; subst s'; simplify_eq; proj; simplify_eq. match goal with Hx : _ = f (S m) |- _ => rewrite <-Hx end. proj. rewrite list_lookup_alter, Hgm. done.
      + exists m'. split; [lia|done].
    - assert (Hc : exists c, gat g gr (GCalling c k) (f (S m))).
      { exists (length (s_calls (f m))). unfold gat in *.
        inversion Ht; subst s'; simplify_eq; proj; simplify_eq. match goal with Hx : _ = f (S m) |- _ => rewrite <-Hx end. proj. rewrite list_lookup_alter, Hgm. done. }
      destruct Hc as [c Hc].
      pose proof (calling_call_returns a _ _ _ _ _ IHa Hc Hk) as Hret.
      destruct (calling_returns _ _ _ _ _ Hc Hret) as (m2 & e & Hm2 & Hb).
      destruct (IH e m2 Hb) as (m3 & Hm3 & H3). exists m3. split; [lia|done].
    - assert (Hc : exists r, gat g gr (GBody (k r)) (f (S m))).
      { unfold gat in *. inversion Ht; subst s'; simplify_eq; proj; simplify_eq. exists res. match goal with Hx : _ = f (S m) |- _ => rewrite <-Hx end. proj.
        rewrite list_lookup_alter, Hgm. done. }
      destruct Hc as [x Hc]. destruct (IH x (S m) Hc) as (m3 & Hm3 & H3). exists m3. split; [lia|done].
    - assert (Hc : exists r, gat g gr (GBody (k r)) (f (S m))).
      { unfold gat in *. inversion Ht; subst s'; simplify_eq; proj; simplify_eq. exists r. match goal with Hx : _ = f (S m) |- _ => rewrite <-Hx end. proj.
        rewrite list_lookup_alter, Hgm. done. }
      destruct Hc as [x Hc]. destruct (IH x (S m) Hc) as (m3 & Hm3 & H3). exists m3. split; [lia|done].
  Qed.

  (** The goroutine that runs the body for [a] finishes. *)
  Lemma owner_done a g gr n :
    fin_at a -> (forall b, tc Dep a b -> key_done b) -> g_key gr = a ->
    s_gors (f n) !! g = Some gr -> is_owner gr = true -> ev n (gat g gr GDone).
  Proof.
    intros Hfin IHa Hk Hg Ho.
    assert (Hid : gr = set_gst (g_st gr) gr) by (by destruct gr).
    pose proof (proj1 (inv_hist_holds _ _ (f_reach n)) _ _ Hg) as Hh. unfold hist_ok in Hh.
    unfold is_owner in Ho. destruct (g_st gr) as [| |p|c k| | |] eqn:Est; try done.
    - eapply body_done; [done|done| |unfold gat; rewrite <-Hid; exact Hg].
      exact (runs_finite _ _ _ _ _ _ Hh (Hfin _ _ _ _ Hg Hk)).
    - assert (Hc : gat g gr (GCalling c k) (f n)) by (unfold gat; rewrite <-Hid; exact Hg).
      pose proof (calling_call_returns a _ _ _ _ _ IHa Hc Hk) as Hret.
      destruct (calling_returns _ _ _ _ _ Hc Hret) as (m2 & e & Hm2 & Hb).
      destruct (body_done a g gr (k e) IHa Hk) with (n := m2) as (m3 & Hm3 & H3); [|done|].
      + exact (runs_finite _ _ _ _ _ _ Hh (Hfin _ _ _ _ Hg Hk) e).
      + exists m3. split; [lia|done].
    - apply open_done. unfold gat. rewrite <-Hid. exact Hg.
  Qed.

  Lemma open_mono s ch s' a oc :
    reachable w s -> tstep w s ch s' -> s_ran s !! a = Some oc -> o_open oc = true ->
    s_ran s' !! a = Some oc.
  Proof.
    intros Hre Hstep Ha Ho.
    destruct (ran_step _ _ _ _ a Hstep) as [-> |(g & r & gr & -> & Hg & Hk & Hcase)]; [done|].
    pose proof (proj1 (inv_ran_holds _ _ Hre) _ _ Hg) as Hok. unfold st_ok in Hok.
    destruct Hcase as [(Hn & _)|[(e & Hst & _)|(Hst & _)]].
    - congruence.
    - rewrite Hst, Hk, Ha in Hok. simplify_eq.
    - rewrite Hst, Hk, Ha in Hok. destruct Hok as (e & Hok & _). simplify_eq.
  Qed.

  Lemma wait_done a g gr n :
    fin_at a -> (forall b, tc Dep a b -> key_done b) -> g_key gr = a -> gat g gr GWait (f n) ->
    ev n (gat g gr GDone).
  Proof.
    intros Hfin IHa Hk Hg.
    (* the gate opens *)
    assert (Hopen : ev n (fun s => exists oc, s_ran s !! a = Some oc /\ o_open oc = true)).
    { pose proof (proj1 (inv_ran_holds _ _ (f_reach n)) _ _ Hg) as Hok. unfold st_ok in Hok. simpl in Hok.
      destruct Hok as [oc Hoc]. rewrite Hk in Hoc.
      destruct (o_open oc) eqn:Eo; [apply ev_now; eauto|].
      destruct (proj2 (proj2 (inv_ran_holds _ _ (f_reach n))) _ _ Hoc Eo) as (g' & gr' & Hg' & Hk' & Ho).
      destruct (owner_done a g' gr' n Hfin IHa Hk' Hg' Ho) as (m & Hm & Hd).
      exists m. split; [done|].
      pose proof (proj1 (inv_ran_holds _ _ (f_reach m)) _ _ Hd) as Hok. unfold st_ok in Hok. simpl in Hok.
      destruct Hok as (e & Hok & _). rewrite Hk' in Hok. eauto. }
    (* g still waits then, or is already past it *)
    assert (Hstay : forall m, n <= m -> gat g gr GWait (f m) \/ exists m', n <= m' /\ gat g gr GExit (f m')).
    { clear -Hex Hg. intros m Hm. induction Hm as [|m Hm [IH|IH]]; [by left| |by right].
      destruct (choice_go_dec (chs m) g) as [[r Hch]|Hch].
      - pose proof (f_tstep m) as Ht. rewrite Hch in Ht. right. exists (S m). split; [lia|].
        unfold gat in *. remember (f (S m)) as s'. inversion Ht; subst s'; simplify_eq; proj; simplify_eq; try done.
        proj. rewrite list_lookup_alter, IH. done.
      - left. destruct (gor_other _ _ _ _ _ _ (f_tstep m) IH Hch) as [?|(c & k & cl & _ & Hc & _)]; done. }
    destruct Hopen as (m & Hm & oc & Hoc & Ho).
    destruct (Hstay m Hm) as [Hgw|(m' & Hm' & He)].
    - set (P := fun s => gat g gr GWait s /\ s_ran s !! a = Some oc).
      destruct (moves P (AGo g) m) as (m2 & Hm2 & [HP1 HP2] & Hb).
      + intros s ch s' Hre [H1 H2] Hstep _ Hnb. split; [|by eapply open_mono].
        destruct (gor_other _ _ _ _ _ _ Hstep H1) as [?|(c & k & cl & _ & Hc & _)]; [|done|done].
        intros r ->. by apply Hnb.
      + intros s Hre [H1 H2]. exists (ChGo g 0). simpl. unfold step_go. unfold gat in H1.
        rewrite H1. simpl. rewrite Hk, H2, Ho. eauto.
      + done.
      + destruct (Hstay (S m2)) as [Hw|(m' & Hm' & He)]; [lia| |].
        * exfalso. destruct (chs m2) as [| | | |g' r] eqn:Hch; try done. simpl in Hb. subst g'.
          pose proof (f_tstep m2) as Ht. rewrite Hch in Ht. unfold gat in *.
          remember (f (S m2)) as s'. inversion Ht; subst s'; simplify_eq; proj; simplify_eq; try done.

          match goal with Hx : _ = f (S m2) |- _ => rewrite <-Hx in Hw end. proj.
          rewrite list_lookup_alter, HP1 in Hw. done.
        * destruct (exit_done _ _ _ He) as (m3 & Hm3 & H3). exists m3. split; [lia|done].
    - destruct (exit_done _ _ _ He) as (m3 & Hm3 & H3). exists m3. split; [lia|done].
  Qed.

  Lemma safe_tc a : safe w Dep a -> forall b, tc Dep a b -> safe w Dep b.
  Proof. intros Ha b Hb. induction Hb as [a b Hb|a b c Hb _ IH]; [|apply IH]; inversion Ha; eauto. Qed.

  Lemma safe_fin a : safe w Dep a -> fin_at a.
  Proof.
    intros Ha n g gr cx Hg Hk. unfold body. destruct (w_deferred w (g_obj gr)) eqn:E; [apply finite_deferred|].
    destruct (key_obj_dep _ _ _ _ (f_reach n) Hg) as [Ho|Hd].
    - destruct Ha as [Hf _]. apply Hf; congruence.
    - rewrite Hk in Hd. destruct Ha as [_ Hs]. destruct (Hs (w_addr w (g_obj gr))) as [Hf _]; [by exists n|].
      by apply Hf.
  Qed.

  Lemma all_keys_done a : safe w Dep a -> key_done a.
  Proof.
    intros Hsafe.
    assert (Hacc : Acc (fun b a => tc Dep a b) a).
    { clear -Hsafe. induction Hsafe as [a _ Hs IH]. constructor. intros b Hb.
      induction Hb as [a b Hb|a b c Hab Hbc IH2]; [by apply IH|].
      eapply Acc_inv; [by apply (IH b)|]. done. }
    induction Hacc as [a _ IH0]. intros n g gr Hg Hk.
    assert (IH : forall b, tc Dep a b -> key_done b) by (intros b Hb; apply IH0; [done|by eapply safe_tc]).
    pose proof (safe_fin _ Hsafe) as Hfin.
    assert (Hid : gr = set_gst (g_st gr) gr) by (by destruct gr).
    apply (gat_done g gr). 
    assert (Hown : is_owner gr = true -> ev n (gat g gr GDone)) by (intros; by eapply owner_done).
    destruct (g_st gr) as [| |p|c k| | |] eqn:Est.
    - assert (Hs : gat g gr GStart (f n)) by (unfold gat; rewrite <-Hid; exact Hg).
      destruct (gat_step _ _ GStart n I Hs) as (m & r & Hm & Hgm & Hch).
      pose proof (f_tstep m) as Ht. rewrite Hch in Ht. remember (f (S m)) as s' eqn:Es.
      unfold gat in Hgm. inversion Ht; subst s'; simplify_eq;
        match goal with Hx : _ = f (S m) |- _ => rename Hx into Hx0 end.
      + destruct (body_done (g_key gr) g gr (body w (g_obj gr) (g_cx gr)) IH eq_refl) with (n := S m)
          as (m3 & Hm3 & H3); [by eapply Hfin| |].
        * unfold gat. rewrite <-Hx0. proj. rewrite list_lookup_alter, Hgm. done.
        * exists m3. split; [lia|done].
      + destruct (wait_done (g_key gr) g gr (S m) Hfin IH eq_refl) as (m3 & Hm3 & H3).
        * unfold gat. rewrite <-Hx0. proj. rewrite list_lookup_alter, Hgm. done.
        * exists m3. split; [lia|done].
    - eapply wait_done; [exact Hfin|exact IH|done|]. unfold gat; rewrite <-Hid; exact Hg.
    - apply Hown. unfold is_owner. by rewrite Est.
    - apply Hown. unfold is_owner. by rewrite Est.
    - apply Hown. unfold is_owner. by rewrite Est.
    - apply exit_done. unfold gat; rewrite <-Hid; exact Hg.
    - apply ev_now. unfold gat; rewrite <-Hid; exact Hg.
  Qed.

  Lemma fair_returns_safe_lem n c p cx ts :
    (forall o, TPtr o ∈ ts -> safe w Dep (w_addr w o)) ->
    EvCall c p cx ts ∈ s_log (f n) -> exists m e, n <= m /\ EvRet c p e ∈ s_log (f m).
  Proof.
    intros Hsafe Hin. pose proof (inv_calls_holds _ _ (f_reach n)) as (C1 & _).
    apply C1 in Hin as (cl & Hc & <- & _ & Hts).
    destruct (call_returns c n cl Hc) as (m & Hm & e & cl' & Hc' & Hst).
    { intros m g gr Hm Hg Hgc. eapply (all_keys_done (g_key gr)); [|exact Hg|done].
      destruct (inv_link_holds _ _ (f_reach m) _ _ Hg) as (cl' & o & Hc' & Ht & Hk' & _).
      rewrite Hk'. apply Hsafe.
      assert (Hsame : exists cl2, s_calls (f m) !! c = Some cl2 /\ c_targets cl2 = c_targets cl).
      { clear -Hex Hc Hm. induction Hm as [|m Hm (cl2 & H1 & H2)]; [eauto|].
        destruct (call_at_step _ _ _ _ _ (f_reach m) (f_tstep m) H1) as (cl3 & H3 & H4 & _).
        exists cl3. split; [done|congruence]. }
      destruct Hsame as (cl2 & Hc2 & Ht2). rewrite Hgc in Hc'. simplify_eq.
      rewrite <-Ht2. by eapply elem_of_list_lookup_2. }
    exists m, e. split; [done|]. apply (proj1 (proj2 (inv_calls_holds _ _ (f_reach m)))).
    exists cl'. split_and!; [done| |done].
    assert (Hsame : exists cl2, s_calls (f m) !! c = Some cl2 /\ c_parent cl2 = c_parent cl).
    { clear -Hex Hc Hm. induction Hm as [|m Hm (cl2 & H1 & H2)]; [eauto|].
      destruct (call_step _ _ _ _ _ _ (inv_shape_holds _ _ (f_reach m)) (f_tstep m) H1) as (cl3 & H3 & H4 & _).
      exists cl3. split; [done|congruence]. }
    destruct Hsame as (cl2 & H1 & H2). congruence.
  Qed.

  Lemma fair_returns_lem n c p cx ts :
    all_finite w -> well_founded (fun b a => Dep a b) ->
    EvCall c p cx ts ∈ s_log (f n) -> exists m e, n <= m /\ EvRet c p e ∈ s_log (f m).
  Proof.
    intros Hfin Hwf. apply fair_returns_safe_lem. intros o _.
    induction (Hwf (w_addr w o)) as [a _ IH]. constructor; [|done]. intros; by apply Hfin.
  Qed.
End exec.
