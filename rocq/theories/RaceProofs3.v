From stdpp Require Import base gmap list strings relations.
From Verif Require Import ContextModel RunnerModel RunnerSteps RunnerInv RunnerInv2 RunnerInv3 RunnerInv4 RaceModel RaceSpec RaceProofs RaceProofs2.
Local Open Scope list_scope.

(** Written when the outcome for [ad] was made. *)
Definition made (s : state) (T : trc) (k : nat) (ad : addr) : Prop :=
  closed T k MCon /\ forall g gr, s_gors s !! g = Some gr -> g_key gr = ad -> g_st gr <> GStart -> known T k (TGo g).
Definition is_open (s : state) (ad : addr) : Prop := exists oc, s_ran s !! ad = Some oc /\ o_open oc = true.

Record rinv (s : state) (T : trc) : Prop := {
  i_guard : forall k t a x m, T !! k = Some (t, a) -> touches x a -> mutex_of x = Some m -> closed T k m;
  i_made : forall k t a ad, T !! k = Some (t, a) -> touches (LErr ad) a \/ touches (LOpen ad) a -> is_Some (s_ran s !! ad);
  i_open : forall k t a ad, T !! k = Some (t, a) -> touches (LOpen ad) a -> closed T k (MGate ad) \/ made s T k ad;
  i_errw : forall k t ad, T !! k = Some (t, Wr (LErr ad)) -> made s T k ad \/
    (exists g gr, t = TGo g /\ s_gors s !! g = Some gr /\ g_key gr = ad /\ g_st gr = GOpen) \/ (closed T k (MGate ad) /\ is_open s ad);
  i_errr : forall k t ad, T !! k = Some (t, Rd (LErr ad)) -> is_open s ad;
  i_errs : forall k t a c i, T !! k = Some (t, a) -> touches (LErrs c i) a ->
    (is_Some (s_calls s !! c) /\ t = thread_of s c) \/
    exists g gr, t = TGo g /\ s_gors s !! g = Some gr /\ g_call gr = c /\ g_idx gr = i /\ (g_st gr = GDone -> exists u, k < u /\ T !! u = Some (t, Done c));
  i_errs_known : forall g gr k a, s_gors s !! g = Some gr -> g_st gr <> GDone ->
    T !! k = Some (thread_of s (g_call gr), a) -> touches (LErrs (g_call gr) (g_idx gr)) a -> known T k (TGo g);
  i_args : forall k t a g, T !! k = Some (t, a) -> touches (LArgs g) a -> g < length (s_gors s) /\ (a = Wr (LArgs g) -> known T k (TGo g));
  i_vars : forall k t a c, T !! k = Some (t, a) -> touches (LVars c) a -> is_Some (s_calls s !! c) /\
    (a = Wr (LVars c) -> t = thread_of s c /\ forall g gr, s_gors s !! g = Some gr -> g_call gr = c -> known T k (TGo g));
}.

Section step.
  Context (w : world) (s s' : state) (ch : choice) (T : trc).
  Context (Hre : reachable w s) (I : rinv s T) (Hst : tstep w s ch s').
  Notation t := (actor s ch).
  Notation acts := (actions w s ch).
  Notation T' := (add T t acts).

  Lemma past_start g gr : s_gors s !! g = Some gr -> g_st gr <> GStart -> is_Some (s_ran s !! g_key gr).
  Proof.
    intros Hg Hn. pose proof (proj1 (inv_ran_holds w s Hre) g gr Hg) as Hok. unfold st_ok in Hok.
    revert Hok Hn; destruct (g_st gr); intros Hok Hn; try done; try (by rewrite Hok); destruct Hok as (e & Hok & _); by rewrite Hok.
  Qed.
  Lemma body_closed g gr p : s_gors s !! g = Some gr -> g_st gr = GBody p -> ~ is_open s (g_key gr).
  Proof.
    intros Hg Hn (oc & Ho & Hop). pose proof (proj1 (inv_ran_holds w s Hre) g gr Hg) as Hok. unfold st_ok in Hok.
    rewrite Hn in Hok. rewrite Hok in Ho. by simplify_eq.
  Qed.
  Lemma open_closed g gr : s_gors s !! g = Some gr -> g_st gr = GOpen -> ~ is_open s (g_key gr).
  Proof.
    intros Hg Hn (oc & Ho & Hop). pose proof (proj1 (inv_ran_holds w s Hre) g gr Hg) as Hok. unfold st_ok in Hok.
    rewrite Hn in Hok. destruct Hok as (e & Hok & _). rewrite Hok in Ho. by simplify_eq.
  Qed.
  Lemma no_next c cl i x todo g gr : s_calls s !! c = Some cl -> c_st cl = CLoop i (x :: todo) -> s_gors s !! g = Some gr -> g_call gr = c -> g_idx gr <> i.
  Proof.
    intros Hc Est Hg Hgc Hi. destruct (inv_link_holds w s Hre g gr Hg) as (cl' & o & Hc' & _ & _ & _ & _ & Hp & _).
    rewrite Hgc, Hc in Hc'. injection Hc' as <-. destruct (shape_next _ _ _ _ _ _ (inv_shape_holds w s Hre) Hc Est) as (_ & Hp' & _). lia.
  Qed.
  Lemma woken g r gr : ch = ChGo g r -> s_gors s !! g = Some gr -> g_st gr = GWait -> is_open s (g_key gr).
  Proof. intros E Hg Hw. pose proof Hst as Hx. rewrite E in Hx. inversion Hx; simplify_eq; try congruence. by eexists. Qed.

  Lemma block_ordered : ordered T t acts.
  Proof.
    intros l1 a l2 x i u b E Ha Hi Hb Hw.
    destruct (mutex_of x) as [m|] eqn:Hm.
    { destruct (actions_guarded _ _ _ _ _ _ _ _ E Ha Hm) as [Hl _]. eapply known_locked; [|exact Hl]. by eapply (i_guard _ _ I). }
    destruct x as [| | |ad|ad|c j|c|g|d]; try discriminate Hm.
    - destruct (touch_err _ _ _ _ _ _ _ E Ha) as (g & r & gr & Ech & Hg & Hk & [(Est & Hn & -> & _)|[(Est & -> & Hl)|(e & Est & ->)]]); subst ad.
      + destruct (i_made _ _ I _ _ _ _ Hi (or_introl Hb)) as [? Hx]. congruence.
      + destruct Hw as [Hw|Hw]; [discriminate Hw|]. subst b. destruct (i_errw _ _ I _ _ _ Hi) as [[_ Hx]|[(g0 & gr0 & -> & Hg0 & Hk0 & Hs0)|[Hx _]]].
        * apply known_add. rewrite Ech. apply (Hx g gr Hg eq_refl). by rewrite Est.
        * exfalso. rewrite <-Hk0 in *. eapply (open_closed g0 gr0 Hg0 Hs0). rewrite Hk0. by eapply woken.
        * eapply known_locked; done.
      + destruct Hb as [-> | ->].
        * exfalso. eapply (body_closed g gr _ Hg Est). by eapply (i_errr _ _ I).
        * destruct (i_errw _ _ I _ _ _ Hi) as [[_ Hx]|[(g0 & gr0 & -> & Hg0 & Hk0 & Hs0)|[_ Hx]]].
          -- apply known_add. rewrite Ech. apply (Hx g gr Hg eq_refl). by rewrite Est.
          -- exfalso. destruct (inv_ran_holds w s Hre) as (_ & Hun & _).
             assert (g0 = g) as ->. { eapply (Hun g0 g gr0 gr); try done; unfold is_owner; by rewrite ?Hs0, ?Est. }
             rewrite Hg in Hg0. simplify_eq. congruence.
          -- exfalso. by eapply (body_closed g gr _ Hg Est).
    - destruct (touch_open _ _ _ _ _ _ _ E Ha) as (g & r & gr & Ech & Hg & Hk & [(Est & Hn & _)|(Est & Hl & _)]); subst ad.
      + destruct (i_made _ _ I _ _ _ _ Hi (or_intror Hb)) as [? Hx]. congruence.
      + destruct (i_open _ _ I _ _ _ _ Hi Hb) as [Hx|[_ Hx]]; [by eapply known_locked|]. apply known_add. rewrite Ech. by eapply Hx.
    - destruct (i_errs _ _ I _ _ _ _ _ Hi Hb) as [[Hs Eu]|(g & gr & Eu & Hg & Hc & Hj & Hd)];
        destruct (touch_errs _ _ _ _ _ _ _ _ E Ha) as [[-> Hbg]|[(cl & y & todo & Ech & Hcl & Est & _)|[(cl & Ech & Hcl & Hl)|(g' & r & gr' & Ech & Hg' & Hc' & Hj' & Est)]]].
      + destruct Hs as [? Hs]. apply lookup_lt_Some in Hs. lia.
      + apply known_add. rewrite Ech. simpl. rewrite Eu in Hi. by eapply known_self.
      + apply known_add. rewrite Ech. simpl. rewrite Eu in Hi. by eapply known_self.
      + apply known_add. rewrite Ech. simpl. subst c j. rewrite Eu in Hi. eapply (i_errs_known _ _ I g' gr' i b Hg'); [|exact Hi|exact Hb].
        destruct Est as [Est|[e Est]]; by rewrite Est.
      + exfalso. destruct (inv_link_holds w s Hre g gr Hg) as (cl & o & Hcl & _). rewrite Hc in Hcl. apply lookup_lt_Some in Hcl. lia.
      + exfalso. by eapply (no_next c cl j y todo g gr).
      + pose proof Hst as Hst'. rewrite Ech in Hst'. inversion Hst'; simplify_eq.
        all: pose proof (wg_zero_done w s _ _ g gr Hre ltac:(eassumption) ltac:(eassumption) Hg eq_refl) as Hdn.
        all: destruct (Hd Hdn) as (v & Hlt & Hv); eapply (known_waited _ _ (g_call gr)); eauto.
      + apply known_add. rewrite Ech. simpl. assert (g' = g) as -> by (eapply (inv_uniq_holds w s Hre); [exact Hg'|exact Hg|congruence|congruence]).
        rewrite Eu in Hi. by eapply known_self.
    - destruct (i_vars _ _ I _ _ _ _ Hi Hb) as [Hs Hx].
      destruct (touch_vars _ _ _ _ _ _ _ E Ha) as [[-> Hbg]|(g & r & gr & Ech & Hg & Hc & ->)].
      + destruct Hs as [? Hs]. apply lookup_lt_Some in Hs. lia.
      + destruct Hw as [Hw|Hw]; [discriminate Hw|]. apply known_add. rewrite Ech. simpl. by eapply (proj2 (Hx Hw)).
    - destruct (i_args _ _ I _ _ _ _ Hi Hb) as [Hs Hx].
      destruct (touch_args _ _ _ _ _ _ _ E Ha) as [(r & gr & Ech & Hg & ->)|(c & Ech & -> & _)].
      + destruct Hw as [Hw|Hw]; [discriminate Hw|]. apply known_add. rewrite Ech. simpl. by apply Hx.
      + lia.
  Qed.

  Lemma thread_kept c : is_Some (s_calls s !! c) -> is_Some (s_calls s' !! c) /\ thread_of s' c = thread_of s c.
  Proof.
    intros [cl Hc]. destruct (call_step _ _ _ _ _ _ (inv_shape_holds w s Hre) Hst Hc) as (cl' & Hc' & Hp & _).
    split; [by eexists|]. unfold thread_of. by rewrite Hc, Hc', Hp.
  Qed.
  Lemma ran_kept ad : is_Some (s_ran s !! ad) -> is_Some (s_ran s' !! ad).
  Proof.
    intros [oc Ho]. destruct (ran_step w s ch s' ad Hst) as [E|(g & r & gr & _ & _ & _ & [(Hn & _)|[(e & _ & E & _)|(_ & E & _)]])].
    - by rewrite E, Ho.
    - congruence.
    - by rewrite E, Ho.
    - by rewrite E, Ho.
  Qed.
  Lemma open_kept ad : is_open s ad -> is_open s' ad.
  Proof.
    intros (oc & Ho & Hop). unfold is_open. destruct (ran_step w s ch s' ad Hst) as [E|(g & r & gr & _ & _ & _ & [(Hn & _)|[(e & _ & E & _)|(_ & E & _)]])].
    - rewrite E, Ho. by eexists.
    - congruence.
    - rewrite E, Ho. simpl. by eexists.
    - rewrite E, Ho. simpl. by eexists.
  Qed.
  (** A goroutine that is new, or has moved, or has not. *)
  Lemma gor_cases g gr' : s_gors s' !! g = Some gr' ->
    (exists gr, s_gors s !! g = Some gr /\ g_call gr' = g_call gr /\ g_idx gr' = g_idx gr /\ g_key gr' = g_key gr /\
      (g_st gr' = g_st gr \/ (exists r, ch = ChGo g r) \/ (exists c k p, g_st gr = GCalling c k /\ g_st gr' = GBody p))) \/
    (exists c cl i o todo, g = length (s_gors s) /\ ch = ChLoop c /\ s_calls s !! c = Some cl /\ c_st cl = CLoop i (TPtr o :: todo) /\
      Spawn g ∈ acts /\ g_call gr' = c /\ g_idx gr' = i /\ g_st gr' = GStart).
  Proof.
    intros Hg'. destruct (gor_step_inv _ _ _ _ _ _ Hst Hg') as [(gr & Hg & E)|(c & cl & i & o & todo & ca & -> & Ech & Hc & Est & Hacc & _ & _ & E)].
    - left. exists gr. split; [done|]. rewrite E. simpl. split; [done|]. split; [done|]. split; [done|].
      destruct (choice_go_dec ch g) as [?|Hno]; [by right; left|].
      destruct (gor_other _ _ _ _ _ _ Hst Hg Hno) as [Hs|(c & k & cl & _ & Hs & _ & _ & _ & _ & Hs')].
      + left. congruence.
      + right. right. exists c, k, (k (join (c_errs cl))). split; [done|]. rewrite Hg' in Hs'. injection Hs' as ->. done.
    - right. exists c, cl, i, o, todo. split; [done|]. split; [done|]. split; [done|]. split; [done|].
      split; [|by rewrite E]. rewrite Ech. cbn [actions]. rewrite Hc, Est. unfold loop_acts.
      destruct Hacc as [Hd|name ca o' Hd Hr]; rewrite Hd; [right; left|].
      apply elem_of_app. right. assert (Hx : exists s1, resolve w o s = (s1, inr o')); [|destruct Hx as [s1 ->]; right; left].
      unfold resolve. inversion Hr as [x Hx|Hx Hy|name' Hx Hy Hz|name' x Hx Hy Hz]; rewrite Hx; rewrite ?Hy, ?Hz; by eexists.
  Qed.
  Lemma begins_thread : begins s ch -> is_Some (s_calls s' !! length (s_calls s)) /\ t = thread_of s' (length (s_calls s)).
  Proof.
    intros Hb.
    assert (Hx : exists cl, s_calls s' = s_calls s ++ [cl] /\ t = match c_parent cl with Some g => TGo g | None => TCall (length (s_calls s)) end).
    { pose proof Hst as Hst'. destruct Hb as [(cx & ts & E)|(g & r & gr & cx & ts & k & E & Hg & Es)]; rewrite E in Hst' |- *.
      - inversion Hst'; simplify_eq. rewrite begin_call_calls. by eexists.
      - inversion Hst'; simplify_eq; try congruence. proj. by eexists. }
    destruct Hx as (cl & Ec & Et). unfold thread_of. rewrite Ec, lookup_app_r, Nat.sub_diag by lia. simpl. split; [by eexists|done].
  Qed.
  Lemma made_kept k ad : made s T k ad -> made s' T' k ad.
  Proof.
    intros [Hcl Hk]. split; [by apply closed_add|]. intros g gr' Hg' Hkey Hns.
    destruct (gor_cases g gr' Hg') as [(gr & Hg & _ & _ & Hky & Hmv)|(c & cl & i & o & todo & _ & _ & _ & _ & _ & _ & _ & E)]; [|done].
    assert (Hd : g_st gr = GStart \/ g_st gr <> GStart) by (destruct (g_st gr); auto; right; discriminate).
    destruct Hd as [Hd|Hd]; [|apply known_add; apply (Hk g gr Hg); congruence].
    destruct Hmv as [Hmv|[[r Ech]|(c & k' & p & Hx & _)]]; [congruence| |congruence].
    pose proof (known_locked T k MCon t acts Hcl) as Hx. replace (TGo g) with t by (by rewrite Ech). apply Hx. rewrite Ech. simpl. unfold go_acts. rewrite Hg, Hd. right. left.
  Qed.
  Lemma not_done g gr gr' : s_gors s !! g = Some gr -> s_gors s' !! g = Some gr' -> g_st gr' <> GDone -> g_st gr <> GDone.
  Proof.
    intros Hg Hg' Hn Hd. destruct (gor_cases g gr' Hg') as [(gr1 & Hg1 & _ & _ & _ & Hmv)|(c & cl & i & o & todo & -> & _)].
    - rewrite Hg in Hg1. injection Hg1 as <-. destruct Hmv as [Hmv|[[r Ech]|(c & k' & p & Hx & _)]]; [congruence| |congruence].
      pose proof Hst as Hst'. rewrite Ech in Hst'. inversion Hst'; simplify_eq; congruence.
    - apply lookup_lt_Some in Hg. lia.
  Qed.

  Lemma block_inv : rinv s' T'.
  Proof.
    split.
    - intros k u a x m Hk Hx Hm. destruct (add_lookup _ _ _ _ _ Hk) as [Hk'|(l1 & a' & l2 & E & -> & Ex)].
      + apply closed_add. by eapply (i_guard _ _ I).
      + injection Ex as -> ->. rewrite E. apply closed_new. by eapply (actions_guarded w s ch).
    - intros k u a ad Hk Hx. destruct (add_lookup _ _ _ _ _ Hk) as [Hk'|(l1 & a' & l2 & E & -> & Ex)].
      + apply ran_kept. by eapply (i_made _ _ I).
      + injection Ex as -> ->.
        assert (Hg : exists g r gr, ch = ChGo g r /\ s_gors s !! g = Some gr /\ g_key gr = ad /\ ((g_st gr = GStart /\ s_ran s !! ad = None) \/ g_st gr <> GStart)).
        { destruct Hx as [Hx|Hx].
          - destruct (touch_err _ _ _ _ _ _ _ E Hx) as (g & r & gr & Ech & Hg & Hky & Hs). exists g, r, gr. split_and!; try done.
            destruct Hs as [(? & ? & _)|[(Hs & _)|(e & Hs & _)]]; [by left|right; congruence|right; congruence].
          - destruct (touch_open _ _ _ _ _ _ _ E Hx) as (g & r & gr & Ech & Hg & Hky & Hs). exists g, r, gr. split_and!; try done.
            destruct Hs as [(? & ? & _)|(Hs & _)]; [by left|by right]. }
        destruct Hg as (g & r & gr & Ech & Hg & <- & [[Hs Hn]|Hs]); [|by apply ran_kept, (past_start g)].
        pose proof Hst as Hst'. rewrite Ech in Hst'. inversion Hst'; simplify_eq; try congruence. proj. rewrite lookup_insert. by eexists.
    - intros k u a ad Hk Hx. destruct (add_lookup _ _ _ _ _ Hk) as [Hk'|(l1 & a' & l2 & E & -> & Ex)].
      + destruct (i_open _ _ I _ _ _ _ Hk' Hx) as [Hc|Hm]; [left; by apply closed_add|right; by apply made_kept].
      + injection Ex as -> ->. destruct (touch_open _ _ _ _ _ _ _ E Hx) as (g & r & gr & Ech & Hg & Hky & [(Hs & Hn & Hl)|(Hs & _ & Hl)]).
        * right. split; [rewrite E; by apply closed_new|]. intros g1 gr1 Hg1 Hk1 Hs1.
          assert (g1 = g) as ->; [|replace (TGo g) with t by (by rewrite Ech); by eapply known_self].
          destruct (gor_cases g1 gr1 Hg1) as [(gr0 & Hg0 & _ & _ & Hk0 & Hmv)|(? & ? & ? & ? & ? & _ & _ & _ & _ & _ & _ & _ & ?)]; [|done].
          assert (Hs0 : g_st gr0 = GStart).
          { destruct (g_st gr0) eqn:E0; try done; destruct (past_start g1 gr0 Hg0 ltac:(by rewrite E0)) as [? Hx0]; congruence. }
          destruct Hmv as [?|[[r1 E1]|(? & ? & ? & ? & _)]]; congruence.
        * left. rewrite E. by apply closed_new.
    - intros k u ad Hk. destruct (add_lookup _ _ _ _ _ Hk) as [Hk'|(l1 & a' & l2 & E & -> & Ex)].
      + destruct (i_errw _ _ I _ _ _ Hk') as [Hm|[(g & gr & -> & Hg & Hky & Hs)|[Hc Ho]]]; [left; by apply made_kept| |right; right; split; [by apply closed_add|by apply open_kept]].
        right. destruct (gor_step_fwd _ _ _ _ _ _ Hst Hg) as [st' Hg'].
        destruct (gor_cases g _ Hg') as [(gr0 & Hg0 & _ & _ & _ & Hmv)|(? & ? & ? & ? & ? & El & _)]; [|apply lookup_lt_Some in Hg; lia].
        rewrite Hg in Hg0. injection Hg0 as <-. simpl in Hmv. destruct Hmv as [Hmv|[[r Ech]|(? & ? & ? & Hx & _)]]; [|right|congruence].
        { left. exists g, (set_gst st' gr). simpl. split_and!; congruence. }
        assert (Eb : acts = [Lock (MGate ad); Rd (LOpen ad); Wr (LOpen ad); Unlock (MGate ad)]).
        { rewrite Ech. simpl. unfold go_acts. by rewrite Hg, Hs, Hky. }
        split.
        * exists (TGo g), (Wr (LErr ad)), (length T + 3). split; [by apply add_old|]. split; [apply lookup_lt_Some in Hk'; lia|].
          rewrite Eb, Ech. simpl. exact (add_new T (TGo g) [Lock (MGate ad); Rd (LOpen ad); Wr (LOpen ad)] (Unlock (MGate ad)) []).
        * pose proof Hst as Hst'. rewrite Ech in Hst'. inversion Hst'; simplify_eq; try congruence. unfold is_open. proj. rewrite lookup_alter.
          destruct (past_start g gr Hg ltac:(by rewrite Hs)) as [oc Ho]. rewrite Ho. simpl. by eexists.
      + injection Ex as -> <-. destruct (touch_err _ _ _ _ _ _ _ E (or_intror eq_refl)) as (g & r & gr & Ech & Hg & Hky & [(Hs & Hn & _ & Hl)|[(_ & ? & _)|(e & Hs & _)]]); [|done|].
        * left. split; [rewrite E; by apply closed_new|]. intros g1 gr1 Hg1 Hk1 Hs1.
          assert (g1 = g) as ->; [|replace (TGo g) with t by (by rewrite Ech); by eapply known_self].
          destruct (gor_cases g1 gr1 Hg1) as [(gr0 & Hg0 & _ & _ & Hk0 & Hmv)|(? & ? & ? & ? & ? & _ & _ & _ & _ & _ & _ & _ & ?)]; [|done].
          assert (Hs0 : g_st gr0 = GStart).
          { destruct (g_st gr0) eqn:E0; try done; destruct (past_start g1 gr0 Hg0 ltac:(by rewrite E0)) as [? Hx0]; congruence. }
          destruct Hmv as [?|[[r1 E1]|(? & ? & ? & ? & _)]]; congruence.
        * right. left. exists g, (set_gst GOpen gr). rewrite Ech. split; [done|]. split; [|by split].
          pose proof Hst as Hst'. rewrite Ech in Hst'. inversion Hst'; simplify_eq; try congruence. proj. by rewrite list_lookup_alter, Hg.
    - intros k u ad Hk. destruct (add_lookup _ _ _ _ _ Hk) as [Hk'|(l1 & a' & l2 & E & -> & Ex)].
      + apply open_kept. by eapply (i_errr _ _ I).
      + injection Ex as -> <-. destruct (touch_err _ _ _ _ _ _ _ E (or_introl eq_refl)) as (g & r & gr & Ech & Hg & Hky & [(_ & _ & ? & _)|[(Hs & _ & _)|(e & _ & ?)]]); [done| |done].
        apply open_kept. rewrite <-Hky. by eapply woken.
    - intros k u a c i Hk Hx. destruct (add_lookup _ _ _ _ _ Hk) as [Hk'|(l1 & a' & l2 & E & -> & Ex)].
      + destruct (i_errs _ _ I _ _ _ _ _ Hk' Hx) as [[Hs Eu]|(g & gr & Eu & Hg & Hc & Hi & Hd)].
        * left. destruct (thread_kept c Hs) as [Hs' Ht]. by rewrite Ht.
        * right. destruct (gor_step_fwd _ _ _ _ _ _ Hst Hg) as [st' Hg']. exists g, (set_gst st' gr). split_and!; try done. simpl. intros ->.
          destruct (gor_cases g _ Hg') as [(gr0 & Hg0 & _ & _ & _ & Hmv)|(? & ? & ? & ? & ? & El & _)]; [|apply lookup_lt_Some in Hg; lia].
          rewrite Hg in Hg0. injection Hg0 as <-. simpl in Hmv. destruct Hmv as [Hmv|[[r Ech]|(? & ? & ? & _ & Hx')]]; [| |done].
          { destruct (Hd (eq_sym Hmv)) as (v & Hlt & Hv). exists v. split; [done|by apply add_old]. }
          assert (Hs : g_st gr = GExit \/ g_st gr = GDone).
          { pose proof Hst as Hst'. rewrite Ech in Hst'. inversion Hst'; simplify_eq; proj; rewrite ?list_lookup_alter, ?Hg in Hg'; simplify_eq/=; auto. }
          destruct Hs as [Hs|Hs]; [|destruct (Hd Hs) as (v & Hlt & Hv); exists v; split; [done|by apply add_old]].
          exists (length T). split; [by eapply lookup_lt_Some|]. rewrite Eu. rewrite Ech. simpl. unfold go_acts. rewrite Hg, Hs, Hc.
          pose proof (add_new T (TGo g) [] (Done c) []) as Hl. by rewrite Nat.add_0_r in Hl.
      + injection Ex as -> ->. destruct (touch_errs _ _ _ _ _ _ _ _ E Hx) as [[-> Hbg]|[(cl & y & todo & Ech & Hcl & Est & _)|[(cl & Ech & Hcl & Hl)|(g' & r & gr' & Ech & Hg' & Hc' & Hj' & Est)]]].
        * left. by apply begins_thread.
        * left. destruct (thread_kept c (ex_intro _ _ Hcl)) as [Hs' Ht]. rewrite Ht, Ech. done.
        * left. destruct (thread_kept c (ex_intro _ _ Hcl)) as [Hs' Ht]. rewrite Ht, Ech. done.
        * right. destruct (gor_step_fwd _ _ _ _ _ _ Hst Hg') as [st' Hg1]. exists g', (set_gst st' gr'). rewrite Ech. split_and!; try done. simpl. intros ->. exfalso.
          pose proof Hst as Hst'. rewrite Ech in Hst'. inversion Hst'; simplify_eq; proj; rewrite ?list_lookup_alter, ?Hg' in Hg1; simplify_eq/=; destruct Est as [?|[? ?]]; congruence.
    - intros g gr' k a Hg' Hn Hk Hx. destruct (gor_cases g gr' Hg') as [(gr & Hg & Hc & Hi & _ & _)|(c & cl & i & o & todo & -> & Ech & Hcl & Est & Hsp & Hc & Hi & _)].
      + pose proof (not_done g gr gr' Hg Hg' Hn) as Hnd. rewrite Hc, Hi in *.
        destruct (inv_link_holds w s Hre g gr Hg) as (cl & o & Hcl & _).
        rewrite (proj2 (thread_kept _ (ex_intro _ _ Hcl))) in Hk.
        destruct (add_lookup _ _ _ _ _ Hk) as [Hk'|(l1 & a' & l2 & E & -> & Ex)].
        { apply known_add. by eapply (i_errs_known _ _ I). }
        injection Ex as Eu ->.
        destruct (touch_errs _ _ _ _ _ _ _ _ E Hx) as [[Ec Hbg]|[(cl' & y & todo & Ech & Hcl' & Est & _)|[(cl' & Ech & Hcl' & Hl)|(g1 & r & gr1 & Ech & Hg1 & Hc1 & Hi1 & Est)]]].
        * exfalso. apply lookup_lt_Some in Hcl. lia.
        * exfalso. by eapply (no_next _ cl' _ y todo g gr).
        * exfalso. apply Hnd. pose proof Hst as Hst'. rewrite Ech in Hst'. inversion Hst'; simplify_eq; by eapply (wg_zero_done w s).
        * assert (g1 = g) as -> by (by eapply (inv_uniq_holds w s Hre)). replace (TGo g) with t by (by rewrite Ech). rewrite Eu in Hk. by eapply known_self.
      + subst c i. rewrite (proj2 (thread_kept _ (ex_intro _ _ Hcl))) in Hk.
        destruct (add_lookup _ _ _ _ _ Hk) as [Hk'|(l1 & a' & l2 & E & -> & Ex)].
        { eapply known_spawn; [|exact Hsp]. rewrite Ech. exact Hk'. }
        injection Ex as Eu ->. exfalso.
        destruct (touch_errs _ _ _ _ _ _ _ _ E Hx) as [[Ec Hbg]|[(cl' & y & todo' & Ech' & Hcl' & Est' & Hns)|[(cl' & Ech' & Hcl' & Hl)|(g1 & r & gr1 & Ech' & Hg1 & Hc1 & Hi1 & Est')]]].
        * apply lookup_lt_Some in Hcl. lia.
        * by eapply Hns.
        * congruence.
        * congruence.
    - intros k u a g Hk Hx. destruct (add_lookup _ _ _ _ _ Hk) as [Hk'|(l1 & a' & l2 & E & -> & Ex)].
      + destruct (i_args _ _ I _ _ _ _ Hk' Hx) as [Hl Hw]. split; [|intros Ew; by apply known_add, Hw].
        apply lookup_lt_is_Some in Hl as [gr Hg]. destruct (gor_step_fwd _ _ _ _ _ _ Hst Hg) as [st' Hg']. by eapply lookup_lt_Some.
      + injection Ex as -> ->. destruct (touch_args _ _ _ _ _ _ _ E Hx) as [(r & gr & Ech & Hg & ->)|(c & Ech & -> & Hl)].
        * split; [|done]. destruct (gor_step_fwd _ _ _ _ _ _ Hst Hg) as [st' Hg']. by eapply lookup_lt_Some.
        * split; [|intros _; rewrite E; by apply known_spawn_new].
          assert (Hsp : Spawn (length (s_gors s)) ∈ acts) by (rewrite E; apply elem_of_app; right; by right). clear -Hst Ech Hsp.
          rewrite Ech in Hsp. simpl in Hsp. pose proof Hst as Hst'. rewrite Ech in Hst'. inversion Hst' as [| |? ? ? Hc Est|? ? ? ? ? ? Hc Est Hr|? ? ? ? ? ? ? Hc Est Hr| | | | | | | | | | |]; subst; rewrite Hc, Est in Hsp.
          -- by apply elem_of_nil in Hsp.
          -- exfalso. destruct Hr as [|d name Hd Hca Hreg]; simpl in Hsp.
             ++ apply elem_of_list_singleton in Hsp. done.
             ++ rewrite Hd in Hsp. unfold resolve_acts, resolve in Hsp. rewrite Hca, Hd, Hreg in Hsp. cbn [app] in Hsp.
                repeat (apply elem_of_cons in Hsp as [Hsp|Hsp]; [discriminate Hsp|]). by apply elem_of_nil in Hsp.
          -- proj. rewrite app_length. simpl. lia.
    - intros k u a c Hk Hx. destruct (add_lookup _ _ _ _ _ Hk) as [Hk'|(l1 & a' & l2 & E & -> & Ex)].
      + destruct (i_vars _ _ I _ _ _ _ Hk' Hx) as [Hs Hw]. destruct (thread_kept c Hs) as [Hs' Ht]. split; [done|]. intros Ew. destruct (Hw Ew) as [Eu Hkn].
        split; [congruence|]. intros g gr' Hg' Hc.
        destruct (gor_cases g gr' Hg') as [(gr & Hg & Hc' & _)|(c' & cl & i & o & todo & -> & Ech & Hcl & Est & Hsp & Hc' & Hi & _)].
        * apply known_add. apply (Hkn g gr Hg). congruence.
        * eapply known_spawn; [|exact Hsp]. rewrite Ech. simpl. replace c' with c by congruence. rewrite <-Eu. exact Hk'.
      + injection Ex as -> ->. destruct (touch_vars _ _ _ _ _ _ _ E Hx) as [[-> Hbg]|(g & r & gr & Ech & Hg & Hc & ->)].
        * destruct (begins_thread Hbg) as [Hs Ht]. split; [done|]. intros Ew. split; [done|]. intros g gr' Hg' Hc. exfalso.
          destruct (gor_cases g gr' Hg') as [(gr & Hg & Hc' & _)|(c' & cl & i & o & todo & -> & Ech & Hcl & Est & Hsp & Hc' & Hi & _)].
          -- destruct (inv_link_holds w s Hre g gr Hg) as (cl & o & Hcl & _). apply lookup_lt_Some in Hcl. lia.
          -- destruct Hbg as [(? & ? & ?)|(? & ? & ? & ? & ? & ? & ? & _)]; congruence.
        * split; [|done]. destruct (inv_link_holds w s Hre g gr Hg) as (cl & o & Hcl & _). rewrite Hc in Hcl. by apply thread_kept.
  Qed.
End step.

(** Uses of the registry and of the depth. *)
Lemma use_touches l l1 a l2 x : l = describe_acts \/ l = indent_acts -> l = l1 ++ a :: l2 -> touches x a ->
  mutex_of x = Some MCon /\ Lock MCon ∈ l1 /\ Unlock MCon ∈ l2.
Proof.
  intros [-> | ->] E Hx; unfold describe_acts, indent_acts in E; split_acts; touched; (split; [done|]); split; in_list.
Qed.
Lemma made_more s T k ad t l : made s T k ad -> made s (add T t l) k ad.
Proof. intros [Hc Hk]. split; [by apply closed_add|]. intros g gr Hg Hy Hs. apply known_add. eauto. Qed.
Lemma use_ordered s T t l : rinv s T -> l = describe_acts \/ l = indent_acts -> ordered T t l.
Proof.
  intros I Hl l1 a l2 x i u b E Ha Hi Hb Hw. destruct (use_touches _ _ _ _ _ Hl E Ha) as (Hm & Hk & _).
  eapply known_locked; [|exact Hk]. by eapply (i_guard _ _ I).
Qed.
Lemma use_inv s T t l : rinv s T -> l = describe_acts \/ l = indent_acts -> rinv s (add T t l).
Proof.
  intros I Hl.
  assert (Hold : forall k u a x, add T t l !! k = Some (u, a) -> touches x a -> mutex_of x = None -> T !! k = Some (u, a)).
  { intros k u a x Hk Hx Hm. destruct (add_lookup _ _ _ _ _ Hk) as [Hk'|(l1 & a' & l2 & E & -> & Ex)]; [done|].
    injection Ex as -> ->. destruct (use_touches _ _ _ _ _ Hl E Hx) as [Hm' _]. congruence. }
  split.
  - intros k u a x m Hk Hx Hm. destruct (add_lookup _ _ _ _ _ Hk) as [Hk'|(l1 & a' & l2 & E & -> & Ex)].
    + apply closed_add. by eapply (i_guard _ _ I).
    + injection Ex as -> ->. destruct (use_touches _ _ _ _ _ Hl E Hx) as (Hm' & _ & Hu). rewrite Hm in Hm'. injection Hm' as ->. rewrite E. by apply closed_new.
  - intros k u a ad Hk Hx. eapply (i_made _ _ I k u a); [|exact Hx]. destruct Hx as [Hx|Hx]; by eapply Hold.
  - intros k u a ad Hk Hx. pose proof (Hold _ _ _ _ Hk Hx eq_refl) as Hk'. destruct (i_open _ _ I _ _ _ _ Hk' Hx) as [Hc|Hm]; [left; by apply closed_add|right; by apply made_more].
  - intros k u ad Hk. pose proof (Hold _ _ _ (LErr ad) Hk (or_intror eq_refl) eq_refl) as Hk'.
    destruct (i_errw _ _ I _ _ _ Hk') as [Hm|[Hg|[Hc Ho]]]; [left; by apply made_more|right; by left|right; right; split; [by apply closed_add|done]].
  - intros k u ad Hk. eapply (i_errr _ _ I). exact (Hold _ _ _ (LErr ad) Hk (or_introl eq_refl) eq_refl).
  - intros k u a c i Hk Hx. pose proof (Hold _ _ _ _ Hk Hx eq_refl) as Hk'.
    destruct (i_errs _ _ I _ _ _ _ _ Hk' Hx) as [?|(g & gr & Eu & Hg & Hc & Hi & Hd)]; [by left|right].
    exists g, gr. split_and!; try done. intros Hs. destruct (Hd Hs) as (v & Hlt & Hv). exists v. split; [done|by apply add_old].
  - intros g gr k a Hg Hs Hk Hx. apply known_add. eapply (i_errs_known _ _ I); try done. by eapply Hold.
  - intros k u a g Hk Hx. pose proof (Hold _ _ _ _ Hk Hx eq_refl) as Hk'. destruct (i_args _ _ I _ _ _ _ Hk' Hx) as [? Hw]. split; [done|]. intros E. by apply known_add, Hw.
  - intros k u a c Hk Hx. pose proof (Hold _ _ _ _ Hk Hx eq_refl) as Hk'. destruct (i_vars _ _ I _ _ _ _ Hk' Hx) as [? Hw]. split; [done|]. intros E.
    destruct (Hw E) as [? Hw']. split; [done|]. intros g gr Hg Hc. apply known_add. eauto.
Qed.

Lemma no_data_race w s T : execution w s T -> reachable w s /\ rinv s T /\ race_free T.
Proof.
  induction 1 as [|s T ch s' _ (Hre & Hi & Hr) Hst|s T t l _ (Hre & Hi & Hr) _ Hl].
  - split; [by exists []|]. split; [split; intros; discriminate|]. intros i j t u a b l _ Hi. discriminate Hi.
  - pose proof (step_tstep _ _ _ _ Hst) as Hts. split; [by eapply reachable_step|]. split.
    + by apply (block_inv w s s' ch T).
    + apply race_free_add; [done|]. by apply (block_ordered w s s' ch T).
  - split; [done|]. split; [by apply use_inv|]. apply race_free_add; [done|]. by eapply use_ordered.
Qed.
