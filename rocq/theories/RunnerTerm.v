(** Termination: with finite bodies and well-founded dependencies every schedule without new
    client actions ends (C04, second half). *)
From stdpp Require Import base gmap list strings relations.
From Verif Require Import ContextModel RunnerModel RunnerSteps RunnerSpec RunnerSpec2 MultisetOrder.
From Verif Require Import RunnerInv RunnerInv2 RunnerInv3 RunnerInv4 RunnerInv5 RunnerInv6 RunnerProofs RunnerProgress.

(** Pending work. *)
Inductive item :=
  | MSmall (n : nat)
  | MReq (a : addr)
  | MStart (a : addr)
  | MBody (a : addr) (p : prog)
  | MCalling (a : addr) (k : option err -> prog).

Inductive lt_item (R : addr -> addr -> Prop) : item -> item -> Prop :=
  | lt_small n m : n < m -> lt_item R (MSmall n) (MSmall m)
  | lt_small_start n a : lt_item R (MSmall n) (MStart a)
  | lt_small_body n a p : lt_item R (MSmall n) (MBody a p)
  | lt_start_req a : lt_item R (MStart a) (MReq a)
  | lt_body_start a p : finite p -> lt_item R (MBody a p) (MStart a)
  | lt_eff a l k r : lt_item R (MBody a (k r)) (MBody a (Eff l k))
  | lt_res a d k r : lt_item R (MBody a (k r)) (MBody a (Resolve d k))
  | lt_calling a cx ts k : lt_item R (MCalling a k) (MBody a (Call cx ts k))
  | lt_back a k e : lt_item R (MBody a (k e)) (MCalling a k)
  | lt_req a b cx ts k : R a b -> lt_item R (MReq b) (MBody a (Call cx ts k)).

Definition item_ok (x : item) : Prop :=
  match x with
  | MBody _ p => finite p
  | MCalling _ k => forall e, finite (k e)
  | _ => True
  end.

Lemma Acc_small R n : Acc (lt_item R) (MSmall n).
Proof.
  induction (lt_wf n) as [n _ IH]. constructor. intros y Hy. inversion Hy; subst. by apply IH.
Qed.

Lemma Acc_item R : well_founded (fun b a => R a b) -> forall x, item_ok x -> Acc (lt_item R) x.
Proof.
  intros Hwf.
  assert (Hreq : forall a, Acc (lt_item R) (MReq a) /\ Acc (lt_item R) (MStart a) /\
            (forall p, finite p -> Acc (lt_item R) (MBody a p))).
  { intros a. induction (Hwf a) as [a _ IH].
    assert (Hbody : forall p, finite p -> Acc (lt_item R) (MBody a p)).
    { intros p Hp. induction Hp as [e|cx ts k _ IHk|d k _ IHk|l k _ IHk]; constructor;
        intros y Hy; inversion Hy; subst; try apply Acc_small; try apply IHk; try by apply IH.
      constructor. intros y Hy'. inversion Hy'; subst. apply IHk. }
    assert (Hstart : Acc (lt_item R) (MStart a)).
    { constructor. intros y Hy. inversion Hy; subst; [apply Acc_small|by apply Hbody]. }
    split_and!; [|done|done].
    constructor. intros y Hy. inversion Hy; subst. done. }
  intros [n|a|a|a p|a k] Hx; simpl in Hx.
  - apply Acc_small.
  - apply Hreq.
  - apply Hreq.
  - by apply Hreq.
  - constructor. intros y Hy. inversion Hy; subst. by apply Hreq.
Qed.

(** Pending work of a state. *)
Definition t_item (w : world) (t : tref) : item :=
  match t with TPtr o => MReq (w_addr w o) | TNonPtr => MSmall 0 end.
Definition c_items (w : world) (st : cstate) : list item :=
  match st with
  | CLoop _ todo => MSmall 2 :: map (t_item w) todo
  | CWaiting => [MSmall 1]
  | CReturned _ => []
  end.
Definition g_items (gr : gor) : list item :=
  match g_st gr with
  | GStart => [MStart (g_key gr)]
  | GWait => [MSmall 2]
  | GBody p => [MBody (g_key gr) p]
  | GCalling _ k => [MCalling (g_key gr) k]
  | GOpen => [MSmall 2]
  | GExit => [MSmall 1]
  | GDone => []
  end.
Definition citems (w : world) (cs : list call) : list item := cs ≫= (fun cl => c_items w (c_st cl)).
Definition gitems (gs : list gor) : list item := gs ≫= g_items.
Definition measure (w : world) (s : state) : list item := citems w (s_calls s) ++ gitems (s_gors s).

Lemma bind_alter {A B} (f : A -> list B) (i : nat) (l : list A) x :
  l !! i = Some x ->
  exists rest, l ≫= f ≡ₚ f x ++ rest /\ forall h, alter h i l ≫= f ≡ₚ f (h x) ++ rest.
Proof.
  revert i. induction l as [|y l IH]; intros [|i] Hi; simpl in Hi; simplify_eq.
  - exists (l ≫= f). done.
  - destruct (IH _ Hi) as (rest & H1 & H2). exists (f y ++ rest). split.
    + cbn. unfold mbind in H1. rewrite H1. by rewrite Permutation_app_swap_app.
    + intros h. specialize (H2 h). cbn. unfold mbind, alter in H2. rewrite H2.
      by rewrite Permutation_app_swap_app.
Qed.

Lemma citems_alter w (cs : list call) c cl :
  cs !! c = Some cl ->
  exists rest, citems w cs ≡ₚ c_items w (c_st cl) ++ rest /\
    forall h, citems w (alter h c cs) ≡ₚ c_items w (c_st (h cl)) ++ rest.
Proof.
  intros H. destruct (bind_alter (fun cl => c_items w (c_st cl)) c cs cl H) as (rest & H1 & H2).
  exists rest. done.
Qed.

Lemma citems_same w (cs : list call) c h :
  (forall cl, c_st (h cl) = c_st cl) -> citems w (alter h c cs) = citems w cs.
Proof.
  intros Hh. unfold citems. revert c. induction cs as [|cl cs IH]; intros c; [by destruct c|].
  destruct c as [|c].
  - change (alter h 0 (cl :: cs)) with (h cl :: cs). rewrite !bind_cons. by rewrite Hh.
  - change (alter h (S c) (cl :: cs)) with (cl :: alter h c cs). rewrite !bind_cons. by rewrite IH.
Qed.

Lemma gitems_alter (gs : list gor) g gr :
  gs !! g = Some gr ->
  exists rest, gitems gs ≡ₚ g_items gr ++ rest /\
    forall h, gitems (alter h g gs) ≡ₚ g_items (h gr) ++ rest.
Proof. apply bind_alter. Qed.

Lemma citems_app w (l1 l2 : list call) : citems w (l1 ++ l2) = citems w l1 ++ citems w l2.
Proof. apply bind_app. Qed.
Lemma gitems_app (l1 l2 : list gor) : gitems (l1 ++ l2) = gitems l1 ++ gitems l2.
Proof. apply bind_app. Qed.

(** ** Each internal step decreases the pending work *)
Definition regs_in (tr0 tr : list event) : Prop :=
  forall name o, EvRegister name o ∈ tr -> EvRegister name o ∈ tr0.

Lemma depends_mono w tr tr0 a b : regs_in tr0 tr -> depends w tr a b -> depends w tr0 a b.
Proof. intros Hr H. destruct H; [by eapply dep_body|]. eapply dep_name; eauto. Qed.

Lemma tc_mono {A} (R1 R2 : relation A) a b :
  (forall a b, R1 a b -> R2 a b) -> tc R1 a b -> tc R2 a b.
Proof.
  intros H Ht. induction Ht as [a b Hab|a b c Hab _ IH]; [by apply tc_once, H|].
  eapply tc_l; eauto.
Qed.

Lemma regs_in_step w s ch s' tr0 :
  tstep w s ch s' -> internal ch -> regs_in tr0 (s_log s) -> regs_in tr0 (s_log s').
Proof.
  intros Hstep Hint Hr name0 o0 Hin.
  destruct Hstep; simpl in Hint; try done; proj; try (by apply Hr);
    apply elem_of_snoc in Hin as [Hin|Hin]; try done; by apply Hr.
Qed.

Lemma finite_deferred d cx : finite (deferred_prog d cx).
Proof. constructor. intros [e|o]; repeat constructor. Qed.

Lemma finite_body w o cx : all_finite w -> finite (body w o cx).
Proof.
  intros Hf. unfold body. destruct (w_deferred w o) eqn:E; [apply finite_deferred|by apply Hf].
Qed.

Lemma measure_step w s ch s' tr0 :
  all_finite w -> reachable w s -> regs_in tr0 (s_log s) -> internal ch ->
  step w s ch = Some s' ->
  tc (mstep (lt_item (tc (depends w tr0)))) (measure w s') (measure w s).
Proof.
  intros Hfin Hre Hregs Hint Hst.
  assert (Hre' : reachable w s') by (by eapply reachable_step).
  apply step_tstep in Hst as Hstep.
  pose proof (regs_in_step _ _ _ _ _ Hstep Hint Hregs) as Hregs'.
  unfold measure.
  destruct Hstep as [| |c cl i Hc Est|c cl i t todo e Hc Est Hrej|c cl i o todo ca o' Hc Est Hacc
    |c cl Hc Est Hw Hp|c cl g gr k Hc Est Hw Hp Hg Hgst
    |g r gr Hg Est Hran|g r gr oc Hg Est Hran|g r gr oc Hg Est Hran Hop|g r gr e Hg Est
    |g r gr l k Hg Est|g r gr d k ca res Hg Est Hres|g r gr cx ts k Hg Est|g r gr Hg Est|g r gr Hg Est];
    try done; proj.
  - (* loop end *)
    destruct (citems_alter w _ _ _ Hc) as (rest & H1 & H2). rewrite Est in H1.
    apply tc_once. eapply (mstep_app _ (MSmall 2) [MSmall 1] _ _ (rest ++ gitems (s_gors s))).
    + by rewrite H1.
    + by rewrite H2.
    + repeat constructor.
  - (* reject *)
    destruct (citems_alter w _ _ _ Hc) as (rest & H1 & H2). rewrite Est in H1.
    assert (Hx : forall h, c_st (h cl) = CLoop (S i) todo ->
       tc (mstep (lt_item (tc (depends w tr0)))) (citems w (alter h c (s_calls s)) ++ gitems (s_gors s))
         (citems w (s_calls s) ++ gitems (s_gors s))).
    { intros h Hh. apply tc_once.
      eapply (mstep_app _ (t_item w t) [] _ _ ((MSmall 2 :: map (t_item w) todo) ++ rest ++ gitems (s_gors s))).
      + rewrite H1. cbn. rewrite <-!app_assoc. apply Permutation_swap.
      + rewrite H2, Hh. cbn. by rewrite <-!app_assoc.
      + constructor. }
    by apply Hx.
  - (* spawn *)
    destruct (citems_alter w _ _ _ Hc) as (rest & H1 & H2). rewrite Est in H1.
    rewrite gitems_app. cbn [gitems mbind list_bind g_items g_st g_key app].
    assert (Hx : forall h, c_st (h cl) = CLoop (S i) todo ->
       tc (mstep (lt_item (tc (depends w tr0))))
         (citems w (alter h c (s_calls s)) ++ gitems (s_gors s) ++ [MStart (w_addr w o)])
         (citems w (s_calls s) ++ gitems (s_gors s))).
    { intros h Hh. apply tc_once.
      eapply (mstep_app _ (MReq (w_addr w o)) [MStart (w_addr w o)] _ _
                ((MSmall 2 :: map (t_item w) todo) ++ rest ++ gitems (s_gors s))).
      + rewrite H1. cbn. rewrite <-!app_assoc. apply Permutation_swap.
      + rewrite H2, Hh, app_assoc, <-Permutation_cons_append, <-app_assoc. done.
      + repeat constructor. }
    by apply Hx.
  - (* return to a client *)
    destruct (citems_alter w _ _ _ Hc) as (rest & H1 & H2). rewrite Est in H1.
    apply tc_once. eapply (mstep_app _ (MSmall 1) [] _ _ (rest ++ gitems (s_gors s))).
    + by rewrite H1.
    + by rewrite H2.
    + constructor.
  - (* return to a body *)
    destruct (citems_alter w _ _ _ Hc) as (rest & H1 & H2). rewrite Est in H1.
    destruct (gitems_alter _ _ _ Hg) as (grest & H3 & H4). unfold g_items in H3. rewrite Hgst in H3.
    eapply (tc_l _ _ (rest ++ gitems (s_gors s))).
    + eapply (mstep_app _ (MCalling (g_key gr) k) [MBody (g_key gr) (k (join (c_errs cl)))] _ _ (rest ++ grest)).
      * rewrite H3. cbn. by rewrite <-Permutation_middle.
      * rewrite H2, H4. cbn. by rewrite <-Permutation_middle.
      * repeat constructor.
    + apply tc_once. eapply (mstep_app _ (MSmall 1) [] _ _ (rest ++ gitems (s_gors s))).
      * by rewrite H1.
      * done.
      * constructor.
  - (* own *)
    destruct (gitems_alter _ _ _ Hg) as (grest & H3 & H4). unfold g_items in H3. rewrite Est in H3.
    apply tc_once.
    eapply (mstep_app _ (MStart (g_key gr)) [MBody (g_key gr) (body w (g_obj gr) (g_cx gr))] _ _ (citems w (s_calls s) ++ grest)).
    + rewrite H3. cbn. by rewrite <-Permutation_middle.
    + rewrite H4. cbn. by rewrite <-Permutation_middle.
    + repeat constructor. by apply finite_body.
  - (* wait *)
    destruct (gitems_alter _ _ _ Hg) as (grest & H3 & H4). unfold g_items in H3. rewrite Est in H3.
    apply tc_once. eapply (mstep_app _ (MStart (g_key gr)) [MSmall 2] _ _ (citems w (s_calls s) ++ grest)).
    + rewrite H3. cbn. by rewrite <-Permutation_middle.
    + rewrite H4. cbn. by rewrite <-Permutation_middle.
    + repeat constructor.
  - (* woke *)
    rewrite citems_same by done.
    destruct (gitems_alter _ _ _ Hg) as (grest & H3 & H4). unfold g_items in H3. rewrite Est in H3.
    apply tc_once. eapply (mstep_app _ (MSmall 2) [MSmall 1] _ _ (citems w (s_calls s) ++ grest)).
    + rewrite H3. cbn. by rewrite <-Permutation_middle.
    + rewrite H4. cbn. by rewrite <-Permutation_middle.
    + repeat constructor.
  - (* ret *)
    rewrite citems_same by done.
    destruct (gitems_alter _ _ _ Hg) as (grest & H3 & H4). unfold g_items in H3. rewrite Est in H3.
    apply tc_once. eapply (mstep_app _ (MBody (g_key gr) (Ret e)) [MSmall 2] _ _ (citems w (s_calls s) ++ grest)).
    + rewrite H3. cbn. by rewrite <-Permutation_middle.
    + rewrite H4. cbn. by rewrite <-Permutation_middle.
    + repeat constructor.
  - (* eff *)
    destruct (gitems_alter _ _ _ Hg) as (grest & H3 & H4). unfold g_items in H3. rewrite Est in H3.
    apply tc_once. eapply (mstep_app _ (MBody (g_key gr) (Eff l k)) [MBody (g_key gr) (k r)] _ _ (citems w (s_calls s) ++ grest)).
    + rewrite H3. cbn. by rewrite <-Permutation_middle.
    + rewrite H4. cbn. by rewrite <-Permutation_middle.
    + repeat constructor.
  - (* resolve *)
    destruct (gitems_alter _ _ _ Hg) as (grest & H3 & H4). unfold g_items in H3. rewrite Est in H3.
    apply tc_once. eapply (mstep_app _ (MBody (g_key gr) (Resolve d k)) [MBody (g_key gr) (k res)] _ _ (citems w (s_calls s) ++ grest)).
    + rewrite H3. cbn. by rewrite <-Permutation_middle.
    + rewrite H4. cbn. by rewrite <-Permutation_middle.
    + repeat constructor.
  - (* call *)
    rewrite citems_app. cbn [citems mbind list_bind c_st c_items].
    destruct (gitems_alter _ _ _ Hg) as (grest & H3 & H4). unfold g_items in H3. rewrite Est in H3.
    apply tc_once.
    eapply (mstep_app _ (MBody (g_key gr) (Call cx ts k))
              (MCalling (g_key gr) k :: MSmall 2 :: map (t_item w) ts) _ _ (citems w (s_calls s) ++ grest)).
    + rewrite H3. cbn. by rewrite <-Permutation_middle.
    + rewrite H4. cbn [g_items g_st set_gst app].
      rewrite app_nil_r, <-Permutation_middle. constructor.
      rewrite (Permutation_app_comm (citems w (s_calls s))), <-app_assoc. done.
    + constructor; [constructor|]. constructor; [constructor|].
      apply Forall_forall. intros y Hy. apply elem_of_list_fmap in Hy as (t & -> & Ht).
      destruct t as [o|]; simpl; [|constructor]. constructor.
      eapply (tc_mono (depends w (s_log s ++ [EvCall (length (s_calls s)) (Some g) cx ts])));
        [intros ? ?; by apply depends_mono|].
      set (s2 := upd_gor g (GCalling (length (s_calls s)) k) (begin_call (Some g) cx ts s)) in *.
      destruct (gor_step_fwd w s (ChGo g r) s2 g gr) as [st Hg']; [by econstructor|done|].
      assert (Hlog : s_log s2 = s_log s ++ [EvCall (length (s_calls s)) (Some g) cx ts])
        by (unfold s2; by proj).
      rewrite <-Hlog. change (g_key gr) with (g_key (set_gst st gr)).
      eapply (call_dep _ _ _ _ (length (s_calls s)) cx ts); [done|exact Hg'| |done].
      rewrite Hlog. apply elem_of_snoc. by right.
  - (* open *)
    destruct (gitems_alter _ _ _ Hg) as (grest & H3 & H4). unfold g_items in H3. rewrite Est in H3.
    apply tc_once. eapply (mstep_app _ (MSmall 2) [MSmall 1] _ _ (citems w (s_calls s) ++ grest)).
    + rewrite H3. cbn. by rewrite <-Permutation_middle.
    + rewrite H4. cbn. by rewrite <-Permutation_middle.
    + repeat constructor.
  - (* exit *)
    rewrite citems_same by done.
    destruct (gitems_alter _ _ _ Hg) as (grest & H3 & H4). unfold g_items in H3. rewrite Est in H3.
    apply tc_once. eapply (mstep_app _ (MSmall 1) [] _ _ (citems w (s_calls s) ++ grest)).
    + rewrite H3. cbn. by rewrite <-Permutation_middle.
    + rewrite H4. cbn. done.
    + repeat constructor.
Qed.

(** All pending work is well-founded. *)
Lemma runs_finite g a o p h st :
  runs g a o p h st -> finite p ->
  match st with At p' => finite p' | In _ k => forall e, finite (k e) | Fin _ => True end.
Proof.
  induction 1 as [p|e|l k r h st H IH|d k r h st H IH|cx ts k c|cx ts k c e h st H IH]; intros Hf;
    try done; inversion Hf; subst; simpl; try apply IH; auto.
Qed.

Lemma measure_ok w s : all_finite w -> reachable w s -> Forall item_ok (measure w s).
Proof.
  intros Hfin Hre. unfold measure. apply Forall_app. split.
  - unfold citems. apply Forall_bind, Forall_forall. intros cl _.
    change (Forall item_ok (c_items w (c_st cl))). destruct (c_st cl) as [i todo| |]; simpl; [constructor; [done|]|by repeat constructor|constructor].
    apply Forall_forall. intros y Hy. apply elem_of_list_fmap in Hy as (t & -> & _). by destruct t.
  - unfold gitems. apply Forall_bind, Forall_forall. intros gr Hgr.
    apply elem_of_list_lookup in Hgr as [g Hg].
    pose proof (proj1 (inv_hist_holds _ _ Hre) _ _ Hg) as Hh. unfold hist_ok in Hh.
    change (Forall item_ok (g_items gr)). unfold g_items.
    destruct (g_st gr); (apply Forall_nil || apply Forall_singleton); simpl; try done.
    + exact (runs_finite _ _ _ _ _ _ Hh (finite_body _ _ _ Hfin)).
    + exact (runs_finite _ _ _ _ _ _ Hh (finite_body _ _ _ Hfin)).
Qed.

Definition istep (w : world) (s' s : state) : Prop :=
  exists ch, internal ch /\ step w s ch = Some s'.

Lemma tc_flip_wf {A} (R : relation A) :
  well_founded (fun b a => R a b) -> well_founded (fun b a => tc R a b).
Proof.
  intros Hwf a. induction (Hwf a) as [a _ IH]. constructor. intros b Hb.
  induction Hb as [a b Hb|a b c Hab Hbc IH2]; [by apply IH|].
  eapply Acc_inv; [by apply (IH b)|exact Hbc].
Qed.

Lemma istep_acc w s :
  all_finite w -> reachable w s -> well_founded_deps w (s_log s) -> Acc (istep w) s.
Proof.
  intros Hfin Hre Hwf. set (tr0 := s_log s) in *.
  assert (Hr0 : regs_in tr0 (s_log s)) by (intros ? ? Hx; exact Hx). clearbody tr0.
  assert (Hacc : Acc (tc (mstep (lt_item (tc (depends w tr0))))) (measure w s)).
  { apply Acc_tc, Acc_mstep. eapply Forall_impl; [by apply measure_ok|].
    intros x Hx. apply Acc_item; [|done]. by apply tc_flip_wf. }
  remember (measure w s) as m eqn:Em. revert s Hre Hr0 Em.
  induction Hacc as [m _ IH]. intros s Hre Hr0 ->. constructor. intros s' (ch & Hint & Hst).
  apply (IH (measure w s')).
  - by eapply measure_step.
  - by eapply reachable_step.
  - eapply regs_in_step; [by apply step_tstep| |]; done.
  - done.
Qed.

Lemma no_infinite_lem w s (f : nat -> state) :
  all_finite w -> reachable w s -> well_founded_deps w (s_log s) ->
  f 0 = s -> ~ forall n, exists ch, internal ch /\ step w (f n) ch = Some (f (S n)).
Proof.
  intros Hfin Hre Hwf H0 Hall.
  assert (Hacc : Acc (istep w) (f 0)) by (rewrite H0; by apply istep_acc).
  clear H0. remember (f 0) as s0 eqn:E. assert (Hn : exists n, s0 = f n) by (by exists 0).
  clear E. revert Hn. induction Hacc as [s0 _ IH]. intros [n ->].
  apply (IH (f (S n))); [apply Hall|by eexists].
Qed.

(** Whether every call has returned can be decided. *)
Definition call_returned (cl : call) : Prop :=
  match c_st cl with CReturned _ => True | _ => False end.
Global Instance call_returned_dec cl : Decision (call_returned cl).
Proof. unfold call_returned. destruct (c_st cl); apply _. Defined.

Lemma all_returned_or w s :
  reachable w s ->
  all_returned (s_log s) \/
  exists c p cx ts, EvCall c p cx ts ∈ s_log s /\ forall e, EvRet c p e ∉ s_log s.
Proof.
  intros Hre. pose proof (inv_calls_holds _ _ Hre) as (C1 & C2 & _).
  destruct (decide (Forall call_returned (s_calls s)))
    as [Hall|Hnot].
  - left. intros c p cx ts Hin. apply C1 in Hin as (cl & Hc & <- & _).
    rewrite Forall_lookup in Hall. specialize (Hall _ _ Hc). unfold call_returned in Hall.
    destruct (c_st cl) as [| |e] eqn:Est; try done. exists e. apply C2. eauto.
  - right. apply not_Forall_Exists in Hnot; [|intros cl; apply _].
    apply Exists_exists in Hnot as (cl & Hcl & Hst).
    apply elem_of_list_lookup in Hcl as [c Hc].
    exists c, (c_parent cl), (c_cx cl), (c_targets cl). split.
    + apply C1. eauto.
    + intros e He. apply C2 in He as (cl' & Hc' & _ & Hst'). simplify_eq.
      apply Hst. unfold call_returned. by rewrite Hst'.
Qed.

Lemma inevitable_lem w s :
  all_finite w -> reachable w s -> well_founded_deps w (s_log s) ->
  inevitable w (fun s => all_returned (s_log s)) s.
Proof.
  intros Hfin Hre Hwf. pose proof (istep_acc _ _ Hfin Hre Hwf) as Hacc.
  induction Hacc as [s _ IH].
  destruct (all_returned_or _ _ Hre) as [H|(c & p & cx & ts & Hin & Hnr)]; [by apply inev_now|].
  apply inev_later; [by eapply progress_lem|].
  intros ch s' Hint Hst. apply IH.
  - by exists ch.
  - by eapply reachable_step.
  - intros a. pose proof (Hwf a) as Ha. clear -Ha Hst Hint.
    induction Ha as [a _ IHa]. constructor. intros b Hb. apply IHa.
    eapply depends_mono; [|exact Hb].
    eapply regs_in_step; [by apply step_tstep|done|]. by intros ?.
Qed.
