(** Proofs of the trace properties of the runner. *)
From stdpp Require Import base gmap list strings.
From Verif Require Import ContextModel RunnerModel RunnerSteps RunnerSpec.
From Verif Require Import RunnerInv RunnerInv2 RunnerInv3 RunnerInv4 RunnerInv5 RunnerInv6.

Lemma trace_reachable w tr : trace w tr -> exists s, reachable w s /\ s_log s = tr.
Proof. intros (sched & s & H & <-). exists s. split; [by exists sched|done]. Qed.

Lemma reachable_trace w s : reachable w s -> trace w (s_log s).
Proof. intros [sched H]. by exists sched, s. Qed.

Lemma trace_prefix w l1 l2 : trace w (l1 ++ l2) -> trace w l1.
Proof.
  intros Ht. destruct l2 as [|ev l2]; [by rewrite app_nil_r in Ht|].
  apply trace_reachable in Ht as (s & Hre & Hl).
  destruct (log_split _ _ _ _ _ Hre Hl) as (s1 & ch & s2 & H1 & _ & _ & <- & _).
  by apply reachable_trace.
Qed.

Lemma countb_le1 {A} (f : A -> bool) (l : list A) i j x y :
  countb f l <= 1 -> l !! i = Some x -> l !! j = Some y -> f x = true -> f y = true -> i = j.
Proof.
  revert i j. induction l as [|z l IH]; intros i j Hc Hi Hj Hx Hy; [done|].
  simpl in Hc. destruct i as [|i], j as [|j]; simpl in *; simplify_eq.
  - done.
  - rewrite Hx in Hc. exfalso.
    assert (countb f l = 0) as H0 by lia. by rewrite (countb_zero _ _ _ _ H0 Hj) in Hy.
  - rewrite Hy in Hc. exfalso.
    assert (countb f l = 0) as H0 by lia. by rewrite (countb_zero _ _ _ _ H0 Hi) in Hx.
  - f_equal. eapply IH; eauto. destruct (f z); lia.
Qed.

(** C01 *)
Lemma start_unique w tr i j a g1 o1 cx1 g2 o2 cx2 :
  trace w tr -> tr !! i = Some (EvStart g1 a o1 cx1) -> tr !! j = Some (EvStart g2 a o2 cx2) -> i = j.
Proof.
  intros Ht. apply trace_reachable in Ht as (s & Hre & <-).
  pose proof (inv_start_holds _ _ Hre) as (_ & _ & S3). intros Hi Hj.
  eapply (countb_le1 (is_start a)); eauto; simpl; try by rewrite bool_decide_eq_true_2.
  rewrite S3. destruct (s_ran s !! a); lia.
Qed.

Lemma end_unique w tr i j a g1 o1 e1 g2 o2 e2 :
  trace w tr -> tr !! i = Some (EvEnd g1 a o1 e1) -> tr !! j = Some (EvEnd g2 a o2 e2) -> i = j.
Proof.
  intros Ht. apply trace_reachable in Ht as (s & Hre & <-).
  pose proof (inv_end_holds _ _ Hre) as (_ & _ & S3). intros Hi Hj.
  eapply (countb_le1 (is_end a)); eauto; simpl; by rewrite bool_decide_eq_true_2.
Qed.

Lemma end_unique_in w tr a g1 o1 e1 g2 o2 e2 :
  trace w tr -> EvEnd g1 a o1 e1 ∈ tr -> EvEnd g2 a o2 e2 ∈ tr -> g1 = g2 /\ o1 = o2 /\ e1 = e2.
Proof.
  intros Ht [i Hi]%elem_of_list_lookup [j Hj]%elem_of_list_lookup.
  pose proof (end_unique _ _ _ _ _ _ _ _ _ _ _ Ht Hi Hj) as ->. naive_solver.
Qed.

Lemma end_started w tr g a o e :
  trace w tr -> EvEnd g a o e ∈ tr -> exists cx, EvStart g a o cx ∈ tr.
Proof.
  intros Ht. apply trace_reachable in Ht as (s & Hre & <-). intros Hin.
  destruct (proj1 (inv_end_holds _ _ Hre) _ _ _ _ Hin) as (gr & oc & _ & _ & _ & _ & _ & _ & H). eauto.
Qed.

(** Every goroutine runs the target its address stands for, if addresses are injective. *)
Lemma obj_of_key w s g1 g2 gr1 gr2 :
  addr_injective w -> reachable w s -> s_gors s !! g1 = Some gr1 -> s_gors s !! g2 = Some gr2 ->
  g_key gr1 = g_key gr2 -> g_obj gr1 = g_obj gr2.
Proof.
  intros Hinj Hre H1 H2 Hk. pose proof (inv_link_holds _ _ Hre) as Hli.
  destruct (Hli _ _ H1) as (cl1 & o1 & _ & _ & K1 & D1 & E1 & _).
  destruct (Hli _ _ H2) as (cl2 & o2 & _ & _ & K2 & D2 & E2 & _).
  assert (o1 = o2) as -> by (apply Hinj; congruence).
  destruct (w_deferred w o2) as [name|]; [|by rewrite D1, D2].
  specialize (E1 _ eq_refl). specialize (E2 _ eq_refl). congruence.
Qed.

Lemma req_end_same w tr c i a o1 g o2 e :
  addr_injective w -> trace w tr -> EvReq c i a o1 ∈ tr -> EvEnd g a o2 e ∈ tr -> o1 = o2.
Proof.
  intros Hinj Ht. apply trace_reachable in Ht as (s & Hre & <-). intros Hr He.
  apply (inv_req_holds _ _ Hre) in Hr as (g1 & gr1 & Hg1 & _ & _ & K1 & <-).
  destruct (proj1 (inv_end_holds _ _ Hre) _ _ _ _ He) as (gr2 & oc & Hg2 & K2 & <- & _).
  eapply obj_of_key; eauto. congruence.
Qed.

(** The state just before a call returns. *)
Lemma ret_state w l1 c p e l2 :
  trace w (l1 ++ EvRet c p e :: l2) ->
  exists s cl, reachable w s /\ s_log s = l1 /\ s_calls s !! c = Some cl /\ c_parent cl = p /\
    c_st cl = CWaiting /\ c_wg cl = 0 /\ e = join (c_errs cl).
Proof.
  intros Ht. apply trace_reachable in Ht as (s & Hre & Hl).
  destruct (log_split _ _ _ _ _ Hre Hl) as (s1 & ch & s2 & H1 & Hstep & _ & <- & H3).
  exists s1. destruct Hstep; proj;
    try (by apply (f_equal length) in H3; rewrite app_length in H3; simpl in H3; lia);
    apply app_inj_tail in H3 as [_ H3]; simplify_eq; exists cl; split_and!; done.
Qed.

(** The result of each slot of a call whose goroutines are all done. *)
Lemma slot_completed w s c cl i t :
  reachable w s -> s_calls s !! c = Some cl -> c_wg cl = 0 -> cpos cl = length (c_targets cl) ->
  c_targets cl !! i = Some t ->
  exists r, c_errs cl !! i = Some r /\ completed w c i t r (s_log s).
Proof.
  intros Hre Hc Hw Hp Ht.
  pose proof (inv_rej_holds _ _ Hre) as (J1 & J2).
  pose proof (inv_link_holds _ _ Hre) as Hli.
  destruct (J2 _ _ i Hc) as [(g & gr & Hg & Hgc & Hgi)|[e He]].
  { rewrite Hp. by eapply lookup_lt_Some. }
  - assert (Hdone : g_st gr = GDone) by (by eapply wg_zero_done).
    pose proof (inv_ran_holds _ _ Hre) as (R1 & _). pose proof (R1 _ _ Hg) as Hok.
    unfold st_ok in Hok. rewrite Hdone in Hok. destruct Hok as (e & Hr & Hsl).
    unfold slot in Hsl. rewrite Hgc, Hc in Hsl. simpl in Hsl. rewrite Hgi in Hsl.
    exists e. split; [done|].
    destruct (Hli _ _ Hg) as (cl' & o & Hc' & Ht' & K & _). rewrite Hgc in Hc'. simplify_eq.
    pose proof (inv_end_holds _ _ Hre) as (_ & N2 & _).
    destruct (N2 _ _ Hr) as (g2 & o2 & e2 & Hin & He2); [by left|].
    simpl. left. exists (g_obj gr), g2, o2, e2. rewrite <-K. split_and!; [|done|done].
    apply (inv_req_holds _ _ Hre). eauto 10.
  - destruct (J1 _ _ _ He) as (cl' & t' & Hc' & Ht' & _ & Her & _ & Hcase). simplify_eq.
    exists (Some e). split; [done|].
    destruct Hcase as [[-> ->]|(d & name & -> & Hd & ->)]; simpl; eauto.
Qed.

(** C03 *)
Lemma ret_completed w l1 c p e l2 :
  trace w (l1 ++ EvRet c p e :: l2) ->
  exists cx ts rs, EvCall c p cx ts ∈ l1 /\ length rs = length ts /\ e = join rs /\
    forall i t, ts !! i = Some t -> exists r, rs !! i = Some r /\ completed w c i t r l1.
Proof.
  intros Ht. destruct (ret_state _ _ _ _ _ _ Ht) as (s & cl & Hre & <- & Hc & Hp & Hst & Hw & He).
  exists (c_cx cl), (c_targets cl), (c_errs cl). split_and!.
  - apply (proj1 (inv_calls_holds _ _ Hre)). eauto.
  - by destruct (inv_shape_holds _ _ Hre _ _ Hc).
  - done.
  - intros i t Hi. eapply slot_completed; eauto. unfold cpos. by rewrite Hst.
Qed.

Lemma call_unique w tr c p1 cx1 ts1 p2 cx2 ts2 :
  trace w tr -> EvCall c p1 cx1 ts1 ∈ tr -> EvCall c p2 cx2 ts2 ∈ tr ->
  p1 = p2 /\ cx1 = cx2 /\ ts1 = ts2.
Proof.
  intros Ht. apply trace_reachable in Ht as (s & Hre & <-). intros H1 H2.
  apply (proj1 (inv_calls_holds _ _ Hre)) in H1 as (cl1 & ? & ? & ? & ?).
  apply (proj1 (inv_calls_holds _ _ Hre)) in H2 as (cl2 & ? & ? & ? & ?). naive_solver.
Qed.

Lemma req_call w tr c i a o :
  trace w tr -> EvReq c i a o ∈ tr ->
  exists p cx ts d, EvCall c p cx ts ∈ tr /\ ts !! i = Some (TPtr d) /\ a = w_addr w d.
Proof.
  intros Ht. apply trace_reachable in Ht as (s & Hre & <-). intros H.
  apply (inv_req_holds _ _ Hre) in H as (g & gr & Hg & Hgc & Hgi & Hk & Ho).
  destruct (inv_link_holds _ _ Hre _ _ Hg) as (cl & d & Hc & Ht & Hk' & _).
  exists (c_parent cl), (c_cx cl), (c_targets cl), d. split_and!; [|congruence|congruence].
  apply (proj1 (inv_calls_holds _ _ Hre)). rewrite Hgc in Hc. eauto.
Qed.

Lemma req_not_rej w tr c i a o e : trace w tr -> EvReq c i a o ∈ tr -> EvRej c i e ∈ tr -> False.
Proof.
  intros Ht. apply trace_reachable in Ht as (s & Hre & <-). intros H1 H2.
  apply (inv_req_holds _ _ Hre) in H1 as (g & gr & Hg & Hgc & Hgi & Hk & Ho).
  destruct (proj1 (inv_rej_holds _ _ Hre) _ _ _ H2) as (cl & t & _ & _ & _ & _ & Hno & _).
  by eapply Hno.
Qed.

Lemma elem_split_ret w tr c p e :
  trace w tr -> EvRet c p e ∈ tr -> exists l1 l2, tr = l1 ++ EvRet c p e :: l2.
Proof. intros _ H. by apply elem_of_list_split in H. Qed.

(** C02 *)
Lemma requests_agree_lem w tr c1 p1 e1 c2 p2 e2 :
  trace w tr -> EvRet c1 p1 e1 ∈ tr -> EvRet c2 p2 e2 ∈ tr ->
  exists rs1 rs2, e1 = join rs1 /\ e2 = join rs2 /\
    forall i1 i2 a o1 o2, EvReq c1 i1 a o1 ∈ tr -> EvReq c2 i2 a o2 ∈ tr ->
      exists g o e, EvEnd g a o e ∈ tr /\ rs1 !! i1 = Some (wrap o e) /\ rs2 !! i2 = Some (wrap o e).
Proof.
  intros Ht H1 H2.
  assert (Hone : forall c p e, EvRet c p e ∈ tr -> exists rs, e = join rs /\
    forall i a o, EvReq c i a o ∈ tr -> exists g o' r, EvEnd g a o' r ∈ tr /\ rs !! i = Some (wrap o' r)).
  { clear -Ht. intros c p e H. apply elem_of_list_split in H as (l1 & l2 & ->).
    destruct (ret_completed _ _ _ _ _ _ Ht) as (cx & ts & rs & Hcall & Hlen & -> & Hall).
    exists rs. split; [done|]. intros i a o Hreq.
    destruct (req_call _ _ _ _ _ _ Ht Hreq) as (p' & cx' & ts' & d & Hcall' & Hti & ->).
    destruct (call_unique _ _ _ _ _ _ p cx ts Ht Hcall') as (-> & -> & ->).
    { by apply elem_of_app; left. }
    destruct (Hall _ _ Hti) as (r & Hr & Hcomp). simpl in Hcomp.
    destruct Hcomp as [(o1 & g & o2 & e & _ & Hend & ->)|(name & _ & _ & Hrej)].
    - exists g, o2, e. split; [apply elem_of_app; by left|done].
    - exfalso. eapply req_not_rej; eauto. apply elem_of_app; by left. }
  destruct (Hone _ _ _ H1) as (rs1 & E1 & A1). destruct (Hone _ _ _ H2) as (rs2 & E2 & A2).
  exists rs1, rs2. split_and!; [done|done|]. intros i1 i2 a o1 o2 Q1 Q2.
  destruct (A1 _ _ _ Q1) as (g & o & e & He & Hr). destruct (A2 _ _ _ Q2) as (g' & o' & e' & He' & Hr').
  destruct (end_unique_in _ _ _ _ _ _ _ _ _ Ht He He') as (-> & -> & ->). eauto 10.
Qed.

Lemma same_target_same_error_lem w tr o c1 p1 cx1 e1 c2 p2 cx2 e2 :
  trace w tr -> w_deferred w o = None ->
  EvCall c1 p1 cx1 [TPtr o] ∈ tr -> EvRet c1 p1 e1 ∈ tr ->
  EvCall c2 p2 cx2 [TPtr o] ∈ tr -> EvRet c2 p2 e2 ∈ tr -> e1 = e2.
Proof.
  intros Ht Hd C1 R1 C2 R2.
  assert (Hone : forall c p cx e, EvCall c p cx [TPtr o] ∈ tr -> EvRet c p e ∈ tr ->
     exists g o' r, EvEnd g (w_addr w o) o' r ∈ tr /\ e = join [wrap o' r]).
  { clear -Ht Hd. intros c p cx e C R. apply elem_of_list_split in R as (l1 & l2 & ->).
    destruct (ret_completed _ _ _ _ _ _ Ht) as (cx' & ts & rs & Hcall & Hlen & -> & Hall).
    destruct (call_unique _ _ _ p cx [TPtr o] p cx' ts Ht C) as (_ & -> & <-).
    { apply elem_of_app; by left. }
    destruct (Hall 0 _ eq_refl) as (r & Hr & [(o1 & g & o2 & e & _ & Hend & ->)|(name & Hn & _)]).
    - exists g, o2, e. split; [apply elem_of_app; by left|].
      destruct rs as [|r [|]]; simpl in *; try done. congruence.
    - congruence. }
  destruct (Hone _ _ _ _ C1 R1) as (g & o1 & r1 & E1 & ->).
  destruct (Hone _ _ _ _ C2 R2) as (g' & o2 & r2 & E2 & ->).
  destruct (end_unique_in _ _ _ _ _ _ _ _ _ Ht E1 E2) as (_ & -> & ->). done.
Qed.

Lemma unresolved_lem w l1 c i name l2 :
  trace w (l1 ++ EvRej c i (EUnresolved name) :: l2) -> forall o, EvRegister name o ∉ l1.
Proof.
  intros Ht o Hin. apply trace_reachable in Ht as (s & Hre & Hl).
  destruct (log_split _ _ _ _ _ Hre Hl) as (s1 & ch & s2 & H1 & Hstep & _ & <- & H3).
  pose proof (unresolved_unregistered _ _ _ _ _ _ _ H1 Hstep H3) as Hn.
  apply (proj1 (proj2 (inv_reg_holds _ _ H1))) in Hin as [? ?]. congruence.
Qed.

Lemma join_none rs : join rs = None <-> forall i r, rs !! i = Some r -> r = None.
Proof.
  unfold join. split.
  - intros H i r Hi. destruct r as [e|]; [|done]. exfalso.
    assert (Hin : e ∈ omap id rs).
    { apply elem_of_list_omap. exists (Some e). split; [by eapply elem_of_list_lookup_2|done]. }
    destruct (omap id rs); [by apply elem_of_nil in Hin|done].
  - intros H. assert (omap id rs = []) as ->; [|done].
    destruct (omap id rs) as [|e l] eqn:E; [done|].
    assert (Hin : e ∈ omap id rs) by (rewrite E; left).
    apply elem_of_list_omap in Hin as (x & [i Hi]%elem_of_list_lookup & Hx).
    apply H in Hi as ->. done.
Qed.

(** A call that returns nil: every target succeeded. *)
Lemma ret_none_succeeded w l1 c p cx ts l2 i t :
  trace w (l1 ++ EvRet c p None :: l2) -> EvCall c p cx ts ∈ l1 -> ts !! i = Some t ->
  succeeded w t l1.
Proof.
  intros Ht Hcall Hi.
  destruct (ret_completed _ _ _ _ _ _ Ht) as (cx' & ts' & rs & Hcall' & Hlen & He & Hall).
  destruct (call_unique w l1 _ _ _ _ _ _ _ (trace_prefix _ _ _ Ht) Hcall Hcall') as (_ & -> & ->).
  destruct (Hall _ _ Hi) as (r & Hr & Hc). symmetry in He.
  apply (proj1 (join_none rs) He) in Hr as ->.
  destruct t as [o|]; simpl in Hc; [|naive_solver].
  destruct Hc as [(o1 & g & o2 & e & _ & Hend & Hw)|(name & _ & ? & _)]; [|done].
  destruct e; [done|]. exists o, g, o2. done.
Qed.

(** ** Depth (C11) *)
Lemma returned_in_spec w s c cl :
  reachable w s -> s_calls s !! c = Some cl ->
  returned_in (s_log s) c = match c_st cl with CReturned _ => true | _ => false end.
Proof.
  intros Hre Hc. pose proof (inv_calls_holds _ _ Hre) as (C1 & C2 & _).
  destruct (returned_in (s_log s) c) eqn:E.
  - apply existsb_exists in E as (ev & Hin & Hev). apply elem_of_list_In in Hin.
    destruct ev; try done. apply bool_decide_eq_true_1 in Hev as ->.
    apply C2 in Hin as (cl' & Hc' & _ & Hst). simplify_eq. by rewrite Hst.
  - destruct (c_st cl) as [| |e] eqn:Est; try done.
    assert (Hin : EvRet c (c_parent cl) e ∈ s_log s) by (apply C2; eauto).
    assert (returned_in (s_log s) c = true); [|congruence].
    apply existsb_exists. eexists. split; [by apply elem_of_list_In|]. simpl.
    by apply bool_decide_eq_true_2.
Qed.

Definition call_open (P : nat -> bool) (x : nat * option nat * ctx * list tref) : bool :=
  match x with (c, _, _, ts) => negb (P c) && negb (bool_decide (ts = [])) end.

Lemma in_progress_omap tr0 tr :
  length (List.filter (fun ev => match ev with
                            | EvCall c _ _ (_ :: _) => negb (returned_in tr0 c)
                            | _ => false
                            end) tr) =
  countb (call_open (returned_in tr0)) (omap ev_call tr).
Proof.
  induction tr as [|ev tr IH]; [done|].
  destruct ev as [|c p cx ts| | | | | | |]; simpl; try exact IH.
  destruct ts as [|t ts]; simpl.
  - rewrite andb_false_r. exact IH.
  - rewrite andb_true_r. destruct (negb (returned_in tr0 c)); simpl; [f_equal|]; exact IH.
Qed.

Lemma countb_imap {A B} (f : B -> bool) (g : A -> bool) (h : nat -> A -> B) (l : list A) :
  (forall i x, l !! i = Some x -> f (h i x) = g x) -> countb f (imap h l) = countb g l.
Proof.
  revert h. induction l as [|x l IH]; intros h H; simpl; [done|].
  rewrite (H 0 x) by done. f_equal. apply IH. intros i y Hy. by apply (H (S i)).
Qed.

Lemma depth_lem w s : reachable w s -> s_depth s = Z.of_nat (in_progress (s_log s)).
Proof.
  intros Hre. rewrite (inv_depth_holds _ _ Hre). f_equal.
  unfold in_progress. rewrite in_progress_omap, (inv_call_list _ _ Hre). symmetry.
  apply countb_imap. intros c cl Hc. unfold call_open, call_info, c_active.
  rewrite (returned_in_spec _ _ _ _ Hre Hc). by destruct (c_st cl).
Qed.

Lemma depth_return_lem w s c cl s' :
  reachable w s -> s_calls s !! c = Some cl -> c_targets cl <> [] ->
  step w s (ChReturn c) = Some s' -> s_depth s' = (s_depth s - 1)%Z.
Proof.
  intros Hre Hc Hts Hstep. apply step_tstep in Hstep as Ht.
  assert (Hre' : reachable w s') by (by eapply reachable_step).
  assert (Hpos : (0 < s_depth s)%Z).
  { rewrite (inv_depth_holds _ _ Hre). assert (0 < countb c_active (s_calls s)); [|lia].
    destruct (countb c_active (s_calls s)) eqn:E; [|lia].
    pose proof (countb_zero _ _ _ _ E Hc) as Hx. unfold c_active in Hx.
    rewrite bool_decide_eq_false_2 in Hx by done.
    assert (c_st cl = CWaiting) as Hw by (inversion Ht; subst; by simplify_eq).
    by rewrite Hw in Hx. }
  inversion Ht; subst; simplify_eq; proj; rewrite maybe_dec_depth; proj;
    rewrite decide_False by done; lia.
Qed.
