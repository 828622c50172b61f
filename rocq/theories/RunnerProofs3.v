(** Deps, ArgTarget, distinct targets, cycles, concrete executions. *)
From stdpp Require Import base gmap list strings.
From Verif Require Import ContextModel RunnerModel RunnerSteps RunnerSpec.
From Verif Require Import RunnerInv RunnerInv2 RunnerInv3 RunnerInv4 RunnerInv5 RunnerInv6 RunnerProofs RunnerProofs2.

Lemma end_obj w tr g o o' e :
  addr_injective w -> trace w tr -> w_deferred w o = None -> EvEnd g (w_addr w o) o' e ∈ tr -> o' = o.
Proof.
  intros Hinj Ht Hd Hin. apply trace_reachable in Ht as (s & Hre & <-).
  destruct (proj1 (inv_end_holds _ _ Hre) _ _ _ _ Hin) as (gr & oc & Hg & Hk & <- & _).
  destruct (inv_link_holds _ _ Hre _ _ Hg) as (cl & o1 & _ & _ & Hk' & Hd' & _).
  assert (o1 = o) as -> by (apply Hinj; congruence). by apply Hd'.
Qed.

Lemma end_split w tr g a o e :
  trace w tr -> EvEnd g a o e ∈ tr ->
  exists l1 l2 cx, tr = l1 ++ EvEnd g a o e :: l2 /\ EvStart g a o cx ∈ l1.
Proof.
  intros Ht Hin. apply elem_of_list_split in Hin as (l1 & l2 & ->). exists l1, l2.
  destruct (end_started w (l1 ++ [EvEnd g a o e]) g a o e) as [cx Hs].
  - rewrite (app_assoc l1 [_] l2 : l1 ++ EvEnd g a o e :: l2 = _) in Ht. by eapply trace_prefix.
  - apply elem_of_snoc; by right.
  - exists cx. split; [done|]. apply elem_of_snoc in Hs as [?|?]; done.
Qed.

Lemma completed_none_succeeded w c i t tr : completed w c i t None tr -> succeeded w t tr.
Proof.
  destruct t as [o|]; simpl; [|naive_solver].
  intros [(o1 & g & o2 & e & _ & He & Hw)|(name & _ & ? & _)]; [|done].
  destruct e; [done|]. by exists o, g, o2.
Qed.

Lemma succeeded_mono w t l1 l2 : succeeded w t l1 -> succeeded w t (l1 ++ l2).
Proof. intros (o & g & o' & -> & H). exists o, g, o'. split; [done|]. apply elem_of_app; by left. Qed.

(** All(ds...) succeeded: every d did. *)
Lemma all_succeeded w tr al ds :
  addr_injective w -> trace w tr -> w_deferred w al = None ->
  (forall cx, w_body w al cx = all_prog ds cx) ->
  succeeded w (TPtr al) tr -> forall d, d ∈ ds -> succeeded w d tr.
Proof.
  intros Hinj Ht Hd Hb (o & g & o' & [= <-] & Hin) d [i Hi]%elem_of_list_lookup.
  pose proof (end_obj _ _ _ _ _ _ Hinj Ht Hd Hin) as ->.
  destruct (end_split _ _ _ _ _ _ Ht Hin) as (l1 & l2 & cx & -> & Hs).
  destruct (all_result_lem _ _ _ _ _ _ _ _ ds Ht Hs) as (c & rs & _ & _ & Hl & Hj & Hall).
  { unfold body. by rewrite Hd. }
  destruct (Hall _ _ Hi) as (ri & Hri & Hc). symmetry in Hj.
  apply (proj1 (join_none rs) Hj) in Hri as ->.
  apply succeeded_mono. by eapply completed_none_succeeded.
Qed.

Lemma deps_order_lem w l1 c g cx' us l2 a o cx al ds t :
  addr_injective w ->
  trace w (l1 ++ EvCall c (Some g) cx' us :: l2) -> EvStart g a o cx ∈ l1 ->
  body w o cx = seq_prog [TPtr al; t] cx ->
  w_deferred w al = None -> (forall cx, w_body w al cx = all_prog ds cx) ->
  (us = [TPtr al] /\ calls_by g l1 = []) \/ (us = [t] /\ forall d, d ∈ ds -> succeeded w d l1).
Proof.
  intros Hinj Ht Hs Hb Hd Hbal.
  destruct (seq_order_lem _ _ _ _ _ _ _ _ _ _ _ Ht Hs Hb) as (-> & t' & Hts & -> & Hall).
  destruct (calls_by g l1) as [|x [|y l]] eqn:E; simpl in *; simplify_eq.
  - left; done.
  - right. split; [done|]. eapply all_succeeded; eauto using trace_prefix.
Qed.

Lemma deps_result_lem w l1 g a o l2 cx al ds t :
  addr_injective w ->
  trace w (l1 ++ EvEnd g a o None :: l2) -> EvStart g a o cx ∈ l1 ->
  body w o cx = seq_prog [TPtr al; t] cx ->
  w_deferred w al = None -> (forall cx, w_body w al cx = all_prog ds cx) ->
  succeeded w t l1 /\ forall d, d ∈ ds -> succeeded w d l1.
Proof.
  intros Hinj Ht Hs Hb Hd Hbal.
  destruct (seq_result_lem _ _ _ _ _ _ _ _ _ Ht Hs Hb) as [_ Hall]. split.
  - apply Hall. set_solver.
  - eapply all_succeeded; eauto using trace_prefix. apply Hall. set_solver.
Qed.

(** ** ArgTarget *)
Lemma arg_call_lem w l1 c g cx' us l2 a o cx t args :
  trace w (l1 ++ EvCall c (Some g) cx' us :: l2) -> EvStart g a o cx ∈ l1 ->
  body w o cx = arg_prog t args cx ->
  us = [t] /\ GetArgs cx' = args.
Proof.
  intros Ht Hin Hb.
  destruct (path_at w l1 _ l2 g a o cx Ht) as (_ & st & Hr); [done|set_solver|].
  rewrite Hb in Hr. apply call_runs_call in Hr as (_ & -> & ->). done.
Qed.

(** A body runs with the context of some call that requested it. *)
Lemma start_ctx_lem w tr g a o cx :
  trace w tr -> EvStart g a o cx ∈ tr ->
  exists c i p ts d, EvReq c i a o ∈ tr /\ EvCall c p cx ts ∈ tr /\ ts !! i = Some (TPtr d) /\
    a = w_addr w d /\ (w_deferred w d = None -> o = d).
Proof.
  intros Ht Hin. apply trace_reachable in Ht as (s & Hre & <-).
  destruct (proj1 (inv_start_holds _ _ Hre) _ _ _ _ Hin) as (gr & Hg & <- & <- & <- & _).
  destruct (inv_link_holds _ _ Hre _ _ Hg) as (cl & d & Hc & Ht & Hk & Hd & _ & _ & Hcx).
  exists (g_call gr), (g_idx gr), (c_parent cl), (c_targets cl), d. split_and!; try done.
  - apply (inv_req_holds _ _ Hre). eauto 10.
  - apply (proj1 (inv_calls_holds _ _ Hre)). rewrite Hcx. eauto.
Qed.

Lemma arg_target_lem w tr ar t args g a cx :
  addr_injective w -> trace w tr -> w_deferred w ar = None ->
  (forall cx, w_body w ar cx = arg_prog (TPtr t) args cx) ->
  (forall c p cx ts, EvCall c p cx ts ∈ tr -> TPtr t ∈ ts ->
     exists g a cx', p = Some g /\ EvStart g a ar cx' ∈ tr) ->
  a = w_addr w t -> EvStart g a t cx ∈ tr -> GetArgs cx = args.
Proof.
  intros Hinj Ht Hd Hb Honly -> Hst.
  destruct (start_ctx_lem _ _ _ _ _ _ Ht Hst) as (c & i & p & ts & d & _ & Hcall & Hts & Ha & _).
  apply Hinj in Ha as <-.
  destruct (Honly _ _ _ _ Hcall) as (g' & a' & cx' & -> & Hst'); [by eapply elem_of_list_lookup_2|].
  apply elem_of_list_split in Hcall as (l1 & l2 & ->).
  destruct (path_at w l1 _ l2 g' a' ar cx' Ht) as (Hst1 & _); [done|done|].
  eapply (arg_call_lem w l1 c g' cx ts l2 a' ar cx' (TPtr t) args); try done.
  unfold body. by rewrite Hd.
Qed.

(** ** Distinct targets (C56) *)
Lemma own_body_runs_lem w l1 c p e l2 cx ts o :
  addr_injective w -> trace w (l1 ++ EvRet c p e :: l2) -> EvCall c p cx ts ∈ l1 ->
  TPtr o ∈ ts -> w_deferred w o = None ->
  exists g cx' r, EvStart g (w_addr w o) o cx' ∈ l1 /\ EvEnd g (w_addr w o) o r ∈ l1.
Proof.
  intros Hinj Ht Hcall [i Hi]%elem_of_list_lookup Hd.
  destruct (ret_completed _ _ _ _ _ _ Ht) as (cx' & ts' & rs & Hcall' & Hlen & He & Hall).
  pose proof (trace_prefix _ _ _ Ht) as Ht1.
  destruct (call_unique w l1 _ _ _ _ _ _ _ Ht1 Hcall Hcall') as (_ & -> & ->).
  destruct (Hall _ _ Hi) as (r & _ & [(o1 & g & o2 & e2 & _ & Hend & _)|(name & Hn & _)]); [|congruence].
  pose proof (end_obj _ _ _ _ _ _ Hinj Ht1 Hd Hend) as ->.
  destruct (end_started _ _ _ _ _ _ Ht1 Hend) as [cx2 Hs]. eauto.
Qed.

(** ** Cyclic targets (C05) *)
Lemma cycle_never_returns_lem w (S : obj -> Prop) :
  addr_injective w ->
  (forall o, S o -> w_deferred w o = None /\
     exists ts o', (forall cx, w_body w o cx = all_prog ts cx) /\ TPtr o' ∈ ts /\ S o') ->
  forall tr c p cx ts o e, trace w tr -> EvCall c p cx ts ∈ tr -> TPtr o ∈ ts -> S o ->
    EvRet c p e ∉ tr.
Proof.
  intros Hinj HS tr c p cx ts o e Ht. remember (length tr) as n eqn:Hn.
  revert tr Hn c p cx ts o e Ht. induction (lt_wf n) as [n _ IH].
  intros tr -> c p cx ts o e Ht Hcall Ho HSo Hret.
  apply elem_of_list_split in Hret as (l1 & l2 & ->).
  pose proof (trace_prefix _ _ _ Ht) as Ht1.
  destruct (HS _ HSo) as (Hd & ts' & o' & Hb & Ho' & HSo').
  assert (Hcall1 : EvCall c p cx ts ∈ l1).
  { destruct (ret_completed _ _ _ _ _ _ Ht) as (cx' & ts2 & rs & Hcall' & _).
    destruct (call_unique _ _ _ _ _ _ p cx' ts2 Ht Hcall) as (_ & -> & ->); [|done].
    apply elem_of_app; by left. }
  destruct (own_body_runs_lem _ _ _ _ _ _ _ _ _ Hinj Ht Hcall1 Ho Hd) as (g & cx' & r & Hs & Hend).
  destruct (end_split _ _ _ _ _ _ Ht1 Hend) as (m1 & m2 & cx2 & E & Hs2). subst l1.
  destruct (all_result_lem _ _ _ _ _ _ _ _ ts' Ht1 Hs2) as (c' & rs & Hcb & Hret' & _).
  { unfold body. by rewrite Hd. }
  assert (Hc' : (c', ts') ∈ calls_by g m1) by (rewrite Hcb; set_solver).
  apply in_calls_by in Hc' as [cx3 Hcall3].
  eapply (IH (length m1)); [|reflexivity|by eapply trace_prefix|exact Hcall3|exact Ho'|exact HSo'|exact Hret'].
  rewrite !app_length. simpl. lia.
Qed.

(** ** Concrete executions: a scheduler that takes the first enabled step. *)
Definition candidates (s : state) : list choice :=
  (ChLoop <$> seq 0 (length (s_calls s))) ++
  ((fun g => ChGo g 0) <$> seq 0 (length (s_gors s))) ++
  (ChReturn <$> seq 0 (length (s_calls s))).

Fixpoint first_step (w : world) (s : state) (chs : list choice) : option state :=
  match chs with
  | [] => None
  | ch :: chs => match step w s ch with Some s' => Some s' | None => first_step w s chs end
  end.

Fixpoint greedy (n : nat) (w : world) (s : state) : state :=
  match n with
  | 0 => s
  | S n => match first_step w s (candidates s) with Some s' => greedy n w s' | None => s end
  end.

Lemma first_step_reachable w s chs s' :
  reachable w s -> first_step w s chs = Some s' -> reachable w s'.
Proof.
  induction chs as [|ch chs IH]; simpl; intros Hre H; [done|].
  destruct (step w s ch) as [s1|] eqn:E; [simplify_eq; by eapply reachable_step|by apply IH].
Qed.

Lemma greedy_reachable n w s : reachable w s -> reachable w (greedy n w s).
Proof.
  revert s. induction n as [|n IH]; intros s Hre; simpl; [done|].
  destruct (first_step w s (candidates s)) eqn:E; [|done].
  apply IH. by eapply first_step_reachable.
Qed.

Lemma init_reachable w : reachable w init.
Proof. by exists []. Qed.

(** A client program: registrations and calls to Run, each executed to completion. *)
Fixpoint client (n : nat) (w : world) (s : state) (chs : list choice) : state :=
  match chs with
  | [] => s
  | ch :: chs =>
      match step w s ch with
      | Some s' => client n w (greedy n w s') chs
      | None => client n w s chs
      end
  end.

Lemma client_reachable n w s chs : reachable w s -> reachable w (client n w s chs).
Proof.
  revert s. induction chs as [|ch chs IH]; intros s Hre; simpl; [done|].
  destruct (step w s ch) eqn:E; [|by apply IH]. apply IH, greedy_reachable. by eapply reachable_step.
Qed.

Lemma client_trace n w chs : trace w (s_log (client n w init chs)).
Proof. apply reachable_trace, client_reachable, init_reachable. Qed.
