(** Property C99: what Run guarantees at the granularity of single accesses to memory and single
    operations on mutexes.  Vocabulary: FineSpec.v, RunnerSpec.v; the machine: FineModel.v. *)
From stdpp Require Import base gmap list strings.
From Verif Require Import ContextModel RunnerModel RunnerSteps RunnerSpec RunnerSpec2 RunnerProofs3 RunnerProps RunnerProps2.
From Verif Require Import FineModel FineSpec FineProofs FineProofs2 FineProofs3 FineProofs4 FineProofs6 FineProofs7.
Local Open Scope list_scope.

(** What can be observed of the fine machine (calls, requests, starts and ends of targets, effects,
    results, in their order) is exactly what can be observed of RunnerModel.v, whose steps are whole
    critical sections: every theorem about [trace w tr] is a theorem about the fine machine. *)
Theorem C99_same_traces w tr : (exists f, reached w f /\ m_log f = tr) <-> trace w tr.
Proof.
  split.
  - intros (f & (sched & Hf) & <-). by eapply fine_refines.
  - apply fine_complete.
Qed.
Print Assumptions C99_same_traces.

(** C01 of the fine machine: a target is started once. *)
Theorem C99_at_most_once w f i j a g1 o1 cx1 g2 o2 cx2 : reached w f ->
  m_log f !! i = Some (EvStart g1 a o1 cx1) -> m_log f !! j = Some (EvStart g2 a o2 cx2) -> i = j.
Proof. intros (sched & Hf). eapply C01_at_most_once. by eapply fine_refines. Qed.
Print Assumptions C99_at_most_once.

(** C02: all calls for the same target return the same error. *)
Theorem C99_same_error w f o c1 p1 cx1 e1 c2 p2 cx2 e2 : reached w f -> w_deferred w o = None ->
  EvCall c1 p1 cx1 [TPtr o] ∈ m_log f -> EvRet c1 p1 e1 ∈ m_log f ->
  EvCall c2 p2 cx2 [TPtr o] ∈ m_log f -> EvRet c2 p2 e2 ∈ m_log f -> e1 = e2.
Proof. intros (sched & Hf). eapply C02_same_target_same_error. by eapply fine_refines. Qed.
Print Assumptions C99_same_error.

(** C03: Run returns after everything it was asked for, with the join of the results. *)
Theorem C99_return_after_completion w f l1 c p e l2 : reached w f -> m_log f = l1 ++ EvRet c p e :: l2 ->
  exists cx ts rs, EvCall c p cx ts ∈ l1 /\ length rs = length ts /\ e = join rs /\
    forall i t, ts !! i = Some t -> exists r, rs !! i = Some r /\ completed w c i t r l1.
Proof. intros (sched & Hf) E. eapply C03_return_after_completion. rewrite <-E. by eapply fine_refines. Qed.
Print Assumptions C99_return_after_completion.

(** No two goroutines are within a section protected by con.mu at the same time ... *)
Theorem C99_mutual_exclusion w f x y : reached w f -> holds f x -> holds f y -> x = y.
Proof. intros Hf Hx Hy. pose proof (holds_lock w f x Hf Hx) as H1. pose proof (holds_lock w f y Hf Hy) as H2. rewrite H1 in H2. by injection H2. Qed.
Print Assumptions C99_mutual_exclusion.

(** ... and con.depth is at all times the number of calls that have counted themselves in and not
    yet out, although it is read and written in separate steps. *)
Theorem C99_depth w f : reached w f -> m_depth f = Z.of_nat (length (List.filter counted (m_calls f))).
Proof.
  intros Hf. rewrite (proj1 (depth_inv w f Hf)). f_equal. generalize (m_calls f). intros l. induction l as [|k l IH]; [done|].
  simpl. destruct (counted k); simpl; lia.
Qed.
Print Assumptions C99_depth.

(** No lock and no gate is ever left in a state that keeps calls from returning.  If no target waits for
    itself (C04's premises), then at every point of every execution, even within critical sections, the
    goroutines of Run by themselves can bring all calls to their return ... *)
Theorem C99_calls_can_return w f : all_finite w -> well_founded_deps w (m_log f) -> reached w f ->
  exists sched f', Forall own sched /\ frun w f sched = Some f' /\ all_returned (m_log f').
Proof. exact (can_finish w f). Qed.
Print Assumptions C99_calls_can_return.

(** ... and as long as one has not returned some step is possible that is not just a wake-up before
    the gate is open (whatever the target bodies do). *)
Theorem C99_never_stuck w f c p cx ts : reached w f -> well_founded_deps w (m_log f) ->
  EvCall c p cx ts ∈ m_log f -> (forall e, EvRet c p e ∉ m_log f) -> exists ch f', useful f ch = true /\ fstep w f ch = Some f'.
Proof. intros Hf Hw. destruct (reached_sim w f Hf) as (s & Hr & S). by apply (useful_exists w f s). Qed.
Print Assumptions C99_never_stuck.

(** ** A run in which two calls of Run want target 3: the goroutine of the first is stopped between the
    insertion into con.ran and the start of the target, that of the second finds the entry, tests the
    gate and goes to sleep; then the first runs the target and opens the gate, and both return. *)
Definition C99_sched1 : list fchoice :=
  [FRun Background [TPtr 3]; FRun Background [TPtr 3]] ++
  replicate 4 (FCall 0) ++ [FCall 0; FCall 0] ++ replicate 4 (FCall 1) ++ [FCall 1; FCall 1] ++
  [FGo 0 0; FGo 0 0; FGo 0 0].
Definition C99_sched2 : list fchoice := C99_sched1 ++ [FGo 0 0] ++ replicate 6 (FGo 1 0).
Definition C99_sched3 : list fchoice :=
  C99_sched2 ++ replicate 8 (FGo 0 0) ++ replicate 5 (FGo 1 0) ++ [FGo 1 0] ++ replicate 8 (FCall 0) ++ replicate 8 (FCall 1).
Definition run_log (sched : list fchoice) : option (list event) := m_log <$> frun ex_world finit sched.
Definition run_pcs (sched : list fchoice) : option (list gpc) := (fun f => h_pc <$> m_gors f) <$> frun ex_world finit sched.
Example C99_case :
  (exists f1, reached ex_world f1 /\ h_pc <$> m_gors f1 = [PInserted; PStart] /\ holds f1 (WGo 0) /\ m_depth f1 = 2%Z) /\
  (exists f2, reached ex_world f2 /\ h_pc <$> m_gors f2 = [PRun; PAsleep]) /\
  exists f3, reached ex_world f3 /\
    m_log f3 = [EvCall 0 None Background [TPtr 3]; EvCall 1 None Background [TPtr 3]; EvReq 0 0 103 3; EvReq 1 0 103 3;
                EvStart 0 103 3 Background; EvEnd 0 103 3 None; EvRet 0 None None; EvRet 1 None None].
Proof.
  assert (H : forall sched, is_Some (frun ex_world finit sched) -> exists f, reached ex_world f /\ frun ex_world finit sched = Some f).
  { intros sched (f & Hf). exists f. split; [by exists sched|done]. }
  split_and!.
  - destruct (H C99_sched1 ltac:(vm_compute; by eexists)) as (f & Hr & Hf). exists f. vm_compute in Hf. injection Hf as <-. split_and!; [done|done| |done].
    simpl. eexists. split; [reflexivity|done].
  - destruct (H C99_sched2 ltac:(vm_compute; by eexists)) as (f & Hr & Hf). exists f. vm_compute in Hf. injection Hf as <-. done.
  - destruct (H C99_sched3 ltac:(vm_compute; by eexists)) as (f & Hr & Hf). exists f. vm_compute in Hf. injection Hf as <-. done.
Qed.
Print Assumptions C99_case.

(** The program of C04 with two client calls, stopped while the goroutine of the first target is in the
    critical section and that of the second call waits for the mutex. *)
Definition C99_sched4 : list fchoice :=
  [FRegister "zero" 0; FRun Background [TPtr 3; TPtr 11]; FRun Background [TPtr 2]] ++ replicate 6 (FCall 0) ++ [FGo 0 0; FGo 0 0; FGo 0 0].
Example C99_calls_can_return_case : exists f, reached ex2 f /\ all_finite ex2 /\ well_founded_deps ex2 (m_log f) /\
  holds f (WGo 0) /\ k_pc <$> m_calls f = [QLoop 2 []; QInc] /\ EvCall 1 None Background [TPtr 2] ∈ m_log f /\ forall e, EvRet 1 None e ∉ m_log f.
Proof.
  destruct (frun ex2 finit C99_sched4) as [f|] eqn:E; [|by vm_compute in E]. exists f. split; [by exists C99_sched4|]. split; [exact ex2_finite|].
  vm_compute in E. injection E as <-. split.
  { apply ex2_wf. intros name o Hin. apply elem_of_list_In in Hin. simpl in Hin. repeat (destruct Hin as [Hin|Hin]; [by simplify_eq|]). done. }
  split; [simpl; eexists; split; [reflexivity|done]|]. split; [done|]. split.
  { apply elem_of_list_In. simpl. right. right. left. reflexivity. }
  intros e Hin. apply elem_of_list_In in Hin. simpl in Hin. repeat (destruct Hin as [Hin|Hin]; [by simplify_eq|]). done.
Qed.
Print Assumptions C99_calls_can_return_case.
