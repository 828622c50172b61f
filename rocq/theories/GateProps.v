(** Property C13: the gate (gate.go). *)
From stdpp Require Import base list.
From Verif Require Import GateModel GateProofs.

(** The step in which a call of wait returns happens while the gate is open, in every
    interleaving of any number of wait and set calls. *)
Theorem C13_wait_returns_only_when_open open g i g' :
  reachable open g -> step g (Go i) = Some g' ->
  g_calls g !! i <> Some WaitDone -> g_calls g' !! i = Some WaitDone ->
  g_open g = true /\ g_open g' = true.
Proof. exact (wait_returns_open open g i g'). Qed.
Print Assumptions C13_wait_returns_only_when_open.

(** No wake-up is lost: when no call can take a step, every set has returned, and every
    wait has returned unless the gate is closed. *)
Theorem C13_no_lost_wakeup open g :
  reachable open g -> (forall i, step g (Go i) = None) ->
  forall i p, g_calls g !! i = Some p ->
    p = WaitDone \/ p = SetDone \/ (p = WaitSleep false /\ g_open g = false).
Proof. exact (stuck_lem open g). Qed.
Print Assumptions C13_no_lost_wakeup.

(** And such a moment always comes: however the calls are scheduled, after finitely many
    (at most [measure g]) steps without new calls nothing can move. *)
Theorem C13_executions_finite g cs g' :
  only_go cs -> run g cs = Some g' -> length cs + measure g' <= measure g.
Proof. exact (bounded_lem g cs g'). Qed.
Print Assumptions C13_executions_finite.

(** The mutex excludes: two calls are never inside the critical section together. *)
Lemma mutex_lem open g i j p q :
  reachable open g -> g_calls g !! i = Some p -> g_calls g !! j = Some q ->
  holds p = true -> holds q = true -> i = j.
Proof.
  intros Hr Hi Hj Hp Hq. pose proof (reachable_inv _ _ Hr) as I.
  pose proof (inv_lock _ I _ _ Hi Hp). pose proof (inv_lock _ I _ _ Hj Hq). congruence.
Qed.
Theorem C13_mutual_exclusion open g i j p q :
  reachable open g -> g_calls g !! i = Some p -> g_calls g !! j = Some q ->
  holds p = true -> holds q = true -> i = j.
Proof. exact (mutex_lem open g i j p q). Qed.
Print Assumptions C13_mutual_exclusion.

(** A waiter that takes its ticket, is overtaken by set(true) before it sleeps, and one
    that arrives later, both return. *)
Definition c13_sched : list choice :=
  [CallWait; CallSet true; Go 0; Go 0; Go 0; Go 0; Go 1; Go 1; Go 1; Go 1; CallWait;
   Go 2; Go 2; Go 0; Go 2; Go 0; Go 0].
Example C13_case :
  exists g g', run (newGate false) c13_sched = Some g /\ step g (Go 0) = Some g' /\
    g_calls g !! 0 = Some WaitUnlock /\ g_calls g' !! 0 = Some WaitDone /\
    (forall i, i < 3 -> step g' (Go i) = None) /\
    g_calls g' = [WaitDone; SetDone; WaitDone] /\
    run (newGate false) (c13_sched ++ [Go 0]) = Some g'.
Proof.
  eexists _, _. split; [vm_compute; reflexivity|]. split; [vm_compute; reflexivity|].
  split_and!; try done. intros i Hi. destruct i as [|[|[|]]]; [done..|lia].
Qed.
(** Concretely the premise of [C13_no_lost_wakeup] holds with a closed gate too. *)
Example C13_case2 :
  exists g, run (newGate false) [CallWait; Go 0; Go 0; Go 0; Go 0] = Some g /\
    g_calls g = [WaitSleep false] /\ forall i, step g (Go i) = None.
Proof.
  eexists. split; [vm_compute; reflexivity|]. split; [done|]. intros [|i]; done.
Qed.
