(** Property C89: Controller.Run has no data races (in the sense of the Go memory model), in any
    execution.  Vocabulary: RaceSpec.v; the accesses of each step: RaceModel.v. *)
From stdpp Require Import base gmap list strings relations.
From Verif Require Import ContextModel RunnerModel RunnerSteps RunnerSpec RunnerProps RaceModel RaceSpec RaceProofs3 RaceProofs4.
Local Open Scope list_scope.

(** Of any two accesses to the same variable in an execution, one of them a write, the first
    happens before the second. *)
Theorem C89_no_data_race w s T : execution w s T -> race_free T.
Proof. intros H. exact (proj2 (proj2 (no_data_race w s T H))). Qed.
Print Assumptions C89_no_data_race.

(** In particular a goroutine that waited for a target to be run by another reads the error
    that the other wrote, not an older value: every write of it that came before happens
    before the read. *)
Theorem C89_result_is_published w s T i j g g' a :
  execution w s T -> i < j -> T !! i = Some (TGo g, Wr (LErr a)) -> T !! j = Some (TGo g', Rd (LErr a)) ->
  happens_before T i j.
Proof. intros H Hij Hi Hj. eapply (C89_no_data_race w s T H i j); try done; [by right|by left|by left]. Qed.
Print Assumptions C89_result_is_published.

(** Every schedule (of the steps of RunnerModel.v) has such an execution. *)
Theorem C89_every_schedule w sched s : run w init sched = Some s -> exists T, execution w s T.
Proof.
  assert (H : forall s0 T0, execution w s0 T0 -> run w s0 sched = Some s -> exists T, execution w s T).
  { induction sched as [|ch sched IH]; intros s0 T0 H0 Hr; simpl in Hr; [injection Hr as <-; by eexists|].
    destruct (step w s0 ch) as [s1|] eqn:E; simpl in Hr; [|done]. by eapply IH, Hr; eapply ex_step. }
  intros Hr. by eapply (H init []), Hr; apply ex_init.
Qed.
Print Assumptions C89_every_schedule.

(** The actions are those of the steps.  What a step does not access it does not depend on, nor
    does it change it: changing the variable before the step is the same as changing it after. *)
Theorem C89_accesses_are_shown w s ch l u : reachable w s -> changes l u ->
  (forall a, a ∈ actions w s ch -> ~ touches l a) -> step w (u s) ch = u <$> step w s ch.
Proof. exact (frame_all w s ch l u). Qed.
Print Assumptions C89_accesses_are_shown.

(** A go statement is shown exactly when a goroutine appears; Done exactly counts the wait group
    down; Waited is shown exactly when a Run with targets returns, its wait group being at zero. *)
Theorem C89_sync_is_shown w s ch s' : step w s ch = Some s' ->
  (forall g, Spawn g ∈ actions w s ch <-> s_gors s !! g = None /\ is_Some (s_gors s' !! g)) /\
  (forall c, Done c ∈ actions w s ch -> exists g, s' = upd_gor g GDone (upd_call c (set_wg pred) s)) /\
  (forall c, Waited c ∈ actions w s ch <-> ch = ChReturn c /\ exists cl, s_calls s !! c = Some cl /\ c_targets cl <> [] /\ c_wg cl = 0).
Proof.
  intros Hs. split; [intros g; by apply spawn_shown|]. split; [intros c H; eexists; by eapply done_shown|].
  intros c. rewrite (waited_shown w s ch s' c Hs). split; [|intros (-> & cl & H1 & H2 & _); split; [done|by exists cl]].
  intros (-> & cl & H1 & H2). split; [done|]. exists cl. split; [done|]. split; [done|]. simpl in Hs. unfold step_return in Hs. rewrite H1 in Hs. simpl in Hs.
  destruct (c_st cl); try done. by destruct (c_wg cl).
Qed.
Print Assumptions C89_sync_is_shown.

(** Every step unlocks what it locked, and holds two mutexes at once only in one order. *)
Theorem C89_locks_are_paired w s ch : paired [] (actions w s ch).
Proof. exact (all_paired w s ch). Qed.
Print Assumptions C89_locks_are_paired.

(** Two goroutines that Run starts for the same target: goroutine 0 runs it, goroutine 1 waits;
    goroutine 0 writes the error of the outcome (action 28) and goroutine 1 reads it (37). *)
Fixpoint record (w : world) (s : state) (T : list (thread * act)) (sched : list choice) : option (state * list (thread * act)) :=
  match sched with
  | [] => Some (s, T)
  | ch :: sched => s' ← step w s ch; record w s' (T ++ (pair (actor s ch) <$> actions w s ch)) sched
  end.
Lemma record_execution w s T sched s' T' : execution w s T -> record w s T sched = Some (s', T') -> execution w s' T'.
Proof.
  revert s T. induction sched as [|ch sched IH]; intros s T H E; simpl in E; [by simplify_eq|].
  destruct (step w s ch) as [s1|] eqn:Es; simpl in E; [|done]. by eapply IH, E; eapply ex_step.
Qed.
Definition race_sched : list choice :=
  [ChRun Background [TPtr 1; TPtr 1]; ChLoop 0; ChLoop 0; ChLoop 0; ChGo 0 0; ChGo 1 0; ChGo 0 0; ChGo 0 0; ChGo 0 0; ChGo 1 0; ChGo 1 0; ChReturn 0].
Definition race_case : option (state * list (thread * act)) := record ex_world init [] race_sched.
Lemma race_write : (p ← race_case; p.2 !! 28) = Some (TGo 0, Wr (LErr 101)).
Proof. vm_compute. reflexivity. Qed.
Lemma race_read : (p ← race_case; p.2 !! 37) = Some (TGo 1, Rd (LErr 101)).
Proof. vm_compute. reflexivity. Qed.
Lemma race_log : (p ← race_case; s_log p.1 !! 5) = Some (EvRet 0 None (Some (EJoin [EWrap 1 (EBody 1); EWrap 1 (EBody 1)]))).
Proof. vm_compute. reflexivity. Qed.
Lemma race_runs s T : race_case = Some (s, T) -> execution ex_world s T.
Proof. unfold race_case. intros E. exact (record_execution ex_world init [] race_sched s T (ex_init _) E). Qed.
Example C89_case :
  exists s T, execution ex_world s T /\ T !! 28 = Some (TGo 0, Wr (LErr 101)) /\ T !! 37 = Some (TGo 1, Rd (LErr 101)) /\
    happens_before T 28 37 /\ EvRet 0 None (Some (EJoin [EWrap 1 (EBody 1); EWrap 1 (EBody 1)])) ∈ s_log s.
Proof.
  pose proof race_write as Hi. pose proof race_read as Hj. pose proof race_log as Hl. pose proof race_runs as Hx.
  destruct race_case as [[s T]|]; [|discriminate Hi]. cbn [mbind option_bind fst snd] in Hi, Hj, Hl. specialize (Hx s T eq_refl).
  exists s, T. split; [exact Hx|]. split; [exact Hi|]. split; [exact Hj|]. split.
  - eapply (C89_result_is_published _ _ _ 28 37); [exact Hx|lia|exact Hi|exact Hj].
  - exact (elem_of_list_lookup_2 _ _ _ Hl).
Qed.

(** The definition can fail: critical sections of different mutexes order nothing. *)
Example C89_a_race : ~ race_free [(TGo 0, Lock MCon); (TGo 0, Wr (LErr 7)); (TGo 0, Unlock MCon);
                                  (TGo 1, Lock (MGate 7)); (TGo 1, Rd (LErr 7)); (TGo 1, Unlock (MGate 7))].
Proof.
  intros H. specialize (H 1 4 (TGo 0) (TGo 1) (Wr (LErr 7)) (Rd (LErr 7)) (LErr 7) ltac:(lia) eq_refl eq_refl (or_intror eq_refl) (or_introl eq_refl) (or_introl eq_refl)).
  assert (Hn : forall T i j, T = [(TGo 0, Lock MCon); (TGo 0, Wr (LErr 7)); (TGo 0, Unlock MCon);
                                  (TGo 1, Lock (MGate 7)); (TGo 1, Rd (LErr 7)); (TGo 1, Unlock (MGate 7))] -> happens_before T i j -> 1 <= i < 3 -> 1 <= j < 3).
  { intros T i j -> Hh Hi. revert Hi. assert (He : forall i j, edge [(TGo 0, Lock MCon); (TGo 0, Wr (LErr 7)); (TGo 0, Unlock MCon);
                                  (TGo 1, Lock (MGate 7)); (TGo 1, Rd (LErr 7)); (TGo 1, Unlock (MGate 7))] i j -> 1 <= i < 3 -> 1 <= j < 3).
    { clear. intros i j (Hij & x & y & Hx & Hy & Hs) Hi.
      destruct i as [|[|[|i]]]; simpl in Hx; simplify_eq/=; try lia;
      destruct j as [|[|[|[|[|[|j]]]]]]; simpl in Hy; simplify_eq/=; try lia; destruct Hs as [Hs|Hs]; try discriminate Hs; inversion Hs. }
    induction Hh as [i j Hh|i j k Hh _ IH]; intros Hi; [by eapply He|]. apply IH. by eapply He. }
  specialize (Hn _ 1 4 eq_refl H). lia.
Qed.
