(** Properties C04 (termination, absence of deadlock) and C10 (determinism) of
    Controller.Run.  Vocabulary: RunnerSpec.v, RunnerSpec2.v; events: RunnerModel.v. *)
From Coq Require Import Wf_nat Wellfounded.
From stdpp Require Import base gmap list strings relations.
From Verif Require Import ContextModel RunnerModel RunnerSteps RunnerSpec RunnerSpec2.
From Verif Require Import RunnerProofs RunnerProofs3 RunnerProgress RunnerTerm RunnerFair RunnerDet RunnerProps.

(** ** A concrete program.  0 interacts with the world and succeeds, 1 fails,
    2 = Seq(10, 1), 3 = All(0, 2, a non-pointer), 10 is the name zero, 11 the name none. *)
Definition ex2_body (o : obj) (cx : ctx) : prog :=
  match o with
  | 0 => Eff (OpOther 7) (fun _ => Ret None)
  | 1 => Ret (Some (EBody 1))
  | 2 => seq_prog [TPtr 10; TPtr 1] cx
  | 3 => all_prog [TPtr 0; TPtr 2; TNonPtr; TPtr 11] cx
  | _ => Ret None
  end.
Definition ex2_deferred (o : obj) : option string :=
  match o with 10 => Some "zero" | 11 => Some "none" | _ => None end.
Definition ex2 : world :=
  {| w_addr := fun o => 100 + o; w_deferred := ex2_deferred; w_body := ex2_body |}.
Lemma ex2_injective : addr_injective ex2.
Proof. intros o1 o2 H. simpl in H. lia. Qed.

Lemma ex2_finite : all_finite ex2.
Proof.
  intros o cx _. simpl. unfold ex2_body.
  destruct o as [|[|[|[|o]]]]; simpl; repeat (constructor; intros); try destruct e; repeat (constructor; intros);
  try destruct e; repeat constructor.
Qed.

Definition ex2_rank (a : addr) : nat := match a with 103 => 3 | 102 => 2 | 110 => 1 | 111 => 1 | _ => 0 end.

Lemma may_call_ret e ts : ~ may_call (Ret e) ts.
Proof. intros H. inversion H. Qed.
Lemma may_call_all us cx ts : may_call (all_prog us cx) ts -> ts = us.
Proof.
  unfold all_prog. intros H. inversion H as [|? ? ? ? ? H1| |]; subst; [done|]. by apply may_call_ret in H1.
Qed.
Lemma may_call_seq us cx ts : may_call (seq_prog us cx) ts -> exists t, t ∈ us /\ ts = [t].
Proof.
  induction us as [|u us IH]; simpl; intros H; [by apply may_call_ret in H|].
  inversion H as [|? ? ? e ? H1| |]; subst; [exists u; split; [left|done]|].
  destruct e as [e|]; [by apply may_call_ret in H1|].
  destruct (IH H1) as (t & Ht & ->). exists t. split; [by right|done].
Qed.

Lemma ex2_rank_lt tr a b :
  (forall name o, EvRegister name o ∈ tr -> name = "zero" /\ o = 0) ->
  depends ex2 tr a b -> ex2_rank b < ex2_rank a.
Proof.
  intros Hreg [o cx ts o' _ Hm Hin|d name o Hd Hr]; simpl in *.
  - destruct o as [|[|[|[|o]]]]; unfold ex2_body in Hm.
    + inversion Hm as [| | |? ? ? ? H0]; subst. by apply may_call_ret in H0.
    + by apply may_call_ret in Hm.
    + apply may_call_seq in Hm as (t & Ht & ->). apply elem_of_list_singleton in Hin as <-.
      repeat (apply elem_of_cons in Ht as [Ht|Ht]; [simplify_eq; simpl; lia|]). by apply elem_of_nil in Ht.
    + apply may_call_all in Hm as ->.
      repeat (apply elem_of_cons in Hin as [Hin|Hin]; [simplify_eq; simpl; lia|]). by apply elem_of_nil in Hin.
    + by apply may_call_ret in Hm.
  - destruct (Hreg _ _ Hr) as [-> ->]. unfold ex2_deferred in Hd.
    do 12 (destruct d as [|d]; [simplify_eq; simpl; lia|]). done.
Qed.

Lemma ex2_wf_of (R : addr -> addr -> Prop) :
  (forall a b, R a b -> ex2_rank b < ex2_rank a) -> well_founded (fun b a => R a b).
Proof.
  intros H. apply (Inclusion.wf_incl _ _ (ltof _ ex2_rank)); [|apply well_founded_ltof].
  intros b a Hab. by apply H.
Qed.

Lemma ex2_wf tr :
  (forall name o, EvRegister name o ∈ tr -> name = "zero" /\ o = 0) -> well_founded_deps ex2 tr.
Proof. intros H. apply ex2_wf_of. intros a b. by apply ex2_rank_lt. Qed.

(** ** C04: no deadlock: while a call has not returned, some step is possible. *)
Theorem C04_no_deadlock w sched s c p cx ts :
  run w init sched = Some s -> well_founded_deps w (s_log s) ->
  EvCall c p cx ts ∈ s_log s -> (forall e, EvRet c p e ∉ s_log s) ->
  exists ch s', internal ch /\ step w s ch = Some s'.
Proof. intros Hr. apply progress_lem. by exists sched. Qed.
Print Assumptions C04_no_deadlock.

(** For finitely many targets it is enough that no target depends on itself. *)
Theorem C04_no_deadlock_acyclic w sched s c p cx ts :
  run w init sched = Some s -> acyclic_deps w (s_log s) ->
  EvCall c p cx ts ∈ s_log s -> (forall e, EvRet c p e ∉ s_log s) ->
  exists ch s', internal ch /\ step w s ch = Some s'.
Proof. intros Hr Ha. apply (C04_no_deadlock w sched s c p cx ts Hr). by apply acyclic_deps_wf. Qed.
Print Assumptions C04_no_deadlock_acyclic.

(** No execution goes on forever (unless clients keep making calls). *)
Theorem C04_every_execution_ends w sched (f : nat -> state) :
  all_finite w -> run w init sched = Some (f 0) -> well_founded_deps w (s_log (f 0)) ->
  ~ forall n, exists ch, internal ch /\ step w (f n) ch = Some (f (S n)).
Proof. intros Hf Hr Hw. apply (no_infinite_lem w (f 0) f); [done|by exists sched|done|done]. Qed.
Print Assumptions C04_every_execution_ends.

(** Every schedule reaches a state in which all calls have returned. *)
Theorem C04_run_returns w sched s :
  all_finite w -> run w init sched = Some s -> well_founded_deps w (s_log s) ->
  inevitable w (fun s => all_returned (s_log s)) s.
Proof. intros Hf Hr. apply inevitable_lem; [done|by exists sched]. Qed.
Print Assumptions C04_run_returns.

Theorem C04_run_returns_acyclic w sched s :
  all_finite w -> run w init sched = Some s -> acyclic_deps w (s_log s) ->
  inevitable w (fun s => all_returned (s_log s)) s.
Proof. intros Hf Hr Ha. apply (C04_run_returns w sched s Hf Hr). by apply acyclic_deps_wf. Qed.
Print Assumptions C04_run_returns_acyclic.

(** Even when clients keep calling and registering forever, every call returns, as long as
    the scheduler is fair. *)
Theorem C04_fair_run_returns w (f : nat -> state) chs n c p cx ts :
  execution w f chs -> fair w f chs -> all_finite w ->
  well_founded (fun b a => exists n, depends w (s_log (f n)) a b) ->
  EvCall c p cx ts ∈ s_log (f n) -> exists m e, n <= m /\ EvRet c p e ∈ s_log (f m).
Proof. intros He Hf. by apply (fair_returns_lem w f chs He Hf). Qed.
Print Assumptions C04_fair_run_returns.

(** Cases: the program above, called with all its targets. *)
Definition ex2_start : list choice :=
  [ChRegister "zero" 0; ChRun Background [TPtr 3; TPtr 11]; ChRun Background [TPtr 2]].
Definition ex2_s : state := default init (run ex2 init ex2_start).
Lemma ex2_s_run : run ex2 init ex2_start = Some ex2_s.
Proof. reflexivity. Qed.
Lemma ex2_s_wf : well_founded_deps ex2 (s_log ex2_s).
Proof.
  apply ex2_wf. intros name o Hin. apply elem_of_list_In in Hin. simpl in Hin.
  repeat (destruct Hin as [Hin|Hin]; [by simplify_eq|]). done.
Qed.

Example C04_no_deadlock_case :
  run ex2 init ex2_start = Some ex2_s /\ well_founded_deps ex2 (s_log ex2_s) /\
  EvCall 1 None Background [TPtr 2] ∈ s_log ex2_s /\ (forall e, EvRet 1 None e ∉ s_log ex2_s).
Proof.
  split_and!; [exact ex2_s_run|exact ex2_s_wf|in_log|].
  intros e Hin. apply elem_of_list_In in Hin. simpl in Hin.
  repeat (destruct Hin as [Hin|Hin]; [by simplify_eq|]). done.
Qed.

Example C04_acyclic_case : acyclic_deps ex2 (s_log ex2_s).
Proof.
  assert (Hlt : forall a b, depends ex2 (s_log ex2_s) a b -> ex2_rank b < ex2_rank a).
  { intros a b. apply ex2_rank_lt. intros name o Hin. apply elem_of_list_In in Hin. simpl in Hin.
    repeat (destruct Hin as [Hin|Hin]; [by simplify_eq|]). done. }
  split.
  - intros a Ha. assert (H : forall a b, tc (depends ex2 (s_log ex2_s)) a b -> ex2_rank b < ex2_rank a).
    { induction 1 as [x y H|x y z H _ IH]; [by apply Hlt|]. apply Hlt in H. lia. }
    apply H in Ha. lia.
  - exists [102; 103; 110; 111]. intros a b Hab. apply Hlt in Hab.
    destruct (decide (a = 102)) as [-> |]; [set_solver|].
    destruct (decide (a = 103)) as [-> |]; [set_solver|].
    destruct (decide (a = 110)) as [-> |]; [set_solver|].
    destruct (decide (a = 111)) as [-> |]; [set_solver|].
    exfalso. assert (ex2_rank a = 0); [|lia]. unfold ex2_rank.
    do 112 (destruct a as [|a]; [done|]). done.
Qed.

Example C04_run_returns_case :
  inevitable ex2 (fun s => all_returned (s_log s)) ex2_s /\ ~ all_returned (s_log ex2_s).
Proof.
  split; [exact (C04_run_returns ex2 _ _ ex2_finite ex2_s_run ex2_s_wf)|].
  intros H. destruct (H 1 None Background [TPtr 2]) as (e & He); [in_log|].
  by eapply (proj2 (proj2 (proj2 C04_no_deadlock_case))).
Qed.

(** The acyclicity premise is needed: All targets that depend on each other wait forever
    (C11); and so is finiteness of bodies. *)
Example C04_infinite_body_case :
  exists w s, run w init [ChRun Background [TPtr 0]] = Some s /\ well_founded_deps w (s_log s) /\
    ~ all_finite w.
Proof.
  set (loop := cofix loop := Eff (OpOther 0) (fun _ => loop)).
  exists {| w_addr := id; w_deferred := fun _ => None; w_body := fun _ _ => loop |}. eexists.
  split; [reflexivity|]. split.
  - intros a. constructor. intros b Hab.
    assert (Hloop : forall p ts, may_call p ts -> p = loop -> False).
    { induction 1; intros E.
      - assert (H : match loop with Eff _ _ => True | _ => False end) by exact I. by rewrite <-E in H.
      - assert (H' : match loop with Eff _ _ => True | _ => False end) by exact I. by rewrite <-E in H'.
      - assert (H' : match loop with Eff _ _ => True | _ => False end) by exact I. by rewrite <-E in H'.
      - apply IHmay_call.
        exact (f_equal (fun p => match p with Eff _ k' => k' r | _ => p end) E). }
    inversion Hab; subst; simpl in *; [exfalso; by eapply Hloop|done].
  - intros Hf. specialize (Hf 0 Background eq_refl). simpl in Hf.
    assert (Hno : forall p, finite p -> p = loop -> False).
    { induction 1 as [e|cx ts k _ IH|d k _ IH|l k _ IH]; intros E.
      - assert (H : match loop with Eff _ _ => True | _ => False end) by exact I. by rewrite <-E in H.
      - assert (H : match loop with Eff _ _ => True | _ => False end) by exact I. by rewrite <-E in H.
      - assert (H : match loop with Eff _ _ => True | _ => False end) by exact I. by rewrite <-E in H.
      - apply (IH 0).
        exact (f_equal (fun p => match p with Eff _ k' => k' 0 | _ => p end) E). }
    by eapply Hno.
Qed.

(** A fair infinite execution: a finite schedule until nothing moves, then a client
    registering forever. *)
Definition quiet (s : state) : Prop :=
  Forall (fun cl => match c_st cl with
                    | CReturned _ => True | CWaiting => c_wg cl <> 0 | _ => False
                    end) (s_calls s) /\
  Forall (fun gr => match g_st gr with
                    | GDone | GCalling _ _ => True
                    | GWait => o_open <$> s_ran s !! g_key gr = Some false
                    | _ => False
                    end) (s_gors s).
Lemma quiet_stuck w s ag ch : quiet s -> by_agent ag ch -> step w s ch = None.
Proof.
  intros [Hc Hg] Hag. destruct ag as [c|c|g], ch; try done; simpl.
  - unfold step_loop. destruct (s_calls s !! c0) as [cl|] eqn:E; [|done]. simpl.
    eapply Forall_lookup_1 in Hc; [|exact E]. by destruct (c_st cl).
  - unfold step_return. destruct (s_calls s !! c0) as [cl|] eqn:E; [|done]. simpl.
    eapply Forall_lookup_1 in Hc; [|exact E]. destruct (c_st cl); try done. by destruct (c_wg cl).
  - unfold step_go. destruct (s_gors s !! g0) as [gr|] eqn:E; [|done]. simpl.
    eapply Forall_lookup_1 in Hg; [|exact E]. simpl in Hg. destruct (g_st gr); try done.
    destruct (s_ran s !! g_key gr) as [oc|]; [|done]. simpl in Hg. injection Hg as ->. done.
Qed.

Definition idle : choice := ChRegister "zero" 0.
Definition then_idle_s (w : world) (sched : list choice) (n : nat) : state :=
  default init (run w init (take n sched ++ replicate (n - length sched) idle)).
Definition then_idle_c (sched : list choice) (n : nat) : choice := default idle (sched !! n).

Lemma run_idle w s n : exists s', run w s (replicate n idle) = Some s' /\
  s_calls s' = s_calls s /\ s_gors s' = s_gors s /\ s_ran s' = s_ran s.
Proof.
  revert s. induction n as [|n IH]; intros s; simpl; [eauto 6|].
  destruct (IH (set_reg <["zero":=0]> (emit (EvRegister "zero" 0) s))) as (s' & H1 & H2 & H3). eauto.
Qed.

Lemma then_idle_execution w sched s :
  run w init sched = Some s -> quiet s ->
  execution w (then_idle_s w sched) (then_idle_c sched) /\ fair w (then_idle_s w sched) (then_idle_c sched).
Proof.
  intros Hr Hq.
  assert (Hpre : forall n, exists s', run w init (take n sched ++ replicate (n - length sched) idle) = Some s').
  { intros n. rewrite run_app. rewrite <-(take_drop n sched), run_app in Hr.
    destruct (run w init (take n sched)) as [s1|]; [|done]. simpl.
    destruct (run_idle w s1 (n - length sched)) as (s' & H & _). eauto. }
  split.
  - split; [done|]. intros n. unfold then_idle_s, then_idle_c.
    destruct (Hpre n) as (s1 & H1), (Hpre (S n)) as (s2 & H2). rewrite H1, H2. simpl.
    destruct (sched !! n) as [ch|] eqn:E; simpl.
    + assert (n < length sched) by (by eapply lookup_lt_Some).
      rewrite (take_S_r _ _ _ E) in H2.
      replace (S n - length sched) with 0 in H2 by lia. replace (n - length sched) with 0 in H1 by lia.
      simpl in H1, H2. rewrite app_nil_r in H1, H2. rewrite run_app, H1 in H2. simpl in H2.
      destruct (step w s1 ch); [|done]. simpl in H2. by simplify_eq.
    + assert (length sched <= n) by (by apply lookup_ge_None).
      rewrite take_ge in H1, H2 by lia. replace (S n - length sched) with (S (n - length sched)) in H2 by lia.
      rewrite replicate_S_end, app_assoc, run_app, H1 in H2. simpl in *. by simplify_eq.
  - intros ag n. right. exists (max n (length sched)). split; [lia|].
    intros ch Hch. eapply quiet_stuck; [|done]. unfold then_idle_s.
    rewrite take_ge by lia. rewrite run_app, Hr. simpl.
    destruct (run_idle w s (max n (length sched) - length sched)) as (s' & H & Hc & Hg & Hrn). rewrite H. simpl.
    unfold quiet. by rewrite Hc, Hg, Hrn.
Qed.

Fixpoint first_choice (w : world) (s : state) (chs : list choice) : option choice :=
  match chs with
  | [] => None
  | ch :: chs => match step w s ch with Some s' => Some ch | None => first_choice w s chs end
  end.
Fixpoint greedy_sched (n : nat) (w : world) (s : state) : list choice :=
  match n with
  | 0 => []
  | S n =>
      match first_choice w s (candidates s) with
      | Some ch => ch :: greedy_sched n w (default s (step w s ch))
      | None => []
      end
  end.

Definition ex2_sched : list choice := ex2_start ++ greedy_sched 200 ex2 ex2_s.

Definition reg_zero (ch : choice) : Prop :=
  match ch with ChRegister n o => n = "zero" /\ o = 0 | _ => True end.
Lemma ex2_sched_regs : Forall reg_zero ex2_sched.
Proof.
  assert (Hb : forallb (fun ch => match ch with ChRegister n o => bool_decide (n = "zero") && bool_decide (o = 0) | _ => true end) ex2_sched = true)
    by (vm_compute; reflexivity).
  revert Hb. generalize ex2_sched. intros l Hb.
  apply Forall_forall. intros ch Hin. rewrite forallb_forall in Hb.
  apply elem_of_list_In, Hb in Hin. destruct ch; try done.
  apply andb_prop in Hin as [H1 H2]. apply bool_decide_eq_true in H1, H2. done.
Qed.
Lemma run_regs chs : forall s s', run ex2 s chs = Some s' -> Forall reg_zero chs ->
  (forall name o, EvRegister name o ∈ s_log s -> name = "zero" /\ o = 0) ->
  forall name o, EvRegister name o ∈ s_log s' -> name = "zero" /\ o = 0.
Proof.
  induction chs as [|ch chs IH]; intros s s' H Hf Hs; simpl in H; [by simplify_eq|].
  destruct (step ex2 s ch) as [s1|] eqn:Es; [|done]. simpl in H. inversion Hf; subst.
  eapply IH; [exact H|done|]. intros name o Hin. apply step_tstep in Es.
  destruct Es; RunnerInv.proj; try (by eapply Hs);
    (apply RunnerInv4.elem_of_snoc in Hin as [Hin|Hin]; [by eapply Hs|]); by simplify_eq.
Qed.

Example C04_fair_case :
  exists f chs, execution ex2 f chs /\ fair ex2 f chs /\
    well_founded (fun b a => exists n, depends ex2 (s_log (f n)) a b) /\
    exists n, EvCall 1 None Background [TPtr 2] ∈ s_log (f n) /\ forall e, EvRet 1 None e ∉ s_log (f n).
Proof.
  assert (Hq : exists s, run ex2 init ex2_sched = Some s /\ quiet s).
  { eexists. split; [vm_compute; reflexivity|]. split; repeat constructor. }
  destruct Hq as (s & Hr & Hq).
  destruct (then_idle_execution ex2 ex2_sched s Hr Hq) as [He Hf].
  exists (then_idle_s ex2 ex2_sched), (then_idle_c ex2_sched). split; [exact He|]. split; [exact Hf|]. split.
  - apply ex2_wf_of. intros a b [n Hab]. eapply ex2_rank_lt; [|exact Hab].
    clear Hr Hq He Hf s.
    pose proof ex2_sched_regs as Hch.
    assert (Hch' : Forall reg_zero (take n ex2_sched ++ replicate (n - length ex2_sched) idle)).
    { apply Forall_app. split; [by apply Forall_take|]. apply Forall_replicate. split; reflexivity. }
    pose proof run_regs as Hgen.
    unfold then_idle_s. destruct (run ex2 init (take n ex2_sched ++ replicate (n - length ex2_sched) idle)) as [s'|] eqn:E; simpl.
    + eapply Hgen; [exact E|exact Hch'|]. intros name o Hin. by apply elem_of_nil in Hin.
    + intros name o Hin. by apply elem_of_nil in Hin.
  - exists 3. split; [in_log|]. intros e Hin. apply elem_of_list_In in Hin.
    change (s_log (then_idle_s ex2 ex2_sched 3)) with (s_log ex2_s) in Hin. simpl in Hin.
    repeat (destruct Hin as [Hin|Hin]; [by simplify_eq|]). done.
Qed.

(** ** C05, the part that holds: a cycle hangs only the calls that can reach it.  Whatever
    else is going on (other calls may be stuck in a cycle or run forever), a call returns if
    the targets it can reach have finite bodies and no cycle. *)
Theorem C05_calls_not_reaching_a_cycle_return_partial w (f : nat -> state) chs n c p cx ts :
  execution w f chs -> fair w f chs ->
  (forall o, TPtr o ∈ ts -> safe w (fun a b => exists n, depends w (s_log (f n)) a b) (w_addr w o)) ->
  EvCall c p cx ts ∈ s_log (f n) -> exists m e, n <= m /\ EvRet c p e ∈ s_log (f m).
Proof. intros He Hf. by apply (fair_returns_safe_lem w f chs He Hf). Qed.
Print Assumptions C05_calls_not_reaching_a_cycle_return_partial.

(** Case: the targets 0 and 1 request each other, 3 = Seq(2, 4).  Run(0), then Run(3). *)
Definition ex_cyc2 : world :=
  {| w_addr := fun o => o; w_deferred := fun _ => None;
     w_body := fun o cx => match o with
                           | 0 => all_prog [TPtr 1] cx
                           | 1 => all_prog [TPtr 0] cx
                           | 3 => seq_prog [TPtr 2; TPtr 4] cx
                           | _ => Ret None
                           end |}.
Definition ex_cyc2_sched : list choice :=
  let start := [ChRun Background [TPtr 0]; ChRun Background [TPtr 3]] in
  start ++ greedy_sched 200 ex_cyc2 (default init (run ex_cyc2 init start)).

Example C05_partial_case :
  exists f chs, execution ex_cyc2 f chs /\ fair ex_cyc2 f chs /\
    safe ex_cyc2 (fun a b => exists n, depends ex_cyc2 (s_log (f n)) a b) 3 /\
    exists n, EvCall 0 None Background [TPtr 0] ∈ s_log (f n) /\
      EvCall 1 None Background [TPtr 3] ∈ s_log (f n) /\ forall e, EvRet 1 None e ∉ s_log (f n).
Proof.
  assert (Hq : exists s, run ex_cyc2 init ex_cyc2_sched = Some s /\ quiet s).
  { eexists. split; [vm_compute; reflexivity|]. split; repeat constructor; done. }
  destruct Hq as (s & Hr & Hq).
  destruct (then_idle_execution ex_cyc2 ex_cyc2_sched s Hr Hq) as [He Hf].
  exists (then_idle_s ex_cyc2 ex_cyc2_sched), (then_idle_c ex_cyc2_sched).
  split; [exact He|]. split; [exact Hf|]. clear Hr Hq He Hf s. split.
  - assert (Hleaf : forall a, a = 2 \/ a = 4 ->
      safe ex_cyc2 (fun a b => exists n, depends ex_cyc2 (s_log (then_idle_s ex_cyc2 ex_cyc2_sched n)) a b) a).
    { intros a Ha. constructor.
      - intros o cx Ho _. simpl in Ho. subst o. destruct Ha as [-> | ->]; constructor.
      - intros b [n Hb]. inversion Hb as [o cx ts o' _ Hm Hin Ho Hb'|]; [|done].
        simpl in Ho. subst o. exfalso. destruct Ha as [-> | ->]; exact (may_call_ret _ _ Hm). }
    constructor.
    + intros o cx Ho _. simpl in Ho. subst o. simpl.
      constructor. intros [e|]; constructor. intros [e|]; constructor.
    + intros b [n Hb]. apply Hleaf. inversion Hb as [o cx ts o' _ Hm Hin Ho Hb'|]; [|done].
      simpl in Ho. subst o. change (may_call (seq_prog [TPtr 2; TPtr 4] cx) ts) in Hm.
      apply may_call_seq in Hm as (t & Ht & ->).
      apply elem_of_list_singleton in Hin as <-.
      repeat (apply elem_of_cons in Ht as [Ht|Ht]; [simplify_eq; simpl; by eauto|]). by apply elem_of_nil in Ht.
  - exists 2. split; [in_log|]. split; [in_log|]. intros e Hin. apply elem_of_list_In in Hin.
    compute_log Hin. simpl in Hin. repeat (destruct Hin as [Hin|Hin]; [by simplify_eq|]). done.
Qed.

(** ** C10: what a call to Run returns is what evaluating its targets one after the other,
    with nothing shared, gives: it depends only on the registry, on the answers of the
    environment and on the arguments. *)
Theorem C10_call_result w Q rho cx0 tr c p cx ts e :
  addr_injective w -> insensitive w Q -> Q cx0 ->
  trace w tr -> registered_first tr -> answers rho tr -> client_contexts Q tr ->
  EvCall c p cx ts ∈ tr -> EvRet c p e ∈ tr ->
  exists rs, eval_list w (registry_of tr) rho cx0 ts rs /\ e = join rs.
Proof. intros Hi Hs HQ Ht Hr Ha Hc. by apply (ret_eval_lem w Q rho cx0 tr Hi Ht Hr Ha Hc Hs HQ). Qed.
Print Assumptions C10_call_result.

(** The same for the outcome of each target (requested directly or by name). *)
Theorem C10_target_result w Q rho cx0 tr g d o e :
  addr_injective w -> insensitive w Q -> Q cx0 ->
  trace w tr -> registered_first tr -> answers rho tr -> client_contexts Q tr ->
  EvEnd g (w_addr w d) o e ∈ tr ->
  resolution w (registry_of tr) d = inr o /\
  eval_prog w (registry_of tr) rho cx0 (body w o cx0) e.
Proof.
  intros Hi Hs HQ Ht Hr Ha Hc He. split; [by eapply end_target_lem|].
  by eapply (end_eval_lem w Q rho cx0 tr Hi Ht Hr Ha Hc Hs HQ).
Qed.
Print Assumptions C10_target_result.

(** The evaluation gives one result, and always one for finite bodies without circular
    dependencies. *)
Theorem C10_evaluation_unique w reg rho cx0 ts rs1 rs2 :
  eval_list w reg rho cx0 ts rs1 -> eval_list w reg rho cx0 ts rs2 -> rs1 = rs2.
Proof. intros H1 H2. exact (proj1 (proj2 (eval_functional w reg rho cx0)) _ _ H1 _ H2). Qed.
Print Assumptions C10_evaluation_unique.

Theorem C10_evaluation_total w tr rho cx0 ts :
  all_finite w -> well_founded_deps w tr ->
  exists rs, eval_list w (registry_of tr) rho cx0 ts rs.
Proof. intros Hf Hw. by apply eval_total_lem. Qed.
Print Assumptions C10_evaluation_total.

(** Any two executions agree on what a call with the same targets returns ... *)
Theorem C10_schedules_agree w Q rho cx0 tr1 tr2 c1 p1 cx1 c2 p2 cx2 ts e1 e2 :
  addr_injective w -> insensitive w Q -> Q cx0 ->
  trace w tr1 -> registered_first tr1 -> answers rho tr1 -> client_contexts Q tr1 ->
  trace w tr2 -> registered_first tr2 -> answers rho tr2 -> client_contexts Q tr2 ->
  registry_of tr1 = registry_of tr2 ->
  EvCall c1 p1 cx1 ts ∈ tr1 -> EvRet c1 p1 e1 ∈ tr1 ->
  EvCall c2 p2 cx2 ts ∈ tr2 -> EvRet c2 p2 e2 ∈ tr2 -> e1 = e2.
Proof. exact (schedules_agree_lem w Q rho cx0 tr1 tr2 c1 p1 cx1 c2 p2 cx2 ts e1 e2). Qed.
Print Assumptions C10_schedules_agree.

(** ... and on the outcome of each target. *)
Theorem C10_targets_agree w Q rho cx0 tr1 tr2 g1 g2 d o1 o2 e1 e2 :
  addr_injective w -> insensitive w Q -> Q cx0 ->
  trace w tr1 -> registered_first tr1 -> answers rho tr1 -> client_contexts Q tr1 ->
  trace w tr2 -> registered_first tr2 -> answers rho tr2 -> client_contexts Q tr2 ->
  registry_of tr1 = registry_of tr2 ->
  EvEnd g1 (w_addr w d) o1 e1 ∈ tr1 -> EvEnd g2 (w_addr w d) o2 e2 ∈ tr2 -> o1 = o2 /\ e1 = e2.
Proof. exact (targets_agree_lem w Q rho cx0 tr1 tr2 g1 g2 d o1 o2 e1 e2). Qed.
Print Assumptions C10_targets_agree.

(** Case: the program above is insensitive to all contexts.  In the first execution 3 is run
    alone, in the second 2 is run before it. *)
Lemma ex2_insensitive : insensitive ex2 (fun _ => True).
Proof.
  intros o cx1 cx2 _ _ _. simpl. unfold ex2_body.
  destruct o as [|[|[|[|o]]]]; simpl; repeat (constructor; intros); try done;
    destruct e; repeat (constructor; intros); try done; destruct e; repeat (constructor; intros); try done.
Qed.
Definition ex2_tr1 : list event :=
  s_log (client 200 ex2 init [ChRegister "zero" 0; ChRun Background [TPtr 3]]).
Definition ex2_tr2 : list event :=
  s_log (client 200 ex2 init [ChRegister "zero" 0; ChRun Background [TPtr 2]; ChRun (WithArgs Background ["x"]) [TPtr 3]]).

Definition calls_after (tr : list event) : Prop :=
  exists l1 l2, tr = l1 ++ l2 /\ Forall (fun ev => match ev with EvCall _ _ _ _ => False | _ => True end) l1 /\
    Forall (fun ev => match ev with EvRegister _ _ => False | _ => True end) l2.
Lemma calls_after_first tr : calls_after tr -> registered_first tr.
Proof.
  intros (l1 & l2 & -> & H1 & H2) i j c p cx ts name o Hi Hj.
  apply lookup_app_Some in Hi as [Hi|[Hi _]].
  - eapply Forall_lookup_1 in H1; [|exact Hi]. done.
  - apply lookup_app_Some in Hj as [Hj|[_ Hj]]; [apply lookup_lt_Some in Hj; lia|].
    eapply Forall_lookup_1 in H2; [|exact Hj]. done.
Qed.

Definition ex2_err : option err :=
  Some (EJoin [EWrap 3 (EJoin [EWrap 2 (EJoin [EWrap 1 (EBody 1)]); ENotPointer; EUnresolved "none"])]).

Lemma ex2_tr1_ok : trace ex2 ex2_tr1 /\ registered_first ex2_tr1.
Proof.
  split; [apply client_trace|]. apply calls_after_first.
  exists (take 1 ex2_tr1), (drop 1 ex2_tr1). split; [symmetry; apply take_drop|].
  split; vm_compute; repeat constructor.
Qed.
Lemma ex2_tr2_ok : trace ex2 ex2_tr2 /\ registered_first ex2_tr2.
Proof.
  split; [apply client_trace|]. apply calls_after_first.
  exists (take 1 ex2_tr2), (drop 1 ex2_tr2). split; [symmetry; apply take_drop|].
  split; vm_compute; repeat constructor.
Qed.
Definition is_eff0 (ev : event) : Prop := match ev with EvEff _ _ r => r = 0 | _ => True end.
Lemma answers_zero tr : Forall is_eff0 tr -> answers (fun _ => 0) tr.
Proof. intros H g l r Hin. rewrite Forall_forall in H. exact (H _ Hin). Qed.
Lemma ex2_tr1_answers : answers (fun _ => 0) ex2_tr1.
Proof. apply answers_zero. vm_compute. repeat constructor. Qed.
Lemma ex2_tr2_answers : answers (fun _ => 0) ex2_tr2.
Proof. apply answers_zero. vm_compute. repeat constructor. Qed.
Lemma ex2_registries : registry_of ex2_tr1 = registry_of ex2_tr2.
Proof. vm_compute. reflexivity. Qed.
Lemma ex2_differ : length ex2_tr1 <> length ex2_tr2.
Proof. vm_compute. discriminate. Qed.
Lemma ex2_tr1_events :
  EvCall 0 None Background [TPtr 3] ∈ ex2_tr1 /\ EvRet 0 None ex2_err ∈ ex2_tr1 /\
  (exists g e, EvEnd g (w_addr ex2 10) 0 e ∈ ex2_tr1).
Proof. split; [in_log|]. split; [in_log|]. eexists _, None. in_log. Qed.
Lemma ex2_tr2_events :
  exists c p cx, EvCall c p cx [TPtr 3] ∈ ex2_tr2 /\ EvRet c p ex2_err ∈ ex2_tr2.
Proof. exists 3, None, (WithArgs Background ["x"]). split; in_log. Qed.

Example C10_case :
  (trace ex2 ex2_tr1 /\ registered_first ex2_tr1) /\ answers (fun _ => 0) ex2_tr1 /\
  (trace ex2 ex2_tr2 /\ registered_first ex2_tr2) /\ answers (fun _ => 0) ex2_tr2 /\
  registry_of ex2_tr1 = registry_of ex2_tr2 /\ length ex2_tr1 <> length ex2_tr2 /\
  (EvCall 0 None Background [TPtr 3] ∈ ex2_tr1 /\ EvRet 0 None ex2_err ∈ ex2_tr1 /\
   exists g e, EvEnd g (w_addr ex2 10) 0 e ∈ ex2_tr1) /\
  (exists c p cx, EvCall c p cx [TPtr 3] ∈ ex2_tr2 /\ EvRet c p ex2_err ∈ ex2_tr2).
Proof.
  exact (conj ex2_tr1_ok (conj ex2_tr1_answers (conj ex2_tr2_ok (conj ex2_tr2_answers
    (conj ex2_registries (conj ex2_differ (conj ex2_tr1_events ex2_tr2_events))))))).
Qed.

(** Without the premise that bodies ignore their contexts the claim fails: 7 is
    ArgTarget(0, x), 8 is All(0), and 0 fails when it gets no arguments.  Run(7, 8) fails or
    succeeds depending on the schedule. *)
Definition ex3_body (o : obj) (cx : ctx) : prog :=
  match o with
  | 0 => if decide (GetArgs cx = []) then Ret (Some (EBody 1)) else Ret None
  | 7 => arg_prog (TPtr 0) ["x"] cx
  | 8 => all_prog [TPtr 0] cx
  | _ => Ret None
  end.
Definition ex3 : world :=
  {| w_addr := fun o => 100 + o; w_deferred := fun _ => None; w_body := ex3_body |}.

Lemma run_default w chs :
  (if run w init chs then true else false) = true -> reachable w (default init (run w init chs)).
Proof. destruct (run w init chs) as [s|] eqn:E; [|done]. intros _. by exists chs. Qed.

Theorem C10_context_dependent_refuted :
  exists w cx ts e, addr_injective w /\ e <> None /\
    (exists tr1, trace w tr1 /\ registry_of tr1 = ∅ /\ (forall rho, answers rho tr1) /\
       (forall c cx' ts', EvCall c None cx' ts' ∈ tr1 -> c = 0 /\ cx' = cx /\ ts' = ts) /\
       EvCall 0 None cx ts ∈ tr1 /\ EvRet 0 None None ∈ tr1) /\
    (exists tr2, trace w tr2 /\ registry_of tr2 = ∅ /\ (forall rho, answers rho tr2) /\
       (forall c cx' ts', EvCall c None cx' ts' ∈ tr2 -> c = 0 /\ cx' = cx /\ ts' = ts) /\
       EvCall 0 None cx ts ∈ tr2 /\ EvRet 0 None e ∈ tr2).
Proof.
  exists ex3, Background, [TPtr 7; TPtr 8],
    (Some (EJoin [EWrap 7 (EJoin [EWrap 0 (EBody 1)]); EWrap 8 (EJoin [EWrap 0 (EBody 1)])])).
  split; [intros o1 o2 H; simpl in H; lia|]. split; [done|].
  split.
  - set (s0 := default init (run ex3 init [ChRun Background [TPtr 7; TPtr 8]])).
    exists (s_log (greedy 100 ex3 s0)). split_and!.
    + apply reachable_trace, greedy_reachable, run_default. vm_compute. reflexivity.
    + vm_compute. reflexivity.
    + intros rho g l r Hin. apply elem_of_list_In in Hin. unfold s0 in Hin. compute_log Hin. simpl in Hin.
      repeat (destruct Hin as [Hin|Hin]; [by simplify_eq|]). done.
    + intros c cx' ts' Hin. apply elem_of_list_In in Hin. unfold s0 in Hin. compute_log Hin. simpl in Hin.
      repeat (destruct Hin as [Hin|Hin]; [by simplify_eq|]). done.
    + in_log.
    + in_log.
  - set (s0 := default init (run ex3 init [ChRun Background [TPtr 7; TPtr 8]; ChLoop 0; ChLoop 0; ChGo 1 0; ChGo 1 0; ChLoop 1; ChGo 2 0])).
    exists (s_log (greedy 100 ex3 s0)). split_and!.
    + apply reachable_trace, greedy_reachable, run_default. vm_compute. reflexivity.
    + vm_compute. reflexivity.
    + intros rho g l r Hin. apply elem_of_list_In in Hin. unfold s0 in Hin. compute_log Hin. simpl in Hin.
      repeat (destruct Hin as [Hin|Hin]; [by simplify_eq|]). done.
    + intros c cx' ts' Hin. apply elem_of_list_In in Hin. unfold s0 in Hin. compute_log Hin. simpl in Hin.
      repeat (destruct Hin as [Hin|Hin]; [by simplify_eq|]). done.
    + in_log.
    + in_log.
Qed.
Print Assumptions C10_context_dependent_refuted.
