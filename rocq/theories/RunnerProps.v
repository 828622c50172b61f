(** Properties C01-C03, C05-C09, C11, C12, C56 of Controller.Run.
    Vocabulary: RunnerSpec.v; events: RunnerModel.v. *)
From stdpp Require Import base gmap list strings.
From Verif Require Import ContextModel RunnerModel RunnerSteps RunnerSpec.
From Verif Require Import RunnerProofs RunnerProofs2 RunnerProofs3 RunnerPar RunnerRefs.

(** ** A concrete program used to show that the hypotheses below can be met.
    0 succeeds, 1 fails, 2 = Seq(0, 1, 3), 3 succeeds, 4 = All(0, 1, non-pointer, 3),
    5 = Deps(0, 0, 3) = Seq(6, 0) with 6 = All(0, 3), 7 = ArgTarget(3, "x"),
    8 = Deps(3, 0, 1) = Seq(9, 3) with 9 = All(0, 1), 10 = Seq(0, 3). *)
Definition ex_body (o : obj) (cx : ctx) : prog :=
  match o with
  | 0 => Eff (OpOther 7) (fun _ => Ret None)
  | 1 => Ret (Some (EBody 1))
  | 2 => seq_prog [TPtr 0; TPtr 1; TPtr 3] cx
  | 4 => all_prog [TPtr 0; TPtr 1; TNonPtr; TPtr 3] cx
  | 5 => seq_prog [TPtr 6; TPtr 0] cx
  | 6 => all_prog [TPtr 0; TPtr 3] cx
  | 7 => arg_prog (TPtr 3) ["x"] cx
  | 8 => seq_prog [TPtr 9; TPtr 3] cx
  | 9 => all_prog [TPtr 0; TPtr 1] cx
  | 10 => seq_prog [TPtr 0; TPtr 3] cx
  | _ => Ret None
  end.
Definition ex_world : world :=
  {| w_addr := fun o => 100 + o; w_deferred := fun _ => None; w_body := ex_body |}.

Lemma ex_injective : addr_injective ex_world.
Proof. intros o1 o2 H. simpl in H. lia. Qed.

Ltac in_log := apply elem_of_list_In; vm_compute; repeat (first [left; reflexivity | right]).

(** Replace a computable log in [H : In ev log] by its value. *)
Ltac compute_log H :=
  match type of H with
  | In _ ?t => let v := eval vm_compute in t in
               let E := fresh in
               assert (E : t = v) by (vm_compute; reflexivity); rewrite E in H; clear E
  end.

(** Split a computed log at position [n]. *)
Lemma split_at (tr : list event) n ev :
  tr !! n = Some ev -> tr = take n tr ++ ev :: drop (S n) tr.
Proof. intros H. symmetry. by apply take_drop_middle. Qed.

(** Three concrete traces (see the comments for what happens). *)
(* Run(2, 4) fails; then Run(0). *)
Definition tr1 : list event :=
  s_log (client 200 ex_world init [ChRun Background [TPtr 2; TPtr 4]; ChRun Background [TPtr 0]]).
(* Run(5) succeeds; Run(8) fails. *)
Definition tr2 : list event :=
  s_log (client 200 ex_world init [ChRun Background [TPtr 5]; ChRun Background [TPtr 8]]).
(* Run(7), Run(10) *)
Definition tr3 : list event :=
  s_log (client 200 ex_world init [ChRun Background [TPtr 7]; ChRun Background [TPtr 10]]).
Lemma tr1_trace : trace ex_world tr1. Proof. apply client_trace. Qed.
Lemma tr2_trace : trace ex_world tr2. Proof. apply client_trace. Qed.
Lemma tr3_trace : trace ex_world tr3. Proof. apply client_trace. Qed.

(** ** C01: the body for a given target address starts at most once in any execution. *)
Theorem C01_at_most_once w tr i j a g1 o1 cx1 g2 o2 cx2 :
  trace w tr ->
  tr !! i = Some (EvStart g1 a o1 cx1) -> tr !! j = Some (EvStart g2 a o2 cx2) -> i = j.
Proof. exact (start_unique w tr i j a g1 o1 cx1 g2 o2 cx2). Qed.
Print Assumptions C01_at_most_once.

(** Three calls (two nested, one later client call) request target 0, which starts. *)
Example C01_case :
  trace ex_world tr1 /\ tr1 !! 12 = Some (EvStart 2 100 0 Background) /\
  EvReq 1 0 100 0 ∈ tr1 /\ EvReq 2 0 100 0 ∈ tr1 /\ EvReq 4 0 100 0 ∈ tr1.
Proof. split; [apply tr1_trace|]. split; [vm_compute; done|]. split_and!; in_log. Qed.

(** ** C02: all requests for an address get the (wrapped) result of its one run. *)
Theorem C02_requests_agree w tr c1 p1 e1 c2 p2 e2 :
  trace w tr -> EvRet c1 p1 e1 ∈ tr -> EvRet c2 p2 e2 ∈ tr ->
  exists rs1 rs2, e1 = join rs1 /\ e2 = join rs2 /\
    forall i1 i2 a o1 o2, EvReq c1 i1 a o1 ∈ tr -> EvReq c2 i2 a o2 ∈ tr ->
      exists g o e, EvEnd g a o e ∈ tr /\ rs1 !! i1 = Some (wrap o e) /\ rs2 !! i2 = Some (wrap o e).
Proof. exact (requests_agree_lem w tr c1 p1 e1 c2 p2 e2). Qed.
Print Assumptions C02_requests_agree.

(** In particular, all calls Run(ctx, o), anywhere, ever, return the same error. *)
Theorem C02_same_target_same_error w tr o c1 p1 cx1 e1 c2 p2 cx2 e2 :
  trace w tr -> w_deferred w o = None ->
  EvCall c1 p1 cx1 [TPtr o] ∈ tr -> EvRet c1 p1 e1 ∈ tr ->
  EvCall c2 p2 cx2 [TPtr o] ∈ tr -> EvRet c2 p2 e2 ∈ tr -> e1 = e2.
Proof. exact (same_target_same_error_lem w tr o c1 p1 cx1 e1 c2 p2 cx2 e2). Qed.
Print Assumptions C02_same_target_same_error.

Example C02_case :
  trace ex_world tr1 /\
  EvRet 2 (Some 1) (Some (EJoin [EWrap 1 (EBody 1); ENotPointer])) ∈ tr1 /\
  EvRet 3 (Some 0) (Some (EJoin [EWrap 1 (EBody 1)])) ∈ tr1 /\
  EvReq 2 1 101 1 ∈ tr1 /\ EvReq 3 0 101 1 ∈ tr1 /\
  EvCall 1 (Some 0) Background [TPtr 0] ∈ tr1 /\ EvRet 1 (Some 0) None ∈ tr1 /\
  EvCall 4 None Background [TPtr 0] ∈ tr1 /\ EvRet 4 None None ∈ tr1.
Proof. split; [apply tr1_trace|]. split_and!; in_log. Qed.

(** ** C03: Run returns only after all its arguments completed, with their exact join. *)
Theorem C03_return_after_completion w l1 c p e l2 :
  trace w (l1 ++ EvRet c p e :: l2) ->
  exists cx ts rs, EvCall c p cx ts ∈ l1 /\ length rs = length ts /\ e = join rs /\
    forall i t, ts !! i = Some t -> exists r, rs !! i = Some r /\ completed w c i t r l1.
Proof. exact (ret_completed w l1 c p e l2). Qed.
Print Assumptions C03_return_after_completion.

Theorem C03_nil_iff_all_nil rs : join rs = None <-> forall i r, rs !! i = Some r -> r = None.
Proof. exact (join_none rs). Qed.
Print Assumptions C03_nil_iff_all_nil.

(** A name is rejected as unresolved only if nothing was registered under it before. *)
Theorem C03_unresolved_only_if_unregistered w l1 c i name l2 :
  trace w (l1 ++ EvRej c i (EUnresolved name) :: l2) -> forall o, EvRegister name o ∉ l1.
Proof. exact (unresolved_lem w l1 c i name l2). Qed.
Print Assumptions C03_unresolved_only_if_unregistered.

Definition ex_unres : world :=
  {| w_addr := fun o => o; w_deferred := fun o => if decide (o = 5) then Some "nope" else None;
     w_body := fun _ _ => Ret None |}.

Example C03_case :
  (exists l1 l2, trace ex_world (l1 ++ EvRet 2 (Some 1) (Some (EJoin [EWrap 1 (EBody 1); ENotPointer])) :: l2)) /\
  (exists l1 l2, trace ex_unres (l1 ++ EvRej 0 1 (EUnresolved "nope") :: l2) /\ EvStart 0 0 0 Background ∈ l2).
Proof.
  split.
  - exists (take 22 tr1), (drop 23 tr1). rewrite <-(split_at tr1 22); [apply tr1_trace|vm_compute; done].
  - set (tr := s_log (client 100 ex_unres init [ChRun Background [TPtr 0; TPtr 5]])).
    exists (take 2 tr), (drop 3 tr). split; [|in_log].
    rewrite <-(split_at tr 2); [apply client_trace|vm_compute; done].
Qed.

(** ** C05 refuted: if targets depend on each other cyclically, no call that requests one
    of them ever returns, under any schedule.  [S] is any set of All targets each of which
    has a member of [S] among its subtargets. *)
Theorem C05_cycle_never_returns_refuted w (S : obj -> Prop) :
  addr_injective w ->
  (forall o, S o -> w_deferred w o = None /\
     exists ts o', (forall cx, w_body w o cx = all_prog ts cx) /\ TPtr o' ∈ ts /\ S o') ->
  forall tr c p cx ts o e, trace w tr -> EvCall c p cx ts ∈ tr -> TPtr o ∈ ts -> S o ->
    EvRet c p e ∉ tr.
Proof. exact (cycle_never_returns_lem w S). Qed.
Print Assumptions C05_cycle_never_returns_refuted.

Definition ex_cycle : world :=
  {| w_addr := fun o => o; w_deferred := fun _ => None;
     w_body := fun o cx => match o with
                           | 0 => all_prog [TPtr 1] cx
                           | 1 => all_prog [TPtr 0] cx
                           | _ => Ret None
                           end |}.
Example C05_case :
  (forall o, (o = 0 \/ o = 1) -> w_deferred ex_cycle o = None /\
     exists ts o', (forall cx, w_body ex_cycle o cx = all_prog ts cx) /\ TPtr o' ∈ ts /\ (o' = 0 \/ o' = 1)) /\
  trace ex_cycle (s_log (client 100 ex_cycle init [ChRun Background [TPtr 0]])) /\
  EvCall 2 (Some 1) Background [TPtr 0] ∈ s_log (client 100 ex_cycle init [ChRun Background [TPtr 0]]).
Proof.
  split; [|split; [apply client_trace|in_log]].
  intros o [->| ->]; (split; [done|]); [exists [TPtr 1], 1|exists [TPtr 0], 0]; set_solver.
Qed.

(** ** C06 refuted: a diamond of YAML names runs the shared target twice.
    A = 3 = All(B, C); B = 1 = All(d1), C = 2 = All(d2); d1 = 10 and d2 = 11 are the two
    references "X"; X = 0 is registered. *)
Definition ex_diamond : world :=
  {| w_addr := fun o => o;
     w_deferred := fun o => if decide (o = 10 \/ o = 11) then Some "X" else None;
     w_body := fun o cx => match o with
                           | 1 => all_prog [TPtr 10] cx
                           | 2 => all_prog [TPtr 11] cx
                           | 3 => all_prog [TPtr 1; TPtr 2] cx
                           | _ => Ret None
                           end |}.
Theorem C06_named_diamond_runs_once_refuted :
  addr_injective ex_diamond /\
  exists tr i j g1 g2 a1 a2 cx1 cx2, trace ex_diamond tr /\ i <> j /\
    tr !! i = Some (EvStart g1 a1 0 cx1) /\ tr !! j = Some (EvStart g2 a2 0 cx2) /\
    EvRet 0 None None ∈ tr.
Proof.
  split; [intros o1 o2 H; exact H|].
  exists (s_log (client 200 ex_diamond init [ChRegister "X" 0; ChRun Background [TPtr 3]])).
  exists 13, 15, 3, 4, 10, 11, Background, Background.
  split; [apply client_trace|]. split; [done|]. split; [vm_compute; done|].
  split; [vm_compute; done|]. in_log.
Qed.
Print Assumptions C06_named_diamond_runs_once_refuted.

(** The part that holds: a target runs at most once for each reference to it, where [R] is
    any list of the values (the target itself and name references) through which it is
    requested.  So a target requested through a single value runs at most once. *)
Theorem C06_once_per_reference_partial w tr o (R : list obj) :
  trace w tr ->
  (forall c p cx ts d, EvCall c p cx ts ∈ tr -> TPtr d ∈ ts -> stands_for w tr d o -> d ∈ R) ->
  times_run o tr <= length R.
Proof. exact (once_per_reference_lem w tr o R). Qed.
Print Assumptions C06_once_per_reference_partial.

(** X = 0 named once (by 10), requested three times by its referrers: it runs once.  In the
    diamond it runs twice. *)
Definition ex_one_ref : world :=
  {| w_addr := fun o => o;
     w_deferred := fun o => if decide (o = 10) then Some "X" else None;
     w_body := fun o cx => match o with
                           | 1 => all_prog [TPtr 10] cx
                           | 2 => all_prog [TPtr 10] cx
                           | 3 => all_prog [TPtr 1; TPtr 2; TPtr 10] cx
                           | _ => Ret None
                           end |}.
Definition tr_one_ref : list event :=
  s_log (client 200 ex_one_ref init [ChRegister "X" 0; ChRun Background [TPtr 3]]).
Definition tr_diamond : list event :=
  s_log (client 200 ex_diamond init [ChRegister "X" 0; ChRun Background [TPtr 3]]).
Example C06_partial_case :
  (trace ex_one_ref tr_one_ref /\ times_run 0 tr_one_ref = 1 /\
   forall c p cx ts d, EvCall c p cx ts ∈ tr_one_ref -> TPtr d ∈ ts -> stands_for ex_one_ref tr_one_ref d 0 -> d ∈ [10]) /\
  (trace ex_diamond tr_diamond /\ times_run 0 tr_diamond = 2).
Proof.
  split; [split; [apply client_trace|split; [vm_compute; done|]]|split; [apply client_trace|vm_compute; done]].
  intros c p cx ts d Hc Hd Hs. apply elem_of_list_singleton. destruct Hs as [[_ ->]|(name & Hn & _)].
  - exfalso. apply elem_of_list_In in Hc. compute_log Hc. simpl in Hc.
    repeat (destruct Hc as [Hc|Hc]; [simplify_eq; repeat (apply elem_of_cons in Hd as [Hd|Hd]; [done|]); by apply elem_of_nil in Hd|]). done.
  - simpl in Hn. by destruct (decide (d = 10)).
Qed.

(** ** C07: Seq requests its targets one at a time, in order, each only after all earlier
    ones succeeded ... *)
Theorem C07_seq_order w l1 c g cx' us l2 a o cx ts :
  trace w (l1 ++ EvCall c (Some g) cx' us :: l2) -> EvStart g a o cx ∈ l1 ->
  body w o cx = seq_prog ts cx ->
  cx' = cx /\ exists t, ts !! length (calls_by g l1) = Some t /\ us = [t] /\
    forall j t', j < length (calls_by g l1) -> ts !! j = Some t' -> succeeded w t' l1.
Proof. exact (seq_order_lem w l1 c g cx' us l2 a o cx ts). Qed.
Print Assumptions C07_seq_order.

(** ... and returns nil exactly when all succeeded, else the first failure, having
    requested nothing after it. *)
Theorem C07_seq_result w l1 g a o r l2 cx ts :
  trace w (l1 ++ EvEnd g a o r :: l2) -> EvStart g a o cx ∈ l1 ->
  body w o cx = seq_prog ts cx ->
  match r with
  | None => length (calls_by g l1) = length ts /\ forall t, t ∈ ts -> succeeded w t l1
  | Some e =>
      exists before c us, calls_by g l1 = before ++ [(c, us)] /\
        EvRet c (Some g) (Some e) ∈ l1 /\
        forall c' us', (c', us') ∈ before -> EvRet c' (Some g) None ∈ l1
  end.
Proof. exact (seq_result_lem w l1 g a o r l2 cx ts). Qed.
Print Assumptions C07_seq_result.

(** Nothing is requested by a body after it ended (for any target). *)
Theorem C07_nothing_after_end w l1 g a o r l2 c cx us :
  trace w (l1 ++ EvEnd g a o r :: l2) -> EvCall c (Some g) cx us ∉ l2.
Proof. exact (nothing_after_end_lem w l1 g a o r l2 c cx us). Qed.
Print Assumptions C07_nothing_after_end.

Example C07_case :
  (exists l1 l2, trace ex_world (l1 ++ EvCall 3 (Some 0) Background [TPtr 1] :: l2) /\
     EvStart 0 102 2 Background ∈ l1) /\
  (exists l1 l2 e, trace ex_world (l1 ++ EvEnd 0 102 2 (Some e) :: l2) /\ EvStart 0 102 2 Background ∈ l1) /\
  (exists l1 l2, trace ex_world (l1 ++ EvEnd 2 110 10 None :: l2) /\ EvStart 2 110 10 Background ∈ l1) /\
  body ex_world 2 Background = seq_prog [TPtr 0; TPtr 1; TPtr 3] Background.
Proof.
  split_and!; [| | |done].
  - exists (take 20 tr1), (drop 21 tr1). split; [|in_log].
    rewrite <-(split_at tr1 20); [apply tr1_trace|vm_compute; done].
  - exists (take 25 tr1), (drop 26 tr1), (EJoin [EWrap 1 (EBody 1)]). split; [|in_log].
    rewrite <-(split_at tr1 25); [apply tr1_trace|vm_compute; done].
  - exists (take 22 tr3), (drop 23 tr3). split; [|in_log].
    rewrite <-(split_at tr3 22); [apply tr3_trace|vm_compute; done].
Qed.

(** ** C08: Deps(t, ds...) = Seq(All(ds...), t) (deps.go:9-11) requests t only after every
    d succeeded, and succeeds only if all did. *)
Theorem C08_deps_order w l1 c g cx' us l2 a o cx al ds t :
  addr_injective w ->
  trace w (l1 ++ EvCall c (Some g) cx' us :: l2) -> EvStart g a o cx ∈ l1 ->
  body w o cx = seq_prog [TPtr al; t] cx ->
  w_deferred w al = None -> (forall cx, w_body w al cx = all_prog ds cx) ->
  (us = [TPtr al] /\ calls_by g l1 = []) \/ (us = [t] /\ forall d, d ∈ ds -> succeeded w d l1).
Proof. exact (deps_order_lem w l1 c g cx' us l2 a o cx al ds t). Qed.
Print Assumptions C08_deps_order.

Theorem C08_deps_result w l1 g a o l2 cx al ds t :
  addr_injective w ->
  trace w (l1 ++ EvEnd g a o None :: l2) -> EvStart g a o cx ∈ l1 ->
  body w o cx = seq_prog [TPtr al; t] cx ->
  w_deferred w al = None -> (forall cx, w_body w al cx = all_prog ds cx) ->
  succeeded w t l1 /\ forall d, d ∈ ds -> succeeded w d l1.
Proof. exact (deps_result_lem w l1 g a o l2 cx al ds t). Qed.
Print Assumptions C08_deps_result.

Example C08_case :
  (exists l1 l2, trace ex_world (l1 ++ EvCall 3 (Some 0) Background [TPtr 0] :: l2) /\
     EvStart 0 105 5 Background ∈ l1) /\
  (exists l1 l2, trace ex_world (l1 ++ EvEnd 0 105 5 None :: l2) /\ EvStart 0 105 5 Background ∈ l1) /\
  body ex_world 5 Background = seq_prog [TPtr 6; TPtr 0] Background /\
  (forall cx, w_body ex_world 6 cx = all_prog [TPtr 0; TPtr 3] cx).
Proof.
  split_and!; [| |done|done].
  - exists (take 17 tr2), (drop 18 tr2). split; [|in_log].
    rewrite <-(split_at tr2 17); [apply tr2_trace|vm_compute; done].
  - exists (take 20 tr2), (drop 21 tr2). split; [|in_log].
    rewrite <-(split_at tr2 20); [apply tr2_trace|vm_compute; done].
Qed.

(** ** C09: All makes exactly one call, for all its targets, every one of which completes
    whatever the others do, and returns the join of the results ... *)
Theorem C09_all_attempts_everything w l1 g a o r l2 cx ts :
  trace w (l1 ++ EvEnd g a o r :: l2) -> EvStart g a o cx ∈ l1 ->
  body w o cx = all_prog ts cx ->
  exists c rs, calls_by g l1 = [(c, ts)] /\ EvRet c (Some g) r ∈ l1 /\
    length rs = length ts /\ r = join rs /\
    forall i t, ts !! i = Some t -> exists ri, rs !! i = Some ri /\ completed w c i t ri l1.
Proof. exact (all_result_lem w l1 g a o r l2 cx ts). Qed.
Print Assumptions C09_all_attempts_everything.

(** ... and any number of distinct targets, not yet run, can be in progress at once. *)
Theorem C09_all_in_parallel w s os cx :
  reachable w s -> (forall o, o ∈ os -> w_deferred w o = None) ->
  NoDup (w_addr w <$> os) ->
  (forall o g o' cx', o ∈ os -> EvStart g (w_addr w o) o' cx' ∉ s_log s) ->
  exists sched s', run w s (ChRun cx (TPtr <$> os) :: sched) = Some s' /\
    forall o, o ∈ os ->
      (exists g, EvStart g (w_addr w o) o cx ∈ s_log s') /\
      (forall g o' e, EvEnd g (w_addr w o) o' e ∉ s_log s').
Proof. exact (all_parallel_lem w s os cx). Qed.
Print Assumptions C09_all_in_parallel.

Example C09_case :
  (exists l1 l2 e, trace ex_world (l1 ++ EvEnd 1 104 4 e :: l2) /\ EvStart 1 104 4 Background ∈ l1) /\
  body ex_world 4 Background = all_prog [TPtr 0; TPtr 1; TNonPtr; TPtr 3] Background /\
  reachable ex_world init /\ NoDup (w_addr ex_world <$> [0; 1; 3]).
Proof.
  split_and!; [|done|apply init_reachable|].
  - exists (take 23 tr1), (drop 24 tr1). eexists. split; [|in_log].
    rewrite <-(split_at tr1 23); [apply tr1_trace|vm_compute; done].
  - simpl. repeat (constructor; [set_solver|]). constructor.
Qed.

(** ** C11: the depth is the number of calls in progress; the clamp in decDepth never fires. *)
Theorem C11_depth_counts_open_calls w s :
  reachable w s -> s_depth s = Z.of_nat (in_progress (s_log s)).
Proof. exact (depth_lem w s). Qed.
Print Assumptions C11_depth_counts_open_calls.

Theorem C11_no_clamp w s c cl s' :
  reachable w s -> s_calls s !! c = Some cl -> c_targets cl <> [] ->
  step w s (ChReturn c) = Some s' -> s_depth s' = (s_depth s - 1)%Z.
Proof. exact (depth_return_lem w s c cl s'). Qed.
Print Assumptions C11_no_clamp.

(** Three calls are open after some steps, and a call with targets can return. *)
Definition ex_begun : state := begin_call None Background [TPtr 2; TPtr 4] init.
Lemma can_return w s c ts :
  c_targets <$> s_calls s !! c = Some ts -> ts <> [] ->
  bool_decide (is_Some (step w s (ChReturn c))) = true ->
  exists cl s', s_calls s !! c = Some cl /\ c_targets cl <> [] /\ step w s (ChReturn c) = Some s'.
Proof.
  intros H Hne Hs. apply bool_decide_eq_true in Hs as [s' Hs].
  destruct (s_calls s !! c) as [cl|]; [|done]. exists cl, s'. split; [done|]. split; [|done].
  simpl in H. by simplify_eq.
Qed.
Example C11_case :
  (reachable ex_world (greedy 12 ex_world ex_begun) /\ s_depth (greedy 12 ex_world ex_begun) = 3%Z) /\
  exists s, reachable ex_world s /\ exists c cl s',
    s_calls s !! c = Some cl /\ c_targets cl <> [] /\ step ex_world s (ChReturn c) = Some s'.
Proof.
  assert (Hr : reachable ex_world ex_begun).
  { eapply (reachable_step _ init (ChRun Background [TPtr 2; TPtr 4])); [apply init_reachable|done]. }
  split; [split; [by apply greedy_reachable|vm_compute; done]|].
  exists (greedy 25 ex_world ex_begun). split; [by apply greedy_reachable|].
  exists 1. apply (can_return _ _ _ [TPtr 0]); [vm_compute; reflexivity|done|vm_compute; reflexivity].
Qed.

(** ** C12: the call made by an ArgTarget carries its arguments, and the target sees them
    if only ArgTargets like it request the target ... *)
Theorem C12_arg_target_call w l1 c g cx' us l2 a o cx t args :
  trace w (l1 ++ EvCall c (Some g) cx' us :: l2) -> EvStart g a o cx ∈ l1 ->
  body w o cx = arg_prog t args cx ->
  us = [t] /\ GetArgs cx' = args.
Proof. exact (arg_call_lem w l1 c g cx' us l2 a o cx t args). Qed.
Print Assumptions C12_arg_target_call.

Theorem C12_arg_target_args_partial w tr ar t args g a cx :
  addr_injective w -> trace w tr -> w_deferred w ar = None ->
  (forall cx, w_body w ar cx = arg_prog (TPtr t) args cx) ->
  (forall c p cx ts, EvCall c p cx ts ∈ tr -> TPtr t ∈ ts ->
     exists g a cx', p = Some g /\ EvStart g a ar cx' ∈ tr) ->
  a = w_addr w t -> EvStart g a t cx ∈ tr -> GetArgs cx = args.
Proof. exact (arg_target_lem w tr ar t args g a cx). Qed.
Print Assumptions C12_arg_target_args_partial.

(** ... but not in general: if the target was requested before without arguments, the
    ArgTarget reports success although the target never saw them. *)
Theorem C12_args_refuted :
  exists w tr ar t args, addr_injective w /\ trace w tr /\ args <> [] /\
    w_deferred w ar = None /\ (forall cx, w_body w ar cx = arg_prog (TPtr t) args cx) /\
    (exists g a, EvEnd g a ar None ∈ tr) /\
    (exists g a cx, EvStart g a t cx ∈ tr) /\
    forall g a cx, EvStart g a t cx ∈ tr -> GetArgs cx <> args.
Proof.
  exists ex_world, (s_log (client 100 ex_world init [ChRun Background [TPtr 3]; ChRun Background [TPtr 7]])), 7, 3, ["x"].
  split; [exact ex_injective|]. split; [apply client_trace|]. split; [done|]. split; [done|]. split; [done|].
  split; [exists 1, 107; in_log|]. split; [exists 0, 103, Background; in_log|].
  intros g a cx Hin. apply elem_of_list_In in Hin. compute_log Hin.
  repeat (destruct Hin as [Hin|Hin]; [simplify_eq; try done|]); done.
Qed.
Print Assumptions C12_args_refuted.

Example C12_case :
  exists l1 l2, trace ex_world (l1 ++ EvCall 1 (Some 0) [CArgs ["x"]] [TPtr 3] :: l2) /\
     EvStart 0 107 7 Background ∈ l1 /\ EvStart 1 103 3 [CArgs ["x"]] ∈ l2.
Proof.
  exists (take 3 tr3), (drop 4 tr3). split_and!; [|in_log|in_log].
  rewrite <-(split_at tr3 3); [apply tr3_trace|vm_compute; done].
Qed.

(** ** C56: with injective addresses every requested target's own body runs ... *)
Theorem C56_own_body_runs_partial w l1 c p e l2 cx ts o :
  addr_injective w -> trace w (l1 ++ EvRet c p e :: l2) -> EvCall c p cx ts ∈ l1 ->
  TPtr o ∈ ts -> w_deferred w o = None ->
  exists g cx' r, EvStart g (w_addr w o) o cx' ∈ l1 /\ EvEnd g (w_addr w o) o r ∈ l1.
Proof. exact (own_body_runs_lem w l1 c p e l2 cx ts o). Qed.
Print Assumptions C56_own_body_runs_partial.

(** ... but two distinct targets with one address (zero-size types, or an address reused
    after garbage collection, since the controller keeps only the number) share one run:
    the second is reported successful although its body never ran. *)
Theorem C56_address_collision_refuted :
  exists w tr o1 o2 c, trace w tr /\ o1 <> o2 /\ w_deferred w o2 = None /\
    EvCall c None Background [TPtr o2] ∈ tr /\ EvRet c None None ∈ tr /\
    forall g a cx, EvStart g a o2 cx ∉ tr.
Proof.
  set (w := {| w_addr := fun _ => 7; w_deferred := fun _ => None; w_body := fun _ _ => Ret None |}).
  exists w, (s_log (client 100 w init [ChRun Background [TPtr 0]; ChRun Background [TPtr 1]])), 0, 1, 1.
  split; [apply client_trace|]. split; [done|]. split; [done|].
  split; [in_log|]. split; [in_log|].
  intros g a cx Hin. apply elem_of_list_In in Hin. compute_log Hin.
  repeat (destruct Hin as [Hin|Hin]; [simplify_eq; try done|]); done.
Qed.
Print Assumptions C56_address_collision_refuted.

Example C56_case :
  exists l1 l2, trace ex_world (l1 ++ EvRet 0 None None :: l2) /\ EvCall 0 None Background [TPtr 5] ∈ l1.
Proof.
  exists (take 21 tr2), (drop 22 tr2). split; [|in_log].
  rewrite <-(split_at tr2 21); [apply tr2_trace|vm_compute; done].
Qed.
