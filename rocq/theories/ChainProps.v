(** C24 and the ordering part of C23 at the level of the runner.
    Traces: RunnerSpec.v.  What a Files target asks of the controller: ChainModel.v. *)
From stdpp Require Import base gmap list strings relations.
From Verif Require Import PathModel FindModel PathProofs3 ContextModel RunnerModel RunnerSteps RunnerSpec RunnerSpec2.
From Verif Require Import RunnerProofs RunnerProofs2 RunnerProofs3 RunnerPar ChainModel ChainSpec ChainProofs ChainProofs2 RunnerProps RunnerProps2.
Local Open Scope list_scope.

(** [w] runs the Files target [f] as the code does when the declared targets are [fs]. *)
Definition is_files (w : world) (fs : list files) (f : files) : Prop :=
  w_deferred w (f_id f) = None /\
  exists sub, forall cx, w_body w (f_id f) cx = files_prog (declare_all fs) f sub cx.

(** ** C24 refuted.  A Files target with one file in both lists (such as a formatter that
    rewrites a file in place): no call that requests it ever returns, under any schedule.
    (It requests itself as the producer of its own input and waits for itself.) *)
Theorem C24_same_file_in_and_out_never_returns_refuted w before f after i tr c p cx ts e :
  addr_injective w -> is_files w (before ++ f :: after) f ->
  i ∈ f_in f -> i ∈ f_out f -> (forall f', f' ∈ after -> i ∉ f_out f') ->
  trace w tr -> EvCall c p cx ts ∈ tr -> TPtr (f_id f) ∈ ts ->
  EvRet c p e ∉ tr.
Proof. exact (self_lem w before f after i tr c p cx ts e). Qed.
Print Assumptions C24_same_file_in_and_out_never_returns_refuted.

(** The same for an input inside a directory that the target outputs, and for a cycle of
    any length: each target of [F] has an input for which the search finds a target of [F]. *)
Theorem C24_chain_cycle_never_returns_refuted w fs (F : files -> Prop) tr c p cx ts f e :
  addr_injective w ->
  (forall f, F f -> is_files w fs f /\
     exists i f', i ∈ f_in f /\ findInFilesRegistry (declare_all fs) i = Found f' /\ F f') ->
  trace w tr -> EvCall c p cx ts ∈ tr -> F f -> TPtr (f_id f) ∈ ts ->
  EvRet c p e ∉ tr.
Proof. exact (cycle_lem w fs F tr c p cx ts f e). Qed.
Print Assumptions C24_chain_cycle_never_returns_refuted.

(** The part that holds: if no Files target is, directly or through others, a producer of its
    own input, every call that requests Files targets returns (under every fair schedule, and
    whatever else is going on).  The subtargets must not go on forever by themselves. *)
Theorem C24_no_chain_cycle_returns_partial w fs (h : nat -> state) chs n c p cx ts :
  execution w h chs -> fair w h chs -> addr_injective w ->
  (forall f, f ∈ fs -> w_deferred w (f_id f) = None /\ exists sub,
     (forall cx, w_body w (f_id f) cx = files_prog (declare_all fs) f sub cx) /\
     forall o, sub = TPtr o -> safe w (fun a b => exists n, depends w (s_log (h n)) a b) (w_addr w o)) ->
  (forall f, ~ tc (produced_by fs) f f) ->
  EvCall c p cx ts ∈ s_log (h n) -> (forall t, t ∈ ts -> exists f, f ∈ fs /\ t = TPtr (f_id f)) ->
  exists m e, n <= m /\ EvRet c p e ∈ s_log (h m).
Proof. exact (acyclic_chain_lem w fs h chs n c p cx ts). Qed.
Print Assumptions C24_no_chain_cycle_returns_partial.

(** ** C23, order, at the level of the runner: when a Files target, started in goroutine
    [g], does anything but request its prerequisites (hashing, consulting the database,
    running its subtarget, returning no error), every prerequisite has been completed
    without error. *)
Theorem C23_prerequisites_succeed_first w l1 ev l2 g a o cx fs f sub p :
  trace w (l1 ++ ev :: l2) -> EvStart g a o cx ∈ l1 ->
  body w o cx = files_prog (declare_all fs) f sub cx ->
  (exists l r, ev = EvEff g l r) \/
  (exists c cx' ts, ev = EvCall c (Some g) cx' ts /\ calls_by g l1 <> []) \/
  ev = EvEnd g a o None ->
  p ∈ prereqs (declare_all fs) (f_in f) ->
  succeeded w (TPtr (f_id p)) l1.
Proof. exact (order_lem w l1 ev l2 g a o cx fs f sub p). Qed.
Print Assumptions C23_prerequisites_succeed_first.

(** The first request names exactly the targets found for the inputs. *)
Theorem C23_first_call_is_prerequisites w l1 c cx' ts l2 g a o cx fs f sub :
  trace w (l1 ++ EvCall c (Some g) cx' ts :: l2) -> EvStart g a o cx ∈ l1 ->
  body w o cx = files_prog (declare_all fs) f sub cx -> calls_by g l1 = [] ->
  cx' = cx /\
  (ts = [sub] /\ (forall i f', i ∈ f_in f -> findInFilesRegistry (declare_all fs) i <> Found f') \/
   length ts > 0 /\ forall t, t ∈ ts <->
     exists i f', i ∈ f_in f /\ findInFilesRegistry (declare_all fs) i = Found f' /\ t = TPtr (f_id f')).
Proof. exact (first_lem w l1 c cx' ts l2 g a o cx fs f sub). Qed.
Print Assumptions C23_first_call_is_prerequisites.

(** ** Concrete cases. *)
(* 1: a -> b (subtarget 11); 2: b -> c (subtarget 12); 3: fmt, x.go -> x.go (subtarget 13). *)
Definition ch1 := {| f_id := 1; f_in := ["a"]; f_out := ["b"] |}.
Definition ch2 := {| f_id := 2; f_in := ["b"; "z"]; f_out := ["c"] |}.
Definition ch3 := {| f_id := 3; f_in := ["x.go"]; f_out := ["x.go"] |}.
Definition ex_chain : world :=
  {| w_addr := fun o => 100 + o; w_deferred := fun _ => None;
     w_body := fun o cx =>
       match o with
       | 1 => files_prog (declare_all [ch1; ch2; ch3]) ch1 (TPtr 11) cx
       | 2 => files_prog (declare_all [ch1; ch2; ch3]) ch2 (TPtr 12) cx
       | 3 => files_prog (declare_all [ch1; ch2; ch3]) ch3 (TPtr 13) cx
       | _ => Ret None
       end |}.
Definition ch_tr2 := s_log (client 200 ex_chain init [ChRun Background [TPtr 2]]).
Definition ch_tr3 := s_log (client 200 ex_chain init [ChRun Background [TPtr 3]]).

Ltac in_log := apply elem_of_list_In; vm_compute; repeat (first [left; reflexivity | right]).

Example C24_case :
  addr_injective ex_chain /\ is_files ex_chain [ch1; ch2; ch3] ch3 /\
  trace ex_chain ch_tr3 /\ EvCall 0 None Background [TPtr 3] ∈ ch_tr3 /\
  EvCall 1 (Some 0) Background [TPtr 3] ∈ ch_tr3.
Proof.
  split; [intros o1 o2 H; simpl in H; lia|]. split; [split; [done|by exists (TPtr 13)]|].
  split; [apply client_trace|]. split; in_log.
Qed.
Example C23_order_case :
  trace ex_chain ch_tr2 /\ EvCall 1 (Some 0) Background [TPtr 1] ∈ ch_tr2 /\
  EvCall 3 (Some 0) Background [TPtr 12] ∈ ch_tr2 /\ EvEnd 0 102 2 None ∈ ch_tr2 /\
  prereqs (declare_all [ch1; ch2; ch3]) (f_in ch2) = [ch1].
Proof. split; [apply client_trace|]. split; [in_log|]. split; [in_log|]. split; [in_log|]. vm_compute. done. Qed.

(** The chain without the formatter: a fair execution in which Run(2) has not returned yet. *)
Definition ex_chain2 : world :=
  {| w_addr := fun o => 100 + o; w_deferred := fun _ => None;
     w_body := fun o cx =>
       match o with
       | 1 => files_prog (declare_all [ch1; ch2]) ch1 (TPtr 11) cx
       | 2 => files_prog (declare_all [ch1; ch2]) ch2 (TPtr 12) cx
       | _ => Ret None
       end |}.
Definition ex_chain2_sched : list choice :=
  let start := [ChRun Background [TPtr 2]] in
  start ++ RunnerProps2.greedy_sched 200 ex_chain2 (default init (run ex_chain2 init start)).

Lemma ch_acyclic f : ~ tc (produced_by [ch1; ch2]) f f.
Proof.
  assert (H1 : forall f', ~ produced_by [ch1; ch2] ch1 f').
  { intros f' (i & Hi & Hf). apply elem_of_list_singleton in Hi as ->. vm_compute in Hf. done. }
  assert (H2 : forall f', produced_by [ch1; ch2] ch2 f' -> f' = ch1).
  { intros f' (i & Hi & Hf). repeat (apply elem_of_cons in Hi as [->|Hi]; [vm_compute in Hf; by simplify_eq|]).
    by apply elem_of_nil in Hi. }
  assert (H3 : forall f', ~ tc (produced_by [ch1; ch2]) ch1 f').
  { intros f' H. inversion H; by eapply H1. }
  assert (H4 : forall f', tc (produced_by [ch1; ch2]) ch2 f' -> f' = ch1).
  { intros f' H. inversion H as [? ? Hx|? x ? Hx Hy]; subst; [by apply H2|]. apply H2 in Hx as ->. by apply H3 in Hy. }
  intros H. assert (Hin : f ∈ [ch1; ch2]).
  { assert (Hg : forall a b, tc (produced_by [ch1; ch2]) a b -> b ∈ [ch1; ch2]).
    { induction 1 as [a b (i & _ & Hf)|]; [by eapply ChainProofs2.found_in|done]. }
    by eapply Hg. }
  apply elem_of_cons in Hin as [->|Hin]; [by eapply H3|]. apply elem_of_list_singleton in Hin as ->.
  by apply H4 in H.
Qed.

Example C24_partial_case :
  exists h chs, execution ex_chain2 h chs /\ fair ex_chain2 h chs /\ addr_injective ex_chain2 /\
    (forall f, f ∈ [ch1; ch2] -> w_deferred ex_chain2 (f_id f) = None /\ exists sub,
       (forall cx, w_body ex_chain2 (f_id f) cx = files_prog (declare_all [ch1; ch2]) f sub cx) /\
       forall o, sub = TPtr o -> safe ex_chain2 (fun a b => exists n, depends ex_chain2 (s_log (h n)) a b) (w_addr ex_chain2 o)) /\
    (forall f, ~ tc (produced_by [ch1; ch2]) f f) /\
    exists n, EvCall 0 None Background [TPtr 2] ∈ s_log (h n) /\ forall e, EvRet 0 None e ∉ s_log (h n).
Proof.
  assert (Hq : exists s, run ex_chain2 init ex_chain2_sched = Some s /\ RunnerProps2.quiet s).
  { eexists. split; [vm_compute; reflexivity|]. split; repeat constructor; done. }
  destruct Hq as (s & Hr & Hq).
  destruct (RunnerProps2.then_idle_execution ex_chain2 ex_chain2_sched s Hr Hq) as [He Hf].
  exists (RunnerProps2.then_idle_s ex_chain2 ex_chain2_sched), (RunnerProps2.then_idle_c ex_chain2_sched).
  split; [exact He|]. split; [exact Hf|]. clear Hr Hq He Hf s.
  split; [intros o1 o2 H; simpl in H; lia|]. split; [|split; [exact ch_acyclic|]].
  - assert (Hleaf : forall o, 2 < o -> safe ex_chain2
      (fun a b => exists n, depends ex_chain2 (s_log (RunnerProps2.then_idle_s ex_chain2 ex_chain2_sched n)) a b) (100 + o)).
    { intros o Ho. constructor.
      - intros o' cx Ho' _. assert (o' = o) by (simpl in Ho'; lia). subst o'.
        destruct o as [|[|[|o]]]; [lia|lia|lia|constructor].
      - intros b [n Hb]. inversion Hb as [o' cx ts o2 _ Hm Hin Ho' Hb'|? ? ? H]; [|discriminate H].
        assert (o' = o) by (simpl in Ho'; lia). subst o'. exfalso.
        destruct o as [|[|[|o]]]; [lia|lia|lia|exact (ChainProofs2.may_ret _ _ Hm)]. }
    intros f Hin. split; [reflexivity|].
    apply elem_of_cons in Hin as [->|Hin]; [|apply elem_of_list_singleton in Hin as ->].
    + exists (TPtr 11). split; [reflexivity|]. intros o [= <-]. apply (Hleaf 11). lia.
    + exists (TPtr 12). split; [reflexivity|]. intros o [= <-]. apply (Hleaf 12). lia.
  - exists 1. split; [in_log|]. intros e Hin. apply elem_of_list_In in Hin.
    RunnerProps.compute_log Hin. simpl in Hin. repeat (destruct Hin as [Hin|Hin]; [by simplify_eq|]). done.
Qed.
