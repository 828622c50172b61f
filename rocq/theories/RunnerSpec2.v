(** Vocabulary for termination (C04) and determinism (C10) of the runner. *)
From stdpp Require Import base gmap list strings relations.
From Verif Require Import ContextModel RunnerModel.

(** ** Finite bodies and the requests they can make *)

(** Every path through [p] ends, whatever answers it gets. *)
Inductive finite : prog -> Prop :=
  | fin_ret e : finite (Ret e)
  | fin_call cx ts k : (forall e, finite (k e)) -> finite (Call cx ts k)
  | fin_res d k : (forall r, finite (k r)) -> finite (Resolve d k)
  | fin_eff l k : (forall r, finite (k r)) -> finite (Eff l k).

(** [p] calls con.Run with the targets [ts] on some path. *)
Inductive may_call : prog -> list tref -> Prop :=
  | mc_here cx ts k : may_call (Call cx ts k) ts
  | mc_call cx ts k e us : may_call (k e) us -> may_call (Call cx ts k) us
  | mc_res d k r us : may_call (k r) us -> may_call (Resolve d k) us
  | mc_eff l k r us : may_call (k r) us -> may_call (Eff l k) us.

(** [depends w tr a b]: the target at address [a] can request the one at address [b]:
    its body may pass it to Run, or it is a reference to a name under which the target at
    [b] was registered during [tr]. *)
Inductive depends (w : world) (tr : list event) : addr -> addr -> Prop :=
  | dep_body o cx ts o' :
      w_deferred w o = None -> may_call (w_body w o cx) ts -> TPtr o' ∈ ts ->
      depends w tr (w_addr w o) (w_addr w o')
  | dep_name d name o :
      w_deferred w d = Some name -> EvRegister name o ∈ tr ->
      depends w tr (w_addr w d) (w_addr w o).

(** No infinite chain of dependencies. *)
Definition well_founded_deps (w : world) (tr : list event) : Prop :=
  well_founded (fun b a => depends w tr a b).

(** For finitely many targets with dependencies, this is acyclicity. *)
Definition acyclic_deps (w : world) (tr : list event) : Prop :=
  (forall a, ~ tc (depends w tr) a a) /\
  exists l : list addr, forall a b, depends w tr a b -> a ∈ l.

Definition all_finite (w : world) : Prop :=
  forall o cx, w_deferred w o = None -> finite (w_body w o cx).

(** The target at address [a], and everything it can request directly or indirectly (by
    [D]), has finite bodies and takes part in no cycle of requests. *)
Inductive safe (w : world) (D : addr -> addr -> Prop) (a : addr) : Prop :=
  | safe_intro :
      (forall o cx, w_addr w o = a -> w_deferred w o = None -> finite (w_body w o cx)) ->
      (forall b, D a b -> safe w D b) -> safe w D a.

(** ** Schedules *)

(** Steps other than new calls and registrations by clients. *)
Definition internal (ch : choice) : Prop :=
  match ch with ChRun _ _ | ChRegister _ _ => False | _ => True end.

(** [P] holds sooner or later on every schedule: no internal schedule avoids it, neither by
    getting stuck nor by going on forever. *)
Inductive inevitable (w : world) (P : state -> Prop) (s : state) : Prop :=
  | inev_now : P s -> inevitable w P s
  | inev_later :
      (exists ch s', internal ch /\ step w s ch = Some s') ->
      (forall ch s', internal ch -> step w s ch = Some s' -> inevitable w P s') ->
      inevitable w P s.

(** Every call to Run made so far has returned. *)
Definition all_returned (tr : list event) : Prop :=
  forall c p cx ts, EvCall c p cx ts ∈ tr -> exists e, EvRet c p e ∈ tr.

(** An infinite execution: states and choices. *)
Definition execution (w : world) (f : nat -> state) (chs : nat -> choice) : Prop :=
  f 0 = init /\ forall n, step w (f n) (chs n) = Some (f (S n)).

(** The agents that take internal steps: calls (their loop and their return) and
    goroutines. *)
Inductive agent := ALoop (c : nat) | AReturn (c : nat) | AGo (g : nat).
Definition by_agent (ag : agent) (ch : choice) : Prop :=
  match ag, ch with
  | ALoop c, ChLoop c' => c = c'
  | AReturn c, ChReturn c' => c = c'
  | AGo g, ChGo g' _ => g = g'
  | _, _ => False
  end.
(** Weak fairness (what the Go scheduler provides): an agent that can move from some time
    on moves. *)
Definition fair (w : world) (f : nat -> state) (chs : nat -> choice) : Prop :=
  forall ag n,
    (exists m, n <= m /\ by_agent ag (chs m)) \/
    (exists m, n <= m /\ forall ch, by_agent ag ch -> step w (f m) ch = None).

(** ** Sequential evaluation *)

(** What a name stands for; other targets stand for themselves. *)
Definition resolution (w : world) (reg : gmap string obj) (d : obj) : err + obj :=
  match w_deferred w d with
  | None => inr d
  | Some name =>
      match reg !! name with Some o => inr o | None => inl (EUnresolved name) end
  end.

(** [eval_prog w reg rho cx0 p e]: run on its own, sequentially, with registry [reg], the
    answers [rho] of the environment and every target running in context [cx0], [p]
    returns [e].  Nothing is shared, cached or run in parallel. *)
Inductive eval_prog (w : world) (reg : gmap string obj) (rho : label -> nat) (cx0 : ctx) :
    prog -> option err -> Prop :=
  | ev_ret e : eval_prog w reg rho cx0 (Ret e) e
  | ev_eff l k e : eval_prog w reg rho cx0 (k (rho l)) e -> eval_prog w reg rho cx0 (Eff l k) e
  | ev_res d k e :
      eval_prog w reg rho cx0 (k (resolution w reg d)) e ->
      eval_prog w reg rho cx0 (Resolve d k) e
  | ev_call cx ts k rs e :
      eval_list w reg rho cx0 ts rs ->
      eval_prog w reg rho cx0 (k (join rs)) e ->
      eval_prog w reg rho cx0 (Call cx ts k) e
with eval_list (w : world) (reg : gmap string obj) (rho : label -> nat) (cx0 : ctx) :
    list tref -> list (option err) -> Prop :=
  | ev_nil : eval_list w reg rho cx0 [] []
  | ev_cons t ts r rs :
      eval_req w reg rho cx0 t r -> eval_list w reg rho cx0 ts rs ->
      eval_list w reg rho cx0 (t :: ts) (r :: rs)
with eval_req (w : world) (reg : gmap string obj) (rho : label -> nat) (cx0 : ctx) :
    tref -> option err -> Prop :=
  | ev_nonptr : eval_req w reg rho cx0 TNonPtr (Some ENotPointer)
  | ev_unres d e :
      resolution w reg d = inl e -> eval_req w reg rho cx0 (TPtr d) (Some e)
  | ev_ptr d o e :
      resolution w reg d = inr o -> eval_prog w reg rho cx0 (body w o cx0) e ->
      eval_req w reg rho cx0 (TPtr d) (wrap o e).

(** [same_prog Q p1 p2]: the same behaviour, except for the contexts they pass on, which
    all satisfy [Q]. *)
CoInductive same_prog (Q : ctx -> Prop) : prog -> prog -> Prop :=
  | same_ret e : same_prog Q (Ret e) (Ret e)
  | same_call cx1 cx2 ts k1 k2 :
      Q cx1 -> Q cx2 -> (forall e, same_prog Q (k1 e) (k2 e)) ->
      same_prog Q (Call cx1 ts k1) (Call cx2 ts k2)
  | same_res d k1 k2 :
      (forall r, same_prog Q (k1 r) (k2 r)) -> same_prog Q (Resolve d k1) (Resolve d k2)
  | same_eff l k1 k2 :
      (forall r, same_prog Q (k1 r) (k2 r)) -> same_prog Q (Eff l k1) (Eff l k2).

(** Deterministic bodies: the contexts in [Q] (for instance those with given flags and any
    arguments, or all contexts) make no difference to them. *)
Definition insensitive (w : world) (Q : ctx -> Prop) : Prop :=
  forall o cx1 cx2, w_deferred w o = None -> Q cx1 -> Q cx2 ->
    same_prog Q (w_body w o cx1) (w_body w o cx2).


(** The registrations of a trace, the last one for a name winning. *)
Definition registry_of (tr : list event) : gmap string obj :=
  fold_left (fun m ev => match ev with EvRegister n o => <[n:=o]> m | _ => m end) tr ∅.

(** All registrations come before all calls. *)
Definition registered_first (tr : list event) : Prop :=
  forall i j c p cx ts name o,
    tr !! i = Some (EvCall c p cx ts) -> tr !! j = Some (EvRegister name o) -> j < i.

(** The environment answers as [rho] says. *)
Definition answers (rho : label -> nat) (tr : list event) : Prop :=
  forall g l r, EvEff g l r ∈ tr -> r = rho l.

(** Clients call Run with contexts in [Q]. *)
Definition client_contexts (Q : ctx -> Prop) (tr : list event) : Prop :=
  forall c cx ts, EvCall c None cx ts ∈ tr -> Q cx.
