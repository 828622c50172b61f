(** Model of Controller.Run (runner.go), the target cache, deferred (by-name) targets
    (yaml.go) and the built-in composite targets All, Seq, Deps, ArgTarget, F.

    The model is an executable state machine.  One [choice] selects which goroutine (or
    caller) takes its next atomic step; a schedule is an arbitrary list of choices. *)
From stdpp Require Import base gmap list strings.
From Verif Require Import ContextModel.

(** Identity of a Go target value whose dynamic type is a pointer. *)
Definition obj := nat.
(** Its address as computed by targetAddr (register.go:28-34). *)
Definition addr := nat.

(** An interface value of type Target as passed to Run.  [TNonPtr] covers every value
    whose dynamic kind is not Pointer (including the nil interface). *)
Inductive tref := TPtr (o : obj) | TNonPtr.

(** Errors.  Message texts are abstracted: [EWrap o e] is errors.Wrapf(e, "running %s",
    con.Describe(o)) (runner.go:108).  [EBody n] is any error made by a target body. *)
Inductive err :=
  | ENotPointer                (* register.go:31 *)
  | EUnresolved (name : string) (* yaml.go:108 *)
  | EBody (n : nat)
  | EWrap (o : obj) (e : err)
  | EJoin (es : list err).

(** errors.Join (runner.go:119): nil when every argument is nil, otherwise an error
    holding the non-nil arguments in order. *)
Definition join (es : list (option err)) : option err :=
  match omap id es with
  | [] => None
  | l => Some (EJoin l)
  end.

(** runner.go:107-109 *)
Definition wrap (o : obj) (e : option err) : option err := EWrap o <$> e.

(** The interactions of target bodies with the world other than through the controller: a
    Files target [f] hashes its files (files.go:167-195; [b]: before or after its subtarget
    runs), asks the hash database (files.go:135) or adds to it (files.go:158); the [n]th kind
    of step of a command that belongs to the Files target [f]; anything else. *)
Inductive label :=
  | OpHash (before : bool) (f : obj)
  | OpHas (h : nat)
  | OpAdd (h : nat)
  | OpCmd (f : obj) (n : nat)
  | OpOther (n : nat).

(** Behaviour of a target body (Target.Run).  [Call] is con.Run(cx, ts...), made
    synchronously; [Resolve d] is d.resolve(con) for a deferred target d (yaml.go:100-113);
    [Eff] is any other interaction with the world, answered by the environment.
    Coinductive: a body may run forever. *)
CoInductive prog :=
  | Ret (e : option err)
  | Call (cx : ctx) (ts : list tref) (k : option err -> prog)
  | Resolve (d : obj) (k : err + obj -> prog)
  | Eff (l : label) (k : nat -> prog).

(** yaml.go:115-121, deferredResolutionTarget.Run *)
Definition deferred_prog (d : obj) (cx : ctx) : prog :=
  Resolve d (fun r =>
    match r with
    | inl e => Ret (Some e)
    | inr o => Call cx [TPtr o] (fun e => Ret e)
    end).

(** all.go:32-34 *)
Definition all_prog (ts : list tref) (cx : ctx) : prog :=
  Call cx ts (fun e => Ret e).

(** seq.go:33-40 *)
Fixpoint seq_prog (ts : list tref) (cx : ctx) : prog :=
  match ts with
  | [] => Ret None
  | t :: ts' =>
      Call cx [t] (fun e =>
        match e with
        | Some _ => Ret e
        | None => seq_prog ts' cx
        end)
  end.

(** argtarg.go:41-44 *)
Definition arg_prog (t : tref) (args : list string) (cx : ctx) : prog :=
  let cx' := WithArgs cx args in
  Call cx' [t] (fun e => Ret e).

(** f.go:24-26; Command, Clean and user-defined targets are likewise arbitrary. *)
Definition f_prog (f : ctx -> prog) (cx : ctx) : prog := f cx.

(** The targets of a program: their addresses, which ones are deferred references (and to
    what name), and the bodies of the others.  Addresses need not be injective. *)
Record world := {
  w_addr : obj -> addr;
  w_deferred : obj -> option string;
  w_body : obj -> ctx -> prog;
}.

(** The method Run of target [o]. *)
Definition body (w : world) (o : obj) (cx : ctx) : prog :=
  match w_deferred w o with
  | Some _ => deferred_prog o cx
  | None => w_body w o cx
  end.

(** runner.go:15-18 with gate.go:8-11; the gate is abstracted to its [open] flag (its
    mutex and condition variable are modelled in GateModel). *)
Record outcome := { o_open : bool; o_err : option err }.

(** Program counter of the goroutine started at runner.go:84-114. *)
Inductive gstate :=
  | GStart                                     (* before line 87 *)
  | GWait                                      (* line 98 *)
  | GBody (p : prog)                           (* line 106, inside target.Run *)
  | GCalling (c : nat) (k : option err -> prog) (* line 106, inside a nested con.Run *)
  | GOpen                                      (* before line 112 *)
  | GExit                                      (* before the deferred wg.Done *)
  | GDone.

Record gor := {
  g_call : nat;       (* the Run call that started it *)
  g_idx : nat;        (* i, line 65 *)
  g_key : addr;       (* addr, line 66 *)
  g_obj : obj;        (* target, after the resolution in lines 74-81 *)
  g_cx : ctx;
  g_st : gstate;
}.

(** Program counter of one invocation of Run. *)
Inductive cstate :=
  | CLoop (i : nat) (todo : list tref)  (* line 65, at index i *)
  | CWaiting                            (* line 117 *)
  | CReturned (e : option err).         (* line 119 *)

Record call := {
  c_parent : option nat;       (* goroutine whose target body made the call; None: a client *)
  c_cx : ctx;
  c_targets : list tref;
  c_errs : list (option err);  (* errs, line 62 *)
  c_wg : nat;                  (* wg, line 63 *)
  c_st : cstate;
}.

(** Observable events (ghost history). *)
Inductive event :=
  | EvRegister (name : string) (o : obj)
  | EvCall (c : nat) (by_ : option nat) (cx : ctx) (ts : list tref)  (* Run is called *)
  | EvReq (c i : nat) (a : addr) (o : obj)      (* argument i becomes a request for address a *)
  | EvRej (c i : nat) (e : err)                 (* argument i is rejected without running *)
  | EvStart (g : nat) (a : addr) (o : obj) (cx : ctx)  (* o.Run begins, for address a *)
  | EvEff (g : nat) (l : label) (r : nat)
  | EvResolve (g : nat) (d : obj) (r : err + obj)
  | EvEnd (g : nat) (a : addr) (o : obj) (e : option err)  (* o.Run returned e *)
  | EvRet (c : nat) (by_ : option nat) (e : option err).   (* Run returned e *)

Record state := {
  s_ran : gmap addr outcome;     (* controller.go:26 *)
  s_depth : Z;                   (* controller.go:23 *)
  s_reg : gmap string obj;       (* controller.go:29, the target component *)
  s_cache : gmap obj obj;        (* the Target fields of deferred targets, yaml.go:95 *)
  s_calls : list call;
  s_gors : list gor;
  s_log : list event;            (* oldest first *)
}.

(** controller.go:38-45 *)
Definition init : state :=
  {| s_ran := ∅; s_depth := 0; s_reg := ∅; s_cache := ∅;
     s_calls := []; s_gors := []; s_log := [] |}.

(** Field updates. *)
Definition set_ran (f : gmap addr outcome -> gmap addr outcome) (s : state) : state :=
  {| s_ran := f (s_ran s); s_depth := s_depth s; s_reg := s_reg s; s_cache := s_cache s;
     s_calls := s_calls s; s_gors := s_gors s; s_log := s_log s |}.
Definition set_depth (f : Z -> Z) (s : state) : state :=
  {| s_ran := s_ran s; s_depth := f (s_depth s); s_reg := s_reg s; s_cache := s_cache s;
     s_calls := s_calls s; s_gors := s_gors s; s_log := s_log s |}.
Definition set_reg (f : gmap string obj -> gmap string obj) (s : state) : state :=
  {| s_ran := s_ran s; s_depth := s_depth s; s_reg := f (s_reg s); s_cache := s_cache s;
     s_calls := s_calls s; s_gors := s_gors s; s_log := s_log s |}.
Definition set_cache (f : gmap obj obj -> gmap obj obj) (s : state) : state :=
  {| s_ran := s_ran s; s_depth := s_depth s; s_reg := s_reg s; s_cache := f (s_cache s);
     s_calls := s_calls s; s_gors := s_gors s; s_log := s_log s |}.
Definition set_calls (f : list call -> list call) (s : state) : state :=
  {| s_ran := s_ran s; s_depth := s_depth s; s_reg := s_reg s; s_cache := s_cache s;
     s_calls := f (s_calls s); s_gors := s_gors s; s_log := s_log s |}.
Definition set_gors (f : list gor -> list gor) (s : state) : state :=
  {| s_ran := s_ran s; s_depth := s_depth s; s_reg := s_reg s; s_cache := s_cache s;
     s_calls := s_calls s; s_gors := f (s_gors s); s_log := s_log s |}.
Definition emit (ev : event) (s : state) : state :=
  {| s_ran := s_ran s; s_depth := s_depth s; s_reg := s_reg s; s_cache := s_cache s;
     s_calls := s_calls s; s_gors := s_gors s; s_log := s_log s ++ [ev] |}.

Definition set_gst (st : gstate) (g : gor) : gor :=
  {| g_call := g_call g; g_idx := g_idx g; g_key := g_key g; g_obj := g_obj g;
     g_cx := g_cx g; g_st := st |}.
Definition set_cst (st : cstate) (c : call) : call :=
  {| c_parent := c_parent c; c_cx := c_cx c; c_targets := c_targets c; c_errs := c_errs c;
     c_wg := c_wg c; c_st := st |}.
Definition set_err (i : nat) (e : option err) (c : call) : call :=
  {| c_parent := c_parent c; c_cx := c_cx c; c_targets := c_targets c;
     c_errs := <[i:=e]> (c_errs c); c_wg := c_wg c; c_st := c_st c |}.
Definition set_wg (f : nat -> nat) (c : call) : call :=
  {| c_parent := c_parent c; c_cx := c_cx c; c_targets := c_targets c; c_errs := c_errs c;
     c_wg := f (c_wg c); c_st := c_st c |}.

Definition upd_gor (g : nat) (st : gstate) : state -> state :=
  set_gors (alter (set_gst st) g).
Definition upd_call (c : nat) (f : call -> call) : state -> state :=
  set_calls (alter f c).

(** runner.go:20-24 *)
Definition inc_depth : state -> state := set_depth (fun d => (d + 1)%Z).
(** runner.go:26-33 *)
Definition dec_depth : state -> state :=
  set_depth (fun d => let d' := (d - 1)%Z in if (d' <? 0)%Z then 0%Z else d').

(** Entry of Run, runner.go:52-64.  The early return for an empty argument list
    (lines 53-55) is the only case that leaves the depth alone; in the model such a call
    then passes through the (empty) loop and returns [join [] = nil]. *)
Definition begin_call (parent : option nat) (cx : ctx) (ts : list tref) (s : state) : state :=
  let c := {| c_parent := parent; c_cx := cx; c_targets := ts;
              c_errs := replicate (length ts) None; c_wg := 0; c_st := CLoop 0 ts |} in
  let s := emit (EvCall (length (s_calls s)) parent cx ts) s in
  let s := set_calls (fun cs => cs ++ [c]) s in
  if decide (ts = []) then s else inc_depth s.

(** yaml.go:100-113, under the mutex of the deferred target.  [w_deferred w d] is the Name
    field; the error case leaves Target nil. *)
Definition resolve (w : world) (d : obj) (s : state) : state * (err + obj) :=
  match s_cache s !! d with
  | Some o => (s, inr o)
  | None =>
      match w_deferred w d with
      | None => (s, inr d) (* not a deferred target: never requested *)
      | Some name =>
          match s_reg s !! name with
          | None => (s, inl (EUnresolved name))
          | Some o => (set_cache <[d:=o]> s, inr o)
          end
      end
  end.

(** runner.go:83-84: wg.Add(1); go func() ... *)
Definition spawn (c i : nat) (key : addr) (o : obj) (cx : ctx) (s : state) : state :=
  let g := {| g_call := c; g_idx := i; g_key := key; g_obj := o; g_cx := cx; g_st := GStart |} in
  let s := emit (EvReq c i key o) s in
  let s := upd_call c (set_wg S) s in
  set_gors (fun gs => gs ++ [g]) s.

(** runner.go:68-69 and 78-79: errs[i] = err; continue *)
Definition reject (c i : nat) (e : err) (s : state) : state :=
  upd_call c (set_err i (Some e)) (emit (EvRej c i e) s).

(** One iteration of the loop, runner.go:65-115. *)
Definition loop_iter (w : world) (c i : nat) (t : tref) (cx : ctx) (s : state) : state :=
  match t with
  | TNonPtr => reject c i ENotPointer s                    (* lines 66-70 *)
  | TPtr o =>
      match w_deferred w o with
      | None => spawn c i (w_addr w o) o cx s
      | Some _ =>                                           (* lines 74-81 *)
          match resolve w o s with
          | (s, inl e) => reject c i e s
          | (s, inr o') => spawn c i (w_addr w o) o' cx s
          end
      end
  end.

Inductive choice :=
  | ChRun (cx : ctx) (ts : list tref)        (* a client calls con.Run *)
  | ChRegister (name : string) (o : obj)     (* a client registers a (pointer) target *)
  | ChLoop (c : nat)                         (* call c executes one loop iteration *)
  | ChReturn (c : nat)                       (* call c passes wg.Wait and returns *)
  | ChGo (g : nat) (r : nat).                (* goroutine g takes a step; r answers an Eff *)

Definition step_loop (w : world) (c : nat) (s : state) : option state :=
  cl ← s_calls s !! c;
  match c_st cl with
  | CLoop i [] => Some (upd_call c (set_cst CWaiting) s)
  | CLoop i (t :: todo) =>
      Some (loop_iter w c i t (c_cx cl) (upd_call c (set_cst (CLoop (S i) todo)) s))
  | _ => None
  end.

(** runner.go:117-119 and the deferred decDepth of line 58; then the caller resumes. *)
Definition step_return (c : nat) (s : state) : option state :=
  cl ← s_calls s !! c;
  match c_st cl, c_wg cl with
  | CWaiting, O =>
      let e := join (c_errs cl) in
      let s := emit (EvRet c (c_parent cl) e) s in
      let s := upd_call c (set_cst (CReturned e)) s in
      let s := if decide (c_targets cl = []) then s else dec_depth s in
      match c_parent cl with
      | None => Some s
      | Some g =>
          gr ← s_gors s !! g;
          match g_st gr with
          | GCalling c' k => if decide (c' = c) then Some (upd_gor g (GBody (k e)) s) else None
          | _ => None
          end
      end
  | _, _ => None
  end.

Definition step_go (w : world) (g r : nat) (s : state) : option state :=
  gr ← s_gors s !! g;
  match g_st gr with
  | GStart =>                                              (* lines 87-93, one critical section *)
      match s_ran s !! g_key gr with
      | None =>
          let s := emit (EvStart g (g_key gr) (g_obj gr) (g_cx gr)) s in
          let s := set_ran <[g_key gr := {| o_open := false; o_err := None |}]> s in
          Some (upd_gor g (GBody (body w (g_obj gr) (g_cx gr))) s)
      | Some _ => Some (upd_gor g GWait s)
      end
  | GWait =>                                               (* lines 98-99 *)
      match s_ran s !! g_key gr with
      | Some o =>
          if o_open o then
            Some (upd_gor g GExit (upd_call (g_call gr) (set_err (g_idx gr) (o_err o)) s))
          else None
      | None => None
      end
  | GBody (Ret e) =>                                       (* lines 106-111 *)
      let e' := wrap (g_obj gr) e in
      let s := emit (EvEnd g (g_key gr) (g_obj gr) e) s in
      let s := upd_call (g_call gr) (set_err (g_idx gr) e') s in
      let s := set_ran (alter (fun o => {| o_open := o_open o; o_err := e' |}) (g_key gr)) s in
      Some (upd_gor g GOpen s)
  | GBody (Eff l k) => Some (upd_gor g (GBody (k r)) (emit (EvEff g l r) s))
  | GBody (Resolve d k) =>
      let '(s', res) := resolve w d s in
      Some (upd_gor g (GBody (k res)) (emit (EvResolve g d res) s'))
  | GBody (Call cx ts k) =>
      Some (upd_gor g (GCalling (length (s_calls s)) k) (begin_call (Some g) cx ts s))
  | GCalling _ _ => None                                   (* blocked in wg.Wait of the call *)
  | GOpen =>                                               (* line 112 *)
      Some (upd_gor g GExit
              (set_ran (alter (fun o => {| o_open := true; o_err := o_err o |}) (g_key gr)) s))
  | GExit =>                                               (* line 85 *)
      Some (upd_gor g GDone (upd_call (g_call gr) (set_wg pred) s))
  | GDone => None
  end.

Definition step (w : world) (s : state) (ch : choice) : option state :=
  match ch with
  | ChRun cx ts => Some (begin_call None cx ts s)
  | ChRegister name o => Some (set_reg <[name:=o]> (emit (EvRegister name o) s))
  | ChLoop c => step_loop w c s
  | ChReturn c => step_return c s
  | ChGo g r => step_go w g r s
  end.

(** Execution of a schedule; a choice that is not enabled makes the schedule infeasible. *)
Fixpoint run (w : world) (s : state) (sched : list choice) : option state :=
  match sched with
  | [] => Some s
  | ch :: sched => s' ← step w s ch; run w s' sched
  end.
