(** The accesses to shared variables, and the synchronisation, in each step of RunnerModel.v
    (runner.go, yaml.go:100-113, register.go, gate.go), in the order of the code.

    The steps of RunnerModel.v interleave; within a step the actions below are consecutive.  For the critical
    sections that is what their mutex ensures.  Simplifications: a goroutine that finds a
    gate closed (it then releases the mutex and sleeps, see GateModel.v) is shown only when it
    finds the gate open; what target bodies do themselves ([Eff]) is not shown, except that
    they may call the controller's other methods (so does line 104, which is not shown
    separately: between its two critical sections, and before them, other threads may act). *)
From stdpp Require Import base gmap list strings.
From Verif Require Import ContextModel RunnerModel.
Local Open Scope list_scope.

(** Each Run called by a client, and each registration, is a thread of its own (so no order
    between them is taken for granted). *)
Inductive thread :=
  | TCall (c : nat)       (* the client that made call c *)
  | TReg (n : nat)        (* a client that registers a target or uses the registry *)
  | TGo (g : nat).        (* goroutine g, runner.go:84 *)

Inductive loc :=
  | LDepth                (* con.depth *)
  | LRan                  (* the map con.ran *)
  | LReg                  (* the maps con.targetsByName and con.targetsByAddr *)
  | LErr (a : addr)       (* err of the outcome in con.ran[a], runner.go:17 *)
  | LOpen (a : addr)      (* open of its gate, gate.go:10 *)
  | LErrs (c i : nat)     (* errs[i] of call c, runner.go:62 *)
  | LVars (c : nat)       (* verbose, errs (the slice itself) and wg of call c, lines 60-64 *)
  | LArgs (g : nat)       (* i, target and addr of the iteration that started goroutine g *)
  | LTarget (d : obj).    (* Target of the deferred target d, yaml.go:95 *)

Inductive mutex :=
  | MCon                  (* con.mu *)
  | MGate (a : addr)      (* the mutex of the gate of con.ran[a] *)
  | MDef (d : obj).       (* mu of the deferred target d *)

Inductive act :=
  | Rd (l : loc)
  | Wr (l : loc)
  | Lock (m : mutex)
  | Unlock (m : mutex)
  | Spawn (g : nat)       (* the go statement that starts goroutine g *)
  | Done (c : nat)        (* wg.Done on the wait group of call c *)
  | Waited (c : nat).     (* wg.Wait on it returns *)

(** runner.go:20-24, 26-33 *)
Definition depth_acts : list act := [Lock MCon; Rd LDepth; Wr LDepth; Unlock MCon].
(** runner.go:52-64, with the zeroing of errs *)
Definition begin_acts (c : nat) (ts : list tref) : list act :=
  if decide (ts = []) then [] else depth_acts ++ Wr (LVars c) :: ((fun i => Wr (LErrs c i)) <$> seq 0 (length ts)).
(** yaml.go:100-113, register.go:55-60 *)
Definition resolve_acts (w : world) (s : state) (d : obj) : list act :=
  [Lock (MDef d); Rd (LTarget d)] ++
  (match s_cache s !! d with
   | Some _ => [Rd (LTarget d)]
   | None => [Lock MCon; Rd LReg; Unlock MCon] ++
       (match resolve w d s with (_, inr _) => [Wr (LTarget d); Rd (LTarget d)] | (_, inl _) => [] end)
   end) ++ [Unlock (MDef d)].
(** register.go:27-78: RegistryNames, RegistryTarget, Describe *)
Definition describe_acts : list act := [Lock MCon; Rd LReg; Unlock MCon].
(** runner.go:136-150 (Indentf), 159-170 (IndentingCopier) *)
Definition indent_acts : list act := [Lock MCon; Rd LDepth; Unlock MCon].
(** runner.go:66-84 *)
Definition loop_acts (w : world) (c i : nat) (t : tref) (s : state) : list act :=
  match t with
  | TNonPtr => [Wr (LErrs c i)]
  | TPtr o =>
      match w_deferred w o with
      | None => [Wr (LArgs (length (s_gors s))); Spawn (length (s_gors s))]
      | Some _ => resolve_acts w s o ++
          match resolve w o s with
          | (_, inl _) => [Wr (LErrs c i)]
          | (_, inr _) => [Wr (LArgs (length (s_gors s))); Spawn (length (s_gors s))]
          end
      end
  end.
(** runner.go:117-119 (errors.Join reads errs), 58 *)
Definition return_acts (c : nat) (ts : list tref) : list act :=
  if decide (ts = []) then [] else Waited c :: ((fun i => Rd (LErrs c i)) <$> seq 0 (length ts)) ++ depth_acts.
(** runner.go:84-114 *)
Definition go_acts (w : world) (g : nat) (s : state) : list act :=
  match s_gors s !! g with
  | None => []
  | Some gr =>
      let a := g_key gr in let c := g_call gr in let i := g_idx gr in
      match g_st gr with
      | GStart => [Rd (LArgs g); Lock MCon; Rd LRan] ++                       (* lines 87-93 *)
          match s_ran s !! a with
          | None => [Wr (LErr a); Wr (LOpen a); Wr LRan; Unlock MCon; Rd (LVars c)]  (* line 103 *)
          | Some _ => [Unlock MCon]
          end
      | GWait => [Lock (MGate a); Rd (LOpen a); Unlock (MGate a); Rd (LErr a); Rd (LVars c); Wr (LErrs c i)]  (* lines 98-99, gate.go:32-38 *)
      | GBody (Ret e) => (match e with Some _ => describe_acts | None => [] end) ++ [Rd (LVars c); Wr (LErrs c i); Wr (LErr a)]  (* lines 107-111 *)
      | GBody (Eff _ _) => []
      | GBody (Resolve d _) => resolve_acts w s d
      | GBody (Call cx ts _) => begin_acts (length (s_calls s)) ts
      | GCalling _ _ => []
      | GOpen => [Lock (MGate a); Rd (LOpen a); Wr (LOpen a); Unlock (MGate a)]  (* line 112, gate.go:22-30 *)
      | GExit => [Done c]                                                        (* line 85 *)
      | GDone => []
      end
  end.

Definition thread_of (s : state) (c : nat) : thread :=
  match s_calls s !! c with
  | Some cl => match c_parent cl with Some g => TGo g | None => TCall c end
  | None => TCall c
  end.

(** The thread that takes a step, and its actions. *)
Definition actor (s : state) (ch : choice) : thread :=
  match ch with
  | ChRun _ _ => TCall (length (s_calls s))
  | ChRegister _ _ => TReg (length (s_log s))
  | ChLoop c | ChReturn c => thread_of s c
  | ChGo g _ => TGo g
  end.
Definition actions (w : world) (s : state) (ch : choice) : list act :=
  match ch with
  | ChRun _ ts => begin_acts (length (s_calls s)) ts
  | ChRegister _ _ => [Lock MCon; Wr LReg; Unlock MCon]     (* register.go:21-24 *)
  | ChLoop c =>
      match s_calls s !! c with
      | Some cl => match c_st cl with CLoop i (t :: _) => loop_acts w c i t s | _ => [] end
      | None => []
      end
  | ChReturn c => match s_calls s !! c with Some cl => return_acts c (c_targets cl) | None => [] end
  | ChGo g _ => go_acts w g s
  end.

(** Calls of Describe, RegistryNames, RegistryTarget, Indentf, IndentingCopier, at any time, by
    a goroutine that is running a target, or by a client. *)
Definition may_use (s : state) (t : thread) : Prop :=
  match t with
  | TReg _ => True
  | TGo g => exists gr p, s_gors s !! g = Some gr /\ g_st gr = GBody p
  | TCall _ => False
  end.

(** The actions of an execution, oldest first. *)
Inductive execution (w : world) : state -> list (thread * act) -> Prop :=
  | ex_init : execution w init []
  | ex_step s T ch s' : execution w s T -> step w s ch = Some s' ->
      execution w s' (T ++ (pair (actor s ch) <$> actions w s ch))
  | ex_use s T t l : execution w s T -> may_use s t -> l = describe_acts \/ l = indent_acts ->
      execution w s (T ++ (pair t <$> l)).
