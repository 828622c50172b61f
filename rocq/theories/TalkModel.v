(** Model of the progress messages (Controller.Indentf, runner.go:128-145) when goroutines print
    at the same time, on one standard output. *)
From stdpp Require Import base gmap list strings.
From Verif Require Import IndentModel.
Local Open Scope list_scope.

(** A call of Indentf: whether its format ends with a newline, and what the format (without that
    newline) and the arguments are formatted to.  Simplified: package fmt is not modelled; a
    newline at the end of a format is printed as it is. *)
Record message := { m_text : list byte; m_newline : bool }.
(** runner.go:133-135: the format gets a newline if it has none; 144 prints the result in one write. *)
Definition rendered (m : message) : list byte :=
  let newline := if m_newline m then m_newline m else true in
  m_text m ++ (if newline then [LF] else []).

(** Where a goroutine is in indentf: before line 137 (the lock, the reading of the depth, the
    unlock: one step), before 141-143, before 144. *)
Inductive ipc := IRead (m : message) | IPad (depth : nat) (m : message) | IPut (m : message).
(** The depth of the controller, what is on standard output, the goroutines in Indentf. *)
Record screen := { sc_depth : nat; sc_out : list byte; sc_procs : gmap nat ipc }.
Inductive tact :=
  | TInc | TDec                       (* runner.go:20-33: calls of Run begin and end *)
  | TCall (g : nat) (m : message)     (* goroutine g calls Indentf *)
  | TStep (g : nat).                  (* goroutine g goes on *)

Definition put (bs : list byte) (g : nat) (next : option ipc) (s : screen) : screen :=
  {| sc_depth := sc_depth s; sc_out := sc_out s ++ bs; sc_procs := match next with Some p => <[g := p]> (sc_procs s) | None => delete g (sc_procs s) end |}.
(** runner.go:132-145, one step.  Each call of Fprint and Fprintf is one write to os.Stdout, which
    is atomic (os.File locks it); writes do not fail. *)
Definition tstep (s : screen) (a : tact) : option screen :=
  match a with
  | TInc => Some {| sc_depth := S (sc_depth s); sc_out := sc_out s; sc_procs := sc_procs s |}
  | TDec => Some {| sc_depth := pred (sc_depth s); sc_out := sc_out s; sc_procs := sc_procs s |}
  | TCall g m => match sc_procs s !! g with Some _ => None | None => Some (put [] g (Some (IRead m)) s) end
  | TStep g =>
      match sc_procs s !! g with
      | None => None
      | Some (IRead m) =>                                                                        (* 137-141 *)
          Some (put [] g (Some (if decide (0 < sc_depth s) then IPad (sc_depth s) m else IPut m)) s)
      | Some (IPad d m) => Some (put (spaces d) g (Some (IPut m)) s)                             (* 142 *)
      | Some (IPut m) => Some (put (rendered m) g None s)                                        (* 144 *)
      end
  end.
Fixpoint texec (s : screen) (acts : list tact) : option screen :=
  match acts with [] => Some s | a :: acts => match tstep s a with Some s => texec s acts | None => None end end.
