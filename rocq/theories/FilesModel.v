(** Model of Files targets (files.go): the description of the rule, its hash, the Run
    method, and histories of runs, edits and database changes. *)
From stdpp Require Import base gmap list strings.
From Verif Require Import FileHashModel.
Local Open Scope list_scope.

(** ** JSON values (the result of json.Marshal, before printing). *)
Inductive json :=
  | JNull
  | JStr (s : string)
  | JBool (b : bool)
  | JArr (l : list json)
  | JObj (l : list (string * json)).

(** Fields of Command that are encoded (command.go:67-174).  Fields with tag "-" (Stdout,
    Stderr, StdoutFn, StderrFn, Stdin) are not part of the description. *)
Record command := {
  c_shell : string; c_cmd : string; c_args : list string;
  c_stdout_file : string; c_stderr_file : string; c_stdin_file : string;
  c_dir : string; c_env : list string;
}.

(** Targets, as far as their JSON encoding is concerned.  [TUser] is a type defined outside
    the package: its type name and its encoding ([None]: json.Marshal fails). *)
Inductive tgt :=
  | TNil
  | TCmd (c : command)
  | TAll (ts : list tgt)                        (* all.go:25-27 *)
  | TSeq (ts : list tgt)                        (* seq.go:26-28, also Deps (deps.go) *)
  | TArg (t : tgt) (args : list string)         (* argtarg.go:33-36 *)
  | TF (id : nat)                               (* f.go:17-19 *)
  | TFiles (t : tgt) (ins outs : list string)   (* files.go:113-117 *)
  | TClean (fs : list string) (autoclean : bool) (* clean.go:32-35 *)
  | TDeferred (name : string) (target : option tgt) (* yaml.go:92-96; [None]: not resolved *)
  | TUser (ty : string) (j : option json).

Definition jstrs (l : list string) : json := JArr (JStr <$> l).
(** A field with omitempty. *)
Definition fstr (k : string) (s : string) : list (string * json) :=
  if decide (s = "") then [] else [(k, JStr s)].
Definition fstrs (k : string) (l : list string) : list (string * json) :=
  if decide (l = []) then [] else [(k, jstrs l)].

Definition enc_command (c : command) : json :=
  JObj (fstr "shell" (c_shell c) ++ fstr "cmd" (c_cmd c) ++ fstrs "args" (c_args c) ++
        fstr "stdout_file" (c_stdout_file c) ++ fstr "stderr_file" (c_stderr_file c) ++
        fstr "stdin_file" (c_stdin_file c) ++ fstr "dir" (c_dir c) ++ fstrs "env" (c_env c)).

(** json.Marshal: exported fields only.  (A nil slice would be encoded as null rather than
    []; the model does not distinguish nil from empty slices.) *)
Fixpoint enc (t : tgt) : option json :=
  match t with
  | TNil => Some JNull
  | TCmd c => Some (enc_command c)
  | TAll ts =>
      (fun js => JObj [("Targets", JArr js)]) <$>
      (fix go ts := match ts with
                    | [] => Some []
                    | t :: ts => j ← enc t; js ← go ts; Some (j :: js)
                    end) ts
  | TSeq _ => Some (JObj [])
  | TArg t args => (fun j => JObj [("Target", j); ("Args", jstrs args)]) <$> enc t
  | TF _ => Some (JObj [])
  | TFiles t ins outs =>
      (fun j => JObj [("Target", j); ("In", jstrs ins); ("Out", jstrs outs)]) <$> enc t
  | TClean fs a => Some (JObj [("Files", jstrs fs); ("Autoclean", JBool a)])
  | TDeferred n None => Some (JObj [("Name", JStr n); ("Target", JNull)])
  | TDeferred n (Some t) => (fun j => JObj [("Name", JStr n); ("Target", j)]) <$> enc t
  | TUser _ j => j
  end.

(** reflect.TypeOf(t).String(); [None]: t is nil, and the call panics. *)
Definition type_string (t : tgt) : option string :=
  match t with
  | TNil => None
  | TCmd _ => Some "*fab.Command"
  | TAll _ => Some "*fab.all"
  | TSeq _ => Some "*fab.seq"
  | TArg _ _ => Some "*fab.argTarget"
  | TF _ => Some "*fab.ftarget"
  | TFiles _ _ _ => Some "*fab.files"
  | TClean _ _ => Some "*fab.Clean"
  | TDeferred _ _ => Some "*fab.deferredResolutionTarget"
  | TUser ty _ => Some ty
  end.

(** A Files target, files.go:113-117. *)
Record rule := { r_tgt : tgt; r_in : list string; r_out : list string }.

Definition hash := nat.

(** files.go:177-187 *)
Definition document (j : json) (ty : string) (ins outs : list string) : json :=
  JObj ([("target", j); ("target_type", JStr ty)] ++ fstrs "in" ins ++ fstrs "out" outs).

Section model.
  (** hashFile, and SHA-224 of the JSON text of a document. *)
  Context (hashf : string -> string) (H : json -> hash).
  (** The target registry by which deferred references are resolved. *)
  Context (R : string -> option tgt).

  (** files.go:167-195 *)
  Definition computeHash (fuel : nat) (fs : files_state) (r : rule) : hres hash :=
    match fileHashes hashf fuel fs (r_in r) with
    | HErr i => HErr i | HPanic => HPanic | HOutOfFuel => HOutOfFuel
    | HOk ins =>
        match fileHashes hashf fuel fs (r_out r) with
        | HErr i => HErr i | HPanic => HPanic | HOutOfFuel => HOutOfFuel
        | HOk outs =>
            match type_string (r_tgt r) with
            | None => HPanic
            | Some ty =>
                match enc (r_tgt r) with
                | None => HErr "in JSON marshaling"
                | Some j => HOk (H (document j ty ins outs))
                end
            end
        end
    end.

  (** ** The Run method as a program over its interactions. *)
  Record flags := { fl_db : bool; fl_force : bool; fl_dry : bool }.
  Inductive moment := Before | After.
  Inductive ferr := EPrereq (e : nat) | EHash (m : moment) (item : string) | EHas | ESub (e : nat) | EAdd.
  Inductive fres := RNil | RErr (e : ferr) | RPanic.

  Inductive fprog :=
    | FRet (r : fres)
    | FPrereqs (k : option nat -> fprog)            (* con.Run(ctx, prereqs...) *)
    | FHash (m : moment) (k : hres hash -> fprog)   (* ft.computeHash *)
    | FHas (h : hash) (k : option bool -> fprog)    (* db.Has; None: error *)
    | FSub (k : option nat -> fprog)                (* con.Run(ctx, ft.Target) *)
    | FAdd (h : hash) (k : bool -> fprog).          (* db.Add; false: error *)

  (** files.go:150-159 *)
  Definition files_finish (fl : flags) : fprog :=
    if negb (fl_db fl) || fl_dry fl then FRet RNil
    else FHash After (fun r =>
      match r with
      | HErr i => FRet (RErr (EHash After i))
      | HPanic | HOutOfFuel => FRet RPanic
      | HOk h => FAdd h (fun ok => if ok then FRet RNil else FRet (RErr EAdd))
      end).
  (** files.go:146-148 *)
  Definition files_sub (fl : flags) : fprog :=
    FSub (fun e =>
      match e with
      | Some e => FRet (RErr (ESub e))
      | None => files_finish fl
      end).
  (** files.go:127-144 *)
  Definition files_check (fl : flags) : fprog :=
    if fl_db fl && negb (fl_force fl) && negb (fl_dry fl) then
      FHash Before (fun r =>
        match r with
        | HErr i => FRet (RErr (EHash Before i))
        | HPanic | HOutOfFuel => FRet RPanic
        | HOk h => FHas h (fun has =>
            match has with
            | None => FRet (RErr EHas)
            | Some true => FRet RNil
            | Some false => files_sub fl
            end)
        end)
    else files_sub fl.
  (** files.go:122-160 *)
  Definition files_run (fl : flags) : fprog :=
    FPrereqs (fun e =>
      match e with
      | Some e => FRet (RErr (EPrereq e))
      | None => files_check fl
      end).

  (** ** Histories.  Any number of runs (in one process or several, one after the other or
      at the same time; a run that never continues was interrupted by a crash), arbitrary
      edits of the files by anyone, and a database shared by all. *)
  Inductive rstate := Idle (p : fprog) | InSub (k : option nat -> fprog) | Finished.
  Record run := { n_rule : rule; n_flags : flags; n_st : rstate }.

  Inductive event :=
    | LStart (i : nat) (r : rule) (fl : flags)
    | LPrereqs (i : nat) (e : option nat)
    | LHash (i : nat) (m : moment) (fs : files_state) (r : rule) (res : hres hash)
    | LHas (i : nat) (h : hash) (res : option bool)
    | LSubStart (i : nat)
    | LSubEnd (i : nat) (e : option nat)
    | LAdd (i : nat) (h : hash) (applied ok : bool)
    | LRet (i : nat) (r : fres)
    | LEdit (fs : files_state)
    | LEvict (h : hash).

  Record state := {
    st_fs : files_state;
    st_db : gset hash;
    st_runs : list run;
    st_log : list event;
  }.

  (** What running it successfully does to a target's description: deferred references get
      resolved (yaml.go:100-113, runner.go:74-81).  [None]: a reference cannot be resolved,
      so the run fails.  References inside nested Files targets (which may be skipped) are
      left alone; user-defined targets do not change. *)
  Fixpoint ran (t : tgt) : option tgt :=
    match t with
    | TDeferred n None => (fun t => TDeferred n (Some t)) <$> R n
    | TAll ts =>
        TAll <$> (fix go ts := match ts with
                               | [] => Some []
                               | t :: ts => t' ← ran t; ts' ← go ts; Some (t' :: ts')
                               end) ts
    | TSeq ts =>
        TSeq <$> (fix go ts := match ts with
                               | [] => Some []
                               | t :: ts => t' ← ran t; ts' ← go ts; Some (t' :: ts')
                               end) ts
    | TArg t args => (fun t => TArg t args) <$> ran t
    | t => Some t
    end.

  Inductive choice :=
    | CStart (r : rule) (fl : flags)
    | CGo (i : nat) (fuel : nat) (e : option nat) (db_ok applied : bool)
    | CEdit (fs : files_state)
    | CEvict (h : hash).

  Definition set_run (i : nat) (n : run) (s : state) : state :=
    {| st_fs := st_fs s; st_db := st_db s; st_runs := <[i := n]> (st_runs s); st_log := st_log s |}.
  Definition log (ev : event) (s : state) : state :=
    {| st_fs := st_fs s; st_db := st_db s; st_runs := st_runs s; st_log := st_log s ++ [ev] |}.
  Definition set_db (d : gset hash) (s : state) : state :=
    {| st_fs := st_fs s; st_db := d; st_runs := st_runs s; st_log := st_log s |}.
  Definition with_st (n : run) (st : rstate) : run :=
    {| n_rule := n_rule n; n_flags := n_flags n; n_st := st |}.
  Definition with_tgt (n : run) (t : tgt) : run :=
    {| n_rule := {| r_tgt := t; r_in := r_in (n_rule n); r_out := r_out (n_rule n) |};
       n_flags := n_flags n; n_st := n_st n |}.

  (** One step of run [i].  The environment chooses [e], the result of prerequisites or
      subtarget, and whether a database operation fails ([db_ok]) and, for a failing Add,
      whether the entry was nevertheless recorded ([applied]).  Each hash computation is one
      step: edits do not happen in the middle of it. *)
  Definition go (i fuel : nat) (e : option nat) (db_ok applied : bool) (s : state) : option state :=
    n ← st_runs s !! i;
    match n_st n with
    | Finished => None
    | Idle (FRet r) => Some (set_run i (with_st n Finished) (log (LRet i r) s))
    | Idle (FPrereqs k) => Some (set_run i (with_st n (Idle (k e))) (log (LPrereqs i e) s))
    | Idle (FHash m k) =>
        let res := computeHash fuel (st_fs s) (n_rule n) in
        match res with
        | HOutOfFuel => None
        | _ => Some (set_run i (with_st n (Idle (k res))) (log (LHash i m (st_fs s) (n_rule n) res) s))
        end
    | Idle (FHas h k) =>
        let res := if db_ok then Some (bool_decide (h ∈ st_db s)) else None in
        Some (set_run i (with_st n (Idle (k res))) (log (LHas i h res) s))
    | Idle (FSub k) => Some (set_run i (with_st n (InSub k)) (log (LSubStart i) s))
    | InSub k =>
        match e with
        | Some _ => Some (set_run i (with_st n (Idle (k e))) (log (LSubEnd i e) s))
        | None =>
            match ran (r_tgt (n_rule n)) with
            | None => None
            | Some t => Some (set_run i (with_st (with_tgt n t) (Idle (k e))) (log (LSubEnd i e) s))
            end
        end
    | Idle (FAdd h k) =>
        let applied := db_ok || applied in
        let s := if applied then set_db ({[h]} ∪ st_db s) s else s in
        Some (set_run i (with_st n (Idle (k db_ok))) (log (LAdd i h applied db_ok) s))
    end.

  Definition step (s : state) (ch : choice) : option state :=
    match ch with
    | CStart r fl =>
        let s := log (LStart (length (st_runs s)) r fl) s in
        Some {| st_fs := st_fs s; st_db := st_db s;
                st_runs := st_runs s ++ [{| n_rule := r; n_flags := fl; n_st := Idle (files_run fl) |}];
                st_log := st_log s |}
    | CGo i fuel e db_ok applied => go i fuel e db_ok applied s
    | CEdit fs => Some (log (LEdit fs) {| st_fs := fs; st_db := st_db s; st_runs := st_runs s; st_log := st_log s |})
    | CEvict h => Some (log (LEvict h) (set_db (st_db s ∖ {[h]}) s))
    end.

  Fixpoint exec (s : state) (chs : list choice) : option state :=
    match chs with
    | [] => Some s
    | ch :: chs => s' ← step s ch; exec s' chs
    end.

  Definition init (fs : files_state) : state :=
    {| st_fs := fs; st_db := ∅; st_runs := []; st_log := [] |}.
End model.
