(** Files targets as targets of the runner: what a Files target requests of the controller,
    and when (files.go:119-160, 197-211). *)
From stdpp Require Import base gmap list strings.
From Verif Require Import PathModel FindModel ContextModel RunnerModel.
Local Open Scope list_scope.

(** The interactions other than Run are answered by the environment.  Hashing the files: 0 is
    an error, [S h] is the hash [h].  Has: 0 is false, 1 is true, else an error.  Add: 0 is
    success.  BuildModel.v says which answers are possible and what they do; FilesModel.v
    models a Files target with these in detail. *)

(** files.go:150-159 *)
Definition files_end (f : files) (cx : ctx) : prog :=
  if decide (GetHashDB cx = None) then Ret None
  else if GetDryRun cx then Ret None
  else Eff (OpHash false (f_id f)) (fun r =>
    match r with
    | 0 => Ret (Some (EBody 0))
    | S h => Eff (OpAdd h) (fun r => match r with 0 => Ret None | r => Ret (Some (EBody r)) end)
    end).
(** files.go:146-148 *)
Definition files_sub (f : files) (sub : tref) (cx : ctx) : prog :=
  Call cx [sub] (fun e => match e with Some e => Ret (Some e) | None => files_end f cx end).
(** files.go:124-144 *)
Definition files_rest (f : files) (sub : tref) (cx : ctx) : prog :=
  if decide (GetHashDB cx = None) then files_sub f sub cx
  else if GetForce cx || GetDryRun cx then files_sub f sub cx
  else Eff (OpHash true (f_id f)) (fun r =>
    match r with
    | 0 => Ret (Some (EBody 0))
    | S h => Eff (OpHas h) (fun r =>
        match r with
        | 0 => files_sub f sub cx
        | 1 => Ret None
        | r => Ret (Some (EBody r))
        end)
    end).
(** files.go:120-124 and 197-211.  [reg] is the registry of Files targets when the target
    runs; [f_id] is the identity of a Files target as a target of the runner. *)
Definition files_prog (reg : gmap string files) (f : files) (sub : tref) (cx : ctx) : prog :=
  match prereqs reg (f_in f) with
  | [] => files_rest f sub cx
  | ps =>
      Call cx ((fun p => TPtr (f_id p)) <$> ps)
        (fun e => match e with Some e => Ret (Some e) | None => files_rest f sub cx end)
  end.
