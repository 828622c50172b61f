(** Model of the registry of Files targets and of the search for the target that produces
    an input (files.go:95-111, 197-225; registry.go). *)
From stdpp Require Import base gmap list strings.
From Verif Require Import PathModel.
Local Open Scope list_scope.

(** A Files target, by identity, with its two lists (files.go:113-117). *)
Record files := { f_id : nat; f_in : list string; f_out : list string }.

(** registry.go:18-22 *)
Definition reg_add (reg : gmap string files) (name : string) (f : files) : gmap string files :=
  <[name := f]> reg.

(** files.go:95-111: constructing a Files target enters it under each of its outputs. *)
Definition declare (reg : gmap string files) (f : files) : gmap string files :=
  fold_left (fun reg o => reg_add reg o f) (f_out f) reg.

Definition declare_all (fs : list files) : gmap string files := fold_left declare fs ∅.

Inductive found := Found (f : files) | NotFound | FindOutOfFuel.

(** files.go:212-225.  The Go loop has no bound; [fuel] bounds the iterations here. *)
Fixpoint find_loop (fuel : nat) (reg : gmap string files) (name : string) : found :=
  match fuel with
  | 0 => FindOutOfFuel
  | S fuel =>
      match reg !! name with
      | Some f => Found f
      | None =>
          let dir := Dir name in
          if decide (dir = "" \/ dir = "." \/ dir = "/" \/ dir = name) then NotFound
          else find_loop fuel reg dir
      end
  end.
Definition findInFilesRegistry (reg : gmap string files) (name : string) : found :=
  find_loop (S (length (split name))) reg name.

(** files.go:197-204 *)
Definition prereqs (reg : gmap string files) (ins : list string) : list files :=
  omap (fun i => match findInFilesRegistry reg i with Found f => Some f | _ => None end) ins.
