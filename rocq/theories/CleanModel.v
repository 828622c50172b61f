(** Model of the Clean target (clean.go) and of the Autoclean option (files.go:229-246). *)
From stdpp Require Import base gmap list strings.
From Verif Require Import StrOrd.
Local Open Scope list_scope.

(** ** Slices of strings.  Arrays live in a heap; a slice is an array, an offset, a length
    and a capacity (counted from the offset), as in Go. *)
Notation heap := (gmap nat (list string)).
Record slice := { s_arr : nat; s_off : nat; s_len : nat; s_cap : nat }.
Definition array (h : heap) (a : nat) : list string := default [] (h !! a).
Definition contents (h : heap) (s : slice) : list string := take (s_len s) (drop (s_off s) (array h (s_arr s))).
(** Overwrite [length xs] elements from position [i]. *)
Definition write (h : heap) (a i : nat) (xs : list string) : heap :=
  <[a := take i (array h a) ++ xs ++ drop (i + length xs) (array h a)]> h.
(** append(s, xs...): in place if the capacity suffices, otherwise into a new array, which has
    some more room ([extra], chosen by the run-time). *)
Definition append (h : heap) (s : slice) (xs extra : list string) : heap * slice :=
  if decide (s_len s + length xs <= s_cap s) then
    (write h (s_arr s) (s_off s + s_len s) xs,
     {| s_arr := s_arr s; s_off := s_off s; s_len := s_len s + length xs; s_cap := s_cap s |})
  else
    let a := fresh (dom h) in
    (<[a := contents h s ++ xs ++ extra]> h,
     {| s_arr := a; s_off := 0; s_len := s_len s + length xs; s_cap := s_len s + length xs + length extra |}).
(** sort.Strings(s) *)
Definition sort (h : heap) (s : slice) : heap := write h (s_arr s) (s_off s) (ssort (contents h s)).

(** ** The file system: entries at locations.  [loc] says which location a name leads to,
    [parent] the location of its directory, [stuck] which locations cannot be removed for other
    reasons (permissions, I/O).  Simplification: these do not change while Clean runs, so no
    directory that is named through a symbolic link loses that link. *)
Inductive entry := File | Dir.
#[global] Instance entry_eq_dec : EqDecision entry. Proof. solve_decision. Defined.
Notation fsys := (gmap nat entry).
Section fs.
  Context (loc : string -> nat) (parent : nat -> option nat) (stuck : nat -> bool).

  Definition has_children (fs : fsys) (l : nat) : Prop := Exists (fun c => parent c = Some l) (elements (dom fs)).
  #[global] Instance has_children_dec fs l : Decision (has_children fs l). Proof. apply _. Defined.

  (** os.Remove *)
  Inductive rmres := RmOk (fs : fsys) | RmNotExist | RmErr.
  Definition Remove (fs : fsys) (f : string) : rmres :=
    match fs !! loc f with
    | None => RmNotExist
    | Some e =>
        if stuck (loc f) then RmErr
        else if decide (e = Dir /\ has_children fs (loc f)) then RmErr
        else RmOk (delete (loc f) fs)
    end.

  (** clean.go:61-69: the new state, and the name in the error if there is one. *)
  Fixpoint remove_loop (fs : fsys) (files : list string) : fsys * option string :=
    match files with
    | [] => (fs, None)
    | f :: files =>
        match Remove fs f with
        | RmNotExist => remove_loop fs files
        | RmErr => (fs, Some f)
        | RmOk fs => remove_loop fs files
        end
    end.

  (** clean.go:36-71.  [reg]: autocleanRegistry.Slice(), in some order; the messages of
      verbose mode are left out. *)
  Definition Run (h : heap) (cfiles : slice) (autoclean dry : bool) (reg extra : list string) (fs : fsys)
      : heap * fsys * option string :=
    let '(h, files) := if autoclean then append h cfiles reg extra else (h, cfiles) in
    let h := sort h files in
    if decide (length (contents h files) = 0) then (h, fs, None)
    else if dry then (h, fs, None)
    else let '(fs, e) := remove_loop fs (contents h files) in (h, fs, e).
End fs.

(** files.go:229-246, with files.go:97-111: the registry after Files(..., Autoclean(b)). *)
Definition Autoclean (b : bool) (out : list string) (reg : gset string) : gset string :=
  if b then reg ∪ list_to_set out else reg.
