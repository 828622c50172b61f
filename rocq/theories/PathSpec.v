(** What a path means, lexically: a walk through a tree of directories without symbolic
    links.  A location is the list of names from the root, innermost first. *)
From stdpp Require Import base list strings.
From Verif Require Import PathModel.
Local Open Scope list_scope.

Definition loc := list string.

Definition enter (l : loc) (c : string) : loc :=
  if decide (c = "" \/ c = ".") then l
  else if decide (c = "..") then tail l
  else c :: l.

(** Where "cd p" leads from [l]. *)
Definition cd (l : loc) (p : string) : loc :=
  fold_left enter (split p) (if IsAbs p then [] else l).

(** A string that can be the name of a file. *)
Definition name (c : string) : Prop := c <> "" /\ c <> "." /\ c <> ".." /\ split c = [c].

(** A path in normal form. *)
Definition clean (p : string) : Prop := Clean p = p.

(** The absolute path of a location. *)
Definition abs_path (l : loc) : string := "/" +:+ join (reverse l).

(** Walking a list of components inside the top directory: [None] as soon as the walk
    leaves it.  The location is relative to the top directory, innermost first. *)
Fixpoint inside (l : loc) (cs : list string) : option loc :=
  match cs with
  | [] => Some l
  | c :: cs =>
      if decide (c = "" \/ c = ".") then inside l cs
      else if decide (c = "..") then match l with [] => None | _ :: l' => inside l' cs end
      else inside (c :: l) cs
  end.

(** The path made of the first [k] components of [p]: an enclosing directory of [p], or
    [p] itself if [k] is the number of components (for [p] in normal form). *)
Definition ancestor (p : string) (k : nat) : string :=
  (if IsAbs p then "/" else "") +:+ join (take k (comps p)).
