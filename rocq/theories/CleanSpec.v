(** What Clean is to do. *)
From stdpp Require Import base gmap list strings.
From Verif Require Import StrOrd CleanModel.
Local Open Scope list_scope.

(** A slice that lies within its array. *)
Definition slice_ok (h : heap) (s : slice) : Prop :=
  s_len s <= s_cap s /\ s_off s + s_cap s <= length (array h (s_arr s)).
(** What the target lists. *)
Definition listed (h : heap) (cfiles : slice) (autoclean : bool) (reg : list string) : list string :=
  contents h cfiles ++ (if autoclean then reg else []).

(** [fs'] is [fs] without the locations of [files]. *)
Definition without (loc : string -> nat) (files : list string) (fs fs' : fsys) : Prop :=
  forall l, fs' !! l = if decide (l ∈ map loc files) then None else fs !! l.
