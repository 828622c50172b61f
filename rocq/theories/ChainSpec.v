(** Vocabulary for chains of Files targets. *)
From stdpp Require Import base gmap list strings.
From Verif Require Import PathModel FindModel.

(** [f] has an input for which the search finds [f']. *)
Definition produced_by (fs : list files) (f f' : files) : Prop :=
  exists i, i ∈ f_in f /\ findInFilesRegistry (declare_all fs) i = Found f'.
