(** Vocabulary for histories of runs of fab, edits and crashes. *)
From stdpp Require Import base gmap list strings.
From Coq Require Import Ascii.
From Verif Require Import PathModel DriverModel.
Local Open Scope list_scope.

(** The contents the user gives the sources, and the versions of fab run, in order. *)
Definition edit_of (a : action) : option (option sources) := match a with AEdit s => Some s | _ => None end.
Definition edits (acts : list action) : list (option sources) := omap edit_of acts.
Definition start_of (a : action) : option fabinfo := match a with AStart f _ => Some f | _ => None end.
Definition starts (acts : list action) : list fabinfo := omap start_of acts.

(** What was there once and then was not, never comes back. *)
Definition no_return {A} (l : list (option A)) : Prop := forall i j k x, i < j -> j < k ->
  l !! i = Some (Some x) -> l !! k = Some (Some x) -> l !! j = Some (Some x).

(** Nothing is there yet and fab is not running. *)
Definition nothing_yet (s : state) : Prop := d_bin (s_disk s) = None /\ d_hash (s_disk s) = None /\ d_ver (s_disk s) = None /\ s_proc s = None.

(** Hashes do not collide, and a part of a hash is not a hash. *)
Definition hash_ok (T : tools) : Prop := forall a b n, substring 0 n (t_hash T a) = t_hash T b -> a = b.
(** What is decoded is what was encoded; a part of it may be decoded to the same or to nothing. *)
Definition enc_ok (T : tools) : Prop := (forall i, t_dec T (t_enc T i) = Some i) /\ forall i j n, t_dec T (substring 0 n (t_enc T i)) = Some j -> j = i.

(** No run of fab dies, and nobody edits the sources during one. *)
Definition calm (T : tools) (s0 : state) (acts : list action) : Prop :=
  forall p a q, acts = p ++ a :: q -> (exists n, a = ADie n) \/ (exists x, a = AEdit x) ->
  forall s e, exec T s0 p = Some (s, e) -> s_proc s = None.

(** One complete run of fab, during which nothing else happens; [evs] are its events. *)
Definition full_run (T : tools) (fab : fabinfo) (force : bool) (s s' : state) (evs : list event) (b : option binary) : Prop :=
  exists n, exec T s (AStart fab force :: replicate n AStep) = Some (s', evs ++ [EvDriver b]) /\ s_proc s' = None.
Definition compiles (evs : list event) : Prop := exists b, EvCompiled b ∈ evs.

(** An argument that package flag does not take for a flag. *)
Definition flaglike (s : string) : Prop := exists c s', s = String "-" (String c s').
