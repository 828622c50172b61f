(** Vocabulary for fab processes that run at the same time. *)
From stdpp Require Import base gmap list strings.
From Verif Require Import DriverModel DriverSpec FleetModel.
Local Open Scope list_scope.

Definition cedit_of (a : cact) : option (option sources) := match a with CEdit s => Some s | _ => None end.
Definition cedits (acts : list cact) : list (option sources) := omap cedit_of acts.
Definition cstart_of (a : cact) : option fabinfo := match a with CStart _ f _ => Some f | _ => None end.
Definition cstarts (acts : list cact) : list fabinfo := omap cstart_of acts.

(** Nothing is there yet and fab is not running. *)
Definition nothing_there (s : fleet) : Prop :=
  d_bin (c_disk s) = None /\ d_hash (c_disk s) = None /\ d_ver (c_disk s) = None /\ c_procs s = ∅.
(** [P] holds whenever an action of the history happens, of the state it happens in. *)
Definition always (T : tools) (s0 : fleet) (acts : list cact) (P : fleet -> cact -> Prop) : Prop :=
  forall p a q s e, acts = p ++ a :: q -> cexec T s0 p = Some (s, e) -> P s a.
(** The sources are changed only while no fab process runs. *)
Definition edits_when_idle (s : fleet) (a : cact) : Prop := forall x, a = CEdit x -> c_procs s = ∅.
(** No process dies between replacing the binary and opening the hash file. *)
Definition no_death_between (s : fleet) (a : cact) : Prop := forall id n p h i, a = CDie id n -> c_procs s !! id = Some p -> p_pc p <> PTruncHash h i.
(** Processes that run at the same time are of the same version of fab. *)
Definition one_version (s : fleet) (a : cact) : Prop := forall id f fo id' p, a = CStart id f fo -> c_procs s !! id' = Some p -> p_fab p = f.

(** Process [id] comes to the end of getDriver and executes the driver; [b] is the binary there. *)
Definition gets (T : tools) (s : fleet) (id : nat) (s' : fleet) (b : option binary) : Prop := exists l, cstep T s (CStep id l) = Some (s', [(id, EvDriver b)]).
(** What is in the history of the sources. *)
Definition was_source (s0 : fleet) (acts : list cact) (S : sources) : Prop := c_src s0 = Some S \/ CEdit (Some S) ∈ acts.
(** The steps of one process in a history. *)
Definition own_steps (id : nat) (acts : list cact) : list bool := omap (fun a => match a with CStep i l => if decide (i = id) then Some l else None | _ => None end) acts.
