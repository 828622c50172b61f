(** What can go wrong when a Files target is run. *)
From stdpp Require Import base gmap list strings.
From Verif Require Import FileHashModel FileHashSpec FilesModel FilesSpec.
Local Open Scope list_scope.

(** Targets that have a JSON encoding: those without parts of a user-defined type that has none
    (the fields of Seq and Deps are not exported, so their parts do not count). *)
Inductive encodable : tgt -> Prop :=
  | en_nil : encodable TNil
  | en_cmd c : encodable (TCmd c)
  | en_all ts : (forall t, t ∈ ts -> encodable t) -> encodable (TAll ts)
  | en_seq ts : encodable (TSeq ts)
  | en_arg t args : encodable t -> encodable (TArg t args)
  | en_f n : encodable (TF n)
  | en_files t ins outs : encodable t -> encodable (TFiles t ins outs)
  | en_clean fs a : encodable (TClean fs a)
  | en_unresolved n : encodable (TDeferred n None)
  | en_deferred n t : encodable t -> encodable (TDeferred n (Some t))
  | en_user ty j : encodable (TUser ty (Some j)).

(** The event that an error of Run i reports. *)
Definition reports (i : nat) (e : ferr) (ev : event) : Prop :=
  match e with
  | EPrereq e => ev = LPrereqs i (Some e)
  | EHash m x => exists fs r, ev = LHash i m fs r (HErr x)
  | EHas => exists h, ev = LHas i h None
  | ESub e => ev = LSubEnd i (Some e)
  | EAdd => exists h ap, ev = LAdd i h ap false
  end.

(** Everything at or under the inputs and outputs can be looked at. *)
Definition readable (fs : files_state) (r : rule) : Prop :=
  forall q, covered fs (r_in r) q \/ covered fs (r_out r) q -> ~ unreadable fs q.
