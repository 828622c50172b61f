(** What is in the database, read off the history of operations. *)
From stdpp Require Import base list strings numbers.
From Verif Require Import SqliteModel.
Local Open Scope Z_scope.

(** The operation accessed [h] (added it, or found and refreshed it) at time [t]. *)
Definition accessed (h : hash) (t : time) (ev : event) : Prop :=
  ev = EvAdd h t \/ ev = EvHas h (Some t) true.

(** [t] is the time of the last access to [h]. *)
Definition last_access (h : hash) (t : time) (l : list event) : Prop :=
  exists l1 ev l2, l = l1 ++ ev :: l2 /\ accessed h t ev /\
    forall ev' t', ev' ∈ l2 -> ~ accessed h t' ev'.

(** An eviction at [now] with keep period [k] spares an entry accessed at [t]. *)
Definition spares (k now t : Z) : Prop := unix (now - k) <= unix t.

(** [h] is in the database, last accessed at [t]: since that access no eviction found it
    too old. *)
Definition holds (h : hash) (t : time) (l : list event) : Prop :=
  exists l1 ev l2, l = l1 ++ ev :: l2 /\ accessed h t ev /\
    (forall ev' t', ev' ∈ l2 -> ~ accessed h t' ev') /\
    (forall k now, EvDelete k now ∈ l2 -> spares k now t).

(** The operations of a schedule read a clock that never goes back. *)
Fixpoint clock_from (t0 : time) (cs : list choice) : Prop :=
  match cs with
  | [] => True
  | Go _ t :: cs => t0 <= t /\ clock_from t cs
  | _ :: cs => clock_from t0 cs
  end.
