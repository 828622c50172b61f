(** Data races (RaceSpec.v) with the variables and mutexes of built-in targets. *)
From stdpp Require Import base gmap list strings relations.
From Verif Require Import ContextModel RunnerModel RaceModel RaceSpec RaceModel2.
Local Open Scope list_scope.

Definition touches_loc (l : loc) (a : act2) : Prop :=
  match a with Base a => touches l a | RdD d => l = LTarget d | _ => False end.
Definition touches_var (v : var) (a : act2) : Prop := a = RdV v \/ a = WrV v.
(** Accesses to the same variable, the first or the second a write. *)
Definition conflict (a b : act2) : Prop :=
  (exists l, touches_loc l a /\ touches_loc l b /\ (a = Base (Wr l) \/ b = Base (Wr l))) \/
  (exists v, touches_var v a /\ touches_var v b /\ (a = WrV v \/ b = WrV v)).

Inductive synchronizes2 : thread * act2 -> thread * act2 -> Prop :=
  | sy2_base t a u b : synchronizes (t, a) (u, b) -> synchronizes2 (t, Base a) (u, Base b)
  | sy2_go t g a : synchronizes2 (t, Base (Spawn g)) (TGo g, a)
  | sy2_mutex t u m : synchronizes2 (t, UnlockV m) (u, LockV m).
Definition edge2 (T : list (thread * act2)) (i j : nat) : Prop :=
  i < j /\ exists x y, T !! i = Some x /\ T !! j = Some y /\ (x.1 = y.1 \/ synchronizes2 x y).
Definition happens_before2 (T : list (thread * act2)) : nat -> nat -> Prop := tc (edge2 T).
Definition race_free2 (T : list (thread * act2)) : Prop :=
  forall i j t u a b, i < j -> T !! i = Some (t, a) -> T !! j = Some (u, b) -> conflict a b -> happens_before2 T i j.

(** No name reference that is in the description of a Files target which one goroutine runs is
    resolved by another. *)
Definition own_references (T : list (thread * act2)) : Prop :=
  forall t u d, (t, Base (Wr (LTarget d))) ∈ T -> (u, RdD d) ∈ T -> t = u.
(** No list of a Clean target that is sorted in place by one goroutine is used by another. *)
Definition own_lists (T : list (thread * act2)) : Prop :=
  forall t u n a, (t, WrV (VArray n)) ∈ T -> (u, a) ∈ T -> touches_var (VArray n) a -> t = u.
