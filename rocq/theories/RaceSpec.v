(** Data races, as the Go memory model defines them. *)
From stdpp Require Import base gmap list strings relations.
From Verif Require Import ContextModel RunnerModel RaceModel.
Local Open Scope list_scope.

Definition touches (l : loc) (a : act) : Prop := a = Rd l \/ a = Wr l.

(** The first synchronizes before the second, if it comes first. *)
Inductive synchronizes : thread * act -> thread * act -> Prop :=
  | sy_mutex t u m : synchronizes (t, Unlock m) (u, Lock m)
  | sy_go t g a : synchronizes (t, Spawn g) (TGo g, a)
  | sy_group t u c : synchronizes (t, Done c) (u, Waited c).

(** Program order and synchronisation, between positions of an execution. *)
Definition edge (T : list (thread * act)) (i j : nat) : Prop :=
  i < j /\ exists x y, T !! i = Some x /\ T !! j = Some y /\ (x.1 = y.1 \/ synchronizes x y).
Definition happens_before (T : list (thread * act)) : nat -> nat -> Prop := tc (edge T).

(** Of any two accesses to the same variable, one of them a write, one happens before the
    other. *)
Definition race_free (T : list (thread * act)) : Prop :=
  forall i j t u a b l, i < j -> T !! i = Some (t, a) -> T !! j = Some (u, b) ->
    touches l a -> touches l b -> a = Wr l \/ b = Wr l -> happens_before T i j.

(** What a location stands for in the states of RunnerModel.v: a change of its contents. *)
Inductive changes : loc -> (state -> state) -> Prop :=
  | chg_depth f : changes LDepth (set_depth f)
  | chg_reg f : changes LReg (set_reg f)
  | chg_target d f : changes (LTarget d) (set_cache (partial_alter f d))
  | chg_err a e : changes (LErr a) (set_ran (alter (fun o => {| o_open := o_open o; o_err := e |}) a))
  | chg_open a b : changes (LOpen a) (set_ran (alter (fun o => {| o_open := b; o_err := o_err o |}) a))
  | chg_errs c i e : changes (LErrs c i) (upd_call c (set_err i e)).

(** The mutexes are unlocked by who locked them, one at a time except that [MCon] may be locked
    while a [MDef] is held (never the other way round). *)
Fixpoint paired (held : list mutex) (l : list act) : Prop :=
  match l with
  | [] => held = []
  | Lock m :: l => (held = [] \/ exists d, held = [MDef d] /\ m = MCon) /\ paired (m :: held) l
  | Unlock m :: l => (exists held', held = m :: held' /\ paired held' l)
  | _ :: l => paired held l
  end.
