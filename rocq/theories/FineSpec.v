(** Vocabulary for C99. *)
From stdpp Require Import base gmap list strings.
From Verif Require Import ContextModel RunnerModel FineModel.
Local Open Scope list_scope.

(** A state that some execution reaches. *)
Definition reached (w : world) (f : fstate) : Prop := exists sched, frun w finit sched = Some f.

(** What the goroutine or the call is doing is protected by con.mu. *)
Definition g_locked (p : gpc) : bool := match p with PLocked | PAbsent | PInserted | PPresent => true | _ => false end.
Definition c_locked (p : cpc) : bool := match p with QIncL | QIncV _ | QIncU | QDecL _ | QDecV _ _ | QDecU _ => true | _ => false end.
Definition holds (f : fstate) (x : who) : Prop :=
  match x with
  | WGo g => exists h, m_gors f !! g = Some h /\ g_locked (h_pc h) = true
  | WCall c => exists k, m_calls f !! c = Some k /\ c_locked (k_pc k) = true
  end.
(** The call has counted itself in con.depth (line 22) and not yet taken itself out (28-31). *)
Definition counted (k : fcall) : bool :=
  match k_pc k with QIncU | QLoop _ _ | QWait | QJoin _ | QDec _ | QDecL _ | QDecV _ _ => true | _ => false end.
(** A step of the goroutines of Run, not of a client. *)
Definition own (ch : fchoice) : Prop := match ch with FCall _ | FGo _ _ => True | _ => False end.
(** A step other than a wake-up before the gate is open. *)
Definition gate_open (f : fstate) (a : addr) : bool := match m_ran f !! a with Some o => fo_open o | None => false end.
Definition useful (f : fstate) (ch : fchoice) : bool :=
  match ch with
  | FRun _ _ | FRegister _ _ => false
  | FCall _ => true
  | FGo g _ => match m_gors f !! g with Some h => match h_pc h with PWait | PAsleep => gate_open f (h_key h) | _ => true end | None => false end
  end.
