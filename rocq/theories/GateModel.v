(** Model of gate.go with its mutex and condition variable made explicit.

    Go's sync.Cond: Wait takes a ticket (notifyListAdd) while the caller holds the lock,
    unlocks, sleeps until its ticket is notified, and locks again; Broadcast notifies every
    ticket taken so far, also those whose owner has not gone to sleep yet. *)
From stdpp Require Import base list.

(** Program counter of one call of a gate method. *)
Inductive pc :=
  | SetLock (v : bool)        (* gate.go:23 *)
  | SetRead (v : bool)        (* lines 24-25, holding the lock *)
  | SetBroadcast              (* line 27, holding the lock *)
  | SetUnlock                 (* line 29, holding the lock *)
  | WaitLock                  (* line 33 *)
  | WaitTest                  (* line 34, holding the lock *)
  | WaitTicket                (* line 35, in Cond.Wait, holding the lock, before the ticket *)
  | WaitRelease (n : bool)    (* in Cond.Wait, holding the lock, has a ticket; n: notified *)
  | WaitSleep (n : bool)      (* in Cond.Wait, lock released *)
  | WaitRelock                (* in Cond.Wait, woken, before c.L.Lock *)
  | WaitUnlock                (* line 37, holding the lock *)
  | WaitDone                  (* wait returned *)
  | SetDone.                  (* set returned *)

(** gate.go:8-11; [g_lock] is the mutex (its holder), the wait list of the condition
    variable is spread over the program counters. *)
Record gate := { g_open : bool; g_lock : option nat; g_calls : list pc }.

(** gate.go:13-18 *)
Definition newGate (open : bool) : gate := {| g_open := open; g_lock := None; g_calls := [] |}.

Inductive choice :=
  | CallSet (v : bool)    (* somebody calls set(v) *)
  | CallWait              (* somebody calls wait() *)
  | Go (i : nat).         (* call i takes a step *)

Definition notify (p : pc) : pc :=
  match p with
  | WaitRelease _ => WaitRelease true
  | WaitSleep _ => WaitSleep true
  | p => p
  end.

Definition at_pc (i : nat) (p : pc) (g : gate) : gate :=
  {| g_open := g_open g; g_lock := g_lock g; g_calls := <[i:=p]> (g_calls g) |}.
Definition lock (i : nat) (g : gate) : gate :=
  {| g_open := g_open g; g_lock := Some i; g_calls := g_calls g |}.
Definition unlock (g : gate) : gate :=
  {| g_open := g_open g; g_lock := None; g_calls := g_calls g |}.
Definition set_open (v : bool) (g : gate) : gate :=
  {| g_open := v; g_lock := g_lock g; g_calls := g_calls g |}.
Definition broadcast (g : gate) : gate :=
  {| g_open := g_open g; g_lock := g_lock g; g_calls := notify <$> g_calls g |}.

(** One step of call [i]; None: it is blocked (or finished). *)
Definition go (i : nat) (g : gate) : option gate :=
  p ← g_calls g !! i;
  match p with
  | SetLock v => if g_lock g then None else Some (at_pc i (SetRead v) (lock i g))
  | SetRead v =>
      let wasOpen := g_open g in
      Some (at_pc i (if v && negb wasOpen then SetBroadcast else SetUnlock) (set_open v g))
  | SetBroadcast => Some (at_pc i SetUnlock (broadcast g))
  | SetUnlock => Some (at_pc i SetDone (unlock g))
  | WaitLock => if g_lock g then None else Some (at_pc i WaitTest (lock i g))
  | WaitTest => Some (at_pc i (if g_open g then WaitUnlock else WaitTicket) g)
  | WaitTicket => Some (at_pc i (WaitRelease false) g)
  | WaitRelease n => Some (at_pc i (WaitSleep n) (unlock g))
  | WaitSleep n => if n then Some (at_pc i WaitRelock g) else None
  | WaitRelock => if g_lock g then None else Some (at_pc i WaitTest (lock i g))
  | WaitUnlock => Some (at_pc i WaitDone (unlock g))
  | WaitDone | SetDone => None
  end.

Definition call (p : pc) (g : gate) : gate :=
  {| g_open := g_open g; g_lock := g_lock g; g_calls := g_calls g ++ [p] |}.

Definition step (g : gate) (c : choice) : option gate :=
  match c with
  | CallSet v => Some (call (SetLock v) g)
  | CallWait => Some (call WaitLock g)
  | Go i => go i g
  end.

Fixpoint run (g : gate) (cs : list choice) : option gate :=
  match cs with
  | [] => Some g
  | c :: cs => g' ← step g c; run g' cs
  end.

Definition reachable (open : bool) (g : gate) : Prop := exists cs, run (newGate open) cs = Some g.
