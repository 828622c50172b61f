(** Model of sqlite/db.go: the table, its SQL statements and the methods of DB, for any
    number of concurrent calls from any number of processes on one database file.

    Each SQL statement is atomic (SQLite serializes writers); a clock reading is separate
    from the statement that uses it.  Errors reported by SQLite (e.g. "database is locked")
    are not modelled. *)
From stdpp Require Import base list strings numbers.
Local Open Scope Z_scope.

Definition hash := string.
(** Times and durations in nanoseconds. *)
Definition time := Z.

(** time.Time.Unix: whole seconds, rounded down. *)
Definition unix (t : time) : Z := t / 1000000000.

(** sqlite/schema.sql: rows (hash, unix_secs).  That hash is a primary key is not built in:
    it is what the conflict clause relies on, and is proved below. *)
Notation table := (list (hash * Z)).

(** db.go:17-22.  [keep] = 0 by default (lines 61-68). *)
Record opts := { keep : Z; updateOnAccess : bool }.

(** db.go:94 "UPDATE hashes SET unix_secs = $1 WHERE hash = $2" *)
Definition sql_update (secs : Z) (h : hash) (tb : table) : table :=
  (fun '(h', s) => if decide (h' = h) then (h', secs) else (h', s)) <$> tb.
(** db.go:104 "SELECT COUNT( * ) FROM hashes WHERE hash = $1", and the rows affected by the
    statement above. *)
Definition sql_count (h : hash) (tb : table) : nat :=
  length (filter (fun r => r.1 = h) tb).
(** db.go:118 "INSERT INTO hashes (hash, unix_secs) VALUES ($1, $2) ON CONFLICT DO UPDATE SET
    unix_secs = $2 WHERE hash = $1" *)
Definition sql_upsert (h : hash) (secs : Z) (tb : table) : table :=
  if decide (sql_count h tb = 0%nat) then tb ++ [(h, secs)] else sql_update secs h tb.
(** db.go:125 "DELETE FROM hashes WHERE unix_secs < $1" *)
Definition sql_delete (secs : Z) (tb : table) : table :=
  filter (fun r => ~ (r.2 < secs)) tb.

(** Program counter of a method call. *)
Inductive call :=
  | HasNow (o : opts) (h : hash)              (* before line 95 (or the query of line 106) *)
  | HasUpdate (o : opts) (h : hash) (now : time)  (* before line 96 *)
  | HasDone (h : hash) (b : bool)
  | AddNow (o : opts) (h : hash)              (* before line 119 *)
  | AddUpsert (o : opts) (h : hash) (now : time)  (* before line 120 *)
  | AddDelete (o : opts) (h : hash) (now : time)  (* before line 127 *)
  | AddDone (h : hash).

(** Ghost history: statements executed, with the clock reading they used. *)
Inductive event :=
  | EvAdd (h : hash) (now : time)               (* upsert *)
  | EvHas (h : hash) (upd : option time) (b : bool) (* Has; upd: refreshed at that time if found *)
  | EvDelete (keep : Z) (now : time).           (* eviction *)

Record state := { s_table : table; s_calls : list call; s_log : list event }.
(** db.go:30-52 on a new file *)
Definition init : state := {| s_table := []; s_calls := []; s_log := [] |}.

Definition at_call (i : nat) (c : call) (s : state) : state :=
  {| s_table := s_table s; s_calls := <[i:=c]> (s_calls s); s_log := s_log s |}.
Definition exec (tb : table) (ev : event) (s : state) : state :=
  {| s_table := tb; s_calls := s_calls s; s_log := s_log s ++ [ev] |}.

Inductive choice :=
  | CallHas (o : opts) (h : hash)
  | CallAdd (o : opts) (h : hash)
  | Go (i : nat) (t : time)     (* call i takes a step; t is the clock's answer if it asks *)
  | Crash.                      (* all calls in progress vanish; the file stays *)

(** db.go:92-112 and 117-133 *)
Definition go (i : nat) (t : time) (s : state) : option state :=
  c ← s_calls s !! i;
  match c with
  | HasNow o h =>
      if updateOnAccess o then Some (at_call i (HasUpdate o h t) s)
      else let b := bool_decide (0 < sql_count h (s_table s))%nat in
           Some (at_call i (HasDone h b) (exec (s_table s) (EvHas h None b) s))
  | HasUpdate o h now =>
      let b := bool_decide (0 < sql_count h (s_table s))%nat in
      Some (at_call i (HasDone h b) (exec (sql_update (unix now) h (s_table s)) (EvHas h (Some now) b) s))
  | AddNow o h => Some (at_call i (AddUpsert o h t) s)
  | AddUpsert o h now =>
      Some (at_call i (if bool_decide (0 < keep o) then AddDelete o h now else AddDone h)
              (exec (sql_upsert h (unix now) (s_table s)) (EvAdd h now) s))
  | AddDelete o h now =>
      Some (at_call i (AddDone h)
              (exec (sql_delete (unix (now - keep o)) (s_table s)) (EvDelete (keep o) now) s))
  | HasDone _ _ | AddDone _ => None
  end.

Definition begin (c : call) (s : state) : state :=
  {| s_table := s_table s; s_calls := s_calls s ++ [c]; s_log := s_log s |}.

Definition step (s : state) (c : choice) : option state :=
  match c with
  | CallHas o h => Some (begin (HasNow o h) s)
  | CallAdd o h => Some (begin (AddNow o h) s)
  | Go i t => go i t s
  | Crash => Some {| s_table := s_table s; s_calls := []; s_log := s_log s |}
  end.
Fixpoint run (s : state) (cs : list choice) : option state :=
  match cs with
  | [] => Some s
  | c :: cs => s' ← step s c; run s' cs
  end.
Definition reachable (s : state) : Prop := exists cs, run init cs = Some s.

(** The methods executed without interference, each with one clock reading. *)
Definition Has (o : opts) (now : time) (h : hash) (tb : table) : table * bool :=
  let b := bool_decide (0 < sql_count h tb)%nat in
  if updateOnAccess o then (sql_update (unix now) h tb, b) else (tb, b).
Definition Add (o : opts) (now : time) (h : hash) (tb : table) : table :=
  let tb := sql_upsert h (unix now) tb in
  if bool_decide (0 < keep o) then sql_delete (unix (now - keep o)) tb else tb.
