(** Vocabulary for progress messages. *)
From stdpp Require Import base gmap list strings.
From Verif Require Import IndentModel TalkModel.
Local Open Scope list_scope.

(** What is printed is made of pieces: the indentation of a message, or the message itself. *)
Inductive piece := Indentation (g : nat) (depth : nat) | Body (g : nat) (text : list byte).
Definition writer_of (p : piece) : nat := match p with Indentation g _ | Body g _ => g end.
Definition bytes (p : piece) : list byte := match p with Indentation _ d => concat (replicate d [SP; SP]) | Body _ t => t end.
(** A line: the text, and a newline at its end (one, whether the format has it or not). *)
Definition line (m : message) : list byte := m_text m ++ [LF].
(** The pieces of a message of goroutine [g] that found depth [d]: no indentation at depth 0. *)
Definition pieces (g : nat) (dm : nat * message) : list piece :=
  match dm.1 with O => [] | S _ => [Indentation g dm.1] end ++ [Body g (line dm.2)].
Definition whole (dm : nat * message) : list byte := concat (replicate dm.1 [SP; SP]) ++ line dm.2.

(** The messages goroutine [g] printed, in order. *)
Definition called (g : nat) (acts : list tact) : list message := omap (fun a => match a with TCall g' m => if decide (g' = g) then Some m else None | _ => None end) acts.
Definition all_called (acts : list tact) : list message := omap (fun a => match a with TCall _ m => Some m | _ => None end) acts.
(** The depths the controller had during a history. *)
Definition had_depth (s0 : screen) (acts : list tact) (d : nat) : Prop := exists p q s, acts = p ++ q /\ texec s0 p = Some s /\ sc_depth s = d.
(** Nothing printed yet. *)
Definition quiet (s : screen) : Prop := sc_out s = [] /\ sc_procs s = ∅.
(** No two goroutines print at the same time. *)
Definition in_turn (s0 : screen) (acts : list tact) : Prop := forall p g m q s, acts = p ++ TCall g m :: q -> texec s0 p = Some s -> sc_procs s = ∅.
