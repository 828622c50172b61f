(** What IndentingCopier should print: a line-oriented description. *)
From stdpp Require Import base list strings.
From Verif Require Import IndentModel.
Local Open Scope nat_scope.
Local Open Scope list_scope.

(** CRLF and bare CR become LF; a CR at the very end is dropped. *)
Fixpoint normalize (l : list byte) : list byte :=
  match l with
  | [] => []
  | b :: l' =>
      if decide (b = CR) then
        match l' with
        | [] => []
        | b' :: l'' => if decide (b' = LF) then LF :: normalize l'' else LF :: normalize l'
        end
      else b :: normalize l'
  end.

(** The pieces of [l] between line feeds (always at least one, possibly empty). *)
Fixpoint split_lines (l : list byte) : list (list byte) :=
  match l with
  | [] => [[]]
  | b :: l =>
      if decide (b = LF) then [] :: split_lines l
      else match split_lines l with
           | [] => [[b]]
           | x :: xs => (b :: x) :: xs
           end
  end.
Fixpoint join_lines (ls : list (list byte)) : list byte :=
  match ls with
  | [] => []
  | [x] => x
  | x :: ls => x ++ LF :: join_lines ls
  end.

(** Every non-empty line is preceded by [ind]. *)
Definition indent_line (ind line : list byte) : list byte :=
  if decide (line = []) then [] else ind ++ line.
Definition indented (ind : list byte) (l : list byte) : list byte :=
  join_lines (indent_line ind <$> split_lines (normalize l)).

(** A writer that never fails. *)
Definition total_writer (w : writer) : Prop :=
  forall sent req, length req <= (w sent req).1 /\ (w sent req).2 = false.
