(** What the dependencies of a .proto file are. *)
From stdpp Require Import base gmap list strings.
From Coq Require Import Ascii.
From Verif Require Import PathModel ProtoModel.
Local Open Scope list_scope.

(** The lines that the regular expression of proto.go:112 describes: import, possibly
    white space and public, possibly white space, a quoted non-empty name, anything. *)
Definition white (s : string) : Prop :=
  forall c, In c (list_ascii_of_string s) ->
    c = " "%char \/ c = "009"%char \/ c = "010"%char \/ c = "012"%char \/ c = "013"%char.
Definition quotable (s : string) : Prop := s <> "" /\ ~ In quote (list_ascii_of_string s).
Definition import_line (modifier sp imp rest : string) : string :=
  "import" +:+ modifier +:+ sp +:+ String quote (imp +:+ String quote rest).
Definition import_statement (line imp : string) : Prop :=
  exists modifier sp rest, line = import_line modifier sp imp rest /\ white sp /\ quotable imp /\
    (modifier = "" \/ exists sp', sp' <> "" /\ white sp' /\ modifier = sp' +:+ "public").

Section spec.
  Context (fs : fsys) (includes : list string).

  (** The file [f] imports [imp]: one of its lines is such an import statement. *)
  Definition imports (f imp : string) : Prop :=
    exists l ok line, fs !! f = Some (Lines l ok) /\ line ∈ l /\ import_statement line imp.

  (** [full] is a file that [imp] may stand for: some include directory has it. *)
  Definition candidate (imp full : string) : Prop :=
    exists inc, inc ∈ includes /\ full = Join [inc; imp] /\ is_Some (fs !! full).
  (** The file [imp] stands for according to protoc: that of the first include directory
      that has it. *)
  Definition resolves (imp full : string) : Prop :=
    exists before inc after, includes = before ++ inc :: after /\ full = Join [inc; imp] /\ is_Some (fs !! full) /\
      forall i, i ∈ before -> fs !! Join [i; imp] = None.

  (** Files needed to compile [f], the transitive closure of imports. *)
  Inductive needed (f : string) : string -> Prop :=
    | needed_self : needed f f
    | needed_import g imp full : needed f g -> imports g imp -> resolves imp full -> needed f full.
  (** The same with any matching include directory. *)
  Inductive possible (f : string) : string -> Prop :=
    | possible_self : possible f f
    | possible_import g imp full : possible f g -> imports g imp -> candidate imp full -> possible f full.

  (** No import can be found in two include directories. *)
  Definition unambiguous : Prop :=
    forall imp full full', candidate imp full -> candidate imp full' -> full = full'.
End spec.
