(** Where the output of a command should go. *)
From stdpp Require Import base gmap list strings.
From Coq Require Import Ascii.
From Verif Require Import PathModel YamlModel CommandModel.
Local Open Scope list_scope.

(** [s], the value of StdoutFile or StderrFile, names the file [f], to be appended to or not.
    After >> further > and blanks are skipped. *)
Inductive skips : string -> string -> Prop :=
  | skips_none f : ~ (exists s, f = String ">" s) -> ~ (exists s, f = String " " s) -> skips f f
  | skips_gt s f : skips s f -> skips (String ">" s) f
  | skips_blank s f : skips s f -> skips (String " " s) f.
Definition starts_gtgt (s : string) : Prop := exists s', s = String ">" (String ">" s').
Inductive names_file (s : string) : string -> bool -> Prop :=
  | names_over : ~ starts_gtgt s -> s <> "" -> names_file s s false
  | names_append f : starts_gtgt s -> skips s f -> f <> "" -> names_file s f true.
Definition no_file (s : string) : Prop := forall f a, ~ names_file s f a.

(** The fields of one stream. *)
Definition field_file (c : command) (st : stream) : string := match st with Out => c_stdoutFile c | Err => c_stderrFile c end.
Definition field_writer (c : command) (st : stream) : option nat := match st with Out => c_stdout c | Err => c_stderr c end.
Definition field_fn (c : command) (st : stream) : option nat := match st with Out => c_stdoutFn c | Err => c_stderrFn c end.

(** Places: files by what their name leads to. *)
Inductive place := PFile (f : string) | PWriter (w : nat) | PIndent (st : stream) | PCaptured.

(** A stream's output goes to ... *)
Inductive goes_to (c : command) (e : env) (st : stream) : place -> Prop :=
  | goes_file f a : names_file (field_file c st) f a -> goes_to c e st (PFile (e_file e f))
  | goes_writer w : no_file (field_file c st) -> field_writer c st = Some w -> goes_to c e st (PWriter w)
  | goes_fn f w b : no_file (field_file c st) -> field_writer c st = None -> field_fn c st = Some f -> e_fn e f = Some (w, b) ->
      goes_to c e st (PWriter w)
  | goes_verbose : no_file (field_file c st) -> field_writer c st = None -> (forall f, field_fn c st = Some f -> e_fn e f = None) ->
      e_verbose e = true -> goes_to c e st (PIndent st)
  | goes_captured : no_file (field_file c st) -> field_writer c st = None -> (forall f, field_fn c st = Some f -> e_fn e f = None) ->
      e_verbose e = false -> goes_to c e st PCaptured.

(** What the process wrote to the streams that go to [p]. *)
Inductive written_to (P : stream -> Prop) : list (stream * bytes) -> bytes -> Prop :=
  | written_nil : written_to P [] []
  | written_yes st b cs l : P st -> written_to P cs l -> written_to P ((st, b) :: cs) (b ++ l)
  | written_no st b cs l : ~ P st -> written_to P cs l -> written_to P ((st, b) :: cs) l.

(** What a place other than a file was sent since [w]. *)
Definition dest_of (p : place) : option dest :=
  match p with PFile _ => None | PWriter w => Some (DWriter w) | PIndent Out => Some (DIndent false) | PIndent Err => Some (DIndent true) | PCaptured => Some DBuf end.

Definition received (d : dest) (w w' : world) (l : bytes) : Prop := sent_to d (w_sent w') = sent_to d (w_sent w) ++ l.

(** The events of one call. *)
Definition events (w w' : world) (evs : list event) : Prop := w_trace w' = w_trace w ++ evs.
Definition started (evs : list event) (i : invocation) : Prop := EvStart i ∈ evs.
(** A call acquires files, stdin, and the writers its functions return, if they can be closed. *)
Definition acquired (e : env) (evs : list event) (x : closable) : Prop :=
  match x with
  | CHandle h => exists f a, EvOpen f a h ∈ evs
  | CStdin f => EvOpenRead f ∈ evs
  | CWriter w st => exists f, EvCallFn st f ∈ evs /\ e_fn e f = Some (w, true)
  end.

(** When the two streams name files by different names these are different files. *)
Definition one_spelling (c : command) (e : env) : Prop :=
  forall f1 a1 f2 a2, names_file (c_stdoutFile c) f1 a1 -> names_file (c_stderrFile c) f2 a2 -> f1 <> f2 -> e_file e f1 <> e_file e f2.

(** ** YAML: the values of Stdout and Stderr. *)
Definition yaml_out (y : commandYAML) (st : stream) : string := match st with Out => y_stdout y | Err => y_stderr y end.
(** Some values name a writer, or a function that makes one; the empty one says nothing;
    all others are file names. *)
Inductive yaml_writer : string -> nat -> Prop :=
  | yw_stdout : yaml_writer "$stdout" w_stdout
  | yw_stderr : yaml_writer "$stderr" w_stderr
  | yw_discard : yaml_writer "$discard" w_discard.
Inductive yaml_fn : stream -> string -> nat -> Prop :=
  | yf_indent_out : yaml_fn Out "$indent" fn_indent_out
  | yf_indent_err : yaml_fn Err "$indent" fn_indent_err
  | yf_verbose_out : yaml_fn Out "$verbose" fn_verbose_out
  | yf_verbose_err : yaml_fn Err "$verbose" fn_verbose_err.
Definition yaml_name (s : string) : Prop := s <> "" /\ (forall w, ~ yaml_writer s w) /\ (forall st f, ~ yaml_fn st s f).

(** The standard output or error output of fab itself, as it is or with every line indented. *)
Definition fab_stream (st : stream) : nat := match st with Out => w_stdout | Err => w_stderr end.
Definition indented (st : stream) : place := PWriter (w_indented (fab_stream st)).
(** Where the documentation says the output goes. *)
Definition yaml_place (e : env) (st : stream) (s : string) (p : place) : Prop :=
  (s = "$stdout" /\ p = PWriter w_stdout) \/ (s = "$stderr" /\ p = PWriter w_stderr) \/ (s = "$discard" /\ p = PWriter w_discard) \/
  (s = "$indent" /\ p = indented st) \/
  (s = "$verbose" /\ ((e_verbose e = true /\ p = indented st) \/ (e_verbose e = false /\ p = PCaptured))) \/
  (s = "" /\ ((e_verbose e = true /\ p = PIndent st) \/ (e_verbose e = false /\ p = PCaptured))).

(** Commands run one after the other, each in an environment of its own; all of them start
    a process and succeed. *)
Inductive run_all : list (command * env) -> world -> list invocation -> world -> Prop :=
  | run_all_nil w : run_all [] w [] w
  | run_all_cons c e l w w1 evs i is w' : Run c e w = (w1, None) -> events w w1 evs -> started evs i ->
      run_all l w1 is w' -> run_all ((c, e) :: l) w (i :: is) w'.
