(** Model of command.go: Command.Run, and the decoder of !Command.

    The world: files with contents, open handles, what was sent where, and a trace of the
    effects.  The process is an oracle: what it writes to its two output streams, in which
    order, and its error.  Not modelled: other effects of the process, failing writes. *)
From stdpp Require Import base gmap list strings.
From Coq Require Import Ascii.
From Verif Require Import PathModel YamlModel.
Local Open Scope list_scope.

Notation bytes := (list ascii).

(** command.go:66-175.  Writers, readers and functions are numbers; nil is None. *)
Record command := {
  c_shell : string; c_cmd : string; c_args : list string;
  c_stdout : option nat; c_stderr : option nat;
  c_stdoutFn : option nat; c_stderrFn : option nat;
  c_stdoutFile : string; c_stderrFile : string;
  c_stdin : option nat; c_stdinFile : string;
  c_dir : string; c_env : list string }.

(** A file opened for writing. *)
Inductive dest := DHandle (h : nat) | DWriter (w : nat) | DIndent (err : bool) | DBuf.
#[global] Instance dest_eq_dec : EqDecision dest. Proof. solve_decision. Defined.
Inductive source := SNone | SReader (r : nat) | SFile (name : string).
Record handle := { h_file : string; h_append : bool; h_pos : nat }.

(** What cmd.Run is called with. *)
Record invocation := { i_name : string; i_args : list string; i_dir : string; i_env : list string;
  i_stdin : source; i_stdout : dest; i_stderr : dest }.

Inductive stream := Out | Err.
#[global] Instance stream_eq_dec : EqDecision stream. Proof. solve_decision. Defined.
Inductive closable := CHandle (h : nat) | CWriter (w : nat) (st : stream) | CStdin (name : string).
Inductive event :=
  | EvPrint
  | EvOpen (name : string) (append : bool) (h : nat)     (* for writing *)
  | EvOpenFailed (name : string)
  | EvOpenRead (name : string)
  | EvCallFn (st : stream) (f : nat)
  | EvStart (i : invocation)
  | EvClose (x : closable).
Inductive error :=
  | EDisagree | EOpenOut (name : string) | EOpenIn (name : string)
  | EProc (e : nat) | ECommandErr (e : nat) (output : bytes) | EClosing (st : stream).

Record world := { w_files : gmap string bytes; w_handles : list handle; w_sent : list (dest * bytes); w_trace : list event }.
Record env := {
  e_dryrun : bool; e_verbose : bool; e_shell : string; e_environ : list string;
  (** The file a name leads to (working directory, symbolic links). *)
  e_file : string -> string;
  e_open_out : string -> bool -> bool; e_open_in : string -> bool;
  (** What the function returns: a writer and whether it is also a closer. *)
  e_fn : nat -> option (nat * bool);
  e_close : closable -> bool;
  e_run : invocation -> list (stream * bytes) * option nat }.

Definition emit (ev : event) (w : world) : world :=
  {| w_files := w_files w; w_handles := w_handles w; w_sent := w_sent w; w_trace := w_trace w ++ [ev] |}.

(** strings.HasPrefix(s, ">>") *)
Definition has_gtgt (s : string) : bool := String.prefix ">>" s.
(** strings.TrimLeft(s, "> ") *)
Fixpoint trim_gt (s : string) : string :=
  match s with
  | String c s' => if decide (c = ">"%char \/ c = " "%char) then trim_gt s' else s
  | EmptyString => ""
  end.
(** command.go:214-226: the file name and whether to append. *)
Definition out_file (s : string) : string * bool := (if has_gtgt s then trim_gt s else s, has_gtgt s).

(** os.OpenFile(name, O_WRONLY|O_APPEND|O_CREATE) and os.Create(name) *)
Definition open_out (e : env) (name : string) (append : bool) (w : world) : world * option nat :=
  if e_open_out e name append then
    let h := length (w_handles w) in
    let f := e_file e name in
    (emit (EvOpen name append h)
       {| w_files := <[f := if append then default [] (w_files w !! f) else []]> (w_files w);
          w_handles := w_handles w ++ [{| h_file := f; h_append := append; h_pos := 0 |}];
          w_sent := w_sent w; w_trace := w_trace w |}, Some h)
  else (emit (EvOpenFailed name) w, None).

(** write(2): at the end of the file if opened for appending, else at the handle's position. *)
Definition write_at (l : bytes) (pos : nat) (b : bytes) : bytes :=
  take pos l ++ replicate (pos - length l) zero ++ b ++ drop (pos + length b) l.
Definition write_handle (h : nat) (b : bytes) (w : world) : world :=
  match w_handles w !! h with
  | None => w
  | Some hd =>
      let l := default [] (w_files w !! h_file hd) in
      {| w_files := <[h_file hd := if h_append hd then l ++ b else write_at l (h_pos hd) b]> (w_files w);
         w_handles := <[h := {| h_file := h_file hd; h_append := h_append hd; h_pos := h_pos hd + length b |}]> (w_handles w);
         w_sent := w_sent w; w_trace := w_trace w |}
  end.
Definition send (d : dest) (b : bytes) (w : world) : world :=
  let w := {| w_files := w_files w; w_handles := w_handles w; w_sent := w_sent w ++ [(d, b)]; w_trace := w_trace w |} in
  match d with DHandle h => write_handle h b w | _ => w end.
Fixpoint deliver (i : invocation) (cs : list (stream * bytes)) (w : world) : world :=
  match cs with
  | [] => w
  | (st, b) :: cs => deliver i cs (send (match st with Out => i_stdout i | Err => i_stderr i end) b w)
  end.
Definition sent_to (d : dest) (l : list (dest * bytes)) : bytes := concat (snd <$> filter (fun p => p.1 = d) l).
(** What the buffer, made by this call, has received since [w]. *)
Definition buffered (w w' : world) : bytes := sent_to DBuf (drop (length (w_sent w)) (w_sent w')).

(** Deferred calls, last first.  Those of StdoutFile assign to a variable err of their own
    (command.go:238-243, 250-255: the inner err shadows the result), those of StderrFile
    ignore the error (270, 278), as does that of StdinFile (335); only those of StdoutFn and
    StderrFn (286-291, 299-304) set the result. *)
Definition reports (x : closable) : option stream := match x with CWriter _ st => Some st | _ => None end.
Fixpoint run_defers (e : env) (ds : list closable) (err : option error) (w : world) : world * option error :=
  match ds with
  | [] => (w, err)
  | x :: ds =>
      let err' := match err, reports x with
                  | None, Some st => if e_close e x then None else Some (EClosing st)
                  | _, _ => err
                  end in
      run_defers e ds err' (emit (EvClose x) w)
  end.

(** command.go:283-295 and 296-308 *)
Definition call_fn (e : env) (st : stream) (cur : option dest) (fn : option nat) (ds : list closable) (w : world) :
    world * option dest * list closable :=
  match cur, fn with
  | None, Some f =>
      let w := emit (EvCallFn st f) w in
      match e_fn e f with
      | None => (w, None, ds)
      | Some (x, closer) => (w, Some (DWriter x), if closer then CWriter x st :: ds else ds)
      end
  | _, _ => (w, cur, ds)
  end.

(** command.go:189-203 *)
Definition cmd_name (c : command) (e : env) : string :=
  if decide (c_cmd c = "") then (if decide (e_shell e = "") then "/bin/sh" else e_shell e) else c_cmd c.
Definition cmd_args (c : command) : list string :=
  if decide (c_cmd c = "") then ["-c"; c_shell c] else c_args c.

(** command.go:283-346: from the choice of default destinations on. *)
Definition run_rest (c : command) (e : env) (so se : option dest) (ds : list closable) (w : world) : world * option error :=
  let '(w, so, ds) := call_fn e Out so (c_stdoutFn c) ds w in
  let '(w, se, ds) := call_fn e Err se (c_stderrFn c) ds w in
  let so := default (if e_verbose e then DIndent false else DBuf) so in
  let se := default (if e_verbose e then DIndent true else DBuf) se in
  let w := if e_verbose e then emit EvPrint w else w in
  let start src ds w :=
    let i := {| i_name := cmd_name c e; i_args := cmd_args c; i_dir := c_dir c; i_env := e_environ e ++ c_env c;
                i_stdin := src; i_stdout := so; i_stderr := se |} in
    let '(cs, r) := e_run e i in
    let w' := deliver i cs (emit (EvStart i) w) in
    let out := buffered w w' in
    let err := match r with
               | None => None
               | Some x => Some (if decide (out <> []) then ECommandErr x out else EProc x)
               end in
    run_defers e ds err w' in
  if decide (c_stdinFile c <> "") then
    if e_open_in e (c_stdinFile c) then start (SFile (c_stdinFile c)) (CStdin (c_stdinFile c) :: ds) (emit (EvOpenRead (c_stdinFile c)) w)
    else run_defers e ds (Some (EOpenIn (c_stdinFile c))) (emit (EvOpenFailed (c_stdinFile c)) w)
  else start (match c_stdin c with Some r => SReader r | None => SNone end) ds w.

(** command.go:188-347 *)
Definition Run (c : command) (e : env) (w : world) : world * option error :=
  if e_dryrun e then (if e_verbose e then emit EvPrint w else w, None)       (* 205-210 *)
  else
    let '(f1, a1) := out_file (c_stdoutFile c) in
    let '(f2, a2) := out_file (c_stderrFile c) in
    if decide (f1 = f2 /\ a1 <> a2) then (w, Some EDisagree)                 (* 228-230 *)
    else
      let after_out so ds w :=
        if decide (f2 = "") then run_rest c e so (DWriter <$> c_stderr c) ds w
        else if decide (f1 = f2) then run_rest c e so so ds w
        else match open_out e f2 a2 w with
             | (w, None) => run_defers e ds (Some (EOpenOut f2)) w
             | (w, Some h) => run_rest c e so (Some (DHandle h)) (CHandle h :: ds) w
             end in
      if decide (f1 = "") then after_out (DWriter <$> c_stdout c) [] w
      else match open_out e f1 a1 w with
           | (w, None) => (w, Some (EOpenOut f1))
           | (w, Some h) => after_out (Some (DHandle h)) [CHandle h] w
           end.

(** ** The decoder of !Command.  Writers 0 and 1 are os.Stdout and os.Stderr, 2 is io.Discard;
    reader 0 is os.Stdin.  Functions: 0 and 1 are deferredIndent, 2 and 3 maybeIndent, of
    os.Stdout and os.Stderr. *)
Definition w_stdout := 0. Definition w_stderr := 1. Definition w_discard := 2.
Definition fn_indent_out := 0. Definition fn_indent_err := 1. Definition fn_verbose_out := 2. Definition fn_verbose_err := 3.

(** command.go:508-521.  Writers 3 and 4 are IndentingCopiers of os.Stdout and os.Stderr (not
    closers, runner.go:166-222). *)
Definition w_indented (w : nat) : nat := w + 3.
Definition deferredIndent (w : nat) : option (nat * bool) := Some (w_indented w, false).
Definition maybeIndent (e_verbose : bool) (w : nat) : option (nat * bool) := if e_verbose then Some (w_indented w, false) else None.
(** The functions that the decoder uses do what they do. *)
Definition yaml_fns (e : env) : Prop :=
  e_fn e fn_indent_out = deferredIndent w_stdout /\ e_fn e fn_indent_err = deferredIndent w_stderr /\
  e_fn e fn_verbose_out = maybeIndent (e_verbose e) w_stdout /\ e_fn e fn_verbose_err = maybeIndent (e_verbose e) w_stderr.

(** command.go:429-438, decoded: Cmd, Stdin, Stdout, Stderr, Dir are strings. *)
Record commandYAML := { y_shell : node; y_cmd : string; y_args : node; y_stdin : string; y_stdout : string; y_stderr : string;
  y_dir : string; y_env : node }.

(** command.go:453-477 and 479-503: writer, function, file *)
Definition out_field (top dir s : string) (fn_indent fn_verbose : nat) (forceAppend : bool) : option nat * option nat * string :=
  if decide (s = "$stdout") then (Some w_stdout, None, "")
  else if decide (s = "$stderr") then (Some w_stderr, None, "")
  else if decide (s = "$discard") then (Some w_discard, None, "")
  else if decide (s = "$indent") then (None, Some fn_indent, "")
  else if decide (s = "$verbose") then (None, Some fn_verbose, "")
  else if decide (s = "") then (None, None, "")
  else
    let f := JoinPath top [dir; s] in
    (None, None, if decide (forceAppend = true /\ has_gtgt f = false) then ">>" +:+ f else f).

(** command.go:440-506 *)
Definition toTarget (top : string) (c : commandYAML) (shell dir : string) (args env : list string) (forceAppend : bool) : command :=
  let '(so, sofn, sof) := out_field top dir (y_stdout c) fn_indent_out fn_verbose_out forceAppend in
  let '(se, sefn, sef) := out_field top dir (y_stderr c) fn_indent_err fn_verbose_err forceAppend in
  {| c_shell := shell; c_cmd := y_cmd c; c_args := args;
     c_stdout := so; c_stderr := se; c_stdoutFn := sofn; c_stderrFn := sefn; c_stdoutFile := sof; c_stderrFile := sef;
     c_stdin := if decide (y_stdin c = "$stdin") then Some 0 else None; c_stdinFile := "";
     c_dir := JoinPath top [dir; y_dir c]; c_env := env |}.

Inductive cmd_target := TCommand (c : command) | TSeq (cs : list command) | TErr.
(** slices.Mapx with the index: the first is not forced to append. *)
Definition shell_list (top : string) (c : commandYAML) (dir : string) (args env : list string) (strs : list string) : list command :=
  imap (fun i s => toTarget top c s dir args env (bool_decide (0 < i))) strs.
(** command.go:373-427 *)
Definition commandDecoder (fns : list_fns) (top : string) (c : commandYAML) (dir : string) : cmd_target :=
  match YAMLStringList fns (y_args c) dir, YAMLStringList fns (y_env c) dir with
  | LOk args, LOk env =>
      let single :=
        match n_kind (y_shell c) with
        | KNone => TCommand (toTarget top c "" dir args env false)
        | KScalar => TCommand (toTarget top c (n_value (y_shell c)) dir args env false)
        | _ => TErr
        end in
      if decide (y_cmd c = "") then
        match YAMLStringList fns (y_shell c) dir with
        | LErr (BadKind _ _) => single
        | LErr _ => TErr
        | LOk strs => TSeq (shell_list top c dir args env strs)
        end
      else single
  | _, _ => TErr
  end.
