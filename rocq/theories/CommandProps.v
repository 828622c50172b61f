(** Properties C38 (where output goes), C39 (dry run), C40 (errors), C41, C42, C43 (!Command in
    YAML), C57 (everything opened is closed).  Vocabulary: CommandSpec.v. *)
From stdpp Require Import base gmap list strings.
From Coq Require Import Ascii.
From Verif Require Import PathModel PathSpec PathProofs YamlModel YamlSpec YamlProofs CommandModel CommandSpec
  CommandProofs CommandProofs2 CommandProofs3 CommandProofs4 CommandProofs5 CommandProofs6.
Local Open Scope list_scope.

(** ** C38.  Whenever Run starts a process, afterwards a file named by a stream holds what it
    held before, if it is to be appended to, and then exactly what the process wrote to the
    streams that go there, in order; writers, indenting copiers and the capture buffer have
    received exactly what the process wrote to the streams that go there; no other file has
    changed.  Premise: two different names lead to two different files. *)
Theorem C38_output_partial c e w w' r evs i : e_dryrun e = false -> Run c e w = (w', r) -> events w w' evs -> started evs i -> one_spelling c e ->
  let cs := (e_run e i).1 in
  (forall st f a, names_file (field_file c st) f a -> exists l,
     written_to (fun st' => goes_to c e st' (PFile (e_file e f))) cs l /\
     w_files w' !! e_file e f = Some ((if a then default [] (w_files w !! e_file e f) else []) ++ l)) /\
  (forall p d, dest_of p = Some d -> exists l, written_to (fun st => goes_to c e st p) cs l /\ received d w w' l) /\
  (forall g, (forall st f a, names_file (field_file c st) f a -> e_file e f <> g) -> w_files w' !! g = w_files w !! g).
Proof. exact (output_lem c e w w' r evs i). Qed.
Print Assumptions C38_output_partial.

(** Every stream goes to exactly one place. *)
Theorem C38_one_place c e st : exists p, goes_to c e st p /\ forall p', goes_to c e st p' -> p' = p.
Proof. exact (goes_one c e st). Qed.
Print Assumptions C38_one_place.

(** Without the premise this fails: here stdout is f and stderr is ./f, the same file under
    another name, and what stderr gets overwrites what stdout got. *)
Theorem C38_other_spelling_refuted : exists c e w w' evs i f1 f2 l,
  e_dryrun e = false /\ Run c e w = (w', None) /\ events w w' evs /\ started evs i /\
  names_file (c_stdoutFile c) f1 false /\ names_file (c_stderrFile c) f2 false /\ e_file e f1 = e_file e f2 /\
  written_to (fun st => goes_to c e st (PFile (e_file e f1))) (e_run e i).1 l /\ w_files w' !! e_file e f1 <> Some l.
Proof. exact other_spelling. Qed.
Print Assumptions C38_other_spelling_refuted.

(** The error about appending is returned exactly if the streams name one file and disagree
    about appending (or neither names a file and one field is nothing but > and blanks, at
    least two >); then nothing at all has happened. *)
Theorem C38_disagreement c e w w' r : e_dryrun e = false -> Run c e w = (w', r) ->
  (r = Some EDisagree <->
    (exists f a a', names_file (c_stdoutFile c) f a /\ names_file (c_stderrFile c) f a' /\ a <> a') \/
    (no_file (c_stdoutFile c) /\ no_file (c_stderrFile c) /\ ~ (starts_gtgt (c_stdoutFile c) <-> starts_gtgt (c_stderrFile c)))) /\
  (r = Some EDisagree -> w' = w).
Proof. exact (disagree_iff c e w w' r). Qed.
Print Assumptions C38_disagreement.

(** Otherwise, if the files can be opened, one process is started, as the fields say. *)
Theorem C38_runs_once c e w : e_dryrun e = false ->
  ~ (exists f a a', names_file (c_stdoutFile c) f a /\ names_file (c_stderrFile c) f a' /\ a <> a') ->
  ~ (no_file (c_stdoutFile c) /\ no_file (c_stderrFile c) /\ ~ (starts_gtgt (c_stdoutFile c) <-> starts_gtgt (c_stderrFile c))) ->
  (forall st f a, names_file (field_file c st) f a -> e_open_out e f a = true) ->
  (c_stdinFile c <> "" -> e_open_in e (c_stdinFile c) = true) ->
  exists w' r before i after, Run c e w = (w', r) /\ events w w' (before ++ EvStart i :: after) /\
    (forall i', EvStart i' ∉ before) /\ (forall i', EvStart i' ∉ after) /\
    (c_cmd c <> "" -> i_name i = c_cmd c /\ i_args i = c_args c) /\
    (c_cmd c = "" -> i_args i = ["-c"; c_shell c] /\ (e_shell e <> "" -> i_name i = e_shell e) /\ (e_shell e = "" -> i_name i = "/bin/sh")) /\
    i_dir i = c_dir c /\ i_env i = e_environ e ++ c_env c /\
    (c_stdinFile c <> "" -> i_stdin i = SFile (c_stdinFile c)) /\
    (c_stdinFile c = "" -> i_stdin i = match c_stdin c with Some x => SReader x | None => SNone end).
Proof. exact (runs_lem c e w). Qed.
Print Assumptions C38_runs_once.

(** If a file cannot be opened the process is not started and an error is returned. *)
Theorem C38_open_failure c e w w' r evs : e_dryrun e = false -> Run c e w = (w', r) -> events w w' evs ->
  (exists st f a, names_file (field_file c st) f a /\ e_open_out e f a = false) \/ (c_stdinFile c <> "" /\ e_open_in e (c_stdinFile c) = false) ->
  r <> None /\ forall i, ~ started evs i.
Proof. exact (open_failure c e w w' r evs). Qed.
Print Assumptions C38_open_failure.

(** ** C39: a dry run at most prints; it changes nothing and succeeds. *)
Theorem C39_dry_run c e w : e_dryrun e = true -> exists w' evs, Run c e w = (w', None) /\
  w_files w' = w_files w /\ w_handles w' = w_handles w /\ w_sent w' = w_sent w /\ events w w' evs /\
  (forall ev, ev ∈ evs -> ev = EvPrint).
Proof. intros (evs & H & Hp)%(dry_lem c e w). exists (emits evs w), evs. done. Qed.
Print Assumptions C39_dry_run.

(** ** C40.  If the process fails, the result is its error, together with the captured output
    if there is any; if it succeeds and so does every Close, Run succeeds; if it succeeds and
    Close of a writer made by StdoutFn or StderrFn fails, Run fails. *)
Theorem C40_result_partial c e w w' r evs i : e_dryrun e = false -> Run c e w = (w', r) -> events w w' evs -> started evs i ->
  (forall x, (e_run e i).2 = Some x -> exists l, written_to (fun st => goes_to c e st PCaptured) (e_run e i).1 l /\
     r = Some (if decide (l = []) then EProc x else ECommandErr x l)) /\
  ((e_run e i).2 = None -> (forall x, e_close e x = true) -> r = None) /\
  ((e_run e i).2 = None -> forall st f wr, no_file (field_file c st) -> field_writer c st = None -> field_fn c st = Some f ->
     e_fn e f = Some (wr, true) -> e_close e (CWriter wr st) = false -> exists st', r = Some (EClosing st')).
Proof. exact (result_lem c e w w' r evs i). Qed.
Print Assumptions C40_result_partial.

(** Failure to close an output file is never reported: if both streams go to files and the
    process succeeds, Run succeeds, whatever Close returns. *)
Theorem C40_file_close_refuted c e w w' r evs i : e_dryrun e = false -> Run c e w = (w', r) -> events w w' evs -> started evs i ->
  (e_run e i).2 = None -> (exists f a, names_file (c_stdoutFile c) f a) -> (exists f a, names_file (c_stderrFile c) f a) -> r = None.
Proof. exact (file_close_ignored c e w w' r evs i). Qed.
Print Assumptions C40_file_close_refuted.

(** ** C57: on every path, everything Run opened for writing or reading, and every closer made
    by its functions, is closed exactly once, at the end, and nothing else is closed. *)
Theorem C57_closed_once c e w w' r evs : Run c e w = (w', r) -> events w w' evs ->
  exists before ds, evs = before ++ (EvClose <$> ds) /\ (forall x, EvClose x ∉ before) /\ NoDup ds /\ (forall x, x ∈ ds <-> acquired e before x).
Proof. exact (closed_lem c e w w' r evs). Qed.
Print Assumptions C57_closed_once.

(** A !Command closes nothing but files it opened; in particular, none of fab's standard streams,
    nor anything that stands for one. *)
Theorem C57_yaml_closes_own_files top y shell dir args env fa e w w' r evs x : let c := toTarget top y shell dir args env fa in
  yaml_fns e -> Run c e w = (w', r) -> events w w' evs -> EvClose x ∈ evs -> exists h f a, x = CHandle h /\ EvOpen f a h ∈ evs.
Proof.
  intros c Hf Hr Hev Hx. destruct (yaml_closes top y shell dir args env fa e w w' r evs x Hf Hr Hev Hx) as [h ->].
  destruct (C57_closed_once c e w w' r evs Hr Hev) as (before & ds & -> & Hb & _ & Ha). apply elem_of_app in Hx as [Hx|Hx]; [by destruct (Hb _ Hx)|].
  apply elem_of_list_fmap in Hx as (y0 & E & Hx). injection E as <-. apply Ha in Hx as (f & a & Hx). exists h, f, a. split; [done|]. apply elem_of_app. by left.
Qed.
Print Assumptions C57_yaml_closes_own_files.

(** ** C41.  The top directory being absolute, a file name in Stdout or Stderr is the file of
    that name in the directory of the YAML file, to be overwritten ... *)
Theorem C41_plain_partial top y shell dir args env st : IsAbs top = true -> yaml_name (yaml_out y st) ->
  let f := JoinPath top [dir; yaml_out y st] in
  names_file (field_file (toTarget top y shell dir args env false) st) f false /\
  forall here, cd here f = cd (cd (cd here top) dir) (yaml_out y st).
Proof. intros Ha Hn f. split; [by apply name_lem|]. intros here. unfold f. by rewrite joinpath_lem. Qed.
Print Assumptions C41_plain_partial.

(** ... and so it is if it starts with >>: the file to be overwritten has >> in its name, and
    nothing is ever appended to. *)
Theorem C41_append_refuted top y shell dir args env st s : IsAbs top = true -> yaml_out y st = ">>" +:+ s ->
  let c := toTarget top y shell dir args env false in
  names_file (field_file c st) (JoinPath top [dir; ">>" +:+ s]) false /\ forall f, ~ names_file (field_file c st) f true.
Proof. exact (append_lost top y shell dir args env st s). Qed.
Print Assumptions C41_append_refuted.

(** The other values. *)
Theorem C41_special top y shell dir args env fa st : let c := toTarget top y shell dir args env fa in let s := yaml_out y st in
  (forall x, yaml_writer s x -> field_writer c st = Some x /\ field_fn c st = None /\ field_file c st = "") /\
  (forall f, yaml_fn st s f -> field_writer c st = None /\ field_fn c st = Some f /\ field_file c st = "") /\
  (s = "" -> field_writer c st = None /\ field_fn c st = None /\ field_file c st = "") /\
  (yaml_name s -> field_writer c st = None /\ field_fn c st = None).
Proof. exact (special_lem top y shell dir args env fa st). Qed.
Print Assumptions C41_special.

(** The writers and functions that the special values name are different ones: different
    values never name the same one, nor does $indent (or $verbose) for the one stream name the
    same function as for the other. *)
Theorem C41_writers_distinct s1 s2 x : yaml_writer s1 x -> yaml_writer s2 x -> s1 = s2.
Proof. intros H1 H2. destruct H1; inversion H2 as [E|E|E]; first [reflexivity|discriminate E]. Qed.
Print Assumptions C41_writers_distinct.

Theorem C41_functions_distinct st1 st2 s1 s2 f : yaml_fn st1 s1 f -> yaml_fn st2 s2 f -> st1 = st2 /\ s1 = s2.
Proof. intros H1 H2. inversion H1; inversion H2; subst; done. Qed.
Print Assumptions C41_functions_distinct.

(** So the output of a !Command goes where the documentation says. *)
Theorem C41_places top y shell dir args env fa st e p : yaml_fns e -> yaml_place e st (yaml_out y st) p ->
  goes_to (toTarget top y shell dir args env fa) e st p.
Proof.
  intros (H0 & H1 & H2 & H3) Hp. destruct (C41_special top y shell dir args env fa st) as (Hw & Hf & He & _).
  assert (Hno : no_file "") by (intros f a Hn; inversion Hn as [? ?|? (s' & ?)]; done).
  destruct Hp as [[E ->]|[[E ->]|[[E ->]|[[E ->]|[[E Hv]|[E Hv]]]]]]; rewrite E in Hw, Hf, He.
  - destruct (Hw _ yw_stdout) as (E1 & E2 & E3). apply goes_writer; [by rewrite E3|done].
  - destruct (Hw _ yw_stderr) as (E1 & E2 & E3). apply goes_writer; [by rewrite E3|done].
  - destruct (Hw _ yw_discard) as (E1 & E2 & E3). apply goes_writer; [by rewrite E3|done].
  - destruct st; [destruct (Hf _ yf_indent_out) as (E1 & E2 & E3)|destruct (Hf _ yf_indent_err) as (E1 & E2 & E3)];
      (eapply goes_fn; [by rewrite E3|exact E1|exact E2|done]).
  - destruct st; [destruct (Hf _ yf_verbose_out) as (E1 & E2 & E3)|destruct (Hf _ yf_verbose_err) as (E1 & E2 & E3)];
      (destruct Hv as [[Ev ->]|[Ev ->]]; [eapply goes_fn; [by rewrite E3|exact E1|exact E2|rewrite ?H2, ?H3, Ev; done]|];
       apply goes_captured; [by rewrite E3|exact E1|intros f Ef; rewrite E2 in Ef; injection Ef as <-; rewrite ?H2, ?H3, Ev; done|exact Ev]).
  - destruct (He eq_refl) as (E1 & E2 & E3). destruct Hv as [[Ev ->]|[Ev ->]];
      [apply goes_verbose|apply goes_captured]; try done; try (by rewrite E3); intros f Ef; congruence.
Qed.
Print Assumptions C41_places.

(** ** C42: a process of a !Command never gets its standard input from a file: unless Stdin
    is $stdin, it has none. *)
Theorem C42_stdin_file_refuted top y shell dir args env fa e w w' r evs i : let c := toTarget top y shell dir args env fa in
  Run c e w = (w', r) -> events w w' evs -> started evs i -> y_stdin y <> "$stdin" -> i_stdin i = SNone.
Proof. exact (stdin_lem top y shell dir args env fa e w w' r evs i). Qed.
Print Assumptions C42_stdin_file_refuted.

(** The part that holds: with $stdin, and only then, it has the standard input of fab. *)
Theorem C42_stdin_of_fab_partial top y shell dir args env fa e w w' r evs i : let c := toTarget top y shell dir args env fa in
  Run c e w = (w', r) -> events w w' evs -> started evs i -> i_stdin i = SReader 0 <-> y_stdin y = "$stdin".
Proof. exact (stdin_std_lem top y shell dir args env fa e w w' r evs i). Qed.
Print Assumptions C42_stdin_of_fab_partial.

(** ** C43: a list of strings for Shell gives as many commands, which differ only in the shell
    string; those after the first append to the output files. *)
Theorem C43_seq fns top y dir args env strs : y_cmd y = "" ->
  YAMLStringList fns (y_args y) dir = LOk args -> YAMLStringList fns (y_env y) dir = LOk env -> YAMLStringList fns (y_shell y) dir = LOk strs ->
  exists cs, commandDecoder fns top y dir = TSeq cs /\ length cs = length strs /\
    forall k c s, cs !! k = Some c -> strs !! k = Some s ->
      c_shell c = s /\ c_cmd c = "" /\ c_args c = args /\ c_env c = env /\ c_dir c = JoinPath top [dir; y_dir y] /\
      (c_stdin c = if decide (y_stdin y = "$stdin") then Some 0 else None) /\ c_stdinFile c = "" /\
      (forall st, field_writer c st = field_writer (toTarget top y "" dir args env false) st /\ field_fn c st = field_fn (toTarget top y "" dir args env false) st) /\
      (IsAbs top = true -> forall st f a, names_file (field_file c st) f a <->
         yaml_name (yaml_out y st) /\ f = JoinPath top [dir; yaml_out y st] /\ (a = true <-> k <> 0)).
Proof. exact (seq_lem fns top y dir args env strs). Qed.
Print Assumptions C43_seq.

(** When they have run one after the other, every file named holds all they wrote, in order,
    and nothing else.  [loc]: the file a name leads to. *)
Theorem C43_accumulate loc top y dir args env strs es f st w is w' :
  IsAbs top = true -> yaml_name (yaml_out y st) -> f = JoinPath top [dir; yaml_out y st] -> strs <> [] ->
  length es = length strs -> Forall (fun e => e_dryrun e = false /\ e_file e = loc) es ->
  (forall st1 st2, yaml_name (yaml_out y st1) -> yaml_name (yaml_out y st2) ->
     JoinPath top [dir; yaml_out y st1] <> JoinPath top [dir; yaml_out y st2] -> loc (JoinPath top [dir; yaml_out y st1]) <> loc (JoinPath top [dir; yaml_out y st2])) ->
  let l := zip (shell_list top y dir args env strs) es in
  run_all l w is w' ->
  exists ls, Forall2 (fun '(p, i) b => written_to (fun st => goes_to p.1 p.2 st (PFile (loc f))) (e_run p.2 i).1 b) (zip l is) ls /\
    w_files w' !! loc f = Some (concat ls).
Proof. exact (yaml_accumulate loc top y dir args env strs es f st w is w'). Qed.
Print Assumptions C43_accumulate.

(** A !Command with neither Shell nor Cmd is a Seq of nothing. *)
Theorem C43_nothing fns top y dir args env : y_cmd y = "" -> n_kind (y_shell y) = KNone ->
  YAMLStringList fns (y_args y) dir = LOk args -> YAMLStringList fns (y_env y) dir = LOk env -> commandDecoder fns top y dir = TSeq [].
Proof. exact (seq_nothing fns top y dir args env). Qed.
Print Assumptions C43_nothing.
(** One string for Shell, or a Cmd: one command. *)
Theorem C43_single fns top y dir args env : YAMLStringList fns (y_args y) dir = LOk args -> YAMLStringList fns (y_env y) dir = LOk env ->
  (y_cmd y = "" -> n_kind (y_shell y) = KScalar -> untagged (y_shell y) ->
     commandDecoder fns top y dir = TCommand (toTarget top y (n_value (y_shell y)) dir args env false)) /\
  (y_cmd y <> "" -> n_kind (y_shell y) = KNone -> commandDecoder fns top y dir = TCommand (toTarget top y "" dir args env false)).
Proof. exact (single_lem fns top y dir args env). Qed.
Print Assumptions C43_single.

(** ** Concrete cases. *)
Definition ascii_of (s : string) : bytes := list_ascii_of_string s.
Definition ex_cmd : command := {| c_shell := "cmd"; c_cmd := ""; c_args := []; c_stdout := None; c_stderr := None;
  c_stdoutFn := None; c_stderrFn := Some 7; c_stdoutFile := ">> log"; c_stderrFile := ""; c_stdin := None; c_stdinFile := "in";
  c_dir := "d"; c_env := ["A=1"] |}.
Definition ex_env (fails : option nat) (closes : bool) : env := {| e_dryrun := false; e_verbose := false; e_shell := ""; e_environ := ["B=2"];
  e_file := id; e_open_out := fun _ _ => true; e_open_in := fun _ => true; e_fn := fun f => Some (f, true); e_close := fun _ => closes;
  e_run := fun _ => ([(Out, ascii_of "ab"); (Err, ascii_of "x"); (Out, ascii_of "c")], fails) |}.
Definition ex_world : world := {| w_files := {["log" := ascii_of "0"]}; w_handles := []; w_sent := []; w_trace := [] |}.
(** stdout is appended to the file, stderr goes to the function's writer; three things are closed. *)
Example C38_ex : exists w' i, Run ex_cmd (ex_env None true) ex_world = (w', None) /\
  w_files w' !! "log" = Some (ascii_of "0abc") /\ sent_to (DWriter 7) (w_sent w') = ascii_of "x" /\
  w_trace w' = [EvOpen "log" true 0; EvCallFn Err 7; EvOpenRead "in"; EvStart i; EvClose (CStdin "in"); EvClose (CWriter 7 Err); EvClose (CHandle 0)] /\
  i_name i = "/bin/sh" /\ i_args i = ["-c"; "cmd"] /\ i_env i = ["B=2"; "A=1"].
Proof. do 2 eexists. split; [reflexivity|]. split_and!; reflexivity. Qed.
Example C38_ex_spelling : one_spelling ex_cmd (ex_env None true) /\ goes_to ex_cmd (ex_env None true) Out (PFile "log") /\ goes_to ex_cmd (ex_env None true) Err (PWriter 7).
Proof.
  split_and!.
  - intros f1 a1 f2 a2 _ H. by apply empty_no_file in H.
  - apply (goes_file ex_cmd (ex_env None true) Out "log" true). apply names_out_file. done.
  - eapply (goes_fn ex_cmd (ex_env None true) Err); [apply empty_no_file|done|done|done].
Qed.
(** The function's writer fails to close. *)
Example C40_ex : (Run ex_cmd (ex_env None false) ex_world).2 = Some (EClosing Err).
Proof. reflexivity. Qed.
Definition ex_captured : command := {| c_shell := "cmd"; c_cmd := ""; c_args := []; c_stdout := None; c_stderr := None;
  c_stdoutFn := None; c_stderrFn := None; c_stdoutFile := ""; c_stderrFile := ""; c_stdin := None; c_stdinFile := ""; c_dir := ""; c_env := [] |}.
Example C40_ex_captured : (Run ex_captured (ex_env (Some 1) true) ex_world).2 = Some (ECommandErr 1 (ascii_of "abxc")).
Proof. reflexivity. Qed.
(** Both streams to one file that cannot be closed: no error. *)
Definition ex_files : command := {| c_shell := "cmd"; c_cmd := ""; c_args := []; c_stdout := None; c_stderr := None;
  c_stdoutFn := None; c_stderrFn := None; c_stdoutFile := "out"; c_stderrFile := "out"; c_stdin := None; c_stdinFile := ""; c_dir := ""; c_env := [] |}.
Example C40_ex_file : exists w', Run ex_files (ex_env None false) ex_world = (w', None) /\ w_files w' !! "out" = Some (ascii_of "abxc") /\
  exists i, w_trace w' = [EvOpen "out" false 0; EvStart i; EvClose (CHandle 0)].
Proof. eexists. split; [reflexivity|]. split; [reflexivity|]. by eexists. Qed.
Definition ex_yaml (stdout stdin : string) : commandYAML := {| y_shell := Node KSequence "" "" "" "" [Node KScalar "" "echo a" "" "" []; Node KScalar "" "echo b" "" "" []];
  y_cmd := ""; y_args := Node KNone "" "" "" "" []; y_stdin := stdin; y_stdout := stdout; y_stderr := ""; y_dir := ""; y_env := Node KNone "" "" "" "" [] |}.
Definition no_fns : list_fns := fun _ => None.
(** A list of two commands with a Stdout that is a file name: what they write accumulates. *)
Example C43_ex : exists c1 c2 w' is, commandDecoder no_fns "/top" (ex_yaml "out" "") "d" = TSeq [c1; c2] /\
  c_shell c1 = "echo a" /\ c_shell c2 = "echo b" /\ c_stdoutFile c1 = "/top/d/out" /\ c_stdoutFile c2 = ">>/top/d/out" /\
  let en := {| e_dryrun := false; e_verbose := false; e_shell := ""; e_environ := []; e_file := id;
    e_open_out := fun _ _ => true; e_open_in := fun _ => true; e_fn := fun _ => None; e_close := fun _ => true;
    e_run := fun i => ([(Out, match i_args i with [_; s] => ascii_of (substring 5 1 s) | _ => [] end)], None) |} in
  run_all [(c1, en); (c2, en)] {| w_files := {["/top/d/out" := ascii_of "old"]}; w_handles := []; w_sent := []; w_trace := [] |} is w' /\
  w_files w' !! "/top/d/out" = Some (ascii_of "ab").
Proof.
  do 2 eexists. eexists. eexists. split; [vm_compute; reflexivity|]. split_and!; [reflexivity..|].
  split.
  - eapply run_all_cons; [vm_compute; reflexivity|vm_compute; reflexivity|right; left|].
    eapply run_all_cons; [vm_compute; reflexivity|vm_compute; reflexivity|right; left|]. constructor.
  - vm_compute. reflexivity.
Qed.
(** >>log becomes a file to be overwritten. *)
Example C41_ex : c_stdoutFile (toTarget "/top" (ex_yaml ">>log" "") "" "d" [] [] false) = "/top/d/>>log".
Proof. vm_compute. reflexivity. Qed.
(** With an empty top directory and no directory it works. *)
Example C41_ex_empty : names_file (c_stdoutFile (toTarget "" (ex_yaml ">>log" "") "" "" [] [] false)) "log" true.
Proof. apply names_out_file. vm_compute. done. Qed.
Example C42_ex : exists i w', Run (toTarget "/top" (ex_yaml "" "in.txt") "cat" "d" [] [] false) (ex_env None true) ex_world = (w', None) /\
  started (w_trace w') i /\ i_stdin i = SNone.
Proof. eexists. eexists. split; [vm_compute; reflexivity|]. split; [left|reflexivity]. Qed.
Example C42_partial_ex : exists i w', Run (toTarget "/top" (ex_yaml "" "$stdin") "cat" "d" [] [] false) (ex_env None true) ex_world = (w', None) /\
  started (w_trace w') i /\ i_stdin i = SReader 0.
Proof. eexists. eexists. split; [vm_compute; reflexivity|]. split; [left|reflexivity]. Qed.

(** The functions as they are; $verbose in non-verbose mode. *)
Definition ex_yaml_env : env :=
  {| e_dryrun := false; e_verbose := false; e_shell := ""; e_environ := []; e_file := id;
     e_open_out := fun _ _ => true; e_open_in := fun _ => true;
     e_fn := fun f => match f with 0 => deferredIndent w_stdout | 1 => deferredIndent w_stderr | 2 => maybeIndent false w_stdout | 3 => maybeIndent false w_stderr | _ => None end;
     e_close := fun _ => true; e_run := fun _ => ([(Out, ascii_of "x")], Some 1) |}.
Example C41_places_ex : yaml_fns ex_yaml_env /\
  goes_to (toTarget "/top" (ex_yaml "$verbose" "") "make" "d" [] [] false) ex_yaml_env Out PCaptured /\
  goes_to (toTarget "/top" (ex_yaml "$indent" "") "make" "d" [] [] false) ex_yaml_env Out (PWriter 3) /\
  (Run (toTarget "/top" (ex_yaml "$verbose" "") "make" "d" [] [] false) ex_yaml_env ex_world).2 = Some (ECommandErr 1 (ascii_of "x")).
Proof.
  assert (H : yaml_fns ex_yaml_env) by (by vm_compute). split; [exact H|]. split; [|split; [|by vm_compute]].
  - apply C41_places; [exact H|]. do 4 right. left. split; [done|]. by right.
  - apply C41_places; [exact H|]. do 3 right. left. by split.
Qed.

(** A file that was opened is closed, and nothing else: the hypotheses of C57_yaml_closes_own_files. *)
Example C57_yaml_ex : yaml_fns ex_yaml_env /\ exists w' r evs h,
  Run (toTarget "/top" (ex_yaml "out" "") "make" "d" [] [] false) ex_yaml_env ex_world = (w', r) /\ events ex_world w' evs /\
  EvClose (CHandle h) ∈ evs /\ EvOpen "/top/d/out" false h ∈ evs.
Proof.
  split; [by vm_compute|]. eexists. eexists. eexists. eexists. split; [vm_compute; reflexivity|]. split; [reflexivity|].
  split; apply elem_of_list_In; simpl; tauto.
Qed.
