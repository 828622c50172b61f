From stdpp Require Import base gmap list strings.
From Coq Require Import Ascii.
From Verif Require Import PathModel PathSpec PathProofs YamlModel YamlSpec YamlProofs YamlProofs2 YamlProofs3 CommandModel CommandSpec
  CommandProofs CommandProofs2 CommandProofs3 CommandProofs4.
Local Open Scope list_scope.

Lemma goes_one c e st : exists p, goes_to c e st p /\ forall p', goes_to c e st p' -> p' = p.
Proof.
  destruct (file_dec (field_file c st)) as [Hn|(f & a & Hf)].
  2: { exists (PFile (e_file e f)). split; [by econstructor|]. intros p' H. inversion H as [f' a' Hf'|w Hn|f' w b Hn|Hn|Hn]; subst; try nf.
       by destruct (names_fun _ _ _ _ _ Hf Hf') as [-> _]. }
  destruct (field_writer c st) as [w|] eqn:Hw.
  { exists (PWriter w). split; [by constructor|]. intros p' H. inversion H; subst; try nf; congruence. }
  destruct (field_fn c st) as [f|] eqn:Hf.
  - destruct (e_fn e f) as [[w b]|] eqn:Hfn.
    + exists (PWriter w). split; [by eapply goes_fn|].
      intros p' H. inversion H as [f' a' Hf'|w' _ Hw'|f' w' b' _ _ Hf' Hfn'|_ _ Hno _|_ _ Hno _]; subst; try nf; try congruence.
      * specialize (Hno f Hf). congruence.
      * specialize (Hno f Hf). congruence.
    + assert (Hno : forall f0, field_fn c st = Some f0 -> e_fn e f0 = None) by (intros f0 E; congruence).
      destruct (e_verbose e) eqn:Hv.
      * exists (PIndent st). split; [by constructor|]. intros p' H. inversion H; subst; try nf; try congruence.
      * exists PCaptured. split; [by constructor|]. intros p' H. inversion H; subst; try nf; try congruence.
  - assert (Hno : forall f0, field_fn c st = Some f0 -> e_fn e f0 = None) by (intros f0 E; congruence).
    destruct (e_verbose e) eqn:Hv.
    * exists (PIndent st). split; [by constructor|]. intros p' H. inversion H; subst; try nf; try congruence.
    * exists PCaptured. split; [by constructor|]. intros p' H. inversion H; subst; try nf; try congruence.
Qed.

Definition sp_cmd : command := {| c_shell := "cmd"; c_cmd := ""; c_args := []; c_stdout := None; c_stderr := None;
  c_stdoutFn := None; c_stderrFn := None; c_stdoutFile := "f"; c_stderrFile := "./f"; c_stdin := None; c_stdinFile := ""; c_dir := ""; c_env := [] |}.
Definition sp_env : env := {| e_dryrun := false; e_verbose := false; e_shell := ""; e_environ := [];
  e_file := Clean; e_open_out := fun _ _ => true; e_open_in := fun _ => true; e_fn := fun _ => None; e_close := fun _ => true;
  e_run := fun _ => ([(Out, list_ascii_of_string "abc"); (Err, list_ascii_of_string "x")], None) |}.
Definition sp_world : world := {| w_files := ∅; w_handles := []; w_sent := []; w_trace := [] |}.
Lemma other_spelling : exists c e w w' evs i f1 f2 l,
  e_dryrun e = false /\ Run c e w = (w', None) /\ events w w' evs /\ started evs i /\
  names_file (c_stdoutFile c) f1 false /\ names_file (c_stderrFile c) f2 false /\ e_file e f1 = e_file e f2 /\
  written_to (fun st => goes_to c e st (PFile (e_file e f1))) (e_run e i).1 l /\ w_files w' !! e_file e f1 <> Some l.
Proof.
  exists sp_cmd, sp_env, sp_world. eexists. eexists. eexists. exists "f", "./f", (list_ascii_of_string "abcx").
  assert (H1 : names_file "f" "f" false) by (by apply names_out_file).
  assert (H2 : names_file "./f" "./f" false) by (by apply names_out_file).
  split; [done|]. split; [reflexivity|]. split; [reflexivity|]. split; [right; right; left|].
  split_and!; [done|done|vm_compute; done| |vm_compute; done].
  assert (G1 : goes_to sp_cmd sp_env Out (PFile (e_file sp_env "f"))) by (by eapply goes_file).
  assert (G2 : goes_to sp_cmd sp_env Err (PFile (e_file sp_env "f"))).
  { assert (Clean "f" = Clean "./f") as E by (by vm_compute). simpl. rewrite E. by apply (goes_file sp_cmd sp_env Err "./f" false). }
  apply (written_yes _ Out (list_ascii_of_string "abc")); [done|]. apply (written_yes _ Err (list_ascii_of_string "x") [] []); [done|]. constructor.
Qed.

Lemma run_succeeds_opens c e w so se ds evs w1 : prepared c e w so se ds evs w1 ->
  forall st f a, names_file (field_file c st) f a -> e_open_out e f a = true.
Proof.
  destruct 1; intros [] g b Hg; simpl in Hg; try nf;
    match goal with H : names_file ?s _ _, H' : names_file ?s _ _ |- _ => by destruct (names_fun _ _ _ _ _ H H') as [-> ->] end.
Qed.
Lemma open_failure c e w w' r evs : e_dryrun e = false -> Run c e w = (w', r) -> events w w' evs ->
  (exists st f a, names_file (field_file c st) f a /\ e_open_out e f a = false) \/ (c_stdinFile c <> "" /\ e_open_in e (c_stdinFile c) = false) ->
  r <> None /\ forall i, ~ started evs i.
Proof.
  intros Hd Hr Hev Hfail.
  assert (Hns : forall i, ~ started evs i).
  { intros i Hi. destruct (run_started _ _ _ _ _ _ _ Hd Hr Hev Hi) as (so & se & ds & evs1 & w1 & Hp & _ & Hin & _).
    destruct Hfail as [(st & f & a & Hf & Ho)|[Hne Ho]].
    - rewrite (run_succeeds_opens _ _ _ _ _ _ _ _ Hp _ _ _ Hf) in Ho. done.
    - destruct Hin. done. }
  split; [|done]. intros ->.
  destruct (run_cases c e w Hd) as [(_ & _ & H)|[Hne H]].
  { rewrite H in Hr. by simplify_eq. }
  destruct H as [(f & a & _ & _ & H)|[(f & a & _ & _ & _ & H)|[(f1 & a1 & f & a & _ & _ & _ & _ & H)|(so & se & ds & evs1 & w1 & Hp & H)]]].
  1-3: rewrite H in Hr; by simplify_eq.
  rewrite H, run_rest_eq in Hr. cbv zeta in Hr.
  destruct (decide (c_stdinFile c <> "" /\ e_open_in e (c_stdinFile c) = false)) as [Hin|Hin].
  - by simplify_eq.
  - destruct Hfail as [(st & f & a & Hf & Ho)|]; [|done]. rewrite (run_succeeds_opens _ _ _ _ _ _ _ _ Hp _ _ _ Hf) in Ho. done.
Qed.

Lemma gtgt_name s : yaml_name (">>" +:+ s).
Proof. split_and!; [done| |]; [intros w H|intros st f H]; inversion H. Qed.
Lemma append_lost top y shell dir args env st s : IsAbs top = true -> yaml_out y st = ">>" +:+ s ->
  let c := toTarget top y shell dir args env false in
  names_file (field_file c st) (JoinPath top [dir; ">>" +:+ s]) false /\ forall f, ~ names_file (field_file c st) f true.
Proof.
  intros Ha Hs c. split.
  - rewrite <- Hs. apply name_lem; [done|]. rewrite Hs. apply gtgt_name.
  - intros f Hf. by apply file_name_inv in Hf as (_ & _ & ?).
Qed.
Lemma special_lem top y shell dir args env fa st : let c := toTarget top y shell dir args env fa in let s := yaml_out y st in
  (forall x, yaml_writer s x -> field_writer c st = Some x /\ field_fn c st = None /\ field_file c st = "") /\
  (forall f, yaml_fn st s f -> field_writer c st = None /\ field_fn c st = Some f /\ field_file c st = "") /\
  (s = "" -> field_writer c st = None /\ field_fn c st = None /\ field_file c st = "") /\
  (yaml_name s -> field_writer c st = None /\ field_fn c st = None).
Proof.
  intros c s. destruct (field_lem top y shell dir args env fa st) as (H1 & H2 & H3 & H4).
  split_and!; [done|done|done|]. intros Hn. destruct (H4 Hn) as (? & ? & _). done.
Qed.

Lemma toTarget_plain top y shell dir args env fa : let c := toTarget top y shell dir args env fa in
  c_shell c = shell /\ c_cmd c = y_cmd y /\ c_args c = args /\ c_env c = env /\ c_dir c = JoinPath top [dir; y_dir y] /\
  (c_stdin c = if decide (y_stdin y = "$stdin") then Some 0 else None) /\ c_stdinFile c = "".
Proof.
  unfold toTarget. destruct (out_field top dir (y_stdout y) _ _ fa) as [[? ?] ?]. destruct (out_field top dir (y_stderr y) _ _ fa) as [[? ?] ?]. done.
Qed.
Lemma out_field_append top dir s fi fv fa : (out_field top dir s fi fv fa).1 = (out_field top dir s fi fv false).1.
Proof. unfold out_field. repeat (case_decide; [done|]). done. Qed.
Lemma seq_lem fns top y dir args env strs : y_cmd y = "" ->
  YAMLStringList fns (y_args y) dir = LOk args -> YAMLStringList fns (y_env y) dir = LOk env -> YAMLStringList fns (y_shell y) dir = LOk strs ->
  exists cs, commandDecoder fns top y dir = TSeq cs /\ length cs = length strs /\
    forall k c s, cs !! k = Some c -> strs !! k = Some s ->
      c_shell c = s /\ c_cmd c = "" /\ c_args c = args /\ c_env c = env /\ c_dir c = JoinPath top [dir; y_dir y] /\
      (c_stdin c = if decide (y_stdin y = "$stdin") then Some 0 else None) /\ c_stdinFile c = "" /\
      (forall st, field_writer c st = field_writer (toTarget top y "" dir args env false) st /\ field_fn c st = field_fn (toTarget top y "" dir args env false) st) /\
      (IsAbs top = true -> forall st f a, names_file (field_file c st) f a <->
         yaml_name (yaml_out y st) /\ f = JoinPath top [dir; yaml_out y st] /\ (a = true <-> k <> 0)).
Proof.
  intros Hc H1 H2 H3. exists (shell_list top y dir args env strs). split; [by apply decoder_list|].
  split; [unfold shell_list; by rewrite imap_length|]. intros k c s Hk Hs. rewrite shell_list_lookup, Hs in Hk. simpl in Hk. injection Hk as Hk.
  destruct (toTarget_plain top y s dir args env (bool_decide (0 < k))) as (? & ? & ? & ? & ? & ? & ?). rewrite Hk in *.
  split_and!; try done; [congruence| |].
  - intros st. pose proof (toTarget_field top y s dir args env (bool_decide (0 < k)) st) as Ha. rewrite Hk in Ha.
    pose proof (toTarget_field top y "" dir args env false st) as Hb. apply (f_equal fst) in Ha, Hb. rewrite out_field_append in Ha. rewrite <- Hb in Ha.
    unfold the_field in Ha. simpl in Ha. by injection Ha as -> ->.
  - intros Habs st f a. rewrite <- Hk. split.
    + intros Hf. apply file_name_inv in Hf as (? & ? & ->); [|done]. split_and!; [done|done|]. rewrite bool_decide_eq_true. lia.
    + intros (Hn & -> & Ha). assert (a = bool_decide (0 < k)) as ->; [|by apply name_lem].
      destruct a; symmetry; [apply bool_decide_eq_true|apply bool_decide_eq_false]; [destruct Ha as [Ha _]; specialize (Ha eq_refl); lia|].
      intros Hlt. destruct Ha as [_ Ha]. assert (k <> 0) as Hk0 by lia. by specialize (Ha Hk0).
Qed.
Lemma seq_nothing fns top y dir args env : y_cmd y = "" -> n_kind (y_shell y) = KNone ->
  YAMLStringList fns (y_args y) dir = LOk args -> YAMLStringList fns (y_env y) dir = LOk env -> commandDecoder fns top y dir = TSeq [].
Proof.
  intros Hc Hk H1 H2. rewrite (decoder_list fns top y dir args env []); [done|done|done|done|].
  by destruct (string_list_lem fns (y_shell y) dir) as [H _]; apply H.
Qed.
Lemma single_lem fns top y dir args env : YAMLStringList fns (y_args y) dir = LOk args -> YAMLStringList fns (y_env y) dir = LOk env ->
  (y_cmd y = "" -> n_kind (y_shell y) = KScalar -> untagged (y_shell y) ->
     commandDecoder fns top y dir = TCommand (toTarget top y (n_value (y_shell y)) dir args env false)) /\
  (y_cmd y <> "" -> n_kind (y_shell y) = KNone -> commandDecoder fns top y dir = TCommand (toTarget top y "" dir args env false)).
Proof.
  intros H1 H2. unfold commandDecoder. rewrite H1, H2. split.
  - intros Hc Hk Hu. destruct (string_list_lem fns (y_shell y) dir) as (_ & _ & _ & _ & H). rewrite decide_True by done.
    rewrite H by (try done; by rewrite Hk). by rewrite Hk.
  - intros Hc Hk. rewrite decide_False by done. by rewrite Hk.
Qed.
