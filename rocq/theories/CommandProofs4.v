From stdpp Require Import base gmap list strings.
From Coq Require Import Ascii.
From Verif Require Import PathModel PathSpec PathProofs YamlModel YamlProofs CommandModel CommandSpec CommandProofs CommandProofs2.
Local Open Scope list_scope.

Lemma abs_no_gtgt f : IsAbs f = true -> ~ starts_gtgt f.
Proof. intros H [s ->]. discriminate H. Qed.
Lemma abs_ne f : IsAbs f = true -> f <> "".
Proof. by intros H ->. Qed.
Lemma abs_names f : IsAbs f = true -> names_file f f false.
Proof. intros H. constructor; [by apply abs_no_gtgt|by apply abs_ne]. Qed.
Lemma abs_names_append f : IsAbs f = true -> names_file (">>" +:+ f) f true.
Proof.
  intros H. constructor; [by exists f| |by apply abs_ne]. constructor. constructor. constructor; intros [s ->]; discriminate H.
Qed.

Lemma names_self f g a : IsAbs f = true -> names_file f g a -> g = f /\ a = false.
Proof. intros H Hn. destruct (names_fun _ _ _ _ _ Hn (abs_names f H)) as [-> ->]. done. Qed.

Definition the_field (c : command) (st : stream) := (field_writer c st, field_fn c st, field_file c st).
Definition indent_fn (st : stream) : nat := match st with Out => fn_indent_out | Err => fn_indent_err end.
Definition verbose_fn (st : stream) : nat := match st with Out => fn_verbose_out | Err => fn_verbose_err end.
Lemma toTarget_field top y shell dir args env fa st :
  the_field (toTarget top y shell dir args env fa) st = out_field top dir (yaml_out y st) (indent_fn st) (verbose_fn st) fa.
Proof.
  unfold toTarget, the_field.
  destruct (out_field top dir (y_stdout y) fn_indent_out fn_verbose_out fa) as [[a b] c] eqn:E1.
  destruct (out_field top dir (y_stderr y) fn_indent_err fn_verbose_err fa) as [[a' b'] c'] eqn:E2.
  destruct st; simpl; congruence.
Qed.

(** What a value of Stdout or Stderr becomes. *)
Lemma field_lem top y shell dir args env fa st : let c := toTarget top y shell dir args env fa in let s := yaml_out y st in
  (forall w, yaml_writer s w -> field_writer c st = Some w /\ field_fn c st = None /\ field_file c st = "") /\
  (forall f, yaml_fn st s f -> field_writer c st = None /\ field_fn c st = Some f /\ field_file c st = "") /\
  (s = "" -> field_writer c st = None /\ field_fn c st = None /\ field_file c st = "") /\
  (yaml_name s -> field_writer c st = None /\ field_fn c st = None /\
     let f := JoinPath top [dir; s] in field_file c st = if fa && negb (has_gtgt f) then ">>" +:+ f else f).
Proof.
  intros c s. pose proof (toTarget_field top y shell dir args env fa st) as H. fold c s in H.
  unfold the_field in H. clearbody c s. unfold out_field in H. split_and!.
  - intros w Hw. inversion Hw; subst s; repeat first [rewrite decide_True in H by done|rewrite decide_False in H by done]; by simplify_eq.
  - intros f Hf. destruct st; inversion Hf; subst s; repeat first [rewrite decide_True in H by done|rewrite decide_False in H by done]; by simplify_eq.
  - intros ->. repeat first [rewrite decide_True in H by done|rewrite decide_False in H by done]; by simplify_eq.
  - intros (Hne & Hw & Hf). cbv zeta.
    rewrite decide_False in H by (intros E; apply (Hw w_stdout); rewrite E; constructor).
    rewrite decide_False in H by (intros E; apply (Hw w_stderr); rewrite E; constructor).
    rewrite decide_False in H by (intros E; apply (Hw w_discard); rewrite E; constructor).
    rewrite decide_False in H by (intros E; apply (Hf Out fn_indent_out); rewrite E; constructor).
    rewrite decide_False in H by (intros E; apply (Hf Out fn_verbose_out); rewrite E; constructor).
    rewrite decide_False in H by done.
    destruct fa, (has_gtgt (JoinPath top [dir; s])); simpl in *; repeat first [rewrite decide_False in H by naive_solver|rewrite decide_True in H by naive_solver]; by simplify_eq.
Qed.

(** With an absolute top directory: a file name is a file to be overwritten, whatever it
    starts with, or appended to if forced. *)
Lemma name_lem top y shell dir args env fa st : IsAbs top = true -> yaml_name (yaml_out y st) ->
  names_file (field_file (toTarget top y shell dir args env fa) st) (JoinPath top [dir; yaml_out y st]) fa.
Proof.
  intros Ha Hn. destruct (field_lem top y shell dir args env fa st) as (_ & _ & _ & H). destruct (H Hn) as (_ & _ & ->). clear H.
  assert (Hj : IsAbs (JoinPath top [dir; yaml_out y st]) = true) by (apply joinpath_abs; by left).
  destruct (has_gtgt (JoinPath top [dir; yaml_out y st])) eqn:E; [by apply gtgt_spec, abs_no_gtgt in E|].
  destruct fa; simpl; [by apply abs_names_append|by apply abs_names].
Qed.

Lemma not_name_no_file top y shell dir args env fa st : ~ yaml_name (yaml_out y st) ->
  field_file (toTarget top y shell dir args env fa) st = "".
Proof.
  intros Hn. destruct (field_lem top y shell dir args env fa st) as (Hw & Hf & He & _).
  set (s := yaml_out y st) in *.
  destruct (decide (s = "")) as [E|E]; [by apply He|].
  destruct (decide (s = "$stdout")) as [E1|E1]; [by apply (Hw w_stdout); rewrite E1; constructor|].
  destruct (decide (s = "$stderr")) as [E2|E2]; [by apply (Hw w_stderr); rewrite E2; constructor|].
  destruct (decide (s = "$discard")) as [E3|E3]; [by apply (Hw w_discard); rewrite E3; constructor|].
  destruct (decide (s = "$indent")) as [E4|E4]; [destruct st; [apply (Hf fn_indent_out)|apply (Hf fn_indent_err)]; rewrite E4; constructor|].
  destruct (decide (s = "$verbose")) as [E5|E5]; [destruct st; [apply (Hf fn_verbose_out)|apply (Hf fn_verbose_err)]; rewrite E5; constructor|].
  exfalso. apply Hn. split_and!; [done| |].
  - intros w Hx. by inversion Hx.
  - intros st' f Hx. by inversion Hx.
Qed.
Lemma empty_no_file : no_file "".
Proof. intros f a H. apply names_out_file in H as [H Hne]. injection H as <- _. done. Qed.
Lemma file_name_inv top y shell dir args env fa st f a : IsAbs top = true ->
  names_file (field_file (toTarget top y shell dir args env fa) st) f a ->
  yaml_name (yaml_out y st) /\ f = JoinPath top [dir; yaml_out y st] /\ a = fa.
Proof.
  intros Ha Hf. assert (Hd : yaml_name (yaml_out y st) \/ ~ yaml_name (yaml_out y st)).
  { destruct (decide (field_file (toTarget top y shell dir args env fa) st = "")) as [E|E].
    - rewrite E in Hf. by apply empty_no_file in Hf.
    - assert (Hdd : forall s, yaml_name s \/ ~ yaml_name s).
      { intros s. destruct (decide (s = "")) as [->|]; [right; intros [? _]; done|].
        destruct (decide (s = "$stdout")) as [->|]; [right; intros (_ & H & _); by eapply H; constructor|].
        destruct (decide (s = "$stderr")) as [->|]; [right; intros (_ & H & _); by eapply H; constructor|].
        destruct (decide (s = "$discard")) as [->|]; [right; intros (_ & H & _); by eapply H; constructor|].
        destruct (decide (s = "$indent")) as [->|]; [right; intros (_ & _ & H); by apply (H Out fn_indent_out); constructor|].
        destruct (decide (s = "$verbose")) as [->|]; [right; intros (_ & _ & H); by apply (H Out fn_verbose_out); constructor|].
        left. split_and!; [done| |]; [intros w Hx|intros st' g Hx]; by inversion Hx. }
      apply Hdd. }
  destruct Hd as [Hn|Hn]; [|rewrite not_name_no_file in Hf by done; by apply empty_no_file in Hf].
  split; [done|]. eapply names_fun; [done|]. by apply name_lem.
Qed.

(** ** Shell lists *)
Lemma shell_list_lookup top y dir args env strs k :
  shell_list top y dir args env strs !! k = (fun s => toTarget top y s dir args env (bool_decide (0 < k))) <$> strs !! k.
Proof. unfold shell_list. by rewrite list_lookup_imap. Qed.
Lemma decoder_list fns top y dir args env strs : y_cmd y = "" -> YAMLStringList fns (y_args y) dir = LOk args -> YAMLStringList fns (y_env y) dir = LOk env ->
  YAMLStringList fns (y_shell y) dir = LOk strs -> commandDecoder fns top y dir = TSeq (shell_list top y dir args env strs).
Proof. intros H H1 H2 H3. unfold commandDecoder. rewrite H1, H2, H3. by rewrite decide_True. Qed.

(** ** Accumulation: running commands that append to [f]. *)
Definition appends_to (loc : string -> string) (f : string) (p : command * env) : Prop :=
  e_dryrun p.2 = false /\ e_file p.2 = loc /\ one_spelling p.1 p.2 /\ exists st, names_file (field_file p.1 st) f true.
Lemma accumulate loc f l : forall w is w', Forall (appends_to loc f) l -> run_all l w is w' ->
  exists ls, Forall2 (fun '(p, i) b => written_to (fun st => goes_to p.1 p.2 st (PFile (loc f))) (e_run p.2 i).1 b) (zip l is) ls /\
    (l <> [] -> w_files w' !! loc f = Some (default [] (w_files w !! loc f) ++ concat ls)).
Proof.
  induction l as [|[c e] l IH]; intros w is w' HF Hr; inversion Hr as [|? ? ? ? w1 evs i is1 ? Hrun Hev Hst Hrest]; subst.
  - exists []. split; [constructor|done].
  - apply Forall_cons in HF as [(Hd & Hloc & Hsp & st & Hf) HF]. simpl in *.
    destruct (output_lem _ _ _ _ _ _ _ Hd Hrun Hev Hst Hsp) as (Hfile & _ & _).
    destruct (Hfile st f true Hf) as (b & Hb & Hw). rewrite Hloc in Hb, Hw.
    destruct (IH _ _ _ HF Hrest) as (ls & Hls & Hw'). exists (b :: ls). split; [by constructor|].
    intros _. destruct l as [|p l].
    + inversion Hrest; subst. simpl in Hls. inversion Hls; subst. rewrite Hw. simpl. by rewrite app_nil_r.
    + rewrite (Hw' ltac:(done)), Hw. simpl. by rewrite (assoc_L (++)).
Qed.
Lemma yaml_accumulate loc top y dir args env strs es f st w is w' :
  IsAbs top = true -> yaml_name (yaml_out y st) -> f = JoinPath top [dir; yaml_out y st] -> strs <> [] ->
  length es = length strs -> Forall (fun e => e_dryrun e = false /\ e_file e = loc) es ->
  (forall st1 st2, yaml_name (yaml_out y st1) -> yaml_name (yaml_out y st2) ->
     JoinPath top [dir; yaml_out y st1] <> JoinPath top [dir; yaml_out y st2] -> loc (JoinPath top [dir; yaml_out y st1]) <> loc (JoinPath top [dir; yaml_out y st2])) ->
  let l := zip (shell_list top y dir args env strs) es in
  run_all l w is w' ->
  exists ls, Forall2 (fun '(p, i) b => written_to (fun st => goes_to p.1 p.2 st (PFile (loc f))) (e_run p.2 i).1 b) (zip l is) ls /\
    w_files w' !! loc f = Some (concat ls).
Proof.
  intros Ha Hn Hf Hne Hlen Hes Hloc l Hr. unfold l in *.
  assert (Hall : forall k c e, zip (shell_list top y dir args env strs) es !! k = Some (c, e) ->
    (exists s, c = toTarget top y s dir args env (bool_decide (0 < k))) /\ e_dryrun e = false /\ e_file e = loc /\ one_spelling c e).
  { intros k c e Hk. apply lookup_zip_with_Some in Hk as (c' & e' & [= <- <-] & Hc & He).
    rewrite shell_list_lookup in Hc. destruct (strs !! k) as [s|] eqn:Es; [|done]. simpl in Hc.
    injection Hc as Hc. rewrite Forall_lookup in Hes. destruct (Hes _ _ He) as [Hd Hl]. split_and!; [by eauto|done|done|].
    intros f1 a1 f2 a2 H1 H2 Hne'. subst c.
    destruct (file_name_inv _ _ _ _ _ _ _ Out _ _ Ha H1) as (N1 & -> & _). destruct (file_name_inv _ _ _ _ _ _ _ Err _ _ Ha H2) as (N2 & -> & _).
    rewrite Hl. by apply (Hloc Out Err). }
  destruct strs as [|s0 strs]; [done|]. destruct es as [|e0 es]; [done|].
  assert (Hz : shell_list top y dir args env (s0 :: strs) = toTarget top y s0 dir args env false :: imap (fun i s => toTarget top y s dir args env (bool_decide (0 < S i))) strs) by done.
  rewrite Hz in *. clear Hz. cbn [zip zip_with] in *.
  set (c0 := toTarget top y s0 dir args env false) in *. set (rest := zip _ es) in *.
  inversion Hr as [|? ? ? ? w1 evs i is1 ? Hrun Hev Hst Hrest]; subst.
  destruct (Hall 0 c0 e0 eq_refl) as (_ & Hd & Hl & Hsp).
  destruct (output_lem _ _ _ _ _ _ _ Hd Hrun Hev Hst Hsp) as (Hfile & _ & _).
  destruct (Hfile st _ false (name_lem _ _ _ _ _ _ _ _ Ha Hn)) as (b & Hb & Hw). rewrite Hl in Hb, Hw.
  destruct (accumulate loc (JoinPath top [dir; yaml_out y st]) rest w1 is1 w') as (ls & Hls & Hw'); [|done|].
  { apply Forall_lookup. intros k [c e] Hk. destruct (Hall (S k) c e Hk) as ((s & Hc) & ? & ? & ?). split_and!; [done|done|done|].
    exists st. simpl. rewrite Hc. by apply name_lem. }
  exists (b :: ls). split; [by constructor|]. destruct rest as [|p rest'].
  - inversion Hrest; subst. simpl in Hls. inversion Hls; subst. rewrite Hw. simpl. by rewrite app_nil_r.
  - rewrite Hw', Hw by done. done.
Qed.

(** ** Stdin *)
Lemma stdin_lem top y shell dir args env fa e w w' r evs i : let c := toTarget top y shell dir args env fa in
  Run c e w = (w', r) -> events w w' evs -> started evs i -> y_stdin y <> "$stdin" -> i_stdin i = SNone.
Proof.
  intros c Hr Hev Hi Hs. destruct (e_dryrun e) eqn:Hd.
  - exfalso. unfold Run in Hr. rewrite Hd in Hr. unfold events, started in *. destruct (e_verbose e); simplify_eq; simpl in Hev.
    + apply (inj (app (w_trace w))) in Hev. subst. by apply elem_of_list_singleton in Hi.
    + rewrite <- (app_nil_r (w_trace w')) in Hev at 1. apply (inj (app (w_trace w'))) in Hev. subst. by apply elem_of_nil in Hi.
  - destruct (run_started _ _ _ _ _ _ _ Hd Hr Hev Hi) as (so & se & ds & evs1 & w1 & Hp & -> & _).
    unfold the_inv. simpl. unfold c, toTarget.
    destruct (out_field top dir (y_stdout y) fn_indent_out fn_verbose_out fa) as [[? ?] ?].
    destruct (out_field top dir (y_stderr y) fn_indent_err fn_verbose_err fa) as [[? ?] ?]. simpl. by rewrite decide_False.
Qed.
Lemma stdin_std0_lem top y shell dir args env fa e w w' r evs i : let c := toTarget top y shell dir args env fa in
  Run c e w = (w', r) -> events w w' evs -> started evs i -> y_stdin y = "$stdin" -> i_stdin i = SReader 0.
Proof.
  intros c Hr Hev Hi Hs. destruct (e_dryrun e) eqn:Hd.
  - exfalso. unfold Run in Hr. rewrite Hd in Hr. unfold events, started in *. destruct (e_verbose e); simplify_eq; simpl in Hev.
    + apply (inj (app (w_trace w))) in Hev. subst. by apply elem_of_list_singleton in Hi.
    + rewrite <- (app_nil_r (w_trace w')) in Hev at 1. apply (inj (app (w_trace w'))) in Hev. subst. by apply elem_of_nil in Hi.
  - destruct (run_started _ _ _ _ _ _ _ Hd Hr Hev Hi) as (so & se & ds & evs1 & w1 & Hp & -> & _).
    unfold the_inv. simpl. unfold c, toTarget.
    destruct (out_field top dir (y_stdout y) fn_indent_out fn_verbose_out fa) as [[? ?] ?].
    destruct (out_field top dir (y_stderr y) fn_indent_err fn_verbose_err fa) as [[? ?] ?]. simpl. by rewrite decide_True.
Qed.
Lemma stdin_std_lem top y shell dir args env fa e w w' r evs i : let c := toTarget top y shell dir args env fa in
  Run c e w = (w', r) -> events w w' evs -> started evs i -> i_stdin i = SReader 0 <-> y_stdin y = "$stdin".
Proof.
  intros c Hr He Hs. split; [|by eapply stdin_std0_lem].
  intros Hi. destruct (decide (y_stdin y = "$stdin")) as [|Hn]; [done|].
  pose proof (stdin_lem top y shell dir args env fa e w w' r evs i Hr He Hs Hn) as Hx. congruence.
Qed.
