From stdpp Require Import base gmap list strings.
From Coq Require Import Ascii.
From Verif Require Import PathModel YamlModel CommandModel CommandSpec.
Local Open Scope list_scope.

(** ** File names *)
Lemma gtgt_spec s : has_gtgt s = true <-> starts_gtgt s.
Proof.
  unfold has_gtgt, starts_gtgt. split.
  - destruct s as [|a s]; [discriminate|]. cbn [String.prefix]. destruct (ascii_dec ">" a) as [<-|]; [|discriminate].
    destruct s as [|b s]; [discriminate|]. cbn [String.prefix]. destruct (ascii_dec ">" b) as [<-|]; [|discriminate]. eauto.
  - intros [s' ->]. cbn [String.prefix]. destruct (ascii_dec ">" ">"); [|congruence]. by destruct s'.
Qed.
Lemma skips_trim s : skips s (trim_gt s).
Proof.
  induction s as [|c s IH]; cbn [trim_gt]; [constructor; by intros [? ?]|].
  destruct (decide _) as [[->| ->]|Hc]; [by constructor|by constructor|].
  constructor; intros [s' [= -> _]]; tauto.
Qed.
Lemma skips_fun s f : skips s f -> f = trim_gt s.
Proof.
  induction 1 as [f H1 H2|s f _ IH|s f _ IH]; cbn [trim_gt].
  - destruct f as [|c f]; [done|]. cbn [trim_gt]. destruct (decide _) as [[->| ->]|]; [destruct H1; eauto|destruct H2; eauto|done].
  - by destruct (decide _) as [|Hn]; [|destruct Hn; left].
  - by destruct (decide _) as [|Hn]; [|destruct Hn; right].
Qed.
Lemma names_out_file s f a : names_file s f a <-> out_file s = (f, a) /\ f <> "".
Proof.
  unfold out_file. destruct (has_gtgt s) eqn:E.
  - apply gtgt_spec in E as E'. split.
    + destruct 1 as [?|f ? Hs%skips_fun ?]; [done|]. by subst.
    + intros [[= <- <-] Hne]. constructor; [done|apply skips_trim|done].
  - assert (E' : ~ starts_gtgt s) by (intros H%gtgt_spec; congruence). split.
    + destruct 1 as [? ?|f ? ? ?]; done.
    + intros [[= <- <-] Hne]. by constructor.
Qed.
Lemma no_file_out s : no_file s <-> (out_file s).1 = "".
Proof.
  destruct (out_file s) as [f a] eqn:E. simpl. split.
  - intros H. destruct (decide (f = "")) as [|Hne]; [done|]. destruct (H f a). by apply names_out_file.
  - intros -> f' a' [E' Hne]%names_out_file. congruence.
Qed.

(** ** Events *)
Definition emits (evs : list event) (w : world) : world :=
  {| w_files := w_files w; w_handles := w_handles w; w_sent := w_sent w; w_trace := w_trace w ++ evs |}.
Lemma emit_emits ev w : emit ev w = emits [ev] w.
Proof. done. Qed.
Lemma emits_app a b w : emits b (emits a w) = emits (a ++ b) w.
Proof. unfold emits. simpl. by rewrite (assoc_L (++)). Qed.
Lemma emits_nil w : emits [] w = w.
Proof. unfold emits. destruct w; simpl. by rewrite app_nil_r. Qed.

Fixpoint defers_err (e : env) (ds : list closable) (err : option error) : option error :=
  match ds with
  | [] => err
  | x :: ds => defers_err e ds (match err, reports x with
                  | None, Some st => if e_close e x then None else Some (EClosing st)
                  | _, _ => err
                  end)
  end.
Lemma run_defers_eq e ds : forall err w, run_defers e ds err w = (emits (EvClose <$> ds) w, defers_err e ds err).
Proof.
  induction ds as [|x ds IH]; intros err w; simpl; [by rewrite emits_nil|]. rewrite IH, emit_emits, emits_app. done.
Qed.
Lemma defers_err_some e ds x : defers_err e ds (Some x) = Some x.
Proof. induction ds; [done|]. simpl. done. Qed.

Definition fn_events (st : stream) (cur : option dest) (fn : option nat) : list event :=
  match cur, fn with None, Some f => [EvCallFn st f] | _, _ => [] end.
Definition fn_dest (e : env) (cur : option dest) (fn : option nat) : option dest :=
  match cur, fn with None, Some f => (fun p => DWriter p.1) <$> e_fn e f | _, _ => cur end.
Definition fn_closers (e : env) (st : stream) (cur : option dest) (fn : option nat) : list closable :=
  match cur, fn with None, Some f => match e_fn e f with Some (x, true) => [CWriter x st] | _ => [] end | _, _ => [] end.
Lemma call_fn_eq e st cur fn ds w :
  call_fn e st cur fn ds w = (emits (fn_events st cur fn) w, fn_dest e cur fn, fn_closers e st cur fn ++ ds).
Proof.
  unfold call_fn, fn_events, fn_dest, fn_closers. destruct cur as [d|]; [by rewrite emits_nil|].
  destruct fn as [f|]; [|by rewrite emits_nil]. by destruct (e_fn e f) as [[x []]|].
Qed.

(** The destinations of the two streams *)
Definition the_dest (e : env) (st : stream) (cur : option dest) (fn : option nat) : dest :=
  default (if e_verbose e then DIndent (match st with Out => false | Err => true end) else DBuf) (fn_dest e cur fn).
Definition the_inv (c : command) (e : env) (so se : option dest) : invocation :=
  {| i_name := cmd_name c e; i_args := cmd_args c; i_dir := c_dir c; i_env := e_environ e ++ c_env c;
     i_stdin := if decide (c_stdinFile c <> "") then SFile (c_stdinFile c) else match c_stdin c with Some r => SReader r | None => SNone end;
     i_stdout := the_dest e Out so (c_stdoutFn c); i_stderr := the_dest e Err se (c_stderrFn c) |}.
Definition rest_before (c : command) (e : env) (so se : option dest) : list event :=
  fn_events Out so (c_stdoutFn c) ++ fn_events Err se (c_stderrFn c) ++ (if e_verbose e then [EvPrint] else []).
Definition rest_closers (c : command) (e : env) (so se : option dest) (ds : list closable) : list closable :=
  fn_closers e Err se (c_stderrFn c) ++ fn_closers e Out so (c_stdoutFn c) ++ ds.
Definition stdin_events (c : command) : list event := if decide (c_stdinFile c <> "") then [EvOpenRead (c_stdinFile c)] else [].
Definition stdin_closers (c : command) : list closable := if decide (c_stdinFile c <> "") then [CStdin (c_stdinFile c)] else [].
Definition proc_err (r : option nat) (out : bytes) : option error :=
  match r with None => None | Some x => Some (if decide (out <> []) then ECommandErr x out else EProc x) end.

Lemma run_rest_eq c e so se ds w : run_rest c e so se ds w =
  let w1 := emits (rest_before c e so se) w in
  let ds1 := rest_closers c e so se ds in
  if decide (c_stdinFile c <> "" /\ e_open_in e (c_stdinFile c) = false) then
    (emits (EvOpenFailed (c_stdinFile c) :: (EvClose <$> ds1)) w1, Some (EOpenIn (c_stdinFile c)))
  else
    let i := the_inv c e so se in
    let w2 := emits (stdin_events c) w1 in
    let w3 := deliver i (e_run e i).1 (emit (EvStart i) w2) in
    let ds2 := stdin_closers c ++ ds1 in
    (emits (EvClose <$> ds2) w3, defers_err e ds2 (proc_err (e_run e i).2 (buffered w2 w3))).
Proof.
  unfold run_rest. rewrite !call_fn_eq. rewrite (emits_app (fn_events Out so (c_stdoutFn c)) (fn_events Err se (c_stderrFn c))).
  assert (Hw : (if e_verbose e then emit EvPrint (emits (fn_events Out so (c_stdoutFn c) ++ fn_events Err se (c_stderrFn c)) w)
    else emits (fn_events Out so (c_stdoutFn c) ++ fn_events Err se (c_stderrFn c)) w) = emits (rest_before c e so se) w).
  { unfold rest_before. destruct (e_verbose e); [rewrite emit_emits, emits_app; by rewrite <- (assoc_L (++))|by rewrite app_nil_r]. }
  rewrite Hw. clear Hw. cbv zeta. fold (the_dest e Out so (c_stdoutFn c)) (the_dest e Err se (c_stderrFn c)) (rest_closers c e so se ds).
  unfold the_inv, stdin_events, stdin_closers.
  destruct (decide (c_stdinFile c <> "")) as [Hs|Hs].
  - destruct (e_open_in e (c_stdinFile c)) eqn:Ho.
    + rewrite decide_False by (intros [_ ?]; done). destruct (e_run e _) as [cs r] eqn:E. rewrite run_defers_eq. done.
    + rewrite decide_True by done. rewrite run_defers_eq, defers_err_some, emit_emits, (emits_app [_]). done.
  - rewrite decide_False by tauto. destruct (e_run e _) as [cs r] eqn:E. rewrite run_defers_eq, emits_nil. done.
Qed.

(** ** Deliveries *)
Definition i_dest (i : invocation) (st : stream) : dest := match st with Out => i_stdout i | Err => i_stderr i end.
Definition collect (i : invocation) (d : dest) (cs : list (stream * bytes)) : bytes := concat (snd <$> filter (fun p => i_dest i p.1 = d) cs).
Lemma collect_cons i d st b cs : collect i d ((st, b) :: cs) = (if decide (i_dest i st = d) then b else []) ++ collect i d cs.
Proof. unfold collect. rewrite filter_cons. simpl. by destruct (decide _). Qed.
Lemma collect_written i d (P : stream -> Prop) cs : (forall st, i_dest i st = d <-> P st) -> written_to P cs (collect i d cs).
Proof.
  intros H. induction cs as [|[st b] cs IH]; [constructor|]. rewrite collect_cons. destruct (decide _) as [Hd|Hd].
  - constructor; [by apply H|done].
  - simpl. constructor; [by rewrite <- H|done].
Qed.
Lemma written_fun P cs l l' : written_to P cs l -> written_to P cs l' -> l = l'.
Proof.
  intros H. revert l'. induction H; intros l' H'; inversion H'; subst; try done.
  - f_equal. auto.
  - auto.
Qed.
Lemma sent_to_app d l l' : sent_to d (l ++ l') = sent_to d l ++ sent_to d l'.
Proof. unfold sent_to. by rewrite filter_app, fmap_app, concat_app. Qed.
Lemma write_handle_sent h b w : w_sent (write_handle h b w) = w_sent w /\ w_trace (write_handle h b w) = w_trace w.
Proof. unfold write_handle. by destruct (w_handles w !! h). Qed.
Lemma send_sent d b w : w_sent (send d b w) = w_sent w ++ [(d, b)] /\ w_trace (send d b w) = w_trace w.
Proof.
  unfold send. destruct d; try done. match goal with |- context [write_handle ?h ?b ?w] => destruct (write_handle_sent h b w) as [-> ->] end. done.
Qed.
Lemma deliver_cons i st b cs w : deliver i ((st, b) :: cs) w = deliver i cs (send (i_dest i st) b w).
Proof. by destruct st. Qed.
Lemma deliver_sent i cs : forall w, w_sent (deliver i cs w) = w_sent w ++ ((fun p => (i_dest i p.1, p.2)) <$> cs) /\ w_trace (deliver i cs w) = w_trace w.
Proof.
  induction cs as [|[st b] cs IH]; intros w; [simpl; by rewrite app_nil_r|]. rewrite deliver_cons.
  destruct (IH (send (i_dest i st) b w)) as [-> ->]. destruct (send_sent (i_dest i st) b w) as [-> ->].
  split; [|done]. rewrite <- (assoc_L (++)). done.
Qed.
Lemma collect_sent i d cs : sent_to d ((fun p => (i_dest i p.1, p.2)) <$> cs) = collect i d cs.
Proof.
  induction cs as [|[st b] cs IH]; [done|]. rewrite collect_cons, <- IH. unfold sent_to. csimpl. rewrite filter_cons. simpl.
  by destruct (decide _).
Qed.
Lemma deliver_received i d cs w : sent_to d (w_sent (deliver i cs w)) = sent_to d (w_sent w) ++ collect i d cs.
Proof. rewrite (proj1 (deliver_sent i cs w)), sent_to_app, collect_sent. done. Qed.
Lemma deliver_buffered i cs w ev : buffered w (deliver i cs (emit ev w)) = collect i DBuf cs.
Proof. unfold buffered. rewrite (proj1 (deliver_sent i cs _)). simpl. by rewrite drop_app, collect_sent. Qed.

(** Files *)
Lemma handle_send d b w h hd : w_handles w !! h = Some hd ->
  exists p, w_handles (send d b w) !! h = Some {| h_file := h_file hd; h_append := h_append hd; h_pos := p |} /\
    (d <> DHandle h -> p = h_pos hd) /\ (d = DHandle h -> p = h_pos hd + length b).
Proof.
  intros Hh. unfold send. destruct d as [h'|x|x|]; try (exists (h_pos hd); by destruct hd).
  unfold write_handle. simpl. destruct (w_handles w !! h') as [hd'|] eqn:E.
  - simpl. destruct (decide (h' = h)) as [->|Hne].
    + rewrite list_lookup_insert by (by eapply lookup_lt_Some). simplify_eq. eexists. split; [done|]. split; [done|done].
    + rewrite list_lookup_insert_ne by done. exists (h_pos hd). split_and!; [by destruct hd|done|congruence].
  - simpl. exists (h_pos hd). split_and!; [by destruct hd|done|congruence].
Qed.
Lemma send_len d b w : length (w_handles (send d b w)) = length (w_handles w).
Proof.
  unfold send. destruct d as [h|x|x|]; try done. unfold write_handle. simpl. destruct (w_handles w !! h); simpl; [|done].
  apply insert_length.
Qed.
Lemma deliver_file_frame i g cs : forall w,
  (forall h hd, DHandle h = i_stdout i \/ DHandle h = i_stderr i -> w_handles w !! h = Some hd -> h_file hd <> g) ->
  w_files (deliver i cs w) !! g = w_files w !! g.
Proof.
  induction cs as [|[st b] cs IH]; intros w Hh; [done|]. rewrite deliver_cons. rewrite IH.
  - unfold send. destruct (i_dest i st) as [h|x|x|] eqn:Hd; try done. unfold write_handle. simpl.
    destruct (w_handles w !! h) as [hd|] eqn:E; [|done]. simpl. rewrite lookup_insert_ne; [done|].
    apply (Hh h); [|done]. destruct st; simpl in Hd; auto.
  - intros h hd Hor Hl. destruct (w_handles w !! h) as [hd0|] eqn:E.
    + destruct (handle_send (i_dest i st) b w h hd0 E) as (p & Hp & _). rewrite Hp in Hl. injection Hl as <-. simpl. by eapply Hh.
    + exfalso. pose proof (send_len (i_dest i st) b w) as Hlen.
      apply lookup_lt_Some in Hl. apply lookup_ge_None in E. lia.
Qed.
Lemma deliver_file i h g a cs : forall w l p,
  w_handles w !! h = Some {| h_file := g; h_append := a; h_pos := p |} -> (a = true \/ p = length l) ->
  w_files w !! g = Some l ->
  (forall h' hd, h' <> h -> DHandle h' = i_stdout i \/ DHandle h' = i_stderr i -> w_handles w !! h' = Some hd -> h_file hd <> g) ->
  w_files (deliver i cs w) !! g = Some (l ++ collect i (DHandle h) cs).
Proof.
  induction cs as [|[st b] cs IH]; intros w l p Hh Hp Hl Hother; [simpl; by rewrite app_nil_r|].
  rewrite deliver_cons, collect_cons.
  destruct (handle_send (i_dest i st) b w h _ Hh) as (p' & Hh' & Hp1 & Hp2). simpl in *.
  rewrite (assoc_L (++)). eapply IH; [exact Hh'| | |].
  - destruct Hp as [->|Hp]; [by left|right]. destruct (decide _) as [Hd|Hd].
    + rewrite (Hp2 Hd), app_length. lia.
    + rewrite (Hp1 Hd), app_nil_r. done.
  - unfold send. destruct (decide (i_dest i st = DHandle h)) as [->|Hd].
    + unfold write_handle. simpl. rewrite Hh. simpl. rewrite Hl. simpl. rewrite lookup_insert. destruct Hp as [->|Hp]; [done|].
      destruct a; [done|]. unfold write_at. rewrite Hp, take_ge, Nat.sub_diag, drop_ge, app_nil_r by lia. done.
    + rewrite app_nil_r. destruct (i_dest i st) as [h'|x|x|] eqn:Hd'; try done. unfold write_handle. simpl.
      destruct (w_handles w !! h') as [hd|] eqn:E; [|done]. simpl. rewrite lookup_insert_ne; [done|].
      eapply (Hother h'); [congruence| |done]. destruct st; simpl in Hd'; auto.
  - intros h' hd Hne Hor Hlk. destruct (w_handles w !! h') as [hd0|] eqn:E.
    + destruct (handle_send (i_dest i st) b w h' hd0 E) as (p2 & Hp2' & _). rewrite Hp2' in Hlk. injection Hlk as <-. simpl. by eapply Hother.
    + exfalso. pose proof (send_len (i_dest i st) b w) as Hlen.
      apply lookup_lt_Some in Hlk. apply lookup_ge_None in E. lia.
Qed.
