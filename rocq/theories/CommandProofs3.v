From stdpp Require Import base gmap list strings.
From Coq Require Import Ascii.
From Verif Require Import PathModel PathProofs YamlModel YamlProofs CommandModel CommandSpec CommandProofs CommandProofs2.
Local Open Scope list_scope.

(** ** Disagreement *)
Lemma disagree_iff c e w w' r : e_dryrun e = false -> Run c e w = (w', r) ->
  (r = Some EDisagree <->
    (exists f a a', names_file (c_stdoutFile c) f a /\ names_file (c_stderrFile c) f a' /\ a <> a') \/
    (no_file (c_stdoutFile c) /\ no_file (c_stderrFile c) /\ ~ (starts_gtgt (c_stdoutFile c) <-> starts_gtgt (c_stderrFile c)))) /\
  (r = Some EDisagree -> w' = w).
Proof.
  intros Hd Hr.
  assert (Hiff : (out_file (c_stdoutFile c)).1 = (out_file (c_stderrFile c)).1 /\ (out_file (c_stdoutFile c)).2 <> (out_file (c_stderrFile c)).2 <->
    (exists f a a', names_file (c_stdoutFile c) f a /\ names_file (c_stderrFile c) f a' /\ a <> a') \/
    (no_file (c_stdoutFile c) /\ no_file (c_stderrFile c) /\ ~ (starts_gtgt (c_stdoutFile c) <-> starts_gtgt (c_stderrFile c)))).
  { rewrite !no_file_out. setoid_rewrite names_out_file. rewrite <- !gtgt_spec. unfold out_file. simpl.
    set (f1 := if has_gtgt (c_stdoutFile c) then _ else _). set (f2 := if has_gtgt (c_stderrFile c) then _ else _).
    split.
    - intros [Hf Ha]. destruct (decide (f1 = "")) as [He|He].
      + right. split_and!; [done|congruence|]. intros Hb. apply Ha. destruct (has_gtgt (c_stdoutFile c)), (has_gtgt (c_stderrFile c)); naive_solver.
      + left. exists f1, (has_gtgt (c_stdoutFile c)), (has_gtgt (c_stderrFile c)). rewrite <- Hf. done.
    - intros [(f & a & a' & [H1 _] & [H2 _] & Hne)|(H1 & H2 & Hne)]; [by simplify_eq|].
      split; [congruence|]. intros Hb. apply Hne. by rewrite Hb. }
  rewrite <- Hiff. destruct (run_cases c e w Hd) as [(H1 & H2 & H)|[Hne H]].
  { rewrite H in Hr. simplify_eq. done. }
  assert (Hr' : r <> Some EDisagree).
  { destruct H as [(f & a & _ & _ & H)|[(f & a & _ & _ & _ & H)|[(f1 & a1 & f & a & _ & _ & _ & _ & H)|(so & se & ds & evs1 & w1 & Hp & H)]]].
    1-3: rewrite H in Hr; by simplify_eq.
    rewrite H, run_rest_eq in Hr. cbv zeta in Hr. destruct (decide _); [by simplify_eq|]. injection Hr as _ <-.
    assert (Hdf : forall ds err, err <> Some EDisagree -> defers_err e ds err <> Some EDisagree).
    { induction ds0 as [|x ds0 IH]; intros err He; [done|]. simpl. apply IH. destruct err; [done|]. destruct (reports x); [|done]. by destruct (e_close e x). }
    apply Hdf. unfold proc_err. destruct (e_run e _).2; [|done]. by destruct (decide _). }
  split; [|done]. split; [done|]. intros ?. by destruct Hne.
Qed.

(** ** Starting *)
Lemma runs_lem c e w : e_dryrun e = false ->
  ~ (exists f a a', names_file (c_stdoutFile c) f a /\ names_file (c_stderrFile c) f a' /\ a <> a') ->
  ~ (no_file (c_stdoutFile c) /\ no_file (c_stderrFile c) /\ ~ (starts_gtgt (c_stdoutFile c) <-> starts_gtgt (c_stderrFile c))) ->
  (forall st f a, names_file (field_file c st) f a -> e_open_out e f a = true) ->
  (c_stdinFile c <> "" -> e_open_in e (c_stdinFile c) = true) ->
  exists w' r before i after, Run c e w = (w', r) /\ events w w' (before ++ EvStart i :: after) /\
    (forall i', EvStart i' ∉ before) /\ (forall i', EvStart i' ∉ after) /\
    (c_cmd c <> "" -> i_name i = c_cmd c /\ i_args i = c_args c) /\
    (c_cmd c = "" -> i_args i = ["-c"; c_shell c] /\ (e_shell e <> "" -> i_name i = e_shell e) /\ (e_shell e = "" -> i_name i = "/bin/sh")) /\
    i_dir i = c_dir c /\ i_env i = e_environ e ++ c_env c /\
    (c_stdinFile c <> "" -> i_stdin i = SFile (c_stdinFile c)) /\
    (c_stdinFile c = "" -> i_stdin i = match c_stdin c with Some x => SReader x | None => SNone end).
Proof.
  intros Hd H1 H2 Hopen Hin. destruct (Run c e w) as [w' r] eqn:Hr.
  destruct (disagree_iff c e w w' r Hd Hr) as [Hdis _].
  destruct (run_cases c e w Hd) as [(_ & _ & H)|[Hne H]].
  { exfalso. rewrite H in Hr. simplify_eq. destruct (proj1 Hdis eq_refl); tauto. }
  destruct H as [(f & a & Hn & Ho & H)|[(f & a & _ & Hn & Ho & H)|[(f1 & a1 & f & a & _ & _ & Hn & Ho & H)|(so & se & ds & evs1 & w1 & Hp & H)]]].
  - rewrite (Hopen Out f a Hn) in Ho. done.
  - rewrite (Hopen Err f a Hn) in Ho. done.
  - rewrite (Hopen Err f a Hn) in Ho. done.
  - rewrite H, run_rest_eq in Hr. cbv zeta in Hr. rewrite decide_False in Hr by (intros [? ?]; rewrite Hin in *; done).
    pose proof (prep_facts _ _ _ _ _ _ _ _ Hp) as (Ht & _).
    set (i := the_inv c e so se) in *.
    exists w', r, (evs1 ++ rest_before c e so se ++ stdin_events c), i, (EvClose <$> stdin_closers c ++ rest_closers c e so se ds).
    split; [done|]. injection Hr as <- _. split.
    { unfold events. simpl. rewrite (proj2 (deliver_sent _ _ _)). simpl. rewrite Ht. by rewrite <- !(assoc_L (++)). }
    split_and!.
    + intros i'. rewrite !elem_of_app. intros [Hi|[Hi|Hi]].
      * destruct Hp; repeat (apply elem_of_cons in Hi as [?|Hi]; [done|]); by apply elem_of_nil in Hi.
      * unfold rest_before, fn_events in Hi. rewrite !elem_of_app in Hi. destruct Hi as [Hi|[Hi|Hi]].
        -- destruct so, (c_stdoutFn c); try (by apply elem_of_nil in Hi). by apply elem_of_list_singleton in Hi.
        -- destruct se, (c_stderrFn c); try (by apply elem_of_nil in Hi). by apply elem_of_list_singleton in Hi.
        -- destruct (e_verbose e); [by apply elem_of_list_singleton in Hi|by apply elem_of_nil in Hi].
      * unfold stdin_events in Hi. destruct (decide _); [by apply elem_of_list_singleton in Hi|by apply elem_of_nil in Hi].
    + intros i' (? & ? & _)%elem_of_list_fmap. done.
    + intros Hc. simpl. unfold cmd_name, cmd_args. by rewrite !decide_False by done.
    + intros Hc. simpl. unfold cmd_name, cmd_args. rewrite !decide_True by done. split; [done|]. split; intros; [by rewrite decide_False|by rewrite decide_True].
    + done.
    + done.
    + intros Hc. simpl. by rewrite decide_True.
    + intros Hc. simpl. rewrite decide_False by naive_solver. done.
Qed.

(** ** Results *)
Lemma defers_none e ds : (forall x, x ∈ ds -> reports x <> None -> e_close e x = true) -> defers_err e ds None = None.
Proof.
  induction ds as [|x ds IH]; intros H; [done|]. simpl. destruct (reports x) eqn:E.
  - rewrite (H x) by (by rewrite ?E; (left || done)). apply IH. intros ? ?. apply H. by right.
  - apply IH. intros ? ?. apply H. by right.
Qed.
Lemma defers_some e ds x : x ∈ ds -> reports x <> None -> e_close e x = false -> exists st, defers_err e ds None = Some (EClosing st).
Proof.
  induction ds as [|y ds IH]; intros Hin Hr Hc; [by apply elem_of_nil in Hin|]. simpl.
  destruct (reports y) as [st|] eqn:E.
  - destruct (e_close e y) eqn:E'; [|rewrite defers_err_some; eauto].
    apply elem_of_cons in Hin as [->|Hin]; [congruence|by apply IH].
  - apply elem_of_cons in Hin as [->|Hin]; [congruence|by apply IH].
Qed.
Lemma fn_closers_in e st cur fn x : x ∈ fn_closers e st cur fn <-> cur = None /\ exists f w, fn = Some f /\ e_fn e f = Some (w, true) /\ x = CWriter w st.
Proof.
  unfold fn_closers. destruct cur as [d|]; [split; [by intros ?%elem_of_nil|by intros [? _]]|].
  destruct fn as [f|]; [|split; [by intros ?%elem_of_nil|by intros (_ & ? & ? & ? & _)]].
  destruct (e_fn e f) as [[w []]|] eqn:E.
  - rewrite elem_of_list_singleton. split; [intros ->; eauto 10|]. intros (_ & ? & ? & [= <-] & ? & ->). congruence.
  - split; [by intros ?%elem_of_nil|]. intros (_ & ? & ? & [= <-] & ? & _). congruence.
  - split; [by intros ?%elem_of_nil|]. intros (_ & ? & ? & [= <-] & ? & _). congruence.
Qed.
Lemma prep_handles c e w so se ds evs w1 : prepared c e w so se ds evs w1 -> forall x, x ∈ ds -> exists h, x = CHandle h.
Proof. destruct 1; intros x Hx; repeat (apply elem_of_cons in Hx as [->|Hx]; [by eexists|]); by apply elem_of_nil in Hx. Qed.
Lemma result_lem c e w w' r evs i : e_dryrun e = false -> Run c e w = (w', r) -> events w w' evs -> started evs i ->
  (forall x, (e_run e i).2 = Some x -> exists l, written_to (fun st => goes_to c e st PCaptured) (e_run e i).1 l /\
     r = Some (if decide (l = []) then EProc x else ECommandErr x l)) /\
  ((e_run e i).2 = None -> (forall x, e_close e x = true) -> r = None) /\
  ((e_run e i).2 = None -> forall st f wr, no_file (field_file c st) -> field_writer c st = None -> field_fn c st = Some f ->
     e_fn e f = Some (wr, true) -> e_close e (CWriter wr st) = false -> exists st', r = Some (EClosing st')).
Proof.
  intros Hd Hr Hev Hi. destruct (run_started _ _ _ _ _ _ _ Hd Hr Hev Hi) as (so & se & ds & evs1 & w1 & Hp & Hieq & _ & -> & ->).
  clear Hr Hev Hi. split_and!.
  - intros x Hx. exists (collect i DBuf (e_run e i).1). split.
    + apply collect_written. intros st. rewrite Hieq. by eapply dest_goes.
    + rewrite Hx. simpl. rewrite defers_err_some. f_equal. destruct (decide (collect i DBuf (e_run e i).1 = [])); [by rewrite decide_False by naive_solver|by rewrite decide_True].
  - intros -> Hc. simpl. apply defers_none. intros. apply Hc.
  - intros -> st f wr Hnf Hw Hfn Hf Hc. simpl. eapply (defers_some _ _ (CWriter wr st)); [|done|done].
    pose proof (prep_facts _ _ _ _ _ _ _ _ Hp) as (_ & _ & Hno & _). specialize (Hno st Hnf). rewrite Hw in Hno.
    unfold rest_closers. rewrite !elem_of_app, !fn_closers_in. destruct st; simpl in *; eauto 15.
Qed.
Lemma file_close_ignored c e w w' r evs i : e_dryrun e = false -> Run c e w = (w', r) -> events w w' evs -> started evs i ->
  (e_run e i).2 = None -> (exists f a, names_file (c_stdoutFile c) f a) -> (exists f a, names_file (c_stderrFile c) f a) -> r = None.
Proof.
  intros Hd Hr Hev Hi Hrun (f & a & Hf) (f' & a' & Hf'). destruct (run_started _ _ _ _ _ _ _ Hd Hr Hev Hi) as (so & se & ds & evs1 & w1 & Hp & Hieq & _ & -> & ->).
  rewrite Hrun. simpl. apply defers_none. intros x Hx Hrep.
  pose proof (prep_facts _ _ _ _ _ _ _ _ Hp) as (_ & _ & _ & Hnames & _).
  destruct (Hnames Out f a Hf) as (h & Hh & _). destruct (Hnames Err f' a' Hf') as (h' & Hh' & _). simpl in *. subst so se.
  unfold rest_closers in Hx. rewrite !elem_of_app, !fn_closers_in in Hx. destruct Hx as [Hx|[[? _]|[[? _]|Hx]]]; try done.
  - unfold stdin_closers in Hx. destruct (decide _); [apply elem_of_list_singleton in Hx; by subst|by apply elem_of_nil in Hx].
  - destruct (prep_handles _ _ _ _ _ _ _ _ Hp x Hx) as [? ->]. done.
Qed.

(** ** Dry run *)
Lemma dry_lem c e w : e_dryrun e = true -> exists evs, Run c e w = (emits evs w, None) /\ (forall ev, ev ∈ evs -> ev = EvPrint).
Proof.
  intros H. unfold Run. rewrite H. destruct (e_verbose e).
  - exists [EvPrint]. split; [done|]. by intros ev ->%elem_of_list_singleton.
  - exists []. rewrite emits_nil. split; [done|]. by intros ev ?%elem_of_nil.
Qed.

(** ** Closing *)
Definition closed_lem_stmt (e : env) (evs : list event) : Prop :=
  exists before ds, evs = before ++ (EvClose <$> ds) /\ (forall x, EvClose x ∉ before) /\ NoDup ds /\ (forall x, x ∈ ds <-> acquired e before x).
Lemma fn_events_in st cur fn ev : ev ∈ fn_events st cur fn <-> cur = None /\ exists f, fn = Some f /\ ev = EvCallFn st f.
Proof.
  unfold fn_events. destruct cur as [d|]; [split; [by intros ?%elem_of_nil|by intros [? _]]|].
  destruct fn as [f|]; [|split; [by intros ?%elem_of_nil|by intros (_ & ? & ? & _)]].
  rewrite elem_of_list_singleton. split; [intros ->; eauto|]. by intros (_ & ? & [= <-] & ->).
Qed.
Lemma prep_events c e w so se ds evs w1 : prepared c e w so se ds evs w1 ->
  (forall ev, ev ∈ evs -> exists f a h, ev = EvOpen f a h) /\ NoDup ds /\ forall h, CHandle h ∈ ds <-> exists f a, EvOpen f a h ∈ evs.
Proof.
  intros Hp. split_and!.
  - destruct Hp; intros ev Hx; repeat (apply elem_of_cons in Hx as [->|Hx]; [by do 3 eexists|]); by apply elem_of_nil in Hx.
  - destruct Hp; first [apply NoDup_nil_2|apply NoDup_singleton|apply NoDup_cons; split; [intros ?%elem_of_list_singleton; simplify_eq; lia|apply NoDup_singleton]].
  - intros h. split.
    + destruct Hp; intros Hx; repeat (apply elem_of_cons in Hx as [[= ->]|Hx]); try (by apply elem_of_nil in Hx).
      all: do 2 eexists; first [by left|by right; left].
    + intros (f & a & H). pose proof (prep_facts _ _ _ _ _ _ _ _ Hp) as (_ & _ & _ & _ & _ & _ & _ & Hop & _). by eapply Hop.
Qed.
Lemma closes_nodup c e so se ds : (forall x, x ∈ ds -> exists h, x = CHandle h) -> NoDup ds -> NoDup (stdin_closers c ++ rest_closers c e so se ds).
Proof.
  intros Hh Hnd. unfold rest_closers. 
  assert (Hone : forall st cur fn, NoDup (fn_closers e st cur fn)).
  { intros st cur fn. unfold fn_closers. destruct cur; [constructor|]. destruct fn; [|constructor]. destruct (e_fn e _) as [[? []]|]; try constructor; [by intros ?%elem_of_nil|constructor]. }
  apply NoDup_app. split_and!.
  - unfold stdin_closers. destruct (decide _); [apply NoDup_singleton|constructor].
  - intros x Hx. unfold stdin_closers in Hx. destruct (decide _); [apply elem_of_list_singleton in Hx as ->|by apply elem_of_nil in Hx].
    rewrite !elem_of_app, !fn_closers_in. intros [(_ & ? & ? & _ & _ & ?)|[(_ & ? & ? & _ & _ & ?)|Hx]]; try done. by destruct (Hh _ Hx).
  - apply NoDup_app. split_and!; [apply Hone| |].
    + intros x (_ & f & wr & _ & _ & ->)%fn_closers_in. rewrite elem_of_app, fn_closers_in. intros [(_ & ? & ? & _ & _ & ?)|Hx]; [done|]. by destruct (Hh _ Hx).
    + apply NoDup_app. split_and!; [apply Hone| |done].
      intros x (_ & f & wr & _ & _ & ->)%fn_closers_in Hx. by destruct (Hh _ Hx).
Qed.
Lemma closed_lem c e w w' r evs : Run c e w = (w', r) -> events w w' evs -> closed_lem_stmt e evs.
Proof.
  intros Hr Hev. unfold events in Hev.
  assert (Hsimple : forall evs0, w' = emits evs0 w -> (forall ev, ev ∈ evs0 -> ev = EvPrint \/ exists f, ev = EvOpenFailed f) -> closed_lem_stmt e evs).
  { intros evs0 -> H. simpl in Hev. apply (inj (app (w_trace w))) in Hev. subst evs. exists evs0, []. split_and!.
    - by rewrite app_nil_r.
    - intros x Hx. destruct (H _ Hx) as [?|[? ?]]; done.
    - constructor.
    - intros x. split; [by intros ?%elem_of_nil|]. intros Hx. exfalso. destruct x as [h|wr st|f]; simpl in Hx.
      + destruct Hx as (f & a & Hx). destruct (H _ Hx) as [?|[? ?]]; done.
      + destruct Hx as (f & Hx & _). destruct (H _ Hx) as [?|[? ?]]; done.
      + destruct (H _ Hx) as [?|[? ?]]; done. }
  destruct (e_dryrun e) eqn:Hd.
  { destruct (dry_lem c e w Hd) as (evs0 & H & Hp). rewrite H in Hr. simplify_eq. eapply Hsimple; [done|]. intros ev ?. left. by apply Hp. }
  destruct (run_cases c e w Hd) as [(_ & _ & H)|[_ H]].
  { rewrite H in Hr. simplify_eq. apply (Hsimple []); [by rewrite emits_nil|by intros ev ?%elem_of_nil]. }
  destruct H as [(f & a & _ & _ & H)|[(f & a & _ & _ & _ & H)|[(f1 & a1 & f & a & _ & _ & _ & _ & H)|(so & se & ds & evs1 & w1 & Hp & H)]]].
  - rewrite H in Hr. simplify_eq. eapply Hsimple; [done|]. intros ev ->%elem_of_list_singleton. eauto.
  - rewrite H in Hr. simplify_eq. eapply Hsimple; [done|]. intros ev ->%elem_of_list_singleton. eauto.
  - rewrite H in Hr. simplify_eq. simpl in Hev. rewrite <- (assoc_L (++)) in Hev. apply (inj (app (w_trace w))) in Hev. subst evs.
    exists [EvOpen f1 a1 (length (w_handles w)); EvOpenFailed f], [CHandle (length (w_handles w))]. split_and!.
    + done.
    + intros x Hx. repeat (apply elem_of_cons in Hx as [?|Hx]; [done|]). by apply elem_of_nil in Hx.
    + apply NoDup_singleton.
    + intros x. rewrite elem_of_list_singleton. split.
      * intros ->. simpl. do 2 eexists. by left.
      * intros Hx. destruct x as [h|wr st|g]; simpl in Hx.
        -- destruct Hx as (f' & a' & Hx). apply elem_of_cons in Hx as [?|Hx]; [by simplify_eq|]. apply elem_of_cons in Hx as [?|Hx]; [done|by apply elem_of_nil in Hx].
        -- destruct Hx as (f' & Hx & _). repeat (apply elem_of_cons in Hx as [?|Hx]; [done|]). by apply elem_of_nil in Hx.
        -- repeat (apply elem_of_cons in Hx as [?|Hx]; [done|]). by apply elem_of_nil in Hx.
  - rewrite H, run_rest_eq in Hr. cbv zeta in Hr.
    pose proof (prep_facts _ _ _ _ _ _ _ _ Hp) as (Ht & _). destruct (prep_events _ _ _ _ _ _ _ _ Hp) as (He1 & Hnd & Hhd).
    pose proof (prep_handles _ _ _ _ _ _ _ _ Hp) as Hh.
    assert (Hrb : forall ev, ev ∈ rest_before c e so se <-> (exists st f, cur_of so se st = None /\ field_fn c st = Some f /\ ev = EvCallFn st f) \/ (e_verbose e = true /\ ev = EvPrint)).
    { intros ev. unfold rest_before. rewrite !elem_of_app, !fn_events_in. split.
      - intros [(? & f & ? & ->)|[(? & f & ? & ->)|Hx]]; [left; by exists Out, f|left; by exists Err, f|right].
        destruct (e_verbose e); [by apply elem_of_list_singleton in Hx|by apply elem_of_nil in Hx].
      - intros [([] & f & ? & ? & ->)|[Hv ->]]; [left; split; [done|]; by exists f|right; left; split; [done|]; by exists f|]. right. right. rewrite Hv. by left. }
    assert (Hrc : forall x, x ∈ rest_closers c e so se ds <-> x ∈ ds \/ exists st f wr, cur_of so se st = None /\ field_fn c st = Some f /\ e_fn e f = Some (wr, true) /\ x = CWriter wr st).
    { intros x. unfold rest_closers. rewrite !elem_of_app, !fn_closers_in. split.
      - intros [(? & f & wr & ? & ? & ->)|[(? & f & wr & ? & ? & ->)|?]]; [right; by exists Err, f, wr|right; by exists Out, f, wr|by left].
      - intros [?|([] & f & wr & ? & ? & ? & ->)]; [by right; right|right; left|left]; (split; [done|]; by exists f, wr). }
    destruct (decide _) as [Hin|Hin]; injection Hr as <- _.
    + simpl in Hev. rewrite Ht in Hev. rewrite <- !(assoc_L (++)) in Hev. apply (inj (app (w_trace w))) in Hev. subst evs.
      exists (evs1 ++ rest_before c e so se ++ [EvOpenFailed (c_stdinFile c)]), (rest_closers c e so se ds). split_and!.
      * by rewrite <- !(assoc_L (++)).
      * intros x. rewrite !elem_of_app, Hrb, elem_of_list_singleton. intros [Hx|[[(? & ? & _ & _ & ?)|[_ ?]]|?]]; try done. by destruct (He1 _ Hx) as (? & ? & ? & ?).
      * pose proof (closes_nodup c e so se ds Hh Hnd) as HN. by apply NoDup_app in HN as (_ & _ & ?).
      * intros x. rewrite Hrc. split.
        -- intros [Hx|(st & f & wr & ? & ? & ? & ->)].
           ++ destruct (Hh x Hx) as [h ->]. apply Hhd in Hx as (f & a & Hx). simpl. exists f, a. by rewrite elem_of_app; left.
           ++ simpl. exists f. split; [|done]. rewrite !elem_of_app, Hrb. right. left. left. eauto.
        -- destruct x as [h|wr st|g]; simpl.
           ++ intros (f & a & Hx). rewrite !elem_of_app, Hrb, elem_of_list_singleton in Hx. destruct Hx as [Hx|[[(? & ? & _ & _ & ?)|[_ ?]]|?]]; try done. left. apply Hhd. eauto.
           ++ intros (f & Hx & Hf). rewrite !elem_of_app, Hrb, elem_of_list_singleton in Hx. destruct Hx as [Hx|[[(st' & f' & ? & ? & ?)|[_ ?]]|?]]; try done.
              ** by destruct (He1 _ Hx) as (? & ? & ? & ?).
              ** simplify_eq. right. eauto 10.
           ++ intros Hx. rewrite !elem_of_app, Hrb, elem_of_list_singleton in Hx. destruct Hx as [Hx|[[(st' & f' & ? & ? & ?)|[_ ?]]|?]]; try done.
              by destruct (He1 _ Hx) as (? & ? & ? & ?).
    + set (i := the_inv c e so se) in *. simpl in Hev. rewrite (proj2 (deliver_sent _ _ _)) in Hev. simpl in Hev. rewrite Ht in Hev.
      rewrite <- !(assoc_L (++)) in Hev. apply (inj (app (w_trace w))) in Hev. subst evs.
      assert (Hse : forall ev, ev ∈ stdin_events c <-> c_stdinFile c <> "" /\ ev = EvOpenRead (c_stdinFile c)).
      { intros ev. unfold stdin_events. destruct (decide _); [rewrite elem_of_list_singleton; tauto|]. split; [by intros ?%elem_of_nil|tauto]. }
      assert (Hsc : forall x, x ∈ stdin_closers c <-> c_stdinFile c <> "" /\ x = CStdin (c_stdinFile c)).
      { intros ev. unfold stdin_closers. destruct (decide _); [rewrite elem_of_list_singleton; tauto|]. split; [by intros ?%elem_of_nil|tauto]. }
      exists (evs1 ++ rest_before c e so se ++ stdin_events c ++ [EvStart i]), (stdin_closers c ++ rest_closers c e so se ds). split_and!.
      * by rewrite <- !(assoc_L (++)).
      * intros x. rewrite !elem_of_app, Hrb, Hse, elem_of_list_singleton. intros [Hx|[[(? & ? & _ & _ & ?)|[_ ?]]|[[_ ?]|?]]]; try done. by destruct (He1 _ Hx) as (? & ? & ? & ?).
      * by apply closes_nodup.
      * intros x. rewrite elem_of_app, Hrc, Hsc. split.
        -- intros [[? ->]|[Hx|(st & f & wr & ? & ? & ? & ->)]].
           ++ simpl. rewrite !elem_of_app, Hse. right. right. by left.
           ++ destruct (Hh x Hx) as [h ->]. apply Hhd in Hx as (f & a & Hx). simpl. exists f, a. by rewrite elem_of_app; left.
           ++ simpl. exists f. split; [|done]. rewrite !elem_of_app, Hrb. right. left. left. eauto.
        -- destruct x as [h|wr st|g]; simpl.
           ++ intros (f & a & Hx). rewrite !elem_of_app, Hrb, Hse, elem_of_list_singleton in Hx. destruct Hx as [Hx|[[(? & ? & _ & _ & ?)|[_ ?]]|[[_ ?]|?]]]; try done. right. left. apply Hhd. eauto.
           ++ intros (f & Hx & Hf). rewrite !elem_of_app, Hrb, Hse, elem_of_list_singleton in Hx. destruct Hx as [Hx|[[(st' & f' & ? & ? & ?)|[_ ?]]|[[_ ?]|?]]]; try done.
              ** by destruct (He1 _ Hx) as (? & ? & ? & ?).
              ** simplify_eq. right. right. eauto 10.
           ++ intros Hx. rewrite !elem_of_app, Hrb, Hse, elem_of_list_singleton in Hx. destruct Hx as [Hx|[[(st' & f' & ? & ? & ?)|[_ ?]]|[[? ?]|?]]]; try done.
              ** by destruct (He1 _ Hx) as (? & ? & ? & ?).
              ** simplify_eq. by left.
Qed.
