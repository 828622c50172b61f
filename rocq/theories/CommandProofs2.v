From stdpp Require Import base gmap list strings.
From Coq Require Import Ascii.
From Verif Require Import PathModel YamlModel CommandModel CommandSpec CommandProofs.
Local Open Scope list_scope.

Definition after_open (e : env) (name : string) (append : bool) (w : world) : world :=
  emit (EvOpen name append (length (w_handles w)))
    {| w_files := <[e_file e name := if append then default [] (w_files w !! e_file e name) else []]> (w_files w);
       w_handles := w_handles w ++ [{| h_file := e_file e name; h_append := append; h_pos := 0 |}];
       w_sent := w_sent w; w_trace := w_trace w |}.
Lemma open_ok e name a w : e_open_out e name a = true -> open_out e name a w = (after_open e name a w, Some (length (w_handles w))).
Proof. intros H. unfold open_out. by rewrite H. Qed.
Lemma open_fails e name a w : e_open_out e name a = false -> open_out e name a w = (emit (EvOpenFailed name) w, None).
Proof. intros H. unfold open_out. by rewrite H. Qed.

(** The state in which the files are open: destinations so far, closers, opened handles. *)
Inductive prepared (c : command) (e : env) (w : world) : option dest -> option dest -> list closable -> list event -> world -> Prop :=
  | prep_none : no_file (c_stdoutFile c) -> no_file (c_stderrFile c) ->
      prepared c e w (DWriter <$> c_stdout c) (DWriter <$> c_stderr c) [] [] w
  | prep_out f a : names_file (c_stdoutFile c) f a -> no_file (c_stderrFile c) -> e_open_out e f a = true ->
      prepared c e w (Some (DHandle (length (w_handles w)))) (DWriter <$> c_stderr c) [CHandle (length (w_handles w))]
        [EvOpen f a (length (w_handles w))] (after_open e f a w)
  | prep_err f a : no_file (c_stdoutFile c) -> names_file (c_stderrFile c) f a -> e_open_out e f a = true ->
      prepared c e w (DWriter <$> c_stdout c) (Some (DHandle (length (w_handles w)))) [CHandle (length (w_handles w))]
        [EvOpen f a (length (w_handles w))] (after_open e f a w)
  | prep_same f a : names_file (c_stdoutFile c) f a -> names_file (c_stderrFile c) f a -> e_open_out e f a = true ->
      prepared c e w (Some (DHandle (length (w_handles w)))) (Some (DHandle (length (w_handles w)))) [CHandle (length (w_handles w))]
        [EvOpen f a (length (w_handles w))] (after_open e f a w)
  | prep_both f a f' a' : names_file (c_stdoutFile c) f a -> names_file (c_stderrFile c) f' a' -> f <> f' ->
      e_open_out e f a = true -> e_open_out e f' a' = true ->
      prepared c e w (Some (DHandle (length (w_handles w)))) (Some (DHandle (S (length (w_handles w)))))
        [CHandle (S (length (w_handles w))); CHandle (length (w_handles w))]
        [EvOpen f a (length (w_handles w)); EvOpen f' a' (S (length (w_handles w)))] (after_open e f' a' (after_open e f a w)).

Lemma run_cases c e w : e_dryrun e = false ->
  let fa1 := out_file (c_stdoutFile c) in let fa2 := out_file (c_stderrFile c) in
  (fa1.1 = fa2.1 /\ fa1.2 <> fa2.2 /\ Run c e w = (w, Some EDisagree)) \/
  (~ (fa1.1 = fa2.1 /\ fa1.2 <> fa2.2) /\
   ((exists f a, names_file (c_stdoutFile c) f a /\ e_open_out e f a = false /\ Run c e w = (emits [EvOpenFailed f] w, Some (EOpenOut f))) \/
    (exists f a, no_file (c_stdoutFile c) /\ names_file (c_stderrFile c) f a /\ e_open_out e f a = false /\
       Run c e w = (emits [EvOpenFailed f] w, Some (EOpenOut f))) \/
    (exists f1 a1 f a, names_file (c_stdoutFile c) f1 a1 /\ e_open_out e f1 a1 = true /\ names_file (c_stderrFile c) f a /\ e_open_out e f a = false /\
       Run c e w = (emits [EvOpenFailed f; EvClose (CHandle (length (w_handles w)))] (after_open e f1 a1 w), Some (EOpenOut f))) \/
    (exists so se ds evs w1, prepared c e w so se ds evs w1 /\ Run c e w = run_rest c e so se ds w1))).
Proof.
  intros Hd fa1 fa2. unfold Run. rewrite Hd. subst fa1 fa2.
  pose proof (names_out_file (c_stdoutFile c)) as N1. pose proof (names_out_file (c_stderrFile c)) as N2.
  pose proof (no_file_out (c_stdoutFile c)) as M1. pose proof (no_file_out (c_stderrFile c)) as M2.
  destruct (out_file (c_stdoutFile c)) as [f1 a1], (out_file (c_stderrFile c)) as [f2 a2]. simpl in *.
  destruct (decide (f1 = f2 /\ a1 <> a2)) as [[H1 H2]|Hne]; [by left|right]. split; [done|].
  destruct (decide (f1 = "")) as [->|Hf1].
  - assert (Ho : no_file (c_stdoutFile c)) by (by apply M1). destruct (decide (f2 = "")) as [->|Hf2].
    + assert (He : no_file (c_stderrFile c)) by (by apply M2). do 3 right. do 5 eexists. split; [by apply prep_none|done].
    + rewrite decide_False by congruence. assert (Hn : names_file (c_stderrFile c) f2 a2) by (by apply N2).
      destruct (e_open_out e f2 a2) eqn:E.
      * do 3 right. do 5 eexists. split; [by apply prep_err|]. by rewrite open_ok.
      * right. left. exists f2, a2. split_and!; [done|done|done|]. rewrite open_fails by done. done.
  - assert (Hn1 : names_file (c_stdoutFile c) f1 a1) by (by apply N1).
    destruct (e_open_out e f1 a1) eqn:E1.
    2:{ left. exists f1, a1. split_and!; [done|done|]. by rewrite open_fails. }
    rewrite (open_ok _ _ _ _ E1). destruct (decide (f2 = "")) as [->|Hf2].
    + assert (He : no_file (c_stderrFile c)) by (by apply M2). do 3 right. do 5 eexists. split; [by apply prep_out|done].
    + assert (Hn2 : names_file (c_stderrFile c) f2 a2) by (by apply N2).
      destruct (decide (f1 = f2)) as [->|Hne'].
      * assert (a1 = a2) as -> by (destruct (decide (a1 = a2)); [done|]; exfalso; by apply Hne).
        do 3 right. do 5 eexists. split; [by apply prep_same|done].
      * destruct (e_open_out e f2 a2) eqn:E2.
        -- do 3 right. do 5 eexists. split; [by eapply prep_both|]. rewrite (open_ok _ _ _ _ E2). simpl. rewrite app_length. simpl. by rewrite Nat.add_1_r.
        -- do 2 right. left. exists f1, a1, f2, a2. split_and!; try done. rewrite (open_fails _ _ _ _ E2). cbn [run_defers]. by rewrite !emit_emits, emits_app.
Qed.

(** Facts about prepared states *)
Definition cur_of (so se : option dest) (st : stream) : option dest := match st with Out => so | Err => se end.
Lemma names_fun s f a f' a' : names_file s f a -> names_file s f' a' -> f = f' /\ a = a'.
Proof. intros [H _]%names_out_file [H' _]%names_out_file. rewrite H in H'. by simplify_eq. Qed.

Ltac nf := match goal with
  | H : no_file ?s, H' : names_file ?s _ _ |- _ => by destruct (H _ _ H')
  end.
Lemma prep_facts c e w so se ds evs w1 : prepared c e w so se ds evs w1 ->
  w_trace w1 = w_trace w ++ evs /\ w_sent w1 = w_sent w /\
  (forall st, no_file (field_file c st) -> cur_of so se st = DWriter <$> field_writer c st) /\
  (forall st f a, names_file (field_file c st) f a ->
     exists h, cur_of so se st = Some (DHandle h) /\ w_handles w1 !! h = Some {| h_file := e_file e f; h_append := a; h_pos := 0 |} /\ EvOpen f a h ∈ evs) /\
  (forall st st' f a f' a' , names_file (field_file c st) f a -> names_file (field_file c st') f' a' ->
     f = f' -> cur_of so se st = cur_of so se st') /\
  (one_spelling c e -> forall st f a, names_file (field_file c st) f a ->
     w_files w1 !! e_file e f = Some (if a then default [] (w_files w !! e_file e f) else [])) /\
  (forall g, (forall st f a, names_file (field_file c st) f a -> e_file e f <> g) -> w_files w1 !! g = w_files w !! g) /\
  (forall h f a, EvOpen f a h ∈ evs -> CHandle h ∈ ds) /\
  (forall h f a, EvOpen f a h ∈ evs -> exists st, names_file (field_file c st) f a /\ cur_of so se st = Some (DHandle h)).
Proof.
  destruct 1 as [N1 N2|f a N1 N2 E|f a N1 N2 E|f a N1 N2 E|f a f' a' N1 N2 Hne E E'].
  - split_and!; try done.
    + by rewrite app_nil_r.
    + intros []; done.
    + intros [] f a H; simpl in H; nf.
    + intros [] ? f a ? ? H; simpl in H; nf.
    + intros _ [] f a H; simpl in H; nf.
    + by intros h f a ?%elem_of_nil.
    + by intros h f a ?%elem_of_nil.
  - split_and!; try done.
    + intros [] H; simpl in H; [nf|done].
    + intros [] f0 a0 H; simpl in H; [|nf]. destruct (names_fun _ _ _ _ _ N1 H) as [<- <-].
      eexists. split; [done|]. split; [|by left]. simpl. by rewrite lookup_app_r, Nat.sub_diag.
    + intros [] [] f0 a0 f1 a1 H H'; simpl in *; try nf; done.
    + intros _ [] f0 a0 H; simpl in H; [|nf]. destruct (names_fun _ _ _ _ _ N1 H) as [<- <-]. simpl. by rewrite lookup_insert.
    + intros g Hg. simpl. rewrite lookup_insert_ne; [done|]. by apply (Hg Out f a).
    + intros h f0 a0 H%elem_of_list_singleton. simplify_eq. by left.
    + intros h f0 a0 H%elem_of_list_singleton. simplify_eq. by exists Out.
  - split_and!; try done.
    + intros [] H; simpl in H; [done|nf].
    + intros [] f0 a0 H; simpl in H; [nf|]. destruct (names_fun _ _ _ _ _ N2 H) as [<- <-].
      eexists. split; [done|]. split; [|by left]. simpl. by rewrite lookup_app_r, Nat.sub_diag.
    + intros [] [] f0 a0 f1 a1 H H'; simpl in *; try nf; done.
    + intros _ [] f0 a0 H; simpl in H; [nf|]. destruct (names_fun _ _ _ _ _ N2 H) as [<- <-]. simpl. by rewrite lookup_insert.
    + intros g Hg. simpl. rewrite lookup_insert_ne; [done|]. by apply (Hg Err f a).
    + intros h f0 a0 H%elem_of_list_singleton. simplify_eq. by left.
    + intros h f0 a0 H%elem_of_list_singleton. simplify_eq. by exists Err.
  - split_and!; try done.
    + intros [] H; simpl in H; nf.
    + intros [] f0 a0 H; simpl in H; [destruct (names_fun _ _ _ _ _ N1 H) as [<- <-]|destruct (names_fun _ _ _ _ _ N2 H) as [<- <-]].
      all: eexists; split; [done|]; split; [|by left]; simpl; by rewrite lookup_app_r, Nat.sub_diag.
    + intros [] [] f0 a0 f1 a1 H H'; simpl in *; done.
    + intros _ [] f0 a0 H; simpl in H; [destruct (names_fun _ _ _ _ _ N1 H) as [<- <-]|destruct (names_fun _ _ _ _ _ N2 H) as [<- <-]].
      all: simpl; by rewrite lookup_insert.
    + intros g Hg. simpl. rewrite lookup_insert_ne; [done|]. by apply (Hg Err f a).
    + intros h f0 a0 H%elem_of_list_singleton. simplify_eq. by left.
    + intros h f0 a0 H%elem_of_list_singleton. simplify_eq. by exists Err.
  - assert (Hlen : length (w_handles (after_open e f a w)) = S (length (w_handles w))) by (simpl; rewrite app_length; simpl; lia).
    split_and!; try done.
    + simpl. rewrite app_length. simpl. rewrite Nat.add_1_r. by rewrite <- (assoc_L (++)).
    + intros [] H; simpl in H; nf.
    + intros [] f0 a0 H; simpl in H; [destruct (names_fun _ _ _ _ _ N1 H) as [<- <-]|destruct (names_fun _ _ _ _ _ N2 H) as [<- <-]].
      * eexists; split; [done|]. split; [|by left]. simpl. rewrite lookup_app_l by (rewrite app_length; simpl; lia). by rewrite lookup_app_r, Nat.sub_diag.
      * eexists; split; [done|]. split; [|by right; left]. unfold after_open at 1. simpl. rewrite lookup_app_r by (rewrite app_length; simpl; lia).
        rewrite app_length. simpl. by rewrite Nat.add_1_r, Nat.sub_diag.
    + intros [] [] f0 a0 f1 a1 H H' Heq; simpl in *; try done.
      * destruct (names_fun _ _ _ _ _ N1 H), (names_fun _ _ _ _ _ N2 H'). congruence.
      * destruct (names_fun _ _ _ _ _ N2 H), (names_fun _ _ _ _ _ N1 H'). congruence.
    + intros Hsp. specialize (Hsp f a f' a' N1 N2 Hne).
      intros [] f0 a0 H; simpl in H; [destruct (names_fun _ _ _ _ _ N1 H) as [<- <-]|destruct (names_fun _ _ _ _ _ N2 H) as [<- <-]]; simpl.
      * rewrite lookup_insert_ne by done. by rewrite lookup_insert.
      * rewrite lookup_insert. by rewrite lookup_insert_ne by done.
    + intros g Hg. simpl. rewrite !lookup_insert_ne; [done|by apply (Hg Out f a)|by apply (Hg Err f' a')].
    + intros h f0 a0 H. apply elem_of_cons in H as [H|H%elem_of_list_singleton]; simplify_eq; [right; by left|by left].
    + intros h f0 a0 [H|H%elem_of_list_singleton]%elem_of_cons; simplify_eq; [by exists Out|by exists Err].
Qed.

Lemma spelling c e st st' f a f' a' : one_spelling c e -> names_file (field_file c st) f a -> names_file (field_file c st') f' a' ->
  e_file e f = e_file e f' -> f = f'.
Proof.
  intros Hsp H H' He. destruct (decide (f = f')) as [|Hne]; [done|]. exfalso. destruct st, st'; simpl in *.
  - apply Hne. by eapply names_fun.
  - by eapply Hsp.
  - eapply (Hsp f' a' f a); eauto.
  - apply Hne. by eapply names_fun.
Qed.
Lemma file_dec s : no_file s \/ exists f a, names_file s f a.
Proof.
  destruct (out_file s) as [f a] eqn:E. destruct (decide (f = "")) as [->|Hne].
  - left. apply no_file_out. by rewrite E.
  - right. exists f, a. by apply names_out_file.
Qed.

Lemma inv_dest c e so se st : i_dest (the_inv c e so se) st = the_dest e st (cur_of so se st) (field_fn c st).
Proof. by destruct st. Qed.
Lemma dest_goes c e w so se ds evs w1 st p d : prepared c e w so se ds evs w1 -> dest_of p = Some d ->
  (i_dest (the_inv c e so se) st = d <-> goes_to c e st p).
Proof.
  intros Hp Hd. apply prep_facts in Hp as (_ & _ & Hno & Hnames & _). rewrite inv_dest.
  destruct (file_dec (field_file c st)) as [Hnf|(f & a & Hf)].
  2:{ destruct (Hnames st f a Hf) as (h & -> & _ & _). unfold the_dest. simpl. split.
      - intros <-. by destruct p as [| |[]|].
      - destruct 1 as [| | | |]; try nf. done. }
  rewrite (Hno st Hnf). unfold the_dest. destruct (field_writer c st) as [x|] eqn:Hw; simpl.
  { split.
    - intros <-. destruct p as [|x'|[]|]; simplify_eq/=. by apply goes_writer.
    - destruct 1 as [| | | |]; simplify_eq/=; try nf; done. }
  destruct (field_fn c st) as [f|] eqn:Hfn; simpl.
  - destruct (e_fn e f) as [[x b]|] eqn:Hx; simpl.
    + split.
      * intros <-. destruct p as [|x'|[]|]; simplify_eq/=. by eapply goes_fn.
      * destruct 1 as [| | |? ? Hall|? ? Hall]; simplify_eq/=; try nf; try done.
        -- rewrite Hall in Hx by done. done.
        -- rewrite Hall in Hx by done. done.
    + assert (Hall : forall f', field_fn c st = Some f' -> e_fn e f' = None) by (intros; by simplify_eq).
      destruct (e_verbose e) eqn:Hv; split.
      * intros <-. destruct st, p as [|x'|[]|]; simplify_eq/=; by apply goes_verbose.
      * destruct 1; simplify_eq/=; try nf; try congruence. destruct st; by simplify_eq/=.
      * intros <-. destruct p as [|x'|[]|]; simplify_eq/=. by apply goes_captured.
      * destruct 1; simplify_eq/=; try nf; congruence.
  - assert (Hall : forall f', field_fn c st = Some f' -> e_fn e f' = None) by (intros; by simplify_eq).
    destruct (e_verbose e) eqn:Hv; split.
      * intros <-. destruct st, p as [|x'|[]|]; simplify_eq/=; by apply goes_verbose.
      * destruct 1; simplify_eq/=; try nf; try congruence. destruct st; by simplify_eq/=.
      * intros <-. destruct p as [|x'|[]|]; simplify_eq/=. by apply goes_captured.
      * destruct 1; simplify_eq/=; try nf; congruence.
Qed.
Lemma dest_handle c e w so se ds evs w1 st h : prepared c e w so se ds evs w1 ->
  i_dest (the_inv c e so se) st = DHandle h -> exists f a, names_file (field_file c st) f a /\ cur_of so se st = Some (DHandle h).
Proof.
  intros Hp. apply prep_facts in Hp as (_ & _ & Hno & Hnames & _). rewrite inv_dest.
  destruct (file_dec (field_file c st)) as [Hnf|(f & a & Hf)].
  - rewrite (Hno st Hnf). unfold the_dest. destruct (field_writer c st); [done|]. simpl.
    destruct (field_fn c st) as [f|]; simpl; [destruct (e_fn e f) as [[]|]; simpl; [done|]|]; by destruct (e_verbose e).
  - destruct (Hnames st f a Hf) as (h' & -> & _ & _). unfold the_dest. simpl. intros [= ->]. by exists f, a.
Qed.

(** Where the process is started, by what. *)
Lemma run_started c e w w' r evs i : e_dryrun e = false -> Run c e w = (w', r) -> events w w' evs -> EvStart i ∈ evs ->
  exists so se ds evs1 w1, prepared c e w so se ds evs1 w1 /\ i = the_inv c e so se /\
    ~ (c_stdinFile c <> "" /\ e_open_in e (c_stdinFile c) = false) /\
    let w2 := emits (stdin_events c) (emits (rest_before c e so se) w1) in
    let w3 := deliver i (e_run e i).1 (emit (EvStart i) w2) in
    let ds2 := stdin_closers c ++ rest_closers c e so se ds in
    w' = emits (EvClose <$> ds2) w3 /\ r = defers_err e ds2 (proc_err (e_run e i).2 (collect i DBuf (e_run e i).1)).
Proof.
  intros Hd Hr Hev Hi. unfold events in Hev.
  assert (Hnot : forall evs0 w0, w' = emits evs0 w0 -> w_trace w0 = w_trace w -> EvStart i ∉ evs0 -> False).
  { intros evs0 w0 -> Ht Hni. simpl in Hev. rewrite Ht in Hev. apply (inj (app (w_trace w))) in Hev. by subst. }
  assert (Hcl : forall ds : list closable, EvStart i ∉ EvClose <$> ds) by (intros ds (? & ? & _)%elem_of_list_fmap; done).
  destruct (run_cases c e w Hd) as [(_ & _ & H)|[_ H]].
  { exfalso. rewrite H in Hr. simplify_eq. apply (Hnot [] w'); [by rewrite emits_nil|done|]. by intros ?%elem_of_nil. }
  destruct H as [(f & a & _ & _ & H)|[(f & a & _ & _ & _ & H)|[(f1 & a1 & f & a & _ & _ & _ & _ & H)|(so & se & ds & evs1 & w1 & Hp & H)]]].
  - exfalso. rewrite H in Hr. simplify_eq. eapply Hnot; [done|done|]. by intros ?%elem_of_list_singleton.
  - exfalso. rewrite H in Hr. simplify_eq. eapply Hnot; [done|done|]. by intros ?%elem_of_list_singleton.
  - exfalso. rewrite H in Hr. simplify_eq. simpl in Hev. rewrite <- (assoc_L (++)) in Hev. apply (inj (app (w_trace w))) in Hev. subst evs.
    repeat (apply elem_of_cons in Hi as [?|Hi]; [done|]). by apply elem_of_nil in Hi.
  - rewrite H, run_rest_eq in Hr. cbv zeta in Hr.
    pose proof (prep_facts _ _ _ _ _ _ _ _ Hp) as (Ht & _ & _ & _ & _ & _ & _ & _ & Hopen).
    assert (Hb1 : EvStart i ∉ evs1).
    { destruct Hp; intros Hin; repeat (apply elem_of_cons in Hin as [?|Hin]; [done|]); by apply elem_of_nil in Hin. }
    assert (Hb2 : EvStart i ∉ rest_before c e so se).
    { unfold rest_before. rewrite !elem_of_app. unfold fn_events. intros [Hin|[Hin|Hin]].
      - destruct so, (c_stdoutFn c); try (by apply elem_of_nil in Hin). by apply elem_of_list_singleton in Hin.
      - destruct se, (c_stderrFn c); try (by apply elem_of_nil in Hin). by apply elem_of_list_singleton in Hin.
      - destruct (e_verbose e); [by apply elem_of_list_singleton in Hin|by apply elem_of_nil in Hin]. }
    destruct (decide _) as [Hin|Hin].
    + exfalso. simplify_eq. simpl in Hev. rewrite Ht in Hev. rewrite <- !(assoc_L (++)) in Hev. apply (inj (app (w_trace w))) in Hev. subst evs.
      rewrite !elem_of_app, elem_of_cons in Hi. destruct Hi as [?|[?|[?|?]]]; try done. by apply Hcl in H0.
    + exists so, se, ds, evs1, w1. split; [done|].
      assert (Hb3 : EvStart i ∉ stdin_events c).
      { unfold stdin_events. destruct (decide _); [by intros ?%elem_of_list_singleton|by intros ?%elem_of_nil]. }
      assert (i = the_inv c e so se) as ->.
      { simplify_eq. simpl in Hev. rewrite (proj2 (deliver_sent _ _ _)) in Hev. simpl in Hev. rewrite Ht in Hev.
        rewrite <- !(assoc_L (++)) in Hev. apply (inj (app (w_trace w))) in Hev. subst evs.
        rewrite !elem_of_app, elem_of_list_singleton in Hi. destruct Hi as [?|[?|[?|[[= ?]|?]]]]; try done. by apply Hcl in H0. }
      split; [done|]. split; [done|]. simplify_eq. split; [done|]. by rewrite deliver_buffered.
Qed.

Lemma output_lem c e w w' r evs i : e_dryrun e = false -> Run c e w = (w', r) -> events w w' evs -> started evs i -> one_spelling c e ->
  let cs := (e_run e i).1 in
  (forall st f a, names_file (field_file c st) f a -> exists l,
     written_to (fun st' => goes_to c e st' (PFile (e_file e f))) cs l /\
     w_files w' !! e_file e f = Some ((if a then default [] (w_files w !! e_file e f) else []) ++ l)) /\
  (forall p d, dest_of p = Some d -> exists l, written_to (fun st => goes_to c e st p) cs l /\ received d w w' l) /\
  (forall g, (forall st f a, names_file (field_file c st) f a -> e_file e f <> g) -> w_files w' !! g = w_files w !! g).
Proof.
  intros Hd Hr Hev Hi Hsp cs. destruct (run_started _ _ _ _ _ _ _ Hd Hr Hev Hi) as (so & se & ds & evs1 & w1 & Hp & Hieq & _ & -> & ->).
  clear Hr Hev Hi. pose proof (prep_facts _ _ _ _ _ _ _ _ Hp) as (Ht & Hsent & Hno & Hnames & Hsame & Hfiles & Hframe & _ & _).
  split_and!.
  - intros st f a Hf. destruct (Hnames st f a Hf) as (h & Hcur & Hh & _).
    exists (collect i (DHandle h) cs). split.
    + apply collect_written. intros st'. split.
      * intros Hd'. rewrite Hieq in Hd'. destruct (dest_handle _ _ _ _ _ _ _ _ _ _ Hp Hd') as (f' & a' & Hf' & Hc').
        destruct (Hnames st' f' a' Hf') as (h' & Hcur' & Hh' & _). assert (h' = h) as -> by congruence.
        assert (e_file e f' = e_file e f) as <- by congruence. by eapply goes_file.
      * inversion 1 as [f' a' Hf' He| | | |]; subst. rewrite inv_dest.
        assert (f' = f) as -> by (eapply (spelling c e st' st); eauto).
        rewrite (Hsame st' st f a' f a) by done. by rewrite Hcur.
    + simpl. eapply deliver_file; [exact Hh| | |].
      * by destruct a; [left|right].
      * simpl. by apply (Hfiles Hsp st).
      * simpl. intros h' hd Hne Hor Hlk.
        assert (Hst : exists st', i_dest i st' = DHandle h') by (destruct Hor as [?|?]; [by exists Out|by exists Err]).
        destruct Hst as [st' Hst]. rewrite Hieq in Hst. destruct (dest_handle _ _ _ _ _ _ _ _ _ _ Hp Hst) as (f' & a' & Hf' & Hc').
        destruct (Hnames st' f' a' Hf') as (h2 & Hcur' & Hh' & _). assert (h2 = h') as -> by congruence.
        assert (hd = {| h_file := e_file e f'; h_append := a'; h_pos := 0 |}) as -> by congruence. simpl. intros He.
        assert (f' = f) as -> by (by eapply (spelling c e st' st)).
        pose proof (Hsame st' st f a' f a Hf' Hf eq_refl). congruence.
  - intros p d Hpd. exists (collect i d cs). split.
    + apply collect_written. intros st. rewrite Hieq. by eapply dest_goes.
    + unfold received. simpl. rewrite deliver_received. simpl. by rewrite Hsent.
  - intros g Hg. simpl. rewrite deliver_file_frame; [simpl; by apply Hframe|].
    simpl. intros h hd Hor Hlk.
    assert (Hst : exists st', i_dest i st' = DHandle h) by (destruct Hor as [?|?]; [by exists Out|by exists Err]).
    destruct Hst as [st' Hst]. rewrite Hieq in Hst. destruct (dest_handle _ _ _ _ _ _ _ _ _ _ Hp Hst) as (f' & a' & Hf' & Hc').
    destruct (Hnames st' f' a' Hf') as (h2 & Hcur' & Hh' & _). assert (h2 = h) as -> by congruence.
    assert (hd = {| h_file := e_file e f'; h_append := a'; h_pos := 0 |}) as -> by congruence. simpl. by eapply Hg.
Qed.
