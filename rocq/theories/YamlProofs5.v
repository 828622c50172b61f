(** The project file and the files of other directories: no reference leads back to the project
    file, and the names that it defines are its own. *)
From stdpp Require Import base gmap list strings.
From Coq Require Import Ascii.
From Verif Require Import PathModel PathSpec PathProofs PathProofs2 PathProofs3 PathProofs4 YamlModel YamlSpec YamlProofs YamlProofs2 YamlProofs3.
From Verif Require Import MainProofs3 MainProofs4.
Local Open Scope list_scope.

Lemma removelast_cons_ne {A} (x : A) l : l <> [] -> removelast (x :: l) = x :: removelast l.
Proof. by destruct l. Qed.
Lemma dots_snoc (b : string) base : (fun _ : string => "..") <$> (b :: base) = ((fun _ : string => "..") <$> base) ++ [".."].
Proof. revert b. induction base as [|x base IH]; intros b; [done|]. specialize (IH x). cbn [fmap list_fmap] in *. rewrite IH at 1. done. Qed.
Lemma rel_comps_not_back base : forall targ l r z, Forall name base -> Forall name targ ->
  rel_comps base targ = Some (r ++ [z]) -> r <> [] -> walk (reverse base ++ l) r <> reverse base ++ l.
Proof.
  induction base as [|b base IH]; intros targ l r z Hb Ht E Hr; cbn [rel_comps] in E.
  { injection E as ->. apply Forall_app in Ht as [Ht _]. rewrite reverse_nil. cbn [app]. rewrite walk_names by done.
    intros E. apply (f_equal length) in E. rewrite app_length, reverse_length in E. destruct r; [done|]. simpl in E. lia. }
  apply Forall_cons in Hb as [Hb1 Hb]. destruct targ as [|t targ].
  - rewrite dots_snoc in E. injection E as E. apply app_inj_tail in E as [<- _].
    intros Hw. apply (f_equal length) in Hw.
    assert (Hlen : forall (y : list string) l0, length y <= length l0 -> length (walk l0 ((fun _ => "..") <$> y)) = length l0 - length y).
    { clear. induction y as [|c y IH]; intros l0 Hl; [simpl; lia|]. cbn [fmap list_fmap]. unfold walk in *. cbn [fold_left].
      rewrite enter_dots. simpl in Hl. rewrite IH; destruct l0; simpl in *; lia. }
    rewrite Hlen in Hw; rewrite app_length, reverse_length in *; cbn [length] in *; [|lia].
    destruct base; [done|]. simpl in *. lia.
  - apply Forall_cons in Ht as [Ht1 Ht]. destruct (decide (b = t)) as [->|Hne].
    + rewrite reverse_cons, <-app_assoc. cbn [app]. by eapply IH.
    + destruct (decide (b = "..")); [done|]. injection E as E.
      assert (E2 : (t :: targ) = removelast (t :: targ) ++ [List.last (t :: targ) ""]) by (by apply app_removelast_last).
      rewrite E2, app_assoc, ?app_comm_cons in E. apply app_inj_tail in E as [<- _].
      rewrite walk_app, walk_up_names. rewrite walk_names.
      2:{ assert (H : Forall name (removelast (t :: targ) ++ [List.last (t :: targ) ""])) by (rewrite <-E2; by constructor). by apply Forall_app in H as [? _]. }
      intros Hw. apply app_inv_tail in Hw. apply (inj reverse) in Hw.
      destruct targ; [done|]. rewrite removelast_cons_ne in Hw by done. by injection Hw as ? _.
Qed.

(** A reference to another directory does not lead to the top directory. *)
Lemma far_not_top top p q : IsAbs top = true -> clean top -> IsAbs p = true -> RelPath top p = Some q -> Dir q <> "." -> Join [top; Dir q] <> top.
Proof.
  intros Ha Hc Hp Hq Hf E. unfold RelPath, Rel in Hq. destruct (decide _); [injection Hq as <-; by apply Hf|].
  rewrite bool_decide_eq_false_2 in Hq by (rewrite !IsAbs_Clean; congruence). rewrite IsAbs_Clean, Hp in Hq.
  destruct (clean_comps_abs top Ha) as [Eb Hb]. destruct (clean_comps_abs p Hp) as [Et Ht]. rewrite Eb, Et in Hq.
  destruct (rel_comps _ _) as [r|] eqn:Er; [|done]. injection Hq as <-.
  assert (Hnb : Forall name (reverse (cd [] top))) by (by apply names_rev). assert (Hnt : Forall name (reverse (cd [] p))) by (by apply names_rev).
  destruct (rel_comps_walk (reverse (cd [] top)) (reverse (cd [] p)) [] Hnb) as (r' & Er' & _ & Hflat & Hnn & _). rewrite Er in Er'. injection Er' as <-.
  assert (Hfl : Forall flat r) by (apply Hflat; eapply Forall_impl; [exact Hnt|]; intros c Hc'; apply name_plain in Hc' as [[? [? ?]] _]; done).
  destruct r as [|x r0] using rev_ind; [by apply Hf|]. clear IHr0.
  assert (HD : Dir (join (r0 ++ [x])) = Clean (join (r0 ++ [""]))).
  { unfold Dir. rewrite split_join by (done || by destruct r0). by rewrite removelast_last. }
  destruct (decide (r0 = [])) as [->|Hr0]; [by rewrite HD in Hf|].
  apply (rel_comps_not_back _ _ [] _ _ Hnb Hnt Er Hr0). rewrite !app_nil_r, reverse_involutive.
  assert (Hn : Forall (fun c => c <> "") r0).
  { assert (H : Forall (fun c => c <> "") (r0 ++ [x])) by (apply Hnn; eapply Forall_impl; [exact Hnt|]; by intros c [? _]). by apply Forall_app in H as [? _]. }
  apply Forall_app in Hfl as [Hfl _].
  assert (Hrel : IsAbs (join (r0 ++ [""])) = false /\ forall l, cd l (join (r0 ++ [""])) = walk l r0).
  { assert (Habs : IsAbs (join (r0 ++ [""])) = false).
    { destruct r0 as [|y r0]; [done|]. cbn [app]. assert (exists z zs, r0 ++ [""] = z :: zs) as (z & zs & Ez) by (destruct r0; simpl; eauto).
      rewrite Ez, IsAbs_join_flat; [|rewrite <-Ez; apply Forall_cons in Hfl as [? ?]; constructor; [done|]; apply Forall_app; split; [done|]; by constructor].
      apply bool_decide_eq_false. by apply Forall_cons in Hn as [? _]. }
    split; [done|]. intros l. unfold cd. rewrite Habs, split_join; [|by destruct r0|apply Forall_app; split; [done|by constructor]].
    rewrite fold_left_app. cbn [fold_left]. rewrite enter_skip by (by left). done. }
  destruct Hrel as [Habs Hcd]. rewrite <-Hcd, <-cd_Clean, <-HD.
  assert (Hne : top <> "") by (by intros ->).
  rewrite <-E at 2. rewrite cd_Join_ne; [done|done|]. constructor; [|constructor]. rewrite HD, IsAbs_Clean. done.
Qed.

(** Without the project file, references are read the same. *)
Definition without (top : string) (docs : string -> option node) (p : string) : option node := if decide (p = top) then None else docs p.
Lemma joinpath2_abs top a b : IsAbs top = true -> IsAbs (JoinPath top [a; b]) = true.
Proof.
  intros Ht. assert (top <> "") by (by intros ->). unfold JoinPath. cbn [last_abs].
  destruct (IsAbs b) eqn:Hb.
  { rewrite Join_abs, decide_False; [done|by intros ->]. }
  destruct (IsAbs a) eqn:Hb'.
  { rewrite Join_abs, decide_False; [done|by intros ->]. }
  by rewrite Join_abs, decide_False.
Qed.
Lemma target_without top fns leaf ybool docs ne fuel : IsAbs top = true -> clean top -> forall n dir s,
  YAMLTarget top fns leaf ybool docs ne fuel n dir s = YAMLTarget top fns leaf ybool (without top docs) ne fuel n dir s.
Proof.
  intros Ha Hc. induction fuel as [|fuel IH]; intros n dir s; cbn [YAMLTarget]; [done|].
  case_decide; [by apply decode_tag_ext|]. case_decide; [done|]. destruct (has_slash _); [|done].
  destruct (RelPath _ _) as [q|] eqn:Hq; [|done]. case_decide as Hf; [|done]. destruct (y_reg s !! q) as [[? ?]|]; [done|]. apply bind_ext; [|done].
  unfold ReadYAMLFile, without. rewrite decide_False.
  2:{ by eapply far_not_top; [| |apply joinpath2_abs|exact Hq|]. }
  destruct (docs _) as [doc|]; [|done]. destruct (file_dir top _) as [dir'|]; [|done]. unfold ReadYAML.
  case_decide; [done|]. destruct (n_content doc) as [|m [|]]; [done| |done]. case_decide; [done|]. destruct (pairs _); [|done]. by apply entries_ext.
Qed.
Lemma Join_abs_top top D : IsAbs top = true -> IsAbs (Join [top; D]) = true.
Proof. intros Ha. assert (top <> "") by (by intros ->). by rewrite Join_abs, decide_False. Qed.
Lemma file_dir_leads top D dir : IsAbs top = true -> file_dir top D = Some dir -> cd (cd [] top) dir = cd [] (Join [top; D]).
Proof.
  intros Ha. destruct (relpath_lem [] top (Join [top; D])) as (r & Hr & _ & Hcd); [by rewrite Join_abs_top|by left|].
  unfold file_dir. unfold RelPath in Hr. rewrite Hr. intros [= <-]. rewrite <-Hcd. by case_decide; [subst|].
Qed.
Lemma Join_top_clean top D : IsAbs top = true -> clean (Join [top; D]).
Proof. intros Ha. destruct (Join_clean [top; D]) as [E|E]; [|done]. apply (f_equal IsAbs) in E. by rewrite Join_abs_top in E. Qed.
Lemma leads_top top D dir : IsAbs top = true -> clean top -> file_dir top D = Some dir -> cd (cd [] top) dir = cd [] top -> Join [top; D] = top.
Proof. intros Ha Hc Hd E. apply abs_clean_inj; [by apply Join_abs_top|by apply Join_top_clean|done|done|]. by rewrite <-(file_dir_leads _ _ _ Ha Hd). Qed.
Lemma slash_flat y : has_slash y = false -> flat y.
Proof.
  induction y as [|c y IH]; [done|]. cbn [has_slash]. intros [H1 H2]%orb_false_iff. apply flat_cons. split; [by apply bool_decide_eq_false in H1|by apply IH].
Qed.
(** A name in another directory's file has a slash. *)
Lemma far_slash top D dir x : IsAbs top = true -> clean top -> file_dir top D = Some dir -> Join [top; D] <> top ->
  has_slash x = false -> x <> "" -> x <> "." -> x <> ".." -> has_slash (reg_name dir x) = true.
Proof.
  intros Ha Hc Hd Hne Hx Hx1 Hx2 Hx3. destruct (has_slash (reg_name dir x)) eqn:E; [done|]. exfalso. apply Hne. eapply leads_top; [done|done|done|].
  assert (Hcd : forall l y, has_slash y = false -> IsAbs y = false /\ cd l y = enter l y).
  { intros l y Hy. assert (Hf : flat y) by (by apply slash_flat). assert (Hya : IsAbs y = false).
    { destruct y as [|c y]; [done|]. simpl in *. by apply orb_false_iff in Hy as [? _]. }
    split; [done|]. unfold cd. rewrite Hya, Hf. done. }
  assert (Hj : forall l, cd l (reg_name dir x) = x :: cd l dir).
  { intros l. unfold reg_name. destruct (Hcd (cd l dir) x Hx) as [Hxa Hxe]. rewrite cd_Join; [|by repeat constructor]. cbn [fold_left]. rewrite Hxe. unfold enter.
    by rewrite !decide_False by naive_solver. }
  pose proof (Hj []) as H0. pose proof (Hj (cd [] top)) as H1. rewrite (proj2 (Hcd _ _ E)) in H0. rewrite (proj2 (Hcd _ _ E)) in H1. unfold enter in H0, H1.
  destruct (decide (reg_name dir x = "" \/ reg_name dir x = ".")); [done|]. destruct (decide (reg_name dir x = "..")); [done|]. injection H1 as _ H1. by rewrite <-H1.
Qed.

(** ** What holds of every decoder that makes objects and calls the given one. *)
Section rel.
  Context (top : string) (fns : list_fns) (leaf : string -> option (node -> string -> bool)) (ybool : node -> option bool) (ne : notexist).
  Context (R : ystate -> ystate -> Prop) (Hrefl : forall s, R s s) (Htrans : forall s1 s2 s3, R s1 s2 -> R s2 s3 -> R s1 s3)
    (Hnew : forall s sh, R s {| y_objs := y_objs s ++ [sh]; y_reg := y_reg s |}).
  Definition within {A} (s : ystate) (r : res A) : Prop := forall s' a, r = ROk s' a -> R s s'.
  Lemma within_err {A} s s1 e : within (A := A) s (RErr s1 e). Proof. done. Qed.
  Lemma within_bind {A B} s (r : res A) (f : ystate -> A -> res B) : within s r -> (forall s1 a, within s1 (f s1 a)) -> within s (bind r f).
  Proof. intros H Hf s' b E. destruct r as [s1 a|s1 e|]; simpl in E; [|done|done]. eapply Htrans; [by eapply H|by eapply Hf]. Qed.
  Lemma within_new s sh : within s (new sh s).
  Proof. intros s' o [= <- _]. apply Hnew. Qed.
  Lemma within_ok {A} s (a : A) : within s (ROk s a). Proof. by intros s' a' [= <- _]. Qed.
  Lemma within_lift {A} s l (f : list string -> res A) : (forall x, within s (f x)) -> within s (lift ne l s f).
  Proof. intros H. destruct l; simpl; [apply H|done]. Qed.
  Lemma within_map yt ns dir : (forall n d s, within s (yt n d s)) -> forall s, within s (map_targets yt ns dir s).
  Proof.
    intros H. induction ns as [|n ns IH]; intros s; simpl; [apply within_ok|]. apply within_bind; [apply H|]. intros s1 o.
    apply within_bind; [apply IH|]. intros. apply within_ok.
  Qed.
  Lemma within_deps t pre s : within s (mk_deps t pre s).
  Proof. apply within_bind; [apply within_new|]. intros. apply within_new. Qed.
  Lemma within_tag yt tag n dir : (forall n d s, within s (yt n d s)) -> forall s, within s (decode_tag top fns leaf ybool ne yt tag n dir s).
  Proof.
    intros H s. unfold decode_tag.
    case_decide; [case_decide; [done|]; apply within_bind; [by apply within_map|]; intros; apply within_new|].
    case_decide; [case_decide; [done|]; apply within_bind; [by apply within_map|]; intros; apply within_new|].
    case_decide.
    { destruct (n_kind n); try done.
      - destruct (n_content n); [done|]. apply within_bind; [apply H|]. intros. apply within_bind; [by apply within_map|]. intros. apply within_deps.
      - destruct (decode_struct n); [|done]. destruct (seq_field _); [|done]. apply within_bind; [apply H|]. intros. apply within_bind; [by apply within_map|]. intros. apply within_deps. }
    case_decide.
    { case_decide; [done|]. destruct (n_content n); [done|]. apply within_bind; [apply H|]. intros. apply within_lift. intros. apply within_new. }
    case_decide.
    { case_decide; [done|]. destruct (decode_struct n); [|done]. destruct (bool_field _ _); [|done]. apply within_bind; [apply H|]. intros.
      apply within_lift. intros. apply within_lift. intros. apply within_new. }
    destruct (leaf tag) as [acc|]; [|done]. destruct (acc n dir); [apply within_new|done].
  Qed.
End rel.

(** ** Reading to the end: what each name stands for afterwards. *)
Lemma denotes_def_mono top fns leaf ybool pre (def def' : string -> string -> node -> node -> Prop) objs : (forall dir q k v, def dir q k v -> def' dir q k v) ->
  forall dir n o, denotes top fns leaf ybool pre def objs dir n o -> denotes top fns leaf ybool pre def' objs dir n o.
Proof.
  intros Hd. apply (denotes_ind2 top fns leaf ybool pre def objs
    (fun dir n o _ => denotes top fns leaf ybool pre def' objs dir n o)
    (fun dir ns os _ => denote top fns leaf ybool pre def' objs dir ns os)); intros.
  - by eapply den_name.
  - by eapply den_top.
  - by eapply den_far_pre.
  - eapply den_far; eauto.
  - eapply den_all; eauto.
  - eapply den_seq; eauto.
  - eapply den_deps; eauto.
  - eapply den_arg; eauto.
  - eapply den_files; eauto.
  - eapply den_leaf; eauto.
  - constructor.
  - by constructor.
Qed.
Section settled.
  Context (top : string) (fns : list_fns) (leaf : string -> option (node -> string -> bool))
    (ybool : node -> option bool) (docs : string -> option node) (ne : notexist).
  Context (pre : string -> nat -> Prop) (def : string -> string -> node -> node -> Prop).
  Hypothesis Hdef : forall dir q k v, defines top docs dir q k v -> def dir q k v.
  Notation den := (denotes top fns leaf ybool pre def).
  Notation inv := (inv top fns leaf ybool pre def).
  Notation YT := (YAMLTarget top fns leaf ybool docs ne).
  Notation yt_good := (yt_good top fns leaf ybool pre def).
  (** The name stands for its last definition in one of the files. *)
  Definition settled (s : ystate) (q : string) : Prop :=
    exists D doc ps dir k v o, docs (Join [top; D]) = Some doc /\ file_dir top D = Some dir /\ has_entries doc ps /\
      last_def dir ps q k v /\ y_reg s !! q = Some (key_doc k, o) /\ den (y_objs s) dir v o.
  Definition sext (s s' : ystate) : Prop := y_objs s `prefix_of` y_objs s' /\ forall q, y_reg s' !! q = y_reg s !! q \/ settled s' q.
  Definition R (s s' : ystate) : Prop := inv s -> inv s' /\ sext s s'.
  Lemma settled_same s s' q : y_objs s `prefix_of` y_objs s' -> y_reg s' !! q = y_reg s !! q -> settled s q -> settled s' q.
  Proof.
    intros Hp E (D & doc & ps & dir & k & v & o & H1 & H2 & H3 & H4 & H5 & H6). exists D, doc, ps, dir, k, v, o. rewrite E.
    do 5 (split; [done|]). by eapply denotes_mono.
  Qed.
  Lemma R_refl s : R s s.
  Proof. intros Hi. split; [done|]. split; [done|]. by left. Qed.
  Lemma R_trans s1 s2 s3 : R s1 s2 -> R s2 s3 -> R s1 s3.
  Proof.
    intros H1 H2 Hi. destruct (H1 Hi) as (Hi2 & Hp1 & E1). destruct (H2 Hi2) as (Hi3 & Hp2 & E2). split; [done|]. split; [by etrans|].
    intros q. destruct (E2 q) as [E|?]; [|by right]. destruct (E1 q) as [E'|Hs]; [left; by rewrite E|right; by eapply settled_same].
  Qed.
  Lemma R_new s sh : R s {| y_objs := y_objs s ++ [sh]; y_reg := y_reg s |}.
  Proof.
    intros Hi. split; [|split; [by apply prefix_app_r|by left]].
    eapply ext_inv; [|exact Hi]. split; [by apply prefix_app_r|by left].
  Qed.
  Lemma entries_settle yt dir ps : yt_good yt -> (forall n d s, within R s (yt n d s)) ->
    (forall k v, (k, v) ∈ ps -> target_key k -> def dir (reg_name dir (n_value k)) k v) ->
    forall saw s s', inv s -> entries_loop yt dir ps saw s = ROk s' tt -> inv s' /\ y_objs s `prefix_of` y_objs s' /\ forall q,
      (exists k v o, last_def dir ps q k v /\ y_reg s' !! q = Some (key_doc k, o) /\ den (y_objs s') dir v o) \/
      settled s' q \/ (no_def dir ps q /\ y_reg s' !! q = y_reg s !! q).
  Proof.
    intros Hy HR. induction ps as [|[k v] ps IH]; intros Hps saw s s' Hi E; cbn [entries_loop] in E.
    { case_decide; [done|]. injection E as <-. split; [done|]. split; [done|]. intros q. right. right. split; [|done]. by intros ? ? ?%elem_of_nil. }
    case_decide as Hk; [done|].
    assert (Hps' : forall k v, (k, v) ∈ ps -> target_key k -> def dir (reg_name dir (n_value k)) k v) by (intros ? ? ?; apply Hps; by right).
    specialize (IH Hps').
    assert (Hmore : forall q k' v', last_def dir ps q k' v' -> last_def dir ((k, v) :: ps) q k' v').
    { intros q k' v' (b & a & -> & H). by exists ((k, v) :: b), a. }
    case_decide as Hdir.
    { case_decide; [done|]. case_decide; [done|]. destruct (IH _ _ _ Hi E) as (Hi' & Hp & HH). split; [done|]. split; [done|]. intros q.
      destruct (HH q) as [(k' & v' & o & Hl & H')|[?|[Hn ?]]]; [left; exists k', v', o; split; [by apply Hmore|done]|by right; left|].
      right. right. split; [|done]. intros k' v' [[= -> ->]|Hin]%elem_of_cons Hk'; [by destruct Hk' as (_ & ? & _)|by eapply Hn]. }
    destruct (has_slash (n_value k)) eqn:Hs; [done|]. assert (Hkey : target_key k) by done.
    destruct (yt v dir s) as [s1 o|s1 e|] eqn:E1; simpl in E; [|done|done].
    destruct (HR _ _ _ _ _ E1 Hi) as (Hi1 & Hp1 & Hs1). pose proof (Hy v dir s Hi) as Hg. rewrite E1 in Hg. destruct Hg as (_ & _ & Hden).
    destruct (register_ext top fns leaf ybool pre def s1 dir k v o) as (_ & Hi2 & _); [done|apply Hps; [by left|done]|done|].
    destruct (IH _ _ _ Hi2 E) as (Hi' & Hp & HH). cbn [y_objs y_reg register] in Hp, HH. split; [done|]. split; [by etrans|].
    intros q. destruct (HH q) as [(k' & v' & o' & Hl & H')|[?|[Hn Eq]]]; [left; exists k', v', o'; split; [by apply Hmore|done]|by right; left|].
    destruct (decide (q = reg_name dir (n_value k))) as [->|Hq].
    - left. exists k, v, o. split; [exists [], ps; split; [done|]; split; [done|]; split; [done|exact Hn]|]. rewrite Eq, lookup_insert. split; [done|]. by eapply denotes_mono.
    - rewrite lookup_insert_ne in Eq by done. destruct (Hs1 q) as [Eq'|Hst].
      + right. right. split; [|by rewrite Eq]. intros k' v' [[= -> ->]|Hin]%elem_of_cons Hk'; [by intros <-|by eapply Hn].
      + right. left. by eapply (settled_same s1).
  Qed.
  Lemma read_settle yt doc dir : yt_good yt -> (forall n d s, within R s (yt n d s)) ->
    (forall ps k v, has_entries doc ps -> (k, v) ∈ ps -> target_key k -> def dir (reg_name dir (n_value k)) k v) ->
    forall s s', inv s -> ReadYAML yt doc dir s = ROk s' tt -> exists ps, has_entries doc ps /\ inv s' /\ y_objs s `prefix_of` y_objs s' /\ forall q,
      (exists k v o, last_def dir ps q k v /\ y_reg s' !! q = Some (key_doc k, o) /\ den (y_objs s') dir v o) \/
      settled s' q \/ (no_def dir ps q /\ y_reg s' !! q = y_reg s !! q).
  Proof.
    intros Hy HR Hd s s' Hi E. unfold ReadYAML in E. case_decide as Hk; [done|].
    destruct (n_content doc) as [|m [|]] eqn:Hc; [done| |done]. case_decide as Hm; [done|].
    destruct (pairs (n_content m)) as [ps|] eqn:Hp; [|done]. apply pairs_spec in Hp.
    assert (Hent : has_entries doc ps) by (by exists m). exists ps. split; [done|]. eapply entries_settle; [done|done| |done|done]. intros k v. by apply Hd.
  Qed.
  Lemma target_settle fuel : forall n dir s, within R s (YT fuel n dir s).
  Proof.
    induction fuel as [|fuel IH]; intros n dir s; cbn [YAMLTarget]; [done|].
    case_decide; [apply within_tag; [exact R_refl|exact R_trans|exact R_new|exact IH]|]. case_decide; [done|].
    assert (Hn : forall sh, within R s (new sh s)) by (apply within_new, R_new).
    destruct (has_slash _); [|apply Hn]. destruct (RelPath _ _) as [q|] eqn:Hq; [|done]. case_decide as Hf; [|apply Hn].
    destruct (y_reg s !! q) as [[? ?]|]; [apply within_ok, R_refl|].
    apply within_bind; [exact R_trans| |].
    2:{ intros s1 _. destruct (y_reg s1 !! q) as [[? ?]|]; [apply within_ok, R_refl|done]. }
    intros s' [] E Hi. unfold ReadYAMLFile in E. destruct (docs _) as [doc|] eqn:Hdoc; [|done]. destruct (file_dir top (Dir q)) as [dir'|] eqn:Hdir; [|done].
    apply read_settle in E as (ps & Hps & Hi' & Hp & HH); [|by apply yaml_target_good|exact IH| |done].
    2:{ intros ps k v Hps Hin Hkey. apply Hdef. by exists (Dir q), doc, ps. }
    split; [done|]. split; [done|]. intros q'. destruct (HH q') as [(k & v & o & H1 & H2 & H3)|[?|[_ ?]]]; [|by right|by left].
    right. by exists (Dir q), doc, ps, dir', k, v, o.
  Qed.
End settled.

Lemma top_slash x : has_slash x = false -> has_slash (Join [""; x]) = false.
Proof.
  intros Hx. rewrite Join_empty. destruct (decide (x = "")) as [->|Hne]; [done|]. rewrite Join_ne by done.
  destruct (decide (x = ".")) as [->|]; [done|]. destruct (decide (x = "..")) as [->|]; [done|].
  rewrite Clean_names; [done| |done]. constructor; [|constructor]. apply slash_flat in Hx. done.
Qed.
(** The project file, read to its end. *)
Lemma project_read top fns leaf ybool docs ne fuel doc s s' : IsAbs top = true -> clean top -> docs top = Some doc ->
  (forall dir q k v, defines top docs dir q k v -> dir <> "" -> n_value k <> "" /\ n_value k <> "." /\ n_value k <> "..") ->
  ReadYAML (YAMLTarget top fns leaf ybool docs ne fuel) doc "" s = ROk s' tt ->
  let den := denotes top fns leaf ybool (fun q o => exists d, y_reg s !! q = Some (d, o)) (defines top docs) in
  exists ps, has_entries doc ps /\ forall q,
    (exists k v o, last_def "" ps q k v /\ y_reg s' !! q = Some (key_doc k, o) /\ den (y_objs s') "" v o) \/
    (no_def "" ps q /\
      (y_reg s' !! q = y_reg s !! q \/
       exists D doc' ps' dir k v o, Join [top; D] <> top /\ docs (Join [top; D]) = Some doc' /\ file_dir top D = Some dir /\ has_entries doc' ps' /\
         last_def dir ps' q k v /\ y_reg s' !! q = Some (key_doc k, o) /\ den (y_objs s') dir v o)).
Proof.
  intros Ha Hc Hdoc Hnames E den. set (docs' := without top docs). set (pre := fun q o => exists d, y_reg s !! q = Some (d, o)) in *.
  assert (Hsub : forall p d, docs' p = Some d -> p <> top /\ docs p = Some d).
  { intros p d H. unfold docs', without in H. case_decide; [done|]. done. }
  assert (Hdd : forall dir q k v, defines top docs' dir q k v -> defines top docs dir q k v).
  { intros dir q k v (D & d & ps & H1 & H2 & H3). apply Hsub in H1 as [Hne H1]. by exists D, d, ps. }
  assert (Hinv : inv top fns leaf ybool pre (defines top docs) s) by (intros q d o H; left; by exists d).
  unfold ReadYAML in E. case_decide as Hk; [done|].
  destruct (n_content doc) as [|m [|]] eqn:Hcn; [done| |done]. case_decide as Hm; [done|].
  destruct (pairs (n_content m)) as [ps|] eqn:Hp; [|done]. apply pairs_spec in Hp.
  assert (Hent : has_entries doc ps) by (by exists m). exists ps. split; [done|].
  rewrite (entries_ext _ (YAMLTarget top fns leaf ybool docs' ne fuel)) in E by (intros; by apply target_without).
  assert (Hgood : yt_good top fns leaf ybool pre (defines top docs) (YAMLTarget top fns leaf ybool docs' ne fuel)) by (by apply yaml_target_good).
  destruct (entries_settle top fns leaf ybool docs' pre (defines top docs) (YAMLTarget top fns leaf ybool docs' ne fuel) "" ps Hgood) with (saw := false) (s := s) (s' := s')
    as (_ & _ & H); [by apply target_settle| |done|done|].
  { intros k v Hin Hkey. exists "", doc, ps. rewrite Join_top, file_dir_top by done. done. }
  intros q. destruct (H q) as [?|[(D & doc' & ps' & dir & k & v & o & H1 & H2 & H3 & H4 & H5 & H6)|[Hn Eq]]]; [by left| |right; split; [done|by left]].
  apply Hsub in H1 as [Hne H1]. right. split; [|right; by exists D, doc', ps', dir, k, v, o].
  destruct H4 as (b & a & -> & Hkey & <- & _).
  assert (Hdir : dir <> "") by (intros ->; apply Hne; by eapply leads_top).
  destruct (Hnames dir (reg_name dir (n_value k)) k v) as (N1 & N2 & N3); [|done|].
  { exists D, doc', (b ++ (k, v) :: a). split_and!; try done. apply elem_of_app. right. by left. }
  assert (Hsl : has_slash (reg_name dir (n_value k)) = true) by (eapply far_slash; try done; by destruct Hkey as (_ & _ & ?)).
  intros k' v' Hin (_ & _ & Hk') Ek. rewrite <-Ek in Hsl. unfold reg_name in Hsl. apply top_slash in Hk'. congruence.
Qed.
