From stdpp Require Import base gmap list strings.
From Coq Require Import Ascii.
From Verif Require Import PathModel YamlModel YamlSpec.
Local Open Scope list_scope.

(** ** Doc strings *)
Lemma trim_doc_spec s : exists t, s = t +:+ trim_doc s /\ Forall hash_or_blank (String.list_ascii_of_string t) /\ forall c u, trim_doc s = String c u -> ~ hash_or_blank c.
Proof.
  induction s as [|c s (t & E & Ht & Hl)]; [exists ""; split; [done|split; [constructor|done]]|]. simpl. destruct (decide (c = "#"%char \/ c = " "%char)) as [Hc|Hc].
  - exists (String c t). split; [|split; [by constructor|done]]. change (String c s = String c (t +:+ trim_doc s)). by rewrite <- E.
  - exists "". split; [done|]. split; [constructor|]. intros c' u [= <- <-]. done.
Qed.
Lemma trimmed_unique t : forall t' d d', Forall hash_or_blank (String.list_ascii_of_string t) -> Forall hash_or_blank (String.list_ascii_of_string t') ->
  (forall c s, d = String c s -> ~ hash_or_blank c) -> (forall c s, d' = String c s -> ~ hash_or_blank c) -> t +:+ d = t' +:+ d' -> d = d'.
Proof.
  induction t as [|c t IH]; intros t' d d' Ht Ht' Hd Hd' E.
  - destruct t' as [|c' t']; [exact E|]. change (d = String c' (t' +:+ d')) in E. exfalso. apply (Hd _ _ E). by inversion Ht'.
  - destruct t' as [|c' t'].
    + change (String c (t +:+ d) = d') in E. exfalso. apply (Hd' c (t +:+ d)); [done|]. by inversion Ht.
    + change (String c (t +:+ d) = String c' (t' +:+ d')) in E. injection E as -> E. eapply IH; [..|exact E]; try done; [by inversion Ht|by inversion Ht'].
Qed.
Lemma key_doc_spec k d : d = key_doc k <-> doc_of k d.
Proof.
  unfold key_doc. set (s := if decide (n_head k = "") then n_line k else n_head k).
  assert (Hs : forall c, c = s <-> (n_head k <> "" /\ c = n_head k \/ n_head k = "" /\ c = n_line k)). { intros c. subst s. case_decide; naive_solver. }
  destruct (trim_doc_spec s) as (t & E & Ht & Hl). split.
  - intros ->. exists s, t. split_and!; [done|by apply Hs|done|done].
  - intros (c & t' & Ec & Hc & Ht' & Hd). apply Hs in Hc. rewrite Hc, E in Ec. symmetry. by eapply (trimmed_unique t t').
Qed.

(** ** Tags *)
Lemma tag_untagged n : normalizeTag (n_tag n) = "" <-> untagged n.
Proof.
  unfold untagged, normalizeTag. destruct (n_tag n) as [|c s]; [naive_solver|].
  destruct (decide (c = "!"%char)) as [->|Hc].
  - destruct s as [|d s]; [naive_solver|]. destruct (decide (d = "!"%char)) as [->|Hd]; [naive_solver|].
    split; [done|]. intros [?|[?|[s' ?]]]; try done. simplify_eq.
  - split; [done|]. intros [?|[?|[s' ?]]]; simplify_eq.
Qed.
Lemma tag_has n t : t <> "" -> (normalizeTag (n_tag n) = t <-> has_tag n t).
Proof.
  intros Ht. unfold has_tag, begins, normalizeTag. destruct (n_tag n) as [|c s].
  { split; [congruence|]. intros (_ & _ & [?|?]); congruence. }
  destruct (decide (c = "!"%char)) as [->|Hc].
  - destruct s as [|d s].
    + split; [congruence|]. intros (_ & Hb & [<-|[= <-]]); [|done]. destruct Hb. eauto.
    + destruct (decide (d = "!"%char)) as [->|Hd].
      * split; [congruence|]. intros (_ & Hb & [<-|[= <-]]); destruct Hb; eauto.
      * split.
        -- intros <-. split; [done|]. split; [intros [? ?]; congruence|auto].
        -- intros (_ & Hb & [<-|[= <-]]); [|done]. destruct Hb. eauto.
  - split.
    + intros <-. split; [done|]. split; [intros [? ?]; congruence|auto].
    + intros (_ & _ & [<-|?]); [done|congruence].
Qed.
Lemma tag_ne n : normalizeTag (n_tag n) <> "" -> has_tag n (normalizeTag (n_tag n)).
Proof. intros H. by apply tag_has. Qed.
Lemma has_tag_eq n t : has_tag n t -> normalizeTag (n_tag n) = t.
Proof. intros H. apply tag_has; [by destruct H|done]. Qed.
Lemma untagged_has n t : untagged n -> ~ has_tag n t.
Proof. intros Hu Ht. apply tag_untagged in Hu. assert (t <> "") by (by destruct Ht). apply has_tag_eq in Ht. congruence. Qed.
Lemma has_tag_fun n t t' : has_tag n t -> has_tag n t' -> t = t'.
Proof. intros H1%has_tag_eq H2%has_tag_eq. congruence. Qed.

(** ** String lists *)
Lemma contributes_fun fns dir n l l' : contributes fns dir n l -> contributes fns dir n l' -> l = l'.
Proof.
  intros H H'. inversion H; subst; inversion H'; subst; try done.
  - exfalso. by eapply untagged_has.
  - exfalso. by eapply untagged_has.
  - assert (t = t0) as -> by (by eapply has_tag_fun). congruence.
Qed.
Lemma contributes_fails fns dir n l e : contributes fns dir n l -> ~ fails fns dir n e.
Proof.
  intros H H'. inversion H; subst; inversion H'; subst; try done; try (by eapply untagged_has).
  - assert (t = t0) as -> by (by eapply has_tag_fun). congruence.
  - assert (t = t0) as -> by (by eapply has_tag_fun). congruence.
Qed.
Lemma element_cases fns dir n : (exists l, contributes fns dir n l) \/ exists e, fails fns dir n e.
Proof.
  destruct (decide (normalizeTag (n_tag n) = "")) as [Hu|Ht].
  - apply tag_untagged in Hu. destruct (decide (n_kind n = KScalar)); [left; eexists; by constructor|right; eexists; by constructor].
  - apply tag_ne in Ht. destruct (fns (normalizeTag (n_tag n))) as [fn|] eqn:E.
    + destruct (fn n dir) as [l|e] eqn:E'; [left; eexists; by eapply contrib_fn|right; eexists; by eapply fails_fn].
    + right. eexists. by eapply fails_unknown.
Qed.
Lemma from_nodes_step fns dir n ns :
  YAMLStringListFromNodes fns (n :: ns) dir =
    match (if decide (normalizeTag (n_tag n) = "" /\ n_kind n = KScalar) then LOk [n_value n]
           else if decide (normalizeTag (n_tag n) = "") then LErr (BadKind (n_kind n) KScalar)
           else match fns (normalizeTag (n_tag n)) with None => LErr (UnknownListTag (normalizeTag (n_tag n))) | Some fn => fn n dir end) with
    | LErr e => LErr e
    | LOk l => match YAMLStringListFromNodes fns ns dir with LOk l' => LOk (l ++ l') | e => e end
    end.
Proof.
  cbn [YAMLStringListFromNodes]. destruct (decide _); [done|]. destruct (decide _); [done|].
  destruct (fns _) as [fn|]; [|done]. by destruct (fn n dir).
Qed.
Lemma element_spec fns dir n :
  let r := if decide (normalizeTag (n_tag n) = "" /\ n_kind n = KScalar) then LOk [n_value n]
           else if decide (normalizeTag (n_tag n) = "") then LErr (BadKind (n_kind n) KScalar)
           else match fns (normalizeTag (n_tag n)) with None => LErr (UnknownListTag (normalizeTag (n_tag n))) | Some fn => fn n dir end in
  (forall l, r = LOk l <-> contributes fns dir n l) /\ (forall e, r = LErr e <-> fails fns dir n e).
Proof.
  cbv zeta. destruct (decide (normalizeTag (n_tag n) = "" /\ n_kind n = KScalar)) as [[Hu Hk]|Hn].
  { apply tag_untagged in Hu. assert (Hc : contributes fns dir n [n_value n]) by (by constructor). split.
    - intros l. split; [by intros [= <-]|]. intros H. f_equal. by eapply contributes_fun.
    - intros e. split; [done|]. intros H. by eapply contributes_fails in H. }
  destruct (decide (normalizeTag (n_tag n) = "")) as [Hu|Ht].
  { assert (Hk : n_kind n <> KScalar) by naive_solver. apply tag_untagged in Hu.
    assert (Hf : fails fns dir n (BadKind (n_kind n) KScalar)) by (by constructor). split.
    - intros l. split; [done|]. intros H. by eapply contributes_fails in H.
    - intros e. split; [by intros [= <-]|]. intros H. inversion H; subst; try done; by exfalso; eapply untagged_has. }
  apply tag_ne in Ht. destruct (fns (normalizeTag (n_tag n))) as [fn|] eqn:E.
  - split.
    + intros l. split; [intros; by eapply contrib_fn|]. intros H. inversion H; subst; [exfalso; by eapply untagged_has|].
      assert (t = normalizeTag (n_tag n)) as -> by (by eapply has_tag_fun). congruence.
    + intros e. split; [intros; by eapply fails_fn|]. intros H.
      inversion H; subst; [exfalso; by eapply untagged_has| |];
        assert (t = normalizeTag (n_tag n)) as -> by (by eapply has_tag_fun); congruence.
  - split.
    + intros l. split; [done|]. intros H. inversion H; subst; [exfalso; by eapply untagged_has|].
      assert (t = normalizeTag (n_tag n)) as -> by (by eapply has_tag_fun). congruence.
    + intros e. split; [intros [= <-]; by eapply fails_unknown|]. intros H.
      inversion H; subst; [exfalso; by eapply untagged_has| |];
        assert (t = normalizeTag (n_tag n)) as -> by (by eapply has_tag_fun); congruence.
Qed.
Lemma from_nodes_ok fns dir ns : forall l, YAMLStringListFromNodes fns ns dir = LOk l <->
  exists ls, Forall2 (contributes fns dir) ns ls /\ l = concat ls.
Proof.
  induction ns as [|n ns IH]; intros l.
  - split; [intros [= <-]; exists []; by split|]. intros (ls & H & ->). by inversion H.
  - rewrite from_nodes_step. destruct (element_spec fns dir n) as [H1 H2].
    destruct (if decide _ then _ else _) as [l1|e] eqn:E.
    + specialize (proj1 (H1 l1) eq_refl) as Hc. destruct (YAMLStringListFromNodes fns ns dir) as [l2|e].
      * destruct (proj1 (IH l2) eq_refl) as (ls & Hls & ->). split.
        -- intros [= <-]. exists (l1 :: ls). split; [by constructor|done].
        -- intros (ls' & H & ->). inversion H as [|? l1' ? ls2 Hc' Hls']; subst.
           assert (l1' = l1) as -> by (by eapply contributes_fun). simpl. f_equal. f_equal.
           assert (Hx : LOk (concat ls) = LOk (concat ls2)) by (apply IH; eauto). congruence.
      * split; [done|]. intros (ls' & H & ->). inversion H as [|? l1' ? ls2 Hc' Hls']; subst.
        assert (Hx : LErr e = LOk (concat ls2)) by (apply IH; eauto). done.
    + split; [done|]. intros (ls' & H & ->). inversion H as [|? l1' ? ls2 Hc' Hls']; subst.
      apply H1 in Hc'. congruence.
Qed.
Lemma from_nodes_err fns dir ns : forall e, YAMLStringListFromNodes fns ns dir = LErr e <->
  exists before n after ls, ns = before ++ n :: after /\ Forall2 (contributes fns dir) before ls /\ fails fns dir n e.
Proof.
  induction ns as [|n ns IH]; intros e.
  - split; [done|]. intros ([|? ?] & ? & ? & ? & ? & _); done.
  - rewrite from_nodes_step. destruct (element_spec fns dir n) as [H1 H2].
    destruct (if decide _ then _ else _) as [l1|e1] eqn:E.
    + specialize (proj1 (H1 l1) eq_refl) as Hc. destruct (YAMLStringListFromNodes fns ns dir) as [l2|e2].
      * split; [done|]. intros ([|b before] & n' & after & ls & Heq & Hb & Hf).
        -- injection Heq as <- <-. by eapply contributes_fails in Hf.
        -- injection Heq as <- ->. inversion Hb as [|? ? ? ls2]; subst. assert (Hx : LOk l2 = LErr e) by (apply IH; eauto 10). done.
      * split.
        -- intros [= <-]. destruct (proj1 (IH e2) eq_refl) as (b & n' & a & ls & -> & Hb & Hf).
           exists (n :: b), n', a, (l1 :: ls). split; [done|]. split; [by constructor|done].
        -- intros ([|b before] & n' & after & ls & Heq & Hb & Hf).
           ++ injection Heq as <- <-. by eapply contributes_fails in Hf.
           ++ injection Heq as <- ->. inversion Hb as [|? ? ? ls2]; subst. assert (Hx : LErr e2 = LErr e) by (apply IH; eauto 10). done.
    + specialize (proj1 (H2 e1) eq_refl) as Hf1. split.
      * intros [= <-]. exists [], n, ns, []. split; [done|]. split; [constructor|done].
      * intros ([|b before] & n' & after & ls & Heq & Hb & Hf).
        -- injection Heq as <- <-. apply H2 in Hf. congruence.
        -- injection Heq as <- ->. inversion Hb as [|? ? ? ls2 Hc]; subst. apply H1 in Hc. congruence.
Qed.

(** ** Pairs of keys and values *)
Lemma pairs_spec l : forall ps, pairs l = Some ps <-> l = flat_map (fun p => [p.1; p.2]) ps.
Proof.
  induction l as [l IH] using (induction_ltof1 _ (@length node)); unfold ltof in IH. intros ps.
  destruct l as [|k [|v l]]; cbn [pairs].
  - split; [by intros [= <-]|]. by destruct ps as [|[? ?] ?].
  - split; [done|]. destruct ps as [|[? ?] [|[? ?] ?]]; done.
  - destruct (pairs l) as [ps'|] eqn:E.
    + apply IH in E as El; [|simpl; lia]. split; [intros [= <-]; simpl; congruence|].
      destruct ps as [|[k' v'] ps]; [done|]. simpl. intros [= -> -> Hl]. f_equal. f_equal.
      assert (Hx : pairs l = Some ps) by (apply IH; [simpl; lia|done]). congruence.
    + split; [done|]. destruct ps as [|[k' v'] ps]; [done|]. simpl. intros [= -> -> Hl].
      assert (Hx : pairs l = Some ps) by (apply IH; [simpl; lia|done]). congruence.
Qed.
Lemma pairs_elem l ps k v : pairs l = Some ps -> (k, v) ∈ ps -> k ∈ l /\ v ∈ l.
Proof.
  intros ->%pairs_spec H. induction ps as [|[k' v'] ps IH]; [by apply elem_of_nil in H|]. simpl.
  rewrite !elem_of_cons. apply elem_of_cons in H as [[= -> ->]|H]; [tauto|]. apply IH in H as [? ?]. tauto.
Qed.
Lemma field_cases name fs : field name fs = zero_node \/ (name, field name fs) ∈ fs.
Proof.
  induction fs as [|[k v] fs IH]; [by left|]. simpl. rewrite elem_of_cons.
  destruct (decide (k = name)) as [->|]; [tauto|]. destruct IH; tauto.
Qed.
Lemma struct_kind n fs : decode_struct n = Some fs -> n_kind n = KMapping.
Proof. unfold decode_struct. by destruct (n_kind n). Qed.
Lemma struct_elem n fs name v : decode_struct n = Some fs -> (name, v) ∈ fs -> v ∈ n_content n.
Proof.
  unfold decode_struct. destruct (n_kind n); try done. destruct (pairs (n_content n)) as [ps|] eqn:E; [|done].
  destruct (decide _); [|done]. intros [= <-]. intros ([k v'] & [= -> ->] & H)%elem_of_list_fmap. by eapply pairs_elem.
Qed.

(** ** Sizes of nodes *)
Fixpoint nsize (n : node) : nat :=
  let 'Node _ _ _ _ _ cs := n in S ((fix go l := match l with [] => 0 | c :: l => nsize c + go l end) cs).
Lemma nsize_content n c : c ∈ n_content n -> nsize c < nsize n.
Proof.
  destruct n as [k t v h l cs]. simpl. induction cs as [|c' cs IH]; [by intros ?%elem_of_nil|].
  intros [->|H]%elem_of_cons; [lia|]. specialize (IH H). lia.
Qed.

(** ** Objects made earlier stay *)
Scheme denotes_ind2 := Induction for denotes Sort Prop
  with denote_ind2 := Induction for denote Sort Prop.
Lemma denotes_mono top fns leaf ybool pre def objs objs' : objs `prefix_of` objs' ->
  forall dir n o, denotes top fns leaf ybool pre def objs dir n o -> denotes top fns leaf ybool pre def objs' dir n o.
Proof.
  intros Hp. assert (Hl : forall i x, objs !! i = Some x -> objs' !! i = Some x) by (intros; by eapply prefix_lookup).
  apply (denotes_ind2 top fns leaf ybool pre def objs
    (fun dir n o _ => denotes top fns leaf ybool pre def objs' dir n o)
    (fun dir ns os _ => denote top fns leaf ybool pre def objs' dir ns os)); intros.
  - eapply den_name; eauto.
  - eapply den_top; eauto.
  - eapply den_far_pre; eauto.
  - eapply den_far; eauto.
  - eapply den_all; eauto.
  - eapply den_seq; eauto.
  - eapply den_deps; eauto.
  - eapply den_arg; eauto.
  - eapply den_files; eauto.
  - eapply den_leaf; eauto.
  - constructor.
  - by constructor.
Qed.
Lemma denote_mono top fns leaf ybool pre def objs objs' dir ns os : objs `prefix_of` objs' ->
  denote top fns leaf ybool pre def objs dir ns os -> denote top fns leaf ybool pre def objs' dir ns os.
Proof. intros Hp. induction 1; constructor; auto. by eapply denotes_mono. Qed.

Section sound.
  Context (top : string) (fns : list_fns) (leaf : string -> option (node -> string -> bool))
    (ybool : node -> option bool) (docs : string -> option node) (ne : notexist).
  Context (pre : string -> nat -> Prop) (def : string -> string -> node -> node -> Prop).
  Hypothesis Hdef : forall dir q k v, defines top docs dir q k v -> def dir q k v.

  Notation denotes := (denotes top fns leaf ybool pre def).
  Notation denote := (denote top fns leaf ybool pre def).

  (** The entry of [q] comes from a definition. *)
  Definition defined (s : ystate) (q : string) : Prop :=
    exists d o dir k v, y_reg s !! q = Some (d, o) /\ def dir q k v /\ d = key_doc k /\ denotes (y_objs s) dir v o.
  Definition ext (s s' : ystate) : Prop :=
    y_objs s `prefix_of` y_objs s' /\ forall q, y_reg s' !! q = y_reg s !! q \/ defined s' q.
  Definition inv (s : ystate) : Prop :=
    forall q d o, y_reg s !! q = Some (d, o) -> pre q o \/ defined s q.

  Lemma ext_refl s : ext s s.
  Proof. split; [done|]. auto. Qed.
  Lemma defined_same s s' q : y_objs s `prefix_of` y_objs s' -> y_reg s' !! q = y_reg s !! q -> defined s q -> defined s' q.
  Proof.
    intros Hp He (d & o & dir & k & v & Hq & Hd & -> & Hn). exists (key_doc k), o, dir, k, v. rewrite He. split_and!; try done.
    by eapply denotes_mono.
  Qed.
  Lemma ext_trans s1 s2 s3 : ext s1 s2 -> ext s2 s3 -> ext s1 s3.
  Proof.
    intros [Hp1 H1] [Hp2 H2]. split; [by etrans|]. intros q. destruct (H2 q) as [E|?]; [|auto].
    destruct (H1 q) as [E'|Hd]; [left; congruence|]. right. by eapply defined_same.
  Qed.
  Lemma ext_defined s s' q : ext s s' -> defined s q -> defined s' q.
  Proof. intros [Hp H] Hd. destruct (H q) as [E|?]; [|done]. by eapply defined_same. Qed.
  Lemma ext_inv s s' : ext s s' -> inv s -> inv s'.
  Proof.
    intros He Hi q d o Hq. destruct He as [Hp H]. destruct (H q) as [E|?]; [|auto]. rewrite E in Hq.
    destruct (Hi q d o Hq) as [?|Hd]; [auto|]. right. by eapply defined_same.
  Qed.

  (** Results *)
  Definition good {A} (s : ystate) (r : res A) (P : ystate -> A -> Prop) : Prop :=
    match r with ROk s' a => inv s' /\ ext s s' /\ P s' a | RErr s' _ => inv s' /\ ext s s' | ROut => True end.
  Lemma good_bind {A B} s (r : res A) (f : ystate -> A -> res B) P Q :
    good s r P -> (forall s' a, inv s' -> ext s s' -> P s' a -> good s' (f s' a) Q) -> good s (bind r f) Q.
  Proof.
    intros H Hf. destruct r as [s' a|s'|]; simpl in *; [|done|done]. destruct H as (Hi & He & HP).
    specialize (Hf s' a Hi He HP). destruct (f s' a) as [s2 b|s2|]; simpl in *; [| |done].
    - destruct Hf as (? & ? & ?). split_and!; [done| |done]. by eapply ext_trans.
    - destruct Hf as (? & ?). split; [done|]. by eapply ext_trans.
  Qed.
  Lemma good_err {A} s e (P : ystate -> A -> Prop) : inv s -> good s (RErr s e) P.
  Proof. intros. split; [done|apply ext_refl]. Qed.
  Lemma good_new s sh (P : ystate -> nat -> Prop) : inv s ->
    (forall s' o, inv s' -> ext s s' -> y_objs s' !! o = Some sh -> P s' o) -> good s (new sh s) P.
  Proof.
    intros Hi HP. unfold new, alloc. simpl.
    assert (He : ext s {| y_objs := y_objs s ++ [sh]; y_reg := y_reg s |}).
    { split; [by apply prefix_app_r|]. simpl. auto. }
    split_and!; [by eapply ext_inv|done|]. apply HP; [by eapply ext_inv|done|]. simpl. by rewrite lookup_app_r, Nat.sub_diag by done.
  Qed.
  Lemma good_weaken {A} s (r : res A) (P Q : ystate -> A -> Prop) : (forall s' a, P s' a -> Q s' a) -> good s r P -> good s r Q.
  Proof. intros H. destruct r; simpl; naive_solver. Qed.

  Definition yt_good (yt : node -> string -> ystate -> res nat) : Prop :=
    forall n dir s, inv s -> good s (yt n dir s) (fun s' o => denotes (y_objs s') dir n o).

  Lemma map_targets_good yt ns dir : yt_good yt -> forall s, inv s ->
    good s (map_targets yt ns dir s) (fun s' os => denote (y_objs s') dir ns os).
  Proof.
    intros Hy. induction ns as [|n ns IH]; intros s Hi; simpl.
    { split_and!; [done|apply ext_refl|constructor]. }
    eapply good_bind; [by apply Hy|]. intros s1 o Hi1 He1 Ho. eapply good_bind; [by apply IH|].
    intros s2 os Hi2 He2 Hos. split_and!; [done|apply ext_refl|]. constructor; [|done].
    eapply denotes_mono; [apply He2|done].
  Qed.
  Lemma mk_deps_good s dir n post pre' t os :
    has_tag n "Deps" ->
    (n_kind n = KSequence /\ n_content n = post :: pre') \/
        (n_kind n = KMapping /\ exists fs, decode_struct n = Some fs /\ post = field "Post" fs /\ seq_field (field "Pre" fs) = Some pre') ->
    inv s -> denotes (y_objs s) dir post t -> denote (y_objs s) dir pre' os ->
    good s (mk_deps t os s) (fun s' o => denotes (y_objs s') dir n o).
  Proof.
    intros Ht Hk Hi Hpost Hpre. unfold mk_deps. eapply good_bind.
    { apply (good_new s (SAll os) (fun s' a => y_objs s' !! a = Some (SAll os))); auto. }
    intros s1 a Hi1 He1 Ha. apply good_new; [done|]. intros s2 o Hi2 He2 Ho.
    assert (He : ext s s2) by (by eapply ext_trans).
    eapply den_deps; [done|exact Hk| | | |exact Ho].
    - eapply denotes_mono; [apply He|done].
    - eapply denote_mono; [apply He|done].
    - eapply prefix_lookup; [exact Ha|apply He2].
  Qed.
  Lemma decode_tag_good yt tag n dir s : yt_good yt -> has_tag n tag -> inv s ->
    good s (decode_tag top fns leaf ybool ne yt tag n dir s) (fun s' o => denotes (y_objs s') dir n o).
  Proof.
    intros Hy Ht Hi. unfold decode_tag.
    destruct (decide (tag = "All")) as [->|N1].
    { destruct (decide _) as [|Hk%dec_stable]; [by apply good_err|]. eapply good_bind; [by apply map_targets_good|].
      intros s1 os Hi1 He1 Hos. apply good_new; [done|]. intros s2 o Hi2 He2 Ho. eapply den_all; eauto.
      eapply denote_mono; [apply He2|done]. }
    destruct (decide (tag = "Seq")) as [->|N2].
    { destruct (decide _) as [|Hk%dec_stable]; [by apply good_err|]. eapply good_bind; [by apply map_targets_good|].
      intros s1 os Hi1 He1 Hos. apply good_new; [done|]. intros s2 o Hi2 He2 Ho. eapply den_seq; eauto.
      eapply denote_mono; [apply He2|done]. }
    destruct (decide (tag = "Deps")) as [->|N3].
    { destruct (n_kind n) eqn:Hk; try by apply good_err.
      - destruct (n_content n) as [|c cs] eqn:Hc; [by apply good_err|].
        eapply good_bind; [by apply Hy|]. intros s1 t Hi1 He1 Ht1. eapply good_bind; [by apply map_targets_good|].
        intros s2 os Hi2 He2 Hos. eapply mk_deps_good; eauto. eapply denotes_mono; [apply He2|done].
      - destruct (decode_struct n) as [fs|] eqn:Hd; [|by apply good_err].
        destruct (seq_field (field "Pre" fs)) as [pre'|] eqn:Hp; [|by apply good_err].
        eapply good_bind; [by apply Hy|]. intros s1 t Hi1 He1 Ht1. eapply good_bind; [by apply map_targets_good|].
        intros s2 os Hi2 He2 Hos. eapply mk_deps_good; eauto 10. eapply denotes_mono; [apply He2|done]. }
    destruct (decide (tag = "ArgTarget")) as [->|N4].
    { destruct (decide _) as [|Hk%dec_stable]; [by apply good_err|]. destruct (n_content n) as [|c cs] eqn:Hc; [by apply good_err|].
      eapply good_bind; [by apply Hy|]. intros s1 t Hi1 He1 Ht1. unfold lift.
      destruct (YAMLStringListFromNodes fns cs dir) as [args|e] eqn:Ha; [|by apply good_err].
      apply good_new; [done|]. intros s2 o Hi2 He2 Ho. eapply den_arg; eauto. eapply denotes_mono; [apply He2|done]. }
    destruct (decide (tag = "Files")) as [->|N5].
    { destruct (decide _) as [|Hk%dec_stable]; [by apply good_err|].
      destruct (decode_struct n) as [fs|] eqn:Hd; [|by apply good_err].
      destruct (bool_field ybool (field "Autoclean" fs)) as [ac|] eqn:Hb; [|by apply good_err].
      eapply good_bind; [by apply Hy|]. intros s1 t Hi1 He1 Ht1. unfold lift.
      destruct (YAMLFileList fns top (field "In" fs) dir) as [ins|e] eqn:Hin; [|by apply good_err].
      destruct (YAMLFileList fns top (field "Out" fs) dir) as [outs|e] eqn:Hout; [|by apply good_err].
      apply good_new; [done|]. intros s2 o Hi2 He2 Ho. eapply den_files; eauto. eapply denotes_mono; [apply He2|done]. }
    destruct (leaf tag) as [accepts|] eqn:Hl; [|by apply good_err].
    destruct (accepts n dir) eqn:Hacc; [|by apply good_err].
    apply good_new; [done|]. intros s2 o Hi2 He2 Ho. eapply den_leaf; eauto.
    rewrite !elem_of_cons, elem_of_nil. tauto.
  Qed.

  Lemma register_ext s dir k v o : inv s -> def dir (reg_name dir (n_value k)) k v -> denotes (y_objs s) dir v o ->
    let s' := register (reg_name dir (n_value k)) (key_doc k) o s in
    ext s s' /\ inv s' /\ defined s' (reg_name dir (n_value k)).
  Proof.
    intros Hi Hd Hn s'.
    assert (Hs' : defined s' (reg_name dir (n_value k))).
    { exists (key_doc k), o, dir, k, v. split_and!; try done. simpl. by rewrite lookup_insert. }
    assert (He : ext s s').
    { split; [done|]. intros q. destruct (decide (q = reg_name dir (n_value k))) as [->|Hq]; [by right|left].
      simpl. by rewrite lookup_insert_ne. }
    split_and!; [done|by eapply ext_inv|done].
  Qed.

  Lemma entries_good yt dir ps : yt_good yt ->
    (forall k v, (k, v) ∈ ps -> target_key k -> def dir (reg_name dir (n_value k)) k v) ->
    forall saw s, inv s -> good s (entries_loop yt dir ps saw s) (fun s' _ =>
      (forall k v, (k, v) ∈ ps -> n_kind k = KScalar /\
        ((n_value k = "_dir" /\ n_kind v = KScalar /\ n_value v = dir) \/ target_key k)) /\
      (forall k v, (k, v) ∈ ps -> target_key k -> defined s' (reg_name dir (n_value k))) /\
      (dir = "" \/ saw = true \/ exists k v, (k, v) ∈ ps /\ n_value k = "_dir")).
  Proof.
    intros Hy. induction ps as [|[k v] ps IH]; intros Hps saw s Hi; cbn [entries_loop].
    { destruct (decide _) as [|Hd]; [by apply good_err|]. split_and!; [done|apply ext_refl|by intros ? ? ?%elem_of_nil|by intros ? ? ?%elem_of_nil|].
      destruct (decide (dir = "")); [auto|]. destruct saw; [auto|]. naive_solver. }
    destruct (decide _) as [|Hk%dec_stable]; [by apply good_err|].
    assert (Hps' : forall k v, (k, v) ∈ ps -> target_key k -> def dir (reg_name dir (n_value k)) k v).
    { intros k' v' ?. apply Hps. by right. }
    specialize (IH Hps').
    destruct (decide (n_value k = "_dir")) as [Hdir|Hdir].
    - destruct (decide _) as [|Hkv%dec_stable]; [by apply good_err|].
      destruct (decide _) as [|Hv%dec_stable]; [by apply good_err|].
      specialize (IH true s Hi). eapply good_weaken; [|exact IH]. intros s' _ (H1 & H2 & H3). split_and!.
      + intros k' v' [[= -> ->]|H]%elem_of_cons; [|by apply H1]. auto.
      + intros k' v' [[= -> ->]|H]%elem_of_cons Hk'; [|by eapply H2]. by destruct Hk' as (_ & ? & _).
      + right. right. exists k, v. split; [by left|done].
    - destruct (has_slash (n_value k)) eqn:Hs; [by apply good_err|].
      assert (Htk : target_key k) by done.
      eapply good_bind; [by apply Hy|]. intros s1 o Hi1 He1 Ho.
      destruct (register_ext s1 dir k v o Hi1) as (Her & Hir & Hdr); [by apply Hps; [left|]|done|].
      set (s2 := register _ _ _ _) in *. specialize (IH saw s2 Hir).
      destruct (entries_loop yt dir ps saw s2) as [s3 []|s3 ?|] eqn:E; simpl in *; [| |done].
      + destruct IH as (Hi3 & He3 & H1 & H2 & H3). split_and!; [done|by eapply ext_trans| | |].
        * intros k' v' [[= -> ->]|H]%elem_of_cons; [auto|by apply H1].
        * intros k' v' [[= -> ->]|H]%elem_of_cons Hk'; [|by eapply H2]. by eapply ext_defined.
        * destruct H3 as [?|[?|(k' & v' & ? & ?)]]; [auto|auto|]. right. right. exists k', v'. split; [by right|done].
      + destruct IH as (Hi3 & He3). split; [done|by eapply ext_trans].
  Qed.

  Definition doc_ok (dir : string) (ps : list (node * node)) : Prop :=
    (forall k v, (k, v) ∈ ps -> n_kind k = KScalar /\
      ((n_value k = "_dir" /\ n_kind v = KScalar /\ n_value v = dir) \/ target_key k)) /\
    (dir = "" \/ exists k v, (k, v) ∈ ps /\ n_value k = "_dir").

  Lemma read_good yt doc dir : yt_good yt ->
    (forall ps k v, has_entries doc ps -> (k, v) ∈ ps -> target_key k -> def dir (reg_name dir (n_value k)) k v) ->
    forall s, inv s -> good s (ReadYAML yt doc dir s) (fun s' _ =>
      exists ps, has_entries doc ps /\ doc_ok dir ps /\
        forall k v, (k, v) ∈ ps -> target_key k -> defined s' (reg_name dir (n_value k))).
  Proof.
    intros Hy Hd s Hi. unfold ReadYAML. destruct (decide _) as [|Hk%dec_stable]; [by apply good_err|].
    destruct (n_content doc) as [|m [|? ?]] eqn:Hc; try by apply good_err.
    destruct (decide _) as [|Hm%dec_stable]; [by apply good_err|].
    destruct (pairs (n_content m)) as [ps|] eqn:Hp; [|by apply good_err]. apply pairs_spec in Hp.
    assert (Hent : has_entries doc ps) by (exists m; done).
    eapply good_weaken; [|apply entries_good; [done| |done]; intros k v; by apply Hd].
    intros s' _ (H1 & H2 & H3). exists ps. split_and!; [done| |done]. split; [done|].
    destruct H3 as [?|[?|?]]; [auto|done|auto].
  Qed.

  Lemma yaml_target_good fuel : yt_good (YAMLTarget top fns leaf ybool docs ne fuel).
  Proof.
    induction fuel as [|fuel IH]; intros n dir s Hi; [done|]. cbn [YAMLTarget].
    destruct (decide _) as [Ht|Hu%dec_stable]; [by apply decode_tag_good; [|apply tag_ne|]|].
    apply tag_untagged in Hu. destruct (decide _) as [|Hk%dec_stable]; [by apply good_err|].
    destruct (has_slash (n_value n)) eqn:Hs.
    2:{ apply good_new; [done|]. intros. by apply den_name. }
    destruct (RelPath top (JoinPath top [dir; n_value n])) as [q|] eqn:Hq; [|by apply good_err].
    assert (Href : ref_key top dir (n_value n) = Some q) by (unfold ref_key; by rewrite Hs).
    destruct (decide (Dir q <> ".")) as [Hfar|Hnear].
    2:{ apply good_new; [done|]. intros. by eapply den_top. }
    assert (Hden : forall s' d o, inv s' -> y_reg s' !! q = Some (d, o) -> denotes (y_objs s') dir n o).
    { intros s' d o Hi' Ho. destruct (Hi' q d o Ho) as [Hpre|(d' & o' & dir' & k & v & Ho' & Hdf & -> & Hn)].
      - by eapply den_far_pre.
      - simplify_eq. by eapply den_far. }
    destruct (y_reg s !! q) as [[d o]|] eqn:Ho.
    { split_and!; [done|apply ext_refl|]. by eapply Hden. }
    eapply (good_bind s _ _ (fun _ _ => True)).
    { unfold ReadYAMLFile. destruct (docs _) as [doc|] eqn:Hdoc; [|by apply good_err].
      destruct (file_dir top (Dir q)) as [rel|] eqn:Hrel; [|by apply good_err].
      eapply good_weaken; [|apply read_good; [done| |done]]; [done|].
      intros ps k v Hent Hin Hkey. apply Hdef. by exists (Dir q), doc, ps. }
    intros s1 _ Hi1 He1 _. destruct (y_reg s1 !! q) as [[d o]|] eqn:Ho1; [|by apply good_err].
    split_and!; [done|apply ext_refl|]. by eapply Hden.
  Qed.
  Lemma read_file_good fuel D s : inv s ->
    good s (ReadYAMLFile top docs ne (YAMLTarget top fns leaf ybool docs ne fuel) D s) (fun s' _ =>
      exists doc dir ps, docs (Join [top; D]) = Some doc /\ file_dir top D = Some dir /\ has_entries doc ps /\ doc_ok dir ps /\
        forall k v, (k, v) ∈ ps -> target_key k -> defined s' (reg_name dir (n_value k))).
  Proof.
    intros Hi. unfold ReadYAMLFile. destruct (docs _) as [doc|] eqn:Hdoc; [|by apply good_err].
    destruct (file_dir top D) as [rel|] eqn:Hrel; [|by apply good_err].
    eapply good_weaken; [|apply read_good; [apply yaml_target_good| |done]].
    - intros s' _ (ps & H1 & H2 & H3). by exists doc, rel, ps.
    - intros ps k v Hent Hin Hkey. apply Hdef. by exists D, doc, ps.
  Qed.
End sound.
