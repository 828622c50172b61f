From stdpp Require Import base gmap list strings.
From Coq Require Import Ascii.
From Verif Require Import PathModel YamlModel YamlSpec YamlProofs YamlProofs2.
Local Open Scope list_scope.

Section local.
  Context (top : string) (fns : list_fns) (leaf : string -> option (node -> string -> bool))
    (ybool : node -> option bool) (docs : string -> option node) (ne : notexist).
  Notation YT := (YAMLTarget top fns leaf ybool docs ne).
  Notation decodable := (decodable top fns leaf ybool).
  Definition local (dir : string) (n : node) : Prop := forall q, refers top dir n q -> ~ far q.

  (** ** Success exactly if decodable; the registry stays *)
  Definition loc {A} (s : ystate) (r : res A) (P : Prop) : Prop :=
    match r with ROk s' _ => y_reg s' = y_reg s /\ P | RErr s' _ => y_reg s' = y_reg s /\ ~ P | ROut => True end.
  Lemma loc_bind {A B} s (r : res A) (f : ystate -> A -> res B) (P Q : Prop) :
    loc s r P -> (Q -> P) -> (forall s' a, P -> loc s' (f s' a) Q) -> loc s (bind r f) Q.
  Proof.
    intros H HQ Hf. destruct r as [s' a|s'|]; simpl in *; [|naive_solver|done]. destruct H as [He HP].
    specialize (Hf s' a HP). destruct (f s' a); simpl in *; [| |done]; rewrite <- He; naive_solver.
  Qed.
  Lemma loc_iff {A} s (r : res A) (P Q : Prop) : (P <-> Q) -> loc s r P -> loc s r Q.
  Proof. destruct r; simpl; naive_solver. Qed.
  Lemma loc_new s sh (P : Prop) : P -> loc s (new sh s) P.
  Proof. done. Qed.
  Definition yt_loc (yt : node -> string -> ystate -> res nat) : Prop :=
    forall n dir s, local dir n -> loc s (yt n dir s) (decodable dir n).
  Lemma map_targets_loc yt ns dir : yt_loc yt -> (forall n, n ∈ ns -> local dir n) ->
    forall s, loc s (map_targets yt ns dir s) (Forall (decodable dir) ns).
  Proof.
    intros Hy. induction ns as [|n ns IH]; intros Hl s; simpl; [done|].
    eapply loc_bind; [apply Hy, Hl; by left|by inversion 1|]. intros s1 o Hn.
    eapply loc_bind; [apply IH; intros; apply Hl; by right|by inversion 1|]. intros s2 os Hns. split; [done|by constructor].
  Qed.
  Lemma mk_deps_loc s t os (P : Prop) : P -> loc s (mk_deps t os s) P.
  Proof. done. Qed.

  Lemma dec_tag_inv dir n t : has_tag n t -> decodable dir n ->
    (t = "All" \/ t = "Seq" -> n_kind n = KSequence /\ Forall (decodable dir) (n_content n)) /\
    (t = "Deps" -> (n_kind n = KSequence /\ n_content n <> [] /\ Forall (decodable dir) (n_content n)) \/
       (n_kind n = KMapping /\ exists fs ns, decode_struct n = Some fs /\ seq_field (field "Pre" fs) = Some ns /\ decodable dir (field "Post" fs) /\ Forall (decodable dir) ns)) /\
    (t = "ArgTarget" -> n_kind n = KSequence /\ exists c cs args, n_content n = c :: cs /\ decodable dir c /\ YAMLStringListFromNodes fns cs dir = LOk args) /\
    (t = "Files" -> n_kind n = KMapping /\ exists fs ins outs ac, decode_struct n = Some fs /\ decodable dir (field "Target" fs) /\
        YAMLFileList fns top (field "In" fs) dir = LOk ins /\ YAMLFileList fns top (field "Out" fs) dir = LOk outs /\
        bool_field ybool (field "Autoclean" fs) = Some ac) /\
    (t ∉ ["All"; "Seq"; "Deps"; "ArgTarget"; "Files"] -> exists accepts, leaf t = Some accepts /\ accepts n dir = true).
  Proof.
    intros Ht H. destruct H as [n q Hu|n t' Ht' Hor Hk Hf|n Ht' Hk Hne Hf|n fs ns Ht' Hd Hs Hp Hf|n c cs args Ht' Hk Hc Hdc Ha|n fs ins outs ac Ht' Hd Hdt Hi Ho Hb|n t' accepts Ht' Hnt Hl Hacc].
    { exfalso. by eapply untagged_has. }
    all: pose proof (has_tag_fun _ _ _ Ht Ht') as ->; clear Ht'.
    all: split_and!; try (intros [?|?]; congruence); try (intros ?; congruence); try done.
    all: try (intros Hn; exfalso; apply Hn; rewrite !elem_of_cons; naive_solver).
    - destruct Hor as [->| ->]; done.
    - destruct Hor as [->| ->]; done.
    - destruct Hor as [->| ->]; done.
    - intros _. left. done.
    - intros _. right. split; [by eapply struct_kind|]. by exists fs, ns.
    - intros _. split; [done|]. by exists c, cs, args.
    - intros _. split; [by eapply struct_kind|]. by exists fs, ins, outs, ac.
    - intros [->| ->]; exfalso; apply Hnt; rewrite !elem_of_cons; tauto.
    - intros ->. exfalso; apply Hnt; rewrite !elem_of_cons; tauto.
    - intros ->. exfalso; apply Hnt; rewrite !elem_of_cons; tauto.
    - intros ->. exfalso; apply Hnt; rewrite !elem_of_cons; tauto.
    - intros _. by exists accepts.
  Qed.

  Lemma decode_tag_loc yt t n dir s : yt_loc yt -> has_tag n t -> local dir n ->
    loc s (decode_tag top fns leaf ybool ne yt t n dir s) (decodable dir n).
  Proof.
    intros Hy Ht Hl. pose proof (dec_tag_inv dir n t Ht) as Hinv.
    assert (Hpart : forall c, part n c -> local dir c).
    { intros c Hc q Hq. apply Hl. by eapply refers_part. }
    unfold decode_tag.
    destruct (decide (t = "All")) as [->|N1].
    { destruct (decide _) as [Hk|Hk%dec_stable]; [split; [done|]; intros [Hi _]%Hinv; destruct Hi; [by left|done]|].
      eapply loc_bind; [apply map_targets_loc; [done|]|intros [Hi _]%Hinv; destruct Hi; [by left|done]|].
      { intros c Hc. apply Hpart. eapply part_list; eauto. }
      intros s1 os Hf. apply loc_new. eapply dec_list; eauto. }
    destruct (decide (t = "Seq")) as [->|N2].
    { destruct (decide _) as [Hk|Hk%dec_stable]; [split; [done|]; intros [Hi _]%Hinv; destruct Hi; [by right|done]|].
      eapply loc_bind; [apply map_targets_loc; [done|]|intros [Hi _]%Hinv; destruct Hi; [by right|done]|].
      { intros c Hc. apply Hpart. eapply part_list; eauto. }
      intros s1 os Hf. apply loc_new. eapply dec_list; eauto. }
    destruct (decide (t = "Deps")) as [->|N3].
    { assert (Hinv' : decodable dir n -> (n_kind n = KSequence /\ n_content n <> [] /\ Forall (decodable dir) (n_content n)) \/
       (n_kind n = KMapping /\ exists fs ns, decode_struct n = Some fs /\ seq_field (field "Pre" fs) = Some ns /\ decodable dir (field "Post" fs) /\ Forall (decodable dir) ns)).
      { intros (_ & Hi & _)%Hinv. by apply Hi. }
      clear Hinv. destruct (n_kind n) eqn:Hk.
      1, 2, 5, 6: split; [done|]; intros [[? _]|[? _]]%Hinv'; congruence.
      - destruct (n_content n) as [|c cs] eqn:Hc; [split; [done|]; intros [(_ & ? & _)|[? _]]%Hinv'; done|].
        assert (Hp : forall c', c' ∈ c :: cs -> part n c').
        { intros c' ?. eapply part_list; eauto. by rewrite Hc. }
        eapply loc_bind; [apply Hy, Hpart, Hp; by left|intros [(_ & _ & H)|[? _]]%Hinv'; [by inversion H|done]|].
        intros s1 o Hd1. eapply loc_bind; [apply map_targets_loc; [done|]; intros; apply Hpart, Hp; by right|intros [(_ & _ & H)|[? _]]%Hinv'; [by inversion H|done]|].
        intros s2 os Hd2. apply mk_deps_loc. eapply dec_deps; eauto; rewrite Hc; [done|by constructor].
      - destruct (decode_struct n) as [fs|] eqn:Hd; [|split; [done|]; intros [[? _]|(_ & fs & ns & ? & _)]%Hinv'; done].
        destruct (seq_field (field "Pre" fs)) as [ns|] eqn:Hs.
        2:{ split; [done|]. intros [[? _]|(_ & fs' & ns & ? & ? & _)]%Hinv'; [done|]. simplify_eq. }
        eapply loc_bind; [apply Hy, Hpart; by eapply part_post|intros [[? _]|(_ & fs' & ns' & ? & ? & ? & _)]%Hinv'; [done|by simplify_eq]|].
        intros s1 o Hd1. eapply loc_bind; [apply map_targets_loc; [done|]; intros; apply Hpart; by eapply part_pre|intros [[? _]|(_ & fs' & ns' & ? & ? & _ & ?)]%Hinv'; [done|by simplify_eq]|].
        intros s2 os Hd2. apply mk_deps_loc. eapply dec_deps_map; eauto. }
    destruct (decide (t = "ArgTarget")) as [->|N4].
    { assert (Hinv' : decodable dir n -> n_kind n = KSequence /\ exists c cs args, n_content n = c :: cs /\ decodable dir c /\ YAMLStringListFromNodes fns cs dir = LOk args).
      { intros (_ & _ & Hi & _)%Hinv. by apply Hi. }
      clear Hinv. destruct (decide _) as [Hk|Hk%dec_stable]; [split; [done|]; intros [Hi _]%Hinv'; done|].
      destruct (n_content n) as [|c cs] eqn:Hc; [split; [done|]; intros (_ & ? & ? & ? & ? & _)%Hinv'; done|].
      eapply loc_bind; [apply Hy, Hpart; by eapply part_arg|intros (_ & ? & ? & ? & ? & ? & _)%Hinv'; by simplify_eq|].
      intros s1 o Hd1. unfold lift. destruct (YAMLStringListFromNodes fns cs dir) as [args|e] eqn:Ha.
      - apply loc_new. by eapply dec_arg.
      - split; [done|]. intros (_ & ? & ? & ? & ? & ? & ?)%Hinv'. congruence. }
    destruct (decide (t = "Files")) as [->|N5].
    { assert (Hinv' : decodable dir n -> n_kind n = KMapping /\ exists fs ins outs ac, decode_struct n = Some fs /\ decodable dir (field "Target" fs) /\
        YAMLFileList fns top (field "In" fs) dir = LOk ins /\ YAMLFileList fns top (field "Out" fs) dir = LOk outs /\
        bool_field ybool (field "Autoclean" fs) = Some ac).
      { intros (_ & _ & _ & Hi & _)%Hinv. by apply Hi. }
      clear Hinv. destruct (decide _) as [Hk|Hk%dec_stable]; [split; [done|]; intros [Hi _]%Hinv'; done|].
      destruct (decode_struct n) as [fs|] eqn:Hd; [|split; [done|]; intros (_ & ? & ? & ? & ? & ? & _)%Hinv'; done].
      destruct (bool_field ybool (field "Autoclean" fs)) as [ac|] eqn:Hb.
      2:{ split; [done|]. intros (_ & ? & ? & ? & ? & ? & ? & ? & ? & ?)%Hinv'. congruence. }
      eapply loc_bind; [apply Hy, Hpart; by eapply part_files|intros (_ & ? & ? & ? & ? & ? & ? & _)%Hinv'; by simplify_eq|].
      intros s1 o Hd1. unfold lift.
      destruct (YAMLFileList fns top (field "In" fs) dir) as [ins|e] eqn:Hin.
      2:{ split; [done|]. intros (_ & ? & ? & ? & ? & ? & ? & ? & ? & ?)%Hinv'. congruence. }
      destruct (YAMLFileList fns top (field "Out" fs) dir) as [outs|e] eqn:Hout.
      2:{ split; [done|]. intros (_ & ? & ? & ? & ? & ? & ? & ? & ? & ?)%Hinv'. congruence. }
      apply loc_new. by eapply dec_files. }
    assert (Hnt : t ∉ ["All"; "Seq"; "Deps"; "ArgTarget"; "Files"]) by (rewrite !elem_of_cons, elem_of_nil; tauto).
    assert (Hinv' : decodable dir n -> exists accepts, leaf t = Some accepts /\ accepts n dir = true).
    { intros (_ & _ & _ & _ & Hi)%Hinv. by apply Hi. }
    destruct (leaf t) as [accepts|] eqn:Hlf; [|split; [done|]; intros (? & ? & _)%Hinv'; done].
    destruct (accepts n dir) eqn:Hacc; [apply loc_new; by eapply dec_leaf|].
    split; [done|]. intros (? & ? & ?)%Hinv'. congruence.
  Qed.

  Lemma yaml_target_loc fuel : yt_loc (YT fuel).
  Proof.
    induction fuel as [|fuel IH]; intros n dir s Hl; [done|]. cbn [YAMLTarget].
    destruct (decide _) as [Ht|Hu%dec_stable]; [by apply decode_tag_loc; [|apply tag_ne|]|].
    apply tag_untagged in Hu.
    assert (Hinv : decodable dir n -> n_kind n = KScalar /\ exists q, ref_key top dir (n_value n) = Some q).
    { assert (Hno : forall t, ~ has_tag n t) by (intros t ?; by eapply untagged_has).
      destruct 1 as [n q| | | | | |]; try (exfalso; by eapply Hno). eauto. }
    destruct (decide _) as [|Hk%dec_stable]; [split; [done|]; intros [? _]%Hinv; done|].
    destruct (has_slash (n_value n)) eqn:Hs.
    2:{ apply loc_new. assert (Hr : ref_key top dir (n_value n) = Some (n_value n)) by (unfold ref_key; by rewrite Hs).
        eapply dec_name; [done|done|exact Hr|]. apply Hl. by apply refers_self. }
    assert (Hr : ref_key top dir (n_value n) = RelPath top (JoinPath top [dir; n_value n])) by (unfold ref_key; by rewrite Hs).
    destruct (RelPath top (JoinPath top [dir; n_value n])) as [q|] eqn:Hq.
    2:{ split; [done|]. intros [_ [? ?]]%Hinv. congruence. }
    assert (Hf : ~ far q) by (apply Hl; by apply refers_self).
    rewrite decide_False by done. apply loc_new. by eapply dec_name.
  Qed.

  (** ** What local nodes denote does not depend on other definitions *)
  Lemma denotes_local pre def objs dir n o : denotes top fns leaf ybool pre def objs dir n o -> local dir n ->
    denotes top fns leaf ybool (fun _ _ => False) (fun _ _ _ _ => False) objs dir n o.
  Proof.
    revert dir n o.
    apply (denotes_ind2 top fns leaf ybool pre def objs
      (fun dir n o _ => local dir n -> denotes top fns leaf ybool (fun _ _ => False) (fun _ _ _ _ => False) objs dir n o)
      (fun dir ns os _ => (forall n, n ∈ ns -> local dir n) -> denote top fns leaf ybool (fun _ _ => False) (fun _ _ _ _ => False) objs dir ns os)).
    - intros. by eapply den_name.
    - intros. by eapply den_top.
    - intros dir n o q ? ? ? ? Hf ? Hl. destruct (Hl q); [by apply refers_self|done].
    - intros dir n o q dir' k v ? ? ? ? Hf ? ? ? Hl. destruct (Hl q); [by apply refers_self|done].
    - intros dir n o os ? ? ? IH ? Hl. eapply den_all; eauto. apply IH. intros c Hc q Hq. apply Hl. eapply refers_part; [|done]. eapply part_list; eauto.
    - intros dir n o os ? ? ? IH ? Hl. eapply den_seq; eauto. apply IH. intros c Hc q Hq. apply Hl. eapply refers_part; [|done]. eapply part_list; eauto.
    - intros dir n o post pre' t a os Ht Hor ? IH1 ? IH2 ? ? Hl. eapply den_deps; eauto.
      + apply IH1. intros q Hq. apply Hl. eapply refers_part; [|done].
        destruct Hor as [[Hk Hc]|[Hk (fs & Hd & -> & _)]]; [|by eapply part_post]. eapply part_list; eauto. rewrite Hc. by left.
      + apply IH2. intros c Hin q Hq. apply Hl. eapply refers_part; [|done].
        destruct Hor as [[Hk Hc]|[Hk (fs & Hd & -> & Hs)]]; [|by eapply part_pre]. eapply part_list; eauto. rewrite Hc. by right.
    - intros dir n o c cs t args ? ? ? ? IH ? ? Hl. eapply den_arg; eauto. apply IH. intros q Hq. apply Hl. eapply refers_part; [|done]. by eapply part_arg.
    - intros dir n o fs t ins outs ac ? ? ? IH ? ? ? ? Hl. eapply den_files; eauto. apply IH. intros q Hq. apply Hl. eapply refers_part; [|done]. by eapply part_files.
    - intros. by eapply den_leaf.
    - intros. constructor.
    - intros dir n ns o os ? IH1 ? IH2 Hl. constructor; [apply IH1, Hl; by left|apply IH2; intros; apply Hl; by right].
  Qed.

  (** ** Documents *)
  Notation ldenotes := (denotes top fns leaf ybool (fun _ _ => False) (fun _ _ _ _ => False)).
  (** The registry after the entries [ps]. *)
  Definition reg_by (dir : string) (ps : list (node * node)) (s s' : ystate) : Prop :=
    y_objs s `prefix_of` y_objs s' /\
    forall q, (exists k v o, last_def dir ps q k v /\ y_reg s' !! q = Some (key_doc k, o) /\ ldenotes (y_objs s') dir v o) \/
              (no_def dir ps q /\ y_reg s' !! q = y_reg s !! q).
  Lemma reg_by_nil dir s : reg_by dir [] s s.
  Proof. split; [done|]. intros q. right. split; [|done]. by intros k v ?%elem_of_nil. Qed.
  Lemma reg_by_skip dir k v ps s s' : ~ target_key k -> reg_by dir ps s s' -> reg_by dir ((k, v) :: ps) s s'.
  Proof.
    intros Hk [Hp H]. split; [done|]. intros q. destruct (H q) as [(k' & v' & o & (b & a & -> & Ht & Hq & Ha) & Hr & Hd)|[Hn He]].
    - left. exists k', v', o. split_and!; [|done|done]. by exists ((k, v) :: b), a.
    - right. split; [|done]. intros k' v' [[= -> ->]|Hin]%elem_of_cons Ht; [done|by eapply Hn].
  Qed.
  Lemma reg_by_cons dir k v ps s s1 s' o : target_key k -> y_objs s `prefix_of` y_objs s1 -> y_reg s1 = y_reg s ->
    ldenotes (y_objs s1) dir v o ->
    reg_by dir ps (register (reg_name dir (n_value k)) (key_doc k) o s1) s' -> reg_by dir ((k, v) :: ps) s s'.
  Proof.
    intros Hk Hp1 Hr1 Hd [Hp H]. simpl in Hp. split; [by etrans|]. intros q.
    destruct (H q) as [(k' & v' & o' & (b & a & -> & Ht & Hq & Ha) & Hr & Hd')|[Hn He]].
    { left. exists k', v', o'. split_and!; [|done|done]. by exists ((k, v) :: b), a. }
    simpl in He. destruct (decide (reg_name dir (n_value k) = q)) as [<-|Hq].
    - left. exists k, v, o. split_and!; [by exists [], ps|by rewrite He, lookup_insert|]. by eapply denotes_mono.
    - right. split; [|by rewrite He, lookup_insert_ne, Hr1].
      intros k' v' [[= -> ->]|Hin]%elem_of_cons Ht; [done|by eapply Hn].
  Qed.
  Lemma target_objs fuel n dir s : local dir n ->
    match YT fuel n dir s with
    | ROk s' o => y_objs s `prefix_of` y_objs s' /\ ldenotes (y_objs s') dir n o
    | RErr s' _ => y_objs s `prefix_of` y_objs s'
    | ROut => True
    end.
  Proof.
    intros Hl. pose proof (yaml_target_good top fns leaf ybool docs ne (fun _ _ => True) (defines top docs) ltac:(done) fuel n dir s) as H.
    assert (Hi : inv top fns leaf ybool (fun _ _ => True) (defines top docs) s) by (intros ? ? ? _; by left).
    specialize (H Hi). destruct (YT fuel n dir s) as [s' o|s'|]; [| |done].
    - destruct H as (_ & [? _] & Hd). split; [done|]. by eapply denotes_local.
    - destruct H as (_ & [? _]). done.
  Qed.
  Lemma target_key_dec k : target_key k \/ ~ target_key k.
  Proof.
    unfold target_key. destruct (decide (n_kind k = KScalar)); [|tauto]. destruct (decide (n_value k = "_dir")); [tauto|].
    destruct (has_slash (n_value k)); [right; intros (_ & _ & ?); done|auto].
  Qed.

  Definition entry_ok (dir : string) (k v : node) : Prop :=
    n_kind k = KScalar /\
    ((n_value k = "_dir" /\ n_kind v = KScalar /\ n_value v = dir) \/ (n_value k <> "_dir" /\ has_slash (n_value k) = false /\ decodable dir v)).
  Lemma entries_loc fuel dir ps : (forall k v, (k, v) ∈ ps -> target_key k -> local dir v) -> forall saw s,
    match entries_loop (YT fuel) dir ps saw s with
    | ROk s' _ => reg_by dir ps s s' /\ (forall k v, (k, v) ∈ ps -> entry_ok dir k v) /\
        (dir = "" \/ saw = true \/ exists k v, (k, v) ∈ ps /\ n_value k = "_dir")
    | RErr s' _ => (exists before after, ps = before ++ after /\ (forall k v, (k, v) ∈ before -> entry_ok dir k v) /\
        reg_by dir before {| y_objs := y_objs s; y_reg := y_reg s |} s' /\
        ((exists k v after', after = (k, v) :: after' /\ ~ entry_ok dir k v) \/
         (after = [] /\ dir <> "" /\ saw = false /\ forall k v, (k, v) ∈ ps -> n_value k <> "_dir")))
    | ROut => True
    end.
  Proof.
    induction ps as [|[k v] ps IH]; intros Hl saw s; cbn [entries_loop].
    { destruct (decide _) as [[Hd Hs]|Hd].
      - exists [], []. split_and!; [done|by intros ? ? ?%elem_of_nil|destruct s; apply reg_by_nil|].
        right. split_and!; try done. by intros ? ? ?%elem_of_nil.
      - split_and!; [apply reg_by_nil|by intros ? ? ?%elem_of_nil|].
        destruct (decide (dir = "")); [auto|]. destruct saw; [auto|]. naive_solver. }
    assert (Hl' : forall k v, (k, v) ∈ ps -> target_key k -> local dir v).
    { intros k' v' ?. apply (Hl k'). by right. }
    specialize (IH Hl').
    assert (Hfail : ~ entry_ok dir k v -> exists before after, (k, v) :: ps = before ++ after /\ (forall k v, (k, v) ∈ before -> entry_ok dir k v) /\
        reg_by dir before {| y_objs := y_objs s; y_reg := y_reg s |} s /\
        ((exists k v after', after = (k, v) :: after' /\ ~ entry_ok dir k v) \/
         (after = [] /\ dir <> "" /\ saw = false /\ forall k' v', (k', v') ∈ (k, v) :: ps -> n_value k' <> "_dir"))).
    { intros Hne. exists [], ((k, v) :: ps). split_and!; [done|by intros ? ? ?%elem_of_nil|destruct s; apply reg_by_nil|]. left. by exists k, v, ps. }
    destruct (decide _) as [Hk|Hk%dec_stable]; [apply Hfail; intros [? _]; done|].
    destruct (decide (n_value k = "_dir")) as [Hdir|Hdir].
    - destruct (decide _) as [Hkv|Hkv%dec_stable]; [apply Hfail; intros [_ [(_ & ? & _)|[? _]]]; done|].
      destruct (decide _) as [Hv|Hv%dec_stable]; [apply Hfail; intros [_ [(_ & _ & ?)|[? _]]]; done|].
      assert (Hok : entry_ok dir k v) by (split; [done|left; done]).
      assert (Hnt : ~ target_key k) by (intros (_ & ? & _); done).
      specialize (IH true s). destruct (entries_loop (YT fuel) dir ps true s) as [s' []|s' ?|]; [| |done].
      + destruct IH as (H1 & H2 & H3). split_and!.
        * by apply reg_by_skip.
        * intros k' v' [[= -> ->]|HIN]%elem_of_cons; [done|by apply H2].
        * right. right. exists k, v. split; [by left|done].
      + destruct IH as (b & a & -> & Hb & Hr & Hc). exists ((k, v) :: b), a. split_and!; [done| |by apply reg_by_skip|].
        * intros k' v' [[= -> ->]|HIN]%elem_of_cons; [done|by apply Hb].
        * destruct Hc as [?|(_ & _ & ? & _)]; [auto|done].
    - destruct (has_slash (n_value k)) eqn:Hs; [apply Hfail; intros [_ [(? & _)|(_ & ? & _)]]; congruence|].
      assert (Htk : target_key k) by done.
      assert (Hlv : local dir v) by (by eapply Hl; [left|]).
      pose proof (yaml_target_loc fuel v dir s Hlv) as Hloc. pose proof (target_objs fuel v dir s Hlv) as Hobj.
      destruct (YT fuel v dir s) as [s1 o|s1|]; simpl in Hloc; cbn [bind]; [| |done].
      + destruct Hloc as [Hreg Hdec], Hobj as [Hpre Hden].
        assert (Hok : entry_ok dir k v) by (split; [done|right; done]).
        specialize (IH saw (register (reg_name dir (n_value k)) (key_doc k) o s1)).
        destruct (entries_loop (YT fuel) dir ps saw _) as [s' []|s' ?|]; [| |done].
        * destruct IH as (H1 & H2 & H3). split_and!.
          -- by eapply reg_by_cons.
          -- intros k' v' [[= -> ->]|HIN]%elem_of_cons; [done|by apply H2].
          -- destruct H3 as [?|[?|(k' & v' & ? & ?)]]; [auto|auto|]. right. right. exists k', v'. split; [by right|done].
        * destruct IH as (b & a & -> & Hb & Hr & Hc). exists ((k, v) :: b), a. split_and!; [done| | |].
          -- intros k' v' [[= -> ->]|HIN]%elem_of_cons; [done|by apply Hb].
          -- by eapply reg_by_cons; eauto.
          -- destruct Hc as [?|(? & ? & ? & Hnd)]; [auto|]. right. split_and!; try done.
             intros k' v' [[= -> ->]|HIN]%elem_of_cons; [done|by eapply Hnd].
      + destruct Hloc as [Hreg Hdec]. exists [], ((k, v) :: ps). split_and!; [done|by intros ? ? ?%elem_of_nil| |].
        * split; [done|]. intros q. right. split; [by intros ? ? ?%elem_of_nil|]. simpl. by rewrite Hreg.
        * left. exists k, v, ps. split; [done|]. intros [_ [(? & _)|(_ & _ & ?)]]; done.
  Qed.
End local.

(** ** Lists *)
Lemma string_list_lem fns n dir :
  (n_kind n = KNone -> YAMLStringList fns n dir = LOk []) /\
  (forall t fn, n_kind n <> KNone -> has_tag n t -> fns t = Some fn -> YAMLStringList fns n dir = fn n dir) /\
  (forall t, n_kind n <> KNone -> has_tag n t -> fns t = None -> YAMLStringList fns n dir = LErr (UnknownListTag t)) /\
  (n_kind n = KSequence -> untagged n -> YAMLStringList fns n dir = YAMLStringListFromNodes fns (n_content n) dir) /\
  (n_kind n <> KNone -> n_kind n <> KSequence -> untagged n -> YAMLStringList fns n dir = LErr (BadKind (n_kind n) KSequence)).
Proof.
  unfold YAMLStringList. split_and!.
  - intros Hk. by rewrite decide_True.
  - intros t fn Hk Ht Hf. assert (t <> "") by (by destruct Ht). apply has_tag_eq in Ht. rewrite decide_False by done. rewrite Ht.
    rewrite decide_True by done. by rewrite Hf.
  - intros t Hk Ht Hf. assert (t <> "") by (by destruct Ht). apply has_tag_eq in Ht. rewrite decide_False by done. rewrite Ht.
    rewrite decide_True by done. by rewrite Hf.
  - intros Hk Hu%tag_untagged. rewrite Hu, Hk. rewrite decide_False by done. rewrite decide_False by naive_solver. by rewrite decide_False by naive_solver.
  - intros Hk Hk' Hu%tag_untagged. rewrite Hu. rewrite decide_False by done. rewrite decide_False by naive_solver. by rewrite decide_True.
Qed.
Lemma map_join_lem top dir l ss : l = ((fun s => JoinPath top [dir; s]) <$> ss) <-> Forall2 (fun f s => f = JoinPath top [dir; s]) l ss.
Proof.
  split; [intros ->; induction ss; constructor; auto|]. induction 1; csimpl; congruence.
Qed.
Lemma file_list_lem fns top n dir l : YAMLFileList fns top n dir = LOk l <->
  exists ss, YAMLStringList fns n dir = LOk ss /\ Forall2 (fun f s => f = JoinPath top [dir; s]) l ss.
Proof.
  unfold YAMLFileList. destruct (YAMLStringList fns n dir) as [ss|e]; [|naive_solver]. split.
  - intros [= <-]. exists ss. split; [done|by apply map_join_lem].
  - intros (ss' & [= <-] & H%map_join_lem). by rewrite H.
Qed.
Lemma file_list_nodes_lem fns top n dir l : YAMLFileListFromNodes fns top n dir = LOk l <->
  exists ss, YAMLStringListFromNodes fns n dir = LOk ss /\ Forall2 (fun f s => f = JoinPath top [dir; s]) l ss.
Proof.
  unfold YAMLFileListFromNodes. destruct (YAMLStringListFromNodes fns n dir) as [ss|e]; [|naive_solver]. split.
  - intros [= <-]. exists ss. split; [done|by apply map_join_lem].
  - intros (ss' & [= <-] & H%map_join_lem). by rewrite H.
Qed.
Lemma glob_loop_lem glob root ps : forall l, glob_loop glob root ps = LOk l <->
  exists ms, Forall2 (fun p m => glob root p = Some m) ps ms /\ l = concat ms.
Proof.
  induction ps as [|p ps IH]; intros l; simpl.
  { split; [intros [= <-]; by exists []|]. intros (ms & H & ->). by inversion H. }
  destruct (glob root p) as [m|] eqn:E.
  2:{ split; [done|]. intros (ms & H & ->). inversion H; subst. congruence. }
  destruct (glob_loop glob root ps) as [l'|e] eqn:El.
  - destruct (proj1 (IH l') eq_refl) as (ms & Hms & ->). split.
    + intros [= <-]. exists (m :: ms). split; [by constructor|done].
    + intros (ms' & H & ->). inversion H as [|? m' ? ms2 Hm' Hms']; subst.
      assert (Hx : LOk (concat ms) = LOk (concat ms2)) by (apply IH; eauto). simpl. congruence.
  - split; [done|]. intros (ms' & H & ->). inversion H as [|? m' ? ms2 Hm' Hms']; subst.
    assert (Hx : LErr e = LOk (concat ms2)) by (apply IH; eauto). done.
Qed.
Lemma glob_lem fns glob top n dir l : globDecoder fns glob top n dir = LOk l <->
  n_kind n = KSequence /\ exists patterns ms, YAMLStringListFromNodes fns (n_content n) dir = LOk patterns /\
    Forall2 (fun p m => glob (if decide (JoinPath top [dir] = "") then "." else JoinPath top [dir]) p = Some m) patterns ms /\
    l = concat ms.
Proof.
  unfold globDecoder. destruct (decide _) as [Hk|Hk%dec_stable]; [naive_solver|].
  destruct (YAMLStringListFromNodes fns (n_content n) dir) as [ps|e]; [|naive_solver].
  cbv zeta. rewrite glob_loop_lem. split.
  - intros (ms & ? & ?). split; [done|]. by exists ps, ms.
  - intros (_ & ps' & ms & [= <-] & ? & ?). by exists ms.
Qed.

(** ** Documents *)
Section docs.
  Context (top : string) (fns : list_fns) (leaf : string -> option (node -> string -> bool))
    (ybool : node -> option bool) (docs : string -> option node) (ne : notexist).
  Notation YT := (YAMLTarget top fns leaf ybool docs ne).
  Lemma registry_explained fuel D s :
    let pre q o := exists d, y_reg s !! q = Some (d, o) in
    let r := ReadYAMLFile top docs ne (YT fuel) D s in
    forall s' e, r = ROk s' tt \/ r = RErr s' e ->
      y_objs s `prefix_of` y_objs s' /\
      forall q, y_reg s' !! q = y_reg s !! q \/
        exists dir k v o, defines top docs dir q k v /\ y_reg s' !! q = Some (key_doc k, o) /\
          denotes top fns leaf ybool pre (defines top docs) (y_objs s') dir v o.
  Proof.
    intros pre r s' e Hr.
    assert (Hi : inv top fns leaf ybool pre (defines top docs) s) by (intros q d o ?; left; by exists d).
    pose proof (read_file_good top fns leaf ybool docs ne pre (defines top docs) ltac:(done) fuel D s Hi) as H. fold r in H.
    assert (He : ext top fns leaf ybool pre (defines top docs) s s').
    { destruct Hr as [E|E]; rewrite E in H; simpl in H; tauto. }
    destruct He as [Hp He]. split; [done|]. intros q. destruct (He q) as [?|(d & o & dir & k & v & ? & ? & -> & ?)]; [by left|].
    right. by exists dir, k, v, o.
  Qed.
  Lemma read_success fuel D s s' :
    let pre q o := exists d, y_reg s !! q = Some (d, o) in
    ReadYAMLFile top docs ne (YT fuel) D s = ROk s' tt ->
    exists doc dir ps, docs (Join [top; D]) = Some doc /\ file_dir top D = Some dir /\ has_entries doc ps /\ entries_ok dir ps /\
      forall k v, (k, v) ∈ ps -> target_key k ->
        exists dir' k' v' o, defines top docs dir' (reg_name dir (n_value k)) k' v' /\
          y_reg s' !! reg_name dir (n_value k) = Some (key_doc k', o) /\
          denotes top fns leaf ybool pre (defines top docs) (y_objs s') dir' v' o.
  Proof.
    intros pre Hr.
    assert (Hi : inv top fns leaf ybool pre (defines top docs) s) by (intros q d o ?; left; by exists d).
    pose proof (read_file_good top fns leaf ybool docs ne pre (defines top docs) ltac:(done) fuel D s Hi) as H.
    rewrite Hr in H. simpl in H. destruct H as (_ & _ & doc & dir & ps & H1 & H2 & H3 & [H4 H5] & H6).
    exists doc, dir, ps. split_and!; try done.
    { split; [|done]. intros k v Hin. destruct (H4 k v Hin) as [? [?|(? & ? & ?)]]; auto. }
    intros k v Hin Hk. destruct (H6 k v Hin Hk) as (d & o & dir' & k' & v' & ? & ? & -> & ?). by exists dir', k', v', o.
  Qed.
  Lemma document_exactly doc dir :
    (forall ps k v q, has_entries doc ps -> (k, v) ∈ ps -> target_key k -> refers top dir v q -> ~ far q) ->
    exists N, forall fuel s, N <= fuel ->
      let registered ps s' := forall q,
        (exists k v o, last_def dir ps q k v /\ y_reg s' !! q = Some (key_doc k, o) /\
          denotes top fns leaf ybool (fun _ _ => False) (fun _ _ _ _ => False) (y_objs s') dir v o) \/
        (no_def dir ps q /\ y_reg s' !! q = y_reg s !! q) in
      let valid ps := entries_ok dir ps /\ forall k v, (k, v) ∈ ps -> target_key k -> decodable top fns leaf ybool dir v in
      match ReadYAML (YT fuel) doc dir s with
      | ROk s' _ => exists ps, has_entries doc ps /\ valid ps /\ registered ps s'
      | RErr s' _ => (forall ps, has_entries doc ps -> ~ valid ps) /\
          ((forall ps, ~ has_entries doc ps) /\ s' = s \/ exists before after, has_entries doc (before ++ after) /\ registered before s')
      | ROut => False
      end.
  Proof.
    intros Hloc. destruct (local_read_ends top fns leaf ybool docs ne (fun _ => 0) doc dir Hloc) as [N HN].
    exists N. intros fuel s Hf registered valid. specialize (HN fuel s Hf).
    assert (Hshape : (forall ps, ~ has_entries doc ps) -> (forall ps, has_entries doc ps -> ~ valid ps) /\
          ((forall ps, ~ has_entries doc ps) /\ s = s \/ exists before after, has_entries doc (before ++ after) /\ registered before s)).
    { intros Hn. split; [intros ps Hps; by apply Hn in Hps|by left]. }
    unfold ReadYAML in *. destruct (decide _) as [Hk|Hk%dec_stable]; [apply Hshape; by intros ps (m & ? & _)|].
    destruct (n_content doc) as [|m [|? ?]] eqn:Hc; [apply Hshape; intros ps (m' & _ & ? & _); congruence| |apply Hshape; intros ps (m' & _ & ? & _); congruence].
    destruct (decide _) as [Hm|Hm%dec_stable]; [apply Hshape; intros ps (m' & _ & ? & ? & _); congruence|].
    destruct (pairs (n_content m)) as [ps|] eqn:Hp.
    2:{ apply Hshape. intros ps (m' & _ & ? & _ & H%pairs_spec). congruence. }
    apply pairs_spec in Hp. assert (Hent : has_entries doc ps) by (exists m; done).
    pose proof (entries_loc top fns leaf ybool docs ne fuel dir ps) as He.
    assert (Hl : forall k v, (k, v) ∈ ps -> target_key k -> local top dir v).
    { intros k v Hin Hkey q Hq. by eapply Hloc. }
    specialize (He Hl false s). destruct (entries_loop (YT fuel) dir ps false s) as [s' []|s' ?|]; [| |done].
    - destruct He as ([_ Hreg] & Hok & Hd). exists ps. split_and!; [done| |done]. split; [split|].
      + intros k v Hin. destruct (Hok k v Hin) as [? [?|(? & ? & ?)]]; auto.
      + destruct Hd as [?|[?|?]]; [auto|done|auto].
      + intros k v Hin Hkey. destruct (Hok k v Hin) as [? [(? & _)|(_ & _ & ?)]]; [by destruct Hkey as (_ & ? & _)|done].
    - destruct He as (before & after & Hps & Hok & [_ Hreg] & Hc'). split.
      + intros ps' Hps' [[Hv1 Hv2] Hv3]. assert (ps' = ps) as -> by (by eapply has_entries_fun).
        destruct Hc' as [(k & v & after' & -> & Hbad)|(_ & Hd & _ & Hnd)].
        * apply Hbad. assert (Hin : (k, v) ∈ ps) by (rewrite Hps; apply elem_of_app; right; by left).
          destruct (Hv1 k v Hin) as [Hk' [?|[? ?]]]; (split; [done|]); [by left|right]. split_and!; [done|done|]. by eapply Hv3.
        * destruct Hv2 as [?|(k & v & Hin & ?)]; [done|]. by eapply Hnd.
      + right. exists before, after. split; [by rewrite <- Hps|done].
  Qed.
End docs.
