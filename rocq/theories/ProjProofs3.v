(** Where target values come from. *)
From stdpp Require Import base gmap list strings.
From Verif Require Import PathModel FindModel ContextModel RunnerModel RunnerSpec RunnerSpec2.
From Verif Require Import YamlModel YamlSpec YamlProofs YamlProofs2 ProjModel ProjSpec.
Local Open Scope list_scope.

Lemma inside_trans n m p : inside n m -> inside m p -> inside n p.
Proof. induction 1; [done|]. intros. eapply in_part; eauto. Qed.

Section origin.
  Context (top : string) (fns : list_fns) (leaf : string -> option (node -> string -> bool))
    (ybool : node -> option bool) (docs : string -> option node) (ne : notexist).
  Notation means := (means top fns leaf ybool docs).
  Notation no_pre := (fun _ _ => False).
  Notation inv := (inv top fns leaf ybool no_pre (defines top docs)).
  Notation ext := (ext top fns leaf ybool no_pre (defines top docs)).
  Notation written := (written top docs).
  Notation YT := (YAMLTarget top fns leaf ybool docs ne).

  Lemma written_part q dir n c : written q dir n -> part n c -> written q dir c.
  Proof.
    intros (k & v & Hd & Hi) Hp. exists k, v. split; [done|]. eapply inside_trans; [exact Hi|].
    eapply in_part; [done|constructor].
  Qed.

  (** Target [o] was made for a node of some definition. *)
  Definition made (objs : list shape) (o : nat) : Prop :=
    exists q dir n, written q dir n /\
      (means objs dir n o \/ exists o' t, means objs dir n o' /\ has_tag n "Deps" /\ objs !! o' = Some (SSeq [o; t])).
  Lemma made_mono objs objs' o : objs `prefix_of` objs' -> made objs o -> made objs' o.
  Proof.
    intros Hp (q & dir & n & Hw & H). exists q, dir, n. split; [done|]. destruct H as [H|(o' & t & H1 & H2 & H3)].
    - left. by eapply denotes_mono.
    - right. exists o', t. split_and!; [by eapply denotes_mono|done|by eapply prefix_lookup].
  Qed.
  Definition orig (s : ystate) : Prop := forall o, o < length (y_objs s) -> made (y_objs s) o.

  Definition og {A} (s : ystate) (r : res A) (P : ystate -> A -> Prop) : Prop :=
    match r with ROk s' a => (inv s' /\ orig s') /\ ext s s' /\ P s' a | RErr s' _ => (inv s' /\ orig s') /\ ext s s' | ROut => True end.
  Lemma og_bind {A B} s (r : res A) (f : ystate -> A -> res B) P Q :
    og s r P -> (forall s' a, inv s' /\ orig s' -> ext s s' -> P s' a -> og s' (f s' a) Q) -> og s (bind r f) Q.
  Proof.
    intros H Hf. destruct r as [s' a|s' e|]; [|exact H|exact I]. destruct H as (Hi & He & HP).
    specialize (Hf s' a Hi He HP). unfold og. cbn [bind]. destruct (f s' a) as [s2 b|s2 e|]; [| |exact I].
    - destruct Hf as (? & ? & ?). split; [done|]. split; [by eapply ext_trans|done].
    - destruct Hf as (? & ?). split; [done|]. by eapply ext_trans.
  Qed.
  Lemma og_err {A} s e (P : ystate -> A -> Prop) : inv s /\ orig s -> og s (RErr s e) P.
  Proof. intros. split; [done|apply ext_refl]. Qed.
  Lemma og_weaken {A} s (r : res A) (P Q : ystate -> A -> Prop) : (forall s' a, P s' a -> Q s' a) -> og s r P -> og s r Q.
  Proof. intros H. destruct r; simpl; naive_solver. Qed.
  Lemma ext_new s sh : ext s {| y_objs := y_objs s ++ [sh]; y_reg := y_reg s |}.
  Proof. split; [by apply prefix_app_r|]. simpl. auto. Qed.
  Lemma new_at s (sh : shape) : (y_objs s ++ [sh]) !! length (y_objs s) = Some sh.
  Proof. by rewrite lookup_app_r, Nat.sub_diag by done. Qed.
  Lemma og_new s sh q dir n : inv s /\ orig s -> written q dir n ->
    means (y_objs s ++ [sh]) dir n (length (y_objs s)) -> og s (new sh s) (fun s' o => means (y_objs s') dir n o).
  Proof.
    intros [Hi Ho] Hw Hm. unfold new, alloc. simpl. pose proof (ext_new s sh) as He. split_and!; [by eapply ext_inv| |done|done].
    intros o. simpl. rewrite app_length. simpl. intros Hlt. destruct (decide (o = length (y_objs s))) as [->|].
    - exists q, dir, n. split; [done|]. by left.
    - eapply made_mono; [by apply prefix_app_r|]. apply Ho. lia.
  Qed.

  Definition yt_og (yt : node -> string -> ystate -> res nat) : Prop :=
    forall q n dir s, written q dir n -> inv s /\ orig s -> og s (yt n dir s) (fun s' o => means (y_objs s') dir n o).
  Notation denote := (denote top fns leaf ybool no_pre (defines top docs)).

  Lemma map_targets_og yt q ns dir : yt_og yt -> (forall n, n ∈ ns -> written q dir n) -> forall s, inv s /\ orig s ->
    og s (map_targets yt ns dir s) (fun s' os => denote (y_objs s') dir ns os).
  Proof.
    intros Hy. induction ns as [|n ns IH]; intros Hns s Hi; simpl.
    { split; [done|]. split; [apply ext_refl|constructor]. }
    eapply og_bind; [eapply Hy; [apply Hns; by left|done]|]. intros s1 o Hi1 He1 Ho.
    eapply og_bind; [apply IH; [intros; apply Hns; by right|done]|].
    intros s2 os Hi2 He2 Hos. split; [done|]. split; [apply ext_refl|]. constructor; [|done].
    eapply denotes_mono; [apply He2|done].
  Qed.
  Lemma mk_deps_og s q dir n post pre' t os : written q dir n ->
    has_tag n "Deps" ->
    (n_kind n = KSequence /\ n_content n = post :: pre') \/
        (n_kind n = KMapping /\ exists fs, decode_struct n = Some fs /\ post = field "Post" fs /\ seq_field (field "Pre" fs) = Some pre') ->
    inv s /\ orig s -> means (y_objs s) dir post t -> denote (y_objs s) dir pre' os ->
    og s (mk_deps t os s) (fun s' o => means (y_objs s') dir n o).
  Proof.
    intros Hw Ht Hk [Hi Ho] Hpost Hpre. unfold mk_deps, new, alloc. simpl.
    set (a := length (y_objs s)). set (objs1 := y_objs s ++ [SAll os]).
    assert (He : ext s {| y_objs := objs1 ++ [SSeq [a; t]]; y_reg := y_reg s |}).
    { split; [|simpl; auto]. simpl. unfold objs1. rewrite <-app_assoc. by apply prefix_app_r. }
    assert (Hp : y_objs s `prefix_of` objs1 ++ [SSeq [a; t]]) by apply He.
    assert (Ha : (objs1 ++ [SSeq [a; t]]) !! a = Some (SAll os)).
    { eapply prefix_lookup; [|by apply prefix_app_r]. unfold objs1, a. by rewrite lookup_app_r, Nat.sub_diag by done. }
    assert (Hs : (objs1 ++ [SSeq [a; t]]) !! (length objs1) = Some (SSeq [a; t])) by (by rewrite lookup_app_r, Nat.sub_diag by done).
    assert (Hm : means (objs1 ++ [SSeq [a; t]]) dir n (length objs1)).
    { eapply den_deps; [done|exact Hk| | |exact Ha|exact Hs]; [by eapply denotes_mono|by eapply denote_mono]. }
    split_and!; [by eapply ext_inv| |done|done].
    intros o. simpl. rewrite app_length. simpl. intros Hlt.
    destruct (decide (o = length objs1)) as [->|]; [exists q, dir, n; split; [done|]; by left|].
    unfold objs1 in Hlt. rewrite app_length in Hlt. simpl in Hlt.
    destruct (decide (o = a)) as [->|].
    - exists q, dir, n. split; [done|]. right. by exists (length objs1), t.
    - eapply made_mono; [exact Hp|]. apply Ho. unfold objs1, a in *. rewrite app_length in *. simpl in *. lia.
  Qed.
  Lemma decode_tag_og yt tag q n dir s : yt_og yt -> has_tag n tag -> written q dir n -> inv s /\ orig s ->
    og s (decode_tag top fns leaf ybool ne yt tag n dir s) (fun s' o => means (y_objs s') dir n o).
  Proof.
    intros Hy Ht Hw Hi. pose proof (written_part q dir n) as Hwp. unfold decode_tag.
    destruct (decide (tag = "All")) as [->|N1].
    { destruct (decide _) as [|Hk%dec_stable]; [by apply og_err|].
      eapply og_bind; [eapply map_targets_og; [done| |done]|].
      { intros c Hc. apply Hwp; [done|]. by eapply part_list; eauto. }
      intros s1 os Hi1 He1 Hos. eapply og_new; [done|done|]. eapply den_all; eauto; [|apply new_at].
      eapply denote_mono; [by apply prefix_app_r|done]. }
    destruct (decide (tag = "Seq")) as [->|N2].
    { destruct (decide _) as [|Hk%dec_stable]; [by apply og_err|].
      eapply og_bind; [eapply map_targets_og; [done| |done]|].
      { intros c Hc. apply Hwp; [done|]. by eapply part_list; eauto. }
      intros s1 os Hi1 He1 Hos. eapply og_new; [done|done|]. eapply den_seq; eauto; [|apply new_at].
      eapply denote_mono; [by apply prefix_app_r|done]. }
    destruct (decide (tag = "Deps")) as [->|N3].
    { destruct (n_kind n) eqn:Hk; try by apply og_err.
      - destruct (n_content n) as [|c cs] eqn:Hc; [by apply og_err|].
        eapply og_bind; [eapply Hy; [|done]; apply Hwp; [done|]; eapply part_list; [done|auto..]; rewrite Hc; by left|].
        intros s1 t Hi1 He1 Ht1. eapply og_bind; [eapply map_targets_og; [done| |done]|].
        { intros c' Hc'. apply Hwp; [done|]. eapply part_list; [done|auto..]. rewrite Hc; by right. }
        intros s2 os Hi2 He2 Hos. eapply mk_deps_og; eauto. eapply denotes_mono; [apply He2|done].
      - destruct (decode_struct n) as [fs|] eqn:Hd; [|by apply og_err].
        destruct (seq_field (field "Pre" fs)) as [pre'|] eqn:Hp; [|by apply og_err].
        eapply og_bind; [eapply Hy; [|done]; apply Hwp; [done|]; by eapply part_post|].
        intros s1 t Hi1 He1 Ht1. eapply og_bind; [eapply map_targets_og; [done| |done]|].
        { intros c' Hc'. apply Hwp; [done|]. by eapply part_pre. }
        intros s2 os Hi2 He2 Hos. eapply mk_deps_og; eauto 10. eapply denotes_mono; [apply He2|done]. }
    destruct (decide (tag = "ArgTarget")) as [->|N4].
    { destruct (decide _) as [|Hk%dec_stable]; [by apply og_err|]. destruct (n_content n) as [|c cs] eqn:Hc; [by apply og_err|].
      eapply og_bind; [eapply Hy; [|done]; apply Hwp; [done|]; by eapply part_arg|].
      intros s1 t Hi1 He1 Ht1. unfold lift.
      destruct (YAMLStringListFromNodes fns cs dir) as [args|e] eqn:Ha; [|by apply og_err].
      eapply og_new; [done|done|]. eapply den_arg; eauto; [|apply new_at]. eapply denotes_mono; [by apply prefix_app_r|done]. }
    destruct (decide (tag = "Files")) as [->|N5].
    { destruct (decide _) as [|Hk%dec_stable]; [by apply og_err|].
      destruct (decode_struct n) as [fs|] eqn:Hd; [|by apply og_err].
      destruct (bool_field ybool (field "Autoclean" fs)) as [ac|] eqn:Hb; [|by apply og_err].
      eapply og_bind; [eapply Hy; [|done]; apply Hwp; [done|]; by eapply part_files|].
      intros s1 t Hi1 He1 Ht1. unfold lift.
      destruct (YAMLFileList fns top (field "In" fs) dir) as [ins|e] eqn:Hin; [|by apply og_err].
      destruct (YAMLFileList fns top (field "Out" fs) dir) as [outs|e] eqn:Hout; [|by apply og_err].
      eapply og_new; [done|done|]. eapply den_files; eauto; [|apply new_at]. eapply denotes_mono; [by apply prefix_app_r|done]. }
    destruct (leaf tag) as [accepts|] eqn:Hl; [|by apply og_err].
    destruct (accepts n dir) eqn:Hacc; [|by apply og_err].
    eapply og_new; [done|done|]. eapply den_leaf; eauto; [|apply new_at].
    rewrite !elem_of_cons, elem_of_nil. tauto.
  Qed.
  Lemma entries_og yt dir ps : yt_og yt ->
    (forall k v, (k, v) ∈ ps -> target_key k -> defines top docs dir (reg_name dir (n_value k)) k v) ->
    forall saw s, inv s /\ orig s -> og s (entries_loop yt dir ps saw s) (fun _ _ => True).
  Proof.
    intros Hy. induction ps as [|[k v] ps IH]; intros Hps saw s Hi; cbn [entries_loop].
    { destruct (decide _) as [|Hd]; [by apply og_err|]. split; [done|]. split; [apply ext_refl|done]. }
    destruct (decide _) as [|Hk%dec_stable]; [by apply og_err|].
    assert (Hps' : forall k v, (k, v) ∈ ps -> target_key k -> defines top docs dir (reg_name dir (n_value k)) k v).
    { intros k' v' ?. apply Hps. by right. }
    specialize (IH Hps').
    destruct (decide (n_value k = "_dir")) as [Hdir|Hdir].
    - destruct (decide _) as [|Hkv%dec_stable]; [by apply og_err|].
      destruct (decide _) as [|Hv%dec_stable]; [by apply og_err|]. by apply IH.
    - destruct (has_slash (n_value k)) eqn:Hs; [by apply og_err|].
      assert (Htk : target_key k) by done.
      assert (Hd : defines top docs dir (reg_name dir (n_value k)) k v) by (apply Hps; [by left|done]).
      eapply og_bind; [eapply (Hy (reg_name dir (n_value k))); [|done]; exists k, v; split; [done|constructor]|].
      intros s1 o [Hi1 Ho1] He1 Ho.
      destruct (register_ext top fns leaf ybool no_pre (defines top docs) s1 dir k v o Hi1) as (Her & Hir & Hdr); [done|done|].
      set (s2 := register _ _ _ _) in *. specialize (IH saw s2 (conj Hir Ho1)).
      destruct (entries_loop yt dir ps saw s2) as [s3 []|s3 ?|] eqn:E; simpl in *; [| |done].
      + destruct IH as (Hi3 & He3 & _). split_and!; [apply Hi3|apply Hi3|by eapply ext_trans|done].
      + destruct IH as (Hi3 & He3). split; [done|by eapply ext_trans].
  Qed.
  Lemma read_og yt D : yt_og yt -> forall s, inv s /\ orig s -> og s (ReadYAMLFile top docs ne yt D s) (fun _ _ => True).
  Proof.
    intros Hy s Hi. unfold ReadYAMLFile. destruct (docs _) as [doc|] eqn:Hdoc; [|by apply og_err].
    destruct (file_dir top D) as [dir|] eqn:Hdir; [|by apply og_err].
    unfold ReadYAML. destruct (decide _) as [|Hk%dec_stable]; [by apply og_err|].
    destruct (n_content doc) as [|m [|? ?]] eqn:Hc; try by apply og_err.
    destruct (decide _) as [|Hm%dec_stable]; [by apply og_err|].
    destruct (pairs (n_content m)) as [ps|] eqn:Hp; [|by apply og_err]. apply pairs_spec in Hp.
    apply entries_og; [done| |done]. intros k v Hin Htk. exists D, doc, ps. split_and!; try done. by exists m.
  Qed.
  Lemma yaml_target_og fuel : yt_og (YT fuel).
  Proof.
    induction fuel as [|fuel IH]; intros q n dir s Hw Hi; [done|]. cbn [YAMLTarget].
    destruct (decide _) as [Ht|Hu%dec_stable]; [eapply decode_tag_og; [done|by apply tag_ne|done|done]|].
    apply tag_untagged in Hu. destruct (decide _) as [|Hk%dec_stable]; [by apply og_err|].
    destruct (has_slash (n_value n)) eqn:Hs.
    2:{ eapply og_new; [done|done|]. apply den_name; [done|done|done|apply new_at]. }
    destruct (RelPath top (JoinPath top [dir; n_value n])) as [q'|] eqn:Hq; [|by apply og_err].
    assert (Href : ref_key top dir (n_value n) = Some q') by (unfold ref_key; by rewrite Hs).
    destruct (decide (Dir q' <> ".")) as [Hfar|Hnear].
    2:{ eapply og_new; [done|done|]. eapply den_top; [done|done|done|done|done|apply new_at]. }
    assert (Hden : forall s' d o, inv s' -> y_reg s' !! q' = Some (d, o) -> means (y_objs s') dir n o).
    { intros s' d o Hi' Ho. destruct (Hi' q' d o Ho) as [[]|(d' & o' & dir' & k & v & Ho' & Hdf & -> & Hn)].
      simplify_eq. by eapply den_far. }
    destruct (y_reg s !! q') as [[d o]|] eqn:Ho.
    { split_and!; [apply Hi|apply Hi|apply ext_refl|]. eapply Hden; [apply Hi|done]. }
    eapply og_bind; [by apply read_og|].
    intros s1 _ Hi1 He1 _. destruct (y_reg s1 !! q') as [[d o]|] eqn:Ho1; [|by apply og_err].
    split_and!; [apply Hi1|apply Hi1|apply ext_refl|]. eapply Hden; [apply Hi1|done].
  Qed.

  Lemma loads_inv s : loads top fns leaf ybool docs ne s -> inv s /\ orig s.
  Proof.
    intros [fuel Hl]. pose proof (read_og (YT fuel) "" (yaml_target_og fuel) {| y_objs := []; y_reg := ∅ |}) as H.
    cbv zeta in Hl. assert (H0 : inv {| y_objs := []; y_reg := ∅ |} /\ orig {| y_objs := []; y_reg := ∅ |}).
    { split; [intros q d o; simpl; by rewrite lookup_empty|]. intros o. simpl. lia. }
    specialize (H H0). destruct Hl as [Hl|[e Hl]]; rewrite Hl in H; simpl in H; apply H.
  Qed.
  Lemma loads_reg s q d o : loads top fns leaf ybool docs ne s -> y_reg s !! q = Some (d, o) ->
    exists dir k v, defines top docs dir q k v /\ means (y_objs s) dir v o.
  Proof.
    intros Hl Hq. destruct (loads_inv s Hl) as [Hi _]. destruct (Hi q d o Hq) as [[]|(d' & o' & dir & k & v & H1 & H2 & _ & H4)].
    simplify_eq. by exists dir, k, v.
  Qed.
  Lemma loads_made s o : loads top fns leaf ybool docs ne s -> o < length (y_objs s) -> made (y_objs s) o.
  Proof. intros Hl. by apply (loads_inv s Hl). Qed.
End origin.
