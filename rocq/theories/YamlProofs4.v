(** Errors that say that a file does not exist. *)
From stdpp Require Import base gmap list strings.
From Coq Require Import Ascii.
From Verif Require Import PathModel YamlModel YamlSpec YamlProofs YamlProofs2.
Local Open Scope list_scope.

Section quiet.
  Context (top : string) (fns : list_fns) (leaf : string -> option (node -> string -> bool))
    (ybool : node -> option bool) (docs : string -> option node) (ne : notexist).
  Notation YT := (YAMLTarget top fns leaf ybool docs ne).
  Context (Hlist : forall e, ne_list ne e = false) (Hleaf : forall t n dir, ne_leaf ne t n dir = false).
  (** Files of directories that are referred to exist. *)
  Context (Hdocs : forall D doc dir ps k v q, docs (Join [top; D]) = Some doc -> file_dir top D = Some dir -> has_entries doc ps -> (k, v) ∈ ps -> target_key k ->
    refers top dir v q -> far q -> ne_file ne (Join [top; Dir q]) = false).

  Definition quiet {A} (r : res A) : Prop := forall s, r <> RErr s true.
  Lemma bind_quiet {A B} (r : res A) (f : ystate -> A -> res B) : quiet r -> (forall s a, quiet (f s a)) -> quiet (bind r f).
  Proof. intros H1 H2. destruct r; simpl; [apply H2|by intros s' [= -> ->]; eapply H1|done]. Qed.
  Lemma map_targets_quiet yt ns dir : (forall c s, c ∈ ns -> quiet (yt c dir s)) -> forall s, quiet (map_targets yt ns dir s).
  Proof.
    induction ns as [|n ns IH]; intros H s; simpl; [done|]. apply bind_quiet; [apply H; by left|]. intros s1 o.
    apply bind_quiet; [apply IH; intros; apply H; by right|done].
  Qed.
  Lemma lift_quiet {A} r s (f : list string -> res A) : (forall l, quiet (f l)) -> quiet (lift ne r s f).
  Proof. intros H. destruct r as [l|[]]; simpl; [apply H|done|done|]. rewrite Hlist. done. Qed.
  Lemma decode_tag_quiet yt tag n dir : has_tag n tag -> (forall c s, part n c -> quiet (yt c dir s)) ->
    forall s, quiet (decode_tag top fns leaf ybool ne yt tag n dir s).
  Proof.
    intros Ht H s. unfold decode_tag.
    destruct (decide (tag = "All")) as [->|N1].
    { destruct (decide _) as [|Hk%dec_stable]; [done|]. apply bind_quiet; [|done]. apply map_targets_quiet.
      intros c s' Hc. apply H. by eapply part_list; eauto. }
    destruct (decide (tag = "Seq")) as [->|N2].
    { destruct (decide _) as [|Hk%dec_stable]; [done|]. apply bind_quiet; [|done]. apply map_targets_quiet.
      intros c s' Hc. apply H. by eapply part_list; eauto. }
    destruct (decide (tag = "Deps")) as [->|N3].
    { destruct (n_kind n) eqn:Hk; try done.
      - destruct (n_content n) as [|c cs] eqn:Hc; [done|].
        assert (Hp : forall c', c' ∈ c :: cs -> part n c').
        { intros c' ?. eapply part_list; eauto. by rewrite Hc. }
        apply bind_quiet; [apply H, Hp; by left|]. intros s1 t. apply bind_quiet; [|done]. apply map_targets_quiet.
        intros c' s' Hc'. apply H, Hp. by right.
      - destruct (decode_struct n) as [fs|] eqn:Hd; [|done].
        destruct (seq_field (field "Pre" fs)) as [pre'|] eqn:Hp; [|done].
        apply bind_quiet; [apply H; by eapply part_post|]. intros s1 t. apply bind_quiet; [|done]. apply map_targets_quiet.
        intros c' s' Hc'. apply H. by eapply part_pre. }
    destruct (decide (tag = "ArgTarget")) as [->|N4].
    { destruct (decide _) as [|Hk%dec_stable]; [done|]. destruct (n_content n) as [|c cs] eqn:Hc; [done|].
      apply bind_quiet; [apply H; by eapply part_arg|]. intros s1 t. by apply lift_quiet. }
    destruct (decide (tag = "Files")) as [->|N5].
    { destruct (decide _) as [|Hk%dec_stable]; [done|].
      destruct (decode_struct n) as [fs|] eqn:Hd; [|done].
      destruct (bool_field ybool (field "Autoclean" fs)) as [ac|] eqn:Hb; [|done].
      apply bind_quiet; [apply H; by eapply part_files|]. intros s1 t. apply lift_quiet. intros ins. by apply lift_quiet. }
    destruct (leaf tag) as [accepts|] eqn:Hl; [|done]. destruct (accepts n dir); [done|]. rewrite Hleaf. done.
  Qed.
  Lemma entries_quiet yt dir ps : (forall k v s, (k, v) ∈ ps -> target_key k -> quiet (yt v dir s)) ->
    forall saw s, quiet (entries_loop yt dir ps saw s).
  Proof.
    induction ps as [|[k v] ps IH]; intros H saw s; cbn [entries_loop]; [by destruct (decide _)|].
    destruct (decide _) as [|Hk%dec_stable]; [done|].
    assert (H' : forall k v s, (k, v) ∈ ps -> target_key k -> quiet (yt v dir s)).
    { intros k' v' s' ?. eapply H. by right. }
    destruct (decide (n_value k = "_dir")) as [Hd|Hd].
    - destruct (decide _); [done|]. destruct (decide _); [done|]. by apply IH.
    - destruct (has_slash (n_value k)) eqn:Hs; [done|]. apply bind_quiet; [by eapply H; [left|]|]. intros s1 o. by apply IH.
  Qed.
  Lemma read_quiet yt doc dir : (forall ps k v s, has_entries doc ps -> (k, v) ∈ ps -> target_key k -> quiet (yt v dir s)) ->
    forall s, quiet (ReadYAML yt doc dir s).
  Proof.
    intros H s. unfold ReadYAML. destruct (decide _) as [|Hk%dec_stable]; [done|].
    destruct (n_content doc) as [|m [|? ?]] eqn:Hc; try done.
    destruct (decide _) as [|Hm%dec_stable]; [done|].
    destruct (pairs (n_content m)) as [ps|] eqn:Hp; [|done]. apply pairs_spec in Hp.
    apply entries_quiet. intros k v s' Hin Hkey. apply (H ps k); [by exists m|done|done].
  Qed.
  Lemma target_quiet fuel : forall n dir s, (forall q, refers top dir n q -> far q -> ne_file ne (Join [top; Dir q]) = false) -> quiet (YT fuel n dir s).
  Proof.
    induction fuel as [|fuel IH]; intros n dir s Href; [done|]. cbn [YAMLTarget].
    destruct (decide _) as [Ht|Hu%dec_stable].
    { apply decode_tag_quiet; [by apply tag_ne|]. intros c s' Hc. apply IH. intros q Hq Hf. apply Href; [|done]. by eapply refers_part. }
    destruct (decide _) as [|Hk%dec_stable]; [done|]. destruct (has_slash (n_value n)) eqn:Hs; [|done].
    destruct (RelPath _ _) as [q|] eqn:Hq; [|done]. destruct (decide _) as [Hf|]; [|done]. destruct (y_reg s !! q) as [[]|]; [done|].
    apply bind_quiet; [|intros s1 []; by destruct (y_reg s1 !! q) as [[]|]].
    unfold ReadYAMLFile. destruct (docs (Join [top; Dir q])) as [doc|] eqn:Ed.
    - destruct (file_dir top (Dir q)) as [dir'|] eqn:Efd; [|done]. apply read_quiet. intros ps k v s' Hps Hin Hkey. apply IH. intros q' Hq' Hf'. by eapply Hdocs.
    - rewrite Href; [done| |done]. apply refers_self; [by apply tag_untagged|done|]. unfold ref_key. by rewrite Hs.
  Qed.
  Lemma file_quiet fuel D s : ne_file ne (Join [top; D]) = false -> quiet (ReadYAMLFile top docs ne (YT fuel) D s).
  Proof.
    intros Hf. unfold ReadYAMLFile. destruct (docs (Join [top; D])) as [doc|] eqn:Ed; [|by rewrite Hf].
    destruct (file_dir top D) as [dir'|] eqn:Efd; [|done]. apply read_quiet. intros ps k v s' Hps Hin Hkey. apply target_quiet. intros q Hq Hfar. by eapply Hdocs.
  Qed.
End quiet.
(** For a document that refers to no other directory. *)
Lemma local_quiet top fns leaf ybool docs ne fuel doc dir s : (forall e, ne_list ne e = false) -> (forall t n dir, ne_leaf ne t n dir = false) ->
  (forall ps k v q, has_entries doc ps -> (k, v) ∈ ps -> target_key k -> refers top dir v q -> ~ far q) ->
  quiet (ReadYAML (YAMLTarget top fns leaf ybool docs ne fuel) doc dir s).
Proof.
  intros H1 H2 Hloc. apply read_quiet. intros ps k v s' Hps Hin Hkey. revert v s' Hin.
  enough (Ht : forall n s, (forall q, refers top dir n q -> ~ far q) -> quiet (YAMLTarget top fns leaf ybool docs ne fuel n dir s)).
  { intros v s' Hin. apply Ht. intros q Hq. by eapply Hloc. }
  induction fuel as [|fuel IH]; intros n s0 Href; [done|]. cbn [YAMLTarget].
  destruct (decide _) as [Ht|Hu%dec_stable].
  { apply decode_tag_quiet; [done|done|by apply tag_ne|]. intros c s' Hc. apply IH. intros q Hq. apply Href. by eapply refers_part. }
  destruct (decide _) as [|Hk%dec_stable]; [done|]. destruct (has_slash (n_value n)) eqn:Hs; [|done].
  destruct (RelPath _ _) as [q|] eqn:Hq; [|done]. destruct (decide _) as [Hf|]; [|done]. exfalso. apply (Href q); [|done].
  apply refers_self; [by apply tag_untagged|done|]. unfold ref_key. by rewrite Hs.
Qed.
