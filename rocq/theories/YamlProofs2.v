From stdpp Require Import base gmap list strings.
From Coq Require Import Ascii.
From Verif Require Import PathModel YamlModel YamlSpec YamlProofs.
Local Open Scope list_scope.

(** ** Termination *)
Section term.
  Context (top : string) (fns : list_fns) (leaf : string -> option (node -> string -> bool))
    (ybool : node -> option bool) (docs : string -> option node) (ne : notexist).
  Notation YT := (YAMLTarget top fns leaf ybool docs ne).

  Lemma bind_out {A B} (r : res A) (f : ystate -> A -> res B) : r <> ROut -> (forall s a, f s a <> ROut) -> bind r f <> ROut.
  Proof. intros H1 H2. destruct r; simpl; [apply H2|done|done]. Qed.
  Lemma map_targets_out yt ns dir : (forall c s, c ∈ ns -> yt c dir s <> ROut) -> forall s, map_targets yt ns dir s <> ROut.
  Proof.
    induction ns as [|n ns IH]; intros H s; simpl; [done|]. apply bind_out; [apply H; by left|]. intros s1 o.
    apply bind_out; [apply IH; intros; apply H; by right|done].
  Qed.
  Lemma decode_tag_out yt tag n dir : has_tag n tag -> (forall c s, part n c -> yt c dir s <> ROut) ->
    forall s, decode_tag top fns leaf ybool ne yt tag n dir s <> ROut.
  Proof.
    intros Ht H s. unfold decode_tag.
    destruct (decide (tag = "All")) as [->|N1].
    { destruct (decide _) as [|Hk%dec_stable]; [done|]. apply bind_out; [|done]. apply map_targets_out.
      intros c s' Hc. apply H. by eapply part_list; eauto. }
    destruct (decide (tag = "Seq")) as [->|N2].
    { destruct (decide _) as [|Hk%dec_stable]; [done|]. apply bind_out; [|done]. apply map_targets_out.
      intros c s' Hc. apply H. by eapply part_list; eauto. }
    destruct (decide (tag = "Deps")) as [->|N3].
    { destruct (n_kind n) eqn:Hk; try done.
      - destruct (n_content n) as [|c cs] eqn:Hc; [done|].
        assert (Hp : forall c', c' ∈ c :: cs -> part n c').
        { intros c' ?. eapply part_list; eauto. by rewrite Hc. }
        apply bind_out; [apply H, Hp; by left|]. intros s1 t. apply bind_out; [|done]. apply map_targets_out.
        intros c' s' Hc'. apply H, Hp. by right.
      - destruct (decode_struct n) as [fs|] eqn:Hd; [|done].
        destruct (seq_field (field "Pre" fs)) as [pre'|] eqn:Hp; [|done].
        apply bind_out; [apply H; by eapply part_post|]. intros s1 t. apply bind_out; [|done]. apply map_targets_out.
        intros c' s' Hc'. apply H. by eapply part_pre. }
    destruct (decide (tag = "ArgTarget")) as [->|N4].
    { destruct (decide _) as [|Hk%dec_stable]; [done|]. destruct (n_content n) as [|c cs] eqn:Hc; [done|].
      apply bind_out; [apply H; by eapply part_arg|]. intros s1 t. unfold lift. by destruct (YAMLStringListFromNodes fns cs dir). }
    destruct (decide (tag = "Files")) as [->|N5].
    { destruct (decide _) as [|Hk%dec_stable]; [done|].
      destruct (decode_struct n) as [fs|] eqn:Hd; [|done].
      destruct (bool_field ybool (field "Autoclean" fs)) as [ac|] eqn:Hb; [|done].
      apply bind_out; [apply H; by eapply part_files|]. intros s1 t. unfold lift.
      destruct (YAMLFileList fns top (field "In" fs) dir); [|done]. by destruct (YAMLFileList fns top (field "Out" fs) dir). }
    destruct (leaf tag) as [accepts|] eqn:Hl; [|done]. by destruct (accepts n dir).
  Qed.
  Lemma entries_out yt dir ps : (forall k v s, (k, v) ∈ ps -> target_key k -> yt v dir s <> ROut) ->
    forall saw s, entries_loop yt dir ps saw s <> ROut.
  Proof.
    induction ps as [|[k v] ps IH]; intros H saw s; cbn [entries_loop]; [by destruct (decide _)|].
    destruct (decide _) as [|Hk%dec_stable]; [done|].
    assert (H' : forall k v s, (k, v) ∈ ps -> target_key k -> yt v dir s <> ROut).
    { intros k' v' s' ?. eapply H. by right. }
    destruct (decide (n_value k = "_dir")) as [Hd|Hd].
    - destruct (decide _); [done|]. destruct (decide _); [done|]. by apply IH.
    - destruct (has_slash (n_value k)) eqn:Hs; [done|]. apply bind_out; [by eapply H; [left|]|]. intros s1 o. by apply IH.
  Qed.
  Lemma read_out yt doc dir : (forall ps k v s, has_entries doc ps -> (k, v) ∈ ps -> target_key k -> yt v dir s <> ROut) ->
    forall s, ReadYAML yt doc dir s <> ROut.
  Proof.
    intros H s. unfold ReadYAML. destruct (decide _) as [|Hk%dec_stable]; [done|].
    destruct (n_content doc) as [|m [|? ?]] eqn:Hc; try done.
    destruct (decide _) as [|Hm%dec_stable]; [done|].
    destruct (pairs (n_content m)) as [ps|] eqn:Hp; [|done]. apply pairs_spec in Hp.
    apply entries_out. intros k v s' Hin Hkey. apply (H ps k); [by exists m|done|done].
  Qed.

  (** Parts are smaller, but for absent fields. *)
  Lemma part_size n c : part n c -> c = zero_node \/ nsize c < nsize n.
  Proof.
    destruct 1 as [t c ? ? ? Hc|c cs ? ? Hc|fs ? Hd|fs ns c ? Hd Hs Hc|fs ? Hd].
    - right. by apply nsize_content.
    - right. apply nsize_content. rewrite Hc. by left.
    - destruct (field_cases "Post" fs) as [->|Hf]; [auto|]. right. apply nsize_content. by eapply struct_elem.
    - right. destruct (field_cases "Pre" fs) as [Hf|Hf].
      { rewrite Hf in Hs. unfold seq_field in Hs. destruct (decide _) as [|Hn]; [|destruct Hn; by left]. simplify_eq. by apply elem_of_nil in Hc. }
      unfold seq_field in Hs. destruct (decide _); [simplify_eq; by apply elem_of_nil in Hc|]. destruct (decide _); [|done].
      simplify_eq. apply nsize_content in Hc. assert (nsize (field "Pre" fs) < nsize n) by (apply nsize_content; by eapply struct_elem). lia.
    - destruct (field_cases "Target" fs) as [->|Hf]; [auto|]. right. apply nsize_content. by eapply struct_elem.
  Qed.
  (** All parts, as a list. *)
  Definition tparts (n : node) : list node :=
    let tag := normalizeTag (n_tag n) in
    if decide (n_kind n = KSequence) then
      if decide (tag = "All" \/ tag = "Seq" \/ tag = "Deps") then n_content n
      else if decide (tag = "ArgTarget") then take 1 (n_content n) else []
    else match decode_struct n with
         | None => []
         | Some fs =>
             if decide (tag = "Deps") then field "Post" fs :: default [] (seq_field (field "Pre" fs))
             else if decide (tag = "Files") then [field "Target" fs] else []
         end.
  Lemma part_tparts n c : part n c <-> c ∈ tparts n.
  Proof.
    unfold tparts. split.
    - destruct 1 as [t c Ht Ht' Hk Hc|c cs Ht Hk Hc|fs Ht Hd|fs ns c Ht Hd Hs Hc|fs Ht Hd]; apply has_tag_eq in Ht; rewrite Ht.
      + destruct (decide _); [|done]. by destruct (decide _).
      + destruct (decide _); [|done]. destruct (decide _) as [[?|[?|?]]|]; [done..|]. rewrite Hc. simpl. by left.
      + apply struct_kind in Hd as Hk. destruct (decide _); [congruence|]. rewrite Hd. simpl. by left.
      + apply struct_kind in Hd as Hk. destruct (decide _); [congruence|]. rewrite Hd, Hs. simpl. by right.
      + apply struct_kind in Hd as Hk. destruct (decide _); [congruence|]. rewrite Hd. simpl. by left.
    - destruct (decide _) as [Hk|Hk].
      + destruct (decide _) as [Ht|Ht].
        * intros Hc. eapply part_list; eauto. apply tag_has; [|done]. by destruct Ht as [->|[->| ->]].
        * destruct (decide _) as [Ht'|]; [|by intros ?%elem_of_nil]. destruct (n_content n) as [|c' cs] eqn:Hc; simpl; [by intros ?%elem_of_nil|].
          intros ->%elem_of_list_singleton. eapply part_arg; eauto. by apply tag_has.
      + destruct (decode_struct n) as [fs|] eqn:Hd; [|by intros ?%elem_of_nil].
        destruct (decide _) as [Ht|Ht].
        * apply tag_has in Ht; [|done]. intros [->|Hc]%elem_of_cons; [by eapply part_post|].
          destruct (seq_field (field "Pre" fs)) as [ns|] eqn:Hs; simpl in Hc; [by eapply part_pre|by apply elem_of_nil in Hc].
        * destruct (decide _) as [Ht'|]; [|by intros ?%elem_of_nil]. apply tag_has in Ht'; [|done].
          intros ->%elem_of_list_singleton. by eapply part_files.
  Qed.

  Definition ends (n : node) (dir : string) : Prop := exists N, forall fuel s, N <= fuel -> YT fuel n dir s <> ROut.
  Lemma ends_list (ns : list node) dir : (forall n, n ∈ ns -> ends n dir) ->
    exists N, forall n fuel s, n ∈ ns -> N <= fuel -> YT fuel n dir s <> ROut.
  Proof.
    induction ns as [|n ns IH]; intros H.
    { exists 0. intros n fuel s Hn. by apply elem_of_nil in Hn. }
    destruct IH as [N HN]; [intros ? ?; apply H; by right|]. destruct (H n) as [M HM]; [by left|].
    exists (N `max` M). intros n' fuel s [->|Hn]%elem_of_cons ?; [apply HM; lia|apply HN; [done|lia]].
  Qed.

  Lemma has_entries_fun doc ps ps' : has_entries doc ps -> has_entries doc ps' -> ps = ps'.
  Proof.
    intros (m & _ & Hm & _ & H) (m' & _ & Hm' & _ & H'). assert (m = m') as <- by congruence.
    apply pairs_spec in H, H'. congruence.
  Qed.
  Lemma has_entries_dec doc : (exists ps, has_entries doc ps) \/ forall ps, ~ has_entries doc ps.
  Proof.
    destruct (decide (n_kind doc = KDocument)) as [Hk|Hk]; [|right; intros ps (m & ? & _); done].
    destruct (n_content doc) as [|m [|? ?]] eqn:Hc; [right; intros ps (m' & ? & ? & _); congruence| |right; intros ps (m' & ? & ? & _); congruence].
    destruct (decide (n_kind m = KMapping)) as [Hm|Hm]; [|right; intros ps (m' & ? & ? & ? & _); congruence].
    destruct (pairs (n_content m)) as [ps|] eqn:Hp.
    - apply pairs_spec in Hp. left. exists ps, m. done.
    - right. intros ps (m' & ? & ? & ? & H%pairs_spec). congruence.
  Qed.
  Lemma read_ends doc dir : (forall ps k v, has_entries doc ps -> (k, v) ∈ ps -> target_key k -> ends v dir) ->
    exists N, forall fuel s, N <= fuel -> ReadYAML (YT fuel) doc dir s <> ROut.
  Proof.
    intros H. destruct (has_entries_dec doc) as [[ps Hps]|Hn].
    2:{ exists 0. intros fuel s _. apply read_out. intros ps k v s' Hps. by apply Hn in Hps. }
    destruct (ends_list ((fun p => p.2) <$> filter (fun p => n_kind p.1 = KScalar /\ n_value p.1 <> "_dir" /\ has_slash (n_value p.1) = false) ps) dir) as [N HN].
    { intros n ([k v] & -> & [Hk Hin]%elem_of_list_filter)%elem_of_list_fmap. by eapply H. }
    exists N. intros fuel s Hf. apply read_out. intros ps' k v s' Hps' Hin Hkey.
    assert (ps' = ps) as -> by (by eapply has_entries_fun). apply HN; [|done].
    apply elem_of_list_fmap. exists (k, v). split; [done|]. by apply elem_of_list_filter.
  Qed.

  Context (rank : string -> nat).
  Definition ranked (r : nat) : Prop :=
    forall D doc dir ps k v q, rank (Join [top; D]) < r -> docs (Join [top; D]) = Some doc -> file_dir top D = Some dir ->
    has_entries doc ps -> (k, v) ∈ ps -> target_key k -> refers top dir v q -> far q ->
    rank (Join [top; Dir q]) < rank (Join [top; D]).

  Lemma zero_ends dir : ends zero_node dir.
  Proof. exists 1. intros [|fuel] s ?; [lia|done]. Qed.
  Lemma rank_ends r : ranked r -> forall n dir, (forall q, refers top dir n q -> far q -> rank (Join [top; Dir q]) < r) -> ends n dir.
  Proof.
    induction r as [r IHr] using lt_wf_ind.
    intros Hrank n. induction n as [n IHn] using (induction_ltof1 _ nsize); unfold ltof in IHn. intros dir Href.
    destruct (decide (normalizeTag (n_tag n) <> "")) as [Ht|Hu%dec_stable].
    { destruct (ends_list (tparts n) dir) as [N HN].
      { intros c Hc%part_tparts. destruct (part_size n c Hc) as [->|Hs]; [apply zero_ends|].
        apply IHn; [done|]. intros q Hq Hf. apply Href; [|done]. by eapply refers_part. }
      exists (S N). intros [|fuel] s Hle; [lia|]. cbn [YAMLTarget]. rewrite decide_True by done.
      apply decode_tag_out; [by apply tag_ne|]. intros c s' Hc. apply HN; [by apply part_tparts|lia]. }
    destruct (decide (n_kind n = KScalar)) as [Hk|Hk].
    2:{ exists 1. intros [|fuel] s ?; [lia|]. cbn [YAMLTarget]. rewrite Hu. by rewrite decide_False, decide_True by tauto. }
    destruct (has_slash (n_value n)) eqn:Hs.
    2:{ exists 1. intros [|fuel] s ?; [lia|]. cbn [YAMLTarget]. rewrite Hu. rewrite decide_False, decide_False by tauto. by rewrite Hs. }
    destruct (RelPath top (JoinPath top [dir; n_value n])) as [q|] eqn:Hq.
    2:{ exists 1. intros [|fuel] s ?; [lia|]. cbn [YAMLTarget]. rewrite Hu. rewrite decide_False, decide_False by tauto. by rewrite Hs, Hq. }
    destruct (decide (Dir q <> ".")) as [Hf|Hf].
    2:{ exists 1. intros [|fuel] s ?; [lia|]. cbn [YAMLTarget]. rewrite Hu. rewrite decide_False, decide_False by tauto. rewrite Hs, Hq. by rewrite decide_False. }
    assert (Hrd : exists N, forall fuel s, N <= fuel -> ReadYAMLFile top docs ne (YT fuel) (Dir q) s <> ROut).
    { unfold ReadYAMLFile. destruct (docs (Join [top; Dir q])) as [doc|] eqn:Hdoc; [|exists 0; intros; done].
      destruct (file_dir top (Dir q)) as [rel|] eqn:Hrel; [|exists 0; intros; done].
      assert (Hlt : rank (Join [top; Dir q]) < r).
      { apply Href; [|done]. apply refers_self; [by apply tag_untagged|done|]. unfold ref_key. by rewrite Hs. }
      apply read_ends. intros ps k v Hps Hin Hkey. apply (IHr (rank (Join [top; Dir q])) Hlt).
      - intros D' doc' dir' ps' k' v' q' Hd'. apply Hrank. lia.
      - intros q' Hq' Hf'. by eapply Hrank. }
    destruct Hrd as [N HN]. exists (S N). intros [|fuel] s ?; [lia|]. cbn [YAMLTarget]. rewrite Hu. rewrite decide_False, decide_False by tauto.
    rewrite Hs, Hq. rewrite decide_True by done. destruct (y_reg s !! q) as [[d o]|]; [done|].
    apply bind_out; [apply HN; lia|]. intros s1 _. by destruct (y_reg s1 !! q) as [[d o]|].
  Qed.
  Lemma all_end n dir : (forall r, ranked r) -> ends n dir.
  Proof.
    intros Hrank.
    (* the far references of [n] are finitely many *)
    enough (exists r, forall q, refers top dir n q -> far q -> rank (Join [top; Dir q]) < r) as [r Hr] by (by eapply (rank_ends r)).
    induction n as [n IHn] using (induction_ltof1 _ nsize); unfold ltof in IHn.
    assert (Hself : exists r, forall q, ref_key top dir (n_value n) = Some q -> rank (Join [top; Dir q]) < r).
    { destruct (ref_key top dir (n_value n)) as [q|]; [|exists 0; done]. exists (S (rank (Join [top; Dir q]))). intros ? [= <-]. lia. }
    assert (Hz : forall q, ~ refers top dir zero_node q).
    { assert (Hp : forall c, ~ part zero_node c).
      { intros c Hc. inversion Hc as [t ? Ht| ? ? Ht|? Ht|? ? ? Ht|? Ht]; subst; apply has_tag_eq in Ht; simpl in Ht; subst; try done. }
      intros q Hq. inversion Hq; subst; [done|]. by eapply Hp. }
    assert (Hparts : exists r, forall c q, c ∈ tparts n -> refers top dir c q -> far q -> rank (Join [top; Dir q]) < r).
    { assert (Hall : forall c, c ∈ tparts n -> exists r, forall q, refers top dir c q -> far q -> rank (Join [top; Dir q]) < r).
      { intros c Hc%part_tparts. destruct (part_size n c Hc) as [->|Hs]; [|by apply IHn]. exists 0. intros q Hq. by apply Hz in Hq. }
      clear -Hall. induction (tparts n) as [|c cs IH].
      { exists 0. intros c q Hc. by apply elem_of_nil in Hc. }
      destruct IH as [r Hr]; [intros ? ?; apply Hall; by right|]. destruct (Hall c) as [r' Hr']; [by left|].
      exists (r `max` r'). intros c' q [->|Hc]%elem_of_cons Hq Hf; [specialize (Hr' q Hq Hf)|specialize (Hr c' q Hc Hq Hf)]; lia. }
    destruct Hself as [r1 H1], Hparts as [r2 H2]. exists (r1 `max` r2). intros q Hq Hf.
    inversion Hq as [q' ? ? Hk|c q' Hc Hq']; subst; [specialize (H1 q Hk); lia|].
    apply part_tparts in Hc. specialize (H2 c q Hc Hq' Hf). lia.
  Qed.
  Lemma read_file_ends D : (forall r, ranked r) -> exists N, forall fuel s, N <= fuel -> ReadYAMLFile top docs ne (YT fuel) D s <> ROut.
  Proof.
    intros Hrank. unfold ReadYAMLFile. destruct (docs (Join [top; D])) as [doc|] eqn:Hdoc; [|exists 0; intros; done].
    destruct (file_dir top D) as [rel|] eqn:Hrel; [|exists 0; intros; done].
    apply read_ends. intros. by apply all_end.
  Qed.
  Lemma local_read_ends doc dir : (forall ps k v q, has_entries doc ps -> (k, v) ∈ ps -> target_key k -> refers top dir v q -> ~ far q) ->
    exists N, forall fuel s, N <= fuel -> ReadYAML (YT fuel) doc dir s <> ROut.
  Proof.
    intros Hl. apply read_ends. intros ps k v Hps Hin Hkey. apply (rank_ends 0).
    - intros D doc' dir' ps' k' v' q ?. lia.
    - intros q Hq Hf. exfalso. by eapply Hl.
  Qed.
End term.
