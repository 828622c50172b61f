From stdpp Require Import base gmap list sorting strings.
From Verif Require Import PathModel StrOrd FileHashModel FileHashSpec.
Local Open Scope list_scope.

Section proofs.
  Context (hashf : string -> string).
  Notation item_helper := (item_helper hashf).
  Notation file_hash := (file_hash hashf).

  (** ** More fuel does not change a result. *)
  Lemma items_helper_ext f g items hs :
    (forall i hs r, f i hs = r -> r <> HOutOfFuel -> g i hs = r) ->
    forall r, items_helper f items hs = r -> r <> HOutOfFuel -> items_helper g items hs = r.
  Proof.
    intros Hfg. revert hs. induction items as [|i items IH]; intros hs r; [done|]. simpl.
    destruct (f i hs) as [hs'|e| |] eqn:E.
    - intros H Hr. rewrite (Hfg i hs _ E) by done. by apply IH.
    - intros <- Hr. rewrite (Hfg i hs _ E) by done. done.
    - intros <- Hr. rewrite (Hfg i hs _ E) by done. done.
    - by intros <-.
  Qed.
  Lemma item_helper_mono fs : forall fuel fuel' item hs r, fuel <= fuel' ->
    item_helper fuel fs item hs = r -> r <> HOutOfFuel -> item_helper fuel' fs item hs = r.
  Proof.
    induction fuel as [|fuel IH]; intros fuel' item hs r Hle; [by intros <-|].
    destruct fuel' as [|fuel']; [lia|]. simpl. destruct (hs !! item); [done|].
    destruct (fs item) as [| |c|[names|]]; try done.
    apply items_helper_ext. intros i hs' r' H Hr. eapply IH; [lia|done|done].
  Qed.
  Lemma items_mono fs fuel fuel' items hs r : fuel <= fuel' ->
    items_helper (item_helper fuel fs) items hs = r -> r <> HOutOfFuel ->
    items_helper (item_helper fuel' fs) items hs = r.
  Proof. intros Hle. apply items_helper_ext. intros i hs' r' H Hr. by eapply item_helper_mono. Qed.
  Lemma fileHashes_mono fs fuel fuel' items r : fuel <= fuel' ->
    fileHashes hashf fuel fs items = r -> r <> HOutOfFuel -> fileHashes hashf fuel' fs items = r.
  Proof.
    intros Hle. unfold fileHashes. destruct (items_helper (item_helper fuel fs) items ∅) eqn:E; intros <- Hr.
    1-3: by rewrite (items_mono _ _ _ _ _ _ Hle E).
    done.
  Qed.
  Lemma hashes_to_fun fs items r1 r2 : hashes_to hashf fs items r1 -> hashes_to hashf fs items r2 -> r1 = r2.
  Proof.
    intros [H1 [f1 E1]] [H2 [f2 E2]].
    pose proof (fileHashes_mono fs f1 (max f1 f2) items r1 ltac:(lia) E1 H1).
    pose proof (fileHashes_mono fs f2 (max f1 f2) items r2 ltac:(lia) E2 H2). congruence.
  Qed.

  (** ** Enough fuel exists for finite trees. *)
  Lemma items_enough fs items :
    (forall i, i ∈ items -> exists N, forall hs, item_helper N fs i hs <> HOutOfFuel) ->
    exists N, forall hs, items_helper (item_helper N fs) items hs <> HOutOfFuel.
  Proof.
    induction items as [|i items IH]; intros H; [exists 0; done|].
    destruct IH as [N1 H1]; [intros j Hj; apply H; by right|].
    destruct (H i) as [N2 H2]; [by left|]. exists (max N1 N2). intros hs. simpl.
    rewrite (item_helper_mono fs N2 (max N1 N2) i hs _ ltac:(lia) eq_refl (H2 hs)).
    specialize (H2 hs). destruct (item_helper N2 fs i hs) as [hs'| | |]; try done.
    rewrite (items_mono fs N1 (max N1 N2) items hs' _ ltac:(lia) eq_refl (H1 hs')). apply H1.
  Qed.
  Lemma finite_enough fs p : finite fs p -> exists N, forall hs, item_helper N fs p hs <> HOutOfFuel.
  Proof.
    induction 1 as [p Hch IH]. destruct (fs p) as [| |c|[names|]] eqn:E.
    1-3,5: exists 1; intros hs; simpl; destruct (hs !! p); [done|]; rewrite E; try done; by destruct c.
    destruct (items_enough fs ((fun n => Join [p; n]) <$> names)) as [N HN].
    { intros i Hi. apply elem_of_list_fmap in Hi as (n & -> & Hn). by eapply IH. }
    exists (S N). intros hs. simpl. destruct (hs !! p); [done|]. rewrite E. apply HN.
  Qed.
  Lemma terminates fs items : (forall i, i ∈ items -> finite fs i) -> exists r, hashes_to hashf fs items r.
  Proof.
    intros H. destruct (items_enough fs items) as [N HN].
    { intros i Hi. by apply finite_enough, H. }
    exists (fileHashes hashf N fs items). split; [|by exists N]. unfold fileHashes. specialize (HN ∅).
    by destruct (items_helper _ _ _).
  Qed.

  (** ** The collected map. *)
  Lemma file_hash_fun fs q h1 h2 : file_hash fs q h1 -> file_hash fs q h2 -> h1 = h2.
  Proof. intros [H1|c H1] [H2|c' H2]; congruence. Qed.
  Lemma leaf_under fs p q h : file_hash fs p h -> at_or_under fs p q -> q = p.
  Proof. intros Hh. inversion 1 as [|? names n ? Hd]; [done|]. destruct Hh; congruence. Qed.

  Definition good (fs : files_state) (hs : gmap string string) : Prop :=
    forall q h, hs !! q = Some h -> file_hash fs q h.
  Definition collects (fs : files_state) (items : list string) (hs hs' : gmap string string) : Prop :=
    (forall q h, hs' !! q = Some h <-> hs !! q = Some h \/ (covered fs items q /\ file_hash fs q h)) /\
    (forall q, covered fs items q -> ~ unreadable fs q).

  Lemma covered_one fs p q : covered fs [p] q <-> at_or_under fs p q.
  Proof.
    split.
    - intros (i & Hi & H). apply elem_of_list_singleton in Hi as ->. done.
    - intros H. exists p. split; [by left|done].
  Qed.
  Lemma covered_cons fs p items q : covered fs (p :: items) q <-> at_or_under fs p q \/ covered fs items q.
  Proof.
    split.
    - intros (i & Hi & H). apply elem_of_cons in Hi as [->|Hi]; [by left|]. right. by exists i.
    - intros [H|(i & Hi & H)]; [exists p; split; [by left|done]|exists i; split; [by right|done]].
  Qed.
  Lemma covered_nil fs q : ~ covered fs [] q.
  Proof. intros (i & Hi & _). by apply elem_of_nil in Hi. Qed.
  Lemma collects_good fs items hs hs' : good fs hs -> collects fs items hs hs' -> good fs hs'.
  Proof. intros Hg [Hc _] q h Hq. apply Hc in Hq as [Hq|[_ Hq]]; [by apply Hg|done]. Qed.

  Lemma items_collects fs f : (forall i hs hs', good fs hs -> f i hs = HOk hs' -> collects fs [i] hs hs') ->
    forall items hs hs', good fs hs -> items_helper f items hs = HOk hs' -> collects fs items hs hs'.
  Proof.
    intros Hf items. induction items as [|i items IH]; intros hs hs' Hg H; simpl in H.
    - simplify_eq. split; [|intros q Hq; by apply covered_nil in Hq].
      intros q h. split; [by left|]. intros [?|[Hc _]]; [done|]. by apply covered_nil in Hc.
    - destruct (f i hs) as [hs1| | |] eqn:E; try done. pose proof (Hf _ _ _ Hg E) as Hc1.
      pose proof (IH _ _ (collects_good _ _ _ _ Hg Hc1) H) as Hc2.
      destruct Hc1 as [Hc1 Hb1]. destruct Hc2 as [Hc2 Hb2]. split.
      + intros q h. rewrite Hc2, Hc1. rewrite covered_one, covered_cons. naive_solver.
      + intros q. rewrite covered_cons. intros [Hq|Hq]; [|by apply Hb2]. apply Hb1. by apply covered_one.
  Qed.
  Lemma leaf_collects fs p h hs : good fs hs -> file_hash fs p h -> collects fs [p] hs (<[p:=h]> hs).
  Proof.
    intros Hg Hp. split.
    - intros q h'. rewrite covered_one. split.
      + intros Hq. destruct (decide (q = p)) as [->|Hne].
        * rewrite lookup_insert in Hq. simplify_eq. right. split; [constructor|done].
        * rewrite lookup_insert_ne in Hq by done. by left.
      + intros [Hq|[Hu Hq]].
        * destruct (decide (q = p)) as [->|Hne]; [|by rewrite lookup_insert_ne].
          rewrite lookup_insert. f_equal. eapply file_hash_fun; [done|]. by apply Hg.
        * apply (leaf_under fs p q h) in Hu as ->; [|done]. rewrite lookup_insert. f_equal. by eapply file_hash_fun.
    - intros q Hq. apply covered_one in Hq. apply (leaf_under fs p q h) in Hq as ->; [|done].
      unfold unreadable. destruct Hp; intros [?|[?|?]]; congruence.
  Qed.
  Lemma item_collects fs : forall fuel p hs hs', good fs hs -> item_helper fuel fs p hs = HOk hs' -> collects fs [p] hs hs'.
  Proof.
    induction fuel as [|fuel IH]; intros p hs hs' Hg H; [done|]. simpl in H.
    destruct (hs !! p) as [h|] eqn:Ep.
    - simplify_eq. pose proof (Hg _ _ Ep) as Hp. replace hs' with (<[p:=h]> hs') by (by apply insert_id). 
      rewrite insert_id at 1 by done. by apply leaf_collects.
    - destruct (fs p) as [| |[c|]|[names|]] eqn:E; try done.
      + simplify_eq. apply leaf_collects; [done|]. by constructor.
      + simplify_eq. apply leaf_collects; [done|]. by constructor.
      + pose proof (items_collects fs _ (fun i hs hs' => IH i hs hs') _ _ _ Hg H) as [Hc Hb].
        assert (Hcov : forall q, q <> p \/ file_hash fs q "" \/ True -> covered fs ((fun n => Join [p; n]) <$> names) q -> covered fs [p] q).
        { intros q _ (i & Hi & Hu). apply elem_of_list_fmap in Hi as (n & -> & Hn). apply covered_one. by eapply under_child. }
        assert (Hcov' : forall q, covered fs [p] q -> q = p \/ covered fs ((fun n => Join [p; n]) <$> names) q).
        { intros q Hq. apply covered_one in Hq. inversion Hq as [|? names' n ? Hd Hn Hu]; subst; [by left|].
          right. exists (Join [p; n]). split; [|done]. apply elem_of_list_fmap. exists n. split; [done|]. congruence. }
        split.
        * intros q h. rewrite Hc. split; intros [Hq|[Hq Hh]]; [by left|right; split; [by apply Hcov; auto|done]|by left|].
          apply Hcov' in Hq as [->|Hq]; [|by right]. exfalso. destruct Hh; congruence.
        * intros q Hq. apply Hcov' in Hq as [->|Hq]; [|by apply Hb]. unfold unreadable. rewrite E. naive_solver.
  Qed.

  (** ** The listing. *)
  Lemma keys_nodup (hs : gmap string string) : NoDup (map_to_list hs).*1.
  Proof. apply NoDup_fst_map_to_list. Qed.
  Lemma listing_fst hs : (listing hs).*1 = ssort (map_to_list hs).*1.
  Proof.
    unfold listing. rewrite <-list_fmap_compose. rewrite <-(list_fmap_id (ssort (map_to_list hs).*1)) at 2.
    apply list_fmap_ext. done.
  Qed.
  Lemma listing_elem hs n h : (n, h) ∈ listing hs <-> hs !! n = Some h.
  Proof.
    unfold listing. rewrite elem_of_list_fmap. split.
    - intros (k & E & Hk). simplify_eq. rewrite ssort_elem in Hk. apply elem_of_list_fmap in Hk as ([k' h'] & -> & Hk).
      apply elem_of_map_to_list in Hk. simpl. by rewrite Hk.
    - intros H. exists n. rewrite H. split; [done|]. rewrite ssort_elem. apply elem_of_list_fmap.
      exists (n, h). split; [done|]. by apply elem_of_map_to_list.
  Qed.
  Lemma pairs_flatten l : pairs (flatten l) = l.
  Proof. induction l as [|[n h] l IH]; [done|]. simpl. by rewrite IH. Qed.
  Lemma listing_sorted hs : strictly_sorted (listing hs).*1.
  Proof.
    rewrite listing_fst. split; [apply ssort_sorted|]. rewrite ssort_perm. apply keys_nodup.
  Qed.

  Lemma fileHashes_ok fs items l : hashes_to hashf fs items (HOk l) ->
    (exists ps, l = flatten ps /\ strictly_sorted ps.*1 /\
      forall q h, (q, h) ∈ ps <-> covered fs items q /\ file_hash fs q h) /\
    (forall q, covered fs items q -> ~ unreadable fs q).
  Proof.
    intros [_ [fuel H]]. unfold fileHashes in H.
    destruct (items_helper (item_helper fuel fs) items ∅) as [hs| | |] eqn:E; try done. simplify_eq.
    apply (items_collects fs) in E as [Hc Hb].
    - split; [|done]. exists (listing hs). split; [done|]. split; [apply listing_sorted|]. intros q h.
      rewrite listing_elem, Hc, lookup_empty. naive_solver.
    - apply item_collects.
    - intros q h. by rewrite lookup_empty.
  Qed.

  (** Failure, and how. *)
  Lemma items_bad fs f items : 
    (forall i hs, match f i hs with
       | HErr j => at_or_under fs i j /\ (fs j = FDir None \/ fs j = FFile None)
       | HPanic => exists j, at_or_under fs i j /\ fs j = FStatErr
       | _ => True end) ->
    forall hs, match items_helper f items hs with
       | HErr j => covered fs items j /\ (fs j = FDir None \/ fs j = FFile None)
       | HPanic => exists j, covered fs items j /\ fs j = FStatErr
       | _ => True end.
  Proof.
    intros Hf. induction items as [|i items IH]; intros hs; simpl; [done|]. specialize (Hf i hs).
    destruct (f i hs) as [hs'|j| |]; [|  | |done].
    - specialize (IH hs'). destruct (items_helper f items hs'); [done| | |done].
      + rewrite covered_cons. naive_solver.
      + destruct IH as (j & Hj & ?). exists j. rewrite covered_cons. naive_solver.
    - rewrite covered_cons. naive_solver.
    - destruct Hf as (j & Hj & ?). exists j. rewrite covered_cons. naive_solver.
  Qed.
  Lemma item_bad fs : forall fuel i hs, match item_helper fuel fs i hs with
       | HErr j => at_or_under fs i j /\ (fs j = FDir None \/ fs j = FFile None)
       | HPanic => exists j, at_or_under fs i j /\ fs j = FStatErr
       | _ => True end.
  Proof.
    induction fuel as [|fuel IH]; intros i hs; simpl; [done|]. destruct (hs !! i); [done|].
    destruct (fs i) as [| |[c|]|[names|]] eqn:E; try done.
    - exists i. split; [constructor|done].
    - split; [constructor|by right].
    - pose proof (items_bad fs _ ((fun n => Join [i; n]) <$> names) IH hs) as H.
      assert (Hc : forall q, covered fs ((fun n => Join [i; n]) <$> names) q -> at_or_under fs i q).
      { intros q (p & Hp & Hu). apply elem_of_list_fmap in Hp as (n & -> & Hn). by eapply under_child. }
      destruct (items_helper _ _ _); [done| | |done]; naive_solver.
    - split; [constructor|by left].
  Qed.
  Lemma fileHashes_bad fs items r : hashes_to hashf fs items r ->
    match r with
    | HErr j => covered fs items j /\ (fs j = FDir None \/ fs j = FFile None)
    | HPanic => exists j, covered fs items j /\ fs j = FStatErr
    | _ => True
    end.
  Proof.
    intros [_ [fuel H]]. unfold fileHashes in H. pose proof (items_bad fs _ items (item_bad fs fuel) ∅) as Hb.
    destruct (items_helper (item_helper fuel fs) items ∅); subst; done.
  Qed.

  (** Two strictly sorted association lists with the same pairs are equal. *)
  Lemma sorted_pairs_eq (a b : list (string * string)) : strictly_sorted a.*1 -> strictly_sorted b.*1 ->
    (forall q h, (q, h) ∈ a <-> (q, h) ∈ b) -> a = b.
  Proof.
    intros [Ha Na] [Hb Nb] Hab.
    assert (Hp : a ≡ₚ b).
    { apply NoDup_Permutation; [by eapply NoDup_fmap_1|by eapply NoDup_fmap_1|]. intros [q h]. apply Hab. }
    assert (H1 : a.*1 = b.*1). { apply ssort_unique; [done|done|]. by apply fmap_Permutation. }
    clear Hp Ha Hb. revert b Na Nb Hab H1. induction a as [|[q h] a IH]; intros [|[q' h'] b] Na Nb Hab H1; try done.
    simpl in H1. injection H1 as -> H1. inversion Na as [|?? Hq Na']; subst. inversion Nb as [|?? Hq' Nb']; subst.
    assert (h = h') as ->.
    { assert (Hin : (q', h) ∈ (q', h') :: b) by (apply Hab; by left). apply elem_of_cons in Hin as [Hin|Hin]; [congruence|].
      exfalso. apply Hq'. apply elem_of_list_fmap. by exists (q', h). }
    f_equal. apply IH; [done|done| |done]. intros q h.
    assert (Hne : forall l : list (string * string), q' ∉ l.*1 -> (q, h) ∈ l -> (q, h) <> (q', h')).
    { intros l Hl Hin [= -> ->]. apply Hl. apply elem_of_list_fmap. by exists (q', h'). }
    specialize (Hab q h). rewrite !elem_of_cons in Hab. split; intros Hin.
    - destruct (proj1 Hab (or_intror Hin)) as [Heq|]; [|done]. by eapply Hne in Hin.
    - destruct (proj2 Hab (or_intror Hin)) as [Heq|]; [|done]. by eapply Hne in Hin.
  Qed.
  Lemma flatten_inj a b : flatten a = flatten b -> a = b.
  Proof. intros H. by rewrite <-(pairs_flatten a), <-(pairs_flatten b), H. Qed.

  (** The result depends only on the covered files and their contents. *)
  Lemma fileHashes_ext fs1 items1 fs2 items2 l1 l2 :
    hashes_to hashf fs1 items1 (HOk l1) -> hashes_to hashf fs2 items2 (HOk l2) ->
    (forall q h, (covered fs1 items1 q /\ file_hash fs1 q h) <-> (covered fs2 items2 q /\ file_hash fs2 q h)) ->
    l1 = l2.
  Proof.
    intros H1 H2 Heq. apply fileHashes_ok in H1 as [(p1 & -> & Hs1 & Hp1) _].
    apply fileHashes_ok in H2 as [(p2 & -> & Hs2 & Hp2) _]. f_equal. apply sorted_pairs_eq; [done|done|].
    intros q h. by rewrite Hp1, Hp2.
  Qed.
  Lemma fileHashes_eq_inv fs1 items1 fs2 items2 l :
    hashes_to hashf fs1 items1 (HOk l) -> hashes_to hashf fs2 items2 (HOk l) ->
    forall q h, (covered fs1 items1 q /\ file_hash fs1 q h) <-> (covered fs2 items2 q /\ file_hash fs2 q h).
  Proof.
    intros H1 H2. apply fileHashes_ok in H1 as [(p1 & E1 & Hs1 & Hp1) _].
    apply fileHashes_ok in H2 as [(p2 & E2 & Hs2 & Hp2) _].
    assert (p1 = p2) as -> by (apply flatten_inj; congruence). intros q h. by rewrite <-Hp1, <-Hp2.
  Qed.
End proofs.

Lemma covered_equiv fs i1 i2 q : (forall i, i ∈ i1 <-> i ∈ i2) -> covered fs i1 q <-> covered fs i2 q.
Proof. intros H. unfold covered. naive_solver. Qed.
Lemma hashes_succeeds hashf fs items : (forall i, i ∈ items -> finite fs i) ->
  ((exists l, hashes_to hashf fs items (HOk l)) <-> forall q, covered fs items q -> ~ unreadable fs q).
Proof.
  intros Hfin. split.
  - intros [l Hl]. by apply fileHashes_ok in Hl as [_ ?].
  - intros Hg. destruct (terminates hashf fs items Hfin) as [r Hr]. pose proof (fileHashes_bad _ _ _ _ Hr) as Hb.
    destruct r as [l|j| |].
    + by exists l.
    + exfalso. destruct Hb as [Hc Hj]. apply (Hg j Hc). unfold unreadable. naive_solver.
    + exfalso. destruct Hb as (j & Hc & Hj). apply (Hg j Hc). by left.
    + by destruct Hr.
Qed.
Lemma hashes_same_set hashf fs i1 i2 l1 l2 : (forall i, i ∈ i1 <-> i ∈ i2) ->
  hashes_to hashf fs i1 (HOk l1) -> hashes_to hashf fs i2 (HOk l2) -> l1 = l2.
Proof.
  intros H H1 H2. eapply fileHashes_ext; [done|done|]. intros q h. by rewrite (covered_equiv fs i1 i2).
Qed.
Lemma under_trans fs p q r : at_or_under fs p q -> at_or_under fs q r -> at_or_under fs p r.
Proof. induction 1 as [|p names n q Hp Hn _ IH]; [done|]. intros Hr. eapply under_child; [done|done|]. by apply IH. Qed.
Lemma hashes_overlap hashf fs items p i l1 l2 : p ∈ items -> at_or_under fs p i ->
  hashes_to hashf fs items (HOk l1) -> hashes_to hashf fs (i :: items) (HOk l2) -> l1 = l2.
Proof.
  intros Hp Hu H1 H2. eapply fileHashes_ext; [done|done|]. intros q h. rewrite covered_cons.
  split; [naive_solver|]. intros [[Hi|Hc] Hh]; [|done]. split; [|done]. exists p. split; [done|]. by eapply under_trans.
Qed.
Lemma hashes_no_panic hashf fs items r : (forall q, covered fs items q -> fs q <> FStatErr) ->
  hashes_to hashf fs items r -> r <> HPanic.
Proof. intros H Hr ->. apply fileHashes_bad in Hr as (j & Hc & Hj). by apply (H j). Qed.
