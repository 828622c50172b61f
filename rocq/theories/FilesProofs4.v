From stdpp Require Import base gmap list sorting strings.
From Verif Require Import PathModel FileHashModel FileHashSpec FileHashProofs FilesModel FilesSpec FilesProofs FilesProofs2 FilesProofs3.
Local Open Scope list_scope.

(** ** The hash determines the description and the files. *)
Lemma jstr_map_inj (a b : list string) : JStr <$> a = JStr <$> b -> a = b.
Proof.
  revert b.
  induction a as [|x a IH]; intros [|y b] E; try discriminate E; [done|]. injection E as -> E. f_equal. by apply IH.
Qed.
Lemma jstrs_inj a b : jstrs a = jstrs b -> a = b.
Proof. unfold jstrs. intros E. injection E as E. by apply jstr_map_inj. Qed.
Lemma document_inj j ty a b j' ty' a' b' : document j ty a b = document j' ty' a' b' ->
  j = j' /\ ty = ty' /\ a = a' /\ b = b'.
Proof.
  unfold document, fstrs. intros E.
  destruct (decide (a = [])) as [->|Ha], (decide (b = [])) as [->|Hb], (decide (a' = [])) as [->|Ha'], (decide (b' = [])) as [->|Hb'];
    cbn [app] in E; try discriminate E; injection E; intros; subst;
    repeat match goal with H : JStr <$> _ = JStr <$> _ |- _ => apply jstr_map_inj in H end; subst; try done.
Qed.

Lemma item_unchanged hashf fs1 fs2 : forall fuel item hs, (forall q, at_or_under fs1 item q -> fs2 q = fs1 q) ->
  item_helper hashf fuel fs2 item hs = item_helper hashf fuel fs1 item hs.
Proof.
  induction fuel as [|fuel IH]; intros item hs Hq; [done|]. cbn [item_helper].
  destruct (hs !! item); [done|]. rewrite (Hq item) by constructor.
  destruct (fs1 item) as [| |c|[names|]] eqn:E; try done.
  assert (Hs : forall l hs, (forall i, i ∈ l -> forall q, at_or_under fs1 i q -> fs2 q = fs1 q) ->
    items_helper (item_helper hashf fuel fs2) l hs = items_helper (item_helper hashf fuel fs1) l hs).
  { intros l. induction l as [|i l IHl]; intros hs' Hl; [done|]. cbn [items_helper].
    rewrite IH by (apply Hl; by left). destruct (item_helper hashf fuel fs1 i hs'); try done.
    apply IHl. intros j Hj. apply Hl. by right. }
  apply Hs. intros i (n & -> & Hn)%elem_of_list_fmap q Hu. apply Hq. by eapply under_child.
Qed.
Lemma fileHashes_unchanged hashf fs1 fs2 fuel items : unchanged fs1 fs2 items ->
  fileHashes hashf fuel fs2 items = fileHashes hashf fuel fs1 items.
Proof.
  intros Hu. unfold fileHashes.
  assert (Hs : forall l hs, (forall i, i ∈ l -> i ∈ items) ->
    items_helper (item_helper hashf fuel fs2) l hs = items_helper (item_helper hashf fuel fs1) l hs).
  { intros l. induction l as [|i l IHl]; intros hs' Hl; [done|]. cbn [items_helper].
    rewrite (item_unchanged hashf fs1 fs2); [|intros q Hq; apply Hu; exists i; split; [apply Hl; by left|done]].
    destruct (item_helper hashf fuel fs1 i hs'); try done. apply IHl. intros j Hj. apply Hl. by right. }
  by rewrite Hs.
Qed.

Section hash.
  Context (hashf : string -> string) (H : json -> hash).
  Notation computeHash := (computeHash hashf H).

  Lemma computeHash_ok fuel fs r h : computeHash fuel fs r = HOk h ->
    exists ins outs ty j, hashes_to hashf fs (r_in r) (HOk ins) /\ hashes_to hashf fs (r_out r) (HOk outs) /\
      type_string (r_tgt r) = Some ty /\ enc (r_tgt r) = Some j /\ h = H (document j ty ins outs).
  Proof.
    unfold FilesModel.computeHash. destruct (fileHashes hashf fuel fs (r_in r)) as [ins| | |] eqn:E1; try done.
    destruct (fileHashes hashf fuel fs (r_out r)) as [outs| | |] eqn:E2; try done.
    destruct (type_string (r_tgt r)) as [ty|] eqn:E3; [|done]. destruct (enc (r_tgt r)) as [j|] eqn:E4; [|done].
    intros [= <-]. exists ins, outs, ty, j. split; [split; [done|by exists fuel]|]. split; [split; [done|by exists fuel]|]. done.
  Qed.
  Lemma computeHash_mono fuel fuel' fs r res : fuel <= fuel' -> computeHash fuel fs r = res -> res <> HOutOfFuel ->
    computeHash fuel' fs r = res.
  Proof.
    unfold FilesModel.computeHash. intros Hle.
    destruct (fileHashes hashf fuel fs (r_in r)) as [ins| | |] eqn:E1;
      [| | |by intros <-]; rewrite (fileHashes_mono hashf fs fuel fuel' (r_in r) _ Hle E1) by done; [|done|done].
    destruct (fileHashes hashf fuel fs (r_out r)) as [outs| | |] eqn:E2;
      [| | |by intros <-]; rewrite (fileHashes_mono hashf fs fuel fuel' (r_out r) _ Hle E2) by done; done.
  Qed.
  Lemma computeHash_fun f1 f2 fs r res1 res2 : computeHash f1 fs r = res1 -> res1 <> HOutOfFuel ->
    computeHash f2 fs r = res2 -> res2 <> HOutOfFuel -> res1 = res2.
  Proof.
    intros E1 H1 E2 H2. pose proof (computeHash_mono f1 (max f1 f2) fs r res1 ltac:(lia) E1 H1).
    pose proof (computeHash_mono f2 (max f1 f2) fs r res2 ltac:(lia) E2 H2). congruence.
  Qed.
  Lemma computeHash_unchanged fuel fs1 fs2 r1 r2 : unchanged fs1 fs2 (r_in r1 ++ r_out r1) ->
    r_in r2 = r_in r1 -> r_out r2 = r_out r1 -> same_description (r_tgt r1) (r_tgt r2) ->
    computeHash fuel fs2 r2 = computeHash fuel fs1 r1.
  Proof.
    intros Hu Hi Ho [Ht He]. unfold FilesModel.computeHash. rewrite Hi, Ho, <-Ht, <-He.
    rewrite (fileHashes_unchanged hashf fs1 fs2); [|intros q (i & ? & ?); apply Hu; exists i; rewrite elem_of_app; auto].
    destruct (fileHashes hashf fuel fs1 (r_in r1)); try done.
    rewrite (fileHashes_unchanged hashf fs1 fs2); [|intros q (i & ? & ?); apply Hu; exists i; rewrite elem_of_app; auto].
    done.
  Qed.

  Context (Hh : Inj (=) (=) hashf) (Hne : forall c, hashf c <> "") (HH : Inj (=) (=) H).
  Lemma same_files_of fs1 i1 fs2 i2 l : hashes_to hashf fs1 i1 (HOk l) -> hashes_to hashf fs2 i2 (HOk l) ->
    same_files fs1 i1 fs2 i2.
  Proof.
    intros H1 H2. apply fileHashes_ok in H1 as [(p1 & -> & _ & E1) _]. apply fileHashes_ok in H2 as [(p2 & Hp & _ & E2) _].
    apply flatten_inj in Hp as <-.
    assert (Hx : forall q h, covered fs1 i1 q /\ file_hash hashf fs1 q h <-> covered fs2 i2 q /\ file_hash hashf fs2 q h) by (intros; by rewrite <-E1, <-E2).
    assert (Hg : forall fs1 i1 fs2 i2, (forall q h, covered fs1 i1 q /\ file_hash hashf fs1 q h <-> covered fs2 i2 q /\ file_hash hashf fs2 q h) ->
      forall q e, (e = FMissing \/ exists c, e = FFile (Some c)) -> covered fs1 i1 q /\ fs1 q = e -> covered fs2 i2 q /\ fs2 q = e).
    { clear -Hh Hne. intros fs1 i1 fs2 i2 Hx q e [->|[c ->]] [Hc He].
      - destruct (proj1 (Hx q "") (conj Hc (fh_missing _ _ _ He))) as [Hc2 Hf]. split; [done|].
        inversion Hf as [?|c' E Ec]; [done|]. by destruct (Hne c').
      - destruct (proj1 (Hx q (hashf c)) (conj Hc (fh_file _ _ _ _ He))) as [Hc2 Hf]. split; [done|].
        inversion Hf as [? Ec|c' E Ec]; [by destruct (Hne c)|]. apply Hh in Ec as ->. done. }
    intros q e Hk. split; apply Hg; [done|done| |done]. intros q' h'. by rewrite Hx.
  Qed.
  Lemma computeHash_same f1 f2 fs1 r1 fs2 r2 h : computeHash f1 fs1 r1 = HOk h -> computeHash f2 fs2 r2 = HOk h ->
    same_description (r_tgt r1) (r_tgt r2) /\ same_files fs1 (r_in r1) fs2 (r_in r2) /\ same_files fs1 (r_out r1) fs2 (r_out r2).
  Proof.
    intros (ins1 & outs1 & ty1 & j1 & Hi1 & Ho1 & Ht1 & He1 & ->)%computeHash_ok.
    intros (ins2 & outs2 & ty2 & j2 & Hi2 & Ho2 & Ht2 & He2 & E)%computeHash_ok.
    apply HH, document_inj in E as (-> & -> & -> & ->).
    split; [split; congruence|]. split; by eapply same_files_of.
  Qed.
End hash.
