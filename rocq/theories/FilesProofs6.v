From stdpp Require Import base gmap list sorting strings.
From Verif Require Import PathModel FileHashModel FileHashSpec FileHashProofs FilesModel FilesSpec FilesProofs FilesProofs2 FilesProofs3 FilesProofs4 FilesProofs5.
Local Open Scope list_scope.

Definition is_before (ev : event) : Prop := exists i fs r res, ev = LHash i Before fs r res.
Lemma place_before_once fl evs st l1 ev l2 : replay (Idle (files_run fl)) evs st -> evs = l1 ++ ev :: l2 -> is_before ev ->
  forall ev', is_before ev' -> ev' ∉ l1.
Proof.
  intros Hr He (i & fs & r & res & ->) ev' (i' & fs' & r' & res' & ->) Hin.
  open_all; splits He; elems.
Qed.
(** What the look-up decides. *)
Lemma has_true_rest fl evs st i h : replay (Idle (files_run fl)) evs st -> LHas i h (Some true) ∈ evs ->
  (forall j, LSubStart j ∉ evs) /\ (forall j h ap ok, LAdd j h ap ok ∉ evs) /\ (forall j x, LRet j x ∈ evs -> x = RNil).
Proof.
  intros Hr Hi. open_all; elems; (split; [intros j' Hj; elems|split; [intros j' h' ap' ok' Hj; elems|intros j' x' Hj; elems; done]]).
Qed.
Lemma sub_needs_has fl evs st i fs r h : replay (Idle (files_run fl)) evs st -> LHash i Before fs r (HOk h) ∈ evs ->
  ((exists j, LSubStart j ∈ evs) \/ (exists j h ap ok, LAdd j h ap ok ∈ evs) -> exists j, LHas j h (Some false) ∈ evs) /\
  (forall j x, LRet j x ∈ evs -> exists j b, LHas j h b ∈ evs /\ (b = None -> x = RErr EHas)) /\
  (forall j h' b, LHas j h' b ∈ evs -> h' = h).
Proof.
  intros Hr Hi. open_all; elems; (split; [|split]);
    try (intros [(jj & Hj)|(jj & hh & aa & oo & Hj)]; elems; eexists; rewrite ?elem_of_cons; eauto 10; fail);
    try (intros jj xx Hj; elems; do 2 eexists; rewrite ?elem_of_cons; split; eauto 10; done);
    try (intros jj hh bb Hj; elems; done).
Qed.

Lemma split_at {A} (a : list A) x b c y d : a ++ x :: b = c ++ y :: d ->
  (exists l, c = a ++ x :: l) \/ (a = c /\ x = y /\ b = d) \/ (exists l, a = c ++ y :: l).
Proof.
  intros E. apply app_eq_app in E as (l & [[-> E]|[-> E]]).
  - destruct l as [|z l]; [rewrite app_nil_r; injection E as -> ->; auto|]. injection E as -> ->. right. right. eauto.
  - destruct l as [|z l]; [rewrite app_nil_r; injection E as -> ->; auto|]. injection E as -> ->. eauto.
Qed.

Section main.
  Context (hashf : string -> string) (H : json -> hash) (R : string -> option tgt) (fs0 : files_state).
  Notation history := (history hashf H R fs0).

  Lemma before_position tr i a fs r res b a' fs' r' res' b' : history tr ->
    tr = a ++ LHash i Before fs r res :: b -> tr = a' ++ LHash i Before fs' r' res' :: b' ->
    a = a' /\ fs = fs' /\ r = r' /\ res = res' /\ b = b'.
  Proof.
    intros Ht E1 E2. 
    assert (Hx : forall a fs r res b a' fs' r' res' b', tr = a ++ LHash i Before fs r res :: b -> tr = a' ++ LHash i Before fs' r' res' :: b' ->
      forall l, a <> a' ++ LHash i Before fs' r' res' :: l).
    { clear a fs r res b a' fs' r' res' b' E1 E2. intros a fs r res b a' fs' r' res' b' E1 E2 l Hl.
      destruct (hist_ev _ _ _ _ tr a i _ b Ht E1 ltac:(simpl; by rewrite bool_decide_true)) as (r0 & fl & st & _ & Hrep & _).
      eapply (place_before_once _ _ _ _ _ _ Hrep eq_refl); [by repeat eexists| |].
      2: { apply in_filter; [|rewrite Hl; apply elem_of_app; right; left; reflexivity]. simpl. by rewrite bool_decide_true. }
      by repeat eexists. }
    pose proof E1 as E. rewrite E2 in E. symmetry in E. apply split_at in E as [[l Hl]|[(-> & E & ->)|[l Hl]]].
    - exfalso. eapply Hx; [exact E2|exact E1|exact Hl].
    - simplify_eq. done.
    - exfalso. eapply Hx; [exact E1|exact E2|exact Hl].
  Qed.

  Lemma unchanged_hash tr k1 j h k2 i fs r res k3 fs' r' : history tr ->
    tr = k1 ++ k2 ++ LHash i Before fs r res :: k3 ->
    LHash j After fs' r' (HOk h) ∈ k1 -> unchanged fs' fs (r_in r' ++ r_out r') ->
    r_in r = r_in r' -> r_out r = r_out r' -> same_description (r_tgt r) (r_tgt r') -> res = HOk h.
  Proof.
    intros Ht Htr Hj Hu Hi Ho [Hd1 Hd2].
    destruct (hash_unique _ _ _ _ tr j After fs' r' (HOk h) Ht) as (_ & _ & _ & _ & _ & _ & _ & [f1 Hc1] & _).
    { rewrite Htr. apply elem_of_app. by left. }
    destruct (hash_unique _ _ _ _ tr i Before fs r res Ht) as (_ & _ & _ & _ & _ & _ & Hne & [f2 Hc2] & _).
    { rewrite Htr. rewrite !elem_of_app. right. right. by left. }
    rewrite (computeHash_unchanged hashf H f2 fs' fs r' r Hu Hi Ho) in Hc2 by done.
    by eapply (computeHash_fun hashf H f2 f1).
  Qed.

  Lemma up_to_date_lem tr k1 j h ok k2 i fs r res k3 fs' r' : history tr ->
    tr = k1 ++ LAdd j h true ok :: k2 ++ LHash i Before fs r res :: k3 ->
    LEvict h ∉ k2 -> LEvict h ∉ k3 -> LHash j After fs' r' (HOk h) ∈ k1 ->
    unchanged fs' fs (r_in r' ++ r_out r') -> r_in r = r_in r' -> r_out r = r_out r' -> same_description (r_tgt r) (r_tgt r') ->
    res = HOk h /\ LSubStart i ∉ tr /\ (forall h' ap ok', LAdd i h' ap ok' ∉ tr) /\
    (forall h' b, LHas i h' b ∈ tr -> h' = h /\ b <> Some false) /\
    (forall x, LRet i x ∈ tr -> x = RNil \/ (x = RErr EHas /\ LHas i h None ∈ tr)).
  Proof.
    intros Ht Htr He2 He3 Hj Hu Hi Ho Hd.
    assert (Hres : res = HOk h). { eapply (unchanged_hash tr (k1 ++ [LAdd j h true ok]) j h k2 i fs r res k3); try done; [|apply elem_of_app; by left]. rewrite Htr, <-app_assoc. done. }
    subst res. split; [done|].
    assert (HhB : LHash i Before fs r (HOk h) ∈ tr). { rewrite Htr. rewrite elem_of_app, elem_of_cons, elem_of_app. do 3 right. by left. }
    destruct (hash_unique _ _ _ _ tr i Before fs r (HOk h) Ht HhB) as (l1 & l2 & r0 & fl & Hl & _ & _ & _ & Hst & _).
    assert (Hst' : LStart i r0 fl ∈ tr) by (rewrite Hl, elem_of_app; by left).
    destruct (hist_run _ _ _ _ tr i r0 fl Ht Hst') as [st Hrep].
    assert (Hin : forall ev, of_run i ev = true -> ev ∈ tr -> ev ∈ filter (of_run i) tr) by (intros; by apply in_filter).
    assert (Hob : forall m fs r res, of_run i (LHash i m fs r res) = true) by (intros; simpl; by rewrite bool_decide_true).
    destruct (sub_needs_has _ _ _ _ _ _ _ Hrep (Hin _ (Hob _ _ _ _) HhB)) as (Hs1 & Hs2 & Hs3).
    assert (Hnf : forall h' b, LHas i h' b ∈ tr -> h' = h /\ b <> Some false).
    { intros h' b Hb. assert (h' = h) as ->. { apply (Hs3 i h' b). apply Hin; [simpl; by rewrite bool_decide_true|done]. }
      split; [done|]. intros ->. apply elem_of_list_split in Hb as (a & c & Hac).
      assert (Hr : ~ recorded a h). { intros Hrec. apply (has_recorded _ _ _ _ _ _ _ _ _ _ Ht Hac) in Hrec. done. }
      destruct (hist_ev _ _ _ _ tr a i _ c Ht Hac ltac:(simpl; by rewrite bool_decide_true)) as (r1 & fl1 & st1 & _ & Hrep1 & _).
      destruct (place_has _ _ _ _ _ _ _ _ Hrep1 eq_refl) as (fs2 & r2 & i' & Hx).
      apply filter_in in Hx as [Hx Ho']. simpl in Ho'. apply bool_decide_eq_true in Ho' as <-.
      apply elem_of_list_split in Hx as (a1 & a2 & Ha).
      destruct (before_position tr i (k1 ++ LAdd j h true ok :: k2) fs r (HOk h) k3 a1 fs2 r2 (HOk h) (a2 ++ LHas i h (Some false) :: c) Ht) as (<- & <- & <- & _ & Hk3).
      - rewrite Htr, <-app_assoc. done.
      - rewrite Hac, Ha, <-app_assoc. done.
      - apply Hr. exists k1, j, ok, (k2 ++ LHash i Before fs r (HOk h) :: a2). split; [rewrite Ha, <-app_assoc; done|].
        rewrite elem_of_app, elem_of_cons. rewrite Hk3, elem_of_app in He3. naive_solver. }
    assert (Hn : forall ev, of_run i ev = true -> (exists j, LHas j h (Some false) ∈ filter (of_run i) tr) -> False).
    { intros _ _ (j' & Hx). apply filter_in in Hx as [Hx Ho']. simpl in Ho'. apply bool_decide_eq_true in Ho' as <-. by apply Hnf in Hx as [_ ?]. }
    split; [|split; [|split]]; [| |done|].
    - intros Hx. eapply (Hn (LSubStart i)); [simpl; by rewrite bool_decide_true|]. apply Hs1. left. exists i. apply Hin; [simpl; by rewrite bool_decide_true|done].
    - intros h' ap ok' Hx. eapply (Hn (LSubStart i)); [simpl; by rewrite bool_decide_true|]. apply Hs1. right. exists i, h', ap, ok'. apply Hin; [simpl; by rewrite bool_decide_true|done].
    - intros x Hx. assert (Hx' : LRet i x ∈ filter (of_run i) tr) by (apply Hin; [simpl; by rewrite bool_decide_true|done]).
      destruct (Hs2 i x Hx') as (j' & b & Hb & Hbn).
      assert (Hb' := Hb). apply filter_in in Hb' as [Hb1 Hb2]. simpl in Hb2. apply bool_decide_eq_true in Hb2 as <-.
      destruct b as [[]|]; [|by apply Hnf in Hb1 as [_ ?]|right; auto].
      left. destruct (has_true_rest _ _ _ _ _ Hrep Hb) as (_ & _ & Hq). by eapply Hq.
  Qed.
End main.
