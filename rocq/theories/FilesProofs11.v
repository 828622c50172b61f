From stdpp Require Import base gmap list sorting strings.
From Verif Require Import PathModel FileHashModel FileHashSpec FileHashProofs FilesModel FilesSpec FilesProofs FilesProofs2 FilesProofs3 FilesProofs4 FilesProofs5 FilesProofs6 FilesProofs7 FilesProofs8 FilesProofs9 FilesProofs10.
Local Open Scope list_scope.

(** What does not change covers the same files. *)
Lemma under_fwd fs1 fs2 p q : (forall q, at_or_under fs1 p q -> fs2 q = fs1 q) -> at_or_under fs1 p q -> at_or_under fs2 p q.
Proof.
  intros Hu Hq. revert Hu. induction Hq as [p|p names n q Hd Hn Hq IH]; intros Hu; [constructor|].
  eapply under_child; [rewrite Hu; [exact Hd|constructor]|done|]. apply IH. intros q' Hq'. apply Hu. by eapply under_child.
Qed.
Lemma under_bwd fs1 fs2 p q : (forall q, at_or_under fs1 p q -> fs2 q = fs1 q) -> at_or_under fs2 p q -> at_or_under fs1 p q.
Proof.
  intros Hu Hq. revert Hu. induction Hq as [p|p names n q Hd Hn Hq IH]; intros Hu; [constructor|].
  assert (Hd' : fs1 p = FDir (Some names)) by (rewrite <-Hu; [done|constructor]).
  eapply under_child; [exact Hd'|done|]. apply IH. intros q' Hq'. apply Hu. by eapply under_child.
Qed.
Lemma unchanged_files fs1 fs2 items : unchanged fs1 fs2 items -> same_files fs1 items fs2 items.
Proof.
  intros Hu q e _. split; intros [(it & Hit & Hq) Hv].
  - split; [|rewrite Hu; [done|by exists it]]. exists it. split; [done|].
    eapply under_fwd; [|exact Hq]. intros q' Hq'. apply Hu. by exists it.
  - assert (Hc : at_or_under fs1 it q).
    { eapply under_bwd; [|exact Hq]. intros q' Hq'. apply Hu. by exists it. }
    split; [by exists it|]. rewrite <-Hu; [done|by exists it].
Qed.
Lemma same_files_sym fs1 i1 fs2 i2 : same_files fs1 i1 fs2 i2 -> same_files fs2 i2 fs1 i1.
Proof. intros Hs q e He. symmetry. by apply Hs. Qed.
Lemma same_files_trans fs1 i1 fs2 i2 fs3 i3 : same_files fs1 i1 fs2 i2 -> same_files fs2 i2 fs3 i3 -> same_files fs1 i1 fs3 i3.
Proof. intros H1 H2 q e He. rewrite (H1 q e He). by apply H2. Qed.

Lemma place_subend fl evs st l1 j e l2 : replay (Idle (files_run fl)) evs st -> evs = l1 ++ LSubEnd j e :: l2 ->
  exists i, LSubStart i ∈ l1.
Proof. intros Hr He. open_all; splits He; eexists; rewrite ?elem_of_cons; eauto 10. Qed.

Section main.
  Context (hashf : string -> string) (H : json -> hash) (R : string -> option tgt) (fs0 : files_state).
  Notation history := (history hashf H R fs0).
  Context (Hh : Inj (=) (=) hashf) (Hne : forall c, hashf c <> "") (HH : Inj (=) (=) H).

  Lemma calm_lem tr a i b :
    history tr -> tr = a ++ LRet i RNil :: b -> LSubStart i ∉ a ->
    (forall j l1 l2 fs r h l3, a = l1 ++ LSubStart j :: l2 ++ LHash j After fs r (HOk h) :: l3 ->
       unchanged (files_after fs0 l1) fs (r_in r)) ->
    exists r h a1 a2 j rj fl l1 l2 l3,
      a = a1 ++ LHash i Before (files_after fs0 a1) r (HOk h) :: a2 /\
      a = l1 ++ LSubStart j :: l2 ++ LSubEnd j None :: l3 /\ LStart j rj fl ∈ l1 /\
      same_files (files_after fs0 a1) (r_in r) (files_after fs0 l1) (r_in rj).
  Proof.
    intros Ht Htr Hns Hcalm.
    destruct (skip_up_to_date hashf H R fs0 Hh Hne HH tr a i b Ht Htr Hns)
      as (r & fl & h & a1 & a2 & a3 & Ha & _ & j & fs' & r' & Hsr & _ & Hin & _).
    destruct Hsr as (rj & flj & l1 & l2 & l3 & ok & Hl & Hst & Hse & Hfs & _ & Hri & _).
    apply elem_of_list_split in Hse as (m1 & m2 & ->).
    assert (Ha' : a = m1 ++ LSubEnd j None :: (m2 ++ LHash j After fs' r' (HOk h) :: l2 ++ LAdd j h true ok :: l3 ++ LHas i h (Some true) :: a3)).
    { assert (E : a = (a1 ++ LHash i Before (files_after fs0 a1) r (HOk h) :: a2) ++ LHas i h (Some true) :: a3)
        by (by rewrite <-app_assoc).
      rewrite E, Hl. repeat (rewrite <-app_assoc; cbn [app]). done. }
    assert (Hha : history a) by (by eapply prefix_history).
    destruct (hist_ev _ _ _ _ a m1 j _ _ Hha Ha' ltac:(simpl; by rewrite bool_decide_true)) as (r0 & fl0 & st & Hst0 & Hrep & Hu0).
    destruct (place_subend _ _ _ _ _ _ _ Hrep eq_refl) as (i' & Hi'). apply filter_in in Hi' as [Hi' Ho].
    simpl in Ho. apply bool_decide_eq_true in Ho as <-.
    apply elem_of_list_split in Hi' as (k1 & k2 & ->).
    match type of Ha' with _ = _ ++ _ :: ?x =>
      assert (Ha2 : a = k1 ++ LSubStart j :: (k2 ++ LSubEnd j None :: x)) by (rewrite Ha', <-app_assoc; done);
      exists r, h, a1, (a2 ++ LHas i h (Some true) :: a3), j, r0, fl0, k1, k2, x end.
    split; [done|]. split; [exact Ha2|].
    destruct (hist_ev _ _ _ _ a k1 j (LSubStart j) _ Hha Ha2 ltac:(simpl; by rewrite bool_decide_true)) as (r2 & fl2 & st2 & Hst2 & _ & Hu).
    destruct (Hu r0 fl0) as [-> ->]. { rewrite Ha'. apply elem_of_app. by left. }
    split; [done|].
    destruct (Hu rj flj) as [<- <-].
    { rewrite Ha'. apply elem_of_app in Hst as [Hst|Hst]; [apply elem_of_app; by left|].
      apply elem_of_cons in Hst as [Hst|Hst]; [done|]. apply elem_of_app. right. right. apply elem_of_app. by left. }
    eapply same_files_trans; [exact Hin|]. rewrite Hri. apply same_files_sym, unchanged_files.
    rewrite <-Hri. eapply (Hcalm j k1 (k2 ++ LSubEnd j None :: m2) fs' r' h). rewrite Ha'.
    repeat (rewrite <-app_assoc; cbn [app]). done.
  Qed.

  Lemma resolved_lem tr k1 j h ok k2 i fs r res k3 fs' r' rj fl n t :
    history tr ->
    tr = k1 ++ LAdd j h true ok :: k2 ++ LHash i Before fs r res :: k3 -> LEvict h ∉ k2 -> LEvict h ∉ k3 ->
    LHash j After fs' r' (HOk h) ∈ k1 -> LStart j rj fl ∈ tr ->
    r_tgt rj = TDeferred n None -> R n = Some t -> r_tgt r = TDeferred n (Some t) ->
    r_in r = r_in rj -> r_out r = r_out rj -> unchanged fs' fs (r_in r ++ r_out r) ->
    res = HOk h /\ LSubStart i ∉ tr /\ (forall h' ap ok', LAdd i h' ap ok' ∉ tr) /\
    (forall x, LRet i x ∈ tr -> x = RNil \/ (x = RErr EHas /\ LHas i h None ∈ tr)).
  Proof.
    intros Ht Htr He2 He3 Hhash Hs1 Htj HR Hti Hin Hout Hu.
    destruct (hash_unique hashf H R fs0 tr j After fs' r' (HOk h) Ht) as (l1 & l2 & r0 & fl1 & Hl & _ & _ & _ & Hs & (Hm1 & Hm2 & Hm3) & _).
    { rewrite Htr, elem_of_app. by left. }
    destruct (history_reach _ _ _ _ _ Ht) as (s & Hr & Hlog).
    destruct (ev_start _ _ _ _ s j rj fl r0 fl1 Hr) as [<- _]; [by rewrite Hlog|by rewrite Hlog, Hl, elem_of_app; left|].
    rewrite Htj in Hm1. simpl in Hm1. rewrite HR in Hm1. simpl in Hm1. injection Hm1 as Hm1.
    destruct (up_to_date_lem hashf H R fs0 tr k1 j h ok k2 i fs r res k3 fs' r') as (H1 & H2 & H3 & _ & H4); try done.
    - by rewrite Hm2, Hm3, <-Hin, <-Hout.
    - by rewrite Hm2.
    - by rewrite Hm3.
    - rewrite Hti, <-Hm1. done.
  Qed.
End main.
