From stdpp Require Import base gmap list sorting strings.
From Verif Require Import PathModel FileHashModel FileHashSpec FileHashProofs FilesModel FilesSpec FilesProofs FilesProofs2 FilesProofs3 FilesProofs4.
Local Open Scope list_scope.

Lemma place_add fl evs st l1 j h ap ok l2 : replay (Idle (files_run fl)) evs st -> evs = l1 ++ LAdd j h ap ok :: l2 ->
  exists fs r i, LHash i After fs r (HOk h) ∈ l1.
Proof. intros Hr He. open_all; splits He; do 3 eexists; rewrite ?elem_of_cons; eauto 10. Qed.
Lemma place_has fl evs st l1 j h x l2 : replay (Idle (files_run fl)) evs st -> evs = l1 ++ LHas j h x :: l2 ->
  exists fs r i, LHash i Before fs r (HOk h) ∈ l1.
Proof. intros Hr He. open_all; splits He; do 3 eexists; rewrite ?elem_of_cons; eauto 10. Qed.
Lemma place_skip fl evs st l1 i l2 : replay (Idle (files_run fl)) evs st -> evs = l1 ++ LRet i RNil :: l2 ->
  (forall j, LSubStart j ∉ l1) ->
  (fl_db fl = true /\ fl_force fl = false /\ fl_dry fl = false) /\ exists h i', LHas i' h (Some true) ∈ l1.
Proof.
  intros Hr He Hns. open_all; splits He;
    try (exfalso; eapply Hns; rewrite ?elem_of_cons; eauto 10; fail);
    (split; [done|]); do 2 eexists; rewrite ?elem_of_cons; eauto 10.
Qed.
Lemma place_nil fl evs st l1 i l2 : replay (Idle (files_run fl)) evs st -> evs = l1 ++ LRet i RNil :: l2 ->
  LSubStart i ∉ l1 \/ exists i', LSubEnd i' None ∈ l1.
Proof.
  intros Hr He. open_all; splits He; try (right; eexists; rewrite ?elem_of_cons; eauto 10; fail);
    left; rewrite ?elem_of_cons, elem_of_nil; naive_solver.
Qed.

Section main.
  Context (hashf : string -> string) (H : json -> hash) (R : string -> option tgt) (fs0 : files_state).
  Notation history := (history hashf H R fs0).
  Notation reach := (reach hashf H R fs0).

  Lemma history_reach tr : history tr -> exists s, reach s /\ st_log s = tr.
  Proof. intros (chs & s & Hc & Hl). exists s. split; [by exists chs|done]. Qed.

  Lemma hist_run tr i r0 fl : history tr -> LStart i r0 fl ∈ tr ->
    exists st, replay (Idle (files_run fl)) (filter (of_run i) tr) st.
  Proof.
    intros (s & Hr & <-)%history_reach Hs. apply reach_inv in Hr as HI.
    destruct (inv_start _ _ _ HI i r0 fl Hs) as (n & _ & <- & Hk & _). eauto.
  Qed.
  (** The run an event belongs to. *)
  Lemma hist_ev tr a i ev b : history tr -> tr = a ++ ev :: b -> of_run i ev = true ->
    exists r0 fl st, LStart i r0 fl ∈ a /\ replay (Idle (files_run fl)) (filter (of_run i) a ++ [ev]) st /\
      (forall r0' fl', LStart i r0' fl' ∈ tr -> r0' = r0 /\ fl' = fl).
  Proof.
    intros (s & Hr & Hl)%history_reach Htr Ho. rewrite <-Hl in Htr.
    destruct (ev_go _ _ _ _ _ _ _ _ _ Hr Htr Ho) as (s1 & n & n' & d & r0 & _ & _ & _ & _ & Hst & _ & Hrep).
    exists r0, (n_flags n), (n_st n'). split; [done|]. split; [done|]. intros r0' fl' Hs'. rewrite <-Hl in Hs'. eapply ev_start; [done|done|].
    rewrite Htr, elem_of_app. by left.
  Qed.
  Lemma in_filter i ev (tr : list event) : of_run i ev = true -> ev ∈ tr -> ev ∈ filter (of_run i) tr.
  Proof. intros Ho Hi. apply elem_of_list_filter. split; [by rewrite Ho|done]. Qed.
  Lemma filter_in i ev (tr : list event) : ev ∈ filter (of_run i) tr -> ev ∈ tr /\ of_run i ev = true.
  Proof. intros [Ho Hi]%elem_of_list_filter. split; [done|]. by destruct (of_run i ev). Qed.

  Lemma hash_unique tr i m fs r res : history tr -> LHash i m fs r res ∈ tr ->
    exists l1 l2 r0 fl, tr = l1 ++ LHash i m fs r res :: l2 /\ fs = files_after fs0 l1 /\ res <> HOutOfFuel /\
      (exists fuel, computeHash hashf H fuel fs r = res) /\ LStart i r0 fl ∈ l1 /\
      match m with Before => r = r0 | After => ran_rule R r0 r end /\ (m = After -> LSubEnd i None ∈ l1).
  Proof.
    intros (s & Hr & <-)%history_reach (l1 & l2 & Hl)%elem_of_list_split.
    destruct (ev_hash _ _ _ _ _ _ _ _ _ _ _ _ Hr Hl) as (Hfs & Hc & Hne & r0 & fl & Hst & Hm & _ & _ & _ & Ha).
    exists l1, l2, r0, fl. auto 10.
  Qed.

  (** An addition is the hash taken after the subtarget. *)
  Lemma add_origin tr a j h ap ok b : history tr -> tr = a ++ LAdd j h ap ok :: b ->
    exists fs r, LHash j After fs r (HOk h) ∈ a.
  Proof.
    intros Ht Htr. destruct (hist_ev tr a j _ b Ht Htr ltac:(simpl; by rewrite bool_decide_true)) as (r0 & fl & st & Hst & Hrep & _).
    assert (Hx : exists fs r i, LHash i After fs r (HOk h) ∈ filter (of_run j) a).
    { by eapply place_add. }
    destruct Hx as (fs & r & i & Hx). apply filter_in in Hx as [Hx Ho]. simpl in Ho. apply bool_decide_eq_true in Ho as ->. eauto.
  Qed.
  Lemma prefix_history tr a b : history tr -> tr = a ++ b -> history a.
  Proof.
    intros Ht ->. destruct b as [|ev b]; [by rewrite app_nil_r in Ht|].
    apply history_reach in Ht as (s & Hr & Hl). destruct (prefix_reach _ _ _ _ _ _ _ _ Hr Hl) as (s1 & ? & ? & [chs Hc] & Hl1 & _).
    by exists chs, s1.
  Qed.
  Lemma has_recorded tr a i h b c : history tr -> tr = a ++ LHas i h (Some b) :: c -> b = true <-> recorded a h.
  Proof.
    intros (s & Hr & Hl)%history_reach Htr. rewrite <-Hl in Htr.
    destruct (ev_go _ _ _ _ _ _ _ _ _ Hr Htr ltac:(simpl; by rewrite bool_decide_true)) as (s1 & n & n' & d & r0 & Hr1 & Hl1 & _ & Hg & _).
    apply reach_inv in Hr1 as HI. inversion Hg as [ev st He Ho Hm| |]; subst. rewrite Hm. apply (inv_db _ _ _ HI).
  Qed.
  Lemma recorded_success l h : history l -> recorded l h -> exists j fs' r', success_recorded R fs0 l j fs' r' h.
  Proof.
    intros Hhis (l1 & j & ok & l2 & Hl & _). destruct (add_origin _ _ _ _ _ _ _ Hhis Hl) as (fs & r & Hh).
    assert (Hhis1 : history l1) by (by eapply prefix_history).
    destruct (hash_unique _ _ _ _ _ _ Hhis1 Hh) as (k1 & k2 & rj & fl & Hk & Hfs & _ & _ & Hst & (Hm1 & Hm2 & Hm3) & Hsub).
    exists j, fs, r, rj, fl, k1, k2, l2, ok. split; [rewrite Hl, Hk, <-app_assoc; done|]. auto 10.
  Qed.

  (** A run that returns success and has not run its subtarget. *)
  Lemma skip_events tr a i b : history tr -> tr = a ++ LRet i RNil :: b -> LSubStart i ∉ a ->
    exists h a1 a2 a3 r0 fl fs, a = a1 ++ LHash i Before fs r0 (HOk h) :: a2 ++ LHas i h (Some true) :: a3 /\
      LStart i r0 fl ∈ a1 /\ fs = files_after fs0 a1 /\ fl_db fl = true /\ fl_force fl = false /\ fl_dry fl = false.
  Proof.
    intros Ht Htr Hns. destruct (hist_ev tr a i _ b Ht Htr ltac:(simpl; by rewrite bool_decide_true)) as (r0 & fl & st & Hst & Hrep & _).
    assert (Hx : (fl_db fl = true /\ fl_force fl = false /\ fl_dry fl = false) /\ exists h i', LHas i' h (Some true) ∈ filter (of_run i) a).
    { assert (Hns' : forall j, LSubStart j ∉ filter (of_run i) a).
      { intros j [Hj Ho]%filter_in. simpl in Ho. apply bool_decide_eq_true in Ho as <-. done. }
      by eapply place_skip. }
    destruct Hx as ((Hf1 & Hf2 & Hf3) & h & i' & Hx). apply filter_in in Hx as [Hx Ho]. simpl in Ho. apply bool_decide_eq_true in Ho as <-.
    apply elem_of_list_split in Hx as (c & a3 & Ha).
    assert (Hhc : history (a)) by (by eapply prefix_history).
    destruct (hist_ev a c i _ a3 Hhc Ha ltac:(simpl; by rewrite bool_decide_true)) as (r1 & fl1 & st1 & Hst1 & Hrep1 & Hu).
    assert (Hy : exists fs r i', LHash i' Before fs r (HOk h) ∈ filter (of_run i) c).
    { by eapply place_has. }
    destruct Hy as (fs & r & i' & Hy). apply filter_in in Hy as [Hy Ho]. simpl in Ho. apply bool_decide_eq_true in Ho as <-.
    assert (Hhc1 : history c) by (by eapply prefix_history).
    destruct (hash_unique _ _ _ _ _ _ Hhc1 Hy) as (k1 & k2 & r2 & fl2 & Hk & Hfs & _ & _ & Hst2 & -> & _).
    exists h, k1, k2, a3, r2, fl2, fs. split; [rewrite Ha, Hk, <-app_assoc; done|]. split; [done|]. split; [done|].
    destruct (Hu r2 fl2) as [<- <-].
    { rewrite Ha, Hk, !elem_of_app. by left; left. }
    destruct (Hu r0 fl) as [<- <-]; [done|]. done.
  Qed.

  Context (Hh : Inj (=) (=) hashf) (Hne : forall c, hashf c <> "") (HH : Inj (=) (=) H).

  Lemma has_true_same tr a i h c fs r : history tr -> tr = a ++ LHas i h (Some true) :: c ->
    LHash i Before fs r (HOk h) ∈ a ->
    exists j fs' r', success_recorded R fs0 a j fs' r' h /\ same_state fs r fs' r'.
  Proof.
    intros Ht Htr Hha. assert (Hhc : history a) by (by eapply prefix_history).
    assert (Hrec : recorded a h) by (by apply (has_recorded _ _ _ _ _ _ Ht Htr)).
    destruct (recorded_success _ _ Hhc Hrec) as (j & fs' & r' & Hsr).
    exists j, fs', r'. split; [done|]. destruct Hsr as (rj & flj & l1 & l2 & l3 & ok & Hl & _).
    assert (Hin : LHash j After fs' r' (HOk h) ∈ a) by (rewrite Hl; apply elem_of_app; right; by left).
    destruct (hash_unique _ _ _ _ _ _ Hhc Hin) as (_ & _ & _ & _ & _ & _ & _ & [f2 Hc2] & _).
    destruct (hash_unique _ _ _ _ _ _ Hhc Hha) as (_ & _ & _ & _ & _ & _ & _ & [f1 Hc1] & _).
    eapply (computeHash_same hashf H Hh Hne HH); [exact Hc1|exact Hc2].
  Qed.
  Lemma skip_up_to_date tr a i b : history tr -> tr = a ++ LRet i RNil :: b -> LSubStart i ∉ a ->
    exists r fl h a1 a2 a3, a = a1 ++ LHash i Before (files_after fs0 a1) r (HOk h) :: a2 ++ LHas i h (Some true) :: a3 /\
      LStart i r fl ∈ a1 /\
      exists j fs' r', success_recorded R fs0 (a1 ++ LHash i Before (files_after fs0 a1) r (HOk h) :: a2) j fs' r' h /\ same_state (files_after fs0 a1) r fs' r'.
  Proof.
    intros Ht Htr Hns. destruct (skip_events _ _ _ _ Ht Htr Hns) as (h & a1 & a2 & a3 & r0 & fl & fs & Ha & Hst & -> & _).
    exists r0, fl, h, a1, a2, a3. split; [done|]. split; [done|].
    eapply (has_true_same tr _ i h (a3 ++ LRet i RNil :: b)); [done| |].
    - rewrite Htr, Ha, <-!app_assoc. cbn [app]. by rewrite <-!app_assoc.
    - apply elem_of_app. right. by left.
  Qed.
  Lemma changed_runs tr a i b : history tr -> tr = a ++ LRet i RNil :: b ->
    (forall a1 r h a2 j fs' r', a = a1 ++ LHash i Before (files_after fs0 a1) r (HOk h) :: a2 ->
       success_recorded R fs0 a j fs' r' h -> ~ same_state (files_after fs0 a1) r fs' r') ->
    LSubEnd i None ∈ a.
  Proof.
    intros Ht Htr Hch. destruct (hist_ev tr a i _ b Ht Htr ltac:(simpl; by rewrite bool_decide_true)) as (r0 & fl & st & Hst & Hrep & _).
    assert (Hx : LSubStart i ∉ a \/ exists i', LSubEnd i' None ∈ filter (of_run i) a).
    { assert (Hns' : LSubStart i ∈ a -> LSubStart i ∈ filter (of_run i) a).
      { apply in_filter. simpl. by rewrite bool_decide_true. }
      assert (Hd : LSubStart i ∉ filter (of_run i) a \/ exists i', LSubEnd i' None ∈ filter (of_run i) a).
      { by eapply place_nil. }
      destruct Hd as [Hd|Hd]; [left; auto|by right]. }
    destruct Hx as [Hx|[i' Hx]].
    - exfalso. destruct (skip_up_to_date _ _ _ _ Ht Htr Hx) as (r & fl' & h & a1 & a2 & a3 & Ha & _ & j & fs' & r' & Hsr & Hss).
      eapply Hch; [exact Ha| |exact Hss]. destruct Hsr as (rj & flj & l1 & l2 & l3 & ok & Hl & Hr).
      exists rj, flj, l1, l2, (l3 ++ LHas i h (Some true) :: a3), ok. split; [|done].
      rewrite Ha. rewrite app_comm_cons, app_assoc, Hl, <-!app_assoc. cbn [app]. by rewrite <-!app_assoc.
    - apply filter_in in Hx as [Hx Ho]. simpl in Ho. apply bool_decide_eq_true in Ho as <-. done.
  Qed.
End main.
