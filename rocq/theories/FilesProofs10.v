From stdpp Require Import base gmap list sorting strings.
From Verif Require Import PathModel FileHashModel FileHashSpec FileHashProofs FilesModel FilesSpec FilesProofs FilesProofs2 FilesProofs3 FilesProofs4 FilesProofs5 FilesProofs6 FilesProofs7 FilesProofs8 FilesProofs9.
Local Open Scope list_scope.

Lemma at_has fl evs st l i fs r h : replay (Idle (files_run fl)) evs st -> evs = l ++ [LHash i Before fs r (HOk h)] ->
  exists k, st = Idle (FHas h k) /\ k (Some true) = FRet RNil.
Proof.
  intros Hr He. unfold files_run in Hr. next Hr; [by destruct l|]. apply estep_pre in Hs as (i1 & e & -> & ->).
  destruct l as [|x l]; [discriminate He|]. injection He as <- He.
  destruct e as [e|]. { apply replay_ret in Hr as [[-> _]|(i2 & -> & _)]; [by destruct l|]. destruct l as [|x l]; [discriminate He|]. by destruct l. }
  unfold files_check in Hr. destruct (fl_db fl && negb (fl_force fl) && negb (fl_dry fl)).
  - next Hr; [by destruct l|]. apply estep_hash in Hs as (i2 & fs2 & r2 & res & -> & -> & Hne).
    destruct l as [|x l].
    + injection He as -> -> -> -> ->. apply replay_inv in Hr as ->. eexists. split; [done|]. done.
    + injection He as <- He. destruct res as [h2|it| |]; [| | |done].
      * exfalso. next Hr; [by destruct l|]. apply estep_has in Hs as (i3 & res & -> & ->).
        destruct l as [|x l]; [discriminate He|]. injection He as <- He. destruct res as [[]|].
        -- apply replay_ret in Hr as [[-> _]|(i4 & -> & _)]; [by destruct l|]. destruct l as [|x l]; [discriminate He|]. by destruct l.
        -- open_all; splits He.
        -- apply replay_ret in Hr as [[-> _]|(i4 & -> & _)]; [by destruct l|]. destruct l as [|x l]; [discriminate He|]. by destruct l.
      * exfalso. apply replay_ret in Hr as [[-> _]|(i4 & -> & _)]; [by destruct l|]. destruct l as [|x l]; [discriminate He|]. by destruct l.
      * exfalso. apply replay_ret in Hr as [[-> _]|(i4 & -> & _)]; [by destruct l|]. destruct l as [|x l]; [discriminate He|]. by destruct l.
  - exfalso. open_all; splits He.
Qed.

Section main.
  Context (hashf : string -> string) (H : json -> hash) (R : string -> option tgt) (fs0 : files_state).
  Notation history := (history hashf H R fs0).

  Lemma finish_skip tr i fs r h : history (tr ++ [LHash i Before fs r (HOk h)]) ->
    recorded tr h -> history (tr ++ [LHash i Before fs r (HOk h); LHas i h (Some true); LRet i RNil]).
  Proof.
    intros Ht Hrec. apply history_reach in Ht as (s & Hr & Hl). apply reach_inv in Hr as HI.
    destruct (ev_go hashf H R fs0 s tr i _ [] Hr Hl) as (s1 & n1 & n1' & d & r0 & _ & _ & _ & _ & Hst & _); [simpl; by rewrite bool_decide_true|].
    assert (Hst' : LStart i r0 (n_flags n1) ∈ st_log s) by (rewrite Hl, elem_of_app; by left).
    destruct (inv_start _ _ _ HI _ _ _ Hst') as (n & Hn & Hfl & Hrep & _).
    rewrite Hl in Hrep. rewrite filter_snoc_in in Hrep by (simpl; by rewrite bool_decide_true).
    destruct (at_has _ _ _ _ _ _ _ _ Hrep eq_refl) as (k & Hk & Hk2).
    assert (Hra : RA hashf H R fs0 (st_fs s) (st_db s) (length (st_runs s)) (st_log s) s) by done.
    assert (Hat : at_ i (n_rule n) (n_flags n) (Idle (FHas h k)) s). { unfold at_. rewrite Hn, <-Hk. by destruct n. }
    destruct (ra_has _ _ _ _ _ _ _ _ _ _ _ _ _ _ Hra Hat) as (s4 & Hra4 & Hat4).
    rewrite bool_decide_true in Hat4, Hra4. 2,3: apply (inv_db _ _ _ HI); rewrite Hl; apply recorded_snoc; by right.
    rewrite Hk2 in Hat4. destruct (ra_ret _ _ _ _ _ _ _ _ _ _ _ _ _ Hra4 Hat4) as (s5 & Hra5 & _).
    apply ra_history in Hra5. rewrite Hl, <-!app_assoc in Hra5. exact Hra5.
  Qed.

  Lemma same_rule_not_rebuilt tr k1 j h ok k2 i fs r res k3 fs' r' fl fl' : history tr ->
    tr = k1 ++ LAdd j h true ok :: k2 ++ LHash i Before fs r res :: k3 -> LEvict h ∉ k2 -> LEvict h ∉ k3 ->
    LHash j After fs' r' (HOk h) ∈ k1 -> 
    LStart j r fl ∈ tr -> LStart i r fl' ∈ tr -> ran R (r_tgt r) = Some (r_tgt r) ->
    unchanged fs' fs (r_in r ++ r_out r) ->
    res = HOk h /\ LSubStart i ∉ tr /\ (forall h' ap ok', LAdd i h' ap ok' ∉ tr) /\
    (forall x, LRet i x ∈ tr -> x = RNil \/ (x = RErr EHas /\ LHas i h None ∈ tr)).
  Proof.
    intros Ht Htr He2 He3 Hh Hs1 Hs2 Hran Hu.
    assert (r' = r) as ->.
    { destruct (hash_unique hashf H R fs0 tr j After fs' r' (HOk h) Ht) as (l1 & l2 & r0 & fl1 & Hl & _ & _ & _ & Hs & (Hm1 & Hm2 & Hm3) & _).
      { rewrite Htr, elem_of_app. by left. }
      destruct (history_reach _ _ _ _ _ Ht) as (s & Hr & Hlog).
      destruct (ev_start _ _ _ _ s j r fl r0 fl1 Hr) as [<- _]; [by rewrite Hlog|by rewrite Hlog, Hl, elem_of_app; left|].
      destruct r', r. simpl in *. congruence. }
    destruct (up_to_date_lem hashf H R fs0 tr k1 j h ok k2 i fs r res k3 fs' r Ht Htr) as (? & ? & ? & _ & ?); try done.
  Qed.

  Context (Hh : Inj (=) (=) hashf) (Hne : forall c, hashf c <> "") (HH : Inj (=) (=) H).

  Lemma deferred_never tr r n t : history tr -> r_tgt r = TDeferred n None -> R n = Some t -> enc t <> Some JNull ->
    (forall i r' fl, LStart i r' fl ∈ tr -> r' = r) -> forall i h, LHas i h (Some true) ∉ tr.
  Proof.
    intros Ht Hr HR Hj Hall i h (a & b & Hab)%elem_of_list_split.
    destruct (hist_ev _ _ _ _ tr a i _ b Ht Hab ltac:(simpl; by rewrite bool_decide_true)) as (r1 & fl1 & st1 & Hst1 & Hrep1 & _).
    destruct (place_has _ _ _ _ _ _ _ _ Hrep1 eq_refl) as (fs2 & r2 & i' & Hx).
    apply filter_in in Hx as [Hx Ho']. simpl in Ho'. apply bool_decide_eq_true in Ho' as <-.
    destruct (has_true_same hashf H R fs0 Hh Hne HH tr a i h b fs2 r2 Ht Hab Hx) as (j & fs' & r' & Hsr & Hss).
    assert (Hinc : forall ev, ev ∈ a -> ev ∈ tr) by (intros ev Hev; rewrite Hab, elem_of_app; by left).
    assert (r2 = r) as ->.
    { destruct (hash_unique hashf H R fs0 tr i Before fs2 r2 (HOk h) Ht (Hinc _ Hx)) as (l1 & l2 & r0 & fl & Hl & _ & _ & _ & Hs & -> & _).
      eapply (Hall i r0 fl). rewrite Hl, elem_of_app. by left. }
    destruct Hsr as (rj & fl & l1 & l2 & l3 & ok & Hl & Hs & _ & _ & Hran & _).
    assert (rj = r) as ->. { eapply (Hall j rj fl). apply Hinc. rewrite Hl, elem_of_app. by left. }
    rewrite Hr in Hran. simpl in Hran. rewrite HR in Hran. simpl in Hran. injection Hran as Hran.
    destruct Hss as [[_ He] _]. rewrite Hr, <-Hran in He. simpl in He.
    destruct (enc t) as [jt|]; simpl in He; [|done]. apply Hj. congruence.
  Qed.
  Lemma transparent_changed tr a i b : history tr -> tr = a ++ LRet i RNil :: b ->
    (forall r fl, LStart i r fl ∈ a -> transparent (r_tgt r)) ->
    (forall j fs' r' h, success_recorded R fs0 a j fs' r' h -> transparent (r_tgt r')) ->
    (forall r fl j fs' r' h, LStart i r fl ∈ a -> success_recorded R fs0 a j fs' r' h -> r_tgt r' <> r_tgt r) ->
    LSubEnd i None ∈ a.
  Proof.
    intros Ht Htr Hti Htj Hdif. eapply (changed_runs hashf H R fs0 Hh Hne HH); [exact Ht|exact Htr|].
    intros a1 r h a2 j fs' r' Ha Hsr [[_ He] _].
    assert (Hha : history a) by (by eapply prefix_history).
    destruct (hash_unique hashf H R fs0 a i Before (files_after fs0 a1) r (HOk h) Hha) as (l1 & l2 & r0 & fl & Hl & _ & _ & _ & Hs & -> & _).
    { rewrite Ha, elem_of_app. right. by left. }
    assert (Hs' : LStart i r0 fl ∈ a) by (rewrite Hl, elem_of_app; by left).
    eapply Hdif; [exact Hs'|exact Hsr|]. symmetry. apply enc_injective; [by eapply Hti|by eapply Htj|done].
  Qed.
End main.
