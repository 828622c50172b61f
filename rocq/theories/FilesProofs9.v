From stdpp Require Import base gmap list sorting strings.
From Verif Require Import PathModel FileHashModel FileHashSpec FileHashProofs FilesModel FilesSpec FilesProofs FilesProofs2 FilesProofs3 FilesProofs4 FilesProofs5 FilesProofs6 FilesProofs7 FilesProofs8.
Local Open Scope list_scope.

Section main.
  Context (hashf : string -> string) (H : json -> hash) (R : string -> option tgt) (fs0 : files_state).
  Notation history := (history hashf H R fs0).
  Notation reach := (reach hashf H R fs0).
  Notation step := (step hashf H R).
  Notation computeHash := (computeHash hashf H).

  Lemma reach_step s ch s' : reach s -> step s ch = Some s' -> reach s'.
  Proof. intros [chs Hc] Hs. exists (chs ++ [ch]). rewrite exec_app, Hc. simpl. by rewrite Hs. Qed.

  (** ** Building histories. *)
  Definition RA (fs : files_state) (db : gset hash) (k : nat) (l : list event) (s : state) : Prop :=
    reach s /\ st_fs s = fs /\ st_db s = db /\ length (st_runs s) = k /\ st_log s = l.
  Definition at_ (i : nat) (r : rule) (fl : flags) (st : rstate) (s : state) : Prop :=
    st_runs s !! i = Some {| n_rule := r; n_flags := fl; n_st := st |}.

  Lemma ra_init : RA fs0 ∅ 0 [] (init fs0).
  Proof. split; [by exists []|]. done. Qed.
  Lemma ra_start fs db k l s r fl : RA fs db k l s ->
    exists s', RA fs db (S k) (l ++ [LStart k r fl]) s' /\ at_ k r fl (Idle (files_run fl)) s' /\
      (forall i r fl st, at_ i r fl st s -> at_ i r fl st s').
  Proof.
    intros (Hr & <- & <- & Hk & <-). eexists. split; [split; [eapply reach_step; [exact Hr|exact (eq_refl : step s (CStart r fl) = Some _)]|]|split].
    - simpl. rewrite app_length, Hk. simpl. split; [done|]. split; [done|]. split; [lia|]. done.
    - unfold at_. simpl. by apply list_lookup_middle.
    - unfold at_. simpl. intros i r' fl' st Hi. by apply lookup_app_l_Some.
  Qed.
  Lemma ra_edit fs db k l s fs' : RA fs db k l s ->
    exists s', RA fs' db k (l ++ [LEdit fs']) s' /\ (forall i r fl st, at_ i r fl st s -> at_ i r fl st s').
  Proof.
    intros (Hr & <- & <- & Hk & <-). eexists. split; [split; [eapply reach_step; [exact Hr|exact (eq_refl : step s (CEdit fs') = Some _)]|]|]; done.
  Qed.
  Lemma ra_go fs db k l s i r fl st fuel e ok ap ev r' st' db' : RA fs db k l s -> at_ i r fl st s ->
    (forall s, st_fs s = fs -> st_db s = db -> at_ i r fl st s ->
       go hashf H R i fuel e ok ap s = Some {| st_fs := fs; st_db := db'; st_runs := <[i := {| n_rule := r'; n_flags := fl; n_st := st' |}]> (st_runs s); st_log := st_log s ++ [ev] |}) ->
    exists s', RA fs db' k (l ++ [ev]) s' /\ at_ i r' fl st' s'.
  Proof.
    intros (Hr & Hf & Hd & Hk & <-) Hat Hg. specialize (Hg s Hf Hd Hat). eexists. split; [split; [eapply reach_step; [exact Hr|exact (Hg : step s (CGo i fuel e ok ap) = Some _)]|]|].
    - simpl. rewrite insert_length. done.
    - unfold at_. simpl. apply list_lookup_insert. by eapply lookup_lt_Some.
  Qed.
  Ltac gos := intros s' Hf' Hd' Hat'; unfold go; unfold at_ in Hat'; rewrite Hat'; cbn [mbind option_bind n_st n_rule n_flags files_run files_check files_sub files_finish];
    unfold set_run, log, set_db; cbn [st_fs st_db st_runs st_log]; rewrite ?Hf', ?Hd'.
  Lemma ra_pre fs db k l s i r fl kk e : RA fs db k l s -> at_ i r fl (Idle (FPrereqs kk)) s ->
    exists s', RA fs db k (l ++ [LPrereqs i e]) s' /\ at_ i r fl (Idle (kk e)) s'.
  Proof. intros Hra Hat. eapply (ra_go _ _ _ _ _ _ _ _ _ 0 e true true); [done|done|]. by gos. Qed.
  Lemma ra_hash fs db k l s i r fl m kk fuel res : RA fs db k l s -> at_ i r fl (Idle (FHash m kk)) s ->
    computeHash fuel fs r = res -> res <> HOutOfFuel ->
    exists s', RA fs db k (l ++ [LHash i m fs r res]) s' /\ at_ i r fl (Idle (kk res)) s'.
  Proof.
    intros Hra Hat Hc Hne. eapply (ra_go _ _ _ _ _ _ _ _ _ fuel None true true); [done|done|]. gos. rewrite Hc. by destruct res.
  Qed.
  Lemma ra_has fs db k l s i r fl h kk : RA fs db k l s -> at_ i r fl (Idle (FHas h kk)) s ->
    exists s', RA fs db k (l ++ [LHas i h (Some (bool_decide (h ∈ db)))]) s' /\ at_ i r fl (Idle (kk (Some (bool_decide (h ∈ db))))) s'.
  Proof. intros Hra Hat. eapply (ra_go _ _ _ _ _ _ _ _ _ 0 None true true); [done|done|]. by gos. Qed.
  Lemma ra_subs fs db k l s i r fl kk : RA fs db k l s -> at_ i r fl (Idle (FSub kk)) s ->
    exists s', RA fs db k (l ++ [LSubStart i]) s' /\ at_ i r fl (InSub kk) s'.
  Proof. intros Hra Hat. eapply (ra_go _ _ _ _ _ _ _ _ _ 0 None true true); [done|done|]. by gos. Qed.
  Lemma ra_sube fs db k l s i r fl kk t : RA fs db k l s -> at_ i r fl (InSub kk) s -> ran R (r_tgt r) = Some t ->
    exists s', RA fs db k (l ++ [LSubEnd i None]) s' /\ at_ i {| r_tgt := t; r_in := r_in r; r_out := r_out r |} fl (Idle (kk None)) s'.
  Proof. intros Hra Hat Ht. eapply (ra_go _ _ _ _ _ _ _ _ _ 0 None true true); [done|done|]. gos. by rewrite Ht. Qed.
  Lemma ra_add fs db k l s i r fl h kk : RA fs db k l s -> at_ i r fl (Idle (FAdd h kk)) s ->
    exists s', RA fs ({[h]} ∪ db) k (l ++ [LAdd i h true true]) s' /\ at_ i r fl (Idle (kk true)) s'.
  Proof. intros Hra Hat. eapply (ra_go _ _ _ _ _ _ _ _ _ 0 None true true); [done|done|]. by gos. Qed.
  Lemma ra_ret fs db k l s i r fl x : RA fs db k l s -> at_ i r fl (Idle (FRet x)) s ->
    exists s', RA fs db k (l ++ [LRet i x]) s' /\ at_ i r fl Finished s'.
  Proof. intros Hra Hat. eapply (ra_go _ _ _ _ _ _ _ _ _ 0 None true true); [done|done|]. by gos. Qed.

  Lemma ra_building fs db k l s r t fs1 fs2 f1 f2 h h' : RA fs db k l s -> computeHash f1 fs r = HOk h -> h ∉ db ->
    ran R (r_tgt r) = Some t -> computeHash f2 fs2 {| r_tgt := t; r_in := r_in r; r_out := r_out r |} = HOk h' ->
    exists s', RA fs2 ({[h']} ∪ db) (S k) (l ++ building_run k r {| r_tgt := t; r_in := r_in r; r_out := r_out r |} fs fs1 fs2 h h') s'.
  Proof.
    intros Hra Hh Hdb Ht Hh'.
    apply (ra_start _ _ _ _ _ r normal) in Hra as (s1 & Hra & Hat & _).
    destruct (ra_pre _ _ _ _ _ _ _ _ _ None Hra Hat) as (s2 & Hra2 & Hat2). cbn in Hat2.
    destruct (ra_hash _ _ _ _ _ _ _ _ _ _ f1 _ Hra2 Hat2 Hh ltac:(done)) as (s3 & Hra3 & Hat3). cbn in Hat3.
    destruct (ra_has _ _ _ _ _ _ _ _ _ _ Hra3 Hat3) as (s4 & Hra4 & Hat4). rewrite bool_decide_false in Hat4, Hra4 by done. cbn in Hat4.
    destruct (ra_subs _ _ _ _ _ _ _ _ _ Hra4 Hat4) as (s5 & Hra5 & Hat5).
    destruct (ra_edit _ _ _ _ _ fs1 Hra5) as (s6 & Hra6 & Hpr6). apply Hpr6 in Hat5.
    destruct (ra_edit _ _ _ _ _ fs2 Hra6) as (s7 & Hra7 & Hpr7). apply Hpr7 in Hat5.
    destruct (ra_sube _ _ _ _ _ _ _ _ _ t Hra7 Hat5 Ht) as (s8 & Hra8 & Hat8). cbn in Hat8.
    destruct (ra_hash _ _ _ _ _ _ _ _ _ _ f2 _ Hra8 Hat8 Hh' ltac:(done)) as (s9 & Hra9 & Hat9). cbn in Hat9.
    destruct (ra_add _ _ _ _ _ _ _ _ _ _ Hra9 Hat9) as (s10 & Hra10 & Hat10). cbn in Hat10.
    destruct (ra_ret _ _ _ _ _ _ _ _ _ Hra10 Hat10) as (s11 & Hra11 & _).
    exists s11. rewrite <-!app_assoc in Hra11. exact Hra11.
  Qed.
  Lemma ra_skipping fs db k l s r f h : RA fs db k l s -> computeHash f fs r = HOk h -> h ∈ db ->
    exists s', RA fs db (S k) (l ++ skipping_run k r fs h) s'.
  Proof.
    intros Hra Hh Hdb.
    apply (ra_start _ _ _ _ _ r normal) in Hra as (s1 & Hra & Hat & _).
    destruct (ra_pre _ _ _ _ _ _ _ _ _ None Hra Hat) as (s2 & Hra2 & Hat2). cbn in Hat2.
    destruct (ra_hash _ _ _ _ _ _ _ _ _ _ f _ Hra2 Hat2 Hh ltac:(done)) as (s3 & Hra3 & Hat3). cbn in Hat3.
    destruct (ra_has _ _ _ _ _ _ _ _ _ _ Hra3 Hat3) as (s4 & Hra4 & Hat4). rewrite bool_decide_true in Hat4, Hra4 by done. cbn in Hat4.
    destruct (ra_ret _ _ _ _ _ _ _ _ _ Hra4 Hat4) as (s5 & Hra5 & _).
    exists s5. rewrite <-!app_assoc in Hra5. exact Hra5.
  Qed.
  Lemma ra_history fs db k l s : RA fs db k l s -> history l.
  Proof. intros ([chs Hc] & _ & _ & _ & Hl). by exists chs, s. Qed.

  (** ** No run is ever stuck. *)
  Lemma progress_lem tr i r0 fl : history tr -> LStart i r0 fl ∈ tr -> (forall x, LRet i x ∉ tr) ->
    (forall p, p ∈ r_in r0 \/ p ∈ r_out r0 -> finite (files_after fs0 tr) p) ->
    exists ev, of_run i ev = true /\ history (tr ++ [ev]).
  Proof.
    intros Ht Hst Hnr Hfin. apply history_reach in Ht as (s & Hr & Hl). apply reach_inv in Hr as HI.
    rewrite <-Hl in *. destruct (inv_start _ _ _ HI i r0 fl Hst) as (n & Hn & Hfl & Hrep & Hrule).
    assert (Hsteps : forall fuel e ok ap s', go hashf H R i fuel e ok ap s = Some s' -> exists ev, of_run i ev = true /\ history (st_log s ++ [ev])).
    { intros fuel e ok ap s' Hg. pose proof (go_inv _ _ _ _ _ _ _ _ _ _ Hg) as (n1 & ev & n' & d & _ & Hgs & Hs').
      exists ev. split; [by eapply gostep_of|]. destruct (reach_step s (CGo i fuel e ok ap) s' Hr Hg) as [chs Hc].
      exists chs, s'. split; [done|]. by rewrite Hs'. }
    assert (Hch : exists fuel e ok ap s', go hashf H R i fuel e ok ap s = Some s').
    { unfold go. rewrite Hn. cbn [mbind option_bind]. destruct (n_st n) as [[x|k|m k|h k|k|h k]|k|] eqn:Es.
      - exists 0, None, true, true. eauto.
      - exists 0, None, true, true. eauto.
      - assert (Hio : r_in (n_rule n) = r_in r0 /\ r_out (n_rule n) = r_out r0) by (destruct Hrule as [[_ (_ & ? & ?)]|[_ ->]]; done).
        destruct (terminates hashf (st_fs s) (r_in r0)) as (x1 & Hx1 & f1 & E1).
        { intros p Hp. rewrite (inv_fs _ _ _ HI). apply Hfin. by left. }
        destruct (terminates hashf (st_fs s) (r_out r0)) as (x2 & Hx2 & f2 & E2).
        { intros p Hp. rewrite (inv_fs _ _ _ HI). apply Hfin. by right. }
        exists (max f1 f2), None, true, true.
        assert (Hc : computeHash (max f1 f2) (st_fs s) (n_rule n) <> HOutOfFuel).
        { unfold FilesModel.computeHash. destruct Hio as [-> ->].
          rewrite (fileHashes_mono hashf (st_fs s) f1 (max f1 f2) (r_in r0) x1 ltac:(lia) E1 Hx1).
          rewrite (fileHashes_mono hashf (st_fs s) f2 (max f1 f2) (r_out r0) x2 ltac:(lia) E2 Hx2).
          destruct x1, x2; try done. destruct (type_string _); [|done]. by destruct (enc _). }
        destruct (computeHash (max f1 f2) (st_fs s) (n_rule n)); eauto; done.
      - exists 0, None, true, true. eauto.
      - exists 0, None, true, true. eauto.
      - exists 0, None, true, true. eauto.
      - exists 0, (Some 0), true, true. eauto.
      - exfalso. clear -Hrep Hnr. 
        assert (Hx : exists j x, LRet j x ∈ filter (of_run i) (st_log s)).
        { set (evs := filter (of_run i) (st_log s)) in *. clearbody evs. clear -Hrep.
          remember (Idle (files_run (n_flags n))) as st0 eqn:E0. remember Finished as st1 eqn:E1.
          assert (st0 <> Finished) by (by rewrite E0). clear E0. induction Hrep as [st|st ev st1 evs st2 Hs Hrep IH]; [done|].
          inversion Hs; subst; try (destruct IH as (j & x & Hx); [done|done|]; exists j, x; by right).
          eexists _, _. left. }
        destruct Hx as (j & x & Hx). apply filter_in in Hx as [Hx Ho]. simpl in Ho. apply bool_decide_eq_true in Ho as <-. by eapply Hnr. }
    destruct Hch as (fuel & e & ok & ap & s' & Hg). by eapply Hsteps.
  Qed.
End main.
