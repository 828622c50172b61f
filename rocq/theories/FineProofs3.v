From stdpp Require Import base gmap list strings.
From Verif Require Import ContextModel RunnerModel RunnerSteps RunnerInv RunnerInv2 RunnerInv3 RunnerSpec FineModel FineSpec FineProofs FineProofs2.
Local Open Scope list_scope.

Lemma reached_ind w (P : fstate -> Prop) : P finit ->
  (forall f ch f', reached w f -> P f -> fstep w f ch = Some f' -> P f') -> forall f, reached w f -> P f.
Proof.
  intros H0 Hs f (sched & Hf). revert f Hf. induction sched as [|ch sched IH] using rev_ind; intros f Hf; [simpl in Hf; by injection Hf as <-|].
  assert (Ha : forall l1 l2 f0, frun w f0 (l1 ++ l2) = f1 ← frun w f0 l1; frun w f1 l2).
  { intros l1 l2. induction l1 as [|x l1 IH1]; intros f0; simpl; [done|]. destruct (fstep w f0 x); simpl; auto. }
  rewrite Ha in Hf. destruct (frun w finit sched) as [f1|] eqn:E; simpl in Hf; [|done]. destruct (fstep w f1 ch) as [f2|] eqn:E2; simpl in Hf; [|done]. injection Hf as <-.
  eapply Hs; [by exists sched|by apply IH|exact E2].
Qed.
Lemma reached_sim w f : reached w f -> exists s, reachable w s /\ sim f s.
Proof. intros (sched & H). by eapply sim_run. Qed.
Lemma holds_lock w f x : reached w f -> holds f x -> m_lock f = Some x.
Proof.
  intros Hf Hx. destruct (reached_sim w f Hf) as (s & _ & S). destruct x as [g|c]; simpl in Hx.
  - destruct Hx as (h & Hg & Hp). pose proof (r_gok _ _ S _ _ Hg) as H. destruct (h_pc h); simpl in *; try done; naive_solver.
  - destruct Hx as (k & Hk & Hp). pose proof (r_cok _ _ S _ _ Hk) as H. unfold cok in H. destruct (k_pc k); simpl in *; try done; naive_solver.
Qed.

Definition dinv (f : fstate) : Prop :=
  m_depth f = Z.of_nat (countb counted (m_calls f)) /\
  forall c k, m_calls f !! c = Some k -> match k_pc k with QIncV d | QDecV _ d => d = m_depth f | _ => True end.
Lemma dinv_same f f' : m_depth f' = m_depth f -> m_calls f' = m_calls f -> dinv f -> dinv f'.
Proof. unfold dinv. by intros -> ->. Qed.
Lemma dinv_alter f f' c z : m_depth f' = m_depth f -> m_calls f' = alter z c (m_calls f) -> (forall k, k_pc (z k) = k_pc k) -> dinv f -> dinv f'.
Proof.
  unfold dinv. intros -> -> Hz [H1 H2]. split.
  - rewrite countb_alter_same; [done|]. intros k _. unfold counted. by rewrite Hz.
  - intros c' k Hk. apply list_alter_inv in Hk as [(-> & k0 & Hk & ->)|(_ & Hk)]; [rewrite Hz|]; by eapply H2.
Qed.
Lemma dinv_move f f' c k q : m_depth f' = m_depth f -> m_calls f' = alter (set_qc q) c (m_calls f) -> m_calls f !! c = Some k ->
  counted (set_qc q k) = counted k -> (match q with QIncV d | QDecV _ d => d = m_depth f | _ => True end) -> dinv f -> dinv f'.
Proof.
  unfold dinv. intros -> -> Hk Hc Hq [H1 H2]. split.
  - rewrite countb_alter_same; [done|]. intros k' Hk'. rewrite Hk in Hk'. by injection Hk' as <-.
  - intros c' k' Hk'. apply list_alter_inv in Hk' as [(-> & k0 & Hk0 & ->)|(_ & Hk')]; [done|]. by eapply H2.
Qed.
Lemma dinv_iter w c i t cx f f' : dinv f -> f_iter w c i t cx f = Some f' -> dinv f'.
Proof.
  intros Hd Hf. unfold f_iter in Hf. destruct t as [o|].
  - destruct (w_deferred w o).
    + destruct (m_lock f); [done|]. destruct (f_resolve w o f) as [ca [e|o']]; injection Hf as <-; (eapply dinv_alter; [| | |exact Hd]; [done|reflexivity|done]).
    + injection Hf as <-. eapply dinv_alter; [| | |exact Hd]; [done|reflexivity|done].
  - injection Hf as <-. eapply dinv_alter; [| | |exact Hd]; [done|reflexivity|done].
Qed.
Lemma dinv_begin p cx ts f : dinv f -> dinv (f_begin p cx ts f).
Proof.
  intros [H1 H2]. split; simpl.
  - rewrite countb_app. simpl. unfold counted at 2. simpl. destruct (decide (ts = [])); simpl; lia.
  - intros c k Hk. apply lookup_snoc in Hk as [(_ & ->)|Hk]; [simpl; by destruct (decide (ts = []))|by eapply H2].
Qed.
Lemma dinv_write w f c k d q : reached w f -> dinv f -> m_calls f !! c = Some k -> c_locked (k_pc k) = true ->
  (match q with QIncU | QDecU _ => True | _ => False end) ->
  (d + (if counted k then 1 else 0) = m_depth f + (if counted (set_qc q k) then 1 else 0))%Z -> dinv (cgoto c q (f_depth d f)).
Proof.
  intros Hf [H1 H2] Hk Hl Hq Hd. split; simpl.
  - pose proof (countb_alter counted (set_qc q) c (m_calls f) k Hk) as H. destruct (counted k), (counted (set_qc q k)); lia.
  - intros c' k' Hk'. apply list_alter_inv in Hk' as [(-> & k0 & Hk0 & ->)|(Hn & Hk')]; [simpl; by destruct q|].
    pose proof (holds_lock w f (WCall c) Hf) as L1. pose proof (holds_lock w f (WCall c') Hf) as L2.
    destruct (k_pc k') eqn:E; try done; exfalso; apply Hn; rewrite L1 in L2 by (by exists k); specialize (L2 ltac:(exists k'; by rewrite E)); by injection L2.
Qed.
Lemma depth_inv w f : reached w f -> dinv f.
Proof.
  revert f. apply reached_ind; [split; [done|]; intros c k H; done|]. intros f ch f' Hre Hd Hf. destruct ch as [cx ts|name o|c|g r]; simpl in Hf.
  - injection Hf as <-. by apply dinv_begin.
  - destruct (m_lock f); [done|]. injection Hf as <-. by eapply dinv_same.
  - unfold f_call in Hf. destruct (m_calls f !! c) as [k|] eqn:Hk; simpl in Hf; [|done]. pose proof (proj2 Hd _ _ Hk) as Hv.
    destruct (k_pc k) as [| |d| |i todo| |acc|e|e|e d|e|e|e] eqn:Hq.
    + destruct (m_lock f); [done|]. injection Hf as <-. eapply dinv_move; [| |exact Hk| | |exact Hd]; [done|reflexivity|unfold counted; by rewrite Hq|done].
    + injection Hf as <-. eapply dinv_move; [| |exact Hk| | |exact Hd]; [done|reflexivity|unfold counted; by rewrite Hq|done].
    + injection Hf as <-. eapply dinv_write; [done|done|exact Hk|by rewrite Hq|done|]. unfold counted. simpl. rewrite Hq. lia.
    + injection Hf as <-. eapply dinv_move; [| |exact Hk| | |exact Hd]; [done|reflexivity|unfold counted; by rewrite Hq|done].
    + destruct todo as [|t todo].
      * injection Hf as <-. eapply dinv_move; [| |exact Hk| | |exact Hd]; [done|reflexivity|unfold counted; by rewrite Hq|done].
      * eapply dinv_iter; [|exact Hf]. eapply dinv_move; [| |exact Hk| | |exact Hd]; [done|reflexivity|unfold counted; by rewrite Hq|done].
    + destruct (k_wg k); [|done]. injection Hf as <-. eapply dinv_move; [| |exact Hk| | |exact Hd]; [done|reflexivity|unfold counted; by rewrite Hq|done].
    + destruct (k_errs k !! length acc); injection Hf as <-; (eapply dinv_move; [| |exact Hk| | |exact Hd]; [done|reflexivity|unfold counted; by rewrite Hq|done]).
    + destruct (m_lock f); [done|]. injection Hf as <-. eapply dinv_move; [| |exact Hk| | |exact Hd]; [done|reflexivity|unfold counted; by rewrite Hq|done].
    + injection Hf as <-. eapply dinv_move; [| |exact Hk| | |exact Hd]; [done|reflexivity|unfold counted; by rewrite Hq|done].
    + injection Hf as <-. eapply dinv_write; [done|done|exact Hk|by rewrite Hq|done|]. unfold counted. simpl. rewrite Hq. cbv zeta. subst d.
      assert (Hpos : (0 < m_depth f)%Z).
      { rewrite (proj1 Hd). pose proof (countb_zero counted (m_calls f) c k) as Hz. destruct (countb counted (m_calls f)) eqn:E; [|lia].
        specialize (Hz eq_refl Hk). unfold counted in Hz. by rewrite Hq in Hz. }
      destruct (Z.ltb_spec (m_depth f - 1) 0); lia.
    + injection Hf as <-. eapply dinv_move; [| |exact Hk| | |exact Hd]; [done|reflexivity|unfold counted; by rewrite Hq|done].
    + assert (Hd' : dinv (cgoto c (QDone e) (f_emit (EvRet c (k_parent k) e) f))).
      { eapply dinv_move; [| |exact Hk| | |exact Hd]; [done|reflexivity|unfold counted; by rewrite Hq|done]. }
      destruct (k_parent k) as [g|]; [|by injection Hf as <-]. destruct (m_gors f !! g) as [h|]; simpl in Hf; [|done].
      destruct (h_pc h); try done. destruct (decide _); [|done]. injection Hf as <-. by eapply dinv_same.
    + done.
  - unfold f_go in Hf. destruct (m_gors f !! g) as [h|] eqn:Hg; simpl in Hf; [|done].
    destruct (h_pc h) as [| | | | | | | | | | |e| |p|c k|e|e| | | | |] eqn:Hp.
    14: { destruct p as [e|cx ts k|d k|l k]; [by injection Hf as <-; eapply dinv_same| | |by injection Hf as <-; eapply dinv_same].
      - injection Hf as <-. eapply dinv_same; [| |by apply dinv_begin]; done.
      - destruct (m_lock f); [done|]. destruct (f_resolve w d f). injection Hf as <-. by eapply dinv_same. }
    all: try (destruct (m_lock f); [done|]); try (destruct (m_ran f !! h_key h); simpl in Hf; [|done]; try (destruct (fo_lock _); [done|])); try done;
      injection Hf as <-; first [by eapply dinv_same|eapply dinv_alter; [| | |exact Hd]; [done|reflexivity|done]].
Qed.
