From stdpp Require Import base gmap list strings.
From Verif Require Import ContextModel RunnerModel RunnerSteps RunnerInv RunnerInv2 RunnerInv3 RunnerSpec RunnerSpec2 FineModel FineProofs.
Local Open Scope list_scope.

(** ** Steps of calls, and what both machines do alike. *)
Lemma sim_emit f s ev : sim f s -> sim (f_emit ev f) (emit ev s).
Proof. intros []. constructor; simpl; try done. by rewrite r_log. Qed.
Lemma sim_cache f s ca : sim f s -> sim (f_cache (fun _ => ca) f) (with_cache ca s).
Proof. intros []. by constructor. Qed.
Lemma sim_reg f s h : sim f s -> sim (f_reg h f) (set_reg h s).
Proof. intros []. constructor; simpl; try done. by rewrite r_reg. Qed.
Lemma sim_depth f s h : sim f s -> sim f (set_depth h s).
Proof. intros []. by constructor. Qed.
Lemma sim_goto f s g h p : sim f s -> m_gors f !! g = Some h -> is_ret (h_pc h) = false ->
  (exists q, p = PBody q) \/ (exists c k, p = PCalling c k) -> sim (goto g p f) (upd_gor g (absp p) s).
Proof.
  intros S Hg Hr Hp. destruct S. constructor; simpl; try done.
  - by rewrite absg_alter, r_gors.
  - intros c k cl i Hk Hc Hn. apply (r_errs c k cl i Hk Hc). by eapply no_ret_alter.
  - intros g' h' Hg'. apply list_alter_inv in Hg' as [(<- & x & Hx & ->)|(Hne & Hg')]; [by destruct Hp as [(q & ->)|(c & k & ->)]|]. by apply r_gok.
  - eapply pre_alter; [exact r_pre|exact Hg|]. by destruct Hp as [(q & ->)|(c & k & ->)].
Qed.
Lemma sim_call f s c k q l' d : sim f s -> m_calls f !! c = Some k -> absc (set_qc q k) = absc k -> lockstep (m_lock f) l' (WCall c) ->
  cok l' c (set_qc q k) -> sim (cgoto c q (f_depth d (f_lock l' f))) s.
Proof.
  intros S Hk Ha Hl Hok. destruct S. constructor; simpl; try done.
  - apply Forall2_alter_l; [done|]. intros k' cl Hk' _ (H1 & H2 & H3 & H4 & H5 & H6). rewrite Hk in Hk'. injection Hk' as <-.
    repeat (split; [done|]). by rewrite Ha.
  - intros c' k' cl i Hk' Hc Hn. apply list_alter_inv in Hk' as [(-> & k1 & Hk' & ->)|(Hne & Hk')]; [|by eapply r_errs]. simpl. by eapply r_errs.
  - intros g h Hg. eapply gok_lock; [exact Hl|done|]. by apply r_gok.
  - intros c' k' Hk'. apply list_alter_inv in Hk' as [(-> & k1 & Hk' & ->)|(Hne & Hk')]; [by rewrite Hk in Hk'; injection Hk' as <-|].
    eapply cok_lock; [exact Hl|naive_solver|]. by apply r_cok.
Qed.
Lemma depth_same d f : m_depth f = d -> f_depth d f = f.
Proof. intros <-. by destruct f. Qed.
Lemma lock_same l f : m_lock f = l -> f_lock l f = f.
Proof. intros <-. by destruct f. Qed.
Lemma sim_call0 f s c k q : sim f s -> m_calls f !! c = Some k -> absc (set_qc q k) = absc k -> cok (m_lock f) c (set_qc q k) -> sim (cgoto c q f) s.
Proof.
  intros S Hk Ha Hok. pose proof (sim_call f s c k q (m_lock f) (m_depth f) S Hk Ha ltac:(by left) Hok) as H.
  by rewrite lock_same, depth_same in H.
Qed.
(** Both move on. *)
Lemma sim_both f s c k q st : sim f s -> m_calls f !! c = Some k -> absc (set_qc q k) = st -> cok (m_lock f) c (set_qc q k) -> sim (cgoto c q f) (upd_call c (set_cst st) s).
Proof.
  intros S Hk Ha Hok. destruct S. constructor; simpl; try done.
  - apply Forall2_alter; [done|]. intros k' cl Hk' _ (H1 & H2 & H3 & H4 & H5 & H6). rewrite Hk in Hk'. injection Hk' as <-. by repeat (split; [done|]).
  - intros c' k' cl i Hk' Hc Hn.
    assert (Hk2 : exists k2, m_calls f !! c' = Some k2 /\ k_errs k' = k_errs k2) by (apply list_alter_inv in Hk' as [(-> & k1 & Hk' & ->)|(Hne & Hk')]; by eexists).
    assert (Hc2 : exists cl', s_calls s !! c' = Some cl' /\ c_errs cl = c_errs cl') by (apply list_alter_inv in Hc as [(-> & k1 & Hc & ->)|(Hne & Hc)]; by eexists).
    destruct Hk2 as (k2 & Hk2 & ->). destruct Hc2 as (cl' & Hc2 & ->). by apply (r_errs c' k2 cl' i).
  - intros c' k' Hk'. apply list_alter_inv in Hk' as [(-> & k1 & Hk' & ->)|(Hne & Hk')]; [by rewrite Hk in Hk'; injection Hk' as <-|]. by apply r_cok.
Qed.
Lemma sim_reject f s c i e k : sim f s -> m_calls f !! c = Some k -> k_targets k <> [] -> (exists j l, k_pc k = QLoop j l) -> sim (f_reject c i e f) (reject c i e s).
Proof.
  intros S Hk Ht (j & l & Hq). apply (sim_emit _ _ (EvRej c i e)) in S. revert S Hk.
  change (m_calls f) with (m_calls (f_emit (EvRej c i e) f)). unfold f_reject, reject.
  generalize (f_emit (EvRej c i e) f), (emit (EvRej c i e) s). clear f s. intros f s S Hk. destruct S. constructor; simpl; try done.
  - apply Forall2_alter; [done|]. intros k' cl Hk' _ (H1 & H2 & H3 & H4 & H5 & H6). repeat (split; [done|]). simpl. by rewrite !insert_length.
  - intros c' k' cl i' Hk' Hc Hn. apply list_alter_inv in Hk' as [(-> & k1 & Hk' & ->)|(Hne & Hk')].
    + rewrite Hk in Hk'. injection Hk' as <-. apply list_alter_inv in Hc as [(_ & cl1 & Hc & ->)|(Hne & Hc)]; [|done]. simpl.
      destruct (Forall2_lookup_lr _ _ _ _ _ _ r_calls Hk Hc) as (_ & _ & _ & _ & Hlen & _).
      destruct (decide (i' = i)) as [->|Hni].
      * destruct (decide (i < length (k_errs k))) as [Hl|Hl]; [by rewrite !list_lookup_insert by lia|]. rewrite !list_insert_ge by lia. by apply (r_errs _ _ _ _ Hk Hc).
      * rewrite !list_lookup_insert_ne by done. by apply (r_errs _ _ _ _ Hk Hc).
    + apply list_alter_inv in Hc as [(-> & cl1 & Hc & ->)|(_ & Hc)]; [done|]. by apply (r_errs _ _ _ _ Hk' Hc).
  - intros c' k' Hk'. apply list_alter_inv in Hk' as [(-> & k1 & Hk' & ->)|(Hne & Hk')]; [|by apply r_cok]. rewrite Hk in Hk'. injection Hk' as <-.
    unfold cok. simpl. by rewrite Hq.
Qed.
Lemma lookup_snoc {A} (l : list A) (x y : A) j : (l ++ [x]) !! j = Some y -> (j = length l /\ y = x) \/ l !! j = Some y.
Proof. intros H. destruct (list_snoc_inv _ _ _ _ H) as [H'|[_ H']]; [by left|by right]. Qed.
Lemma sim_spawn f s c i a o cx k : sim f s -> m_calls f !! c = Some k -> k_targets k <> [] -> (exists j l, k_pc k = QLoop j l) -> sim (f_spawn c i a o cx f) (spawn c i a o cx s).
Proof.
  intros S Hk Ht (j & l & Hq). apply (sim_emit _ _ (EvReq c i a o)) in S. revert S Hk.
  change (m_calls f) with (m_calls (f_emit (EvReq c i a o) f)). unfold f_spawn, spawn.
  generalize (f_emit (EvReq c i a o) f), (emit (EvReq c i a o) s). clear f s. intros f s S Hk. destruct S. constructor; simpl; try done.
  - by rewrite fmap_app, r_gors.
  - apply Forall2_alter; [done|]. intros k' cl Hk' _ (H1 & H2 & H3 & H4 & H5 & H6). repeat (split; [done|]). simpl. by rewrite H4.
  - intros c' k' cl i' Hk' Hc Hn.
    assert (Hk2 : exists k2, m_calls f !! c' = Some k2 /\ k_errs k' = k_errs k2) by (apply list_alter_inv in Hk' as [(-> & k1 & Hk' & ->)|(Hne & Hk')]; by eexists).
    assert (Hc2 : exists cl', s_calls s !! c' = Some cl' /\ c_errs cl = c_errs cl') by (apply list_alter_inv in Hc as [(-> & k1 & Hc & ->)|(Hne & Hc)]; by eexists).
    destruct Hk2 as (k2 & Hk2 & ->). destruct Hc2 as (cl' & Hc2 & ->). apply (r_errs c' k2 cl' i'); [done|done|].
    intros g h Hg. apply (Hn g h). by apply lookup_app_l_Some.
  - intros g h Hg. apply lookup_snoc in Hg as [(_ & ->)|Hg]; [done|]. by apply r_gok.
  - intros c' k' Hk'. apply list_alter_inv in Hk' as [(-> & k1 & Hk' & ->)|(Hne & Hk')]; [|by apply r_cok]. rewrite Hk in Hk'. injection Hk' as <-.
    unfold cok. simpl. by rewrite Hq.
  - intros g1 g2 h1 h2 H1 H2 P1 P2 E. apply lookup_snoc in H1 as [(_ & ->)|H1]; [done|]. apply lookup_snoc in H2 as [(_ & ->)|H2]; [done|]. by eapply r_pre.
Qed.
Lemma join_replicate_nil : join (replicate 0 None) = None.
Proof. done. Qed.
Lemma sim_begin w f s p cx ts : reachable w s -> sim f s -> sim (f_begin p cx ts f) (begin_call p cx ts s).
Proof.
  intros Hr S. pose proof (call_len _ _ S) as Hlen. assert (Hb : begin_call p cx ts s = set_depth (fun d => if decide (ts = []) then d else (d + 1)%Z)
    (set_calls (fun cs => cs ++ [{| c_parent := p; c_cx := cx; c_targets := ts; c_errs := replicate (length ts) None; c_wg := 0; c_st := CLoop 0 ts |}])
       (emit (EvCall (length (m_calls f)) p cx ts) s))).
  { unfold begin_call. rewrite Hlen. by destruct (decide (ts = [])). }
  rewrite Hb. apply sim_depth. apply (sim_emit _ _ (EvCall (length (m_calls f)) p cx ts)) in S. revert S. unfold f_begin.
  assert (Hne : forall c k i, (m_calls f ++ [k]) !! c = Some i -> True) by done. clear Hne Hb.
  assert (Hl : length (s_calls (emit (EvCall (length (m_calls f)) p cx ts) s)) = length (m_calls (f_emit (EvCall (length (m_calls f)) p cx ts) f))) by done.
  revert Hl. generalize (f_emit (EvCall (length (m_calls f)) p cx ts) f), (emit (EvCall (length (m_calls f)) p cx ts) s). clear f s Hr Hlen. intros f s Hl S.
  destruct S. constructor; simpl; try done.
  - apply Forall2_app; [done|]. constructor; [|constructor]. repeat (split; [done|]). simpl. destruct (decide (ts = [])) as [->|Hn]; [done|].
    unfold absc. done.
  - intros c k cl i Hk Hc Hn. apply list_snoc_inv in Hk as [(-> & ->)|(Hk1 & Hk)]; apply list_snoc_inv in Hc as [(E & ->)|(Hc1 & Hc)]; try done; try lia. by eapply r_errs.
  - intros c k Hk. apply lookup_snoc in Hk as [(-> & ->)|Hk]; [|by apply r_cok]. unfold cok. simpl. by destruct (decide (ts = [])) as [->|].
Qed.

(** A call whose wait group is at zero has its results in both machines. *)
Lemma errs_equal w f s c k cl : reachable w s -> sim f s -> m_calls f !! c = Some k -> s_calls s !! c = Some cl -> k_wg k = 0 -> c_errs cl = k_errs k.
Proof.
  intros Hr S Hk Hc Hw. symmetry. apply list_eq. intros i. apply (r_errs _ _ S c k cl i Hk Hc). intros g h Hg E _.
  destruct (is_ret (h_pc h)) eqn:Ei; [|done]. exfalso. subst c. apply (wg_pos w f s g h k Hr S Hg); [|done|done]. by destruct (h_pc h).
Qed.
Lemma upd_twice c (a b : cstate) ev s : upd_call c (set_cst a) (emit ev (upd_call c (set_cst b) s)) = upd_call c (set_cst a) (emit ev s).
Proof. unfold upd_call, set_calls, emit. simpl. f_equal. rewrite <-list_alter_compose. done. Qed.

(** Executions without steps of clients. *)
Definition irun (w : world) (s : state) (sched : list choice) (s' : state) : Prop := run w s sched = Some s' /\ Forall internal sched.
Lemma irun0 w s : irun w s [] s.
Proof. split; [done|constructor]. Qed.
Lemma irun1 w s ch s' : step w s ch = Some s' -> internal ch -> irun w s [ch] s'.
Proof. intros H Hi. split; [simpl; by rewrite H|by repeat constructor]. Qed.
Lemma irun_app w s l1 s1 l2 s2 : irun w s l1 s1 -> irun w s1 l2 s2 -> irun w s (l1 ++ l2) s2.
Proof. intros [H1 F1] [H2 F2]. split; [rewrite (run_app w s l1 l2), H1; exact H2|by apply Forall_app]. Qed.

(** Return of Run. *)
Lemma sim_return w f s c k e f' : reachable w s -> sim f s -> m_calls f !! c = Some k -> k_pc k = QRet e -> f_call w c f = Some f' ->
  exists sched s', irun w s sched s' /\ sim f' s'.
Proof.
  intros Hr S Hk Hq Hf. destruct (call_of _ _ _ _ S Hk) as (cl & Hc & (R1 & R2 & R3 & R4 & R5 & R6)).
  pose proof (r_cok _ _ S _ _ Hk) as Hok. unfold cok in Hok. rewrite Hq in Hok. destruct Hok as [Hw He].
  pose proof (errs_equal w f s c k cl Hr S Hk Hc Hw) as Herr.
  assert (Hd : sim (cgoto c (QDone e) (f_emit (EvRet c (k_parent k) e) f)) (upd_call c (set_cst (CReturned e)) (emit (EvRet c (k_parent k) e) s))).
  { apply (sim_both _ _ c k); [by apply sim_emit|done|done|done]. }
  unfold f_call in Hf. rewrite Hk in Hf. simpl in Hf. rewrite Hq in Hf.
  (* the state of RunnerModel.v before the return *)
  set (s0 := if decide (k_targets k = []) then upd_call c (set_cst CWaiting) s else s).
  assert (H0 : exists sc, irun w s sc s0).
  { unfold s0. destruct (decide (k_targets k = [])) as [E|E]; [|exists []; apply irun0]. exists [ChLoop c]. apply irun1; [|done]. simpl. unfold step_loop. rewrite Hc. simpl.
    rewrite R6. unfold absc. rewrite Hq. by rewrite decide_True. }
  destruct H0 as (sc & Hsc). set (cl0 := set_cst CWaiting cl).
  assert (Hc0 : s_calls s0 !! c = Some cl0).
  { unfold s0, cl0. destruct (decide (k_targets k = [])) as [E|E]; simpl; [by rewrite list_lookup_alter, Hc|]. rewrite Hc. f_equal.
    unfold absc in R6. rewrite Hq, decide_False in R6 by done. destruct cl. simpl in *. by rewrite R6. }
  assert (Hu : upd_call c (set_cst (CReturned e)) (emit (EvRet c (k_parent k) e) s0) = upd_call c (set_cst (CReturned e)) (emit (EvRet c (k_parent k) e) s)).
  { unfold s0. destruct (decide (k_targets k = [])); [apply upd_twice|done]. }
  assert (Hst : step w s0 (ChReturn c) =
     let s2 := (if decide (k_targets k = []) then id else dec_depth) (upd_call c (set_cst (CReturned e)) (emit (EvRet c (k_parent k) e) s)) in
     match k_parent k with
     | None => Some s2
     | Some g => gr ← s_gors s2 !! g;
         match g_st gr with GCalling c' kk => if decide (c' = c) then Some (upd_gor g (GBody (kk e)) s2) else None | _ => None end
     end).
  { simpl. unfold step_return. rewrite Hc0. simpl. rewrite R4, Hw, R1, R3, Herr, <-He, Hu. by destruct (decide (k_targets k = [])). }
  assert (Hd2 : sim (cgoto c (QDone e) (f_emit (EvRet c (k_parent k) e) f))
     ((if decide (k_targets k = []) then id else dec_depth) (upd_call c (set_cst (CReturned e)) (emit (EvRet c (k_parent k) e) s)))).
  { destruct (decide (k_targets k = [])); [exact Hd|by apply sim_depth]. }
  revert Hst Hd2. set (s2 := (if decide (k_targets k = []) then id else dec_depth) _). intros Hst Hd2. cbv zeta in Hst.
  destruct (k_parent k) as [g|].
  - destruct (m_gors f !! g) as [h|] eqn:Hg; simpl in Hf; [|done]. destruct (h_pc h) as [| | | | | | | | | | | | | |c' kk| | | | | | |] eqn:Hp; try done.
    destruct (decide (c' = c)) as [->|]; [|done]. injection Hf as <-.
    assert (Hg2 : s_gors s2 !! g = Some (absg h)) by (by apply (gor_of (cgoto c (QDone e) (f_emit (EvRet c (Some g) e) f)))).
    rewrite Hg2 in Hst. simpl in Hst. rewrite Hp in Hst. simpl in Hst. rewrite decide_True in Hst by done.
    exists (sc ++ [ChReturn c]), (upd_gor g (GBody (kk e)) s2). split; [eapply irun_app; [exact Hsc|]; apply irun1; [simpl; simpl in Hst; by rewrite Hst|done]|].
    apply (sim_goto _ _ g h (PBody (kk e))); [done|done|by rewrite Hp|left; by eexists].
  - injection Hf as <-. exists (sc ++ [ChReturn c]), s2. split; [eapply irun_app; [exact Hsc|]; apply irun1; [simpl; simpl in Hst; by rewrite Hst|done]|done].
Qed.

(** ** Every step. *)
Lemma sim_step_call w f s c f' : reachable w s -> sim f s -> f_call w c f = Some f' -> exists sched s', irun w s sched s' /\ sim f' s'.
Proof.
  intros Hr S Hf. pose proof Hf as Hf0. unfold f_call in Hf. destruct (m_calls f !! c) as [k|] eqn:Hk; simpl in Hf; [|done].
  pose proof (r_cok _ _ S _ _ Hk) as Hok. unfold cok in Hok.
  destruct (call_of _ _ _ _ S Hk) as (cl & Hc & (R1 & R2 & R3 & R4 & R5 & R6)). unfold absc in R6.
  destruct (k_pc k) as [| |d| |i todo| |acc|e|e|e d|e|e|e] eqn:Hq.
  - destruct (m_lock f) eqn:El; [done|]. injection Hf as <-. exists [], s. split; [apply irun0|].
    pose proof (sim_call f s c k QIncL (Some (WCall c)) (m_depth f) S Hk) as H. rewrite depth_same in H by done. apply H; [unfold absc; by rewrite Hq|right; left; done|done].
  - injection Hf as <-. exists [], s. split; [apply irun0|]. apply (sim_call0 f s c k); [done|done|unfold absc; by rewrite Hq|done].
  - injection Hf as <-. exists [], s. split; [apply irun0|]. pose proof (sim_call f s c k QIncU (m_lock f) (d + 1)%Z S Hk) as H. rewrite lock_same in H by done.
    apply H; [unfold absc; by rewrite Hq|by left|done].
  - injection Hf as <-. exists [], s. split; [apply irun0|]. destruct Hok as [Ht Hl].
    pose proof (sim_call f s c k (QLoop 0 (k_targets k)) None (m_depth f) S Hk) as H. rewrite depth_same in H by done. apply H; [unfold absc; by rewrite Hq|right; right; done|done].
  - destruct todo as [|t todo].
    + injection Hf as <-. exists [ChLoop c], (upd_call c (set_cst CWaiting) s). split; [apply irun1; [simpl; unfold step_loop; rewrite Hc; simpl; by rewrite R6|done]|].
      by apply (sim_both f s c k).
    + exists [ChLoop c]. eexists. split; [apply irun1; [simpl; unfold step_loop; rewrite Hc; simpl; rewrite R6, R2; reflexivity|done]|].
      assert (S1 : sim (cgoto c (QLoop (Datatypes.S i) todo) f) (upd_call c (set_cst (CLoop (Datatypes.S i) todo)) s)) by by apply (sim_both f s c k).
      assert (Hk1 : m_calls (cgoto c (QLoop (Datatypes.S i) todo) f) !! c = Some (set_qc (QLoop (Datatypes.S i) todo) k)) by (simpl; by rewrite list_lookup_alter, Hk).
      revert S1 Hk1 Hf. generalize (cgoto c (QLoop (Datatypes.S i) todo) f), (upd_call c (set_cst (CLoop (Datatypes.S i) todo)) s). intros f1 s1 S1 Hk1 Hf.
      unfold f_iter in Hf. unfold loop_iter. destruct t as [o|].
      * destruct (w_deferred w o) as [name|] eqn:Ed.
        -- destruct (m_lock f1); [done|]. rewrite (resolve_same w f1 s1 o S1). destruct (f_resolve w o f1) as [ca res] eqn:Eres. destruct res as [e|o'] eqn:Ers.
           ++ injection Hf as <-. assert (Hca : ca = m_cache f1).
              { unfold f_resolve in Eres. destruct (m_cache f1 !! o); [done|]. rewrite Ed in Eres. destruct (m_reg f1 !! name); [done|]. by injection Eres. }
              rewrite Hca, <-(r_cache _ _ S1), with_same. apply (sim_reject _ _ _ _ _ _ S1 Hk1); [done|by eexists _, _].
           ++ injection Hf as <-. apply (sim_spawn _ _ _ _ _ _ _ (set_qc (QLoop (Datatypes.S i) todo) k)); [by apply sim_cache|done|done|by eexists _, _].
        -- injection Hf as <-. by apply (sim_spawn _ _ _ _ _ _ _ _ S1 Hk1); [|by eexists _, _].
      * injection Hf as <-. by apply (sim_reject _ _ _ _ _ _ S1 Hk1); [|by eexists _, _].
  - destruct (k_wg k) eqn:Hw; [|done]. injection Hf as <-. exists [], s. split; [apply irun0|].
    apply (sim_call0 f s c k); [done|done|unfold absc; by rewrite Hq|done].
  - destruct Hok as (Ht & Hw & Ha). exists [], s. split; [apply irun0|]. destruct (k_errs k !! length acc) as [e|] eqn:Ee; injection Hf as <-; (apply (sim_call0 f s c k); [done|done|unfold absc; by rewrite Hq|]).
    + unfold cok. simpl. split; [done|]. split; [done|]. rewrite app_length. simpl. rewrite Nat.add_1_r. rewrite (take_S_r _ _ _ Ee). by rewrite <-Ha.
    + unfold cok. simpl. split; [done|]. split; [done|]. f_equal. rewrite Ha. apply take_ge. by apply lookup_ge_None.
  - destruct (m_lock f) eqn:El; [done|]. injection Hf as <-. exists [], s. split; [apply irun0|]. destruct Hok as (H1 & H2 & H3).
    pose proof (sim_call f s c k (QDecL e) (Some (WCall c)) (m_depth f) S Hk) as H. rewrite depth_same in H by done. apply H; [unfold absc; by rewrite Hq|right; left; done|done].
  - injection Hf as <-. exists [], s. split; [apply irun0|]. apply (sim_call0 f s c k); [done|done|unfold absc; by rewrite Hq|done].
  - injection Hf as <-. exists [], s. split; [apply irun0|].
    match goal with |- sim (cgoto _ _ (f_depth ?d0 _)) _ => pose proof (sim_call f s c k (QDecU e) (m_lock f) d0 S Hk) as H end. rewrite lock_same in H by done. apply H; [unfold absc; by rewrite Hq|by left|done].
  - injection Hf as <-. exists [], s. split; [apply irun0|]. destruct Hok as (H1 & H2 & H3 & H4).
    pose proof (sim_call f s c k (QRet e) None (m_depth f) S Hk) as H. rewrite depth_same in H by done. apply H; [unfold absc; simpl; rewrite Hq; by rewrite decide_False|right; right; done|done].
  - by eapply sim_return.
  - done.
Qed.

Lemma stutter0 f s g h p : sim f s -> m_gors f !! g = Some h -> absp p = absp (h_pc h) -> is_ret (h_pc h) = false -> is_ret p = false -> (pre p = true -> pre (h_pc h) = true) ->
  gok (m_lock f) (m_ran f !! h_key h) (s_ran s !! h_key h) g p -> sim (goto g p f) s.
Proof.
  intros S Hg H1 H2 H3 H4 H5. pose proof (sim_stutter f s g h p (m_lock f) (m_ran f) S Hg H1 H2 H3 H4 ltac:(by left) (fun a => same_refl (m_ran f !! a)) H5) as H.
  rewrite lock_same in H by done. by destruct f.
Qed.
Lemma stutter_lock f s g h p l : sim f s -> m_gors f !! g = Some h -> absp p = absp (h_pc h) -> is_ret (h_pc h) = false -> is_ret p = false -> (pre p = true -> pre (h_pc h) = true) ->
  lockstep (m_lock f) l (WGo g) -> gok l (m_ran f !! h_key h) (s_ran s !! h_key h) g p -> sim (goto g p (f_lock l f)) s.
Proof.
  intros S Hg H1 H2 H3 H4 Hl H5. pose proof (sim_stutter f s g h p l (m_ran f) S Hg H1 H2 H3 H4 Hl (fun a => same_refl (m_ran f !! a)) H5) as H. by destruct f.
Qed.
Lemma stutter_gate f s g h p z : sim f s -> m_gors f !! g = Some h -> absp p = absp (h_pc h) -> is_ret (h_pc h) = false -> is_ret p = false -> (pre p = true -> pre (h_pc h) = true) ->
  (forall o, fo_open (z o) = fo_open o /\ fo_err (z o) = fo_err o) ->
  gok (m_lock f) (m_ran f !! h_key h) (s_ran s !! h_key h) g p -> sim (goto g p (on_outcome (h_key h) z f)) s.
Proof.
  intros S Hg H1 H2 H3 H4 Hz H5. pose proof (sim_stutter f s g h p (m_lock f) (alter z (h_key h) (m_ran f)) S Hg H1 H2 H3 H4 ltac:(by left)) as H.
  rewrite lock_same in H by done. apply H; [intros a; by apply same_alter|]. eapply gok_same; [by apply same_alter|done].
Qed.

Lemma sim_step_go w f s g r f' : reachable w s -> sim f s -> f_go w g r f = Some f' -> exists sched s', irun w s sched s' /\ sim f' s'.
Proof.
  intros Hr S Hf. unfold f_go in Hf. destruct (m_gors f !! g) as [h|] eqn:Hg; simpl in Hf; [|done].
  pose proof (r_gok _ _ S _ _ Hg) as Hok. assert (Hone : forall s', step w s (ChGo g r) = Some s' -> irun w s [ChGo g r] s') by (intros s' E; by apply irun1).
  destruct (h_pc h) as [| | | | | | | | | | |e| |p|c k|e|e| | | | |] eqn:Hp; simpl in Hok.
  - destruct (m_lock f) eqn:El; [done|]. injection Hf as <-. exists [], s. split; [apply irun0|]. apply (stutter_lock f s g h); rewrite ?Hp; try done. right; left; done.
  - injection Hf as <-. exists [], s. split; [apply irun0|]. destruct (m_ran f !! h_key h) as [o|] eqn:Er; apply (stutter0 f s g h); rewrite ?Hp, ?Er; try done; simpl; rewrite ?Er; done.
  - injection Hf as <-. exists [], s. split; [apply irun0|]. by apply sim_insert.
  - injection Hf as <-. exists [], s. split; [apply irun0|]. destruct Hok as (H1 & H2 & H3). apply (stutter_lock f s g h); rewrite ?Hp; try done. right; right; done.
  - injection Hf as <-. exists [], s. split; [apply irun0|]. destruct Hok as (H1 & H2). apply (stutter_lock f s g h); rewrite ?Hp; try done. right; right; done.
  - destruct (m_ran f !! h_key h) as [o|] eqn:Er; simpl in Hf; [|done]. destruct (fo_lock o); [done|]. injection Hf as <-. exists [], s. split; [apply irun0|].
    apply (stutter_gate f s g h); rewrite ?Hp; try done. simpl. by rewrite Er.
  - destruct (m_ran f !! h_key h) as [o|] eqn:Er; simpl in Hf; [|done]. injection Hf as <-. exists [], s. split; [apply irun0|].
    destruct (fo_open o) eqn:Eo; apply (stutter0 f s g h); rewrite ?Hp; try done; simpl; rewrite Er; [by exists o|done].
  - injection Hf as <-. exists [], s. split; [apply irun0|]. apply (stutter_gate f s g h); rewrite ?Hp; done.
  - destruct (m_ran f !! h_key h) as [o|] eqn:Er; simpl in Hf; [|done]. destruct (fo_lock o); [done|]. injection Hf as <-. exists [], s. split; [apply irun0|].
    apply (stutter_gate f s g h); rewrite ?Hp; try done. simpl. by rewrite Er.
  - injection Hf as <-. exists [], s. split; [apply irun0|]. apply (stutter_gate f s g h); rewrite ?Hp; done.
  - destruct (m_ran f !! h_key h) as [o|] eqn:Er; simpl in Hf; [|done]. injection Hf as <-. exists [], s. split; [apply irun0|].
    destruct Hok as (fo & E & Ho). injection E as <-. apply (stutter0 f s g h); rewrite ?Hp; try done. simpl. rewrite Er. by exists o.
  - injection Hf as <-. destruct (sim_got w f s g r h e Hr S Hg Hp) as (s1 & s2 & H1 & H2 & H3). exists [ChGo g r; ChGo g r], s2. split; [|done].
    apply (irun_app w s [ChGo g r] s1 [ChGo g r] s2); by apply irun1.
  - injection Hf as <-. destruct (sim_start w f s g r h S Hg Hp) as (s1 & H1 & H2). exists [ChGo g r], s1. split; [by apply Hone|done].
  - destruct p as [e|cx ts k|d k|l k].
    + injection Hf as <-. destruct (sim_end w f s g r h e Hr S Hg Hp) as (s1 & H1 & H2). exists [ChGo g r], s1. split; [by apply Hone|done].
    + injection Hf as <-. eexists [ChGo g r], _. split.
      { apply Hone. simpl. unfold step_go. rewrite (gor_of _ _ _ _ S Hg). simpl. rewrite Hp. simpl. reflexivity. }
      rewrite <-(call_len _ _ S). apply (sim_goto _ _ g h (PCalling (length (s_calls s)) k)); [by apply sim_begin with w|done|by rewrite Hp|right; by eexists _, _].
    + destruct (m_lock f) eqn:El; [done|]. destruct (f_resolve w d f) as [ca res] eqn:Er. injection Hf as <-. eexists [ChGo g r], _. split.
      { apply Hone. simpl. unfold step_go. rewrite (gor_of _ _ _ _ S Hg). simpl. rewrite Hp. simpl. rewrite (resolve_same w f s d S), Er. reflexivity. }
      by eapply sim_body.
    + injection Hf as <-. eexists [ChGo g r], _. split.
      { apply Hone. simpl. unfold step_go. rewrite (gor_of _ _ _ _ S Hg). simpl. rewrite Hp. simpl. reflexivity. }
      pose proof (sim_body f s g h (Eff l k) (k r) (EvEff g l r) (m_cache f) S Hg Hp) as H. rewrite <-(r_cache _ _ S), with_same in H.
      rewrite (r_cache _ _ S) in H. by destruct f.
  - done.
  - injection Hf as <-. exists [], s. split; [apply irun0|]. by apply sim_ret with w.
  - injection Hf as <-. exists [], s. split; [apply irun0|]. by apply sim_err with w.
  - destruct (m_ran f !! h_key h) as [o|] eqn:Er; simpl in Hf; [|done]. destruct (fo_lock o); [done|]. injection Hf as <-. exists [], s. split; [apply irun0|].
    apply (stutter_gate f s g h); rewrite ?Hp; try done. simpl. by rewrite Er.
  - injection Hf as <-. destruct (sim_open w f s g r h Hr S Hg Hp) as (s1 & H1 & H2). exists [ChGo g r], s1. split; [by apply Hone|done].
  - injection Hf as <-. exists [], s. split; [apply irun0|]. apply (stutter_gate f s g h); rewrite ?Hp; done.
  - injection Hf as <-. destruct (sim_exit w f s g r h Hr S Hg Hp) as (s1 & H1 & H2). exists [ChGo g r], s1. split; [by apply Hone|done].
  - done.
Qed.
Lemma sim_step w f s ch f' : reachable w s -> sim f s -> fstep w f ch = Some f' -> exists sched s', run w s sched = Some s' /\ sim f' s'.
Proof.
  intros Hr S Hf. destruct ch as [cx ts|name o|c|g r]; simpl in Hf.
  - injection Hf as <-. exists [ChRun cx ts], (begin_call None cx ts s). split; [done|]. by apply sim_begin with w.
  - destruct (m_lock f); [done|]. injection Hf as <-. exists [ChRegister name o]. eexists. split; [reflexivity|]. apply sim_reg. by apply sim_emit.
  - destruct (sim_step_call w f s c f' Hr S Hf) as (sc & s' & [H _] & S'). by exists sc, s'.
  - destruct (sim_step_go w f s g r f' Hr S Hf) as (sc & s' & [H _] & S'). by exists sc, s'.
Qed.
Lemma sim_init : sim finit init.
Proof. constructor; simpl; try done. Qed.
Lemma sim_run w sched f : frun w finit sched = Some f -> exists s, reachable w s /\ sim f s.
Proof.
  assert (H : forall sched f0 s0, reachable w s0 -> sim f0 s0 -> frun w f0 sched = Some f -> exists s, reachable w s /\ sim f s).
  { clear sched. intros sched. induction sched as [|ch sched IH]; intros f0 s0 Hr S Hf; simpl in Hf; [injection Hf as <-; by exists s0|].
    destruct (fstep w f0 ch) as [f1|] eqn:E; simpl in Hf; [|done]. destruct (sim_step w f0 s0 ch f1 Hr S E) as (sc & s1 & Hs & S1).
    apply (IH f1 s1); [|done|done]. destruct Hr as (l & Hl). exists (l ++ sc). by rewrite run_app, Hl. }
  intros Hf. apply (H sched finit init); [by exists []|exact sim_init|exact Hf].
Qed.
Lemma fine_refines w sched f : frun w finit sched = Some f -> trace w (m_log f).
Proof. intros Hf. destruct (sim_run w sched f Hf) as (s & (l & Hl) & S). exists l, s. split; [done|]. apply (r_log _ _ S). Qed.
