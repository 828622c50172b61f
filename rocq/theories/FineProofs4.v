(** RunnerModel.v is simulated by FineModel.v: every trace of the one is a trace of the other. *)
From stdpp Require Import base gmap list strings.
From Verif Require Import ContextModel RunnerModel RunnerSteps RunnerInv RunnerInv2 RunnerInv3 RunnerSpec FineModel FineSpec FineProofs FineProofs2 FineProofs3.
Local Open Scope list_scope.

Definition fsteps (w : world) (f f' : fstate) : Prop := exists sched, frun w f sched = Some f'.
Lemma fsteps_refl w f : fsteps w f f.
Proof. by exists []. Qed.
Lemma fsteps_cons w f ch f1 f' : fstep w f ch = Some f1 -> fsteps w f1 f' -> fsteps w f f'.
Proof. intros H (l & Hl). exists (ch :: l). simpl. by rewrite H. Qed.
Lemma fsteps_trans w f f1 f' : fsteps w f f1 -> fsteps w f1 f' -> fsteps w f f'.
Proof.
  intros (l & Hl). revert f Hl. induction l as [|ch l IH]; intros f Hl H; simpl in Hl; [by injection Hl as ->|].
  destruct (fstep w f ch) as [f0|] eqn:E; simpl in Hl; [|done]. eapply fsteps_cons; [exact E|]. by apply IH.
Qed.

(** The state in which nobody is within a critical section or about to do something that only it does. *)
Definition canp (st : gstate) : gpc :=
  match st with
  | GStart => PStart | GWait => PWait | GBody p => PBody p | GCalling c k => PCalling c k | GOpen => PSet | GExit => PExit | GDone => PEnd
  end.
Definition cang (g : gor) : fgor :=
  {| h_call := g_call g; h_idx := g_idx g; h_key := g_key g; h_obj := g_obj g; h_cx := g_cx g; h_pc := canp (g_st g) |}.
Definition canq (ts : list tref) (st : cstate) : cpc :=
  match st with
  | CReturned e => QDone e
  | CLoop i todo => if decide (ts = []) then QRet None else QLoop i todo
  | CWaiting => if decide (ts = []) then QRet None else QWait
  end.
Definition canc (c : call) : fcall :=
  {| k_parent := c_parent c; k_cx := c_cx c; k_targets := c_targets c; k_errs := c_errs c; k_wg := c_wg c; k_pc := canq (c_targets c) (c_st c) |}.
Definition cano (o : outcome) : foutcome := {| fo_err := o_err o; fo_open := o_open o; fo_lock := false |}.
Definition canon (s : state) : fstate :=
  {| m_lock := None; m_ran := cano <$> s_ran s; m_depth := s_depth s; m_reg := s_reg s; m_cache := s_cache s;
     m_calls := canc <$> s_calls s; m_gors := cang <$> s_gors s; m_log := s_log s |}.

Lemma fmap_alter {A B} (f : A -> B) (z : A -> A) (z' : B -> B) i (l : list A) : (forall x, f (z x) = z' (f x)) -> f <$> alter z i l = alter z' i (f <$> l).
Proof. intros H. revert i. induction l as [|x l IH]; intros [|i]; simpl; [done|done|by rewrite <-H|]. f_equal. apply IH. Qed.
Lemma cang_alter g st (l : list gor) : cang <$> alter (set_gst st) g l = alter (set_pc (canp st)) g (cang <$> l).
Proof. by apply fmap_alter. Qed.
Lemma pc_pc g p q (l : list fgor) : alter (set_pc p) g (alter (set_pc q) g l) = alter (set_pc p) g l.
Proof. by rewrite <-list_alter_compose. Qed.
Lemma qc_qc c p q (l : list fcall) : alter (set_qc p) c (alter (set_qc q) c l) = alter (set_qc p) c l.
Proof. by rewrite <-list_alter_compose. Qed.

Lemma cano_alter a z z' (m : gmap addr outcome) : (forall o, cano (z o) = z' (cano o)) -> cano <$> alter z a m = alter z' a (cano <$> m).
Proof.
  intros H. apply map_eq. intros b. rewrite lookup_fmap. destruct (decide (a = b)) as [->|Hn].
  - rewrite !lookup_alter, lookup_fmap. destruct (m !! b); simpl; [by rewrite H|done].
  - rewrite !lookup_alter_ne, lookup_fmap by done. done.
Qed.
Lemma fstate_eq f1 f2 : m_lock f1 = m_lock f2 -> m_ran f1 = m_ran f2 -> m_depth f1 = m_depth f2 -> m_reg f1 = m_reg f2 -> m_cache f1 = m_cache f2 ->
  m_calls f1 = m_calls f2 -> m_gors f1 = m_gors f2 -> m_log f1 = m_log f2 -> f1 = f2.
Proof. destruct f1, f2. simpl. by intros -> -> -> -> -> -> -> ->. Qed.

(** ** Goroutines. *)
Ltac fmove c := match goal with |- fsteps ?w ?f _ => eapply (fsteps_cons w f c); [cbn [fstep]; unfold f_go, f_call; simpl; rewrite ?list_lookup_alter|] end.
Lemma fsteps_eq w f f' : f = f' -> fsteps w f f'.
Proof. intros ->. apply fsteps_refl. Qed.
Ltac fend := apply fsteps_eq; apply fstate_eq.
Lemma c_begin w s p cx ts : fsteps w (f_begin p cx ts (canon s)) (canon (begin_call p cx ts s)).
Proof.
  unfold f_begin. destruct (decide (ts = [])) as [->|Hn].
  - fend; simpl; rewrite ?fmap_app, ?fmap_length; done.
  - assert (Hl : forall (l : list fcall) k, (l ++ [k]) !! length l = Some k) by (intros l k; by rewrite lookup_app_r, Nat.sub_diag by lia).
    fmove (FCall (length (canc <$> s_calls s))). { rewrite Hl. simpl. reflexivity. }
    fmove (FCall (length (canc <$> s_calls s))). { rewrite Hl. simpl. reflexivity. }
    fmove (FCall (length (canc <$> s_calls s))). { rewrite Hl. simpl. reflexivity. }
    fmove (FCall (length (canc <$> s_calls s))). { rewrite Hl. simpl. reflexivity. }
    fend; simpl; rewrite ?begin_call_ran, ?begin_call_reg, ?begin_call_cache, ?begin_call_gors, ?begin_call_log, ?begin_call_calls; try done.
    + rewrite begin_call_depth, decide_False by done. lia.
    + rewrite !qc_qc, fmap_app. simpl. rewrite alter_app_r_alt by lia. rewrite Nat.sub_diag. simpl. unfold set_qc, canc. simpl. unfold canq. by rewrite decide_False.
    + by rewrite fmap_length.
Qed.
Lemma c_go w s g r s' : reachable w s -> step_go w g r s = Some s' -> fsteps w (canon s) (canon s').
Proof.
  intros Hr Hs. unfold step_go in Hs. destruct (s_gors s !! g) as [h|] eqn:Hg; simpl in Hs; [|done].
  assert (Hcg : (cang <$> s_gors s) !! g = Some (cang h)) by (by rewrite list_lookup_fmap, Hg).
  destruct (g_st h) as [| |p|c k| | |] eqn:Est.
  - destruct (s_ran s !! g_key h) as [o|] eqn:Er; injection Hs as <-.
    + fmove (FGo g 0). { rewrite Hcg. simpl. rewrite Est. simpl. reflexivity. }
      fmove (FGo g 0). { rewrite Hcg. simpl. rewrite lookup_fmap, Er. simpl. reflexivity. }
      fmove (FGo g 0). { rewrite Hcg. simpl. reflexivity. }
      fend; simpl; rewrite ?cang_alter, ?pc_pc; done.
    + fmove (FGo g 0). { rewrite Hcg. simpl. rewrite Est. simpl. reflexivity. }
      fmove (FGo g 0). { rewrite Hcg. simpl. rewrite lookup_fmap, Er. simpl. reflexivity. }
      fmove (FGo g 0). { rewrite Hcg. simpl. reflexivity. }
      fmove (FGo g 0). { rewrite Hcg. simpl. reflexivity. }
      fmove (FGo g 0). { rewrite Hcg. simpl. reflexivity. }
      fend; simpl; rewrite ?cang_alter, ?pc_pc, ?fmap_insert; done.
  - destruct (s_ran s !! g_key h) as [o|] eqn:Er; [|done]. destruct (o_open o) eqn:Eo; [|done]. injection Hs as <-.
    fmove (FGo g 0). { rewrite Hcg. simpl. rewrite Est. simpl. rewrite lookup_fmap, Er. simpl. reflexivity. }
    fmove (FGo g 0). { rewrite Hcg. simpl. rewrite lookup_alter, lookup_fmap, Er. simpl. rewrite Eo. reflexivity. }
    fmove (FGo g 0). { rewrite Hcg. simpl. reflexivity. }
    fmove (FGo g 0). { rewrite Hcg. simpl. rewrite !lookup_alter, lookup_fmap, Er. simpl. reflexivity. }
    fmove (FGo g 0). { rewrite Hcg. simpl. reflexivity. }
    fend; simpl; rewrite ?cang_alter, ?pc_pc; try done.
    + apply map_eq. intros b. destruct (decide (b = g_key h)) as [->|Hn]; [rewrite !lookup_alter, lookup_fmap, Er; simpl; unfold cano; by rewrite Eo|].
      by rewrite !lookup_alter_ne by done.
    + symmetry. by apply fmap_alter.
  - destruct p as [e|cx ts k|d k|l k].
    + injection Hs as <-.
      fmove (FGo g 0). { rewrite Hcg. simpl. rewrite Est. simpl. reflexivity. }
      fmove (FGo g 0). { rewrite Hcg. simpl. reflexivity. }
      fmove (FGo g 0). { rewrite Hcg. simpl. reflexivity. }
      fend; simpl; rewrite ?cang_alter, ?pc_pc; try done; symmetry; [by apply cano_alter|by apply fmap_alter].
    + injection Hs as <-.
      fmove (FGo g 0). { rewrite Hcg. simpl. rewrite Est. simpl. rewrite fmap_length. reflexivity. }
      pose proof (c_begin w (upd_gor g (GCalling (length (s_calls s)) k) s) (Some g) cx ts) as H.
      match type of H with fsteps w ?a ?b => match goal with |- fsteps w ?c ?d => replace c with a; [replace d with b; [exact H|]|] end end.
      * unfold begin_call. by destruct (decide (ts = [])).
      * apply fstate_eq; try done. simpl. by rewrite cang_alter.
    + destruct (resolve w d s) as [s2 res] eqn:Eres. injection Hs as <-. unfold resolve in Eres.
      assert (Hc : exists ca, f_resolve w d (canon s) = (ca, res) /\ s2 = with_cache ca s).
      { unfold f_resolve. simpl. destruct (s_cache s !! d); [injection Eres as <- <-; eexists; by rewrite with_same|].
        destruct (w_deferred w d) as [name|]; [|injection Eres as <- <-; eexists; by rewrite with_same].
        destruct (s_reg s !! name); injection Eres as <- <-; eexists; (split; [reflexivity|]); [done|by rewrite with_same]. }
      destruct Hc as (ca & Hc & ->).
      fmove (FGo g 0). { rewrite Hcg. simpl. rewrite Est. simpl. rewrite Hc. reflexivity. }
      fend; simpl; rewrite ?cang_alter; done.
    + injection Hs as <-. fmove (FGo g r). { rewrite Hcg. simpl. rewrite Est. simpl. reflexivity. }
      fend; simpl; rewrite ?cang_alter; done.
  - done.
  - injection Hs as <-. destruct (inv_ran_holds _ _ Hr) as (H & _). specialize (H _ _ Hg). unfold st_ok in H. rewrite Est in H. destruct H as (e & Er & _).
    fmove (FGo g 0). { rewrite Hcg. simpl. rewrite Est. simpl. rewrite lookup_fmap, Er. simpl. reflexivity. }
    fmove (FGo g 0). { rewrite Hcg. simpl. reflexivity. }
    fmove (FGo g 0). { rewrite Hcg. simpl. reflexivity. }
    fend; simpl; rewrite ?cang_alter, ?pc_pc; try done.
    apply map_eq. intros b. destruct (decide (b = g_key h)) as [->|Hn]; [rewrite !lookup_alter, !lookup_fmap, lookup_alter, Er; done|].
    rewrite !lookup_alter_ne, !lookup_fmap by done. by rewrite lookup_alter_ne.
  - injection Hs as <-. fmove (FGo g 0). { rewrite Hcg. simpl. rewrite Est. simpl. reflexivity. }
    fend; simpl; rewrite ?cang_alter; try done. symmetry. by apply fmap_alter.
  - done.
Qed.

(** ** Calls. *)
Lemma c_iter w s c i t cx f1 : f1 = canon s -> s_reg s = m_reg f1 -> exists f2, f_iter w c i t cx f1 = Some f2 /\ f2 = canon (loop_iter w c i t cx s).
Proof.
  intros -> _. unfold f_iter, loop_iter. destruct t as [o|].
  - destruct (w_deferred w o) as [name|] eqn:Ed.
    + simpl. unfold f_resolve, resolve. simpl. rewrite Ed. destruct (s_cache s !! o) as [o'|] eqn:Ec; [|destruct (s_reg s !! name) as [o'|] eqn:En];
        (eexists; split; [reflexivity|]); apply fstate_eq; simpl; try done; rewrite ?fmap_app; try done; symmetry; by apply fmap_alter.
    + eexists. split; [reflexivity|]. apply fstate_eq; simpl; try done; rewrite ?fmap_app; try done. symmetry. by apply fmap_alter.
  - eexists. split; [reflexivity|]. apply fstate_eq; simpl; try done. symmetry. by apply fmap_alter.
Qed.
Lemma canc_alter c st ts (l : list call) : (forall k, l !! c = Some k -> c_targets k = ts) ->
  canc <$> alter (set_cst st) c l = alter (set_qc (canq ts st)) c (canc <$> l).
Proof.
  revert c. induction l as [|k l IH]; intros [|c] H; simpl; try done.
  - f_equal. unfold canc, set_qc. simpl. by rewrite (H k).
  - f_equal. by apply IH.
Qed.
Lemma alter_here {A} (z : A -> A) i (l : list A) : (forall x, l !! i = Some x -> z x = x) -> alter z i l = l.
Proof. revert i. induction l as [|x l IH]; intros [|i] H; simpl; [done|done|by rewrite H|]. f_equal. by apply IH. Qed.
Lemma c_loop w s c s' : reachable w s -> step_loop w c s = Some s' -> fsteps w (canon s) (canon s').
Proof.
  intros Hr Hs. unfold step_loop in Hs. destruct (s_calls s !! c) as [k|] eqn:Hk; simpl in Hs; [|done].
  assert (Hck : (canc <$> s_calls s) !! c = Some (canc k)) by (by rewrite list_lookup_fmap, Hk).
  destruct (inv_shape_holds _ _ Hr _ _ Hk) as [Hl Hd].
  assert (Ht : forall k', s_calls s !! c = Some k' -> c_targets k' = c_targets k) by (intros k' H; rewrite Hk in H; by injection H as <-).
  destruct (c_st k) as [i [|t todo]| |] eqn:Est; try done.
  - injection Hs as <-. destruct (decide (c_targets k = [])) as [E|E].
    + fend; simpl; try done. rewrite (canc_alter _ _ _ _ Ht). simpl. rewrite decide_True by done. symmetry.
      apply alter_here. intros k'. rewrite Hck. intros [= <-]. unfold canc, set_qc. simpl. rewrite Est. simpl. by rewrite decide_True.
    + fmove (FCall c). { rewrite Hck. simpl. rewrite Est. simpl. rewrite decide_False by done. simpl. reflexivity. }
      fend; simpl; try done. rewrite (canc_alter _ _ _ _ Ht). simpl. by rewrite decide_False.
  - injection Hs as <-. assert (E : c_targets k <> []) by (intros E; destruct (Hd _ _ eq_refl) as [E2 _]; rewrite E, drop_nil in E2; done).
    destruct (c_iter w (upd_call c (set_cst (CLoop (S i) todo)) s) c i t (c_cx k) _ eq_refl eq_refl) as (f2 & H2 & ->).
    fmove (FCall c). { rewrite Hck. simpl. rewrite Est. simpl. rewrite decide_False by done. simpl.
      match goal with |- f_iter _ _ _ _ _ ?a = _ => match type of H2 with f_iter _ _ _ _ _ ?b = _ => replace a with b end end; [exact H2|].
      apply fstate_eq; simpl; try done. rewrite (canc_alter _ _ _ _ Ht). simpl. by rewrite decide_False. }
    apply fsteps_refl.
Qed.
Lemma f_join w c k errs n : forall f acc, m_calls f !! c = Some k -> k_errs k = errs -> k_pc k = QJoin acc -> acc = take (length acc) errs -> n = length errs - length acc ->
  length acc <= length errs -> fsteps w f (cgoto c (QDec (join errs)) f).
Proof.
  revert k. induction n as [|n IH]; intros k f acc Hk He Hp Ha Hn Hle.
  - assert (E : acc = errs) by (rewrite Ha; apply take_ge; lia).
    eapply (fsteps_cons w f (FCall c)); [|apply fsteps_refl]. cbn [fstep]. unfold f_call. rewrite Hk. simpl. rewrite Hp, He, E.
    by rewrite lookup_ge_None_2 by lia.
  - destruct (errs !! length acc) as [e|] eqn:Ee; [|apply lookup_ge_None in Ee; lia].
    eapply (fsteps_cons w f (FCall c)). { cbn [fstep]. unfold f_call. rewrite Hk. simpl. rewrite Hp, He, Ee. reflexivity. }
    assert (Hk' : m_calls (cgoto c (QJoin (acc ++ [e])) f) !! c = Some (set_qc (QJoin (acc ++ [e])) k)) by (simpl; by rewrite list_lookup_alter, Hk).
    assert (H : fsteps w (cgoto c (QJoin (acc ++ [e])) f) (cgoto c (QDec (join errs)) (cgoto c (QJoin (acc ++ [e])) f))).
    { apply (IH _ _ (acc ++ [e]) Hk'); rewrite ?app_length; simpl; [done|done| |lia|lia]. rewrite Nat.add_1_r, (take_S_r _ _ e) by done. by f_equal. }
    replace (cgoto c (QDec (join errs)) f) with (cgoto c (QDec (join errs)) (cgoto c (QJoin (acc ++ [e])) f)); [exact H|].
    apply fstate_eq; simpl; rewrite ?qc_qc; done.
Qed.
Lemma join_nil (l : list (option err)) : length l = 0 -> join l = None.
Proof. intros H. destruct l; [done|done]. Qed.
Lemma c_return w s c s' : reachable w s -> step_return c s = Some s' -> fsteps w (canon s) (canon s').
Proof.
  intros Hr Hs. unfold step_return in Hs. destruct (s_calls s !! c) as [k|] eqn:Hk; simpl in Hs; [|done].
  assert (Hck : (canc <$> s_calls s) !! c = Some (canc k)) by (by rewrite list_lookup_fmap, Hk).
  destruct (inv_shape_holds _ _ Hr _ _ Hk) as [Hl _].
  assert (Ht : forall k', s_calls s !! c = Some k' -> c_targets k' = c_targets k) by (intros k' H; rewrite Hk in H; by injection H as <-).
  destruct (c_st k) as [| |] eqn:Est; try done. destruct (c_wg k) eqn:Hw; [|done].
  (* up to the return *)
  set (f1 := cgoto c (QRet (join (c_errs k))) (canon (if decide (c_targets k = []) then s else dec_depth s))).
  assert (H1 : fsteps w (canon s) f1).
  { unfold f1. destruct (decide (c_targets k = [])) as [E|E].
    - rewrite E in Hl. rewrite join_nil by done. fend; simpl; try done. symmetry. apply alter_here. intros k'. rewrite Hck. intros [= <-].
      unfold canc, set_qc. simpl. rewrite Est. simpl. by rewrite decide_True.
    - fmove (FCall c). { rewrite Hck. simpl. rewrite Est. simpl. rewrite decide_False by done. simpl. rewrite Hw. reflexivity. }
      eapply fsteps_trans.
      { eapply (f_join w c _ (c_errs k) _ _ []); [simpl; rewrite list_lookup_alter, Hck; reflexivity|done|done|done|reflexivity|simpl; lia]. }
      fmove (FCall c). { rewrite Hck. simpl. reflexivity. }
      fmove (FCall c). { rewrite Hck. simpl. reflexivity. }
      fmove (FCall c). { rewrite Hck. simpl. reflexivity. }
      fmove (FCall c). { rewrite Hck. simpl. reflexivity. }
      fend; simpl; rewrite ?qc_qc; done. }
  eapply fsteps_trans; [exact H1|]. clear H1.
  set (s1 := upd_call c (set_cst (CReturned (join (c_errs k)))) (emit (EvRet c (c_parent k) (join (c_errs k))) (if decide (c_targets k = []) then s else dec_depth s))).
  assert (Hs1 : (if decide (c_targets k = []) then upd_call c (set_cst (CReturned (join (c_errs k)))) (emit (EvRet c (c_parent k) (join (c_errs k))) s)
     else dec_depth (upd_call c (set_cst (CReturned (join (c_errs k)))) (emit (EvRet c (c_parent k) (join (c_errs k))) s))) = s1) by (unfold s1; by destruct (decide (c_targets k = []))).
  rewrite Hs1 in Hs. clear Hs1.
  assert (Hcalls : s_calls (if decide (c_targets k = []) then s else dec_depth s) = s_calls s) by (by destruct (decide (c_targets k = []))).
  assert (Hgors : s_gors (if decide (c_targets k = []) then s else dec_depth s) = s_gors s) by (by destruct (decide (c_targets k = []))).
  assert (Hgo : forall f', f' = f_emit (EvRet c (c_parent k) (join (c_errs k))) (cgoto c (QDone (join (c_errs k))) f1) -> f' = canon s1).
  { intros f' ->. unfold f1, s1. apply fstate_eq; simpl; rewrite ?Hcalls; try done; [by rewrite qc_qc, (canc_alter _ _ _ _ Ht)]. }
  assert (Hc1 : m_calls f1 !! c = Some (set_qc (QRet (join (c_errs k))) (canc k))) by (unfold f1; simpl; by rewrite list_lookup_alter, Hcalls, Hck).
  destruct (c_parent k) as [g|] eqn:Ep.
  - destruct (s_gors s1 !! g) as [h|] eqn:Hg; simpl in Hs; [|done]. destruct (g_st h) as [| | |c' kk| | |] eqn:Eg; try done. destruct (decide (c' = c)) as [->|]; [|done]. injection Hs as <-.
    assert (Hg1 : m_gors f1 !! g = Some (cang h)) by (unfold f1; simpl; rewrite list_lookup_fmap; unfold s1 in Hg; simpl in Hg; by rewrite Hg).
    eapply (fsteps_cons w f1 (FCall c)).
    { cbn [fstep]. unfold f_call. rewrite Hc1. simpl h_pc. cbn [mbind option_bind set_qc k_pc k_parent canc]. rewrite Ep, Hg1. cbn [mbind option_bind]. cbn [cang h_pc]. rewrite Eg. simpl canp. cbv iota. rewrite decide_True by done. reflexivity. }
    apply fsteps_eq.
    transitivity (goto g (PBody (kk (join (c_errs k)))) (canon s1)); [|apply fstate_eq; simpl; try done; by rewrite cang_alter].
    rewrite <-(Hgo _ eq_refl). apply fstate_eq; done.
  - injection Hs as <-. eapply (fsteps_cons w f1 (FCall c)).
    { cbn [fstep]. unfold f_call. rewrite Hc1. cbn [mbind option_bind set_qc k_pc k_parent canc]. rewrite Ep. reflexivity. }
    apply fsteps_eq. rewrite <-(Hgo _ eq_refl). apply fstate_eq; done.
Qed.
Lemma c_step w s ch s' : reachable w s -> step w s ch = Some s' -> fsteps w (canon s) (canon s').
Proof.
  intros Hr Hs. destruct ch as [cx ts|name o|c|c|g r]; simpl in Hs.
  - injection Hs as <-. eapply fsteps_cons with (f1 := f_begin None cx ts (canon s)); [|apply c_begin]. exact (eq_refl : fstep w (canon s) (FRun cx ts) = _).
  - injection Hs as <-. eapply (fsteps_cons w _ (FRegister name o)); [reflexivity|]. apply fsteps_eq. by apply fstate_eq.
  - by apply (c_loop w s c).
  - by apply (c_return w s c).
  - by apply (c_go w s g r).
Qed.
Lemma c_run w s : reachable w s -> fsteps w finit (canon s).
Proof.
  intros (sched & Hs). revert s Hs. induction sched as [|ch sched IH] using rev_ind; intros s Hs.
  - simpl in Hs. injection Hs as <-. exists []. simpl. f_equal. apply fstate_eq; simpl; try done; by rewrite fmap_empty.
  - rewrite run_app in Hs. destruct (run w init sched) as [s0|] eqn:E; simpl in Hs; [|done]. destruct (step w s0 ch) as [s1|] eqn:E1; simpl in Hs; [|done].
    injection Hs as <-. eapply fsteps_trans; [by apply IH|]. eapply c_step; [by exists sched|exact E1].
Qed.
Lemma fine_complete w tr : trace w tr -> exists f, reached w f /\ m_log f = tr.
Proof. intros (sched & s & Hs & <-). exists (canon s). split; [|done]. apply c_run. by exists sched. Qed.
