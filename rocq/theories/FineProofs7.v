(** From every reachable state of FineModel.v all calls can return. *)
From stdpp Require Import base gmap list strings list_numbers.
From Verif Require Import ContextModel RunnerModel RunnerSteps RunnerInv RunnerInv2 RunnerInv3 RunnerSpec RunnerSpec2 RunnerProgress RunnerTerm.
From Verif Require Import FineModel FineSpec FineProofs FineProofs2 FineProofs3 FineProofs5 FineProofs6.
Local Open Scope list_scope.

(** How many steps that the coarse machine does not see are ahead at most. *)
Definition rank (op : bool) (p : gpc) : nat :=
  match p with
  | PStart => 30 | PLocked => 29 | PAbsent => 28 | PInserted => 27 | PPresent => 28 | PWait => 20
  | PClosed => if op then 21 else 18 | PAsleep => if op then 20 else 17 | PTest => 19 | PWoken => 18 | PRead => 17
  | PRet _ => 10 | PErr _ => 9 | PSet => 8 | PSetU => 5 | _ => 0
  end.
Definition rankc (k : fcall) : nat :=
  match k_pc k with
  | QInc => 10 | QIncL => 9 | QIncV _ => 8 | QIncU => 7 | QLoop _ _ => 0
  | QWait => 30 + length (k_errs k) | QJoin acc => 20 + (length (k_errs k) - length acc)
  | QDec _ => 10 | QDecL _ => 9 | QDecV _ _ => 8 | QDecU _ => 7 | QRet _ => 0 | QDone _ => 0
  end.
Definition mu (f : fstate) : nat := sum_list_with (fun h => rank (gate_open f (h_key h)) (h_pc h)) (m_gors f) + sum_list_with rankc (m_calls f).

Lemma sum_alter {A} (F : A -> nat) z i (l : list A) x : l !! i = Some x -> sum_list_with F (alter z i l) + F x = sum_list_with F l + F (z x).
Proof. revert i. induction l as [|y l IH]; intros [|i] Hx; simpl in *; [done|done|injection Hx as ->; lia|]. specialize (IH _ Hx). unfold alter in IH. lia. Qed.
Lemma sum_same {A} (F : A -> nat) z i (l : list A) : (forall x, F (z x) = F x) -> sum_list_with F (alter z i l) = sum_list_with F l.
Proof. intros H. revert i. induction l as [|y l IH]; intros [|i]; simpl in *; [done|done|by rewrite H|]. specialize (IH i). unfold alter in IH. lia. Qed.
Lemma sum_ext {A} (F G : A -> nat) (l : list A) : (forall x, F x = G x) -> sum_list_with F l = sum_list_with G l.
Proof. intros H. induction l; simpl; auto. Qed.

Lemma mu_go f f' g h p : m_gors f !! g = Some h -> m_gors f' = alter (set_pc p) g (m_gors f) -> (forall a, gate_open f' a = gate_open f a) ->
  sum_list_with rankc (m_calls f') = sum_list_with rankc (m_calls f) -> rank (gate_open f (h_key h)) p < rank (gate_open f (h_key h)) (h_pc h) -> mu f' < mu f.
Proof.
  intros Hg Hgs Ho Hc Hr. unfold mu. rewrite Hc, Hgs. pose proof (sum_alter (fun h => rank (gate_open f (h_key h)) (h_pc h)) (set_pc p) g _ _ Hg) as H. simpl in H.
  rewrite (sum_ext (fun h => rank (gate_open f' (h_key h)) (h_pc h)) (fun h => rank (gate_open f (h_key h)) (h_pc h))) by (intros x; by rewrite Ho). lia.
Qed.
Lemma mu_call f f' c k q : m_calls f !! c = Some k -> m_calls f' = alter (set_qc q) c (m_calls f) -> m_gors f' = m_gors f -> m_ran f' = m_ran f ->
  rankc (set_qc q k) < rankc k -> mu f' < mu f.
Proof.
  intros Hk Hcs Hg Hr H. unfold mu, gate_open. rewrite Hg, Hr, Hcs. pose proof (sum_alter rankc (set_qc q) c _ _ Hk). lia.
Qed.
Lemma gate_alter f f' a z : m_ran f' = alter z a (m_ran f) -> (forall o, fo_open (z o) = fo_open o) -> forall b, gate_open f' b = gate_open f b.
Proof.
  intros Hr Hz b. unfold gate_open. rewrite Hr. destruct (decide (a = b)) as [<-|Hn]; [|by rewrite lookup_alter_ne].
  rewrite lookup_alter. destruct (m_ran f !! a); simpl; [apply Hz|done].
Qed.

Lemma useful_step w f s ch f' : reachable w s -> sim f s -> useful f ch = true -> fstep w f ch = Some f' ->
  (exists ch0 sched s', irun w s (ch0 :: sched) s' /\ sim f' s') \/ (sim f' s /\ mu f' < mu f).
Proof.
  intros Hr S Hu Hf.
  assert (Hs : exists sched s', irun w s sched s' /\ sim f' s').
  { destruct ch as [?|?|c|g r]; try done; simpl in Hf; [by eapply sim_step_call|by eapply sim_step_go]. }
  destruct Hs as ([|ch0 sched] & s' & Hrun & S'); [|left; by exists ch0, sched, s'].
  destruct Hrun as [Hrun _]. simpl in Hrun. injection Hrun as <-. right. split; [done|].
  assert (Hlog : forall ev, m_log f' <> m_log f ++ [ev]).
  { intros ev E. pose proof (r_log _ _ S) as L1. rewrite (r_log _ _ S'), E in L1. apply (f_equal length) in L1. rewrite app_length in L1. simpl in L1. lia. }
  destruct ch as [?|?|c|g r]; try done; simpl in Hf.
  - unfold f_call in Hf. destruct (m_calls f !! c) as [k|] eqn:Hk; simpl in Hf; [|done]. pose proof (r_cok _ _ S _ _ Hk) as Hok. unfold cok in Hok.
    destruct (k_pc k) as [| |d| |i todo| |acc|e|e|e d|e|e|e] eqn:Hq; try done;
      try (destruct (m_lock f) eqn:El; [done|]); try (destruct (k_wg k) eqn:Ew; [|done]); try (injection Hf as <-; eapply mu_call; [exact Hk|reflexivity|reflexivity|reflexivity|unfold rankc; rewrite Hq; simpl; lia]; fail).
    + destruct todo as [|t todo].
      * exfalso. injection Hf as <-. destruct (call_of _ _ _ _ S Hk) as (cl0 & Hc & (_ & _ & _ & _ & _ & R6)).
        assert (Hk' : m_calls (cgoto c QWait f) !! c = Some (set_qc QWait k)) by (simpl; by rewrite list_lookup_alter, Hk).
        destruct (call_of _ _ _ _ S' Hk') as (cl1 & Hc1 & (_ & _ & _ & _ & _ & R6')). rewrite Hc in Hc1. injection Hc1 as <-. unfold absc in R6, R6'. rewrite Hq in R6. simpl in R6'. congruence.
      * exfalso. unfold f_iter in Hf. destruct t as [o|]; [destruct (w_deferred w o); [simpl in Hf; destruct (m_lock f); [done|]; destruct (f_resolve _ _ _) as [ca [?|?]]|]|]; injection Hf as <-; by eapply Hlog.
    + destruct Hok as (_ & _ & Ha). assert (Hle : length acc <= length (k_errs k)) by (rewrite Ha, take_length; lia).
      destruct (k_errs k !! length acc) as [e|] eqn:Ee; injection Hf as <-; (eapply mu_call; [exact Hk|reflexivity|reflexivity|reflexivity|unfold rankc; rewrite Hq; simpl]); [|lia].
      apply lookup_lt_Some in Ee. rewrite app_length. simpl. lia.
    + exfalso. destruct (k_parent k) as [g|]; [destruct (m_gors f !! g) as [h|]; simpl in Hf; [|done]; destruct (h_pc h); try done; destruct (decide _); [|done]|]; injection Hf as <-; by eapply Hlog.
  - unfold f_go in Hf. destruct (m_gors f !! g) as [h|] eqn:Hg; simpl in Hf; [|done]. pose proof (r_gok _ _ S _ _ Hg) as Hok. simpl in Hu. rewrite Hg in Hu.
    assert (Habs : forall p, m_gors f' = alter (set_pc p) g (m_gors f) -> absp p = absp (h_pc h)).
    { intros p Ep. pose proof (r_gors _ _ S) as G1. rewrite (r_gors _ _ S'), Ep in G1. assert (E : (absg <$> alter (set_pc p) g (m_gors f)) !! g = (absg <$> m_gors f) !! g) by (by rewrite G1).
      rewrite !list_lookup_fmap, list_lookup_alter, Hg in E. simpl in E. by injection E. }
    destruct (h_pc h) as [| | | | | | | | | | |e| |p|c k|e|e| | | | |] eqn:Hp; simpl in Hok.
    14: { exfalso. destruct p as [e|cx ts k|d k|l k]; [| |destruct (m_lock f); [done|]; destruct (f_resolve w d f)|]; injection Hf as <-; by eapply Hlog. }
    all: try (destruct (m_lock f) eqn:El; [done|]); try (destruct (m_ran f !! h_key h) as [o|] eqn:Er; simpl in Hf; [|done]; try (destruct (fo_lock o) eqn:Eo; [done|])); try done;
      injection Hf as <-.
    all: try (exfalso; by eapply Hlog); try (exfalso; specialize (Habs _ eq_refl); done).
    all: try (eapply mu_go; [exact Hg|reflexivity|done|first [done|simpl; apply sum_same; intros x; unfold rankc, put_err; simpl; by rewrite insert_length]|rewrite Hp; simpl; repeat case_match; simpl; lia]; fail).
    all: try (eapply mu_go; [exact Hg|reflexivity|eapply gate_alter; [reflexivity|done]|done|rewrite Hp; unfold gate_open in *; rewrite ?Er in *; simpl; try rewrite Hu; simpl; repeat case_match; simpl; lia]; fail).
    + destruct Hok as [_ Hno]. eapply mu_go; [exact Hg|reflexivity| |done|rewrite Hp; simpl; lia]. intros a. unfold gate_open. simpl.
      destruct (decide (h_key h = a)) as [<-|Hn]; [by rewrite lookup_insert, Hno|by rewrite lookup_insert_ne].
    + eapply mu_go; [exact Hg|reflexivity|done|done|]. rewrite Hp. unfold gate_open. rewrite Er. destruct (fo_open o); simpl; lia.
Qed.

(** ** All calls can return. *)
Definition finishes (w : world) (f : fstate) : Prop := exists sched f', Forall own sched /\ frun w f sched = Some f' /\ all_returned (m_log f').
Lemma finishes_step w f ch f' : own ch -> fstep w f ch = Some f' -> finishes w f' -> finishes w f.
Proof. intros Ho Hs (sched & f2 & H1 & H2 & H3). exists (ch :: sched), f2. split; [by constructor|]. split; [simpl; by rewrite Hs|done]. Qed.
Lemma useful_own f ch : useful f ch = true -> own ch.
Proof. by destruct ch. Qed.
Lemma reached_step w f ch f' : reached w f -> fstep w f ch = Some f' -> reached w f'.
Proof.
  intros (sched & Hf) Hs. exists (sched ++ [ch]).
  assert (Ha : forall l1 l2 f0, frun w f0 (l1 ++ l2) = f1 ← frun w f0 l1; frun w f1 l2).
  { intros l1 l2. induction l1 as [|x l1 IH1]; intros f0; simpl; [done|]. destruct (fstep w f0 x); simpl; auto. }
  rewrite Ha, Hf. simpl. by rewrite Hs.
Qed.
Lemma irun_reach w sched : forall s s' tr0, irun w s sched s' -> reachable w s -> regs_in tr0 (s_log s) -> reachable w s' /\ regs_in tr0 (s_log s').
Proof.
  induction sched as [|ch sched IH]; intros s s' tr0 [Hr Hi] Hs Ht; simpl in Hr; [injection Hr as <-; done|].
  destruct (step w s ch) as [s1|] eqn:E; simpl in Hr; [|done]. inversion Hi; subst. apply (IH s1); [by split|by apply (reachable_step w s ch)|].
  eapply regs_in_step; [by apply step_tstep|done|done].
Qed.
Lemma finishes_lem w tr0 : all_finite w -> well_founded_deps w tr0 -> forall s, Acc (istep w) s -> reachable w s -> regs_in tr0 (s_log s) ->
  forall sched s', irun w s sched s' -> forall f, reached w f -> sim f s' -> finishes w f.
Proof.
  intros Hfin Hwf s Ha. induction Ha as [s _ IH]. intros Hr Ht sched s' Hrun f Hf S.
  destruct (irun_reach w sched s s' tr0 Hrun Hr Ht) as [Hr' Ht'].
  destruct sched as [|ch sched].
  - destruct Hrun as [Hrun _]. simpl in Hrun. injection Hrun as <-. remember (mu f) as n eqn:En. revert f Hf S En.
    induction (lt_wf n) as [n _ IHn]. intros f Hf S ->.
    destruct (all_returned_or _ _ Hr') as [H|(c & p & cx & ts & Hin & Hnr)]; [exists [], f; split; [constructor|]; split; [done|by rewrite <-(r_log _ _ S)]|].
    assert (Hw : well_founded_deps w (m_log f)).
    { rewrite <-(r_log _ _ S). intros a. pose proof (Hwf a) as H. induction H as [a _ IHa]. constructor. intros b Hb. apply IHa. by eapply depends_mono. }
    rewrite (r_log _ _ S) in Hin. assert (Hnr' : forall e, EvRet c p e ∉ m_log f) by (intros e; rewrite <-(r_log _ _ S); apply Hnr).
    destruct (useful_exists w f s c p cx ts Hf Hr' S Hw Hin Hnr') as (ch & f' & Hu & Hst).
    apply (finishes_step w f ch f'); [by eapply useful_own|done|]. pose proof (reached_step w f ch f' Hf Hst) as Hf'.
    destruct (useful_step w f s ch f' Hr' S Hu Hst) as [(ch0 & sched & s' & Hrun & S')|[S' Hmu]]; [|by eapply IHn].
    destruct Hrun as [Hrun Hi]. simpl in Hrun. destruct (step w s ch0) as [s1|] eqn:E; simpl in Hrun; [|done]. inversion Hi; subst.
    eapply (IH s1); [by exists ch0|by apply (reachable_step w s ch0)|eapply regs_in_step; [by apply step_tstep|done|done]|split; [exact Hrun|done]|done|done].
  - destruct Hrun as [Hrun Hi]. simpl in Hrun. destruct (step w s ch) as [s1|] eqn:E; simpl in Hrun; [|done]. inversion Hi; subst.
    eapply (IH s1); [by exists ch|by apply (reachable_step w s ch)|eapply regs_in_step; [by apply step_tstep|done|done]|split; [exact Hrun|done]|done|done].
Qed.
Lemma can_finish w f : all_finite w -> well_founded_deps w (m_log f) -> reached w f -> finishes w f.
Proof.
  intros Hfin Hwf Hf. destruct (reached_sim w f Hf) as (s & Hr & S). rewrite <-(r_log _ _ S) in Hwf.
  eapply (finishes_lem w (s_log s) Hfin Hwf s); [by apply istep_acc|done|by intros ??|apply irun0|done|done].
Qed.
