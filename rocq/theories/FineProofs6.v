(** Every reachable state of FineModel.v in which a call has not returned has a useful step. *)
From stdpp Require Import base gmap list strings.
From Verif Require Import ContextModel RunnerModel RunnerSteps RunnerInv RunnerInv2 RunnerInv3 RunnerInv5 RunnerSpec RunnerSpec2 RunnerProgress.
From Verif Require Import FineModel FineSpec FineProofs FineProofs2 FineProofs3 FineProofs5.
Local Open Scope list_scope.

(** Let the waiters of the coarse machine go to the gate. *)
Lemma wait_all w s (W : nat -> bool) : reachable w s ->
  (forall g gr, s_gors s !! g = Some gr -> W g = true -> g_st gr = GStart /\ is_Some (s_ran s !! g_key gr)) ->
  forall n, exists s', reachable w s' /\ s_log s' = s_log s /\ s_ran s' = s_ran s /\ s_calls s' = s_calls s /\
    forall g gr', s_gors s' !! g = Some gr' -> exists gr, s_gors s !! g = Some gr /\ gr' = if W g && bool_decide (g < n) then set_gst GWait gr else gr.
Proof.
  intros Hr HW n. induction n as [|n (s1 & H1 & H2 & H3 & H4 & H5)].
  - exists s. split_and!; try done. intros g gr Hg. exists gr. split; [done|]. rewrite bool_decide_false by lia. by rewrite andb_false_r.
  - destruct (W n) eqn:Ew.
    + destruct (s_gors s1 !! n) as [gr|] eqn:Hg.
      * destruct (H5 _ _ Hg) as (gr0 & Hg0 & Eg). rewrite bool_decide_false, andb_false_r in Eg by lia. subst gr0. destruct (HW _ _ Hg0 Ew) as [Hs (oc & Ho)].
        exists (upd_gor n GWait s1). split_and!; try done.
        { apply (reachable_step w s1 (ChGo n 0)); [done|]. simpl. unfold step_go. rewrite Hg. simpl. by rewrite Hs, H3, Ho. }
        intros g gr' Hg'. simpl in Hg'. destruct (decide (n = g)) as [<-|Hn].
        { rewrite list_lookup_alter, Hg in Hg'. injection Hg' as <-. exists gr. split; [done|]. rewrite Ew, bool_decide_true by lia. done. }
        rewrite list_lookup_alter_ne in Hg' by done. destruct (H5 _ _ Hg') as (gr1 & ? & ->). exists gr1. split; [done|].
        rewrite (bool_decide_ext (g < S n) (g < n)) by lia. done.
      * exists s1. split_and!; try done. intros g gr' Hg'. destruct (H5 _ _ Hg') as (gr1 & ? & ->). exists gr1. split; [done|].
        assert (g <> n) by (intros ->; rewrite Hg in Hg'; done). rewrite (bool_decide_ext (g < S n) (g < n)) by lia. done.
    + exists s1. split_and!; try done. intros g gr' Hg'. destruct (H5 _ _ Hg') as (gr1 & ? & ->). exists gr1. split; [done|].
      destruct (decide (g = n)) as [->|Hn]; [by rewrite Ew|]. rewrite (bool_decide_ext (g < S n) (g < n)) by lia. done.
Qed.

Lemma stuck_or_useful w f : (exists ch f', useful f ch = true /\ fstep w f ch = Some f') \/
  ((forall g h, m_gors f !! g = Some h -> useful f (FGo g 0) = true -> f_go w g 0 f = None) /\ forall c k, m_calls f !! c = Some k -> f_call w c f = None).
Proof.
  destruct (decide (Exists (fun g => useful f (FGo g 0) = true /\ is_Some (f_go w g 0 f)) (seq 0 (length (m_gors f))))) as [E|E].
  { apply Exists_exists in E as (g & _ & H & f' & H'). left. by exists (FGo g 0), f'. }
  destruct (decide (Exists (fun c => is_Some (f_call w c f)) (seq 0 (length (m_calls f))))) as [E2|E2].
  { apply Exists_exists in E2 as (c & _ & f' & H'). left. by exists (FCall c), f'. }
  right. split.
  - intros g h Hg Hu. destruct (f_go w g 0 f) eqn:Ef; [|done]. exfalso. apply E, Exists_exists. exists g. split; [apply elem_of_seq; pose proof (lookup_lt_Some _ _ _ Hg); lia|]. split; [done|]. rewrite Ef. by eexists.
  - intros c k Hk. destruct (f_call w c f) eqn:Ef; [|done]. exfalso. apply E2, Exists_exists. exists c. split; [apply elem_of_seq; pose proof (lookup_lt_Some _ _ _ Hk); lia|]. rewrite Ef. by eexists.
Qed.

Lemma useful_exists w f s c0 p cx ts : reached w f -> reachable w s -> sim f s -> well_founded_deps w (m_log f) ->
  EvCall c0 p cx ts ∈ m_log f -> (forall e, EvRet c0 p e ∉ m_log f) -> exists ch f', useful f ch = true /\ fstep w f ch = Some f'.
Proof.
  intros Hf Hr S Hwf Hin Hnr. destruct (stuck_or_useful w f) as [H|[Hg Hc]]; [done|exfalso].
  assert (Hl : m_lock f = None).
  { destruct (m_lock f) as [x|] eqn:El; [|done]. exfalso. pose proof (lock_holds w f Hf x El) as Hx. destruct x as [g|c]; simpl in Hx.
    - destruct Hx as (h & Hh & Hp). assert (Hu : useful f (FGo g 0) = true) by (simpl; rewrite Hh; by destruct (h_pc h)).
      specialize (Hg g h Hh Hu). unfold f_go in Hg. rewrite Hh in Hg. simpl in Hg. by destruct (h_pc h).
    - destruct Hx as (k & Hk & Hp). specialize (Hc c k Hk). unfold f_call in Hc. rewrite Hk in Hc. simpl in Hc. by destruct (k_pc k). }
  assert (Hgate : forall a o, m_ran f !! a = Some o -> fo_lock o = false).
  { intros a o Ha. destruct (fo_lock o) eqn:Eo; [|done]. exfalso. destruct (proj1 (inv2_holds w f Hf) a o Ha Eo) as (g & h & Hh & <- & Hp).
    assert (Hu : useful f (FGo g 0) = true) by (simpl; rewrite Hh; by destruct (h_pc h)).
    specialize (Hg g h Hh Hu). unfold f_go in Hg. rewrite Hh in Hg. simpl in Hg. destruct (h_pc h); try done. by rewrite Ha in Hg. }
  assert (Hgs : forall g h, m_gors f !! g = Some h -> match h_pc h with PWait | PAsleep => gate_open f (h_key h) = false | PCalling _ _ | PEnd => True | _ => False end).
  { intros g h Hh. pose proof (Hg g h Hh) as Hn. pose proof (r_gok _ _ S _ _ Hh) as Hok. simpl in Hn. rewrite Hh in Hn. unfold f_go in Hn. rewrite Hh in Hn. simpl in Hn.
    unfold gate_open in *. destruct (h_pc h) as [| | | | | | | | | | |e| |p0|c k|e|e| | | | |] eqn:Hp; simpl in Hok; try done; try (specialize (Hn eq_refl)); try (rewrite Hl in Hn); try done.
    - destruct (m_ran f !! h_key h) as [o|] eqn:Er; [|done]. simpl in Hn. rewrite (Hgate _ _ Er) in Hn. destruct (fo_open o); [|done]. by specialize (Hn eq_refl).
    - by destruct (m_ran f !! h_key h).
    - destruct (m_ran f !! h_key h) as [o|] eqn:Er; [|done]. simpl in Hn. rewrite (Hgate _ _ Er) in Hn. destruct (fo_open o); [|done]. by specialize (Hn eq_refl).
    - destruct Hok as (fo & E & _). by rewrite E in Hn.
    - destruct p0 as [e|cx' ts' k|d k|l k]; try done. rewrite ?Hl in Hn. by destruct (f_resolve w d f).
    - destruct Hok as (fo & oc & E & _). rewrite E in Hn. simpl in Hn. by rewrite (Hgate _ _ E) in Hn. }
  assert (Hcs : forall c k, m_calls f !! c = Some k -> match k_pc k with QWait => k_wg k <> 0 | QDone _ => True | _ => False end).
  { intros c k Hk. pose proof (Hc c k Hk) as Hn. unfold f_call in Hn. rewrite Hk in Hn. simpl in Hn. destruct (k_pc k) as [| |d| |i todo| |acc|e|e|e d|e|e|e] eqn:Hq; try done; try (by rewrite Hl in Hn).
    - destruct todo as [|t todo]; [done|]. unfold f_iter in Hn. destruct t as [o|]; [|done]. destruct (w_deferred w o); [|done]. simpl in Hn. rewrite Hl in Hn. by destruct (f_resolve _ _ _) as [ca [?|?]].
    - by destruct (k_wg k).
    - by destruct (k_errs k !! length acc).
    - destruct (k_parent k) as [g|] eqn:Ep; [|done]. destruct (call_of _ _ _ _ S Hk) as (cl0 & Hcl & (R1 & _ & _ & _ & _ & R6)).
      destruct (proj1 (inv_parent_holds _ _ Hr) c cl0 g Hcl) as (gr & kk & Hgr & Hst); [congruence|intros e0; rewrite R6; unfold absc; rewrite Hq; by destruct (decide _)|].
      rewrite (r_gors _ _ S), list_lookup_fmap in Hgr. destruct (m_gors f !! g) as [h|] eqn:Eg; simpl in Hgr; [|done]. injection Hgr as <-. simpl in Hst. simpl in Hn.
      destruct (h_pc h); simpl in Hst; try done. injection Hst as -> ->. by rewrite decide_True in Hn. }
  (* in the coarse machine the waiters are at the gate *)
  assert (Hran : forall a, is_Some (m_ran f !! a) -> is_Some (s_ran s !! a)).
  { intros a Ha. destruct (proj2 (inv2_holds w f Hf) a Ha) as [(g & h & Hh & _ & Hp)|(g & o & cx' & Hs)].
    - specialize (Hgs g h Hh). by destruct (h_pc h).
    - rewrite <-(r_log _ _ S) in Hs. destruct (proj1 (inv_start_holds _ _ Hr) _ _ _ _ Hs) as (gr & _ & _ & _ & _ & _ & Hsome). done. }
  set (W := fun g => match m_gors f !! g with Some h => match h_pc h with PWait | PAsleep => true | _ => false end | None => false end).
  destruct (wait_all w s W Hr) with (n := length (m_gors f)) as (s1 & Hr1 & Hl1 & Hn1 & Hc1 & Hg1).
  { intros g gr Hgr Hw. rewrite (r_gors _ _ S), list_lookup_fmap in Hgr. unfold W in Hw. destruct (m_gors f !! g) as [h|] eqn:Eg; simpl in Hgr; [|done]. injection Hgr as <-.
    pose proof (r_gok _ _ S _ _ Eg) as Hok. simpl. destruct (h_pc h); try done; (split; [done|]); apply Hran; by apply not_eq_None_Some. }
  destruct (progress_lem w s1 c0 p cx ts Hr1) as (ch & s2 & Hi & Hst); [by rewrite Hl1, (r_log _ _ S)|by rewrite Hl1, (r_log _ _ S)|intros e; by rewrite Hl1, (r_log _ _ S)|].
  destruct ch as [?|?|c|c|g r]; try done; simpl in Hst.
  - unfold step_loop in Hst. rewrite Hc1 in Hst. destruct (s_calls s !! c) as [cl0|] eqn:Ec; simpl in Hst; [|done].
    destruct (Forall2_lookup_r _ _ _ _ _ (r_calls _ _ S) Ec) as (k & Hk & (_ & _ & _ & _ & _ & R6)). specialize (Hcs c k Hk). unfold absc in R6. destruct (k_pc k); try done; by rewrite R6 in Hst.
  - unfold step_return in Hst. rewrite Hc1 in Hst. destruct (s_calls s !! c) as [cl0|] eqn:Ec; simpl in Hst; [|done].
    destruct (Forall2_lookup_r _ _ _ _ _ (r_calls _ _ S) Ec) as (k & Hk & (_ & _ & _ & R4 & _ & R6)). specialize (Hcs c k Hk). unfold absc in R6. destruct (k_pc k); try done; rewrite R6 in Hst; [|done].
    rewrite R4 in Hst. by destruct (k_wg k).
  - unfold step_go in Hst. destruct (s_gors s1 !! g) as [gr1|] eqn:Eg1; simpl in Hst; [|done]. destruct (Hg1 _ _ Eg1) as (gr & Hgr & ->).
    rewrite (r_gors _ _ S), list_lookup_fmap in Hgr. destruct (m_gors f !! g) as [h|] eqn:Eg; simpl in Hgr; [|done]. injection Hgr as <-. specialize (Hgs g h Eg).
    rewrite (bool_decide_true (g < length (m_gors f))), andb_true_r in Hst by (by eapply lookup_lt_Some). unfold W in Hst. rewrite Eg in Hst.
    assert (Hcl : gate_open f (h_key h) = false -> match s_ran s1 !! h_key h with Some oc => o_open oc | None => false end = false).
    { unfold gate_open. rewrite Hn1. pose proof (r_ran _ _ S (h_key h)) as Ho. unfold ranok in Ho. destruct (m_ran f !! h_key h), (s_ran s !! h_key h); try done. by destruct Ho as [-> _]. }
    destruct (h_pc h) eqn:Hp; try done; simpl in Hst; rewrite ?Hp in Hst; simpl in Hst; try done;
      specialize (Hcl Hgs); destruct (s_ran s1 !! h_key h) as [oc|]; try done; by rewrite Hcl in Hst.
Qed.
