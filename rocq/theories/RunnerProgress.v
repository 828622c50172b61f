(** Progress: with well-founded dependencies, no pending call is stuck (C04, first half). *)
From stdpp Require Import base gmap list strings relations.
From Verif Require Import ContextModel RunnerModel RunnerSteps RunnerSpec RunnerSpec2.
From Verif Require Import RunnerInv RunnerInv2 RunnerInv3 RunnerInv4 RunnerInv5 RunnerInv6 RunnerProofs.

Definition enabled (w : world) (s : state) : Prop :=
  exists ch s', internal ch /\ step w s ch = Some s'.

(** ** Resolutions recorded in the log *)
Definition inv_res (w : world) (s : state) : Prop :=
  forall g d name o, EvResolve g d (inr o) ∈ s_log s -> w_deferred w d = Some name ->
    EvRegister name o ∈ s_log s.

Lemma resolves_registered w s d name ca o :
  reachable w s -> resolves w s d ca (inr o) -> w_deferred w d = Some name ->
  EvRegister name o ∈ s_log s.
Proof.
  intros Hre Hr Hd. pose proof (inv_reg_holds _ _ Hre) as (R1 & _ & R3).
  inversion Hr; subst; simplify_eq.
  - match goal with Hx : s_cache s !! d = Some _ |- _ => apply R3 in Hx as (n & Hn & Hin) end.
    by simplify_eq.
  - by apply R1.
Qed.

Lemma inv_res_holds w s : reachable w s -> inv_res w s.
Proof.
  revert s. apply reachable_ind.
  { intros g d name o H. by apply elem_of_nil in H. }
  intros s ch s' Hre IH Hstep g0 d0 name0 o0 Hin Hd.
  assert (Hold : EvResolve g0 d0 (inr o0) ∈ s_log s -> EvRegister name0 o0 ∈ s_log s').
  { intros Hi. eapply log_mono; [done|]. by eapply IH. }
  destruct Hstep; proj; try (by apply Hold);
    try (apply elem_of_snoc in Hin as [Hin|Hin]; [by apply Hold|]; simplify_eq).
  apply elem_of_snoc; left. by eapply resolves_registered.
Qed.

(** ** What goroutines request *)
Lemma runs_may_call g a o p h st c cx ts :
  runs g a o p h st -> EvCall c (Some g) cx ts ∈ h -> may_call p ts.
Proof.
  induction 1 as [p|e|l k r h st H IH|d k r h st H IH|cx' ts' k c'|cx' ts' k c' e h st H IH]; intros Hin.
  - by apply elem_of_nil in Hin.
  - apply elem_of_list_singleton in Hin. done.
  - apply elem_of_cons in Hin as [Hin|Hin]; [done|]. eapply mc_eff; eauto.
  - apply elem_of_cons in Hin as [Hin|Hin]; [done|]. eapply mc_res; eauto.
  - apply elem_of_list_singleton in Hin. simplify_eq. constructor.
  - apply elem_of_cons in Hin as [Hin|Hin]; [simplify_eq; constructor|].
    apply elem_of_cons in Hin as [Hin|Hin]; [done|]. eapply mc_call; eauto.
Qed.

Lemma deferred_runs_call g a o d cx h st c cx' ts :
  runs g a o (deferred_prog d cx) h st -> EvCall c (Some g) cx' ts ∈ h ->
  exists o', ts = [TPtr o'] /\ EvResolve g d (inr o') ∈ h.
Proof.
  unfold deferred_prog. intros Hr Hin. inversion Hr; subst.
  - by apply elem_of_nil in Hin.
  - apply elem_of_cons in Hin as [Hin|Hin]; [done|].
    destruct r as [e|o'].
    + inversion H3; subst; [by apply elem_of_nil in Hin|apply elem_of_list_singleton in Hin; done].
    + exists o'. split; [|left].
      inversion H3; subst.
      * by apply elem_of_nil in Hin.
      * apply elem_of_list_singleton in Hin. by simplify_eq.
      * apply elem_of_cons in Hin as [Hin|Hin]; [by simplify_eq|].
        apply elem_of_cons in Hin as [Hin|Hin]; [done|].
        match goal with Hx : runs _ _ _ (Ret _) _ _ |- _ => inversion Hx; subst end;
          [by apply elem_of_nil in Hin|apply elem_of_list_singleton in Hin; done].
Qed.

(** The address a goroutine works for leads to that of its target. *)
Lemma key_obj_dep w s g gr :
  reachable w s -> s_gors s !! g = Some gr ->
  g_key gr = w_addr w (g_obj gr) \/ depends w (s_log s) (g_key gr) (w_addr w (g_obj gr)).
Proof.
  intros Hre Hg. destruct (inv_link_holds _ _ Hre _ _ Hg) as (cl & o & _ & _ & Hk & Ho & Hd & _).
  destruct (w_deferred w o) as [name|] eqn:E.
  - right. rewrite Hk. eapply dep_name; [done|].
    specialize (Hd _ eq_refl).
    apply (proj2 (proj2 (inv_reg_holds _ _ Hre))) in Hd as (n & Hn & Hin). by simplify_eq.
  - left. by rewrite Ho.
Qed.

(** A body started for an address requests only what that address depends on. *)
Lemma call_dep w s g gr c cx ts o :
  reachable w s -> s_gors s !! g = Some gr -> EvCall c (Some g) cx ts ∈ s_log s ->
  TPtr o ∈ ts -> tc (depends w (s_log s)) (g_key gr) (w_addr w o).
Proof.
  intros Hre Hg Hin Ho.
  assert (Hin' : EvCall c (Some g) cx ts ∈ hist g s).
  { unfold hist. apply elem_of_list_filter. done. }
  assert (Hne : hist g s <> []) by (intros E; rewrite E in Hin'; by apply elem_of_nil in Hin').
  destruct (hist_started _ _ _ Hre Hne) as (a & ob & cx' & Hst).
  destruct (proj1 (inv_start_holds _ _ Hre) _ _ _ _ Hst) as (gr' & Hg' & Hk & Hob & Hcx & _).
  simplify_eq.
  destruct (hist_runs _ _ _ _ _ _ Hre Hst) as [st Hruns].
  assert (Hdep : depends w (s_log s) (w_addr w (g_obj gr)) (w_addr w o)).
  { unfold body in Hruns. destruct (w_deferred w (g_obj gr)) as [name|] eqn:E.
    - destruct (deferred_runs_call _ _ _ _ _ _ _ _ _ _ Hruns Hin') as (o' & -> & Hres).
      apply elem_of_list_singleton in Ho. simplify_eq.
      eapply dep_name; [done|]. eapply inv_res_holds; eauto.
      unfold hist in Hres. apply elem_of_list_filter in Hres as [_ Hres]. done.
    - eapply dep_body; [done| |done]. by eapply runs_may_call. }
  destruct (key_obj_dep _ _ _ _ Hre Hg) as [-> |Hd]; [by apply tc_once|].
  eapply tc_l; [done|]. by apply tc_once.
Qed.

(** ** Progress *)
Lemma go_enabled w s g gr :
  s_gors s !! g = Some gr ->
  (match g_st gr with GStart | GBody _ | GOpen | GExit => True | _ => False end) ->
  exists s', step w s (ChGo g 0) = Some s'.
Proof.
  intros Hg Hst. simpl. unfold step_go. rewrite Hg. simpl.
  destruct (g_st gr) as [| |p| | | |]; try done; eauto.
  - destruct (s_ran s !! g_key gr); eauto.
  - destruct p; eauto. destruct (resolve w d s); eauto.
Qed.

Lemma call_enabled w s c cl :
  reachable w s -> s_calls s !! c = Some cl -> (forall e, c_st cl <> CReturned e) ->
  enabled w s \/ (c_st cl = CWaiting /\ exists g gr, s_gors s !! g = Some gr /\ g_call gr = c /\ g_done gr = false).
Proof.
  intros Hre Hc Hnr. destruct (c_st cl) as [i todo| |e] eqn:Est; [| |by destruct (Hnr e)].
  - left. exists (ChLoop c). simpl. unfold step_loop. rewrite Hc. simpl. rewrite Est.
    destruct todo; eauto.
  - destruct (c_wg cl) as [|n] eqn:Ew.
    + left. exists (ChReturn c). simpl. unfold step_return. rewrite Hc. simpl. rewrite Est, Ew.
      destruct (c_parent cl) as [g|] eqn:Ep; [|eauto].
      destruct (proj1 (inv_parent_holds _ _ Hre) c cl g) as (gr & k & Hg & Hk); [done|done|by rewrite Est|].
      assert (Hx : forall s1, s_gors (if decide (c_targets cl = []) then s1 else dec_depth s1) = s_gors s1)
        by (intros; by destruct (decide _)).
      rewrite Hx. proj. rewrite Hg. simpl. rewrite Hk, decide_True by done. eauto.
    + right. split; [done|]. pose proof (inv_wg_holds _ _ Hre _ _ Hc) as Hw.
      destruct (countb_pos (live_of c) (s_gors s)) as (g & gr & Hg & Hl); [lia|].
      exists g, gr. unfold live_of in Hl. apply andb_true_iff in Hl as [H1 H2].
      apply bool_decide_eq_true_1 in H1. apply negb_true_iff in H2. done.
Qed.

Lemma live_progress w s :
  reachable w s -> well_founded_deps w (s_log s) ->
  forall a g gr, s_gors s !! g = Some gr -> g_key gr = a -> g_done gr = false -> enabled w s.
Proof.
  intros Hre Hwf.
  assert (Hwf' : well_founded (fun b a => tc (depends w (s_log s)) a b)).
  { intros a. induction (Hwf a) as [a _ IH]. constructor. intros b Hb.
    induction Hb as [a b Hb|a b c Hab Hbc IH2]; [by apply IH|].
    eapply Acc_inv; [by apply (IH b)|]. done. }
  intros a. induction (Hwf' a) as [a _ IH]. intros g gr Hg Hk Hd.
  assert (Hgo : forall g gr, s_gors s !! g = Some gr ->
     (match g_st gr with GStart | GBody _ | GOpen | GExit => True | _ => False end) -> enabled w s).
  { intros g1 gr1 H1 H2. destruct (go_enabled w s g1 gr1 H1 H2) as [s' Hs']. by exists (ChGo g1 0), s'. }
  assert (Hcalling : forall g gr c k, s_gors s !! g = Some gr -> g_key gr = a ->
     g_st gr = GCalling c k -> enabled w s).
  { clear g gr Hg Hk Hd. intros g gr c k Hg Hk Hst.
    destruct (proj2 (inv_parent_holds _ _ Hre) _ _ _ _ Hg Hst) as (cl & Hc & Hp & Hnr).
    destruct (call_enabled w s c cl Hre Hc Hnr) as [?|(_ & g' & gr' & Hg' & Hgc & Hd')]; [done|].
    destruct (inv_link_holds _ _ Hre _ _ Hg') as (cl' & o & Hc' & Ht & Hk' & _).
    rewrite Hgc in Hc'. simplify_eq.
    eapply (IH (g_key gr')); [|exact Hg'|done|done]. rewrite Hk'.
    eapply (call_dep _ _ _ _ (g_call gr') (c_cx cl)); eauto.
    - apply (proj1 (inv_calls_holds _ _ Hre)). eauto.
    - by eapply elem_of_list_lookup_2. }
  destruct (g_st gr) as [| |p|c k| | |] eqn:Est.
  - eapply Hgo; [done|]. by rewrite Est.
  - pose proof (proj1 (inv_ran_holds _ _ Hre) _ _ Hg) as Hok. unfold st_ok in Hok. rewrite Est in Hok.
    destruct Hok as [oc Hoc]. destruct (o_open oc) eqn:Eo.
    + exists (ChGo g 0). simpl. unfold step_go. rewrite Hg. simpl. rewrite Est, Hoc, Eo. eauto.
    + destruct (proj2 (proj2 (inv_ran_holds _ _ Hre)) _ _ Hoc Eo) as (g' & gr' & Hg' & Hk' & Ho).
      unfold is_owner in Ho. destruct (g_st gr') eqn:Est'; try done.
      * eapply Hgo; [exact Hg'|]. by rewrite Est'.
      * eapply Hcalling; [exact Hg'|congruence|done].
      * eapply Hgo; [exact Hg'|]. by rewrite Est'.
  - eapply Hgo; [done|]. by rewrite Est.
  - by eapply Hcalling.
  - eapply Hgo; [done|]. by rewrite Est.
  - eapply Hgo; [done|]. by rewrite Est.
  - unfold g_done in Hd. by rewrite Est in Hd.
Qed.

Lemma progress_lem w s c p cx ts :
  reachable w s -> well_founded_deps w (s_log s) ->
  EvCall c p cx ts ∈ s_log s -> (forall e, EvRet c p e ∉ s_log s) -> enabled w s.
Proof.
  intros Hre Hwf Hin Hnr. pose proof (inv_calls_holds _ _ Hre) as (C1 & C2 & _).
  apply C1 in Hin as (cl & Hc & <- & _ & _).
  destruct (call_enabled w s c cl Hre Hc) as [?|(_ & g & gr & Hg & Hgc & Hd)].
  - intros e He. apply (Hnr e). apply C2. eauto.
  - done.
  - by eapply live_progress.
Qed.

(** ** Acyclic graphs with finitely many dependent targets *)
Lemma acyclic_wf {A} (R : relation A) (l : list A) :
  (forall a, ~ tc R a a) -> (forall a b, R a b -> a ∈ l) -> well_founded (fun b a => R a b).
Proof.
  intros Hac Hl.
  assert (Hgen : forall n a (seen : list A), length l - length seen < n -> NoDup seen ->
    (forall x, x ∈ seen -> x ∈ l) -> (forall x, x ∈ seen -> tc R x a) -> Acc (fun b a => R a b) a).
  { intros n. induction n as [|n IH]; intros a seen Hn Hnd Hs Ht; [lia|].
    constructor. intros b Hab.
    assert (Ha : a ∉ seen) by (intros Ha; by apply (Hac a), Ht).
    assert (Hnd' : NoDup (a :: seen)) by (by constructor).
    assert (Hs' : forall x, x ∈ a :: seen -> x ∈ l).
    { intros x [->|Hx]%elem_of_cons; [by eapply Hl|by apply Hs]. }
    apply (IH b (a :: seen)).
    - assert (length (a :: seen) <= length l); [|simpl in *; lia].
      apply submseteq_length, NoDup_submseteq; done.
    - done.
    - done.
    - intros x [->|Hx]%elem_of_cons; [by apply tc_once|]. eapply tc_r; eauto. }
  intros a. apply (Hgen (S (length l)) a []); simpl; try lia.
  - constructor.
  - intros x Hx. by apply elem_of_nil in Hx.
  - intros x Hx. by apply elem_of_nil in Hx.
Qed.

Lemma acyclic_deps_wf w tr : acyclic_deps w tr -> well_founded_deps w tr.
Proof. intros (Hac & l & Hl). by eapply acyclic_wf. Qed.
