From stdpp Require Import base gmap list strings.
From Verif Require Import DriverModel DriverSpec FleetModel FleetSpec FleetProofs FleetProofs2.
Local Open Scope list_scope.

Section versions.
Context (T : tools) (HT : enc_ok T).

Lemma dec_pre i j x : pre x (t_enc T i) -> t_dec T x = Some j -> j = i.
Proof. intros [t E] Hd. apply (proj2 HT i j (String.length x)). rewrite E, sub_pre. exact Hd. Qed.

Definition rightv (v : fabinfo) (d : disk) : Prop := forall b, d_bin d = Some b -> b_fab b = v.
Definition v_pc (v : fabinfo) (d : disk) (c : pc) : Prop :=
  match c with
  | PReadHash | PReturn => rightv v d
  | PHash old info => (info = None \/ info = v) /\ (old <> None -> rightv v d)
  | PCopy _ info | PRename _ _ info => info = None \/ info = v
  | PTruncHash _ info | PWriteHash _ info => (info = None \/ info = v) /\ rightv v d
  | PTruncVer i => v = Some i /\ rightv v d
  | PWriteVer i => v = Some i /\ rightv v d /\ forall x, d_ver d = Some x -> pre x (t_enc T i)
  | PStat | PVersion => True
  end.
Definition v_ok (v : fabinfo) (d : disk) : Prop := forall i x, v = Some i -> d_ver d = Some x -> t_dec T x = Some i -> rightv v d.
Record vknown (v : fabinfo) (s : fleet) : Prop := {
  vk_procs : forall id p, c_procs s !! id = Some p -> p_fab p = v /\ v_pc v (c_disk s) (p_pc p);
  vk_ver : v_ok v (c_disk s)
}.
Definition vgrows (v : fabinfo) (d d' : disk) : Prop :=
  (rightv v d -> rightv v d') /\
  (d_ver d' = d_ver d \/ d_ver d' = None \/ exists i x, v = Some i /\ d_ver d' = Some x /\ pre x (t_enc T i) /\ rightv v d').
Lemma v_pc_grows v d d' c : v_pc v d c -> vgrows v d d' -> v_pc v d' c.
Proof.
  intros Ha [Hr Hh]. destruct c as [| | |old info|n info|c n info|n info|n info|i|i|]; simpl in *; auto.
  - destruct Ha as [? Ha]. split; auto.
  - destruct Ha; auto.
  - destruct Ha; auto.
  - destruct Ha; auto.
  - destruct Ha as (Hv & Hrt & Hp). split; [done|]. split; [auto|]. intros x Ex. destruct Hh as [Hh|[Hh|(j & y & Hj & Hy & Hpre & _)]].
    + apply Hp. congruence.
    + congruence.
    + rewrite Hv in Hj. injection Hj as <-. congruence.
Qed.
Lemma v_ok_grows v d d' : v_ok v d -> vgrows v d d' -> v_ok v d'.
Proof.
  intros Hk [Hr Hh] i x Hv Hx Hd. destruct Hh as [Hh|[Hh|(j & y & Hj & Hy & Hpre & Hrt)]]; [|congruence|exact Hrt].
  apply Hr, (Hk i x); [done| |done]. congruence.
Qed.
Lemma v_effect_grows v p src d d' c evs : p_fab p = v -> v_pc v d (p_pc p) -> effect T p src d d' c evs -> vgrows v d d'.
Proof.
  intros Hv Ha He. assert (Hid : vgrows v d d) by (split; auto).
  destruct He as [E|E|i x E|info r E|E|info S E|old info S E|n info S E|c n info E|n info E|n info l E|i E|i l E]; try exact Hid.
  - destruct r; [|exact Hid]. split; [intros HH b; exact (HH b)|right; by left].
  - split; [|by left]. intros _ b. simpl. by intros [= <-].
  - destruct l; [exact Hid|]. split; [intros HH b; exact (HH b)|by left].
  - rewrite E in Ha. destruct Ha as [Hi Hr]. split; [intros HH b; exact (HH b)|]. right; right. exists i, "". split; [done|]. split; [done|]. split; [apply pre_nil|exact Hr].
  - rewrite E in Ha. simpl in Ha. destruct Ha as (Hi & Hr & Hp). destruct l; [exact Hid|]. split; [intros HH b; exact (HH b)|].
    unfold write_ver. simpl. destruct (d_ver d) as [x|] eqn:Ex; [|right; by left]. right; right. simpl. exists i, (overlay (t_enc T i) x).
    split; [done|]. split; [done|]. split; [apply overlay_pre; [apply pre_refl|by apply Hp]|]. intros b Hb. by apply Hr.
Qed.
Lemma v_effect_own v p src d d' c evs : p_fab p = v -> v_ok v d -> v_pc v d (p_pc p) -> effect T p src d d' c evs -> v_pc v d' c.
Proof.
  intros Hv Hk Ha He. destruct He as [E|E|i x E Hf Hx Hd|info r E Hinf|E|info S E|old info S E|n info S E|c n info E|n info E|n info l E|i E|i l E]; rewrite ?E in Ha; simpl in *; auto.
  - split; [by left|done].
  - eapply Hk; [by rewrite <-Hv|exact Hx|exact Hd].
  - split; [by rewrite <-Hv|done].
  - by apply Ha.
  - by destruct Ha.
  - split; [exact Ha|]. intros b. simpl. by intros [= <-].
  - destruct Ha as [Hi Hr]. destruct info as [i|]; [destruct Hi as [[=]|Hi]; split; [done|]|]; destruct l; try exact Hr; intros b Hb; by apply Hr.
  - destruct Ha as [Hi Hr]. split; [done|]. split; [exact Hr|]. intros x [= <-]. apply pre_nil.
  - destruct Ha as (_ & Hr & _). by destruct l.
Qed.
Lemma v_step_grows v s a s' e : vknown v s -> (forall id f fo, a <> CStart id f fo) -> cstep T s a = Some (s', e) -> vgrows v (c_disk s) (c_disk s').
Proof.
  intros [Hp Hk] Hne Hs. apply cstep_happens in Hs. assert (Hi : vgrows v (c_disk s) (c_disk s)) by (split; auto).
  destruct Hs as [x|f d Hd|id fab force Hid|id l p Hid Hr|id l p Hid Hr Hgone|id l p d pc evs Hid Hr He|id torn p d Hid Hd]; simpl; try exact Hi.
  - rewrite Hd. destruct f; simpl; (split; [intros HH b; simpl; try done; apply HH|simpl; auto]).
  - destruct (Hp _ _ Hid). by eapply v_effect_grows.
  - destruct (Hp _ _ Hid) as [_ Ha]. rewrite Hd. destruct (p_pc p); try exact Hi; simpl in Ha.
    destruct Ha as (Hv & Hrt & Hx). split; [intros HH b; exact (HH b)|]. unfold write_ver. simpl. destruct (d_ver (c_disk s)) as [x|] eqn:Ex; [|right; by left].
    right; right. simpl. eexists _, _. split; [exact Hv|]. split; [done|].
    split; [apply overlay_pre; [apply sub_is_pre|by apply Hx]|]. intros b Hb. by apply Hrt.
Qed.
Lemma vknown_step v s a s' e : vknown v s -> (forall id f fo, a <> CStart id f fo) -> cstep T s a = Some (s', e) -> vknown v s'.
Proof.
  intros Hkn Hne Hs. pose proof (v_step_grows _ _ _ _ _ Hkn Hne Hs) as Hg. destruct Hkn as [Hp Hk]. split; [|by eapply v_ok_grows].
  assert (Hold : forall id p, c_procs s !! id = Some p -> p_fab p = v /\ v_pc v (c_disk s') (p_pc p)).
  { intros id p Hi. destruct (Hp _ _ Hi) as [? ?]. split; [done|]. by eapply v_pc_grows. }
  apply cstep_happens in Hs. intros id' p' Hi.
  destruct Hs as [x|f d Hd|id fab force Hid|id l p Hid Hr|id l p Hid Hr Hgone|id l p d pc evs Hid Hr He|id torn p d Hid Hd]; simpl in *.
  - by eapply Hold.
  - by eapply Hold.
  - by destruct (Hne id fab force).
  - apply lookup_delete_Some in Hi as [_ Hi]. by eapply Hold.
  - apply lookup_delete_Some in Hi as [_ Hi]. by eapply Hold.
  - destruct (decide (id = id')) as [<-|Hn]; [|rewrite lookup_insert_ne in Hi by done; by eapply Hold].
    rewrite lookup_insert in Hi. injection Hi as <-. simpl. destruct (Hp _ _ Hid) as [Hf Ha]. split; [done|]. by eapply v_effect_own.
  - apply lookup_delete_Some in Hi as [_ Hi]. by eapply Hold.
Qed.
Lemma vknown_same v s id f fo s' e : vknown v s -> f = v -> cstep T s (CStart id f fo) = Some (s', e) -> vknown v s'.
Proof.
  intros [Hp Hk] -> Hs. simpl in Hs. destruct (c_procs s !! id) eqn:E; [done|]. injection Hs as <- <-. split; [|exact Hk]. simpl.
  intros id' p' Hi. destruct (decide (id = id')) as [<-|Hn]; [rewrite lookup_insert in Hi; injection Hi as <-; done|rewrite lookup_insert_ne in Hi by done; by eapply Hp].
Qed.
Definition seen_ver (acts : list cact) (s : fleet) : Prop := forall x, d_ver (c_disk s) = Some x -> exists j, Some j ∈ cstarts acts /\ pre x (t_enc T j).
Definition vstate (acts : list cact) (s : fleet) : Prop :=
  match last (cstarts acts) with
  | None => d_bin (c_disk s) = None /\ d_ver (c_disk s) = None /\ c_procs s = ∅
  | Some v => vknown v s /\ seen_ver acts s
  end.
Lemma version_step s0 acts s e a s' e1 : cexec T s0 acts = Some (s, e) -> vstate acts s -> one_version s a -> no_return (cstarts (acts ++ [a])) ->
  cstep T s a = Some (s', e1) -> vstate (acts ++ [a]) s'.
Proof.
  intros Hx HI Hone Hn Hs. unfold vstate in *.
  assert ((exists id f fo, a = CStart id f fo) \/ forall id f fo, a <> CStart id f fo) as [(id & f & fo & ->)|Hne] by (destruct a; eauto 10).
  - assert (Es : cstarts (acts ++ [CStart id f fo]) = cstarts acts ++ [f]) by (unfold cstarts; by rewrite omap_app). rewrite Es in *. rewrite last_snoc.
    assert (Hsn : seen_ver acts s -> seen_ver (acts ++ [CStart id f fo]) s').
    { intros Hse x Hxx. simpl in Hs. destruct (c_procs s !! id); [done|]. injection Hs as <- <-. destruct (Hse x Hxx) as (j & Hj & Hp). exists j. split; [|done]. rewrite Es. apply elem_of_app. by left. }
    destruct (last (cstarts acts)) as [v|] eqn:El.
    + destruct HI as [Hk Hse]. split; [|by apply Hsn]. destruct (decide (f = v)) as [->|Hfv]; [by eapply vknown_same|].
      assert (Hempty : c_procs s = ∅).
      { apply map_eq. intros id'. rewrite lookup_empty. destruct (c_procs s !! id') as [p|] eqn:Ep; [|done]. exfalso. apply Hfv.
        rewrite <-(Hone id f fo id' p eq_refl Ep). by apply (vk_procs _ _ Hk id' p). }
      simpl in Hs. rewrite Hempty, lookup_empty in Hs. injection Hs as <- <-. split; simpl.
      * intros id' p' Hi. rewrite insert_empty in Hi. apply lookup_singleton_Some in Hi as [_ <-]. done.
      * intros i x -> Hxx Hd. exfalso. destruct (Hse x Hxx) as (j & Hj & Hp). pose proof (dec_pre _ _ _ Hp Hd) as ->.
        apply elem_of_list_lookup in Hj as [k Hk']. rewrite last_lookup in El. pose proof (lookup_lt_Some _ _ _ Hk').
        assert (k <> pred (length (cstarts acts))) by (intros ->; congruence).
        pose proof (Hn k (pred (length (cstarts acts))) (length (cstarts acts)) j) as H1.
        rewrite (lookup_app_l _ _ k) in H1 by done. rewrite (lookup_app_l _ _ (pred _)) in H1 by lia.
        rewrite (lookup_app_r _ _ (length _)) in H1 by done. rewrite Nat.sub_diag in H1. simpl in H1.
        assert (Some v = Some (Some j)) by (rewrite <-El; apply H1; [lia|lia|done|done]). congruence.
    + destruct HI as (H1 & H2 & H3). simpl in Hs. rewrite H3, lookup_empty in Hs. injection Hs as <- <-. split; [split; simpl|].
      * intros id' p' Hi. rewrite insert_empty in Hi. apply lookup_singleton_Some in Hi as [_ <-]. done.
      * intros i x _ Hxx. congruence.
      * intros x Hxx. simpl in Hxx. congruence.
  - assert (Es : cstarts (acts ++ [a]) = cstarts acts).
    { unfold cstarts. rewrite omap_app. destruct a; simpl; rewrite ?app_nil_r; try done. by destruct (Hne id fab force). }
    rewrite Es in *. destruct (last (cstarts acts)) as [v|] eqn:El.
    + destruct HI as [Hk Hse]. split; [by eapply vknown_step|]. pose proof (v_step_grows _ _ _ _ _ Hk Hne Hs) as [_ Hg].
      intros x Hxx. rewrite Es. destruct Hg as [Hg|[Hg|(i & y & -> & Hy & Hp & _)]]; [apply Hse; congruence|congruence|].
      exists i. split; [|congruence]. by apply last_Some_elem_of.
    + destruct HI as (H1 & H2 & H3). apply cstep_happens in Hs.
      destruct Hs as [x|f d Hd|id fab force Hid|id l p Hid Hr|id l p Hid Hr Hgone|id l p d pc evs Hid Hr He|id torn p d Hid Hd]; simpl; try (rewrite H3 in Hid; done); try done.
      * rewrite Hd. by destruct f.
      * by destruct (Hne id fab force).
Qed.
Lemma right_version s0 acts s e id s' b : nothing_there s0 -> cexec T s0 acts = Some (s, e) -> always T s0 acts one_version -> no_return (cstarts acts) ->
  gets T s id s' (Some b) -> exists p, c_procs s !! id = Some p /\ b_fab b = p_fab p.
Proof.
  intros H0 Hx Hone Hn [l Hs].
  assert (HI : vstate acts s).
  { apply (cinv T s0 one_version (fun acts s _ => no_return (cstarts acts) -> vstate acts s)) with (acts := acts) (e := e); [| |done|done|done].
    - intros _. destruct H0 as (? & ? & ? & ?). done.
    - clear -HT. intros acts s e a s' e1 Hx IH Hq Hs Hn. eapply version_step; [exact Hx| |exact Hq|exact Hn|exact Hs]. apply IH.
      unfold cstarts in *. rewrite omap_app in Hn. by eapply no_return_app. }
  apply cstep_happens in Hs. inversion Hs as [| | |id' l' p Hid Hr E1 E2 Eb| |id' l' p d pc evs Hid Hr He E1 E2 E3|]; subst; [|destruct He; discriminate].
  exists p. split; [done|]. unfold vstate in HI. destruct (last (cstarts acts)) as [v|]; [|destruct HI as (_ & _ & HI); rewrite HI in Hid; done].
  destruct HI as [[Hp _] _]. destruct (Hp _ _ Hid) as [-> Ha]. rewrite Hr in Ha. by apply Ha.
Qed.
End versions.
