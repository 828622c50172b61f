(** FineModel.v is simulated by RunnerModel.v. *)
From stdpp Require Import base gmap list strings.
From Verif Require Import ContextModel RunnerModel RunnerSteps RunnerInv RunnerInv2 RunnerInv3 FineModel.
Local Open Scope list_scope.

Definition absp (p : gpc) : gstate :=
  match p with
  | PStart | PLocked | PAbsent | PInserted | PPresent | PWait | PTest | PClosed | PAsleep | PWoken | PRead | PGot _ | PRun => GStart
  | PBody p => GBody p
  | PCalling c k => GCalling c k
  | PRet _ | PErr _ | PSet | PSetL => GOpen
  | PSetU | PExit => GExit
  | PEnd => GDone
  end.
Definition absg (h : fgor) : gor :=
  {| g_call := h_call h; g_idx := h_idx h; g_key := h_key h; g_obj := h_obj h; g_cx := h_cx h; g_st := absp (h_pc h) |}.
Definition absc (k : fcall) : cstate :=
  match k_pc k with
  | QInc | QIncL | QIncV _ | QIncU => CLoop 0 (k_targets k)
  | QLoop i todo => CLoop i todo
  | QWait | QJoin _ | QDec _ | QDecL _ | QDecV _ _ | QDecU _ => CWaiting
  | QRet _ => if decide (k_targets k = []) then CLoop 0 [] else CWaiting
  | QDone e => CReturned e
  end.
Definition callrel (k : fcall) (cl : call) : Prop :=
  c_parent cl = k_parent k /\ c_cx cl = k_cx k /\ c_targets cl = k_targets k /\ c_wg cl = k_wg k /\
  length (c_errs cl) = length (k_errs k) /\ c_st cl = absc k.

Definition ranok (fr : option foutcome) (cr : option outcome) : Prop :=
  match fr, cr with
  | None, None => True
  | None, Some _ => False
  | Some fo, None => fo_open fo = false
  | Some fo, Some oc => fo_open fo = o_open oc /\ (o_open oc = true -> fo_err fo = o_err oc)
  end.
Definition gok (l : option who) (fr : option foutcome) (cr : option outcome) (g : nat) (p : gpc) : Prop :=
  match p with
  | PStart => True
  | PLocked => l = Some (WGo g)
  | PAbsent => l = Some (WGo g) /\ fr = None
  | PInserted => l = Some (WGo g) /\ fr <> None /\ cr = None
  | PRun => fr <> None /\ cr = None
  | PPresent => l = Some (WGo g) /\ fr <> None
  | PWait | PTest | PClosed | PAsleep => fr <> None
  | PWoken | PRead => exists fo, fr = Some fo /\ fo_open fo = true
  | PGot e => exists fo, fr = Some fo /\ fo_open fo = true /\ fo_err fo = e
  | PBody _ | PCalling _ _ => True
  | PRet e | PErr e => exists oc, cr = Some oc /\ o_err oc = e
  | PSet | PSetL => exists fo oc, fr = Some fo /\ cr = Some oc /\ fo_err fo = o_err oc
  | PSetU | PExit | PEnd => True
  end.
Definition cok (l : option who) (c : nat) (k : fcall) : Prop :=
  match k_pc k with
  | QInc | QLoop _ _ | QWait => k_targets k <> []
  | QIncL | QIncV _ | QIncU => k_targets k <> [] /\ l = Some (WCall c)
  | QJoin acc => k_targets k <> [] /\ k_wg k = 0 /\ acc = take (length acc) (k_errs k)
  | QDec e => k_targets k <> [] /\ k_wg k = 0 /\ e = join (k_errs k)
  | QDecL e | QDecV e _ | QDecU e => k_targets k <> [] /\ k_wg k = 0 /\ e = join (k_errs k) /\ l = Some (WCall c)
  | QRet e => k_wg k = 0 /\ e = join (k_errs k)
  | QDone _ => True
  end.
(** The goroutine has put its outcome into the map but its target has not begun. *)
Definition pre (p : gpc) : bool := match p with PInserted | PRun => true | _ => false end.
Definition is_ret (p : gpc) : bool := match p with PRet _ => true | _ => false end.
Definition no_ret (gs : list fgor) (c i : nat) : Prop := forall g h, gs !! g = Some h -> h_call h = c -> h_idx h = i -> is_ret (h_pc h) = false.

Record sim (f : fstate) (s : state) : Prop := {
  r_log : s_log s = m_log f;
  r_reg : s_reg s = m_reg f;
  r_cache : s_cache s = m_cache f;
  r_gors : s_gors s = absg <$> m_gors f;
  r_calls : Forall2 callrel (m_calls f) (s_calls s);
  r_errs : forall c k cl i, m_calls f !! c = Some k -> s_calls s !! c = Some cl -> no_ret (m_gors f) c i -> k_errs k !! i = c_errs cl !! i;
  r_ran : forall a, ranok (m_ran f !! a) (s_ran s !! a);
  r_gok : forall g h, m_gors f !! g = Some h -> gok (m_lock f) (m_ran f !! h_key h) (s_ran s !! h_key h) g (h_pc h);
  r_cok : forall c k, m_calls f !! c = Some k -> cok (m_lock f) c k;
  r_pre : forall g1 g2 h1 h2, m_gors f !! g1 = Some h1 -> m_gors f !! g2 = Some h2 -> pre (h_pc h1) = true -> pre (h_pc h2) = true -> h_key h1 = h_key h2 -> g1 = g2;
}.

Lemma absg_alter g p (l : list fgor) : absg <$> alter (set_pc p) g l = alter (set_gst (absp p)) g (absg <$> l).
Proof.
  apply list_eq. intros j. rewrite !list_lookup_fmap. destruct (decide (g = j)) as [->|Hn].
  - rewrite !list_lookup_alter, list_lookup_fmap. by destruct (l !! j).
  - by rewrite !list_lookup_alter_ne, list_lookup_fmap by done.
Qed.
Lemma absg_same g p h (l : list fgor) : l !! g = Some h -> absp p = absp (h_pc h) -> absg <$> alter (set_pc p) g l = absg <$> l.
Proof.
  intros Hg Hp. apply list_eq. intros j. rewrite !list_lookup_fmap. destruct (decide (g = j)) as [->|Hn].
  - rewrite !list_lookup_alter, Hg. simpl. unfold absg. simpl. by rewrite Hp.
  - by rewrite !list_lookup_alter_ne by done.
Qed.

(** What other goroutines and calls know survives a change of the lock by its holder. *)
Definition lockstep (l l' : option who) (x : who) : Prop := l' = l \/ (l = None /\ l' = Some x) \/ (l = Some x /\ l' = None).
Lemma gok_lock l l' x fr cr g p : lockstep l l' x -> x <> WGo g -> gok l fr cr g p -> gok l' fr cr g p.
Proof. intros [-> | [[-> ->]|[-> ->]]] Hx H; [done| |]; destruct p; simpl in *; try done; naive_solver. Qed.
Lemma cok_lock l l' x c k : lockstep l l' x -> x <> WCall c -> cok l c k -> cok l' c k.
Proof. unfold cok. intros [-> | [[-> ->]|[-> ->]]] Hx H; [done| |]; destruct (k_pc k); simpl in *; try done; naive_solver. Qed.

(** Outcomes that differ in nothing but the mutex of the gate. *)
Definition same_fo (fr fr' : option foutcome) : Prop :=
  match fr, fr' with None, None => True | Some a, Some b => fo_open a = fo_open b /\ fo_err a = fo_err b | _, _ => False end.
Lemma gok_same l fr fr' cr g p : same_fo fr fr' -> gok l fr cr g p -> gok l fr' cr g p.
Proof.
  intros Hs H. destruct fr as [a|], fr' as [b|]; try done; destruct a as [e1 o1 l1], b as [e2 o2 l2]; simpl in Hs; destruct Hs as [-> ->].
  destruct p; simpl in *; try done; naive_solver.
Qed.
Lemma ranok_same fr fr' cr : same_fo fr fr' -> ranok fr cr -> ranok fr' cr.
Proof. intros Hs H. destruct fr as [a|], fr' as [b|], cr; simpl in *; try done; destruct Hs as [H1 H2]; by rewrite <-?H1, <-?H2. Qed.
Lemma same_refl fr : same_fo fr fr.
Proof. by destruct fr. Qed.
Lemma same_alter (r : gmap addr foutcome) a h b : (forall o, fo_open (h o) = fo_open o /\ fo_err (h o) = fo_err o) -> same_fo (r !! b) (alter h a r !! b).
Proof.
  intros Hh. destruct (decide (a = b)) as [->|Hn].
  - rewrite lookup_alter. destruct (r !! b) as [o|]; [|done]. simpl. destruct (Hh o) as [H1 H2]. by rewrite H1, H2.
  - rewrite lookup_alter_ne by done. apply same_refl.
Qed.

(** ** A goroutine moves on without RunnerModel noticing. *)
Lemma sim_stutter f s g h p l' r' :
  sim f s -> m_gors f !! g = Some h -> absp p = absp (h_pc h) -> is_ret (h_pc h) = false -> is_ret p = false -> (pre p = true -> pre (h_pc h) = true) ->
  lockstep (m_lock f) l' (WGo g) -> (forall a, same_fo (m_ran f !! a) (r' !! a)) ->
  gok l' (r' !! h_key h) (s_ran s !! h_key h) g p ->
  sim (goto g p (f_ran (fun _ => r') (f_lock l' f))) s.
Proof.
  intros S Hg Hp Hr Hr' Hpre Hl Hs Hok. destruct S. constructor; simpl; try done.
  - by rewrite (absg_same g p h) by done.
  - intros c k cl i Hk Hc Hn. apply (r_errs0 c k cl i Hk Hc). intros g' h' Hg' E1 E2. destruct (decide (g = g')) as [->|Hne].
    + rewrite Hg in Hg'. by injection Hg' as <-.
    + apply (Hn g' h'); [|done|done]. by rewrite list_lookup_alter_ne.
  - intros a. by eapply ranok_same.
  - intros g' h' Hg'. apply list_alter_inv in Hg' as [(<- & x & Hx & ->)|(Hne & Hg')].
    + rewrite Hg in Hx. injection Hx as <-. exact Hok.
    + eapply gok_lock; [exact Hl|naive_solver|]. eapply gok_same; [apply Hs|]. by apply r_gok0.
  - intros c k Hk. eapply cok_lock; [exact Hl|done|]. by apply r_cok0.
  - intros g1 g2 h1 h2 H1 H2 P1 P2 Hk. assert (Ho : forall g' h', alter (set_pc p) g (m_gors f) !! g' = Some h' -> pre (h_pc h') = true ->
      exists h0, m_gors f !! g' = Some h0 /\ pre (h_pc h0) = true /\ h_key h0 = h_key h').
    { intros g' h' Hg' Hp'. apply list_alter_inv in Hg' as [(<- & x & Hx & ->)|(Hne & Hg')]; [|by exists h'].
      exists h. rewrite Hg in Hx. injection Hx as <-. split; [done|]. split; [by apply Hpre|done]. }
    destruct (Ho _ _ H1 P1) as (x1 & X1 & Y1 & Z1). destruct (Ho _ _ H2 P2) as (x2 & X2 & Y2 & Z2). eapply r_pre0; try done. congruence.
Qed.

Definition pre_uniq (gs : list fgor) : Prop :=
  forall g1 g2 h1 h2, gs !! g1 = Some h1 -> gs !! g2 = Some h2 -> pre (h_pc h1) = true -> pre (h_pc h2) = true -> h_key h1 = h_key h2 -> g1 = g2.
Lemma pre_alter gs g h p : pre_uniq gs -> gs !! g = Some h -> (pre p = true -> pre (h_pc h) = true) -> pre_uniq (alter (set_pc p) g gs).
Proof.
  intros Hu Hg Hpre g1 g2 h1 h2 H1 H2 P1 P2 Hk.
  assert (Ho : forall g' h', alter (set_pc p) g gs !! g' = Some h' -> pre (h_pc h') = true -> exists h0, gs !! g' = Some h0 /\ pre (h_pc h0) = true /\ h_key h0 = h_key h').
  { intros g' h' Hg' Hp'. apply list_alter_inv in Hg' as [(<- & x & Hx & ->)|(Hne & Hg')]; [|by exists h'].
    exists h. rewrite Hg in Hx. injection Hx as <-. split; [done|]. split; [by apply Hpre|done]. }
  destruct (Ho _ _ H1 P1) as (x1 & X1 & Y1 & Z1). destruct (Ho _ _ H2 P2) as (x2 & X2 & Y2 & Z2). eapply Hu; try done. congruence.
Qed.
Lemma no_ret_alter gs g h p c i : gs !! g = Some h -> is_ret (h_pc h) = false -> no_ret (alter (set_pc p) g gs) c i -> no_ret gs c i.
Proof.
  intros Hg Hr Hn g' h' Hg' E1 E2. destruct (decide (g = g')) as [->|Hne]; [rewrite Hg in Hg'; by injection Hg' as <-|].
  apply (Hn g' h'); [|done|done]. by rewrite list_lookup_alter_ne.
Qed.
Lemma gor_of f s g h : sim f s -> m_gors f !! g = Some h -> s_gors s !! g = Some (absg h).
Proof. intros S Hg. by rewrite (r_gors _ _ S), list_lookup_fmap, Hg. Qed.
Lemma call_of f s c k : sim f s -> m_calls f !! c = Some k -> exists cl, s_calls s !! c = Some cl /\ callrel k cl.
Proof. intros S Hc. exact (Forall2_lookup_l _ _ _ _ _ (r_calls _ _ S) Hc). Qed.
Lemma call_len f s : sim f s -> length (s_calls s) = length (m_calls f).
Proof. intros S. symmetry. eapply Forall2_length, (r_calls _ _ S). Qed.
(** The goroutine that carries out a target is the only one for its key. *)
Lemma owner_uniq w f s g1 g2 h1 h2 : reachable w s -> sim f s -> m_gors f !! g1 = Some h1 -> m_gors f !! g2 = Some h2 ->
  is_owner (absg h1) = true -> is_owner (absg h2) = true -> h_key h1 = h_key h2 -> g1 = g2.
Proof.
  intros Hr S H1 H2 O1 O2 Hk. destruct (inv_ran_holds _ _ Hr) as (_ & Hu & _).
  by apply (Hu g1 g2 (absg h1) (absg h2)); [by apply (gor_of f)|by apply (gor_of f)|..].
Qed.
Lemma owner_ran w f s g h : reachable w s -> sim f s -> m_gors f !! g = Some h -> is_owner (absg h) = true -> exists e, s_ran s !! h_key h = Some {| o_open := false; o_err := e |}.
Proof.
  intros Hr S Hg Ho. destruct (inv_ran_holds _ _ Hr) as (H & _). specialize (H _ _ (gor_of _ _ _ _ S Hg)). unfold st_ok, is_owner in *.
  destruct (g_st (absg h)); try done; [by eexists|by eexists|]. destruct H as (e & H & _). by exists e.
Qed.

(** The outcome is put into the map. *)
Lemma sim_insert f s g h : sim f s -> m_gors f !! g = Some h -> h_pc h = PAbsent ->
  sim (goto g PInserted (f_ran <[h_key h := {| fo_err := None; fo_open := false; fo_lock := false |}]> f)) s.
Proof.
  intros S Hg Hp. pose proof (r_gok _ _ S _ _ Hg) as Hok. rewrite Hp in Hok. destruct Hok as [Hl Hf].
  assert (Hcr : s_ran s !! h_key h = None). { pose proof (r_ran _ _ S (h_key h)) as H. rewrite Hf in H. by destruct (s_ran s !! h_key h). }
  destruct S. constructor; simpl; try done.
  - rewrite (absg_same g PInserted h); try done. by rewrite Hp.
  - intros c k cl i Hk Hc Hn. apply (r_errs0 c k cl i Hk Hc). eapply no_ret_alter; [exact Hg|by rewrite Hp|exact Hn].
  - intros a. destruct (decide (a = h_key h)) as [->|Hn]; [by rewrite lookup_insert, Hcr|by rewrite lookup_insert_ne].
  - intros g' h' Hg'. apply list_alter_inv in Hg' as [(<- & x & Hx & ->)|(Hne & Hg')].
    + rewrite Hg in Hx. injection Hx as <-. simpl. by rewrite lookup_insert.
    + pose proof (r_gok0 _ _ Hg') as Ho. destruct (decide (h_key h' = h_key h)) as [E|E]; [|by rewrite lookup_insert_ne by done].
      rewrite E, lookup_insert. rewrite E, Hf, Hl in Ho. rewrite Hl. destruct (h_pc h'); simpl in *; naive_solver.
  - intros g1 g2 h1 h2 H1 H2 P1 P2 Hk. apply list_alter_inv in H1 as [(-> & x1 & X1 & ->)|(N1 & H1)]; apply list_alter_inv in H2 as [(-> & x2 & X2 & ->)|(N2 & H2)]; try done.
    + rewrite Hg in X1. injection X1 as <-. simpl in Hk. pose proof (r_gok0 _ _ H2) as Ho. rewrite <-Hk, Hf in Ho. destruct (h_pc h2); try done; naive_solver.
    + rewrite Hg in X2. injection X2 as <-. simpl in Hk. pose proof (r_gok0 _ _ H1) as Ho. rewrite Hk, Hf in Ho. destruct (h_pc h1); try done; naive_solver.
    + by eapply r_pre0.
Qed.

(** target.Run is called. *)
Lemma sim_start w f s g r h : sim f s -> m_gors f !! g = Some h -> h_pc h = PRun ->
  exists s', step w s (ChGo g r) = Some s' /\
    sim (goto g (PBody (body w (h_obj h) (h_cx h))) (f_emit (EvStart g (h_key h) (h_obj h) (h_cx h)) f)) s'.
Proof.
  intros S Hg Hp. pose proof (r_gok _ _ S _ _ Hg) as Hok. rewrite Hp in Hok. destruct Hok as [Hf Hcr].
  eexists. split.
  { simpl. unfold step_go. rewrite (gor_of _ _ _ _ S Hg). simpl. rewrite Hp. simpl. rewrite Hcr. reflexivity. }
  assert (Hopen : forall fo, m_ran f !! h_key h = Some fo -> fo_open fo = false).
  { intros fo E. pose proof (r_ran _ _ S (h_key h)) as H. by rewrite E, Hcr in H. }
  destruct S. constructor; simpl; try done.
  - by rewrite r_log0.
  - by rewrite absg_alter, r_gors0.
  - intros c k cl i Hk Hc Hn. apply (r_errs0 c k cl i Hk Hc). eapply no_ret_alter; [exact Hg|by rewrite Hp|exact Hn].
  - intros a. destruct (decide (a = h_key h)) as [->|Hn]; [|by rewrite lookup_insert_ne]. rewrite lookup_insert.
    destruct (m_ran f !! h_key h) as [fo|] eqn:E; [|done]. simpl. split; [by apply Hopen|done].
  - intros g' h' Hg'. apply list_alter_inv in Hg' as [(<- & x & Hx & ->)|(Hne & Hg')]; [done|].
    pose proof (r_gok0 _ _ Hg') as Ho. destruct (decide (h_key h' = h_key h)) as [E|E]; [|by rewrite lookup_insert_ne by done].
    assert (Hpre : pre (h_pc h') = false).
    { destruct (pre (h_pc h')) eqn:Ep; [|done]. exfalso. apply Hne. symmetry. eapply (r_pre0 g g' h h'); [done|done|by rewrite Hp|done|done]. }
    rewrite E, lookup_insert. rewrite E, Hcr in Ho. destruct (h_pc h'); simpl in *; try done; naive_solver.
  - by eapply pre_alter; [exact r_pre0|exact Hg|].
Qed.

(** target.Run returns. *)
Lemma sim_end w f s g r h e : reachable w s -> sim f s -> m_gors f !! g = Some h -> h_pc h = PBody (Ret e) ->
  exists s', step w s (ChGo g r) = Some s' /\
    sim (goto g (PRet (wrap (h_obj h) e)) (f_emit (EvEnd g (h_key h) (h_obj h) e) f)) s'.
Proof.
  intros Hre S Hg Hp. eexists. split.
  { simpl. unfold step_go. rewrite (gor_of _ _ _ _ S Hg). simpl. rewrite Hp. simpl. reflexivity. }
  destruct (owner_ran w f s g h Hre S Hg) as (e0 & Hcr); [unfold is_owner; simpl; by rewrite Hp|].
  pose proof (owner_uniq w f s g) as Hu. pose proof S as S0. destruct S. constructor; simpl; try done.
  - by rewrite r_log0.
  - by rewrite absg_alter, r_gors0.
  - apply Forall2_alter_r; [done|]. intros k cl _ _ (H1 & H2 & H3 & H4 & H5 & H6). split; [done|]. simpl. rewrite insert_length. done.
  - intros c k cl i Hk Hc Hn. apply list_alter_inv in Hc as [(-> & cl0 & Hc & ->)|(Hne & Hc)].
    + simpl. rewrite list_lookup_insert_ne.
      * apply (r_errs0 _ k cl0 i Hk Hc). eapply no_ret_alter; [exact Hg|by rewrite Hp|exact Hn].
      * intros <-. specialize (Hn g (set_pc (PRet (wrap (h_obj h) e)) h)). rewrite list_lookup_alter, Hg in Hn. by specialize (Hn eq_refl eq_refl eq_refl).
    + apply (r_errs0 c k cl i Hk Hc). eapply no_ret_alter; [exact Hg|by rewrite Hp|exact Hn].
  - intros a. specialize (r_ran0 a). destruct (decide (a = h_key h)) as [->|Hn]; [|by rewrite lookup_alter_ne]. rewrite lookup_alter, Hcr in *. simpl in *.
    destruct (m_ran f !! h_key h) as [fo|]; [|done]. simpl in *. split; [by destruct r_ran0|done].
  - intros g' h' Hg'. apply list_alter_inv in Hg' as [(<- & x & Hx & ->)|(Hne & Hg')].
    + rewrite Hg in Hx. injection Hx as <-. simpl. rewrite lookup_alter, Hcr. simpl. by eexists.
    + pose proof (r_gok0 _ _ Hg') as Ho. destruct (decide (h_key h' = h_key h)) as [E|E]; [|by rewrite lookup_alter_ne by done].
      assert (Hown : is_owner (absg h') = false).
      { destruct (is_owner (absg h')) eqn:Ep; [|done]. exfalso. apply Hne. symmetry. apply (Hu g' h h' Hre S0 Hg Hg'); [unfold is_owner; simpl; by rewrite Hp|done|done]. }
      rewrite E in Ho |- *. rewrite lookup_alter, Hcr in *. unfold is_owner in Hown. simpl in Hown. destruct (h_pc h'); simpl in *; try done; naive_solver.
  - by eapply pre_alter; [exact r_pre0|exact Hg|].
Qed.

Lemma wg_pos w f s g h k : reachable w s -> sim f s -> m_gors f !! g = Some h -> h_pc h <> PEnd -> m_calls f !! h_call h = Some k -> k_wg k <> 0.
Proof.
  intros Hr S Hg Hp Hk H0. destruct (call_of _ _ _ _ S Hk) as (cl & Hc & (_ & _ & _ & Hw & _)). rewrite H0 in Hw.
  pose proof (inv_wg_holds _ _ Hr _ _ Hc) as H. rewrite Hw in H. symmetry in H. pose proof (countb_zero _ _ _ _ H (gor_of _ _ _ _ S Hg)) as Hl.
  unfold live_of, g_done in Hl. simpl in Hl. rewrite bool_decide_true in Hl by done. destruct (h_pc h); simpl in Hl; done.
Qed.
(** The call of a goroutine, and its slot. *)
Lemma call_exists w f s g h : reachable w s -> sim f s -> m_gors f !! g = Some h ->
  exists k cl, m_calls f !! h_call h = Some k /\ s_calls s !! h_call h = Some cl /\ h_idx h < length (k_errs k) /\ length (c_errs cl) = length (k_errs k).
Proof.
  intros Hr S Hg. pose proof (gor_of _ _ _ _ S Hg) as Hg'. destruct (inv_link_holds _ _ Hr _ _ Hg') as (cl & o & Hc & _ & _ & _ & _ & Hi & _).
  pose proof (inv_shape_holds _ _ Hr) as Hs. pose proof (cpos_le _ _ _ Hs Hc) as Hp. destruct (Hs _ _ Hc) as [Hl _]. simpl in *.
  destruct (Forall2_lookup_r _ _ _ _ _ (r_calls _ _ S) Hc) as (k & Hk & (_ & _ & _ & _ & He & _)). exists k, cl. split; [done|]. split; [done|]. split; [lia|done].
Qed.
Lemma cok_put_err l c k i e : k_wg k <> 0 -> cok l c k -> cok l c (put_err i e k).
Proof. unfold cok. intros Hw H. destruct k as [? ? ? ? ? p]. simpl in *. destruct p; simpl in *; naive_solver. Qed.
Lemma no_ret_other gs g h p c i : gs !! g = Some h -> ~ (h_call h = c /\ h_idx h = i) -> no_ret (alter (set_pc p) g gs) c i -> no_ret gs c i.
Proof.
  intros Hg Hr Hn g' h' Hg' E1 E2. destruct (decide (g = g')) as [->|Hne].
  - rewrite Hg in Hg'. injection Hg' as <-. by destruct Hr.
  - apply (Hn g' h'); [|done|done]. by rewrite list_lookup_alter_ne.
Qed.
Lemma put_errs w f s g h i e c k : reachable w s -> sim f s -> m_gors f !! g = Some h -> h_pc h <> PEnd -> h_call h = c ->
  alter (put_err i e) c (m_calls f) !! c = Some k -> forall l, (forall c k, m_calls f !! c = Some k -> cok l c k) -> cok l c k.
Proof.
  intros Hr S Hg Hp <- Hk l Hl. rewrite list_lookup_alter in Hk. destruct (m_calls f !! h_call h) as [k0|] eqn:E; [|done]. injection Hk as <-.
  apply cok_put_err; [by eapply wg_pos|by apply Hl].
Qed.

(** errs[i] = err, line 110. *)
Lemma sim_ret w f s g h e : reachable w s -> sim f s -> m_gors f !! g = Some h -> h_pc h = PRet e ->
  sim (goto g (PErr e) (on_call (h_call h) (put_err (h_idx h) e) f)) s.
Proof.
  intros Hre S Hg Hp. destruct (call_exists w f s g h Hre S Hg) as (k0 & cl0 & Hk0 & Hc0 & Hi & Hlen).
  pose proof (r_gok _ _ S _ _ Hg) as Hok. rewrite Hp in Hok. destruct Hok as (oc & Hcr & He).
  assert (Hslot : c_errs cl0 !! h_idx h = Some e).
  { destruct (inv_ran_holds _ _ Hre) as (H & _). specialize (H _ _ (gor_of _ _ _ _ S Hg)). unfold st_ok in H. simpl in H. rewrite Hp in H. simpl in H.
    destruct H as (e' & H1 & H2). unfold slot in H2. simpl in H2. rewrite Hc0 in H2. simpl in H2. rewrite H2. f_equal. rewrite Hcr in H1. injection H1 as ->. done. }
  pose proof S as S0. destruct S. constructor; simpl; try done.
  - rewrite (absg_same g (PErr e) h); try done. by rewrite Hp.
  - apply Forall2_alter_l; [done|]. intros k cl _ _ (H1 & H2 & H3 & H4 & H5 & H6). split; [done|]. simpl. rewrite insert_length. done.
  - intros c k cl i Hk Hc Hn. apply list_alter_inv in Hk as [(-> & k1 & Hk & ->)|(Hne & Hk)].
    + rewrite Hk0 in Hk. injection Hk as <-. rewrite Hc0 in Hc. injection Hc as <-. simpl. destruct (decide (i = h_idx h)) as [->|Hni]; [by rewrite list_lookup_insert|].
      rewrite list_lookup_insert_ne by done. apply (r_errs0 _ k0 cl0 i Hk0 Hc0). eapply no_ret_other; [exact Hg| |exact Hn]. naive_solver.
    + apply (r_errs0 c k cl i Hk Hc). eapply no_ret_other; [exact Hg| |exact Hn]. naive_solver.
  - intros g' h' Hg'. apply list_alter_inv in Hg' as [(<- & x & Hx & ->)|(Hne & Hg')]; [|by apply r_gok0].
    rewrite Hg in Hx. injection Hx as <-. simpl. by exists oc.
  - intros c k Hk. destruct (decide (h_call h = c)) as [E|E].
    + rewrite E in Hk. eapply (put_errs w f s g h); try done. by rewrite Hp.
    + apply r_cok0. by rewrite list_lookup_alter_ne in Hk.
  - by eapply pre_alter; [exact r_pre0|exact Hg|].
Qed.

(** o.err = err, line 111. *)
Lemma sim_err w f s g h e : reachable w s -> sim f s -> m_gors f !! g = Some h -> h_pc h = PErr e ->
  sim (goto g PSet (on_outcome (h_key h) (fun o => {| fo_err := e; fo_open := fo_open o; fo_lock := fo_lock o |}) f)) s.
Proof.
  intros Hre S Hg Hp. pose proof (r_gok _ _ S _ _ Hg) as Hok. rewrite Hp in Hok. destruct Hok as (oc & Hcr & He).
  destruct (owner_ran w f s g h Hre S Hg) as (e0 & Hcr'); [unfold is_owner; simpl; by rewrite Hp|]. rewrite Hcr in Hcr'. injection Hcr' as Hoc.
  assert (Ho : o_open oc = false) by by rewrite Hoc.
  pose proof (owner_uniq w f s g) as Hu. pose proof S as S0. destruct S.
  pose proof (r_ran0 (h_key h)) as Hra. rewrite Hcr in Hra. destruct (m_ran f !! h_key h) as [fo|] eqn:Hfr; [|done]. destruct Hra as [Hra _].
  constructor; simpl; try done.
  - rewrite (absg_same g PSet h); try done. by rewrite Hp.
  - intros c k cl i Hk Hc Hn. apply (r_errs0 c k cl i Hk Hc). eapply no_ret_alter; [exact Hg|by rewrite Hp|exact Hn].
  - intros a. specialize (r_ran0 a). destruct (decide (a = h_key h)) as [->|Hn]; [|by rewrite lookup_alter_ne]. rewrite lookup_alter, Hfr, Hcr. simpl. split; [done|]. by rewrite Ho.
  - intros g' h' Hg'. apply list_alter_inv in Hg' as [(<- & x & Hx & ->)|(Hne & Hg')].
    + rewrite Hg in Hx. injection Hx as <-. simpl. rewrite lookup_alter, Hfr. simpl. by eexists _, oc.
    + pose proof (r_gok0 _ _ Hg') as Hok. destruct (decide (h_key h' = h_key h)) as [E|E]; [|by rewrite lookup_alter_ne by done].
      assert (Hown : is_owner (absg h') = false).
      { destruct (is_owner (absg h')) eqn:Ep; [|done]. exfalso. apply Hne. symmetry. apply (Hu g' h h' Hre S0 Hg Hg'); [unfold is_owner; simpl; by rewrite Hp|done|done]. }
      rewrite E in Hok |- *. rewrite lookup_alter, Hcr, Hfr in *. simpl. unfold is_owner in Hown. simpl in Hown. rewrite Ho in Hra.
      clear - Hok Hown Hra. destruct (h_pc h'); simpl in *; try done; try (destruct Hok as (fo' & E1 & E2 & _); injection E1 as <-; congruence); naive_solver.
  - by eapply pre_alter; [exact r_pre0|exact Hg|].
Qed.

(** The gate is opened. *)
Lemma sim_open w f s g r h : reachable w s -> sim f s -> m_gors f !! g = Some h -> h_pc h = PSetL ->
  exists s', step w s (ChGo g r) = Some s' /\
    sim (goto g PSetU (on_outcome (h_key h) (fun o => {| fo_err := fo_err o; fo_open := true; fo_lock := fo_lock o |}) f)) s'.
Proof.
  intros Hre S Hg Hp. eexists. split.
  { simpl. unfold step_go. rewrite (gor_of _ _ _ _ S Hg). simpl. rewrite Hp. simpl. reflexivity. }
  pose proof (r_gok _ _ S _ _ Hg) as Hok. rewrite Hp in Hok. destruct Hok as (fo & oc & Hfr & Hcr & He).
  pose proof (owner_uniq w f s g) as Hu. pose proof S as S0. destruct S. constructor; simpl; try done.
  - by rewrite absg_alter, r_gors0.
  - intros c k cl i Hk Hc Hn. apply (r_errs0 c k cl i Hk Hc). eapply no_ret_alter; [exact Hg|by rewrite Hp|exact Hn].
  - intros a. specialize (r_ran0 a). destruct (decide (a = h_key h)) as [->|Hn]; [|by rewrite !lookup_alter_ne]. by rewrite !lookup_alter, Hfr, Hcr.
  - intros g' h' Hg'. apply list_alter_inv in Hg' as [(<- & x & Hx & ->)|(Hne & Hg')]; [done|].
    pose proof (r_gok0 _ _ Hg') as Hok. destruct (decide (h_key h' = h_key h)) as [E|E]; [|by rewrite !lookup_alter_ne by done].
    assert (Hown : is_owner (absg h') = false).
    { destruct (is_owner (absg h')) eqn:Ep; [|done]. exfalso. apply Hne. symmetry. apply (Hu g' h h' Hre S0 Hg Hg'); [unfold is_owner; simpl; by rewrite Hp|done|done]. }
    rewrite E in Hok |- *. rewrite !lookup_alter, Hcr, Hfr in *. simpl. unfold is_owner in Hown. simpl in Hown.
    clear - Hok Hown. destruct (h_pc h'); simpl in *; try done; naive_solver.
  - by eapply pre_alter; [exact r_pre0|exact Hg|].
Qed.

(** errs[i] = o.err, line 99: both steps of RunnerModel.v. *)
Lemma sim_got w f s g r h e : reachable w s -> sim f s -> m_gors f !! g = Some h -> h_pc h = PGot e ->
  exists s1 s', step w s (ChGo g r) = Some s1 /\ step w s1 (ChGo g r) = Some s' /\
    sim (goto g PExit (on_call (h_call h) (put_err (h_idx h) e) f)) s'.
Proof.
  intros Hre S Hg Hp. destruct (call_exists w f s g h Hre S Hg) as (k0 & cl0 & Hk0 & Hc0 & Hi & Hlen).
  pose proof (r_gok _ _ S _ _ Hg) as Hok. rewrite Hp in Hok. destruct Hok as (fo & Hfr & Ho & He).
  pose proof (r_ran _ _ S (h_key h)) as Hra. rewrite Hfr in Hra. destruct (s_ran s !! h_key h) as [oc|] eqn:Hcr; simpl in Hra; [|congruence].
  destruct Hra as [Ho' He']. rewrite Ho in Ho'. symmetry in Ho'. specialize (He' Ho').
  eexists. eexists. split.
  { simpl. unfold step_go. rewrite (gor_of _ _ _ _ S Hg). simpl. rewrite Hp. simpl. rewrite Hcr. reflexivity. }
  split.
  { simpl. unfold step_go. simpl. rewrite list_lookup_alter, (gor_of _ _ _ _ S Hg). simpl. rewrite Hcr. simpl. rewrite Ho'. reflexivity. }
  pose proof S as S0. destruct S. constructor; simpl; try done.
  - rewrite absg_alter, r_gors0. rewrite <-list_alter_compose. reflexivity.
  - apply Forall2_alter; [done|]. intros k cl _ _ (H1 & H2 & H3 & H4 & H5 & H6). split; [done|]. simpl. rewrite !insert_length. done.
  - intros c k cl i Hk Hc Hn. apply list_alter_inv in Hk as [(-> & k1 & Hk & ->)|(Hne & Hk)].
    + rewrite list_lookup_alter, Hc0 in Hc. injection Hc as <-. rewrite Hk0 in Hk. injection Hk as <-. simpl.
      destruct (decide (i = h_idx h)) as [->|Hni]; [rewrite !list_lookup_insert by lia; congruence|].
      rewrite !list_lookup_insert_ne by done. apply (r_errs0 _ k0 cl0 i Hk0 Hc0). eapply no_ret_alter; [exact Hg|by rewrite Hp|exact Hn].
    + rewrite list_lookup_alter_ne in Hc by done. apply (r_errs0 c k cl i Hk Hc). eapply no_ret_alter; [exact Hg|by rewrite Hp|exact Hn].
  - intros g' h' Hg'. apply list_alter_inv in Hg' as [(<- & x & Hx & ->)|(Hne & Hg')]; [done|]. by apply r_gok0.
  - intros c k Hk. destruct (decide (h_call h = c)) as [E|E].
    + rewrite E in Hk. eapply (put_errs w f s g h); try done. by rewrite Hp.
    + apply r_cok0. by rewrite list_lookup_alter_ne in Hk.
  - by eapply pre_alter; [exact r_pre0|exact Hg|].
Qed.

(** wg.Done(), line 85. *)
Lemma sim_exit w f s g r h : reachable w s -> sim f s -> m_gors f !! g = Some h -> h_pc h = PExit ->
  exists s', step w s (ChGo g r) = Some s' /\ sim (goto g PEnd (on_call (h_call h) (put_wg pred) f)) s'.
Proof.
  intros Hre S Hg Hp. eexists. split.
  { simpl. unfold step_go. rewrite (gor_of _ _ _ _ S Hg). simpl. rewrite Hp. simpl. reflexivity. }
  pose proof (wg_pos w f s g h) as Hw. pose proof S as S0. destruct S. constructor; simpl; try done.
  - by rewrite absg_alter, r_gors0.
  - apply Forall2_alter; [done|]. intros k cl _ _ (H1 & H2 & H3 & H4 & H5 & H6). repeat (split; [done|]). simpl. rewrite H4. done.
  - intros c k cl i Hk Hc Hn.
    assert (Hk' : exists k', m_calls f !! c = Some k' /\ k_errs k = k_errs k') by (apply list_alter_inv in Hk as [(-> & k1 & Hk & ->)|(Hne & Hk)]; by eexists).
    assert (Hc' : exists cl', s_calls s !! c = Some cl' /\ c_errs cl = c_errs cl') by (apply list_alter_inv in Hc as [(-> & k1 & Hc & ->)|(Hne & Hc)]; by eexists).
    destruct Hk' as (k' & Hk' & ->). destruct Hc' as (cl' & Hc' & ->). apply (r_errs0 c k' cl' i Hk' Hc'). eapply no_ret_alter; [exact Hg|by rewrite Hp|exact Hn].
  - intros g' h' Hg'. apply list_alter_inv in Hg' as [(<- & x & Hx & ->)|(Hne & Hg')]; [done|]. by apply r_gok0.
  - intros c k Hk. apply list_alter_inv in Hk as [(-> & k1 & Hk & ->)|(Hne & Hk)]; [|by apply r_cok0].
    specialize (r_cok0 _ _ Hk). specialize (Hw k1 Hre S0 Hg ltac:(by rewrite Hp) Hk). unfold cok in *. destruct k1 as [? ? ? ? ? p]. simpl in *. destruct p; simpl in *; naive_solver.
  - by eapply pre_alter; [exact r_pre0|exact Hg|].
Qed.

(** Other steps of a target's body. *)
Lemma sim_body f s g h p0 p ev ca : sim f s -> m_gors f !! g = Some h -> h_pc h = PBody p0 ->
  sim (goto g (PBody p) (f_emit ev (f_cache (fun _ => ca) f))) (upd_gor g (GBody p) (emit ev (with_cache ca s))).
Proof.
  intros S Hg Hp. destruct S. constructor; simpl; try done.
  - by rewrite r_log0.
  - by rewrite absg_alter, r_gors0.
  - intros c k cl i Hk Hc Hn. apply (r_errs0 c k cl i Hk Hc). eapply no_ret_alter; [exact Hg|by rewrite Hp|exact Hn].
  - intros g' h' Hg'. apply list_alter_inv in Hg' as [(<- & x & Hx & ->)|(Hne & Hg')]; [done|]. by apply r_gok0.
  - by eapply pre_alter; [exact r_pre0|exact Hg|].
Qed.
Lemma with_same s : with_cache (s_cache s) s = s.
Proof. by destruct s. Qed.
Lemma resolve_same w f s d : sim f s -> resolve w d s = let '(ca, res) := f_resolve w d f in (with_cache ca s, res).
Proof.
  intros S. unfold resolve, f_resolve. rewrite <-(r_reg _ _ S), <-(r_cache _ _ S).
  destruct (s_cache s !! d); [by rewrite with_same|]. destruct (w_deferred w d) as [name|]; [|by rewrite with_same]. destruct (s_reg s !! name); [done|by rewrite with_same].
Qed.
