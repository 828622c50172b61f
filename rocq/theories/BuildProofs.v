From stdpp Require Import base gmap list strings.
From Verif Require Import PathModel FindModel FileHashModel FileHashSpec FilesModel FilesSpec FilesProofs4.
From Verif Require Import ContextModel RunnerModel RunnerSteps RunnerSpec RunnerInv RunnerInv2 RunnerInv3 RunnerInv4 RunnerInv5 RunnerInv6.
From Verif Require Import RunnerProofs RunnerProofs2 RunnerProofs3 ChainModel ChainProofs BuildModel BuildSpec.
Local Open Scope list_scope.

(** ** A goroutine comes after the one whose body requested it. *)
Definition inv_order (s : state) : Prop :=
  forall g gr cl g', s_gors s !! g = Some gr -> s_calls s !! g_call gr = Some cl -> c_parent cl = Some g' -> g' < g.
Lemma inv_order_holds w s : reachable w s -> inv_order s.
Proof.
  revert s. apply reachable_ind; [done|].
  intros s ch s' Hre IH Hstep g gr' cl' g' Hg Hc' Hp.
  apply inv_shape_holds in Hre as Hsh. pose proof (inv_parent_holds _ _ Hre) as (P1 & _).
  pose proof (gor_step_inv _ _ _ _ _ _ Hstep Hg)
    as [(gr & Hgr & E)|(c & cl & i & o & todo & ca & -> & -> & Hc & Est & Hacc & Hca & Hcs & Hgr')].
  - rewrite E in Hc'. destruct (inv_link_holds _ _ Hre _ _ Hgr) as (cl & o & Hc & _).
    destruct (call_step _ _ _ _ _ _ Hsh Hstep Hc) as (cl2 & Hc2 & Hp2 & _). simpl in Hc'. simplify_eq.
    eapply IH; [exact Hgr|exact Hc|congruence].
  - rewrite Hgr' in Hc'. simpl in Hc'. rewrite Hcs, list_lookup_alter, Hc in Hc'. simpl in Hc'. simplify_eq. simpl in Hp.
    destruct (P1 _ _ _ Hc Hp) as (gp & k & Hgp & _); [by rewrite Est|]. by eapply lookup_lt_Some.
Qed.

Lemma live_call w s g gr : reachable w s -> s_gors s !! g = Some gr -> g_st gr <> GDone ->
  exists cl, s_calls s !! g_call gr = Some cl /\ forall e, c_st cl <> CReturned e.
Proof.
  intros Hre Hg Hst. destruct (inv_link_holds _ _ Hre _ _ Hg) as (cl & o & Hc & _). exists cl. split; [done|].
  intros e He. destruct (proj2 (proj2 (inv_calls_holds _ _ Hre)) _ _ _ Hc He) as [_ Hw].
  rewrite (inv_wg_holds _ _ Hre _ _ Hc) in Hw. pose proof (countb_zero _ _ _ _ Hw Hg) as Hz.
  unfold live_of, g_done in Hz. rewrite bool_decide_eq_true_2 in Hz by done. by destruct (g_st gr).
Qed.

(** ** What belongs to a Files target runs only while that target is waiting for its subtarget,
    and that is running. *)
Definition running (gr : gor) : Prop := (exists p, g_st gr = GBody p) \/ exists c k, g_st gr = GCalling c k.
Lemma running_owner gr : running gr -> is_owner gr = true /\ g_st gr <> GDone.
Proof. unfold is_owner. intros [[p ->]|(c & k & ->)]; done. Qed.
Lemma nest_state p owner s : reachable (p_world p) s -> orderly p owner (s_log s) ->
  forall g gr i, s_gors s !! g = Some gr -> running gr -> owner (g_obj gr) = Some i ->
  exists gf grf c k cx ts gs grs, s_gors s !! gf = Some grf /\ g_obj grf = i /\ g_st grf = GCalling c k /\
    EvCall c (Some gf) cx ts ∈ s_log s /\ s_gors s !! gs = Some grs /\ running grs /\ TPtr (g_obj grs) ∈ ts /\ owner (g_obj grs) = Some i.
Proof.
  intros Hre Hor g. induction (lt_wf g) as [g _ IH]. intros gr i Hg Hst Ho.
  destruct (live_call _ _ _ _ Hre Hg (proj2 (running_owner _ Hst))) as (cl & Hc & Hnr).
  destruct (inv_link_holds _ _ Hre _ _ Hg) as (cl' & o & Hc' & Ht & Hk & Hd & Hca & _). simplify_eq.
  assert (Hobj : g_obj gr = o).
  { destruct (w_deferred (p_world p) o) as [name|] eqn:E; [|by apply Hd]. exfalso.
    destruct (proj2 (proj2 (inv_reg_holds _ _ Hre)) _ _ (Hca _ eq_refl)) as (name' & _ & Hr).
    by eapply (or_named _ _ _ Hor). }
  subst o. apply elem_of_list_lookup_2 in Ht.
  assert (Hcall : EvCall (g_call gr) (c_parent cl) (c_cx cl) (c_targets cl) ∈ s_log s).
  { apply (proj1 (inv_calls_holds _ _ Hre)). eauto. }
  destruct (c_parent cl) as [g'|] eqn:Ep.
  2: { exfalso. by eapply (or_client _ _ _ Hor). }
  destruct (proj1 (inv_parent_holds _ _ Hre) _ _ _ Hc Ep Hnr) as (gr' & k & Hg' & Hst').
  assert (Hs : EvStart g' (g_key gr') (g_obj gr') (g_cx gr') ∈ s_log s).
  { apply (proj1 (proj2 (inv_start_holds _ _ Hre))); [done|]. unfold is_owner. by rewrite Hst'. }
  destruct (or_call _ _ _ Hor _ _ _ _ _ _ _ _ _ Hs Hcall Ht Ho) as [Hi|Hi].
  - by exists g', gr', (g_call gr), k, (c_cx cl), (c_targets cl), g, gr.
  - eapply (IH g'); [by eapply inv_order_holds|exact Hg'|right; eauto|done].
Qed.
Lemma runs_no_end g a o p h st : runs g a o p h st -> (forall e, st <> Fin e) -> forall g' a' o' e, EvEnd g' a' o' e ∉ h.
Proof.
  intros Hr. induction Hr as [p|e|l k' r h st H IH|d k' r h st H IH|cx1 ts1 k' c1|cx1 ts1 k' c1 e h st H IH]; intros Hn g' a' o' e'.
  - apply not_elem_of_nil.
  - by destruct (Hn e).
  - intros [?|Hin]%elem_of_cons; [done|by eapply IH].
  - intros [?|Hin]%elem_of_cons; [done|by eapply IH].
  - by intros ?%elem_of_list_singleton.
  - intros [?|[?|Hin]%elem_of_cons]%elem_of_cons; [done..|by eapply IH].
Qed.
Lemma running_no_end w s g gr : reachable w s -> s_gors s !! g = Some gr -> running gr -> forall a o e, EvEnd g a o e ∉ s_log s.
Proof.
  intros Hre Hg Hrun a o e Hin. pose proof (proj1 (inv_hist_holds _ _ Hre) _ _ Hg) as Hok. unfold hist_ok in Hok.
  assert (Hin' : EvEnd g a o e ∈ hist g s) by (apply elem_of_list_filter; done).
  destruct Hrun as [[q E]|(c & k & E)]; rewrite E in Hok; by eapply (runs_no_end _ _ _ _ _ _ Hok).
Qed.
(** What belongs to a Files target runs under its own address. *)
Lemma owned_addr p owner tr g a x i cx : trace (p_world p) tr -> orderly p owner tr -> owner x = Some i -> EvStart g a x cx ∈ tr -> a = w_addr (p_world p) x.
Proof.
  intros Ht Hor Hx Hs. apply trace_reachable in Ht as (s & Hre & E). rewrite <-E in Hs.
  destruct (proj1 (inv_start_holds _ _ Hre) _ _ _ _ Hs) as (gr & Hg & Hk & Ho & _).
  destruct (inv_link_holds _ _ Hre _ _ Hg) as (cl & o & Hc & Hti & Hkey & Hd & Hca & _).
  destruct (w_deferred (p_world p) o) as [name|] eqn:Ed.
  - exfalso. destruct (proj2 (proj2 (inv_reg_holds _ _ Hre)) _ _ (Hca _ eq_refl)) as (name' & Hn & Hr).
    rewrite Ho, E in Hr. by eapply (or_named _ _ _ Hor name' x).
  - specialize (Hd eq_refl). congruence.
Qed.
Lemma owned_once p owner tr g a x i cx g' a' cx' : trace (p_world p) tr -> orderly p owner tr -> owner x = Some i ->
  EvStart g a x cx ∈ tr -> EvStart g' a' x cx' ∈ tr -> g' = g /\ a' = a /\ cx' = cx.
Proof.
  intros Ht Hor Hx H1 H2. pose proof (owned_addr _ _ _ _ _ _ _ _ Ht Hor Hx H1) as ->. pose proof (owned_addr _ _ _ _ _ _ _ _ Ht Hor Hx H2) as ->.
  apply elem_of_list_lookup in H1 as [i1 H1]. apply elem_of_list_lookup in H2 as [i2 H2].
  pose proof (start_unique _ _ _ _ _ _ _ _ _ _ _ Ht H1 H2) as ->. rewrite H1 in H2. by simplify_eq.
Qed.

Lemma runs_in g a o p h c k : runs g a o p h (In c k) -> exists h' cx ts, h = h' ++ [EvCall c (Some g) cx ts].
Proof.
  intros Hr. remember (In c k) as st eqn:E. induction Hr as [p|e|l k' r h st H IH|d k' r h st H IH|cx1 ts1 k' c1|cx1 ts1 k' c1 e h st H IH]; subst; try done.
  - destruct (IH eq_refl) as (h' & cx & ts & ->). by exists (EvEff g l r :: h'), cx, ts.
  - destruct (IH eq_refl) as (h' & cx & ts & ->). by exists (EvResolve g d r :: h'), cx, ts.
  - simplify_eq. by exists [], cx1, ts1.
  - destruct (IH eq_refl) as (h' & cx & ts & ->). by eexists (_ :: _ :: h'), cx, ts.
Qed.

(** ** The calls of a Files target. *)
Lemma runs_ret_inv g a o e h st : runs g a o (Ret e) h st -> h = [] \/ h = [EvEnd g a o e].
Proof. intros Hr. inversion Hr; subst; auto. Qed.
Lemma runs_eff_inv g a o l k h st : runs g a o (Eff l k) h st ->
  h = [] \/ exists r h', h = EvEff g l r :: h' /\ runs g a o (k r) h' st.
Proof. intros Hr. inversion Hr; subst; eauto. Qed.
Lemma runs_call_inv g a o cx ts k h st : runs g a o (Call cx ts k) h st ->
  h = [] \/ exists c, h = [EvCall c (Some g) cx ts] \/
    exists e h', h = EvCall c (Some g) cx ts :: EvRet c (Some g) e :: h' /\ runs g a o (k e) h' st.
Proof. intros Hr. inversion Hr; subst; eauto 10. Qed.

(** The histories of a Files target, after its prerequisites. *)
Inductive tail (g : nat) (a : addr) (f : files) (sub : tref) (cx : ctx) : list event -> Prop :=
  | tl_nil : tail g a f sub cx []
  | tl_calling c : tail g a f sub cx [EvCall c (Some g) cx [sub]]
  | tl_failed c e h : h = [] \/ h = [EvEnd g a (f_id f) (Some e)] ->
      tail g a f sub cx (EvCall c (Some g) cx [sub] :: EvRet c (Some g) (Some e) :: h)
  | tl_plain c h : GetHashDB cx = None \/ GetDryRun cx = true -> h = [] \/ h = [EvEnd g a (f_id f) None] ->
      tail g a f sub cx (EvCall c (Some g) cx [sub] :: EvRet c (Some g) None :: h)
  | tl_hash c h : GetHashDB cx <> None -> GetDryRun cx = false ->
      (h = [] \/ h = [EvEff g (OpHash false (f_id f)) 0] \/
       h = [EvEff g (OpHash false (f_id f)) 0; EvEnd g a (f_id f) (Some (EBody 0))]) ->
      tail g a f sub cx (EvCall c (Some g) cx [sub] :: EvRet c (Some g) None :: h)
  | tl_add c x h : GetHashDB cx <> None -> GetDryRun cx = false ->
      (h = [] \/ h = [EvEff g (OpAdd x) 0] \/ h = [EvEff g (OpAdd x) 0; EvEnd g a (f_id f) None] \/
       exists n, h = [EvEff g (OpAdd x) (S n)] \/ h = [EvEff g (OpAdd x) (S n); EvEnd g a (f_id f) (Some (EBody (S n)))]) ->
      tail g a f sub cx (EvCall c (Some g) cx [sub] :: EvRet c (Some g) None :: EvEff g (OpHash false (f_id f)) (S x) :: h).
Inductive rest (g : nat) (a : addr) (f : files) (sub : tref) (cx : ctx) : list event -> Prop :=
  | rt_run h : GetHashDB cx = None \/ GetForce cx = true \/ GetDryRun cx = true -> tail g a f sub cx h -> rest g a f sub cx h
  | rt_nil : rest g a f sub cx []
  | rt_err h : h = [] \/ h = [EvEnd g a (f_id f) (Some (EBody 0))] ->
      rest g a f sub cx (EvEff g (OpHash true (f_id f)) 0 :: h)
  | rt_hash x : rest g a f sub cx [EvEff g (OpHash true (f_id f)) (S x)]
  | rt_no x h : GetHashDB cx <> None -> GetForce cx = false -> GetDryRun cx = false -> tail g a f sub cx h ->
      rest g a f sub cx (EvEff g (OpHash true (f_id f)) (S x) :: EvEff g (OpHas x) 0 :: h)
  | rt_yes x h : GetHashDB cx <> None -> GetForce cx = false -> GetDryRun cx = false -> h = [] \/ h = [EvEnd g a (f_id f) None] ->
      rest g a f sub cx (EvEff g (OpHash true (f_id f)) (S x) :: EvEff g (OpHas x) 1 :: h)
  | rt_has_err x n h : h = [] \/ h = [EvEnd g a (f_id f) (Some (EBody (S (S n))))] ->
      rest g a f sub cx (EvEff g (OpHash true (f_id f)) (S x) :: EvEff g (OpHas x) (S (S n)) :: h).
Inductive path (reg : gmap string files) (g : nat) (a : addr) (f : files) (sub : tref) (cx : ctx) : list event -> Prop :=
  | pt_rest h : prereqs reg (f_in f) = [] -> rest g a f sub cx h -> path reg g a f sub cx h
  | pt_nil : path reg g a f sub cx []
  | pt_pre c : prereqs reg (f_in f) <> [] -> path reg g a f sub cx [EvCall c (Some g) cx ((fun p => TPtr (f_id p)) <$> prereqs reg (f_in f))]
  | pt_fail c e h : prereqs reg (f_in f) <> [] -> h = [] \/ h = [EvEnd g a (f_id f) (Some e)] ->
      path reg g a f sub cx (EvCall c (Some g) cx ((fun p => TPtr (f_id p)) <$> prereqs reg (f_in f)) :: EvRet c (Some g) (Some e) :: h)
  | pt_ok c h : prereqs reg (f_in f) <> [] -> rest g a f sub cx h ->
      path reg g a f sub cx (EvCall c (Some g) cx ((fun p => TPtr (f_id p)) <$> prereqs reg (f_in f)) :: EvRet c (Some g) None :: h).

Lemma tail_of g a f sub cx h st : runs g a (f_id f) (files_sub f sub cx) h st -> tail g a f sub cx h.
Proof.
  unfold files_sub. intros [->|(c & [->|(e & h' & -> & Hr)])]%runs_call_inv; [constructor..|].
  destruct e as [e|].
  - constructor. apply runs_ret_inv in Hr. auto.
  - unfold files_end in Hr. case_decide as Hdb.
    { apply runs_ret_inv in Hr. apply tl_plain; auto. }
    destruct (GetDryRun cx) eqn:Hdry.
    { apply runs_ret_inv in Hr. apply tl_plain; auto. }
    apply runs_eff_inv in Hr as [->|(r & h2 & -> & Hr)]; [apply tl_hash; auto|].
    destruct r as [|x].
    { apply runs_ret_inv in Hr as [->| ->]; apply tl_hash; auto. }
    apply runs_eff_inv in Hr as [->|(r & h3 & -> & Hr)]; [apply tl_add; auto|].
    destruct r as [|n]; apply runs_ret_inv in Hr as [->| ->]; apply tl_add; eauto 10.
Qed.
Lemma rest_of g a f sub cx h st : runs g a (f_id f) (files_rest f sub cx) h st -> rest g a f sub cx h.
Proof.
  unfold files_rest. case_decide as Hdb.
  { intros Hr%tail_of. apply rt_run; auto. }
  destruct (GetForce cx) eqn:Ef, (GetDryRun cx) eqn:Ed; cbn [orb]; try (intros Hr%tail_of; apply rt_run; by auto).
  intros [->|(r & h' & -> & Hr)]%runs_eff_inv; [apply rt_nil|]. destruct r as [|x].
  { apply runs_ret_inv in Hr. by apply rt_err. }
  apply runs_eff_inv in Hr as [->|(r & h2 & -> & Hr)]; [apply rt_hash|].
  destruct r as [|[|n]].
  - apply tail_of in Hr. by apply rt_no.
  - apply runs_ret_inv in Hr. by apply rt_yes.
  - apply runs_ret_inv in Hr. by apply rt_has_err.
Qed.
Lemma path_of reg g a f sub cx h st : runs g a (f_id f) (files_prog reg f sub cx) h st -> path reg g a f sub cx h.
Proof.
  unfold files_prog. destruct (prereqs reg (f_in f)) as [|q qs] eqn:E.
  { intros Hr%rest_of. by apply pt_rest. }
  rewrite <-E. intros [->|(c & [->|(e & h' & -> & Hr)])]%runs_call_inv; [apply pt_nil|apply pt_pre; by rewrite E|].
  destruct e as [e|].
  - apply runs_ret_inv in Hr. apply pt_fail; [by rewrite E|done].
  - apply rest_of in Hr. apply pt_ok; [by rewrite E|done].
Qed.
