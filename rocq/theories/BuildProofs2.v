From stdpp Require Import base gmap list strings.
From Verif Require Import PathModel FindModel FileHashModel FileHashSpec FilesModel FilesSpec FilesProofs4 PathProofs3.
From Verif Require Import ContextModel RunnerModel RunnerSteps RunnerSpec RunnerInv RunnerInv2 RunnerInv3 RunnerInv4 RunnerInv5 RunnerInv6.
From Verif Require Import RunnerProofs RunnerProofs2 RunnerProofs3 ChainModel ChainProofs BuildModel BuildSpec BuildProofs.
Local Open Scope list_scope.

(** ** Lists. *)
Lemma filter_split {A} (P : A -> Prop) `{!forall x, Decision (P x)} (l X Y : list A) y :
  filter P l = X ++ y :: Y -> exists l1 l2, l = l1 ++ y :: l2 /\ filter P l1 = X /\ filter P l2 = Y.
Proof.
  revert X. induction l as [|z l IH]; intros X E; [by destruct X|].
  destruct (decide (P z)) as [Hz|Hz].
  - rewrite filter_cons_True in E by done. destruct X as [|x X]; simpl in E.
    + injection E as -> <-. by exists [], l.
    + injection E as -> E. destruct (IH _ E) as (l1 & l2 & -> & <- & <-). exists (x :: l1), l2. by rewrite filter_cons_True.
  - rewrite filter_cons_False in E by done. destruct (IH _ E) as (l1 & l2 & -> & <- & <-).
    exists (z :: l1), l2. by rewrite filter_cons_False.
Qed.
Lemma snoc_inj_nil {A} (h : list A) x y : h ++ [x] = [y] -> h = [] /\ x = y.
Proof. intros E. apply (app_inj_tail _ []) in E as [-> ->]. done. Qed.

(** ** Unchanged files. *)
Lemma under_unchanged fs1 fs2 p q : (forall q, at_or_under fs1 p q -> fs2 q = fs1 q) ->
  at_or_under fs1 p q <-> at_or_under fs2 p q.
Proof.
  intros Hu. split.
  - intros Hq. revert Hu. induction Hq as [p|p names n q Hp Hn Hq IH]; intros Hu; [constructor|].
    econstructor; [rewrite Hu; [exact Hp|constructor]|exact Hn|]. apply IH. intros q' Hq'. apply Hu. by econstructor.
  - intros Hq. revert Hu. induction Hq as [p|p names n q Hp Hn Hq IH]; intros Hu; [constructor|].
    rewrite Hu in Hp by constructor. econstructor; [exact Hp|exact Hn|]. apply IH. intros q' Hq'. apply Hu. by econstructor.
Qed.
Lemma covered_unchanged fs1 fs2 items q : unchanged fs1 fs2 items -> covered fs1 items q <-> covered fs2 items q.
Proof.
  intros Hu. unfold covered. split; intros (i & Hi & Hq); exists i; (split; [done|]);
    eapply (under_unchanged fs1 fs2 i q); try done; intros q' Hq'; apply Hu; by exists i.
Qed.
Lemma unchanged_refl fs items : unchanged fs fs items.
Proof. by intros q _. Qed.
Lemma unchanged_trans fs1 fs2 fs3 items : unchanged fs1 fs2 items -> unchanged fs2 fs3 items -> unchanged fs1 fs3 items.
Proof.
  intros H1 H2 q Hq. rewrite <-(H1 q Hq). apply H2. by apply (covered_unchanged fs1 fs2).
Qed.
Lemma unchanged_sub fs1 fs2 i1 i2 : (forall i, i ∈ i1 -> i ∈ i2) -> unchanged fs1 fs2 i2 -> unchanged fs1 fs2 i1.
Proof. intros Hs Hu q (i & Hi & Hq). apply Hu. exists i. auto. Qed.
Lemma unchanged_same_files fs1 fs2 items : unchanged fs1 fs2 items -> same_files fs1 items fs2 items.
Proof.
  intros Hu q e _. rewrite <-(covered_unchanged fs1 fs2 items q Hu). split; intros [Hc He]; (split; [done|]).
  - by rewrite (Hu q Hc).
  - by rewrite <-(Hu q Hc).
Qed.
Lemma unchanged_same_state fs1 fs2 r : unchanged fs1 fs2 (r_in r ++ r_out r) -> same_state fs1 r fs2 r.
Proof.
  intros Hu. split; [done|]. split; apply unchanged_same_files; eapply unchanged_sub; try exact Hu; set_solver.
Qed.

(** ** Environments. *)
Lemma after_app p σ l1 l2 : after p σ (l1 ++ l2) = after p (after p σ l1) l2.
Proof. apply fold_left_app. Qed.
Lemma after_snoc p σ l ev : after p σ (l ++ [ev]) = after_event p (after p σ l) ev.
Proof. by rewrite after_app. Qed.

Lemma orderly_prefix p owner l1 l2 : orderly p owner (l1 ++ l2) -> orderly p owner l1.
Proof.
  intros [H1 H2 H3 H4 H5 H6 H7 H8]. assert (Hi : forall ev, ev ∈ l1 -> ev ∈ l1 ++ l2) by (intros; apply elem_of_app; by left).
  split; eauto.
Qed.
Lemma session_prefix hashf H p σ l1 l2 : session hashf H p σ (l1 ++ l2) -> session hashf H p σ l1.
Proof.
  intros [Ht Hv]. split; [by eapply trace_prefix|]. intros m1 g l r m2 ->. eapply (Hv m1 g l r (m2 ++ l2)). by rewrite <-app_assoc.
Qed.
Lemma settled_prefix p l1 l2 : settled p (l1 ++ l2) -> settled p l1.
Proof.
  intros Hs f g a m1 m2 Hf ->. destruct (Hs f g a m1 (m2 ++ l2) Hf) as [?|(k1 & r & k2 & -> & Hn)]; [by rewrite <-app_assoc|by left|].
  right. exists k1, r, k2. split; [done|]. intros g' n r' Hin. apply (Hn g' n r'). rewrite app_assoc. apply elem_of_app. by left.
Qed.
Lemma work_prefix right p σ l1 l2 : commands_work right p σ (l1 ++ l2) -> commands_work right p σ l1.
Proof.
  intros Hw f m1 g a cx m2 m3 Hf -> Hu. eapply (Hw f m1 g a cx m2 (m3 ++ l2)); [done| |done].
  rewrite <-!app_assoc. cbn [app]. by rewrite <-app_assoc.
Qed.
Lemma build_prefix hashf H right p owner σ l1 l2 : build hashf H right p owner σ (l1 ++ l2) -> build hashf H right p owner σ l1.
Proof.
  intros [H1 H2 H3 H4 H5 H6 H7]. split; [done..|by eapply session_prefix|by eapply orderly_prefix|by eapply settled_prefix|by eapply work_prefix].
Qed.

(** ** Rules. *)
Section rules.
  Context (p : project) (owner : obj -> option obj).
  Context (Hwf : well_formed p).
  Notation w := (p_world p).

  Lemma find_found reg fuel n f : find_loop fuel reg n = Found f -> exists d, reg !! d = Some f.
  Proof.
    revert n. induction fuel as [|fuel IH]; intros n; cbn [find_loop]; [done|].
    destruct (reg !! n) as [f'|] eqn:E; [intros [= ->]; eauto|]. case_decide; [done|]. apply IH.
  Qed.
  Lemma needs_rules f q : q ∈ needs p f -> q ∈ p_rules p.
  Proof.
    intros (i & Hi & Hf)%prereqs_inv. apply find_found in Hf as (d & Hd).
    apply declare_all_lem in Hd as (before & after' & -> & _). apply elem_of_app. right. by left.
  Qed.

  Lemma path_at_rule l1 ev l2 gf a f cx : trace w (l1 ++ ev :: l2) -> f ∈ p_rules p -> concerns gf ev -> EvStart gf a (f_id f) cx ∈ l1 ->
    path (declare_all (p_rules p)) gf a f (TPtr (p_sub p f)) cx (filter (concerns gf) l1 ++ [ev]).
  Proof.
    intros Ht Hf Hc Hs. destruct (path_at w l1 ev l2 gf a (f_id f) cx Ht Hc) as (_ & st & Hr); [apply elem_of_app; by left|].
    unfold body in Hr. rewrite (wf_plain _ Hwf) in Hr by done. rewrite (wf_body _ Hwf) in Hr by done. by eapply path_of.
  Qed.
  Lemma path_in_rule l1 gf a f cx : trace w l1 -> f ∈ p_rules p -> EvStart gf a (f_id f) cx ∈ l1 ->
    path (declare_all (p_rules p)) gf a f (TPtr (p_sub p f)) cx (filter (concerns gf) l1).
  Proof.
    intros (s & Hre & <-)%trace_reachable Hf Hs. destruct (hist_runs _ _ _ _ _ _ Hre Hs) as (st & Hr).
    unfold body in Hr. rewrite (wf_plain _ Hwf) in Hr by done. rewrite (wf_body _ Hwf) in Hr by done. by eapply path_of.
  Qed.
  Lemma tail_calls g a f sub cx h : tail g a f sub cx h -> forall c cx' ts, EvCall c (Some g) cx' ts ∈ h -> cx' = cx /\ ts = [sub].
  Proof.
    intros Hr c cx' ts Hin.
    destruct Hr as [|c1|c1 e h Hh|c1 h Hd Hh|c1 h Hd1 Hd2 Hh|c1 x h Hd1 Hd2 Hh]; rewrite ?elem_of_cons in Hin.
    - by apply elem_of_nil in Hin.
    - destruct Hin as [Hin|Hin]; [by simplify_eq|by apply elem_of_nil in Hin].
    - destruct Hin as [Hin|[Hin|Hin]]; [by simplify_eq|done|]. destruct Hh as [-> | ->]; set_solver.
    - destruct Hin as [Hin|[Hin|Hin]]; [by simplify_eq|done|]. destruct Hh as [-> | ->]; set_solver.
    - destruct Hin as [Hin|[Hin|Hin]]; [by simplify_eq|done|]. destruct Hh as [-> |[-> | ->]]; set_solver.
    - destruct Hin as [Hin|[Hin|[Hin|Hin]]]; [by simplify_eq|done|done|]. destruct Hh as [-> |[-> |[-> |(n & [-> | ->])]]]; set_solver.
  Qed.
  Lemma rest_calls g a f sub cx h : rest g a f sub cx h -> forall c cx' ts, EvCall c (Some g) cx' ts ∈ h -> cx' = cx /\ ts = [sub].
  Proof.
    intros Hr c cx' ts Hin. destruct Hr as [h _ Ht| |h Hh|x|x h _ _ _ Ht|x h _ _ _ Hh|x n h Hh]; rewrite ?elem_of_cons in Hin.
    - by eapply tail_calls.
    - by apply elem_of_nil in Hin.
    - destruct Hh as [-> | ->]; set_solver.
    - set_solver.
    - destruct Hin as [Hin|[Hin|Hin]]; [done..|]. by eapply tail_calls.
    - destruct Hh as [-> | ->]; set_solver.
    - destruct Hh as [-> | ->]; set_solver.
  Qed.
  Lemma path_calls reg g a f sub cx h : path reg g a f sub cx h -> forall c cx' ts, EvCall c (Some g) cx' ts ∈ h ->
    cx' = cx /\ (ts = [sub] \/ ts = (fun p => TPtr (f_id p)) <$> prereqs reg (f_in f)).
  Proof.
    intros Hr c cx' ts Hin. destruct Hr as [h _ Ht| |c1|c1 e h _ Hh|c1 h _ Ht]; rewrite ?elem_of_cons in Hin.
    - apply (rest_calls _ _ _ _ _ _ Ht) in Hin as [-> ->]. auto.
    - by apply elem_of_nil in Hin.
    - destruct Hin as [Hin|Hin]; [simplify_eq; auto|by apply elem_of_nil in Hin].
    - destruct Hin as [Hin|[Hin|Hin]]; [simplify_eq; auto|done|]. destruct Hh as [-> | ->]; set_solver.
    - destruct Hin as [Hin|[Hin|Hin]]; [simplify_eq; auto|done|]. apply (rest_calls _ _ _ _ _ _ Ht) in Hin as [-> ->]. auto.
  Qed.

  (** What belongs to a Files target runs only while a run of that target waits for its
      subtarget, and that is running. *)
  Lemma state_nest s g gr o : reachable w s -> orderly p owner (s_log s) -> s_gors s !! g = Some gr -> running gr -> owner (g_obj gr) = Some o ->
    exists f gf a cx c h, f ∈ p_rules p /\ f_id f = o /\ EvStart gf a o cx ∈ s_log s /\
      filter (concerns gf) (s_log s) = h ++ [EvCall c (Some gf) cx [TPtr (p_sub p f)]] /\
      exists gs b cxs, EvStart gs b (p_sub p f) cxs ∈ s_log s /\ forall b' x' e, EvEnd gs b' x' e ∉ s_log s.
  Proof.
    intros H1 Hor Hg Hst Ho.
    destruct (nest_state p owner s H1 Hor g gr o Hg Hst Ho) as (gf & grf & c & kf & cx & ts & gs & grs & Hgf & Hof & Hstf & Hcall & Hgs & Hrs & Hx & Hxo).
    assert (Hsf : EvStart gf (g_key grf) (g_obj grf) (g_cx grf) ∈ s_log s).
    { apply (proj1 (proj2 (inv_start_holds _ _ H1))); [done|]. unfold is_owner. by rewrite Hstf. }
    assert (Hss : EvStart gs (g_key grs) (g_obj grs) (g_cx grs) ∈ s_log s).
    { apply (proj1 (proj2 (inv_start_holds _ _ H1))); [done|]. by apply running_owner. }
    rewrite Hof in Hsf. destruct (or_rule _ _ _ Hor _ _ Ho) as ((f & Hf & Hfo) & _).
    pose proof Hsf as Hsf'. rewrite <-Hfo in Hsf'.
    pose proof (proj1 (inv_hist_holds _ _ H1) _ _ Hgf) as Hok. unfold hist_ok in Hok. rewrite Hstf in Hok.
    destruct (runs_in _ _ _ _ _ _ _ Hok) as (h & cx1 & ts1 & Hh). unfold hist in Hh.
    assert (Ht1 : trace w (s_log s)) by (by eapply reachable_trace).
    assert (Hc1 : EvCall c (Some gf) cx1 ts1 ∈ s_log s) by (eapply (elem_hist gf); rewrite Hh; apply elem_of_snoc; by right).
    destruct (call_unique _ _ _ _ _ _ _ _ _ Ht1 Hcall Hc1) as (_ & <- & <-).
    pose proof (path_in_rule _ _ _ _ _ Ht1 Hf Hsf') as Hp.
    destruct (path_calls _ _ _ _ _ _ _ Hp c cx ts) as (-> & [-> | ->]).
    { rewrite Hh. apply elem_of_snoc; by right. }
    - exists f, gf, (g_key grf), (g_cx grf), c, h. split_and!; [done..|].
      apply elem_of_list_singleton in Hx as Hx1. injection Hx1 as Hx1; rewrite Hx1 in Hss.
      exists gs, (g_key grs), (g_cx grs). split; [done|]. intros b' x' e. by eapply running_no_end.
    - exfalso. apply elem_of_list_fmap in Hx as (q & [= Eq] & Hq). apply needs_rules in Hq.
      destruct (or_sub _ _ _ Hor q Hq) as [_ Hq2]. congruence.
  Qed.
  (** A command runs only while a run of its Files target waits for its subtarget. *)
  Lemma cmd_nest l1 g o n r l2 : trace w (l1 ++ EvEff g (OpCmd o n) r :: l2) -> orderly p owner (l1 ++ EvEff g (OpCmd o n) r :: l2) ->
    exists f gf a cx c h, f ∈ p_rules p /\ f_id f = o /\ EvStart gf a o cx ∈ l1 /\
      filter (concerns gf) l1 = h ++ [EvCall c (Some gf) cx [TPtr (p_sub p f)]] /\
      exists gs b cxs, EvStart gs b (p_sub p f) cxs ∈ l1 /\ forall b' x' e, EvEnd gs b' x' e ∉ l1.
  Proof.
    intros Ht Hor. apply trace_reachable in Ht as (s & Hre & Hl).
    destruct (log_split _ _ _ _ _ Hre Hl) as (s1 & ch & s2 & H1 & Hstep & H2 & L1 & L2). subst l1.
    assert (Hg : exists gr k, s_gors s1 !! g = Some gr /\ g_st gr = GBody (Eff (OpCmd o n) k)).
    { clear -Hstep L2. destruct Hstep; proj;
        try (exfalso; apply (f_equal length) in L2; rewrite app_length in L2; simpl in L2; lia);
        apply app_inj_tail in L2 as [_ L2]; simplify_eq. eauto. }
    destruct Hg as (gr & k & Hg & Hst).
    assert (Hs : EvStart g (g_key gr) (g_obj gr) (g_cx gr) ∈ s_log s1).
    { apply (proj1 (proj2 (inv_start_holds _ _ H1))); [done|]. unfold is_owner. by rewrite Hst. }
    assert (Ho : owner (g_obj gr) = Some o).
    { eapply (or_cmd _ _ _ Hor); [apply elem_of_app; left; exact Hs|apply elem_of_app; right; left]. }
    eapply (state_nest s1 g gr o H1); [by eapply orderly_prefix|done|left; eauto|done].
  Qed.
  (** So it is when the subtarget starts. *)
  Lemma sub_nest l1 gs b f cxs l2 : trace w (l1 ++ EvStart gs b (p_sub p f) cxs :: l2) -> orderly p owner (l1 ++ EvStart gs b (p_sub p f) cxs :: l2) ->
    f ∈ p_rules p -> exists gf a cx c h, EvStart gf a (f_id f) cx ∈ l1 /\
      filter (concerns gf) l1 = h ++ [EvCall c (Some gf) cx [TPtr (p_sub p f)]].
  Proof.
    intros Ht Hor Hf. pose proof (proj1 (or_sub _ _ _ Hor f Hf)) as Hos.
    apply trace_reachable in Ht as (s & Hre & Hl).
    destruct (log_split _ _ _ _ _ Hre Hl) as (s1 & ch & s2 & H1 & Hstep & H2 & L1 & L2).
    assert (Hg : exists gr, s_gors s2 !! gs = Some gr /\ running gr /\ g_obj gr = p_sub p f).
    { destruct (proj1 (inv_start_holds _ _ H2) gs b (p_sub p f) cxs) as (gr & Hg & _ & Hobj & _); [rewrite L2; apply elem_of_snoc; by right|].
      exists gr. split; [done|]. split; [|done].
      subst l1. clear -Hstep L2 Hg. destruct Hstep; proj;
        try (exfalso; apply (f_equal length) in L2; rewrite app_length in L2; simpl in L2; lia);
        apply app_inj_tail in L2 as [_ L2]; simplify_eq.
      rewrite list_lookup_alter in Hg. apply fmap_Some in Hg as (grx & _ & ->). left. eexists. reflexivity. }
    destruct Hg as (gr & Hg & Hrun & Hobj).
    assert (Hor2 : orderly p owner (s_log s2)).
    { rewrite L2. eapply (orderly_prefix _ _ _ l2). by rewrite <-app_assoc. }
    destruct (state_nest s2 gs gr (f_id f) H2 Hor2 Hg Hrun ltac:(by rewrite Hobj)) as (f2 & gf & a & cx & c & h & Hf2 & Eid & Hs & Hfil & _).
    pose proof (wf_ids _ Hwf _ _ Hf2 Hf Eid) as ->. exists gf, a, cx, c, h. rewrite L2 in Hs, Hfil.
    assert (E : filter (concerns gf) [EvStart gs b (p_sub p f) cxs] = []) by reflexivity.
    rewrite filter_app, E, app_nil_r in Hfil. split; [|done].
    apply elem_of_snoc in Hs as [Hs|Hs]; [done|]. simplify_eq.
    match goal with E : f_id f = _ |- _ => pose proof (proj2 (or_sub _ _ _ Hor f Hf)) as Hx; rewrite E in Hx; congruence end.
  Qed.

  (** When the subtarget has ended, no command runs any more. *)
  Lemma sub_ended_quiet f gs b e l m : trace w (l ++ m) -> orderly p owner (l ++ m) -> f ∈ p_rules p -> EvEnd gs b (p_sub p f) e ∈ l ->
    forall g n r, EvEff g (OpCmd (f_id f) n) r ∉ m.
  Proof.
    intros Ht Hor Hf Hend g n r Hin. apply elem_of_list_split in Hin as (m1 & m2 & ->).
    rewrite app_assoc in Ht, Hor.
    destruct (cmd_nest _ _ _ _ _ _ Ht Hor) as (f2 & gf & a & cx & c & h & Hf2 & Eid & _ & _ & gs2 & b2 & cx2 & Hs2 & Hno).
    pose proof (wf_ids _ Hwf _ _ Hf2 Hf Eid) as ->.
    pose proof (trace_prefix _ _ _ Ht) as Ht1. pose proof (orderly_prefix _ _ _ _ Hor) as Hor1.
    assert (Hend' : EvEnd gs b (p_sub p f) e ∈ l ++ m1) by (apply elem_of_app; by left).
    destruct (end_started _ _ _ _ _ _ Ht1 Hend') as (cx1 & Hs1).
    destruct (owned_once p owner _ _ _ _ _ _ _ _ _ Ht1 Hor1 (proj1 (or_sub _ _ _ Hor f Hf)) Hs1 Hs2) as (-> & _).
    by eapply Hno.
  Qed.

  (** Nothing follows the end. *)
  Lemma after_end gf a o e l m : trace w (l ++ m) -> EvEnd gf a o e ∈ l -> filter (concerns gf) m = [].
  Proof.
    intros Ht Hin. destruct (filter (concerns gf) m) as [|ev h] eqn:E; [done|exfalso].
    destruct (filter_split (concerns gf) m [] h ev E) as (m1 & m2 & -> & _).
    assert (Hc : concerns gf ev).
    { assert (Hx : ev ∈ filter (concerns gf) (m1 ++ ev :: m2)) by (rewrite E; by left). by apply elem_of_list_filter in Hx as [? _]. }
    rewrite app_assoc in Ht.
    destruct (concerns_started w _ ev _ gf Ht Hc) as (a' & o' & cx' & Hs).
    destruct (path_at w _ ev _ gf a' o' cx' Ht Hc) as (_ & st & Hr); [apply elem_of_app; by left|].
    assert (Hno : forall p h st, runs gf a' o' p h st -> forall h1 e2 a2 o2 h2, h = h1 ++ EvEnd gf a2 o2 e2 :: h2 -> h2 = []).
    { clear. intros p h st Hr. induction Hr as [p|e|l k r h st H IH|d k r h st H IH|cx1 ts1 k c1|cx1 ts1 k c1 e h st H IH]; intros h1 e2 a2 o2 h2 Hh.
      - by destruct h1.
      - destruct h1 as [|? h1]; simpl in Hh; [by simplify_eq|by destruct h1].
      - destruct h1 as [|? h1]; simpl in Hh; [done|]. injection Hh as _ Hh. eauto.
      - destruct h1 as [|? h1]; simpl in Hh; [done|]. injection Hh as _ Hh. eauto.
      - destruct h1 as [|? h1]; simpl in Hh; [done|by destruct h1].
      - destruct h1 as [|? [|? h1]]; simpl in Hh; [done|done|]. injection Hh as _ _ Hh. eauto. }
    apply elem_of_list_split in Hin as (l1 & l2 & ->).
    rewrite <-!app_assoc in Hr. cbn [app] in Hr. rewrite filter_app, filter_cons_True in Hr by done.
    rewrite <-app_assoc in Hr. cbn [app] in Hr. apply Hno with (h1 := filter (concerns gf) l1) (e2 := e) (a2 := a) (o2 := o) (h2 := filter (concerns gf) (l2 ++ m1) ++ [ev]) in Hr; [|done].
    by apply app_nil in Hr as [_ ?].
  Qed.

  Context (hashf : string -> string) (H : json -> hash).
  Context (Hsep : separate p) (σ : env) (Hpos : p_possible p (e_fs σ)).

  Lemma possible_after l : p_possible p (e_fs (after p σ l)).
  Proof.
    induction l as [|ev l IH] using rev_ind; [done|]. rewrite after_snoc.
    destruct ev as [| | | | |g lb r| | |]; try done. destruct lb as [b o|h|h|o n|n]; cbn [after_event next e_fs]; try done; by apply (sep_possible _ Hsep).
  Qed.


  (** Once the prerequisites of [f] have ended without error, only its own command changes
      its files. *)
  Lemma step_unchanged l g lb r f : trace w (l ++ [EvEff g lb r]) -> orderly p owner (l ++ [EvEff g lb r]) -> settled p (l ++ [EvEff g lb r]) -> f ∈ p_rules p ->
    (forall q, q ∈ needs p f -> exists g a, EvEnd g a (f_id q) None ∈ l) -> (forall n, lb <> OpCmd (f_id f) n) ->
    unchanged (e_fs (after p σ l)) (e_fs (after p σ (l ++ [EvEff g lb r]))) (f_in f ++ f_out f).
  Proof.
    intros Ht Hor Hset Hf Hq Hn.
    rewrite after_snoc. cbn [after_event].
    destruct lb as [b o|h|h|o n|n]; cbn [next e_fs]; try apply unchanged_refl.
    2: by apply (sep_other _ Hsep); [apply possible_after|].
    destruct (cmd_nest l g o n r [] Ht Hor) as (f2 & g2 & a2 & cx2 & c & h & Hf2 & Ho & _).
    subst o. apply (sep_cmd _ Hsep); [apply possible_after|done..| |].
    - intros ->. by eapply Hn.
    - intros Hin. destruct (Hq _ Hin) as (g3 & a3 & Hend).
      apply elem_of_list_split in Hend as (k1 & k2 & Hk).
      destruct (Hset f2 g3 a3 k1 (k2 ++ [EvEff g (OpCmd (f_id f2) n) r]) Hf2) as [(gs & b & Hs)|(j1 & r' & j2 & _ & Hno)].
      { rewrite Hk, <-app_assoc. done. }
      + eapply (sub_ended_quiet f2 gs b None l _ Ht Hor Hf2); [rewrite Hk; apply elem_of_app; by left|by left].
      + eapply (Hno g n r). apply elem_of_app. right. apply elem_of_snoc. by right.
  Qed.

  (** While its own command does not run either, its files do not change. *)
  Lemma quiet_unchanged l m f : trace w (l ++ m) -> orderly p owner (l ++ m) -> settled p (l ++ m) -> f ∈ p_rules p ->
    (forall q, q ∈ needs p f -> exists g a, EvEnd g a (f_id q) None ∈ l) ->
    (forall g n r, EvEff g (OpCmd (f_id f) n) r ∉ m) ->
    unchanged (e_fs (after p σ l)) (e_fs (after p σ (l ++ m))) (f_in f ++ f_out f).
  Proof.
    intros Ht Hor Hset Hf Hq. induction m as [|ev m IH] using rev_ind; intros Hm.
    { rewrite app_nil_r. apply unchanged_refl. }
    rewrite app_assoc in Ht, Hor, Hset.
    eapply unchanged_trans; [apply IH; [by eapply trace_prefix|by eapply orderly_prefix|by eapply settled_prefix|]|].
    { intros g n r Hin. apply (Hm g n r), elem_of_app. by left. }
    rewrite app_assoc. destruct ev as [| | | | |g lb r| | |]; try (rewrite after_snoc; apply unchanged_refl).
    apply step_unchanged; [done..| |].
    { intros q Hq1. destruct (Hq q Hq1) as (g' & a' & He). exists g', a'. apply elem_of_app. by left. }
    intros n ->. apply (Hm g n r), elem_of_snoc. by right.
  Qed.

  (** With one run only. *)
  Lemma same_gor tr f g1 a1 cx1 g2 a2 cx2 : trace w tr -> once p tr -> f ∈ p_rules p ->
    EvStart g1 a1 (f_id f) cx1 ∈ tr -> EvStart g2 a2 (f_id f) cx2 ∈ tr -> g1 = g2 /\ a1 = a2 /\ cx1 = cx2.
  Proof.
    intros Ht Honce Hf H1 H2. pose proof (Honce _ _ _ _ _ _ _ Hf H1 H2) as ->.
    apply elem_of_list_lookup in H1 as [i Hi]. apply elem_of_list_lookup in H2 as [j Hj].
    pose proof (start_unique _ _ _ _ _ _ _ _ _ _ _ Ht Hi Hj) as ->. rewrite Hi in Hj. by simplify_eq.
  Qed.
End rules.
