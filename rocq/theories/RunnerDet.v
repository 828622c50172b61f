(** Determinism: what calls return does not depend on the schedule (C10). *)
From stdpp Require Import base gmap list strings relations.
From Verif Require Import ContextModel RunnerModel RunnerSteps RunnerSpec RunnerSpec2.
From Verif Require Import RunnerInv RunnerInv2 RunnerInv3 RunnerInv4 RunnerInv5 RunnerInv6.
From Verif Require Import RunnerProofs RunnerProofs2 RunnerProofs3 RunnerProgress.

(** ** The registry *)
Definition is_reg (ev : event) : Prop := match ev with EvRegister _ _ => True | _ => False end.

Lemma registry_snoc_reg l n o : registry_of (l ++ [EvRegister n o]) = <[n:=o]> (registry_of l).
Proof. unfold registry_of. by rewrite fold_left_app. Qed.
Lemma registry_snoc_no l ev : ~ is_reg ev -> registry_of (l ++ [ev]) = registry_of l.
Proof. unfold registry_of. rewrite fold_left_app. by destruct ev. Qed.

Lemma inv_registry w s : reachable w s -> s_reg s = registry_of (s_log s).
Proof.
  revert s. apply reachable_ind; [done|].
  intros s ch s' Hre IH Hstep. destruct Hstep; proj; try done;
    try (rewrite registry_snoc_no by (by intros []); done).
  rewrite registry_snoc_reg. by rewrite IH.
Qed.

(** Without calls nothing but registrations has happened. *)
Lemma inv_nocall w s :
  reachable w s -> s_calls s = [] -> s_cache s = ∅ /\ Forall is_reg (s_log s).
Proof.
  revert s. apply (reachable_tind w (fun s => s_calls s = [] -> s_cache s = ∅ /\ Forall is_reg (s_log s))).
  { intros _. split; [done|constructor]. }
  intros s ch s' Hre IH Hstep Hre' Hc.
  assert (Hno : forall c cl, s_calls s !! c = Some cl -> s_calls s' <> []).
  { intros c cl Hcl E. destruct (call_step _ _ _ _ _ _ (inv_shape_holds _ _ Hre) Hstep Hcl) as (cl' & Hcl' & _).
    rewrite E in Hcl'. done. }
  assert (Hg : forall g gr, s_gors s !! g = Some gr -> s_calls s' <> []).
  { intros g gr Hgr. destruct (inv_link_holds _ _ Hre _ _ Hgr) as (cl & o & Hcl & _). by eapply Hno. }
  destruct Hstep; try (exfalso; by eapply Hno; eauto); try (exfalso; by eapply Hg; eauto).
  - proj. by destruct (s_calls s).
  - proj. destruct (IH Hc) as [-> Hf]. split; [done|]. apply Forall_app. split; [done|]. by constructor.
Qed.

Lemma registered_first_mono l1 l2 : registered_first (l1 ++ l2) -> registered_first l1.
Proof.
  intros H i j c p cx ts name o Hi Hj. eapply H; by apply lookup_app_l_Some.
Qed.

Lemma register_no_call w s name o :
  reachable w s -> registered_first (s_log s ++ [EvRegister name o]) -> s_calls s = [].
Proof.
  intros Hre Hrf. destruct (s_calls s) as [|cl cls] eqn:E; [done|].
  destruct (inv_calls_holds _ _ Hre) as (H1 & _).
  assert (Hin : EvCall 0 (c_parent cl) (c_cx cl) (c_targets cl) ∈ s_log s).
  { apply H1. exists cl. by rewrite E. }
  apply elem_of_list_lookup in Hin as [i Hi].
  specialize (Hrf i (length (s_log s)) _ _ _ _ name o (lookup_app_l_Some _ _ _ _ Hi)).
  rewrite lookup_app_r, Nat.sub_diag in Hrf by lia. specialize (Hrf eq_refl).
  apply lookup_lt_Some in Hi. lia.
Qed.

Lemma forall_reg_no (P : event -> Prop) l ev : Forall is_reg l -> ev ∈ l -> ~ is_reg ev -> False.
Proof. rewrite Forall_forall. intros H Hin Hn. by apply Hn, H. Qed.

Definition inv_det (w : world) (s : state) : Prop :=
  registered_first (s_log s) ->
  (forall d o, s_cache s !! d = Some o -> resolution w (s_reg s) d = inr o) /\
  (forall g d res, EvResolve g d res ∈ s_log s -> res = resolution w (s_reg s) d) /\
  (forall c i name, EvRej c i (EUnresolved name) ∈ s_log s -> s_reg s !! name = None).

Lemma resolves_resolution w s d ca res :
  reachable w s ->
  (forall d o, s_cache s !! d = Some o -> resolution w (s_reg s) d = inr o) ->
  resolves w s d ca res ->
  res = resolution w (s_reg s) d /\
  (forall d o, ca !! d = Some o -> resolution w (s_reg s) d = inr o).
Proof.
  intros Hre Hc Hr. inversion Hr; subst.
  - split; [symmetry; by apply Hc|done].
  - split; [|done]. unfold resolution. by rewrite H0.
  - split; [|done]. unfold resolution. by rewrite H0, H1.
  - split; [unfold resolution; by rewrite H0, H1|].
    intros d' o' Hd. apply lookup_insert_Some in Hd as [[<- <-]|[_ Hd]]; [|by apply Hc].
    unfold resolution. by rewrite H0, H1.
Qed.

Lemma inv_det_holds w s : reachable w s -> inv_det w s.
Proof.
  revert s. apply (reachable_tind w (inv_det w)).
  { intros _. split_and!; [done| |]; intros ? ? ? H; by apply elem_of_nil in H. }
  intros s ch s' Hre IH Hstep Hre' Hrf.
  assert (Hrf0 : registered_first (s_log s)).
  { destruct (log_step _ _ _ _ Hstep) as [E|[ev E]]; rewrite E in Hrf; [done|].
    by eapply registered_first_mono. }
  destruct (IH Hrf0) as (H1 & H2 & H3).
  destruct Hstep.
  2:{ (* register *)
    proj. pose proof (register_no_call _ _ _ _ Hre Hrf) as Hnc.
    destruct (inv_nocall _ _ Hre Hnc) as [Hca Hlog]. rewrite Hca.
    split_and!; [done| |]; intros ? ? ? Hin; exfalso;
      (apply elem_of_snoc in Hin as [Hin|Hin]; [|done]);
      eapply (forall_reg_no is_reg); eauto. }
  all: proj; try (split_and!; [done| |]; intros ? ? ? Hin;
    try (apply elem_of_snoc in Hin as [Hin|Hin]; [|done]); by eauto).
  - (* rejection *)
    split_and!; [done| |]; intros ? ? ? Hin; (apply elem_of_snoc in Hin as [Hin|Hin]; [by eauto|]); [done|].
    simplify_eq. by inversion H4; subst.
  - (* spawn *)
    split_and!; [|intros ? ? ? Hin; apply elem_of_snoc in Hin as [Hin|Hin]; [|done]; by eauto..].
    inversion H4; subst; [done|]. by eapply resolves_resolution.
  - (* resolve *)
    destruct (resolves_resolution _ _ _ _ _ Hre H1 H4) as [-> Hca].
    split_and!; [done| |]; intros ? ? ? Hin; (apply elem_of_snoc in Hin as [Hin|Hin]; [by eauto|]); by simplify_eq.
Qed.

(** Requests and rejections agree with the registry. *)
Lemma req_resolution w s c i a o :
  reachable w s -> registered_first (s_log s) -> EvReq c i a o ∈ s_log s ->
  exists p cx ts d, EvCall c p cx ts ∈ s_log s /\ ts !! i = Some (TPtr d) /\ a = w_addr w d /\
    resolution w (registry_of (s_log s)) d = inr o.
Proof.
  intros Hre Hrf Hin. apply (inv_req_holds _ _ Hre) in Hin as (g & gr & Hg & <- & <- & <- & <-).
  destruct (inv_link_holds _ _ Hre _ _ Hg) as (cl & d & Hcl & Ht & Hk & Hn & Hd & _ & _).
  destruct (inv_calls_holds _ _ Hre) as (H1 & _).
  destruct (inv_det_holds _ _ Hre Hrf) as (D1 & _). rewrite <-(inv_registry _ _ Hre).
  exists (c_parent cl), (c_cx cl), (c_targets cl), d. split_and!; [|done|done|].
  { apply H1. eauto. }
  destruct (w_deferred w d) as [name|] eqn:E; [by eapply D1, Hd|].
  unfold resolution. rewrite E. f_equal. symmetry. by apply Hn.
Qed.

Lemma rej_resolution w s c i name d :
  reachable w s -> registered_first (s_log s) -> EvRej c i (EUnresolved name) ∈ s_log s ->
  w_deferred w d = Some name ->
  resolution w (registry_of (s_log s)) d = inl (EUnresolved name).
Proof.
  intros Hre Hrf Hin Hd. destruct (inv_det_holds _ _ Hre Hrf) as (_ & _ & D3).
  rewrite <-(inv_registry _ _ Hre). unfold resolution. rewrite Hd. by rewrite (D3 _ _ _ Hin).
Qed.

(** The registry does not change once a call has been made. *)
Lemma registry_app l1 l2 :
  registered_first (l1 ++ l2) -> (exists c p cx ts, EvCall c p cx ts ∈ l1) ->
  registry_of (l1 ++ l2) = registry_of l1.
Proof.
  intros Hrf (c & p & cx & ts & Hin). induction l2 as [|ev l2 IH] using rev_ind; [by rewrite app_nil_r|].
  rewrite app_assoc. rewrite registry_snoc_no.
  - apply IH. eapply registered_first_mono. by rewrite <-app_assoc.
  - intros Hr. destruct ev; try done. apply elem_of_list_lookup in Hin as [i Hi].
    specialize (Hrf i (length (l1 ++ l2)) c p cx ts name o).
    rewrite app_assoc in Hrf. rewrite lookup_app_l in Hrf.
    2:{ rewrite app_length. apply lookup_lt_Some in Hi. lia. }
    rewrite lookup_app_l in Hrf by (by eapply lookup_lt_Some).
    rewrite lookup_app_r, Nat.sub_diag in Hrf by lia.
    specialize (Hrf Hi eq_refl). apply lookup_lt_Some in Hi. rewrite app_length in Hrf. lia.
Qed.

(** ** Programs that differ in contexts only evaluate alike *)
Lemma same_deferred (Q : ctx -> Prop) d cx1 cx2 :
  Q cx1 -> Q cx2 -> same_prog Q (deferred_prog d cx1) (deferred_prog d cx2).
Proof.
  intros H1 H2. unfold deferred_prog. constructor. intros [e|o]; [constructor|].
  constructor; [done|done|]. intros e. constructor.
Qed.

Lemma same_body w Q o cx1 cx2 :
  insensitive w Q -> Q cx1 -> Q cx2 -> same_prog Q (body w o cx1) (body w o cx2).
Proof.
  intros Hi H1 H2. unfold body. destruct (w_deferred w o) eqn:E; [by apply same_deferred|by apply Hi].
Qed.

Lemma same_eval w reg rho cx0 Q p1 e :
  eval_prog w reg rho cx0 p1 e -> forall p2, same_prog Q p1 p2 -> eval_prog w reg rho cx0 p2 e.
Proof.
  induction 1; intros p2 Hs; inversion Hs; subst; econstructor; eauto.
Qed.

(** The calls made on a path. *)
Lemma runs_call_ctx Q g a o p1 h st c cx ts :
  runs g a o p1 h st -> EvCall c (Some g) cx ts ∈ h -> forall p2, same_prog Q p1 p2 -> Q cx.
Proof.
  induction 1 as [p|e|l k r h st H IH|d k r h st H IH|cx' ts' k c'|cx' ts' k c' e h st H IH];
    intros Hin p2 Hs.
  - by apply elem_of_nil in Hin.
  - by apply elem_of_list_singleton in Hin.
  - apply elem_of_cons in Hin as [Hin|Hin]; [done|]. inversion Hs; subst. by eapply IH; eauto.
  - apply elem_of_cons in Hin as [Hin|Hin]; [done|]. inversion Hs; subst. by eapply IH; eauto.
  - apply elem_of_list_singleton in Hin. inversion Hs; subst. by simplify_eq.
  - inversion Hs; subst. apply elem_of_cons in Hin as [Hin|Hin]; [by simplify_eq|].
    apply elem_of_cons in Hin as [Hin|Hin]; [done|]. by eapply IH; eauto.
Qed.

Lemma runs_end_fin g a o p h st e : runs g a o p h st -> EvEnd g a o e ∈ h -> st = Fin e.
Proof.
  induction 1 as [p|e'|l k r h st H IH|d k r h st H IH|cx' ts' k c'|cx' ts' k c' e' h st H IH]; intros Hin.
  - by apply elem_of_nil in Hin.
  - apply elem_of_list_singleton in Hin. by simplify_eq.
  - apply elem_of_cons in Hin as [Hin|Hin]; [done|]. by apply IH.
  - apply elem_of_cons in Hin as [Hin|Hin]; [done|]. by apply IH.
  - by apply elem_of_list_singleton in Hin.
  - apply elem_of_cons in Hin as [Hin|Hin]; [done|].
    apply elem_of_cons in Hin as [Hin|Hin]; [done|]. by apply IH.
Qed.

(** A finished body whose interactions agree with the evaluation returns what the
    evaluation does. *)
Lemma runs_eval w reg rho cx0 g a o p h e :
  runs g a o p h (Fin e) ->
  (forall l r, EvEff g l r ∈ h -> r = rho l) ->
  (forall d r, EvResolve g d r ∈ h -> r = resolution w reg d) ->
  (forall c cx ts e, EvCall c (Some g) cx ts ∈ h -> EvRet c (Some g) e ∈ h ->
     exists rs, eval_list w reg rho cx0 ts rs /\ e = join rs) ->
  eval_prog w reg rho cx0 p e.
Proof.
  intros Hr. remember (Fin e) as st eqn:Est. revert Est.
  induction Hr as [p|e'|l k r h st H IH|d k r h st H IH|cx' ts' k c'|cx' ts' k c' e' h st H IH];
    intros Est Heff Hres Hcall; simplify_eq.
  - constructor.
  - constructor. rewrite <-(Heff l r) by left. apply IH; [done|..]; intros; first [eapply Heff|eapply Hres|eapply Hcall]; by right; eauto.
  - constructor. rewrite <-(Hres d r) by left. apply IH; [done|..]; intros; first [eapply Heff|eapply Hres|eapply Hcall]; by right; eauto.
  - destruct (Hcall c' cx' ts' e') as (rs & Hrs & ->); [left|right; left|].
    econstructor; [done|].
    apply IH; [done|..]; intros; first [eapply Heff|eapply Hres|eapply Hcall]; by right; right; eauto.
Qed.

Section det.
Context (w : world) (Q : ctx -> Prop) (rho : label -> nat) (cx0 : ctx) (tr : list event).
Hypothesis Hinj : addr_injective w.
Hypothesis Htr : trace w tr.
Hypothesis Hrf : registered_first tr.
Hypothesis Hans : answers rho tr.
Hypothesis Hcl : client_contexts Q tr.
Hypothesis Hins : insensitive w Q.
Hypothesis HQ0 : Q cx0.
Let reg := registry_of tr.

Lemma prefix_reg l l2 : tr = l ++ l2 -> (exists c p cx ts, EvCall c p cx ts ∈ l) -> registry_of l = reg.
Proof. intros E Hc. unfold reg. rewrite E. symmetry. apply registry_app; [by rewrite <-E|done]. Qed.

Lemma call_in_prefix l l2 c i a o :
  tr = l ++ l2 -> EvReq c i a o ∈ l -> exists p cx ts d, EvCall c p cx ts ∈ l /\ ts !! i = Some (TPtr d) /\
   a = w_addr w d /\ resolution w reg d = inr o.
Proof.
  intros E Hin. assert (Ht : trace w l) by (eapply trace_prefix; by rewrite <-E).
  destruct (trace_reachable _ _ Ht) as (s & Hre & <-).
  assert (Hrf' : registered_first (s_log s)) by (eapply registered_first_mono; by rewrite <-E).
  destruct (req_resolution _ _ _ _ _ _ Hre Hrf' Hin) as (p & cx & ts & d & H1 & H2 & H3 & H4).
  exists p, cx, ts, d. split_and!; try done. rewrite <-H4. f_equal. symmetry. eapply prefix_reg; eauto 10.
Qed.

Lemma eval_list_pointwise ts : forall rs,
  length rs = length ts ->
  (forall i t, ts !! i = Some t -> exists r, rs !! i = Some r /\ eval_req w reg rho cx0 t r) ->
  eval_list w reg rho cx0 ts rs.
Proof.
  induction ts as [|t ts IH]; intros [|r rs] Hlen H; simplify_eq/=; [constructor|].
  constructor.
  - destruct (H 0 t eq_refl) as (r' & Hr & He). by simplify_eq/=.
  - apply IH; [done|]. intros i t' Ht. by apply (H (S i) t').
Qed.

Lemma ret_eval l l2 c p cx ts e :
  tr = l ++ l2 ->
  (forall g a o e, EvEnd g a o e ∈ l -> eval_prog w reg rho cx0 (body w o cx0) e) ->
  EvCall c p cx ts ∈ l -> EvRet c p e ∈ l ->
  exists rs, eval_list w reg rho cx0 ts rs /\ e = join rs.
Proof.
  intros E HB Hc Hr. assert (Ht : trace w l) by (eapply trace_prefix; by rewrite <-E).
  destruct (elem_split_ret _ _ _ _ _ Ht Hr) as (m1 & m2 & El).
  assert (Ht' : trace w (m1 ++ EvRet c p e :: m2)) by (by rewrite <-El).
  destruct (ret_completed _ _ _ _ _ _ Ht') as (cx' & ts' & rs & Hc' & Hlen & -> & Hall).
  assert (Hc'' : EvCall c p cx' ts' ∈ l) by (rewrite El; set_solver).
  destruct (call_unique _ _ _ _ _ _ _ _ _ Ht Hc Hc'') as (_ & -> & ->).
  exists rs. split; [|done]. apply eval_list_pointwise; [done|].
  intros i t Hi. destruct (Hall _ _ Hi) as (r & Hr' & Hcomp). exists r. split; [done|].
  destruct t as [d|].
  - destruct Hcomp as [(o1 & g & o2 & e' & Hreq & Hend & ->)|(name & Hd & -> & Hrej)].
    + assert (Hreq' : EvReq c i (w_addr w d) o1 ∈ l) by (rewrite El; set_solver).
      assert (Hend' : EvEnd g (w_addr w d) o2 e' ∈ l) by (rewrite El; set_solver).
      destruct (call_in_prefix _ _ _ _ _ _ E Hreq') as (p'' & cx'' & ts'' & d' & Hc3 & Hi' & Ha & Hres).
      assert (d' = d) as -> by (symmetry; by apply Hinj).
      rewrite (req_end_same _ _ _ _ _ _ _ _ _ Hinj Ht Hreq' Hend') in *.
      eapply ev_ptr; [done|]. by eapply HB.
    + eapply ev_unres. assert (Hrej' : EvRej c i (EUnresolved name) ∈ l) by (rewrite El; set_solver).
      destruct (trace_reachable _ _ Ht) as (s & Hre & Hlog). rewrite <-Hlog in Hrej'.
      rewrite <-(prefix_reg l l2) by eauto 10. rewrite <-Hlog.
      eapply rej_resolution; eauto. rewrite Hlog. eapply registered_first_mono. by rewrite <-E.
  - destruct Hcomp as [-> _]. constructor.
Qed.

Lemma det_main l : forall l2, tr = l ++ l2 ->
  (forall c p cx ts, EvCall c p cx ts ∈ l -> Q cx) /\
  (forall g a o e, EvEnd g a o e ∈ l -> eval_prog w reg rho cx0 (body w o cx0) e).
Proof.
  induction l as [|ev l IH] using rev_ind; intros l2 E.
  { split; intros ? ? ? ? H; by apply elem_of_nil in H. }
  rewrite <-app_assoc in E. simpl in E. destruct (IH _ E) as [HA HB].
  assert (Ht : trace w (l ++ ev :: l2)) by (by rewrite <-E).
  assert (Hl : trace w l) by (by eapply trace_prefix).
  assert (Hstart : forall g a o cx, EvStart g a o cx ∈ l -> Q cx).
  { intros g a o cx Hin. destruct (start_ctx_lem _ _ _ _ _ _ Hl Hin) as (c & i & p & ts & d & _ & Hc & _).
    by eapply HA. }
  split.
  - intros c p cx ts Hin. apply elem_of_snoc in Hin as [Hin|<-]; [by eapply HA|].
    destruct p as [g|]; [|apply (Hcl c cx ts); rewrite E; set_solver].
    assert (Hg : concerns g (EvCall c (Some g) cx ts)) by done.
    destruct (concerns_started _ _ _ _ _ Ht Hg) as (a & o & cx' & Hs).
    destruct (path_at _ _ _ _ g a o cx' Ht Hg) as (_ & st & Hruns); [set_solver|].
    apply (runs_call_ctx Q g a o _ _ st c cx ts Hruns) with (body w o cx0).
    { apply elem_of_snoc. by right. }
    apply same_body; eauto.
  - intros g a o e Hin. apply elem_of_snoc in Hin as [Hin|<-]; [by eapply HB|].
    assert (Hg : concerns g (EvEnd g a o e)) by done.
    assert (Hl' : trace w (l ++ [EvEnd g a o e])).
    { apply (trace_prefix w _ l2). by rewrite <-app_assoc. }
    destruct (end_started _ _ g a o e Hl') as (cx & Hs); [set_solver|].
    apply elem_of_snoc in Hs as [Hs|Hs]; [|done].
    destruct (path_at _ _ _ _ g a o cx Ht Hg) as (_ & st & Hruns); [set_solver|].
    assert (st = Fin e) as -> by (eapply runs_end_fin; [done|set_solver]).
    eapply (same_eval _ _ _ _ Q (body w o cx)); [|by apply same_body; eauto].
    eapply runs_eval; [exact Hruns|..].
    + intros l0 r Hin. apply (Hans g). rewrite E.
      apply elem_of_snoc in Hin as [Hin|Hin]; [|done]. apply elem_hist in Hin. set_solver.
    + intros d r Hin. apply elem_of_snoc in Hin as [Hin|Hin]; [|done]. apply elem_hist in Hin.
      destruct (trace_reachable _ _ Hl) as (s & Hre & Hlog).
      destruct (inv_det_holds _ _ Hre) as (_ & D2 & _).
      { rewrite Hlog. eapply registered_first_mono. by rewrite <-E. }
      rewrite <-Hlog in Hin. rewrite (D2 _ _ _ Hin). rewrite (inv_registry _ _ Hre), Hlog.
      f_equal. eapply prefix_reg; [done|].
      destruct (start_ctx_lem _ _ _ _ _ _ Hl Hs) as (c & i & p & ts & d' & _ & Hc & _). eauto 10.
    + intros c cx' ts e' Hc Hr.
      apply elem_of_snoc in Hc as [Hc|Hc]; [|done]. apply elem_hist in Hc.
      apply elem_of_snoc in Hr as [Hr|Hr]; [|done]. apply elem_hist in Hr.
      by eapply ret_eval.
Qed.

Lemma end_eval_lem g a o e : EvEnd g a o e ∈ tr -> eval_prog w reg rho cx0 (body w o cx0) e.
Proof. destruct (det_main tr []) as [_ H]; [by rewrite app_nil_r|]. apply H. Qed.

Lemma ret_eval_lem c p cx ts e :
  EvCall c p cx ts ∈ tr -> EvRet c p e ∈ tr ->
  exists rs, eval_list w reg rho cx0 ts rs /\ e = join rs.
Proof. apply (ret_eval tr []); [by rewrite app_nil_r|exact end_eval_lem]. Qed.

Lemma end_target_lem g d o e :
  EvEnd g (w_addr w d) o e ∈ tr -> resolution w reg d = inr o.
Proof.
  intros Hin. destruct (end_started _ _ _ _ _ _ Htr Hin) as (cx & Hs).
  destruct (start_ctx_lem _ _ _ _ _ _ Htr Hs) as (c & i & p & ts & d1 & Hreq & _).
  destruct (call_in_prefix tr [] _ _ _ _ (eq_sym (app_nil_r _)) Hreq) as (p' & cx' & ts' & d' & _ & _ & Ha & Hres).
  by apply Hinj in Ha as ->.
Qed.
End det.

(** ** The evaluation is a function *)
Scheme eval_prog_mut := Induction for eval_prog Sort Prop
  with eval_list_mut := Induction for eval_list Sort Prop
  with eval_req_mut := Induction for eval_req Sort Prop.
Combined Scheme eval_mut from eval_prog_mut, eval_list_mut, eval_req_mut.

Lemma eval_functional w reg rho cx0 :
  (forall p e1, eval_prog w reg rho cx0 p e1 -> forall e2, eval_prog w reg rho cx0 p e2 -> e1 = e2) /\
  (forall ts r1, eval_list w reg rho cx0 ts r1 -> forall r2, eval_list w reg rho cx0 ts r2 -> r1 = r2) /\
  (forall t r1, eval_req w reg rho cx0 t r1 -> forall r2, eval_req w reg rho cx0 t r2 -> r1 = r2).
Proof.
  apply eval_mut.
  - intros e e2 H. by inversion H.
  - intros l k e _ IH e2 H. inversion H; subst. by apply IH.
  - intros d k e _ IH e2 H. inversion H; subst. by apply IH.
  - intros cx ts k rs e _ IHl _ IH e2 H. inversion H; subst. 
    match goal with Hx : eval_list _ _ _ _ ts ?r |- _ => assert (rs = r) as <- by (by apply IHl) end.
    by apply IH.
  - intros r2 H. by inversion H.
  - intros t ts r rs _ IHr _ IHl r2 H. inversion H; subst. f_equal; [by apply IHr|by apply IHl].
  - intros r2 H. by inversion H.
  - intros d e Hr r2 H. inversion H; subst; congruence.
  - intros d o e Hr _ IH r2 H. inversion H; subst; [congruence|].
    match goal with Hx : resolution _ _ _ = inr ?o' |- _ => assert (o = o') as <- by congruence end.
    f_equal. by apply IH.
Qed.

(** ** ... and total for finite bodies without circular dependencies *)
Lemma registry_of_in l name o : registry_of l !! name = Some o -> EvRegister name o ∈ l.
Proof.
  induction l as [|ev l IH] using rev_ind; [done|].
  intros H. apply elem_of_snoc. destruct ev; try (left; apply IH; by rewrite registry_snoc_no in H by (by intros [])).
  rewrite registry_snoc_reg in H. apply lookup_insert_Some in H as [[<- <-]|[_ H]]; [by right|left; by apply IH].
Qed.

Lemma eval_total_lem w tr rho cx0 :
  all_finite w -> well_founded_deps w tr ->
  forall ts, exists rs, eval_list w (registry_of tr) rho cx0 ts rs.
Proof.
  intros Hfin Hwf. set (reg := registry_of tr).
  assert (Hlist : forall ts, (forall o, TPtr o ∈ ts -> exists r, eval_req w reg rho cx0 (TPtr o) r) ->
            exists rs, eval_list w reg rho cx0 ts rs).
  { induction ts as [|t ts IH]; intros H; [exists []; constructor|].
    destruct IH as (rs & Hrs); [intros o Ho; apply H; by right|].
    destruct t as [o|]; [|exists (Some ENotPointer :: rs); repeat constructor; done].
    destruct (H o) as (r & Hr); [left|]. exists (r :: rs). by constructor. }
  assert (Hprog : forall p, finite p ->
            (forall us o, may_call p us -> TPtr o ∈ us -> exists r, eval_req w reg rho cx0 (TPtr o) r) ->
            exists e, eval_prog w reg rho cx0 p e).
  { intros p Hp. induction Hp as [e|cx ts k _ IHk|d k _ IHk|l k _ IHk]; intros Hreq.
    - exists e. constructor.
    - destruct (Hlist ts) as (rs & Hrs). { intros o Ho. eapply Hreq; [apply mc_here|done]. }
      destruct (IHk (join rs)) as (e & He). { intros us o Hu Ho. eapply Hreq; [by eapply mc_call|done]. }
      exists e. econstructor; eauto.
    - destruct (IHk (resolution w reg d)) as (e & He). { intros us o Hu Ho. eapply Hreq; [by eapply mc_res|done]. }
      exists e. by constructor.
    - destruct (IHk (rho l)) as (e & He). { intros us o Hu Ho. eapply Hreq; [by eapply mc_eff|done]. }
      exists e. by constructor. }
  assert (Hobj : forall a o, w_addr w o = a ->
     (exists e, eval_prog w reg rho cx0 (body w o cx0) e) /\ exists r, eval_req w reg rho cx0 (TPtr o) r).
  { intros a. induction (Hwf a) as [a _ IH]. intros o <-.
    destruct (w_deferred w o) as [name|] eqn:Ed.
    - assert (Hdef : body w o cx0 = deferred_prog o cx0) by (unfold body; by rewrite Ed).
      destruct (reg !! name) as [o'|] eqn:Er.
      + assert (Hd : depends w tr (w_addr w o) (w_addr w o')).
        { eapply dep_name; [done|]. by apply registry_of_in. }
        destruct (IH _ Hd o' eq_refl) as [(e & He) (r & Hr)].
        assert (Hres : resolution w reg o = inr o') by (unfold resolution; by rewrite Ed, Er).
        split; [|exists (wrap o' e); by eapply ev_ptr].
        exists (join [r]). rewrite Hdef. constructor. rewrite Hres.
        econstructor; [econstructor; [done|constructor]|]. constructor.
      + assert (Hres : resolution w reg o = inl (EUnresolved name)) by (unfold resolution; by rewrite Ed, Er).
        split; [|eexists; by eapply ev_unres].
        eexists. rewrite Hdef. constructor. rewrite Hres. constructor.
    - assert (Hb : body w o cx0 = w_body w o cx0) by (unfold body; by rewrite Ed).
      destruct (Hprog (body w o cx0)) as (e & He).
      { rewrite Hb. by apply Hfin. }
      { rewrite Hb. intros us o' Hm Ho. eapply IH; [by eapply dep_body|done]. }
      split; [eauto|]. exists (wrap o e). eapply ev_ptr; [|done]. unfold resolution. by rewrite Ed. }
  intros ts. apply Hlist. intros o _. by eapply Hobj.
Qed.

(** Two executions agree. *)
Lemma schedules_agree_lem w Q rho cx0 tr1 tr2 c1 p1 cx1 c2 p2 cx2 ts e1 e2 :
  addr_injective w -> insensitive w Q -> Q cx0 ->
  trace w tr1 -> registered_first tr1 -> answers rho tr1 -> client_contexts Q tr1 ->
  trace w tr2 -> registered_first tr2 -> answers rho tr2 -> client_contexts Q tr2 ->
  registry_of tr1 = registry_of tr2 ->
  EvCall c1 p1 cx1 ts ∈ tr1 -> EvRet c1 p1 e1 ∈ tr1 ->
  EvCall c2 p2 cx2 ts ∈ tr2 -> EvRet c2 p2 e2 ∈ tr2 -> e1 = e2.
Proof.
  intros Hinj Hins HQ T1 R1 A1 C1 T2 R2 A2 C2 Hreg Hc1 Hr1 Hc2 Hr2.
  destruct (ret_eval_lem w Q rho cx0 tr1 Hinj T1 R1 A1 C1 Hins HQ _ _ _ _ _ Hc1 Hr1) as (rs1 & H1 & ->).
  destruct (ret_eval_lem w Q rho cx0 tr2 Hinj T2 R2 A2 C2 Hins HQ _ _ _ _ _ Hc2 Hr2) as (rs2 & H2 & ->).
  f_equal. rewrite Hreg in H1.
  exact (proj1 (proj2 (eval_functional w (registry_of tr2) rho cx0)) _ _ H1 _ H2).
Qed.

Lemma targets_agree_lem w Q rho cx0 tr1 tr2 g1 g2 d o1 o2 e1 e2 :
  addr_injective w -> insensitive w Q -> Q cx0 ->
  trace w tr1 -> registered_first tr1 -> answers rho tr1 -> client_contexts Q tr1 ->
  trace w tr2 -> registered_first tr2 -> answers rho tr2 -> client_contexts Q tr2 ->
  registry_of tr1 = registry_of tr2 ->
  EvEnd g1 (w_addr w d) o1 e1 ∈ tr1 -> EvEnd g2 (w_addr w d) o2 e2 ∈ tr2 -> o1 = o2 /\ e1 = e2.
Proof.
  intros Hinj Hins HQ T1 R1 A1 C1 T2 R2 A2 C2 Hreg H1 H2.
  pose proof (end_target_lem w tr1 Hinj T1 R1 _ _ _ _ H1) as E1.
  pose proof (end_target_lem w tr2 Hinj T2 R2 _ _ _ _ H2) as E2.
  assert (o1 = o2) as <- by congruence. split; [done|].
  pose proof (end_eval_lem w Q rho cx0 tr1 Hinj T1 R1 A1 C1 Hins HQ _ _ _ _ H1) as V1.
  pose proof (end_eval_lem w Q rho cx0 tr2 Hinj T2 R2 A2 C2 Hins HQ _ _ _ _ H2) as V2.
  rewrite Hreg in V1.
  exact (proj1 (eval_functional w (registry_of tr2) rho cx0) _ _ V1 _ V2).
Qed.
