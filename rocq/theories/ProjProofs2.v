(** Executions of given target values, continued: failure, what is run, order, termination. *)
From stdpp Require Import base gmap list strings relations.
From Verif Require Import PathModel FindModel ContextModel RunnerModel RunnerSteps RunnerSpec RunnerSpec2.
From Verif Require Import RunnerInv RunnerInv2 RunnerInv3 RunnerInv4 RunnerInv5 RunnerInv6.
From Verif Require Import RunnerProofs RunnerProofs2 RunnerProofs3 RunnerProgress RunnerTerm RunnerDet.
From Verif Require Import ChainModel ChainProofs ChainProofs2 YamlModel YamlSpec ProjModel ProjSpec ProjProofs.
Local Open Scope list_scope.

(** Programs whose errors come from their calls, or ([b]) are their own. *)
Inductive honest (b : bool) : prog -> Prop :=
  | hon_none : honest b (Ret None)
  | hon_own k : b = true -> honest b (Ret (Some (EBody k)))
  | hon_call cx ts k : honest b (k None) -> (forall e, k (Some e) = Ret (Some e)) -> honest b (Call cx ts k)
  | hon_eff l k : (forall r, honest b (k r)) -> honest b (Eff l k).
Lemma runs_honest b g a o p h st e : runs g a o p h st -> honest b p -> st = Fin (Some e) ->
  (exists c cx ts, EvCall c (Some g) cx ts ∈ h /\ EvRet c (Some g) (Some e) ∈ h) \/ (b = true /\ exists k, e = EBody k).
Proof.
  induction 1 as [p|e'|l k r h st H IH|d k r h st H IH|cx' ts' k c'|cx' ts' k c' e' h st H IH]; intros Hh Est; try done.
  - simplify_eq. inversion Hh; subst. right. eauto.
  - inversion Hh as [| | |? ? Hk]; subst. destruct (IH (Hk r) eq_refl) as [(c & cx & ts & H1 & H2)|?]; [left|by right].
    exists c, cx, ts. split; by right.
  - inversion Hh.
  - inversion Hh as [| |? ? ? Hk Hs|]; subst. destruct e' as [e'|].
    + rewrite Hs in H. inversion H; subst. left. exists c', cx', ts'. simplify_eq. split; [by left|]. right. by left.
    + destruct (IH Hk eq_refl) as [(c & cx & ts & H1 & H2)|?]; [left|by right]. exists c, cx, ts. split; right; by right.
Qed.
Lemma all_honest b ts cx : honest b (Call cx ts (fun e => Ret e)).
Proof. by apply hon_call; [constructor|]. Qed.
Lemma seq_honest b ts cx : honest b (seq_prog ts cx).
Proof. induction ts as [|t ts IH]; simpl; [constructor|by apply hon_call]. Qed.
Lemma files_end_honest f cx : honest true (files_end f cx).
Proof.
  unfold files_end. case_decide; [constructor|]. destruct (GetDryRun cx); [constructor|].
  constructor. intros [|h]; [by constructor|]. constructor. intros [|r]; by constructor.
Qed.
Lemma files_sub_honest f sub cx : honest true (files_sub f sub cx).
Proof. apply hon_call; [apply files_end_honest|done]. Qed.
Lemma files_rest_honest f sub cx : honest true (files_rest f sub cx).
Proof.
  unfold files_rest. case_decide; [apply files_sub_honest|]. destruct (GetForce cx || GetDryRun cx); [apply files_sub_honest|].
  constructor. intros [|h]; [by constructor|]. constructor. intros [|[|r]]; [apply files_sub_honest|by constructor..].
Qed.
Lemma files_prog_honest reg f sub cx : honest true (files_prog reg f sub cx).
Proof.
  unfold files_prog. destruct (prereqs reg (f_in f)); [apply files_rest_honest|].
  apply hon_call; [apply files_rest_honest|done].
Qed.

Section exec.
  Context (addr : nat -> nat) (objs : list shape) (leafp : nat -> ctx -> prog) (reg : gmap string obj).
  Notation w := (project_world addr objs leafp).
  Notation part_of := (part_of addr objs leafp reg).
  Notation is_ref := (is_ref objs).
  Notation asks := (asks objs reg).
  Notation ok := (ok objs reg).
  Context (Hinj : forall o1 o2, addr o1 = addr o2 -> o1 = o2).
  (** The other targets ask for nothing. *)
  Context (Hquiet : forall o cx ts, ~ may_call (leafp o cx) ts).

  Lemma may_asks (o : nat) cx ts t : (forall n, ~ is_ref o n) -> may_call (target_prog objs leafp o cx) ts -> t ∈ ts ->
    exists d, t = TPtr d /\ asks o d.
  Proof.
    intros Hn Hm Hin. unfold target_prog in Hm. unfold ProjProofs.asks.
    destruct (objs !! o) as [[n|us|us|t' args|t' ins outs ac|tag nd dir]|] eqn:E; try (by apply Hquiet in Hm).
    - inversion Hm as [|? ? ? e ? H1| |]; subst; [|by apply may_ret in H1]. apply elem_of_list_fmap in Hin as (d & -> & Hd). eauto.
    - assert (Hs : exists u, u ∈ us /\ ts = [TPtr u]).
      { clear -Hm. induction us as [|u us IH]; simpl in Hm; [by apply may_ret in Hm|].
        inversion Hm as [|? ? ? e ? H1| |]; subst; [exists u; split; [left|done]|].
        destruct e; [by apply may_ret in H1|]. destruct (IH H1) as (u' & ? & ->). exists u'. split; [by right|done]. }
      destruct Hs as (u & Hu & ->). apply elem_of_list_singleton in Hin as ->. eauto.
    - inversion Hm as [|? ? ? e ? H1| |]; subst; [|by apply may_ret in H1]. apply elem_of_list_singleton in Hin as ->. eauto.
    - apply files_prog_calls in Hm as [-> | ->].
      + apply elem_of_list_singleton in Hin as ->. eauto.
      + apply elem_of_list_fmap in Hin as (f & -> & Hf). exists (f_id f). split; [done|]. right. by exists f.
  Qed.
  Lemma body_call tr l1 c g cx' ts l2 a (o : nat) cx t : part_of tr (l1 ++ EvCall c (Some g) cx' ts :: l2) ->
    EvStart g a o cx ∈ l1 -> t ∈ ts -> exists d, t = TPtr d /\ asks o d.
  Proof.
    intros Hp Hs Hin. pose proof (part_trace _ _ _ _ _ _ Hp) as Ht.
    destruct (path_at w l1 _ l2 g a o cx Ht) as (_ & st & Hr); [done|set_solver|].
    destruct (is_ref_dec addr objs leafp o) as [[n Hn]|Hn].
    - rewrite (body_ref _ _ _ _ _ _ Hn) in Hr. unfold deferred_prog in Hr.
      inversion Hr as [? E1 E2|? E1 E2| |d k x h' ? Hr' E1 E2| |]; subst; [by destruct (filter (concerns g) l1)|].
      symmetry in E2. apply app_snoc_cons in E2 as [(_ & ? & _)|(h1 & Hf & ->)]; [done|].
      assert (Hres : EvResolve g o x ∈ l1) by (eapply (elem_hist g); rewrite Hf; set_solver).
      apply (resolve_resolution addr objs leafp reg tr l1) in Hres; [|by eapply part_prefix]. subst x.
      unfold resolution in Hr'. rewrite (proj2 (deferred_ref addr objs leafp _ _) Hn) in Hr'.
      destruct (reg !! n) as [o'|] eqn:Ereg.
      + apply call_runs_call in Hr' as (_ & _ & ->). apply elem_of_list_singleton in Hin as ->. exists o'. split; [done|].
        unfold ProjProofs.asks. unfold ProjProofs.is_ref in Hn. by rewrite Hn.
      + inversion Hr' as [? E3 E4|? E3 E4| | | |]; [by destruct h1|].
        symmetry in E4. apply app_snoc_cons in E4 as [(-> & E4 & _)|(h' & _ & ?)]; [by simplify_eq|by destruct h'].
    - rewrite (body_own _ _ _ _ _ Hn) in Hr. eapply runs_may_call in Hr; [|apply elem_of_app; right; by left].
      by eapply may_asks.
  Qed.

  (** ** Failure *)
  Definition culprit (l : list event) (o : nat) : Prop :=
    match objs !! o with
    | Some (SRef n) => reg !! n = None
    | Some (SFiles _ _ _ _) => exists g a k, EvEnd g a o (Some (EBody k)) ∈ l
    | Some (SLeaf _ _ _) | None => ended_badly o l
    | _ => False
    end.
  Lemma culprit_mono l1 l2 o : culprit l1 o -> culprit (l1 ++ l2) o.
  Proof.
    unfold culprit, ended_badly. destruct (objs !! o) as [[]|]; try done;
      intros (g & a & e & H); exists g, a, e; apply elem_of_app; by left.
  Qed.
  (** A request that ended badly because of another. *)
  Definition bad_step (l : list event) (a b : nat) : Prop := asks a b /\ (ended_badly a l \/ exists n, is_ref a n).
  Lemma bad_mono l1 l2 a b : rtc (bad_step l1) a b -> rtc (bad_step (l1 ++ l2)) a b.
  Proof.
    intros H. induction H as [|x y z [H1 H2] _ IH]; [done|]. eapply rtc_l; [|exact IH]. split; [done|].
    destruct H2 as [(g & b & e & H2)|H2]; [left|by right]. exists g, b, e. apply elem_of_app. by left.
  Qed.
  Lemma ref_bad l (d o : nat) n : is_ref d n -> reg !! n = Some o -> bad_step l d o.
  Proof.
    intros Hn Hr. split; [|right; by exists n]. unfold ProjProofs.asks. unfold ProjProofs.is_ref in Hn. by rewrite Hn.
  Qed.
  Lemma call_failed tr l c g cx' ts a (o : nat) cx e :
    part_of tr l -> (forall g d o e, EvEnd g (addr d) o (Some e) ∈ l -> exists o', rtc (bad_step l) o o' /\ culprit l o') ->
    EvStart g a o cx ∈ l -> EvCall c (Some g) cx' ts ∈ l -> EvRet c (Some g) (Some e) ∈ l ->
    exists d o', asks o d /\ rtc (bad_step l) d o' /\ culprit l o'.
  Proof.
    intros Hp IH Hs Hc Hr. pose proof (part_trace _ _ _ _ _ _ Hp) as Ht.
    assert (Hask : forall t, t ∈ ts -> exists d, t = TPtr d /\ asks o d).
    { intros t Hin. apply elem_of_list_split in Hc as (m1 & m2 & ->).
      destruct (path_at w m1 (EvCall c (Some g) cx' ts) m2 g a o cx Ht) as (Hs' & _); [done|done|]. by eapply (body_call tr m1). }
    destruct (ret_some_failed w l c (Some g) cx' ts e Ht Hc Hr) as [H|(d & Hin & [(g' & o2 & e' & Hend)|(c' & i & name & Hd & Hrej)])].
    - by destruct (Hask _ H) as (? & ? & _).
    - destruct (Hask _ Hin) as (? & [= <-] & Ha). destruct (IH _ _ _ _ Hend) as (o' & H1 & H2).
      exists d, o'. split; [done|]. split; [|done].
      pose proof (end_resolution addr objs leafp reg Hinj _ _ _ _ _ _ Hp Hend) as Hres.
      destruct (is_ref_dec addr objs leafp d) as [[n Hn]|Hn].
      + apply (resolution_ref _ _ _ _ _ _ _ Hn) in Hres. eapply rtc_l; [by eapply ref_bad|exact H1].
      + apply (resolution_own _ _ _ _ _ _ Hn) in Hres as ->. exact H1.
    - destruct (Hask _ Hin) as (? & [= <-] & Ha). exists d, d. split; [done|]. split; [done|].
      apply (deferred_ref addr objs leafp) in Hd. apply (rej_unregistered addr objs leafp reg tr) in Hrej; [|done].
      unfold culprit. unfold ProjProofs.is_ref in Hd. by rewrite Hd.
  Qed.
  Lemma end_culprit tr l : part_of tr l -> forall g a (o : nat) e, EvEnd g a o (Some e) ∈ l -> exists o', rtc (bad_step l) o o' /\ culprit l o'.
  Proof.
    induction l as [l IH] using (induction_ltof1 _ (@length event)); unfold ltof in IH. intros Hp g a o e Hin.
    destruct (own_end addr objs leafp reg _ _ _ _ _ _ Hp Hin) as (l1 & l2 & cx & -> & Hs & Hp1).
    pose proof (part_trace _ _ _ _ _ _ Hp) as Ht.
    assert (IH1 : forall g d o e, EvEnd g (addr d) o (Some e) ∈ l1 -> exists o', rtc (bad_step l1) o o' /\ culprit l1 o').
    { intros g' d o' e' H'. eapply (IH l1); [rewrite app_length; simpl; lia|done..]. }
    assert (Hbad : ended_badly o (l1 ++ EvEnd g a o (Some e) :: l2)) by (by exists g, a, e).
    assert (Hlift : (exists d o', asks o d /\ rtc (bad_step l1) d o' /\ culprit l1 o') ->
      exists o', rtc (bad_step (l1 ++ EvEnd g a o (Some e) :: l2)) o o' /\ culprit (l1 ++ EvEnd g a o (Some e) :: l2) o').
    { intros (d & o' & H0 & H1 & H2). exists o'. split; [|by apply culprit_mono]. eapply rtc_l; [split; [exact H0|by left]|]. by apply bad_mono. }
    destruct (is_ref_dec addr objs leafp o) as [[n Hn]|Hn].
    - destruct (ref_end addr objs leafp reg Hinj _ _ _ _ _ _ _ _ Hp Hn) as [(o' & c & cx' & Hreg & Hcall & Hret)|[Hreg _]].
      + apply Hlift. by eapply (call_failed tr l1 c g cx' [TPtr o'] a o cx e).
      + exists o. split; [done|]. unfold culprit. unfold ProjProofs.is_ref in Hn. by rewrite Hn.
    - destruct (path_at w l1 _ l2 g a o cx Ht) as (_ & st & Hr); [done|set_solver|].
      rewrite (body_own _ _ _ _ _ Hn) in Hr.
      assert (st = Fin (Some e)) as -> by (eapply runs_end_fin; [exact Hr|apply elem_of_app; right; by left]).
      assert (Hcalls : (exists c cx' ts, EvCall c (Some g) cx' ts ∈ filter (concerns g) l1 ++ [EvEnd g a o (Some e)] /\
                         EvRet c (Some g) (Some e) ∈ filter (concerns g) l1 ++ [EvEnd g a o (Some e)]) ->
                       exists o', rtc (bad_step (l1 ++ EvEnd g a o (Some e) :: l2)) o o' /\ culprit (l1 ++ EvEnd g a o (Some e) :: l2) o').
      { intros (c & cx' & ts & H1 & H2). apply Hlift.
        apply elem_of_snoc in H1 as [H1|?]; [|done]. apply elem_of_snoc in H2 as [H2|?]; [|done].
        apply elem_hist in H1, H2. by eapply (call_failed tr l1). }
      unfold target_prog in Hr.
      destruct (objs !! o) as [[n|us|us|t' args|t' ins outs ac|tag nd dir]|] eqn:E.
      + by apply Hn in E.
      + apply Hcalls. destruct (runs_honest false _ _ _ _ _ _ e Hr) as [H|[? _]]; [apply all_honest|done|done|done].
      + apply Hcalls. destruct (runs_honest false _ _ _ _ _ _ e Hr) as [H|[? _]]; [apply seq_honest|done|done|done].
      + apply Hcalls. destruct (runs_honest false _ _ _ _ _ _ e Hr) as [H|[? _]]; [apply all_honest|done|done|done].
      + destruct (runs_honest true _ _ _ _ _ _ e Hr) as [H|[_ [k ->]]]; [apply files_prog_honest|done|by apply Hcalls|].
        exists o. split; [done|]. unfold culprit. rewrite E. by exists g, a, k.
      + exists o. split; [done|]. unfold culprit. rewrite E. exact Hbad.
      + exists o. split; [done|]. unfold culprit. rewrite E. exact Hbad.
  Qed.
  (** A client's call that returned an error. *)
  Lemma ret_culprit tr c p cx ts e : executes w reg tr -> EvCall c p cx ts ∈ tr -> EvRet c p (Some e) ∈ tr ->
    TNonPtr ∈ ts \/ exists o o', TPtr o ∈ ts /\ rtc (bad_step tr) o o' /\ culprit tr o'.
  Proof.
    intros Hx Hc Hr. pose proof (exec_part addr objs leafp reg tr Hx) as Hp. pose proof (part_trace _ _ _ _ _ _ Hp) as Ht.
    destruct (ret_some_failed w tr c p cx ts e Ht Hc Hr) as [H|(d & Hin & [(g' & o2 & e' & Hend)|(c' & i & name & Hd & Hrej)])]; [by left| |].
    - right. destruct (end_culprit tr tr Hp _ _ _ _ Hend) as (o' & H1 & H2). exists d, o'. split; [done|]. split; [|done].
      pose proof (end_resolution addr objs leafp reg Hinj _ _ _ _ _ _ Hp Hend) as Hres.
      destruct (is_ref_dec addr objs leafp d) as [[n Hn]|Hn].
      + apply (resolution_ref _ _ _ _ _ _ _ Hn) in Hres. eapply rtc_l; [by eapply ref_bad|exact H1].
      + apply (resolution_own _ _ _ _ _ _ Hn) in Hres as ->. exact H1.
    - right. exists d, d. split; [done|]. split; [done|].
      apply (deferred_ref addr objs leafp) in Hd. apply (rej_unregistered addr objs leafp reg tr) in Hrej; [|done].
      unfold culprit. unfold ProjProofs.is_ref in Hd. by rewrite Hd.
  Qed.

  (** ** What is run *)
  Lemma start_call tr l1 g a (o : nat) cx l2 : part_of tr (l1 ++ EvStart g a o cx :: l2) ->
    exists c p cx' ts d, EvCall c p cx' ts ∈ l1 /\ TPtr d ∈ ts /\ a = addr d /\ resolution w reg d = inr o.
  Proof.
    intros Hp. assert (Hp1 : part_of tr (l1 ++ [EvStart g a o cx])) by (by eapply part_prefix_cons).
    pose proof (part_trace _ _ _ _ _ _ Hp1) as Ht.
    destruct (start_ctx_lem w _ g a o cx Ht) as (c & i & p & ts & d1 & Hreq & _); [apply elem_of_app; right; by left|].
    destruct Hp1 as [Hx [l3 El3]]. rewrite <-(exec_registry _ _ _ _ _ Hx). destruct Hx as (Htr & Hrf & _).
    destruct (call_in_prefix w tr Htr Hrf _ l3 _ _ _ _ El3 Hreq) as (p' & cx' & ts' & d & H1 & H2 & H3 & H4).
    exists c, p', cx', ts', d. split_and!; try done.
    - by apply elem_of_snoc in H1 as [?|?].
    - by eapply elem_of_list_lookup_2.
  Qed.
  Lemma res_asks (d o : nat) : resolution w reg d = inr o -> rtc asks d o.
  Proof.
    intros Hres. destruct (is_ref_dec addr objs leafp d) as [[n Hn]|Hn].
    - apply (resolution_ref _ _ _ _ _ _ _ Hn) in Hres. apply rtc_once.
      unfold ProjProofs.asks. unfold ProjProofs.is_ref in Hn. by rewrite Hn.
    - by apply (resolution_own _ _ _ _ _ _ Hn) in Hres as ->.
  Qed.
  Lemma start_asked tr l : part_of tr l -> forall g a (o : nat) cx, EvStart g a o cx ∈ l ->
    exists c cx' ts d, EvCall c None cx' ts ∈ l /\ TPtr d ∈ ts /\ rtc asks d o.
  Proof.
    induction l as [l IH] using (induction_ltof1 _ (@length event)); unfold ltof in IH. intros Hp g a o cx Hin.
    apply elem_of_list_split in Hin as (l1 & l2 & ->).
    destruct (start_call _ _ _ _ _ _ _ Hp) as (c & p & cx' & ts & d & Hc & Hd & -> & Hres).
    destruct p as [g'|].
    - apply elem_of_list_split in Hc as (m1 & m2 & ->). rewrite <-app_assoc in *. cbn [app] in *.
      pose proof (part_trace _ _ _ _ _ _ Hp) as Ht.
      destruct (concerns_started w m1 _ _ g' Ht) as (a' & o' & cx0 & Hs); [done|].
      destruct (body_call _ _ _ _ _ _ _ _ _ _ _ Hp Hs Hd) as (? & [= <-] & Ha).
      destruct (IH m1) with (g := g') (a := a') (o := o') (cx := cx0) as (c0 & cx1 & ts1 & d0 & H1 & H2 & H3);
        [rewrite app_length; simpl; lia|by eapply part_prefix|done|].
      exists c0, cx1, ts1, d0. split; [apply elem_of_app; by left|]. split; [done|].
      etrans; [exact H3|]. eapply rtc_l; [exact Ha|]. by apply res_asks.
    - exists c, cx', ts, d. split; [apply elem_of_app; by left|]. split; [done|]. by apply res_asks.
  Qed.

  (** ** Order *)
  Lemma seq_start tr l1 g (t x : nat) cx l2 (o : nat) ts j :
    part_of tr (l1 ++ EvStart g (addr t) x cx :: l2) ->
    objs !! o = Some (SSeq ts) -> ts !! j = Some t ->
    (forall p, asks p t -> p = o) -> (forall j', ts !! j' = Some t -> j' = j) ->
    (forall c cx ts, EvCall c None cx ts ∈ tr -> TPtr t ∉ ts) ->
    forall i t', i < j -> ts !! i = Some t' -> ok l1 t'.
  Proof.
    intros Hp Ho Hj Honly Hslot Hclient i t' Hi Ht'.
    destruct (start_call _ _ _ _ _ _ _ Hp) as (c & p & cx' & us & d & Hc & Hd & Ha & _).
    apply Hinj in Ha as <-. destruct p as [g'|].
    2:{ exfalso. eapply Hclient; [|exact Hd]. destruct Hp as [_ [l3 ->]]. rewrite <-app_assoc. apply elem_of_app. by left. }
    apply elem_of_list_split in Hc as (m1 & m2 & ->). rewrite <-app_assoc in *. cbn [app] in *.
    pose proof (part_trace _ _ _ _ _ _ Hp) as Ht.
    destruct (concerns_started w m1 _ _ g' Ht) as (a' & o' & cx0 & Hs); [done|].
    destruct (body_call _ _ _ _ _ _ _ _ _ _ _ Hp Hs Hd) as (? & [= <-] & Hask). apply Honly in Hask as ->.
    assert (Hn : forall n, ~ is_ref o n) by (intros n Hn; unfold ProjProofs.is_ref in Hn; congruence).
    destruct (seq_order_lem w m1 c g' cx' us _ a' o cx0 (TPtr <$> ts) Ht Hs) as (_ & u & Hu & -> & Hsucc).
    { rewrite (body_own _ _ _ _ _ Hn). unfold target_prog. by rewrite Ho. }
    apply elem_of_list_singleton in Hd as <-. rewrite list_lookup_fmap in Hu.
    apply fmap_Some in Hu as (u' & Eu & Eu'). assert (u' = t) as -> by congruence. apply Hslot in Eu as <-.
    assert (Hok : ok m1 t').
    { apply (succ_ok addr objs leafp reg Hinj tr); [by eapply part_prefix|]. apply (Hsucc i); [done|].
      rewrite list_lookup_fmap. exact (fmap_Some_2 TPtr _ _ Ht'). }
    by apply ok_mono.
  Qed.

  (** ** Termination *)
  Lemma depends_asks tr a b : (forall n o, EvRegister n o ∈ tr -> reg !! n = Some o) -> depends w tr a b ->
    exists o o', a = addr o /\ b = addr o' /\ asks o o'.
  Proof.
    intros Hreg H. destruct H as [o cx ts o' Hd Hm Hin|d name o Hd Hr].
    - exists o, o'. split; [done|]. split; [done|]. pose proof (proj1 (deferred_none addr objs leafp o) Hd) as Hd'.
      by destruct (may_asks o cx ts (TPtr o') Hd' Hm Hin) as (? & [= <-] & ?).
    - exists d, o. split; [done|]. split; [done|]. apply Hreg in Hr. apply (deferred_ref addr objs leafp) in Hd.
      unfold ProjProofs.asks. unfold ProjProofs.is_ref in Hd. by rewrite Hd.
  Qed.
  Lemma asks_wf tr : (forall n o, EvRegister n o ∈ tr -> reg !! n = Some o) -> well_founded (fun b a => asks a b) -> well_founded_deps w tr.
  Proof.
    intros Hx Hwf.
    assert (H : forall o, Acc (fun b a => depends w tr a b) (addr o)).
    { intros o. induction (Hwf o) as [o _ IH]. constructor. intros b Hb.
      destruct (depends_asks _ _ _ Hx Hb) as (o1 & o2 & E & -> & Ha). apply Hinj in E as ->. by apply IH. }
    intros a. constructor. intros b Hb. destruct (depends_asks _ _ _ Hx Hb) as (o1 & o2 & _ & -> & _). apply H.
  Qed.
  Lemma target_finite : (forall o cx, finite (leafp o cx)) -> all_finite w.
  Proof.
    intros Hl o cx _. simpl. unfold target_prog.
    assert (Hc : forall cx ts, finite (Call cx ts (fun e => Ret e))) by (intros; constructor; constructor).
    destruct (objs !! (o : nat)) as [[n|us|us|t' args|t' ins outs ac|tag nd dir]|]; try apply Hl; try apply Hc.
    - induction us as [|u us IH]; simpl; [constructor|]. constructor. intros [e|]; [constructor|done].
    - apply files_prog_finite.
  Qed.
  Lemma asks_safe (logs : nat -> list event) (o : nat) : (forall o cx, finite (leafp o cx)) ->
    (forall k n o, EvRegister n o ∈ logs k -> reg !! n = Some o) -> Acc (fun b a => asks a b) o ->
    safe w (fun a b => exists k, depends w (logs k) a b) (addr o).
  Proof.
    intros Hl Hx Hacc. induction Hacc as [o _ IH]. constructor.
    - intros o' cx _ Hd. by apply target_finite.
    - intros b [k Hb]. destruct (depends_asks (logs k) _ _ (Hx k) Hb) as (o1 & o2 & E & -> & Ha). apply Hinj in E as ->. by apply IH.
  Qed.
End exec.
