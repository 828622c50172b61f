(** Executions of given target values whose other bodies may call Run. *)
From stdpp Require Import base gmap list strings relations.
From Verif Require Import PathModel FindModel TopDirModel DriverModel ContextModel RegistryModel RunnerModel RunnerSteps RunnerSpec RunnerSpec2.
From Verif Require Import RunnerInv RunnerInv2 RunnerInv3 RunnerInv4 RunnerInv5 RunnerInv6.
From Verif Require Import RunnerProofs RunnerProofs2 RunnerProofs3 RunnerProgress RunnerTerm RunnerDet.
From Verif Require Import PathProofs3 ChainModel ChainProofs ChainProofs2 YamlModel YamlSpec MainModel MainSpec ProjModel ProjSpec EndSpec MixSpec ProjProofs ProjProofs2 ProjProofs8.
Local Open Scope list_scope.

(** ** The search for the maker of an input *)
Lemma files_of_snoc objs sh : files_of (objs ++ [sh]) = files_of objs ++ option_list (as_files (length objs) sh).
Proof.
  unfold files_of. rewrite imap_app, omap_app. f_equal. simpl. rewrite Nat.add_0_r. by destruct (as_files _ _).
Qed.
Lemma outputs_snoc objs sh y p : outputs (objs ++ [sh]) y p <->
  outputs objs y p \/ (y = length objs /\ exists t ins outs ac, sh = SFiles t ins outs ac /\ p ∈ outs).
Proof.
  unfold outputs. split.
  - intros (t & ins & outs & ac & H & Hp). apply lookup_app_Some in H as [H|[Hl H]]; [left; eauto 6|].
    apply list_lookup_singleton_Some in H as [E H]. right. split; [lia|]. eauto 6.
  - intros [(t & ins & outs & ac & H & Hp)|(-> & t & ins & outs & ac & -> & Hp)]; exists t, ins, outs, ac; (split; [|done]).
    + by apply lookup_app_l_Some.
    + rewrite lookup_app_r by done. by rewrite Nat.sub_diag.
Qed.
Lemma outputs_lt objs y p : outputs objs y p -> y < length objs.
Proof. intros (t & ins & outs & ac & H & _). by eapply lookup_lt_Some. Qed.
Lemma declared_maker objs p :
  match declare_all (files_of objs) !! p with
  | Some f => maker_of objs p (f_id f) /\ exists t ac, objs !! f_id f = Some (SFiles t (f_in f) (f_out f) ac)
  | None => forall y, ~ outputs objs y p
  end.
Proof.
  induction objs as [|sh objs IH] using rev_ind; [simpl; unfold declare_all; simpl; rewrite lookup_empty; intros y (? & ? & ? & ? & H & _); by rewrite lookup_nil in H|].
  rewrite files_of_snoc. unfold declare_all in *. rewrite fold_left_app.
  assert (Hold : (forall t ins outs ac, sh = SFiles t ins outs ac -> p ∉ outs) ->
    match fold_left declare (files_of objs) ∅ !! p with
    | Some f => maker_of (objs ++ [sh]) p (f_id f) /\ exists t ac, (objs ++ [sh]) !! f_id f = Some (SFiles t (f_in f) (f_out f) ac)
    | None => forall y, ~ outputs (objs ++ [sh]) y p
    end).
  { intros Hno. destruct (fold_left declare (files_of objs) ∅ !! p) as [f|].
    - destruct IH as [[H1 H2] (t & ac & H3)]. split; [split|].
      + apply outputs_snoc. by left.
      + intros y [Hy|(_ & t' & ins & outs & ac' & -> & Hp)]%outputs_snoc; [by apply H2|]. by destruct (Hno _ _ _ _ eq_refl).
      + exists t, ac. by apply lookup_app_l_Some.
    - intros y [Hy|(_ & t' & ins & outs & ac' & -> & Hp)]%outputs_snoc; [by apply IH in Hy|]. by destruct (Hno _ _ _ _ eq_refl). }
  destruct sh as [n|ts|ts|t args|t ins outs ac|t n d]; simpl; try (apply Hold; intros; congruence).
  rewrite declare_lookup. case_decide as Hd; simpl in Hd; [|apply Hold; intros ???? [= -> -> -> ->]; done].
  simpl. split; [split|].
  - apply outputs_snoc. right. split; [done|]. eauto 6.
  - intros y [Hy%outputs_lt|(-> & _)]%outputs_snoc; lia.
  - exists t, ac. rewrite lookup_app_r by done. by rewrite Nat.sub_diag.
Qed.
Lemma iter_Dir k i : Nat.iter (S k) Dir i = Nat.iter k Dir (Dir i).
Proof. apply Nat.iter_succ_r. Qed.
Lemma find_loop_found fuel reg i f : find_loop fuel reg i = Found f ->
  exists k, reg !! Nat.iter k Dir i = Some f /\ (forall j, j < k -> reg !! Nat.iter j Dir i = None) /\ (forall j, 1 <= j <= k -> Nat.iter j Dir i ∉ [""; "."; "/"]).
Proof.
  revert i. induction fuel as [|fuel IH]; intros i; cbn [find_loop]; [done|].
  destruct (reg !! i) as [f'|] eqn:E.
  { intros [= ->]. exists 0. split; [done|]. split; intros j Hj; lia. }
  case_decide as Hd; [done|]. intros H. destruct (IH _ H) as (k & H1 & H2 & H3). exists (S k). split; [by rewrite iter_Dir|]. split.
  - intros [|j] Hj; [done|]. rewrite iter_Dir. apply H2. lia.
  - intros [|[|j]] Hj; [lia| |].
    + simpl. rewrite !elem_of_cons, elem_of_nil. tauto.
    + rewrite iter_Dir. apply H3. lia.
Qed.
Lemma find_loop_finds fuel (reg : gmap string files) f : forall k i, find_loop fuel reg i <> FindOutOfFuel ->
  reg !! Nat.iter k Dir i = Some f -> (forall j, j < k -> reg !! Nat.iter j Dir i = None) -> (forall j, 1 <= j <= k -> Nat.iter j Dir i ∉ [""; "."; "/"]) ->
  find_loop fuel reg i = Found f.
Proof.
  induction fuel as [|fuel IH]; intros k i Hf H1 H2 H3; cbn [find_loop] in *; [done|].
  destruct k as [|k]; [simpl in H1; by rewrite H1|]. pose proof (H2 0 ltac:(lia)) as E. simpl in E. rewrite E in *.
  assert (Hs : forall n, Dir i = i -> Nat.iter n Dir i = i) by (intros n Ed; induction n as [|n IHn]; [done|]; simpl; by rewrite IHn).
  case_decide as Hd.
  - exfalso. destruct Hd as [Hd|[Hd|[Hd|Hd]]].
    4:{ rewrite (Hs (S k) Hd) in H1. congruence. }
    all: apply (H3 1 ltac:(lia)); simpl; rewrite Hd; set_solver.
  - apply (IH k); [done|by rewrite <-iter_Dir| |].
    + intros j Hj. rewrite <-iter_Dir. apply H2. lia.
    + intros j Hj. rewrite <-iter_Dir. apply H3. lia.
Qed.
Lemma maker_fun objs p x y : maker_of objs p x -> maker_of objs p y -> x = y.
Proof. intros [H1 H2] [H3 H4]. apply H2 in H3 as H5. apply H4 in H1 as H6. lia. Qed.
Lemma prereqs_responsible objs ins x :
  (exists f, f ∈ prereqs (declare_all (files_of objs)) ins /\ x = f_id f) <-> exists i, i ∈ ins /\ responsible objs i x.
Proof.
  assert (Hnone : forall p, (forall y, ~ outputs objs y p) -> declare_all (files_of objs) !! p = None).
  { intros p H. pose proof (declared_maker objs p) as Hm. destruct (declare_all (files_of objs) !! p) as [f|]; [|done].
    destruct Hm as [[Hm _] _]. by apply H in Hm. }
  split.
  - intros (f & (i & Hi & Hf)%prereqs_inv & ->). exists i. split; [done|]. unfold findInFilesRegistry in Hf.
    apply find_loop_found in Hf as (k & H1 & H2 & H3). exists k. split; [|split; [|done]].
    + pose proof (declared_maker objs (Nat.iter k Dir i)) as Hm. rewrite H1 in Hm. by destruct Hm.
    + intros j y Hj. pose proof (declared_maker objs (Nat.iter j Dir i)) as Hm. rewrite (H2 j Hj) in Hm. apply Hm.
  - intros (i & Hi & k & H1 & H2 & H3). pose proof (declared_maker objs (Nat.iter k Dir i)) as Hm.
    destruct (declare_all (files_of objs) !! Nat.iter k Dir i) as [f|] eqn:E.
    2:{ destruct H1 as [H1 _]. by apply Hm in H1. }
    destruct Hm as [Hm _]. exists f. split; [|by eapply maker_fun]. eapply prereqs_elem; [done|]. unfold findInFilesRegistry.
    eapply find_loop_finds; [apply find_terminates|done| |done]. intros j Hj. apply Hnone. intros y. by apply H2.
Qed.

(** The relations of the specification and those of ProjProofs.v. *)
Lemma asks_needs objs (reg : gmap string nat) o t : asks objs reg o t <-> needs true objs reg o t.
Proof.
  unfold asks. split.
  - destruct (objs !! o) as [[n|us|us|t' args|t' ins outs ac|tag nd dir]|] eqn:E; intros H; try done.
    + by eapply needs_name.
    + by eapply needs_all.
    + by eapply needs_seq.
    + subst t'. by eapply needs_args.
    + destruct H as [->|H]; [by eapply needs_files|]. apply prereqs_responsible in H as (i & Hi & H). by eapply needs_maker.
  - destruct 1 as [o ts t H Ht|o ts t H Ht|o t args H|o n t H Ht|o t ins outs ac i x H Hi Hx|o t ins outs ac _ H]; rewrite H; try done.
    + right. apply prereqs_responsible. eauto.
    + by left.
Qed.
Lemma insists_needs objs (reg : gmap string nat) o t : insists objs reg o t <-> needs false objs reg o t.
Proof.
  unfold insists, asks. split.
  - destruct (objs !! o) as [[n|us|us|t' args|t' ins outs ac|tag nd dir]|] eqn:E; intros H; try done.
    + by eapply needs_name.
    + by eapply needs_all.
    + by eapply needs_seq.
    + subst t'. by eapply needs_args.
    + apply prereqs_responsible in H as (i & Hi & H). by eapply needs_maker.
  - destruct 1 as [o ts t H Ht|o ts t H Ht|o t args H|o n t H Ht|o t ins outs ac i x H Hi Hx|o t ins outs ac ? H]; try rewrite H; try done.
    apply prereqs_responsible. eauto.
Qed.
Lemma ok_completed objs (reg : gmap string nat) tr o : ok objs reg tr o <-> completed objs reg tr o.
Proof.
  split; induction 1 as [o Hn Hw|o n o' Hn Hr _ IH]; [by apply comp_own|by eapply comp_name|by apply ok_own|by eapply ok_ref].
Qed.

Section exec.
  Context (addr : nat -> nat) (objs : list shape) (leafp : nat -> ctx -> prog) (reg : gmap string obj).
  Notation w := (project_world addr objs leafp).
  Notation part_of := (part_of addr objs leafp reg).
  Notation is_ref := (is_ref objs).
  Notation asks := (asks objs reg).
  Notation ok := (ok objs reg).
  Notation may_need := (may_need objs reg leafp).
  Notation culprit := (culprit objs reg).
  Notation bad_step := (bad_step objs reg).
  Context (Hinj : forall o1 o2, addr o1 = addr o2 -> o1 = o2).
  (** A target that is none of the kinds that fab knows. *)
  Definition other (o : nat) : Prop := (exists t n d, objs !! o = Some (SLeaf t n d)) \/ objs !! o = None.
  Lemma other_dec o : other o \/ ~ other o.
  Proof.
    unfold other. destruct (objs !! o) as [[n|us|us|t' args|t' ins outs ac|tag nd dir]|]; [right|right|right|right|right|left|left].
    1-5: intros [(? & ? & ? & ?)|?]; congruence. - left. eauto. - by right.
  Qed.

  Lemma may_asks_own (o : nat) cx ts t : (forall n, ~ is_ref o n) -> ~ other o -> may_call (target_prog objs leafp o cx) ts -> t ∈ ts ->
    exists d, t = RunnerModel.TPtr d /\ asks o d.
  Proof.
    intros Hn Ho Hm Hin. unfold target_prog in Hm. unfold ProjProofs.asks. unfold other in Ho.
    destruct (objs !! o) as [[n|us|us|t' args|t' ins outs ac|tag nd dir]|] eqn:E.
    1: by apply Hn in E. 5,6: destruct Ho; eauto.
    - inversion Hm as [|? ? ? e ? H1| |]; subst; [|by apply may_ret in H1]. apply elem_of_list_fmap in Hin as (d & -> & Hd). eauto.
    - assert (Hs : exists u, u ∈ us /\ ts = [RunnerModel.TPtr u]).
      { clear -Hm. induction us as [|u us IH]; simpl in Hm; [by apply may_ret in Hm|].
        inversion Hm as [|? ? ? e ? H1| |]; subst; [exists u; split; [left|done]|].
        destruct e; [by apply may_ret in H1|]. destruct (IH H1) as (u' & ? & ->). exists u'. split; [by right|done]. }
      destruct Hs as (u & Hu & ->). apply elem_of_list_singleton in Hin as ->. eauto.
    - inversion Hm as [|? ? ? e ? H1| |]; subst; [|by apply may_ret in H1]. apply elem_of_list_singleton in Hin as ->. eauto.
    - apply files_prog_calls in Hm as [-> | ->].
      + apply elem_of_list_singleton in Hin as ->. eauto.
      + apply elem_of_list_fmap in Hin as (f & -> & Hf). exists (f_id f). split; [done|]. right. by exists f.
  Qed.
  Lemma other_body (o : nat) cx : other o -> target_prog objs leafp o cx = leafp o cx.
  Proof. intros [(t & n & d & E)|E]; unfold target_prog; by rewrite E. Qed.
  Lemma may_asks' (o : nat) cx ts d : (forall n, ~ is_ref o n) -> may_call (target_prog objs leafp o cx) ts -> RunnerModel.TPtr d ∈ ts -> may_need o d.
  Proof.
    intros Hn Hm Hin. destruct (other_dec o) as [Ho|Ho].
    - rewrite (other_body _ _ Ho) in Hm. by eapply mn_body.
    - destruct (may_asks_own _ _ _ _ Hn Ho Hm Hin) as (? & [= <-] & Ha). apply mn_asks. by apply asks_needs.
  Qed.
  Lemma body_call_ref tr l1 c g cx' ts l2 a (o : nat) cx t n : part_of tr (l1 ++ EvCall c (Some g) cx' ts :: l2) ->
    EvStart g a o cx ∈ l1 -> t ∈ ts -> is_ref o n -> exists d, t = RunnerModel.TPtr d /\ asks o d.
  Proof.
    intros Hp Hs Hin Hn. pose proof (part_trace _ _ _ _ _ _ Hp) as Ht.
    destruct (path_at w l1 _ l2 g a o cx Ht) as (_ & st & Hr); [done|set_solver|].
    rewrite (body_ref _ _ _ _ _ _ Hn) in Hr. unfold deferred_prog in Hr.
    inversion Hr as [? E1 E2|? E1 E2| |d k x h' ? Hr' E1 E2| |]; subst; [by destruct (filter (concerns g) l1)|].
    symmetry in E2. apply app_snoc_cons in E2 as [(_ & ? & _)|(h1 & Hf & ->)]; [done|].
    assert (Hres : EvResolve g o x ∈ l1) by (eapply (elem_hist g); rewrite Hf; set_solver).
    apply (resolve_resolution addr objs leafp reg tr l1) in Hres; [|by eapply part_prefix]. subst x.
    unfold resolution in Hr'. rewrite (proj2 (deferred_ref addr objs leafp _ _) Hn) in Hr'.
    destruct (reg !! n) as [o'|] eqn:Ereg.
    + apply call_runs_call in Hr' as (_ & _ & ->). apply elem_of_list_singleton in Hin as ->. exists o'. split; [done|].
      unfold ProjProofs.asks. unfold ProjProofs.is_ref in Hn. by rewrite Hn.
    + inversion Hr' as [? E3 E4|? E3 E4| | | |]; [by destruct h1|].
      symmetry in E4. apply app_snoc_cons in E4 as [(-> & E4 & _)|(h' & _ & ?)]; [by simplify_eq|by destruct h'].
  Qed.
  Lemma body_call_own tr l1 c g cx' ts l2 a (o : nat) cx t : part_of tr (l1 ++ EvCall c (Some g) cx' ts :: l2) ->
    EvStart g a o cx ∈ l1 -> t ∈ ts -> ~ other o -> exists d, t = RunnerModel.TPtr d /\ asks o d.
  Proof.
    intros Hp Hs Hin Ho. destruct (is_ref_dec addr objs leafp o) as [[n Hn]|Hn]; [by eapply body_call_ref|].
    pose proof (part_trace _ _ _ _ _ _ Hp) as Ht. destruct (path_at w l1 _ l2 g a o cx Ht) as (_ & st & Hr); [done|set_solver|].
    rewrite (body_own _ _ _ _ _ Hn) in Hr. eapply runs_may_call in Hr; [|apply elem_of_app; right; by left]. by eapply may_asks_own.
  Qed.
  Lemma body_call_may tr l1 c g cx' ts l2 a (o : nat) cx d : part_of tr (l1 ++ EvCall c (Some g) cx' ts :: l2) ->
    EvStart g a o cx ∈ l1 -> RunnerModel.TPtr d ∈ ts -> may_need o d.
  Proof.
    intros Hp Hs Hin. destruct (is_ref_dec addr objs leafp o) as [[n Hn]|Hn].
    - destruct (body_call_ref _ _ _ _ _ _ _ _ _ _ _ _ Hp Hs Hin Hn) as (? & [= <-] & Ha). apply mn_asks. by apply asks_needs.
    - pose proof (part_trace _ _ _ _ _ _ Hp) as Ht. destruct (path_at w l1 _ l2 g a o cx Ht) as (_ & st & Hr); [done|set_solver|].
      rewrite (body_own _ _ _ _ _ Hn) in Hr. eapply runs_may_call in Hr; [|apply elem_of_app; right; by left]. by eapply may_asks'.
  Qed.

  (** ** Failure *)
  Lemma call_failed' tr l c g cx' ts a (o : nat) cx e :
    part_of tr l -> (forall g d o e, EvEnd g (addr d) o (Some e) ∈ l -> exists o', rtc (bad_step l) o o' /\ culprit l o') -> ~ other o ->
    EvStart g a o cx ∈ l -> EvCall c (Some g) cx' ts ∈ l -> EvRet c (Some g) (Some e) ∈ l ->
    exists d o', asks o d /\ rtc (bad_step l) d o' /\ culprit l o'.
  Proof.
    intros Hp IH Hoth Hs Hc Hr. pose proof (part_trace _ _ _ _ _ _ Hp) as Ht.
    assert (Hask : forall t, t ∈ ts -> exists d, t = RunnerModel.TPtr d /\ asks o d).
    { intros t Hin. apply elem_of_list_split in Hc as (m1 & m2 & ->).
      destruct (path_at w m1 (EvCall c (Some g) cx' ts) m2 g a o cx Ht) as (Hs' & _); [done|done|]. by eapply (body_call_own tr m1). }
    destruct (ret_some_failed w l c (Some g) cx' ts e Ht Hc Hr) as [H|(d & Hin & [(g' & o2 & e' & Hend)|(c' & i & name & Hd & Hrej)])].
    - by destruct (Hask _ H) as (? & ? & _).
    - destruct (Hask _ Hin) as (? & [= <-] & Ha). destruct (IH _ _ _ _ Hend) as (o' & H1 & H2).
      exists d, o'. split; [done|]. split; [|done].
      pose proof (end_resolution addr objs leafp reg Hinj _ _ _ _ _ _ Hp Hend) as Hres.
      destruct (is_ref_dec addr objs leafp d) as [[n Hn]|Hn].
      + apply (resolution_ref _ _ _ _ _ _ _ Hn) in Hres. eapply rtc_l; [by eapply ref_bad|exact H1].
      + apply (resolution_own _ _ _ _ _ _ Hn) in Hres as ->. exact H1.
    - destruct (Hask _ Hin) as (? & [= <-] & Ha). exists d, d. split; [done|]. split; [done|].
      apply (deferred_ref addr objs leafp) in Hd. apply (rej_unregistered addr objs leafp reg tr) in Hrej; [|done].
      unfold ProjProofs2.culprit. unfold ProjProofs.is_ref in Hd. by rewrite Hd.
  Qed.
  Lemma end_culprit' tr l : part_of tr l -> forall g a (o : nat) e, EvEnd g a o (Some e) ∈ l -> exists o', rtc (bad_step l) o o' /\ culprit l o'.
  Proof.
    induction l as [l IH] using (induction_ltof1 _ (@length event)); unfold ltof in IH. intros Hp g a o e Hin.
    destruct (own_end addr objs leafp reg _ _ _ _ _ _ Hp Hin) as (l1 & l2 & cx & -> & Hs & Hp1).
    pose proof (part_trace _ _ _ _ _ _ Hp) as Ht.
    assert (IH1 : forall g d o e, EvEnd g (addr d) o (Some e) ∈ l1 -> exists o', rtc (bad_step l1) o o' /\ culprit l1 o').
    { intros g' d o' e' H'. eapply (IH l1); [rewrite app_length; simpl; lia|done..]. }
    assert (Hbad : ended_badly o (l1 ++ EvEnd g a o (Some e) :: l2)) by (by exists g, a, e).
    destruct (other_dec o) as [Hoth|Hoth].
    { exists o. split; [done|]. unfold ProjProofs2.culprit. destruct Hoth as [(t & n & d & E)|E]; by rewrite E. }
    assert (Hlift : (exists d o', asks o d /\ rtc (bad_step l1) d o' /\ culprit l1 o') ->
      exists o', rtc (bad_step (l1 ++ EvEnd g a o (Some e) :: l2)) o o' /\ culprit (l1 ++ EvEnd g a o (Some e) :: l2) o').
    { intros (d & o' & H0 & H1 & H2). exists o'. split; [|by apply culprit_mono]. eapply rtc_l; [split; [exact H0|by left]|]. by apply bad_mono. }
    destruct (is_ref_dec addr objs leafp o) as [[n Hn]|Hn].
    - destruct (ref_end addr objs leafp reg Hinj _ _ _ _ _ _ _ _ Hp Hn) as [(o' & c & cx' & Hreg & Hcall & Hret)|[Hreg _]].
      + apply Hlift. by eapply (call_failed' tr l1 c g cx' [RunnerModel.TPtr o'] a o cx e).
      + exists o. split; [done|]. unfold ProjProofs2.culprit. unfold ProjProofs.is_ref in Hn. by rewrite Hn.
    - destruct (path_at w l1 _ l2 g a o cx Ht) as (_ & st & Hr); [done|set_solver|].
      rewrite (body_own _ _ _ _ _ Hn) in Hr.
      assert (st = Fin (Some e)) as -> by (eapply runs_end_fin; [exact Hr|apply elem_of_app; right; by left]).
      assert (Hcalls : (exists c cx' ts, EvCall c (Some g) cx' ts ∈ filter (concerns g) l1 ++ [EvEnd g a o (Some e)] /\
                         EvRet c (Some g) (Some e) ∈ filter (concerns g) l1 ++ [EvEnd g a o (Some e)]) ->
                       exists o', rtc (bad_step (l1 ++ EvEnd g a o (Some e) :: l2)) o o' /\ culprit (l1 ++ EvEnd g a o (Some e) :: l2) o').
      { intros (c & cx' & ts & H1 & H2). apply Hlift.
        apply elem_of_snoc in H1 as [H1|?]; [|done]. apply elem_of_snoc in H2 as [H2|?]; [|done].
        apply elem_hist in H1, H2. by eapply (call_failed' tr l1). }
      unfold target_prog in Hr. unfold other in Hoth.
      destruct (objs !! o) as [[n|us|us|t' args|t' ins outs ac|tag nd dir]|] eqn:E.
      + by apply Hn in E.
      + apply Hcalls. destruct (runs_honest false _ _ _ _ _ _ e Hr) as [H|[? _]]; [apply all_honest|done|done|done].
      + apply Hcalls. destruct (runs_honest false _ _ _ _ _ _ e Hr) as [H|[? _]]; [apply seq_honest|done|done|done].
      + apply Hcalls. destruct (runs_honest false _ _ _ _ _ _ e Hr) as [H|[? _]]; [apply all_honest|done|done|done].
      + destruct (runs_honest true _ _ _ _ _ _ e Hr) as [H|[_ [k ->]]]; [apply files_prog_honest|done|by apply Hcalls|].
        exists o. split; [done|]. unfold ProjProofs2.culprit. rewrite E. by exists g, a, k.
      + destruct Hoth. eauto.
      + destruct Hoth. eauto.
  Qed.
  Lemma culprit_broken l o : culprit l o -> broken objs reg l o.
  Proof.
    unfold ProjProofs2.culprit, broken. destruct (objs !! o) as [[n|us|us|t' args|t' ins outs ac|tag nd dir]|] eqn:E; intros H; try done.
    - left. eauto.
    - destruct H as (g & a & k & H). right; left. do 7 eexists. split; [done|exact H].
    - right; right. split; [left; eauto|done].
    - right; right. split; [by right|done].
  Qed.
  (** The request [t] failed. *)
  Lemma ret_broken tr c p cx ts e : executes w reg tr -> EvCall c p cx ts ∈ tr -> EvRet c p (Some e) ∈ tr ->
    TNonPtr ∈ ts \/ exists o o', RunnerModel.TPtr o ∈ ts /\ rtc (asks_of objs reg) o o' /\ broken objs reg tr o'.
  Proof.
    intros Hx Hc Hr. pose proof (exec_part addr objs leafp reg tr Hx) as Hp. pose proof (part_trace _ _ _ _ _ _ Hp) as Ht.
    assert (Hlift : forall o o', rtc (bad_step tr) o o' -> rtc (asks_of objs reg) o o').
    { intros o o' H. induction H as [|x y z [H _] _ IH]; [done|]. eapply rtc_l; [|exact IH]. by apply asks_needs. }
    destruct (ret_some_failed w tr c p cx ts e Ht Hc Hr) as [H|(d & Hin & [(g' & o2 & e' & Hend)|(c' & i & name & Hd & Hrej)])]; [by left| |].
    - right. destruct (end_culprit' tr tr Hp _ _ _ _ Hend) as (o' & H1 & H2). exists d, o'. split; [done|]. split; [|by apply culprit_broken]. apply Hlift.
      pose proof (end_resolution addr objs leafp reg Hinj _ _ _ _ _ _ Hp Hend) as Hres.
      destruct (is_ref_dec addr objs leafp d) as [[n Hn]|Hn].
      + apply (resolution_ref _ _ _ _ _ _ _ Hn) in Hres. eapply rtc_l; [by eapply ref_bad|exact H1].
      + apply (resolution_own _ _ _ _ _ _ Hn) in Hres as ->. exact H1.
    - right. exists d, d. split; [done|]. split; [done|].
      apply (deferred_ref addr objs leafp) in Hd. apply (rej_unregistered addr objs leafp reg tr) in Hrej; [|done].
      left. by exists name.
  Qed.

  (** ** What is run *)
  Lemma res_need (d o : nat) : resolution w reg d = inr o -> rtc may_need d o.
  Proof.
    intros Hres. destruct (is_ref_dec addr objs leafp d) as [[n Hn]|Hn].
    - apply (resolution_ref _ _ _ _ _ _ _ Hn) in Hres. apply rtc_once, mn_asks. by eapply needs_name.
    - by apply (resolution_own _ _ _ _ _ _ Hn) in Hres as ->.
  Qed.
  Lemma body_settings (o : nat) cx1 cx : keep_settings leafp -> may_pass (body w o cx1) cx -> same_settings cx1 cx.
  Proof.
    intros Hk Hr.
    destruct (is_ref_dec addr objs leafp o) as [[n Hn]|Hn].
    + rewrite (body_ref _ _ _ _ _ _ Hn) in Hr. unfold deferred_prog in Hr.
      inversion Hr as [| |? ? r ? H1|]; subst. destruct r; [by apply pass_ret in H1|].
      inversion H1 as [|? ? ? e ? H2| |]; subst; [done|by apply pass_ret in H2].
    + rewrite (body_own _ _ _ _ _ Hn) in Hr. destruct (other_dec o) as [Ho|Ho].
      * rewrite (other_body _ _ Ho) in Hr. apply (Hk o). clear -Hr. induction Hr; [constructor|by eapply rw_call|by eapply rw_res|by eapply rw_eff].
      * unfold target_prog in Hr. unfold other in Ho.
        destruct (objs !! o) as [[n|us|us|t' args|t' ins outs ac|tag nd dir]|] eqn:E.
        -- by apply Hn in E.
        -- by apply pass_all in Hr as ->.
        -- by apply pass_seq in Hr as ->.
        -- unfold arg_prog in Hr. inversion Hr as [|? ? ? e ? H2| |]; subst; [done|by apply pass_ret in H2].
        -- by apply pass_files in Hr as ->.
        -- destruct Ho. eauto.
        -- destruct Ho. eauto.
  Qed.
  Lemma start_needed tr l : part_of tr l -> forall g a (o : nat) cx, EvStart g a o cx ∈ l ->
    exists c cx0 ts d, EvCall c None cx0 ts ∈ l /\ RunnerModel.TPtr d ∈ ts /\ rtc may_need d o /\ (keep_settings leafp -> same_settings cx0 cx).
  Proof.
    induction l as [l IH] using (induction_ltof1 _ (@length event)); unfold ltof in IH. intros Hp g a o cx Hin.
    apply elem_of_list_split in Hin as (l1 & l2 & ->).
    destruct (start_call_ctx addr objs leafp reg _ _ _ _ _ _ _ Hp) as (c & p & ts & d & Hc & Hd & Hres).
    destruct p as [g'|].
    2:{ exists c, cx, ts, d. split; [apply elem_of_app; by left|]. split; [done|]. split; [by apply res_need|done]. }
    apply elem_of_list_split in Hc as (m1 & m2 & ->). rewrite <-app_assoc in *. cbn [app] in *.
    pose proof (part_trace _ _ _ _ _ _ Hp) as Ht.
    destruct (concerns_started w m1 _ _ g' Ht) as (a' & o' & cx1 & Hs); [done|].
    pose proof (body_call_may _ _ _ _ _ _ _ _ _ _ _ Hp Hs Hd) as Ha.
    destruct (IH m1) with (g := g') (a := a') (o := o') (cx := cx1) as (c0 & cx0 & ts0 & d0 & H1 & H2 & H3 & H4);
      [rewrite app_length; simpl; lia|by eapply part_prefix|done|].
    exists c0, cx0, ts0, d0. split; [apply elem_of_app; by left|]. split; [done|]. split.
    - etrans; [exact H3|]. eapply rtc_l; [exact Ha|]. by apply res_need.
    - intros Hk. eapply same_trans; [by apply H4|].
      destruct (path_at w m1 _ _ g' a' o' cx1 Ht) as (_ & st & Hr); [done|set_solver|].
      eapply runs_pass in Hr; [|apply elem_of_app; right; by left]. by eapply body_settings.
  Qed.

  (** ** Success *)
  Lemma needs_completed all tr l o t : part_of tr l -> (all = true -> forall g a o cx, EvStart g a o cx ∈ l -> insistent cx) ->
    completed objs reg l o -> rtc (needs all objs reg) o t -> completed objs reg l t.
  Proof.
    intros Hp Hall Ho H. induction H as [|x y z Hxy _ IH]; [done|]. apply IH. apply ok_completed. apply ok_completed in Ho. destruct all.
    - apply (ok_asks addr objs leafp reg Hinj tr l x y); [done|by apply Hall|done|by apply asks_needs].
    - apply (ok_insists addr objs leafp reg Hinj tr l x y); [done|done|by apply insists_needs].
  Qed.

  (** ** Order *)
  Lemma seq_call tr l1 c g cx' ts l2 a (o : nat) cx us : part_of tr (l1 ++ EvCall c (Some g) cx' ts :: l2) -> EvStart g a o cx ∈ l1 ->
    objs !! o = Some (SSeq us) -> exists j t, us !! j = Some t /\ ts = [RunnerModel.TPtr t] /\
      forall i t' x, i < j -> us !! i = Some t' -> rtc (needs false objs reg) t' x -> completed objs reg l1 x.
  Proof.
    intros Hp Hs Ho. pose proof (part_trace _ _ _ _ _ _ Hp) as Ht.
    assert (Hn : forall n, ~ is_ref o n) by (intros n Hn; unfold ProjProofs.is_ref in Hn; congruence).
    destruct (seq_order_lem w l1 c g cx' ts _ a o cx (RunnerModel.TPtr <$> us) Ht Hs) as (_ & u & Hu & -> & Hsucc).
    { rewrite (body_own _ _ _ _ _ Hn). unfold target_prog. by rewrite Ho. }
    rewrite list_lookup_fmap in Hu. apply fmap_Some in Hu as (t & Et & ->). eexists _, t. split; [exact Et|]. split; [done|].
    intros i t' x Hi Ht' Hx. eapply (needs_completed false tr); [by eapply part_prefix|done| |exact Hx]. apply ok_completed.
    apply (succ_ok addr objs leafp reg Hinj tr); [by eapply part_prefix|]. apply (Hsucc i); [done|].
    rewrite list_lookup_fmap. exact (fmap_Some_2 RunnerModel.TPtr _ _ Ht').
  Qed.
  Lemma files_act tr l1 ev l2 g a (o : nat) cx t ins outs ac : part_of tr (l1 ++ ev :: l2) -> EvStart g a o cx ∈ l1 ->
    objs !! o = Some (SFiles t ins outs ac) ->
    (exists l r, ev = EvEff g l r) \/ (exists c cx' ts, ev = EvCall c (Some g) cx' ts /\ calls_by g l1 <> []) \/ ev = EvEnd g a o None ->
    forall i x y, i ∈ ins -> responsible objs i x -> rtc (needs false objs reg) x y -> completed objs reg l1 y.
  Proof.
    intros Hp Hs Ho Hev i x y Hi Hx Hy. pose proof (part_trace _ _ _ _ _ _ Hp) as Ht.
    assert (Hn : forall n, ~ is_ref o n) by (intros n Hn; unfold ProjProofs.is_ref in Hn; congruence).
    destruct (proj2 (prereqs_responsible objs ins x)) as (f & Hf & ->); [by exists i|].
    eapply (needs_completed false tr); [by eapply part_prefix|done| |exact Hy]. apply ok_completed.
    apply (succ_ok addr objs leafp reg Hinj tr); [by eapply part_prefix|].
    eapply (order_lem w l1 _ l2 g a o cx (files_of objs) {| f_id := o; f_in := ins; f_out := outs |}); [exact Ht|done| |exact Hev|exact Hf].
    rewrite (body_own _ _ _ _ _ Hn). unfold target_prog. by rewrite Ho.
  Qed.

  (** ** Termination *)
  Lemma depends_need tr a b : (forall n o, EvRegister n o ∈ tr -> reg !! n = Some o) -> depends w tr a b ->
    exists o o', a = addr o /\ b = addr o' /\ may_need o o'.
  Proof.
    intros Hreg H. destruct H as [o cx ts o' Hd Hm Hin|d name o Hd Hr].
    - exists o, o'. split; [done|]. split; [done|]. pose proof (proj1 (deferred_none addr objs leafp o) Hd) as Hd'. exact (may_asks' o cx ts o' Hd' Hm Hin).
    - exists d, o. split; [done|]. split; [done|]. apply Hreg in Hr. apply (deferred_ref addr objs leafp) in Hd. apply mn_asks. exact (needs_name true objs reg d name o Hd Hr).
  Qed.
  Lemma need_safe (logs : nat -> list event) (o : nat) : (forall o cx, finite (leafp o cx)) ->
    (forall k n o, EvRegister n o ∈ logs k -> reg !! n = Some o) -> Acc (fun b a => may_need a b) o ->
    safe w (fun a b => exists k, depends w (logs k) a b) (addr o).
  Proof.
    intros Hl Hx Hacc. induction Hacc as [o _ IH]. constructor.
    - intros o' cx _ Hd. by apply target_finite.
    - intros b [k Hb]. destruct (depends_need (logs k) _ _ (Hx k) Hb) as (o1 & o2 & E & -> & Ha). apply Hinj in E as ->. by apply IH.
  Qed.
  Lemma need_wf tr : (forall n o, EvRegister n o ∈ tr -> reg !! n = Some o) -> well_founded (fun b a => may_need a b) -> well_founded_deps w tr.
  Proof.
    intros Hx Hwf.
    assert (H : forall o, Acc (fun b a => depends w tr a b) (addr o)).
    { intros o. induction (Hwf o) as [o _ IH]. constructor. intros b Hb.
      destruct (depends_need _ _ _ Hx Hb) as (o1 & o2 & E & -> & Ha). apply Hinj in E as ->. by apply IH. }
    intros a. constructor. intros b Hb. destruct (depends_need _ _ _ Hx Hb) as (o1 & o2 & _ & -> & _). apply H.
  Qed.
End exec.
