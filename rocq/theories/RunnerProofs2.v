(** Seq, Deps, All, ArgTarget. *)
From stdpp Require Import base gmap list strings.
From Verif Require Import ContextModel RunnerModel RunnerSteps RunnerSpec.
From Verif Require Import RunnerInv RunnerInv2 RunnerInv3 RunnerInv4 RunnerInv5 RunnerInv6 RunnerProofs.

Lemma calls_by_cons_call g c g' cx ts l :
  calls_by g (EvCall c (Some g') cx ts :: l) =
  (if decide (g' = g) then [(c, ts)] else []) ++ calls_by g l.
Proof. unfold calls_by. simpl. by destruct (decide (g' = g)). Qed.

Definition by_call (g : nat) (ev : event) : bool :=
  match ev with EvCall _ (Some g') _ _ => bool_decide (g' = g) | _ => false end.

Lemma calls_by_cons_other g ev l :
  by_call g ev = false -> calls_by g (ev :: l) = calls_by g l.
Proof.
  destruct ev as [|c [g'|] cx ts| | | | | | |]; try done. cbn [by_call]. intros H%bool_decide_eq_false_1.
  rewrite calls_by_cons_call. by rewrite decide_False.
Qed.

Lemma calls_by_filter g l : calls_by g (filter (concerns g) l) = calls_by g l.
Proof.
  induction l as [|ev l IH]; [done|]. destruct (by_call g ev) eqn:Hb.
  - destruct ev as [|c [g'|] cx ts| | | | | | |]; try done. apply bool_decide_eq_true_1 in Hb as ->.
    rewrite filter_cons_True by done. by rewrite !calls_by_cons_call, IH.
  - rewrite (calls_by_cons_other g ev l Hb). rewrite filter_cons. case_decide; [|done].
    by rewrite (calls_by_cons_other g ev _ Hb).
Qed.

Lemma calls_by_split g l j c us :
  calls_by g l !! j = Some (c, us) ->
  exists m1 m2 cx, l = m1 ++ EvCall c (Some g) cx us :: m2 /\ length (calls_by g m1) = j.
Proof.
  revert j. induction l as [|ev l IH]; intros j Hj; [done|]. destruct (by_call g ev) eqn:Hb.
  - destruct ev as [|c' [g'|] cx ts| | | | | | |]; try done. apply bool_decide_eq_true_1 in Hb as ->.
    rewrite calls_by_cons_call, decide_True in Hj by done. simpl in Hj.
    destruct j as [|j]; simpl in Hj; simplify_eq.
    + by exists [], l, cx.
    + destruct (IH _ Hj) as (m1 & m2 & cx' & -> & <-).
      exists (EvCall c' (Some g) cx ts :: m1), m2, cx'. split; [done|].
      by rewrite calls_by_cons_call, decide_True.
  - rewrite (calls_by_cons_other g ev l Hb) in Hj. destruct (IH _ Hj) as (m1 & m2 & cx' & -> & <-).
    exists (ev :: m1), m2, cx'. split; [done|]. by rewrite (calls_by_cons_other g ev _ Hb).
Qed.

Lemma calls_by_app g l1 l2 : calls_by g (l1 ++ l2) = calls_by g l1 ++ calls_by g l2.
Proof. apply omap_app. Qed.

Lemma elem_hist g (ev : event) (l : list event) : ev ∈ filter (concerns g) l -> ev ∈ l.
Proof. intros H. by apply elem_of_list_filter in H as [_ H]. Qed.

(** The path of goroutine [g], up to and including an interaction of [g]. *)
Lemma path_at w l1 ev l2 g a o cx :
  trace w (l1 ++ ev :: l2) -> concerns g ev -> EvStart g a o cx ∈ l1 ++ ev :: l2 ->
  EvStart g a o cx ∈ l1 /\
  exists st, runs g a o (body w o cx) (filter (concerns g) l1 ++ [ev]) st.
Proof.
  intros Ht Hc Hin. apply trace_reachable in Ht as (s & Hre & Hl).
  destruct (log_split _ _ _ _ _ Hre Hl) as (s1 & ch & s2 & H1 & Hstep & H2 & L1 & L2).
  assert (Hh : hist g s2 = filter (concerns g) l1 ++ [ev]).
  { unfold hist. rewrite L2. by apply hist_app_yes. }
  destruct (hist_started w s2 g) as (a' & o' & cx' & Hin'); [done|rewrite Hh; by destruct (filter _ _)|].
  assert (Hsame : a' = a /\ o' = o /\ cx' = cx).
  { rewrite <-Hl in Hin.
    assert (Hin2 : EvStart g a' o' cx' ∈ s_log s).
    { rewrite Hl. rewrite L2 in Hin'. apply elem_of_app in Hin' as [?|Hx%elem_of_list_singleton].
      - apply elem_of_app; by left.
      - apply elem_of_app; right; rewrite <-Hx. left. }
    destruct (proj1 (inv_start_holds _ _ Hre) _ _ _ _ Hin) as (gr & ? & ? & ? & ? & _).
    destruct (proj1 (inv_start_holds _ _ Hre) _ _ _ _ Hin2) as (gr' & ? & ? & ? & ? & _).
    naive_solver. }
  destruct Hsame as (-> & -> & ->). split.
  - rewrite L2 in Hin'. apply elem_of_snoc in Hin' as [?|Hx]; [done|].
    rewrite <-Hx in Hc. done.
  - destruct (hist_runs _ _ _ _ _ _ H2 Hin') as [st Hr]. rewrite Hh in Hr. eauto.
Qed.

(** The target and context of the goroutine making an interaction. *)
Lemma concerns_started w l1 ev l2 g :
  trace w (l1 ++ ev :: l2) -> concerns g ev -> exists a o cx, EvStart g a o cx ∈ l1.
Proof.
  intros Ht Hc. pose proof Ht as Ht0. apply trace_reachable in Ht as (s & Hre & Hl).
  destruct (hist_started w s g) as (a & o & cx & Hin); [done| |].
  { unfold hist. rewrite Hl, filter_app, filter_cons_True by done. by destruct (filter _ l1). }
  exists a, o, cx. rewrite Hl in Hin. by destruct (path_at _ _ _ _ _ _ _ _ Ht0 Hc Hin).
Qed.

Lemma app_snoc_cons {A} (h : list A) x y l :
  h ++ [x] = y :: l -> (h = [] /\ x = y /\ l = []) \/ exists h', h = y :: h' /\ l = h' ++ [x].
Proof. destruct h as [|z h]; simpl; intros [= -> <-]; eauto. Qed.

(** ** Seq *)
Lemma seq_runs_call g a o ts cx h c cx' us st :
  runs g a o (seq_prog ts cx) (h ++ [EvCall c (Some g) cx' us]) st ->
  cx' = cx /\ exists t, ts !! length (calls_by g h) = Some t /\ us = [t] /\
    forall j c' us', calls_by g h !! j = Some (c', us') ->
      EvRet c' (Some g) None ∈ h /\ exists t', ts !! j = Some t' /\ us' = [t'].
Proof.
  revert h. induction ts as [|t ts IH]; intros h Hr; simpl in Hr.
  - inversion Hr as [? E1 E2|? E1 E2| | | |]; [by destruct h|].
    symmetry in E2. apply app_snoc_cons in E2 as [(_ & ? & _)|(h' & _ & ?)]; [done|by destruct h'].
  - inversion Hr as [? E1 E2|? E1 E2| | |? ? ? ? E1 E2|? ? ? ? e h' ? Hr' E1 E2]; subst.
    + by destruct h.
    + symmetry in E2. apply app_snoc_cons in E2 as [(-> & E2 & _)|(h' & _ & ?)]; [|by destruct h'].
      simplify_eq. split; [done|]. exists t. split_and!; done.
    + symmetry in E2. apply app_snoc_cons in E2 as [(_ & _ & ?)|(h2 & -> & E2)]; [done|].
      symmetry in E2. apply app_snoc_cons in E2 as [(_ & ? & _)|(h3 & -> & ->)]; [done|].
      destruct e as [e|].
      * inversion Hr' as [? E3 E4|? E3 E4| | | |]; [by destruct h3|].
        symmetry in E4. apply app_snoc_cons in E4 as [(_ & ? & _)|(h' & _ & ?)]; [done|by destruct h'].
      * destruct (IH _ Hr') as (-> & t' & Ht' & -> & Hall).
        assert (Hcb : calls_by g (EvCall c0 (Some g) cx [t] :: EvRet c0 (Some g) None :: h3) =
                   (c0, [t]) :: calls_by g h3).
        { unfold calls_by. simpl. by rewrite decide_True. }
        rewrite Hcb. simpl. split; [done|]. exists t'. split_and!; [done|done|].
        intros [|j] c' us' Hj; simpl in Hj.
        -- simplify_eq. split; [set_solver|]. eauto.
        -- destruct (Hall _ _ _ Hj) as [? ?]. split; [set_solver|done].
Qed.

Lemma seq_runs_end g a o ts cx h r st :
  runs g a o (seq_prog ts cx) (h ++ [EvEnd g a o r]) st ->
  match r with
  | None =>
      length (calls_by g h) = length ts /\
      forall c us, (c, us) ∈ calls_by g h -> EvRet c (Some g) None ∈ h
  | Some e =>
      exists h' c us, calls_by g h = h' ++ [(c, us)] /\ EvRet c (Some g) (Some e) ∈ h /\
        forall c' us', (c', us') ∈ h' -> EvRet c' (Some g) None ∈ h
  end.
Proof.
  revert h. induction ts as [|t ts IH]; intros h Hr; simpl in Hr.
  - inversion Hr as [? E1 E2|? E1 E2| | | |]; [by destruct h|].
    symmetry in E2. apply app_snoc_cons in E2 as [(-> & E2 & _)|(h' & _ & ?)]; [|by destruct h'].
    simplify_eq. split; [done|]. intros c us H. by apply elem_of_nil in H.
  - inversion Hr as [? E1 E2|? E1 E2| | |? ? ? ? E1 E2|? ? ? ? e h' ? Hr' E1 E2]; subst.
    + by destruct h.
    + symmetry in E2. apply app_snoc_cons in E2 as [(_ & E2 & _)|(h' & _ & ?)]; [done|by destruct h'].
    + symmetry in E2. apply app_snoc_cons in E2 as [(_ & _ & ?)|(h2 & -> & E2)]; [done|].
      symmetry in E2. apply app_snoc_cons in E2 as [(_ & ? & _)|(h3 & -> & ->)]; [done|].
      assert (Hcb : calls_by g (EvCall c (Some g) cx [t] :: EvRet c (Some g) e :: h3) =
                   (c, [t]) :: calls_by g h3).
      { unfold calls_by. simpl. by rewrite decide_True. }
      rewrite Hcb. destruct e as [e|].
      * inversion Hr' as [? E3 E4|? E3 E4| | | |]; [by destruct h3|].
        symmetry in E4. apply app_snoc_cons in E4 as [(-> & E4 & _)|(h' & _ & ?)]; [|by destruct h'].
        simplify_eq. exists [], c, [t]. split_and!; [done|set_solver|].
        intros c' us' H. by apply elem_of_nil in H.
      * specialize (IH _ Hr'). destruct r as [e|].
        -- destruct IH as (h' & c' & us & Hc & He & Hall). exists ((c, [t]) :: h'), c', us.
           rewrite Hc. split_and!; [done|set_solver|].
           intros c2 us2 H. apply elem_of_cons in H as [[= -> ->]|H]; [set_solver|].
           apply Hall in H. set_solver.
        -- destruct IH as [Hl Hall]. split; [simpl; by rewrite Hl|].
           intros c2 us2 H. apply elem_of_cons in H as [[= -> ->]|H]; [set_solver|].
           apply Hall in H. set_solver.
Qed.

Lemma in_calls_by g tr c us :
  (c, us) ∈ calls_by g tr <-> exists cx, EvCall c (Some g) cx us ∈ tr.
Proof.
  unfold calls_by. rewrite elem_of_list_omap. split.
  - intros (ev & Hin & Hev). destruct ev as [|c' [g'|] cx ts| | | | | | |]; try done.
    case_decide; simplify_eq. eauto.
  - intros [cx Hin]. eexists. split; [done|]. simpl. by rewrite decide_True.
Qed.

Lemma seq_order_lem w l1 c g cx' us l2 a o cx ts :
  trace w (l1 ++ EvCall c (Some g) cx' us :: l2) -> EvStart g a o cx ∈ l1 ->
  body w o cx = seq_prog ts cx ->
  cx' = cx /\ exists t, ts !! length (calls_by g l1) = Some t /\ us = [t] /\
    forall j t', j < length (calls_by g l1) -> ts !! j = Some t' -> succeeded w t' l1.
Proof.
  intros Ht Hin Hb.
  destruct (path_at w l1 _ l2 g a o cx Ht) as (_ & st & Hr); [done|set_solver|].
  rewrite Hb in Hr. apply seq_runs_call in Hr as (-> & t & Hts & -> & Hall).
  rewrite calls_by_filter in *. split; [done|]. exists t. split_and!; [done|done|].
  intros j t' Hj Ht'. destruct (calls_by g l1 !! j) as [[c' us']|] eqn:E.
  2:{ apply lookup_ge_None_1 in E. lia. }
  destruct (Hall _ _ _ E) as [Hret (t2 & Ht2 & ->)]. simplify_eq.
  apply elem_hist in Hret. apply elem_of_list_lookup_2 in E as Hc'.
  apply in_calls_by in Hc' as [cx'' Hcall].
  pose proof (trace_prefix _ _ _ Ht) as Ht1.
  apply elem_of_list_split in Hret as (l3 & l4 & ->).
  destruct (ret_completed _ _ _ _ _ _ Ht1) as (cx3 & ts3 & rs & Hcall3 & _).
  destruct (call_unique _ _ _ _ _ _ (Some g) cx3 ts3 Ht1 Hcall) as (_ & -> & <-).
  { apply elem_of_app; by left. }
  pose proof (ret_none_succeeded _ _ _ _ _ _ _ 0 _ Ht1 Hcall3 eq_refl) as (o2 & g2 & o3 & -> & Hend).
  exists o2, g2, o3. split; [done|]. apply elem_of_app; by left.
Qed.

Lemma seq_result_lem w l1 g a o r l2 cx ts :
  trace w (l1 ++ EvEnd g a o r :: l2) -> EvStart g a o cx ∈ l1 ->
  body w o cx = seq_prog ts cx ->
  match r with
  | None => length (calls_by g l1) = length ts /\ forall t, t ∈ ts -> succeeded w t l1
  | Some e =>
      exists before c us, calls_by g l1 = before ++ [(c, us)] /\
        EvRet c (Some g) (Some e) ∈ l1 /\
        forall c' us', (c', us') ∈ before -> EvRet c' (Some g) None ∈ l1
  end.
Proof.
  intros Ht Hin Hb.
  destruct (path_at w l1 _ l2 g a o cx Ht) as (_ & st & Hr); [done|set_solver|].
  rewrite Hb in Hr. apply seq_runs_end in Hr. rewrite calls_by_filter in *. destruct r as [e|].
  - destruct Hr as (h' & c & us & ? & ? & Hall). exists h', c, us. split_and!; [done|by eapply elem_hist|].
    intros c' us' H'. eapply elem_hist; eauto.
  - destruct Hr as [Hl Hall]. split; [done|].
    intros t [j Hj]%elem_of_list_lookup. apply lookup_lt_Some in Hj as Hlt. rewrite <-Hl in Hlt.
    (* the j-th call was for [t] and returned nil *)
    destruct (calls_by g l1 !! j) as [[c us]|] eqn:E; [|apply lookup_ge_None_1 in E; lia].
    apply elem_of_list_lookup_2 in E as Hc. pose proof (Hall _ _ Hc) as Hret. apply elem_hist in Hret.
    apply in_calls_by in Hc as [cx' Hcall].
    pose proof (trace_prefix _ _ _ Ht) as Ht1.
    (* the targets of that call *)
    assert (Hus : us = [t]).
    { destruct (calls_by_split g l1 j c us) as (m1 & m2 & cx2 & -> & Hlen). 1: exact E.
      destruct (path_at w m1 _ m2 g a o cx Ht1) as (_ & st2 & Hr2); [done|done|].
      rewrite Hb in Hr2. apply seq_runs_call in Hr2 as (-> & t2 & Hts & -> & _).
      rewrite calls_by_filter, Hlen in Hts. congruence. }
    subst us. apply elem_of_list_split in Hret as (l3 & l4 & ->).
    destruct (ret_completed _ _ _ _ _ _ Ht1) as (cx3 & ts3 & rs & Hcall3 & _).
    destruct (call_unique _ _ _ _ _ _ (Some g) cx3 ts3 Ht1 Hcall) as (_ & -> & <-).
    { apply elem_of_app; by left. }
    pose proof (ret_none_succeeded _ _ _ _ _ _ _ 0 t Ht1 Hcall3 eq_refl) as (o2 & g2 & o3 & -> & Hend).
    exists o2, g2, o3. split; [done|]. apply elem_of_app; by left.
Qed.

(** ** All and ArgTarget *)
Lemma call_runs_end g a o cx ts h r st :
  runs g a o (Call cx ts (fun e => Ret e)) (h ++ [EvEnd g a o r]) st ->
  exists c, h = [EvCall c (Some g) cx ts; EvRet c (Some g) r].
Proof.
  intros Hr.
  inversion Hr as [? E1 E2|? E1 E2| | |? ? ? ? E1 E2|? ? ? ? e h' ? Hr' E1 E2]; subst.
  - by destruct h.
  - symmetry in E2. apply app_snoc_cons in E2 as [(_ & E2 & _)|(h' & _ & ?)]; [done|by destruct h'].
  - symmetry in E2. apply app_snoc_cons in E2 as [(_ & _ & ?)|(h2 & -> & E2)]; [done|].
    symmetry in E2. apply app_snoc_cons in E2 as [(_ & ? & _)|(h3 & -> & ->)]; [done|].
    inversion Hr' as [? E3 E4|? E3 E4| | | |]; [by destruct h3|].
    symmetry in E4. apply app_snoc_cons in E4 as [(-> & E4 & _)|(h' & _ & ?)]; [|by destruct h'].
    simplify_eq. eauto.
Qed.

Lemma call_runs_call g a o cx ts h c cx' us st :
  runs g a o (Call cx ts (fun e => Ret e)) (h ++ [EvCall c (Some g) cx' us]) st ->
  h = [] /\ cx' = cx /\ us = ts.
Proof.
  intros Hr.
  inversion Hr as [? E1 E2|? E1 E2| | |? ? ? ? E1 E2|? ? ? ? e h' ? Hr' E1 E2]; subst.
  - by destruct h.
  - symmetry in E2. apply app_snoc_cons in E2 as [(-> & E2 & _)|(h' & _ & ?)]; [|by destruct h'].
    by simplify_eq.
  - symmetry in E2. apply app_snoc_cons in E2 as [(_ & _ & ?)|(h2 & -> & E2)]; [done|].
    symmetry in E2. apply app_snoc_cons in E2 as [(_ & ? & _)|(h3 & -> & ->)]; [done|].
    inversion Hr' as [? E3 E4|? E3 E4| | | |]; [by destruct h3|].
    symmetry in E4. apply app_snoc_cons in E4 as [(-> & E4 & _)|(h' & _ & ?)]; [done|by destruct h'].
Qed.

Lemma all_result_lem w l1 g a o r l2 cx ts :
  trace w (l1 ++ EvEnd g a o r :: l2) -> EvStart g a o cx ∈ l1 ->
  body w o cx = all_prog ts cx ->
  exists c rs, calls_by g l1 = [(c, ts)] /\ EvRet c (Some g) r ∈ l1 /\
    length rs = length ts /\ r = join rs /\
    forall i t, ts !! i = Some t -> exists ri, rs !! i = Some ri /\ completed w c i t ri l1.
Proof.
  intros Ht Hin Hb.
  destruct (path_at w l1 _ l2 g a o cx Ht) as (_ & st & Hr); [done|set_solver|].
  rewrite Hb in Hr. apply call_runs_end in Hr as [c Hh].
  assert (Hcb : calls_by g l1 = [(c, ts)]).
  { rewrite <-calls_by_filter, Hh. unfold calls_by. simpl. by rewrite decide_True. }
  assert (Hret : EvRet c (Some g) r ∈ l1). { eapply elem_hist. rewrite Hh. set_solver. }
  assert (Hcall : EvCall c (Some g) cx ts ∈ l1). { eapply elem_hist. rewrite Hh. set_solver. }
  pose proof (trace_prefix _ _ _ Ht) as Ht1.
  apply elem_of_list_split in Hret as Hsp. destruct Hsp as (l3 & l4 & E).
  rewrite E in Ht1. destruct (ret_completed _ _ _ _ _ _ Ht1) as (cx3 & ts3 & rs & Hcall3 & Hlen & He & Hall).
  rewrite <-E in Ht1.
  destruct (call_unique _ _ _ _ _ _ (Some g) cx3 ts3 Ht1 Hcall) as (_ & -> & <-).
  { rewrite E. apply elem_of_app; by left. }
  exists c, rs. split_and!; try done. intros i t Hi. destruct (Hall _ _ Hi) as (ri & Hri & Hcomp).
  exists ri. split; [done|]. rewrite E. clear -Hcomp.
  assert (Hsub : forall ev, ev ∈ l3 -> ev ∈ l3 ++ EvRet c (Some g) r :: l4).
  { intros. apply elem_of_app; by left. }
  destruct t as [o|]; simpl in *; naive_solver.
Qed.

(** After its end event a goroutine interacts no more. *)
Lemma nothing_after_end_lem w l1 g a o r l2 c cx us :
  trace w (l1 ++ EvEnd g a o r :: l2) -> EvCall c (Some g) cx us ∉ l2.
Proof.
  intros Ht Hin. apply elem_of_list_split in Hin as (m1 & m2 & ->).
  set (ev := EvCall c (Some g) cx us) in *.
  assert (Ht' : trace w ((l1 ++ EvEnd g a o r :: m1) ++ ev :: m2)) by (by rewrite <-app_assoc).
  destruct (concerns_started w _ ev _ g Ht' eq_refl) as (a' & o' & cx' & Hs).
  destruct (path_at w _ ev _ g a' o' cx' Ht' eq_refl) as (_ & st & Hr).
  { apply elem_of_app; by left. }
  rewrite filter_app, filter_cons_True in Hr by done.
  (* a path never continues after an end event *)
  assert (Hno : forall p h st, runs g a' o' p h st -> forall h1 e2 a2 o2 h2, h = h1 ++ EvEnd g a2 o2 e2 :: h2 -> h2 = []).
  { clear. intros p h st Hr. induction Hr; intros h1 e2 a2 o2 h2 E.
    - by destruct h1.
    - destruct h1 as [|? [|]]; simplify_eq/=; done.
    - destruct h1; simplify_eq/=; eauto.
    - destruct h1; simplify_eq/=; eauto.
    - destruct h1 as [|? [|]]; simplify_eq/=; done.
    - destruct h1 as [|? [|]]; simplify_eq/=; eauto. }
  rewrite <-app_assoc in Hr. simpl in Hr.
  specialize (Hno _ _ _ Hr _ _ _ _ _ eq_refl). by destruct (filter (concerns g) m1).
Qed.
