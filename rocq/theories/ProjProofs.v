(** Executions of given target values: success, failure, order. *)
From stdpp Require Import base gmap list strings relations.
From Verif Require Import PathModel FindModel ContextModel RunnerModel RunnerSteps RunnerSpec RunnerSpec2.
From Verif Require Import RunnerInv RunnerInv2 RunnerInv3 RunnerInv4 RunnerInv5 RunnerInv6.
From Verif Require Import RunnerProofs RunnerProofs2 RunnerProofs3 RunnerProgress RunnerDet.
From Verif Require Import ChainModel ChainProofs ChainProofs2 YamlModel YamlSpec ProjModel ProjSpec.
Local Open Scope list_scope.

(** A body that makes one call and returns its error. *)
Lemma one_call_result w l1 g a o r l2 cx cx' ts :
  trace w (l1 ++ EvEnd g a o r :: l2) -> EvStart g a o cx ∈ l1 ->
  body w o cx = Call cx' ts (fun e => Ret e) ->
  exists c, EvCall c (Some g) cx' ts ∈ l1 /\ EvRet c (Some g) r ∈ l1.
Proof.
  intros Ht Hs Hb. destruct (path_at w l1 _ l2 g a o cx Ht) as (_ & st & Hr); [done|set_solver|].
  rewrite Hb in Hr. apply call_runs_end in Hr as [c Hh]. exists c.
  split; eapply (elem_hist g); rewrite Hh; set_solver.
Qed.
(** A call that returned nil: all its targets succeeded. *)
Lemma ret_none_all w l c p cx ts t :
  trace w l -> EvCall c p cx ts ∈ l -> EvRet c p None ∈ l -> t ∈ ts -> succeeded w t l.
Proof.
  intros Ht Hc Hr [i Hi]%elem_of_list_lookup. apply elem_of_list_split in Hr as (m1 & m2 & ->).
  apply succeeded_mono. destruct (ret_completed _ _ _ _ _ _ Ht) as (cx1 & ts1 & rs & Hc1 & _).
  destruct (call_unique w _ c p cx ts p cx1 ts1 Ht Hc) as (_ & -> & ->); [apply elem_of_app; by left|].
  by eapply (ret_none_succeeded w m1).
Qed.
(** A call that returned an error: one of its targets failed. *)
Lemma ret_some_failed w l c p cx ts e :
  trace w l -> EvCall c p cx ts ∈ l -> EvRet c p (Some e) ∈ l ->
  TNonPtr ∈ ts \/ exists o, TPtr o ∈ ts /\
    ((exists g o' e', EvEnd g (w_addr w o) o' (Some e') ∈ l) \/
     exists c i name, w_deferred w o = Some name /\ EvRej c i (EUnresolved name) ∈ l).
Proof.
  intros Ht Hc Hr. apply elem_of_list_split in Hr as (m1 & m2 & ->).
  destruct (ret_completed _ _ _ _ _ _ Ht) as (cx1 & ts1 & rs & Hc1 & Hlen & He & Hall).
  destruct (call_unique w _ c p cx ts p cx1 ts1 Ht Hc) as (_ & -> & ->); [apply elem_of_app; by left|].
  assert (Hex : exists i e', rs !! i = Some (Some e')).
  { destruct (decide (Exists is_Some rs)) as [Hx|Hx].
    - apply Exists_exists in Hx as (r & Hin & [e' ->]). apply elem_of_list_lookup in Hin as [i Hi]. eauto.
    - exfalso. assert (join rs = None); [|congruence]. apply join_none. intros i r Hi. destruct r as [e'|]; [|done].
      exfalso. apply Hx, Exists_exists. exists (Some e'). split; [by eapply elem_of_list_lookup_2|done]. }
  destruct Hex as (i & e' & Hi).
  destruct (lookup_lt_is_Some_2 ts1 i) as [t Hti]; [rewrite <-Hlen; by eapply lookup_lt_Some|].
  destruct (Hall i t Hti) as (r & Hri & Hcomp). assert (r = Some e') as -> by congruence.
  apply elem_of_list_lookup_2 in Hti as Hin. destruct t as [o|]; [|by left].
  right. exists o. split; [done|]. destruct Hcomp as [(o1 & g & o2 & e2 & _ & Hend & Hw)|(name & Hd & _ & Hrej)].
  - left. destruct e2 as [e2|]; [|done]. exists g, o2, e2. apply elem_of_app; by left.
  - right. exists c, i, name. split; [done|]. apply elem_of_app; by left.
Qed.

Section exec.
  Context (addr : nat -> nat) (objs : list shape) (leafp : nat -> ctx -> prog) (reg : gmap string obj).
  Notation w := (project_world addr objs leafp).
  Context (Hinj : forall o1 o2, addr o1 = addr o2 -> o1 = o2).

  Lemma w_inj : addr_injective w.
  Proof. exact Hinj. Qed.

  (** A prefix with a call of an execution, and all there is to say about its registry. *)
  Definition part_of (tr l : list event) : Prop := executes w reg tr /\ exists l2, tr = l ++ l2.
  Lemma part_trace tr l : part_of tr l -> trace w l.
  Proof. intros [(Ht & _ & _) [l2 ->]]. by eapply trace_prefix. Qed.
  Lemma part_prefix tr l1 l2 : part_of tr (l1 ++ l2) -> part_of tr l1.
  Proof. intros [H [l3 ->]]. split; [done|]. exists (l2 ++ l3). by rewrite app_assoc. Qed.
  Lemma part_prefix_cons tr l1 x l2 : part_of tr (l1 ++ x :: l2) -> part_of tr (l1 ++ [x]).
  Proof. intros H. apply (part_prefix tr (l1 ++ [x]) l2). by rewrite <-app_assoc. Qed.
  Lemma exec_part tr : executes w reg tr -> part_of tr tr.
  Proof. intros H. split; [done|]. exists []. by rewrite app_nil_r. Qed.

  Lemma exec_registry tr : executes w reg tr -> registry_of tr = reg.
  Proof.
    intros (_ & _ & H). apply map_eq. intros n. destruct (registry_of tr !! n) as [o|] eqn:E.
    - apply registry_of_in in E. symmetry. by apply H.
    - destruct (reg !! n) as [o|] eqn:E2; [|done]. exfalso. apply H in E2.
      clear H. revert E E2. induction tr as [|ev l IH] using rev_ind; intros E Hin; [by apply elem_of_nil in Hin|].
      apply elem_of_snoc in Hin as [Hin|<-].
      + destruct ev; try (rewrite registry_snoc_no in E by (by intros []); by apply IH).
        rewrite registry_snoc_reg in E. apply lookup_insert_None in E as [E _]. by apply IH.
      + rewrite registry_snoc_reg, lookup_insert in E. done.
  Qed.
  Lemma end_resolution tr l g d o e : part_of tr l -> EvEnd g (addr d) o e ∈ l -> resolution w reg d = inr o.
  Proof.
    intros [Hx [l2 ->]] Hin. rewrite <-(exec_registry _ Hx). destruct Hx as (Ht & Hrf & _).
    eapply (end_target_lem w (l ++ l2) Hinj Ht Hrf g). apply elem_of_app. left. exact Hin.
  Qed.
  Lemma resolve_resolution tr l g d r : part_of tr l -> EvResolve g d r ∈ l -> r = resolution w reg d.
  Proof.
    intros [Hx [l2 ->]] Hin. rewrite <-(exec_registry _ Hx). destruct Hx as (Ht & Hrf & _).
    destruct (trace_reachable _ _ Ht) as (s & Hre & Hl). rewrite <-Hl in *.
    rewrite <-(inv_registry _ _ Hre). destruct (inv_det_holds _ _ Hre Hrf) as (_ & D & _). eapply D.
    rewrite Hl. apply elem_of_app. by left.
  Qed.
  Lemma rej_unregistered tr l c i name : part_of tr l -> EvRej c i (EUnresolved name) ∈ l -> reg !! name = None.
  Proof.
    intros [Hx [l2 ->]] Hin. rewrite <-(exec_registry _ Hx). destruct Hx as (Ht & Hrf & _).
    destruct (trace_reachable _ _ Ht) as (s & Hre & Hl). rewrite <-Hl in *.
    rewrite <-(inv_registry _ _ Hre). destruct (inv_det_holds _ _ Hre Hrf) as (_ & _ & D). eapply D.
    rewrite Hl. apply elem_of_app. by left.
  Qed.

  Definition is_ref (o : nat) (n : string) : Prop := objs !! o = Some (SRef n).
  Lemma deferred_ref (o : nat) n : w_deferred w o = Some n <-> is_ref o n.
  Proof. unfold is_ref. simpl. unfold target_name. destruct (objs !! o) as [[]|]; split; intros H; try congruence. Qed.
  Lemma deferred_none (o : nat) : w_deferred w o = None <-> forall n, ~ is_ref o n.
  Proof.
    split; [intros H n Hn%deferred_ref; congruence|]. intros H. destruct (w_deferred w o) as [n|] eqn:E; [|done].
    apply deferred_ref in E. by apply H in E.
  Qed.
  Lemma is_ref_dec (o : nat) : (exists n, is_ref o n) \/ forall n, ~ is_ref o n.
  Proof. destruct (w_deferred w o) as [n|] eqn:E; [left; exists n; by apply deferred_ref|right; by apply deferred_none]. Qed.
  Lemma resolution_ref (d : nat) n (o : obj) : is_ref d n -> resolution w reg d = inr o <-> reg !! n = Some o.
  Proof. intros H%deferred_ref. unfold resolution. rewrite H. destruct (reg !! n); split; intros H'; simplify_eq; done. Qed.
  Lemma resolution_own (d o : nat) : (forall n, ~ is_ref d n) -> resolution w reg d = inr o <-> o = d.
  Proof. intros H%deferred_none. unfold resolution. rewrite H. split; [by intros [= ->]|by intros ->]. Qed.
  Lemma body_ref (o : nat) n cx : is_ref o n -> body w o cx = deferred_prog o cx.
  Proof. intros H%deferred_ref. unfold body. by rewrite H. Qed.
  Lemma body_own (o : nat) cx : (forall n, ~ is_ref o n) -> body w o cx = target_prog objs leafp o cx.
  Proof. intros H%deferred_none. unfold body. by rewrite H. Qed.

  (** ** Success *)
  (** A request for [o] was met. *)
  Inductive ok (tr : list event) : nat -> Prop :=
    | ok_own o : (forall n, ~ is_ref o n) -> ended_well o tr -> ok tr o
    | ok_ref o n o' : is_ref o n -> reg !! n = Some o' -> ok tr o' -> ok tr o.
  Lemma ended_mono o l1 l2 : ended_well o l1 -> ended_well o (l1 ++ l2).
  Proof. intros (g & a & H). exists g, a. apply elem_of_app. by left. Qed.
  Lemma ok_mono l1 l2 o : ok l1 o -> ok (l1 ++ l2) o.
  Proof. induction 1; [eapply ok_own; [done|by apply ended_mono]|by eapply ok_ref]. Qed.

  (** The run of a name reference as a target of its own. *)
  Lemma ref_end tr l1 g a (o : nat) r l2 n : part_of tr (l1 ++ EvEnd g a o r :: l2) -> is_ref o n ->
    (exists o' c cx, reg !! n = Some o' /\ EvCall c (Some g) cx [TPtr o'] ∈ l1 /\ EvRet c (Some g) r ∈ l1) \/
    (reg !! n = None /\ r = Some (EUnresolved n)).
  Proof.
    intros Hp Hn. pose proof (part_trace _ _ Hp) as Ht.
    destruct (end_started w (l1 ++ [EvEnd g a o r]) g a o r) as [cx Hs].
    { apply (trace_prefix w _ l2). by rewrite <-app_assoc. }
    { apply elem_of_app. right. by left. }
    apply elem_of_snoc in Hs as [Hs|?]; [|done].
    destruct (path_at w l1 _ l2 g a o cx Ht) as (_ & st & Hr); [done|set_solver|].
    rewrite (body_ref _ _ _ Hn) in Hr. unfold deferred_prog in Hr.
    inversion Hr as [? E1 E2|? E1 E2| |d k x h' ? Hr' E1 E2| |]; subst; [by destruct (filter (concerns g) l1)|].
    symmetry in E2. apply app_snoc_cons in E2 as [(_ & ? & _)|(h1 & Hf & ->)]; [done|].
    assert (Hres : EvResolve g o x ∈ l1) by (eapply (elem_hist g); rewrite Hf; set_solver).
    apply (resolve_resolution tr l1) in Hres; [|by eapply part_prefix]. subst x.
    unfold resolution in Hr'. rewrite (proj2 (deferred_ref _ _) Hn) in Hr'.
    destruct (reg !! n) as [o'|] eqn:Ereg.
    - left. apply call_runs_end in Hr' as [c Hh]. exists o', c, cx. subst h1. split; [done|].
      split; eapply (elem_hist g); unfold resolution in Hf; rewrite Hf; set_solver.
    - right. split; [done|]. inversion Hr' as [? E3 E4|? E3 E4| | | |]; [by destruct h1|].
      symmetry in E4. apply app_snoc_cons in E4 as [(-> & E4 & _)|(h' & _ & ?)]; [by simplify_eq|by destruct h'].
  Qed.

  Lemma end_ok tr l : part_of tr l -> forall g d o, EvEnd g (addr d) o None ∈ l -> ok l d.
  Proof.
    induction l as [l IH] using (induction_ltof1 _ (@length event)); unfold ltof in IH. intros Hp g d o Hin.
    pose proof (end_resolution _ _ _ _ _ _ Hp Hin) as Hres.
    assert (Hdone : ended_well o l) by (by exists g, (addr d)).
    destruct (is_ref_dec d) as [[n Hn]|Hn].
    2:{ apply (resolution_own _ _ Hn) in Hres as ->. by apply ok_own. }
    apply (resolution_ref _ _ _ Hn) in Hres. eapply ok_ref; [done..|].
    destruct (is_ref_dec o) as [[m Hm]|Hm]; [|by apply ok_own].
    apply elem_of_list_split in Hin as (l1 & l2 & ->).
    destruct (ref_end _ _ _ _ _ _ _ _ Hp Hm) as [(o' & c & cx & Hreg & Hcall & Hret)|[_ ?]]; [|done].
    assert (Hp1 : part_of tr l1) by (by eapply part_prefix).
    destruct (ret_none_all w l1 c (Some g) cx [TPtr o'] (TPtr o')) as (d' & g' & o2 & [= <-] & Hend); [by eapply part_trace|done|done|set_solver|].
    eapply ok_ref; [done..|]. apply ok_mono. eapply (IH l1); [rewrite app_length; simpl; lia|done..].
  Qed.
  Lemma succ_ok tr l d : part_of tr l -> succeeded w (TPtr d) l -> ok l d.
  Proof. intros Hp (o & g & o' & [= <-] & Hin). by eapply end_ok. Qed.

  (** What the body of a target asks for. *)
  Definition asks (o t : nat) : Prop :=
    match objs !! o with
    | Some (SAll ts) | Some (SSeq ts) => t ∈ ts
    | Some (SArgs t' _) => t = t'
    | Some (SFiles t' ins _ _) => t = t' \/ exists f, f ∈ prereqs (declare_all (files_of objs)) ins /\ t = f_id f
    | Some (SRef n) => reg !! n = Some t
    | _ => False
    end.
  (** ... without which it does not succeed *)
  Definition insists (o t : nat) : Prop :=
    match objs !! o with
    | Some (SFiles t' ins _ _) => exists f, f ∈ prereqs (declare_all (files_of objs)) ins /\ t = f_id f
    | _ => asks o t
    end.

  Lemma own_end tr l g a o r : part_of tr l -> EvEnd g a o r ∈ l ->
    exists l1 l2 cx, l = l1 ++ EvEnd g a o r :: l2 /\ EvStart g a o cx ∈ l1 /\ part_of tr l1.
  Proof.
    intros Hp Hin. destruct (end_split w l g a o r (part_trace _ _ Hp) Hin) as (l1 & l2 & cx & -> & Hs).
    exists l1, l2, cx. split; [done|]. split; [done|]. by eapply part_prefix.
  Qed.

  Lemma well_insists tr l (o t : nat) : part_of tr l -> ended_well o l -> (forall n, ~ is_ref o n) -> insists o t -> ok l t.
  Proof.
    intros Hp (g & a & Hin) Hn Ht. destruct (own_end _ _ _ _ _ _ Hp Hin) as (l1 & l2 & cx & -> & Hs & Hp1).
    apply ok_mono. apply (succ_ok tr); [done|]. pose proof (part_trace _ _ Hp) as Htr.
    pose proof (body_own o cx Hn) as Hb. unfold target_prog in Hb. unfold insists, asks in Ht.
    destruct (objs !! o) as [[n|ts|ts|t' args|t' ins outs ac|tag nd dir]|] eqn:E; try done.
    - by apply Hn in E.
    - destruct (one_call_result w l1 g a o None l2 cx cx (TPtr <$> ts) Htr Hs) as (c & H1 & H2); [by rewrite Hb|].
      eapply (ret_none_all w l1); [by eapply part_trace|done|done|by apply elem_of_list_fmap_1].
    - destruct (seq_result_lem w l1 g a o None l2 cx _ Htr Hs Hb) as [_ H]. apply H. by apply elem_of_list_fmap_1.
    - subst t'. destruct (one_call_result w l1 g a o None l2 cx (WithArgs cx args) [TPtr t] Htr Hs) as (c & H1 & H2); [by rewrite Hb|].
      eapply (ret_none_all w l1); [by eapply part_trace|done|done|set_solver].
    - destruct Ht as (f & Hf & ->). eapply (order_lem w l1 _ l2 g a o cx); [exact Htr|done|exact Hb|by right; right|done].
  Qed.
  (** A body that must make a certain call, with success, to succeed. *)
  Inductive must (ts : list tref) : prog -> Prop :=
    | must_ret e : must ts (Ret (Some e))
    | must_here cx k : (forall e, k (Some e) = Ret (Some e)) -> must ts (Call cx ts k)
    | must_call cx us k : (forall e, must ts (k e)) -> must ts (Call cx us k)
    | must_eff l k : (forall r, must ts (k r)) -> must ts (Eff l k).
  Lemma runs_must ts g a (o : obj) p h : must ts p -> runs g a o p h (Fin None) ->
    exists c cx, EvCall c (Some g) cx ts ∈ h /\ EvRet c (Some g) None ∈ h.
  Proof.
    intros Hm. revert h. induction Hm as [e|cx k Hk|cx us k _ IH|l k _ IH]; intros h Hr.
    - inversion Hr.
    - inversion Hr as [| | | | |? ? ? c e h' ? Hr']; subst. destruct e as [e|]; [rewrite Hk in Hr'; inversion Hr'|].
      exists c, cx. split; [by left|right; by left].
    - inversion Hr as [| | | | |? ? ? c e h' ? Hr']; subst. destruct (IH _ _ Hr') as (c' & cx' & H1 & H2). exists c', cx'. split; by do 2 right.
    - inversion Hr as [| |? ? r h' ? Hr'| | |]; subst. destruct (IH _ _ Hr') as (c' & cx' & H1 & H2). exists c', cx'. split; by right.
  Qed.
  (** Files targets do not ask whether they are up to date. *)
  Definition insistent (cx : ctx) : Prop := GetForce cx = true \/ GetDryRun cx = true \/ GetHashDB cx = None.
  Lemma files_must freg f sub cx : insistent cx -> must [sub] (files_prog freg f sub cx).
  Proof.
    intros Hcx. assert (Hsub : must [sub] (files_sub f sub cx)) by (by apply must_here).
    assert (Hrest : must [sub] (files_rest f sub cx)).
    { unfold files_rest. case_decide; [done|]. destruct Hcx as [-> |[-> |?]]; [done| |done]. by rewrite orb_true_r. }
    unfold files_prog. destruct (prereqs freg (f_in f)); [done|]. apply must_call. intros [e|]; [constructor|done].
  Qed.
  Lemma well_asks tr l (o t : nat) : part_of tr l -> ended_well o l -> (forall n, ~ is_ref o n) ->
    (forall g a cx, EvStart g a o cx ∈ l -> insistent cx) -> asks o t -> ok l t.
  Proof.
    intros Hp Hw Hn Hcx Ht. destruct (objs !! o) as [[n|ts|ts|t' args|t' ins outs ac|tag nd dir]|] eqn:E.
    5:{ unfold asks in Ht. rewrite E in Ht. destruct Ht as [->|Hpre].
        2:{ eapply well_insists; [done..|]. unfold insists. by rewrite E. }
        destruct Hw as (g & a & Hin). destruct (own_end _ _ _ _ _ _ Hp Hin) as (l1 & l2 & cx & -> & Hs & Hp1).
        apply ok_mono. apply (succ_ok tr); [done|]. pose proof (part_trace _ _ Hp) as Htr.
        destruct (path_at w l1 _ l2 g a o cx Htr) as (_ & st & Hr); [done|set_solver|].
        assert (st = Fin None) as -> by (eapply runs_end_fin; [exact Hr|apply elem_of_app; right; by left]).
        rewrite (body_own o cx Hn) in Hr. unfold target_prog in Hr. rewrite E in Hr.
        destruct (runs_must [TPtr t'] _ _ _ _ _ (files_must _ _ _ _ (Hcx g a cx ltac:(apply elem_of_app; by left))) Hr) as (c & cx' & H1 & H2).
        apply elem_of_snoc in H1 as [H1|?]; [|done]. apply elem_of_snoc in H2 as [H2|?]; [|done]. apply elem_hist in H1, H2.
        eapply (ret_none_all w l1); [by eapply part_trace|done|done|set_solver]. }
    all: eapply well_insists; [done..|]; unfold insists; by rewrite E.
  Qed.
  Lemma ok_asks tr l (o t : nat) : part_of tr l -> (forall g a o cx, EvStart g a o cx ∈ l -> insistent cx) -> ok l o -> asks o t -> ok l t.
  Proof.
    intros Hp Hcx Ho. destruct Ho as [o Hn Hw|o n o' Hn Hr Ho].
    - apply (well_asks tr); [done..|]. intros g a cx. apply Hcx.
    - unfold asks, is_ref in *. rewrite Hn. intros ?. by simplify_eq.
  Qed.
  Lemma ok_insists tr l (o t : nat) : part_of tr l -> ok l o -> insists o t -> ok l t.
  Proof.
    intros Hp Ho. destruct Ho as [o Hn Hw|o n o' Hn Hr Ho].
    - by apply (well_insists tr).
    - unfold insists, asks, is_ref in *. rewrite Hn. intros ?. by simplify_eq.
  Qed.
  Lemma ret_ok tr c p cx ts o : executes w reg tr -> EvCall c p cx ts ∈ tr -> EvRet c p None ∈ tr -> TPtr o ∈ ts -> ok tr o.
  Proof.
    intros Hx Hc Hr Hin. apply (succ_ok tr); [by apply exec_part|].
    eapply ret_none_all; [by destruct Hx|done..].
  Qed.
End exec.
