(** How often a target runs that is referred to by name (C06). *)
From stdpp Require Import base gmap list strings.
From Verif Require Import ContextModel RunnerModel RunnerSteps RunnerSpec.
From Verif Require Import RunnerInv RunnerInv2 RunnerInv3 RunnerInv4 RunnerInv5 RunnerInv6 RunnerProofs.
Local Open Scope list_scope.

Definition start_addrs (o : obj) (tr : list event) : list addr :=
  omap (fun ev => match ev with EvStart _ a o' _ => if decide (o' = o) then Some a else None | _ => None end) tr.

Lemma start_addrs_length o tr : length (start_addrs o tr) = times_run o tr.
Proof.
  unfold start_addrs, times_run. induction tr as [|ev tr IH]; [done|]. destruct ev; simpl; try done.
  destruct (decide (o0 = o)); [rewrite bool_decide_eq_true_2 by done|rewrite bool_decide_eq_false_2 by done]; simpl; auto.
Qed.

Lemma start_addrs_nodup o tr :
  (forall i j a g1 o1 cx1 g2 o2 cx2, tr !! i = Some (EvStart g1 a o1 cx1) ->
     tr !! j = Some (EvStart g2 a o2 cx2) -> i = j) ->
  NoDup (start_addrs o tr).
Proof.
  unfold start_addrs. induction tr as [|ev tr IH]; intros H; simpl; [constructor|].
  assert (H' : NoDup (start_addrs o tr)).
  { apply IH. intros i j a g1 o1 cx1 g2 o2 cx2 H1 H2. by injection (H (S i) (S j) a g1 o1 cx1 g2 o2 cx2 H1 H2). }
  destruct ev as [| | | |g a o' cx| | | |]; try exact H'. destruct (decide (o' = o)) as [->|]; [|exact H'].
  constructor; [|exact H']. intros Hin. apply elem_of_list_omap in Hin as (ev & Hev & Ha).
  destruct ev as [| | | |g2 a2 o2 cx2| | | |]; try done. destruct (decide (o2 = o)); simplify_eq.
  apply elem_of_list_lookup in Hev as (j & Hj).
  by specialize (H 0 (S j) a g o cx g2 o cx2 eq_refl Hj).
Qed.

Lemma once_per_reference_lem w tr o (R : list obj) :
  trace w tr ->
  (forall c p cx ts d, EvCall c p cx ts ∈ tr -> TPtr d ∈ ts -> stands_for w tr d o -> d ∈ R) ->
  times_run o tr <= length R.
Proof.
  intros Ht HR. rewrite <-start_addrs_length.
  rewrite <-(fmap_length (w_addr w) R).
  apply submseteq_length, NoDup_submseteq.
  { apply start_addrs_nodup. intros. by eapply start_unique. }
  intros a Ha. apply elem_of_list_omap in Ha as (ev & Hev & Ha).
  destruct ev as [| | | |g a' o' cx| | | |]; try done. destruct (decide (o' = o)); simplify_eq.
  destruct Ht as (sched & s & Hr & <-). assert (Hre : reachable w s) by (by exists sched).
  destruct (proj1 (inv_start_holds _ _ Hre) _ _ _ _ Hev) as (gr & Hg & <- & <- & _).
  destruct (inv_link_holds _ _ Hre _ _ Hg) as (cl & d & Hc & Ht & Hk & Ho & Hd & _).
  rewrite Hk. apply elem_of_list_fmap_1.
  eapply (HR (g_call gr) (c_parent cl) (c_cx cl) (c_targets cl) d).
  - apply (proj1 (inv_calls_holds _ _ Hre)). eauto.
  - by eapply elem_of_list_lookup_2.
  - unfold stands_for. destruct (w_deferred w d) as [name|] eqn:E.
    + right. exists name. split; [done|]. specialize (Hd _ eq_refl).
      apply (proj2 (proj2 (inv_reg_holds _ _ Hre))) in Hd as (n & Hn & Hin). by simplify_eq.
    + left. rewrite (Ho eq_refl) in *. done.
Qed.
