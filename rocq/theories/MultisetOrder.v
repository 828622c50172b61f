(** Well-foundedness of the multiset extension of a relation (Dershowitz-Manna), on lists
    up to permutation. *)
From stdpp Require Import base list relations.

Section order.
  Context {A : Type} (lt : A -> A -> Prop).

  (** [mstep N M]: [N] is [M] with one element replaced by any number of smaller ones. *)
  Definition mstep (N M : list A) : Prop :=
    exists x ys rest, M ≡ₚ x :: rest /\ N ≡ₚ ys ++ rest /\ Forall (fun y => lt y x) ys.

  Lemma mstep_perm N N' M M' : N ≡ₚ N' -> M ≡ₚ M' -> mstep N M -> mstep N' M'.
  Proof.
    intros HN HM (x & ys & rest & H1 & H2 & H3). exists x, ys, rest.
    split_and!; [by rewrite <-HM|by rewrite <-HN|done].
  Qed.

  Lemma Acc_perm M M' : M ≡ₚ M' -> Acc mstep M -> Acc mstep M'.
  Proof.
    intros HM [H]. constructor. intros N HN. apply H. by eapply mstep_perm; [| |apply HN].
  Qed.

  Lemma cons_perm_inv (x y : A) l l' :
    x :: l ≡ₚ y :: l' -> (x = y /\ l ≡ₚ l') \/ exists l0, l ≡ₚ y :: l0 /\ l' ≡ₚ x :: l0.
  Proof.
    intros H. assert (Hin : x ∈ y :: l') by (rewrite <-H; left).
    apply elem_of_cons in Hin as [->|Hin].
    - left. split; [done|]. by apply (inj (y ::.)).
    - right. apply elem_of_Permutation in Hin as [l0 Hl0]. exists l0. split; [|done].
      rewrite Hl0 in H. rewrite Permutation_swap in H. by apply (inj (x ::.)) in H.
  Qed.

  Lemma Acc_cons x M : Acc lt x -> Acc mstep M -> Acc mstep (x :: M).
  Proof.
    intros Hx. revert M. induction Hx as [x _ IHx]. intros M HM.
    induction HM as [M HM IHM]. constructor. intros N (x0 & ys & rest & H1 & H2 & H3).
    apply cons_perm_inv in H1 as [[-> H1]|(M0 & H1 & H4)].
    - eapply Acc_perm; [symmetry; exact H2|].
      assert (Hrest : Acc mstep rest) by (eapply Acc_perm; [exact H1|by constructor]).
      clear H2. induction H3 as [|y ys Hy H3 IH]; simpl; [done|]. by apply IHx.
    - eapply Acc_perm; [symmetry; rewrite H2, H4; symmetry; apply Permutation_middle|].
      apply IHM. exists x0, ys, M0. done.
  Qed.

  Lemma Acc_mstep M : Forall (Acc lt) M -> Acc mstep M.
  Proof.
    induction 1; [|by apply Acc_cons].
    constructor. intros N (x & ys & rest & H & _). by apply Permutation_nil_cons in H.
  Qed.

  (** Common forms of a step. *)
  Lemma mstep_app x ys M N rest :
    M ≡ₚ x :: rest -> N ≡ₚ ys ++ rest -> Forall (fun y => lt y x) ys -> mstep N M.
  Proof. intros. by exists x, ys, rest. Qed.
End order.

Lemma Acc_tc {A} (R : relation A) x : Acc R x -> Acc (tc R) x.
Proof.
  induction 1 as [x Hx IH]. constructor. intros y Hy.
  induction Hy as [y x Hy|y z x Hyz Hzx IH2].
  - by apply IH.
  - eapply Acc_inv; [by apply IH2|]. by apply tc_once.
Qed.
