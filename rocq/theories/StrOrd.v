(** The byte-wise order of Go strings (sort.Strings) and sorting. *)
From stdpp Require Import base list sorting strings.
From Coq Require Import Ascii.
Local Open Scope list_scope.

(** a <= b for Go strings. *)
Fixpoint sleb (a b : string) : bool :=
  match a, b with
  | EmptyString, _ => true
  | String _ _, EmptyString => false
  | String x a, String y b =>
      if decide (x = y) then sleb a b else (N_of_ascii x <? N_of_ascii y)%N
  end.
Definition sle (a b : string) : Prop := sleb a b = true.

Global Instance sle_dec : RelDecision sle.
Proof. intros a b. unfold sle. apply _. Defined.

Lemma N_of_ascii_inj x y : N_of_ascii x = N_of_ascii y -> x = y.
Proof. intros H. rewrite <-(ascii_N_embedding x), <-(ascii_N_embedding y). by f_equal. Qed.

Global Instance sle_total : Total sle.
Proof.
  unfold sle. intros a. induction a as [|x a IH]; intros [|y b]; simpl; [by left|by left|by right|].
  destruct (decide (x = y)) as [->|Hne].
  - rewrite decide_True by done. apply IH.
  - rewrite decide_False by done. rewrite !N.ltb_lt.
    destruct (N.lt_total (N_of_ascii x) (N_of_ascii y)) as [|[E|]]; [by left| |by right].
    by apply N_of_ascii_inj in E.
Qed.
Global Instance sle_trans : Transitive sle.
Proof.
  unfold sle. intros a. induction a as [|x a IH]; intros [|y b] [|z c]; simpl; try done.
  repeat case_decide; subst; try done; rewrite ?N.ltb_lt; try lia. apply IH.
Qed.
Global Instance sle_antisymm : AntiSymm (=) sle.
Proof.
  unfold sle. intros a. induction a as [|x a IH]; intros [|y b]; simpl; try done.
  destruct (decide (x = y)) as [->|Hne].
  - rewrite decide_True by done. intros H1 H2. f_equal. by apply IH.
  - rewrite decide_False by done. rewrite !N.ltb_lt. lia.
Qed.
Global Instance sle_refl : Reflexive sle.
Proof. intros a. by destruct (total sle a a). Qed.

(** sort.Strings (any sorting algorithm gives this result, see [ssort_unique]). *)
Definition ssort (l : list string) : list string := merge_sort sle l.

Lemma ssort_perm l : ssort l ≡ₚ l.
Proof. apply merge_sort_Permutation. Qed.
Lemma ssort_sorted l : StronglySorted sle (ssort l).
Proof. exact (StronglySorted_merge_sort sle l). Qed.
Lemma ssort_elem l x : x ∈ ssort l <-> x ∈ l.
Proof. by rewrite ssort_perm. Qed.
Lemma ssort_unique l1 l2 : StronglySorted sle l1 -> StronglySorted sle l2 -> l1 ≡ₚ l2 -> l1 = l2.
Proof. apply (StronglySorted_unique sle). Qed.
Lemma ssort_ext l1 l2 : l1 ≡ₚ l2 -> ssort l1 = ssort l2.
Proof. intros H. apply ssort_unique; [apply ssort_sorted..|]. by rewrite !ssort_perm. Qed.
