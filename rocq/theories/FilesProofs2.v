From stdpp Require Import base gmap list sorting strings.
From Verif Require Import FileHashModel FileHashSpec FileHashProofs FilesModel FilesSpec FilesProofs.
Local Open Scope list_scope.

(** ** The place of the important events within a run. *)
Definition sub_ok (evs : list event) : Prop := exists i, LSubEnd i None ∈ evs.
Lemma sub_ok_nil : ~ sub_ok [].
Proof. intros [i H]. by apply elem_of_nil in H. Qed.
Lemma sub_ok_cons ev evs : sub_ok (ev :: evs) <-> (exists i, ev = LSubEnd i None) \/ sub_ok evs.
Proof. unfold sub_ok. setoid_rewrite elem_of_cons. naive_solver. Qed.
Lemma sub_ok_app a b : sub_ok (a ++ b) <-> sub_ok a \/ sub_ok b.
Proof. unfold sub_ok. setoid_rewrite elem_of_app. naive_solver. Qed.

Ltac splits H :=
  match type of H with
  | _ = ?l1 ++ _ :: _ =>
    let x := fresh "x" in
    destruct l1 as [|x l1]; cbn [app] in H;
    [try discriminate H; injection H as; subst
    |try discriminate H; injection H as; subst;
     match goal with
     | H : _ = l1 ++ _ :: _ |- _ => splits H
     end]
  end.

Lemma place_sub fl evs st l1 i l2 : replay (Idle (files_run fl)) evs st -> evs = l1 ++ LSubEnd i None :: l2 ->
  ~ sub_ok l1.
Proof.
  intros Hr He. open_all; splits He; rewrite ?sub_ok_cons; (intros Hx; repeat destruct Hx as [[? Hx]|Hx]; try discriminate; by apply sub_ok_nil in Hx).
Qed.
Lemma place_before fl evs st l1 i fs r res l2 : replay (Idle (files_run fl)) evs st -> evs = l1 ++ LHash i Before fs r res :: l2 ->
  ~ sub_ok l1.
Proof.
  intros Hr He. open_all; splits He; rewrite ?sub_ok_cons; (intros Hx; repeat destruct Hx as [[? Hx]|Hx]; try discriminate; by apply sub_ok_nil in Hx).
Qed.
Lemma place_after fl evs st l1 i fs r res l2 : replay (Idle (files_run fl)) evs st -> evs = l1 ++ LHash i After fs r res :: l2 ->
  sub_ok l1.
Proof.
  intros Hr He. open_all; splits He; rewrite ?sub_ok_cons; eauto 10.
Qed.
