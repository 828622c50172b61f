(** Property C27: IndentingCopier.  Specification: [indented] in IndentSpec.v. *)
From stdpp Require Import base list strings.
From Verif Require Import IndentModel IndentSpec IndentProofs.
Local Open Scope nat_scope.
Local Open Scope list_scope.

(** If every Write reports no error, the output is the indented normalized text of the
    concatenation of the chunks (whatever the chunks, the buffer size and the underlying
    writer), and every Write reports all its bytes consumed.  Whatever fails, the
    output is a prefix of it. *)
Theorem C27_output cap w depth prefix chunks c rs :
  writes cap w chunks (IndentingCopier depth prefix) = (c, rs) ->
  output c `prefix_of` indented (spaces depth ++ prefix) (concat chunks) /\
  ((forall n ok, (n, ok) ∈ rs -> ok = true) ->
   output c = indented (spaces depth ++ prefix) (concat chunks) /\
   rs = (fun ch => (length ch, true)) <$> chunks).
Proof. exact (copier_output_lem cap w depth prefix chunks c rs). Qed.
Print Assumptions C27_output.

(** No Write fails unless the underlying writer does. *)
Theorem C27_no_spurious_error cap w depth prefix chunks n ok :
  total_writer w -> (n, ok) ∈ (writes cap w chunks (IndentingCopier depth prefix)).2 -> ok = true.
Proof. exact (fun Hw => writes_total cap w chunks Hw (IndentingCopier depth prefix) eq_refl n ok). Qed.
Print Assumptions C27_no_spurious_error.

(** The output does not depend on how the input is split. *)
Lemma chunking_lem cap1 cap2 w1 w2 depth prefix chunks1 chunks2 :
  total_writer w1 -> total_writer w2 -> concat chunks1 = concat chunks2 ->
  output (writes cap1 w1 chunks1 (IndentingCopier depth prefix)).1 =
  output (writes cap2 w2 chunks2 (IndentingCopier depth prefix)).1.
Proof.
  intros H1 H2 E.
  destruct (writes cap1 w1 chunks1 _) as [c1 rs1] eqn:E1.
  destruct (writes cap2 w2 chunks2 _) as [c2 rs2] eqn:E2. simpl.
  destruct (copier_output_lem _ _ _ _ _ _ _ E1) as [_ [-> _]].
  { intros n ok Hin. eapply (C27_no_spurious_error cap1 w1 depth prefix chunks1); [done|]. by rewrite E1. }
  destruct (copier_output_lem _ _ _ _ _ _ _ E2) as [_ [-> _]].
  { intros n ok Hin. eapply (C27_no_spurious_error cap2 w2 depth prefix chunks2); [done|]. by rewrite E2. }
  by rewrite E.
Qed.
Theorem C27_chunking_irrelevant cap1 cap2 w1 w2 depth prefix chunks1 chunks2 :
  total_writer w1 -> total_writer w2 -> concat chunks1 = concat chunks2 ->
  output (writes cap1 w1 chunks1 (IndentingCopier depth prefix)).1 =
  output (writes cap2 w2 chunks2 (IndentingCopier depth prefix)).1.
Proof. exact (chunking_lem cap1 cap2 w1 w2 depth prefix chunks1 chunks2). Qed.
Print Assumptions C27_chunking_irrelevant.

Definition good_writer : writer := fun _ req => (length req, false).
Definition bad_writer : writer := fun sent req => (5 - length sent, false).
Definition bytes (s : string) : list byte := String.list_ascii_of_string s.

Example C27_case :
  total_writer good_writer /\
  (let '(c, rs) := writes 4 good_writer
      [bytes "ab" ++ [CR]; LF :: CR :: bytes "c"; [CR; CR]; LF :: bytes "d" ++ [CR]]
      (IndentingCopier 1 (bytes ">")) in
   output c = bytes "  >ab" ++ [LF; LF] ++ bytes "  >c" ++ [LF; LF] ++ bytes "  >d" /\
   rs = [(3, true); (3, true); (2, true); (3, true)]) /\
  (let '(c, rs) := writes 4 bad_writer [bytes "ab"; bytes "c"] (IndentingCopier 1 (bytes ">")) in
   output c = bytes "  >ab" /\ rs = [(2, true); (1, false)]).
Proof. split; [intros s r; done|]. split; vm_compute; done. Qed.
