(** Properties C21, C22 of the hashing of input and output files.
    Vocabulary: FileHashSpec.v. *)
From stdpp Require Import base gmap list sorting strings.
From Verif Require Import PathModel StrOrd FileHashModel FileHashSpec FileHashProofs.
Local Open Scope list_scope.

(** ** C21: a successful computation lists, sorted by name and each once, exactly the files
    (and missing names) at or under the given names, each with its hash. *)
Theorem C21_exactly_the_covered_files hashf fs items l :
  hashes_to hashf fs items (HOk l) ->
  (exists ps, l = flatten ps /\ strictly_sorted ps.*1 /\
     forall q h, (q, h) ∈ ps <-> covered fs items q /\ file_hash hashf fs q h) /\
  (forall q, covered fs items q -> ~ unreadable fs q).
Proof. exact (fileHashes_ok hashf fs items l). Qed.
Print Assumptions C21_exactly_the_covered_files.

(** It terminates on finite trees with a unique outcome, and succeeds exactly if everything
    covered can be read. *)
Theorem C21_terminates hashf fs items :
  (forall i, i ∈ items -> finite fs i) ->
  exists r, hashes_to hashf fs items r /\ forall r', hashes_to hashf fs items r' -> r' = r.
Proof.
  exact (fun H => match terminates hashf fs items H with
                  | ex_intro _ r Hr => ex_intro _ r (conj Hr (fun r' Hr' => hashes_to_fun hashf fs items r' r Hr' Hr))
                  end).
Qed.
Print Assumptions C21_terminates.

Theorem C21_succeeds_iff_readable hashf fs items :
  (forall i, i ∈ items -> finite fs i) ->
  (exists l, hashes_to hashf fs items (HOk l)) <-> (forall q, covered fs items q -> ~ unreadable fs q).
Proof. exact (hashes_succeeds hashf fs items). Qed.
Print Assumptions C21_succeeds_iff_readable.

(** Order, duplicates and overlaps in the list of names do not matter. *)
Theorem C21_order_and_duplicates_irrelevant hashf fs i1 i2 l1 l2 :
  (forall i, i ∈ i1 <-> i ∈ i2) ->
  hashes_to hashf fs i1 (HOk l1) -> hashes_to hashf fs i2 (HOk l2) -> l1 = l2.
Proof. exact (hashes_same_set hashf fs i1 i2 l1 l2). Qed.
Print Assumptions C21_order_and_duplicates_irrelevant.

Theorem C21_overlaps_irrelevant hashf fs items p i l1 l2 :
  p ∈ items -> at_or_under fs p i ->
  hashes_to hashf fs items (HOk l1) -> hashes_to hashf fs (i :: items) (HOk l2) -> l1 = l2.
Proof. exact (hashes_overlap hashf fs items p i l1 l2). Qed.
Print Assumptions C21_overlaps_irrelevant.

(** A tree with a file, a directory with two files (one in a subdirectory) and an empty
    directory. *)
Definition ex_fs : files_state := fun p =>
  if decide (p = "b") then FFile (Some "B")
  else if decide (p = "d") then FDir (Some ["e"; "x"])
  else if decide (p = "d/e") then FDir (Some ["y"; "z"])
  else if decide (p = "d/e/y") then FFile (Some "Y")
  else if decide (p = "d/e/z") then FDir (Some [])
  else if decide (p = "d/x") then FFile (Some "X")
  else if decide (p = "f/g") then FStatErr   (* ENOTDIR: f is a file *)
  else if decide (p = "f") then FFile (Some "F")
  else FMissing.
Definition ex_hash (c : string) : string := "#" +:+ c.
Lemma ex_dirs p names : ex_fs p = FDir (Some names) ->
  (p = "d" /\ names = ["e"; "x"]) \/ (p = "d/e" /\ names = ["y"; "z"]) \/ (p = "d/e/z" /\ names = []).
Proof.
  unfold ex_fs.
  destruct (decide (p = "b")); [discriminate|].
  destruct (decide (p = "d")); [intros [= <-]; by left|].
  destruct (decide (p = "d/e")); [intros [= <-]; right; by left|].
  destruct (decide (p = "d/e/y")); [discriminate|].
  destruct (decide (p = "d/e/z")); [intros [= <-]; right; by right|].
  destruct (decide (p = "d/x")); [discriminate|].
  destruct (decide (p = "f/g")); [discriminate|].
  destruct (decide (p = "f")); discriminate.
Qed.
Lemma ex_finite p : finite ex_fs p.
Proof.
  assert (Hd : forall p, p <> "d" -> p <> "d/e" -> finite ex_fs p).
  { intros q H1 H2. constructor. intros names n E Hn. apply ex_dirs in E as [[? _]|[[? _]|[_ ->]]]; [done|done|].
    by apply elem_of_nil in Hn. }
  assert (H1 : finite ex_fs "d/e").
  { constructor. intros names n E Hn. apply ex_dirs in E as [[? _]|[[_ ->]|[? _]]]; [done| |done].
    apply elem_of_list_In in Hn as [<-|[<-|[]]]; by apply Hd. }
  destruct (decide (p = "d")) as [->|]; [|destruct (decide (p = "d/e")) as [->|]; [done|by apply Hd]].
  constructor. intros names n E Hn. apply ex_dirs in E as [[_ ->]|[[? _]|[? _]]]; [|done|done].
  apply elem_of_list_In in Hn as [<-|[<-|[]]]; [exact H1|by apply Hd].
Qed.
Example C21_case :
  hashes_to ex_hash ex_fs ["d/x"; "nope"; "d"; "b"; "d"]
    (HOk ["b"; "#B"; "d/e/y"; "#Y"; "d/x"; "#X"; "nope"; ""]) /\
  (forall i, i ∈ ["d/x"; "nope"; "d"; "b"; "d"] -> finite ex_fs i) /\
  at_or_under ex_fs "d" "d/e/y".
Proof.
  split_and!.
  - split; [done|]. exists 4. vm_compute. done.
  - intros i _. apply ex_finite.
  - eapply (under_child _ _ _ "e"); [done|set_solver|]. eapply (under_child _ _ _ "y"); [done|set_solver|]. constructor.
Qed.

(** ** C22 refuted: if os.Stat on a covered name fails with an error other than "does not
    exist" (for example a component of the path is a regular file), the process panics. *)
Theorem C22_stat_error_panics_refuted :
  exists fs items, (forall i, i ∈ items -> finite fs i) /\ forall hashf, hashes_to hashf fs items HPanic.
Proof.
  exists ex_fs, ["b"; "f/g"]. split; [intros i _; apply ex_finite|].
  intros hashf. split; [done|]. exists 2. reflexivity.
Qed.
Print Assumptions C22_stat_error_panics_refuted.

(** Otherwise it never panics: every other failure is reported as an error. *)
Theorem C22_no_panic_without_stat_errors_partial hashf fs items r :
  (forall q, covered fs items q -> fs q <> FStatErr) ->
  hashes_to hashf fs items r -> r <> HPanic.
Proof. exact (hashes_no_panic hashf fs items r). Qed.
Print Assumptions C22_no_panic_without_stat_errors_partial.

Theorem C22_errors_are_about_unreadable_files_partial hashf fs items r :
  hashes_to hashf fs items r ->
  match r with
  | HErr j => covered fs items j /\ (fs j = FDir None \/ fs j = FFile None)
  | HPanic => exists j, covered fs items j /\ fs j = FStatErr
  | _ => True
  end.
Proof. exact (fileHashes_bad hashf fs items r). Qed.
Print Assumptions C22_errors_are_about_unreadable_files_partial.

Example C22_case : exists r, hashes_to ex_hash ex_fs ["b"; "d"] r /\ forall q, covered ex_fs ["b"; "d"] q -> ex_fs q <> FStatErr.
Proof.
  exists (HOk ["b"; "#B"; "d/e/y"; "#Y"; "d/x"; "#X"]). split; [split; [done|exists 4; vm_compute; done]|].
  intros q Hq E. destruct (fileHashes_ok ex_hash ex_fs ["b"; "d"] ["b"; "#B"; "d/e/y"; "#Y"; "d/x"; "#X"]) as [_ H].
  { split; [done|]. exists 4. vm_compute. done. }
  apply (H q Hq). by left.
Qed.
