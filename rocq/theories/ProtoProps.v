(** C49, C50: the dependencies of .proto files (proto/proto.go).
    Vocabulary: ProtoSpec.v.  [fs] is an arbitrary file system, [incs] the include list. *)
From stdpp Require Import base gmap fin_sets list strings sorting.
From Coq Require Import Ascii.
From Verif Require Import PathModel StrOrd ProtoModel ProtoSpec ProtoProofs.
Local Open Scope list_scope.

(** The recursion is no deeper than the number of existing files, cyclic imports or not. *)
Theorem C49_terminates fs incs fuel f : size fs < fuel -> Deps fs incs fuel f <> DepsOutOfFuel.
Proof. exact (deps_terminates_lem fs incs fuel f). Qed.
Print Assumptions C49_terminates.

(** A nil error: the list has the file and whatever is imported from a file of the list,
    found where protoc finds it. *)
Theorem C49_contains_needed fs incs fuel f l x :
  Deps fs incs fuel f = DepsRet l true -> needed fs incs f x -> x ∈ l.
Proof. exact (deps_needed_lem fs incs fuel f l x). Qed.
Print Assumptions C49_contains_needed.

(** With or without an error, only existing files that are imported. *)
Theorem C49_only_imported fs incs fuel f l b x :
  Deps fs incs fuel f = DepsRet l b -> x ∈ l -> possible fs incs f x /\ is_Some (fs !! x).
Proof. exact (deps_possible_lem fs incs fuel f l b x). Qed.
Print Assumptions C49_only_imported.

Theorem C49_sorted_nodup fs incs fuel f l b :
  Deps fs incs fuel f = DepsRet l b -> StronglySorted sle l /\ NoDup l.
Proof. exact (deps_sorted_lem fs incs fuel f l b). Qed.
Print Assumptions C49_sorted_nodup.

(** No silent omissions: with a nil error every listed file was read to its end.  And an
    error has a cause: the file does not exist, or some imported file cannot be read. *)
Theorem C49_all_read fs incs fuel f l x :
  Deps fs incs fuel f = DepsRet l true -> x ∈ l -> exists lines, fs !! x = Some (Lines lines true).
Proof. exact (deps_reads_lem fs incs fuel f l x). Qed.
Print Assumptions C49_all_read.
Theorem C49_error_has_cause fs incs fuel f l :
  Deps fs incs fuel f = DepsRet l false ->
  fs !! f = None \/ exists g, possible fs incs f g /\ (fs !! g = Some OpenErr \/ exists lines, fs !! g = Some (Lines lines false)).
Proof. exact (deps_error_lem fs incs fuel f l). Qed.
Print Assumptions C49_error_has_cause.

(** The lines taken for import statements are those of the regular expression. *)
Theorem C49_import_lines line imp : import_of line = Some imp <-> import_statement line imp.
Proof. exact (import_of_spec line imp). Qed.
Print Assumptions C49_import_lines.

(** The Files target of Proto: its inputs are the given ones and their dependencies; the
    command gets a -I option for each include directory, the options, and the inputs in the
    given order.  There is an error exactly if Deps has one for some input. *)
Theorem C49_proto_target fs incs fuel inputs opts ins args :
  Proto fs incs fuel inputs opts = Some (ins, args) ->
  StronglySorted sle ins /\ NoDup ins /\
  (forall x, x ∈ ins <-> x ∈ inputs \/ exists i l, i ∈ inputs /\ Deps fs incs fuel i = DepsRet l true /\ x ∈ l) /\
  args = map (String.append "-I") incs ++ opts ++ inputs.
Proof.
  unfold Proto. destruct (proto_deps fs incs fuel inputs (list_to_set inputs)) as [all|] eqn:E; [|done].
  intros [= <- <-]. split; [apply ssort_sorted|]. split; [rewrite ssort_perm; apply NoDup_elements|]. split; [|done].
  intros x. rewrite ssort_elem, elem_of_elements, (proto_deps_lem _ _ _ _ _ _ E x), elem_of_list_to_set. done.
Qed.
Print Assumptions C49_proto_target.
Theorem C49_proto_error fs incs fuel inputs opts :
  is_Some (Proto fs incs fuel inputs opts) <-> forall i, i ∈ inputs -> exists l, Deps fs incs fuel i = DepsRet l true.
Proof.
  rewrite <-(proto_deps_ok fs incs fuel inputs (list_to_set inputs)). unfold Proto.
  destruct (proto_deps fs incs fuel inputs (list_to_set inputs)); split; intros [? ?]; eauto; done.
Qed.
Print Assumptions C49_proto_error.

(** ** A cycle, a public import, an import that is in no include directory. *)
Definition q (s : string) : string := String quote (s +:+ String quote ";").
Definition fs_cycle : fsys := {[
  "src/a.proto" := Lines ["syntax = proto3;"; "import " +:+ q "b.proto"; "import " +:+ q "google/any.proto"] true;
  "src/b.proto" := Lines ["import   public " +:+ q "a.proto"; "import" +:+ q "sub/c.proto"] true;
  "inc/sub/c.proto" := Lines ["import " +:+ q "b.proto"] true;
  "inc/unused.proto" := Lines [] true ]}.
Example fs_cycle_deps :
  Deps fs_cycle ["src"; "inc"] 5 "src/a.proto" = DepsRet ["inc/sub/c.proto"; "src/a.proto"; "src/b.proto"] true.
Proof. vm_compute. reflexivity. Qed.
Example fs_cycle_needed : needed fs_cycle ["src"; "inc"] "src/a.proto" "inc/sub/c.proto".
Proof.
  eapply (needed_import _ _ _ "src/b.proto" "sub/c.proto").
  - eapply (needed_import _ _ _ "src/a.proto" "b.proto"); [constructor| |].
    + eexists _, _, _. split; [vm_compute; reflexivity|]. split; [right; left|]. apply import_of_spec. vm_compute. reflexivity.
    + exists [], "src", ["inc"]. split; [done|]. split; [vm_compute; reflexivity|]. split; [vm_compute; eauto|].
      intros ? ?%elem_of_nil. done.
  - eexists _, _, _. split; [vm_compute; reflexivity|]. split; [right; left|]. apply import_of_spec. vm_compute. reflexivity.
  - exists ["src"], "inc", []. split; [done|]. split; [vm_compute; reflexivity|]. split; [vm_compute; eauto|].
    intros i ->%elem_of_list_singleton. vm_compute. reflexivity.
Qed.

(** ** Refuted: every import statement of the language.  Those with white space before
    import, a comment between the words, the modifier weak, single quotes, and the second
    one on a line are missed. *)
Theorem C49_all_import_statements_refuted line fuel :
  line ∈ [" import " +:+ q "b.proto"; "import weak " +:+ q "b.proto"; "import 'b.proto';"; "import/**/" +:+ q "b.proto"] ->
  2 < fuel ->
  exists l, Deps ({[ "a.proto" := Lines [line] true; "b.proto" := Lines [] true ]}) ["."] fuel "a.proto" = DepsRet l true /\
    "b.proto" ∉ l.
Proof.
  intros Hl Hf. destruct fuel as [|fuel]; [lia|]. exists ["a.proto"]. split; [|by rewrite elem_of_list_singleton].
  rewrite !elem_of_cons, elem_of_nil in Hl. destruct Hl as [->|[->|[->|[->|[]]]]]; reflexivity.
Qed.
Print Assumptions C49_all_import_statements_refuted.
Example missed_import_same_line : import_of ("package x; import " +:+ q "b.proto") = None.
Proof. vm_compute. reflexivity. Qed.

(** ** C50.  If no import is found in two include directories the list is exactly what protoc
    reads.  Missing: see the refutation. *)
Theorem C50_exactly_needed_partial fs incs fuel f l x :
  unambiguous fs incs -> Deps fs incs fuel f = DepsRet l true -> (x ∈ l <-> needed fs incs f x).
Proof. exact (deps_exact_lem fs incs fuel f l x). Qed.
Print Assumptions C50_exactly_needed_partial.
Example fs_cycle_unambiguous : unambiguous fs_cycle ["src"].
Proof.
  intros imp f1 f2 (i1 & H1 & -> & _) (i2 & H2 & -> & _). apply elem_of_list_singleton in H1 as ->.
  by apply elem_of_list_singleton in H2 as ->.
Qed.

(** Two files import the same name, which two include directories have: the second import
    adds the file of the second directory, which protoc never reads. *)
Definition fs_shadow : fsys := {[
  "one/a.proto" := Lines ["import " +:+ q "b.proto"; "import " +:+ q "c.proto"] true;
  "one/b.proto" := Lines [] true;
  "one/c.proto" := Lines ["import " +:+ q "b.proto"] true;
  "two/b.proto" := Lines ["import " +:+ q "d.proto"] true;
  "two/d.proto" := Lines [] true ]}.
Theorem C50_shadowed_files_refuted :
  ~ forall fs incs fuel f l x, Deps fs incs fuel f = DepsRet l true -> x ∈ l -> needed fs incs f x.
Proof.
  intros H.
  assert (E : Deps fs_shadow ["one"; "two"] 9 "one/a.proto" =
    DepsRet ["one/a.proto"; "one/b.proto"; "one/c.proto"; "two/b.proto"; "two/d.proto"] true) by (vm_compute; reflexivity).
  assert (Hn : needed fs_shadow ["one"; "two"] "one/a.proto" "two/b.proto") by (exact (H _ _ _ _ _ _ E ltac:(do 3 right; left))).
  assert (Hs : forall x, needed fs_shadow ["one"; "two"] "one/a.proto" x -> x ∈ ["one/a.proto"; "one/b.proto"; "one/c.proto"]).
  { clear. induction 1 as [|g imp full _ IH (ls & ok & line & El & Hl & Hi) Hr]; [by left|].
    apply import_of_spec in Hi.
    assert (Himp : imp = "b.proto" \/ imp = "c.proto").
    { rewrite !elem_of_cons, elem_of_nil in IH.
      destruct IH as [->|[->|[->|[]]]]; vm_compute in El; injection El as <- <-; rewrite ?elem_of_cons, ?elem_of_nil in Hl.
      - destruct Hl as [->|[->|[]]]; vm_compute in Hi; injection Hi as <-; auto.
      - done.
      - destruct Hl as [->|[]]; vm_compute in Hi; injection Hi as <-; auto. }
    destruct Hr as ([|b before] & inc & after & Ei & -> & _ & Hb).
    - injection Ei as <- <-. destruct Himp as [->| ->]; vm_compute; [right; left|right; right; left].
    - injection Ei as <- Ei. specialize (Hb "one" ltac:(by left)). destruct Himp as [->| ->]; vm_compute in Hb; done. }
  apply Hs in Hn. rewrite !elem_of_cons, elem_of_nil in Hn. by destruct Hn as [?|[?|[?|?]]].
Qed.
Print Assumptions C50_shadowed_files_refuted.
