(** C55: what Compile makes of a package (compile.go, driver.go.tmpl).  Vocabulary: CompileSpec.v.
    [es]: the directory; [E]: which identifiers implement Target (C48), how doc comments are
    laid out, the order of map iteration, and whether the go commands succeed. *)
From stdpp Require Import base gmap list strings.
From Coq Require Import Ascii.
From Verif Require Import PathModel CompileModel CompileSpec CompileProofs CompileProofs2.
Local Open Scope list_scope.

(** The driver registers every exported identifier of the package that implements Target, and
    nothing else, once. *)
Theorem C55_registers_exactly E name errors es d : (forall l, c_order E l ≡ₚ l) -> CompilePackage E name errors es = Some d ->
  NoDup (d_calls d).*1 /\ forall n, n ∈ (d_calls d).*1 <-> is_target E es n.
Proof. intros HE. exact (registers_lem E HE name errors es d). Qed.
Print Assumptions C55_registers_exactly.

(** Exactly the Go files of the directory that are not tests are copied. *)
Theorem C55_copies_exactly E name errors es d : (forall l, c_order E l ≡ₚ l) -> CompilePackage E name errors es = Some d ->
  forall n c, (n, c) ∈ d_files d <-> exists e, e ∈ es /\ e_name e = n /\ e_content e = c /\ go_file e /\ ~ test_file e.
Proof. intros HE. exact (copies_lem E HE name errors es d). Qed.
Print Assumptions C55_copies_exactly.

(** The doc string registered is the comment of the declaration, if there is one declaration
    of the name, and go/doc does not associate it with a type. *)
Theorem C55_doc_partial E name errors es d n t v dc doc : (forall l, c_order E l ≡ₚ l) -> CompilePackage E name errors es = Some d -> (n, t) ∈ d_calls d ->
  in_dir es dc -> documents dc n doc -> (forall dc' k, in_dir es dc' -> declares dc' n k -> dc' = dc) -> (literal t v <-> trimmed (c_text E doc) v).
Proof. intros HE. exact (docs_lem E HE name errors es d n t v dc doc). Qed.
Print Assumptions C55_doc_partial.

(** driver.go compiles exactly if every target is a value, and a var declaration of the
    directory that go/doc does not associate with a type declares its name. *)
Theorem C55_well_formed_iff_partial E name errors es d : (forall l, c_order E l ≡ₚ l) -> CompilePackage E name errors es = Some d ->
  (well_formed es d <-> forall n, is_target E es n ->
    (exists dc k, in_package es dc /\ declares dc n k /\ k <> OType) /\ exists dc doc, in_dir es dc /\ documents dc n doc).
Proof. intros HE. exact (well_formed_lem E HE name errors es d). Qed.
Print Assumptions C55_well_formed_iff_partial.

(** So it does not in every package with an exported type that implements Target ... *)
Theorem C55_exported_type_refuted E name errors es d n : (forall l, c_order E l ≡ₚ l) -> CompilePackage E name errors es = Some d -> is_target E es n ->
  (forall dc k, in_package es dc -> declares dc n k -> k = OType) -> ~ well_formed es d.
Proof. intros HE. exact (type_lem E HE name errors es d n). Qed.
Print Assumptions C55_exported_type_refuted.
(** ... or with a variable declared with an explicit exported type of the package, as in
    var X *T = ... *)
Theorem C55_typed_variable_refuted E name errors es d n T : (forall l, c_order E l ≡ₚ l) -> CompilePackage E name errors es = Some d -> is_target E es n -> exported T ->
  (forall dc k, in_dir es dc -> declares dc n k -> exists doc v, dc = DVar doc [v] /\ v_names v = [n] /\ v_type v = Some (T, false)) -> ~ well_formed es d.
Proof. intros HE. exact (typed_var_lem E HE name errors es d n T). Qed.
Print Assumptions C55_typed_variable_refuted.

(** The comment of a variable inside a group of variables is not looked at. *)
Theorem C55_comment_in_group_refuted E name errors es : CompilePackage E name errors (erase <$> es) = CompilePackage E name errors es.
Proof. exact (erase_lem E name errors es). Qed.
Print Assumptions C55_comment_in_group_refuted.

(** A Go file of another package in the directory, even a test or one excluded from the build,
    makes Compile fail; in general the binary is only replaced if everything succeeded. *)
Theorem C55_other_package_refuted E name errors es e : (forall l, c_order E l ≡ₚ l) -> e ∈ es -> go_file e -> e_pkg e <> name -> CompilePackage E name errors es = None.
Proof. intros HE. exact (one_package_lem E HE name errors es e). Qed.
Print Assumptions C55_other_package_refuted.
Theorem C55_only_if_all_succeeds E name errors es d : (forall l, c_order E l ≡ₚ l) -> CompilePackage E name errors es = Some d ->
  errors = 0 /\ c_tools E = true /\ (exists e, e ∈ es /\ go_file e /\ ~ test_file e /\ e_active e = true).
Proof. intros HE H. destruct (compile_inv E HE name errors es d H) as (_ & _ & _ & _ & ? & ? & ? & _). done. Qed.
Print Assumptions C55_only_if_all_succeeds.

(** Of the embedded fab sources exactly those that are not tests are written, each to its place. *)
Theorem C55_fab_sources tmpdir ts f c : (f, c) ∈ populateFabDir tmpdir ts <->
  exists t p, t ∈ ts /\ in_tree t p c /\ f = foldl (fun d n => Join [d; n]) (Join [tmpdir; "fab"]) p /\ (forall b, last p = Some b -> ~ ends_in "_test.go" b).
Proof. exact (populate_all tmpdir ts f c). Qed.
Print Assumptions C55_fab_sources.

(** ** Cases *)
Definition ex_env : cenv := {| c_impl := fun n => bool_decide (n ∈ ["Build"; "Test"; "hidden"; "Custom"; "Lint"]); c_text := fun s => s; c_order := fun l => l; c_tools := true |}.
Definition ex_es (more : list decl) : list entry :=
  [ {| e_name := "sub"; e_isdir := true; e_content := ""; e_pkg := ""; e_active := false; e_decls := [] |};
    {| e_name := "a.go"; e_isdir := false; e_content := "..."; e_pkg := "_fab"; e_active := true;
       e_decls := [DVar "Build builds."  [{| v_names := ["Build"]; v_type := None; v_doc := "" |}];
                   DVar "" [{| v_names := ["Test"; "hidden"]; v_type := Some ("Target", true); v_doc := "Test tests." |}];
                   DFunc "Helper"] ++ more |};
    {| e_name := "a_test.go"; e_isdir := false; e_content := "..."; e_pkg := "_fab"; e_active := true; e_decls := [DVar "x" [{| v_names := ["Lint"]; v_type := None; v_doc := "" |}]] |};
    {| e_name := "notes.txt"; e_isdir := false; e_content := "x"; e_pkg := ""; e_active := false; e_decls := [] |} ].
Definition q (s : string) : string := String dquote (s +:+ String dquote "").
Example C55_case : exists d, CompilePackage ex_env "_fab" 0 (ex_es []) = Some d /\ d_calls d ≡ₚ [("Build", q "Build builds."); ("Test", q "")] /\ d_files d = [("a.go", "...")] /\ d_import d = "subpkg".
Proof. eexists. split; [vm_compute; reflexivity|]. split_and!; [|reflexivity|reflexivity]. vm_compute. apply perm_swap || reflexivity. Qed.
Example C55_case_text : call_text ("Test", q "x") = "_, err = con.RegisterTarget(" +:+ q "Test" +:+ ", " +:+ q "x" +:+ ", subpkg.Test)".
Proof. reflexivity. Qed.
(** The hypotheses of the two refutations. *)
Example C55_case_type : exists d, CompilePackage ex_env "_fab" 0 (ex_es [DType ["Custom"]]) = Some d /\ ~ well_formed (ex_es [DType ["Custom"]]) d.
Proof.
  destruct (CompilePackage ex_env "_fab" 0 (ex_es [DType ["Custom"]])) as [d|] eqn:H; [|vm_compute in H; discriminate H]. exists d. split; [done|].
  eapply (C55_exported_type_refuted ex_env "_fab" 0 _ d "Custom"); [done|exact H| |].
  - split_and!; [by exists "C"%char, "ustom"; split; [done|vm_compute; lia]|reflexivity|]. exists (DType ["Custom"]), OType. split; [|split; [done|left]].
    eexists. split; [right; left|]. split; [split; [done|by exists "a"]|]. split; [|split; [done|]].
    + apply has_suffix_false. reflexivity.
    + do 3 right. left.
  - intros dc k (e & He & _ & _ & _ & Hd) Hdc. unfold ex_es in He. repeat (apply elem_of_cons in He as [->|He]; [simpl in Hd|]); [..|by apply elem_of_nil in He]; try (by apply elem_of_nil in Hd).
    + repeat (apply elem_of_cons in Hd as [->|Hd]; [simpl in Hdc|]); [..|by apply elem_of_nil in Hd].
      * destruct Hdc as (_ & v & ->%elem_of_list_singleton & Hn). simpl in Hn. by apply elem_of_list_singleton in Hn.
      * destruct Hdc as (_ & v & ->%elem_of_list_singleton & Hn). simpl in Hn. apply elem_of_cons in Hn as [?|Hn%elem_of_list_singleton]; done.
      * by destruct Hdc.
      * by destruct Hdc.
    + apply elem_of_list_singleton in Hd as ->. destruct Hdc as (_ & v & ->%elem_of_list_singleton & Hn). simpl in Hn. by apply elem_of_list_singleton in Hn.
Qed.
Definition typed_decl : decl := DVar "Lint lints." [{| v_names := ["Custom"]; v_type := Some ("Linter", false); v_doc := "" |}].
Example C55_case_typed : exists d, CompilePackage ex_env "_fab" 0 (ex_es [DType ["Linter"]; typed_decl]) = Some d /\ ("Custom", "") ∈ d_calls d.
Proof. eexists. split; [vm_compute; reflexivity|]. vm_compute. repeat (first [left|right]; fail) || set_solver. Qed.
