(** C48: checking that a type found in source text implements Target (types.go).
    Vocabulary: TypesSpec.v.  [T] and [R] are arbitrary finite, possibly cyclic type graphs. *)
From stdpp Require Import base gmap list strings.
From Verif Require Import TypesModel TypesSpec TypesProofs.
Local Open Scope list_scope.

(** The recursion never goes deeper than the number of pairs of types. *)
Theorem C48_terminates T R t r fuel :
  closed T R -> t < length T -> r < length R -> length T * length R < fuel ->
  checkTypesMatch fuel T R ∅ t r <> OutOfFuel.
Proof. exact (terminates_lem T R t r fuel). Qed.
Print Assumptions C48_terminates.

(** The types are accepted if and only if they unfold to the same structure; missing from
    the full property: names of types in [r] where [t] has a type literal are not compared,
    nor whether struct fields are embedded. *)
Theorem C48_accepts_iff_same_structure_partial T R t r fuel :
  closed T R -> distinct_methods R -> t < length T -> r < length R -> length T * length R < fuel ->
  ((exists seen, checkTypesMatch fuel T R ∅ t r = Ok seen) <-> same_structure T R t r).
Proof. exact (ok_iff T R t r fuel). Qed.
Print Assumptions C48_accepts_iff_same_structure_partial.

(** Identical types are the same structure, hence accepted. *)
Theorem C48_identical_accepted T R t r fuel :
  closed T R -> distinct_methods R -> t < length T -> r < length R -> length T * length R < fuel ->
  identical T R t r -> exists seen, checkTypesMatch fuel T R ∅ t r = Ok seen.
Proof. exact (identical_lem T R t r fuel). Qed.
Print Assumptions C48_identical_accepted.

(** The whole check: for any order in which the methods are visited, the type is accepted if
    each method of Target is found and its signature agrees, and refused otherwise. *)
Theorem C48_implements_target_partial T R methods lookup fuel :
  closed T R -> distinct_methods R ->
  (forall n s u, lookup n = Some (MFunc s) -> u ∈ s_params s ++ s_results s -> u < length T) ->
  length T * length R < fuel ->
  ((forall name fn, (name, fn) ∈ methods -> exists s S, lookup name = Some (MFunc s) /\
      matching T R S /\ sig_agrees R S s fn (if s_recv s then 1 else 0)) ->
    checkImplementsTarget fuel T R methods lookup = Some true) /\
  (~ (forall name fn, (name, fn) ∈ methods -> exists s S, lookup name = Some (MFunc s) /\
      matching T R S /\ sig_agrees R S s fn (if s_recv s then 1 else 0)) ->
    checkImplementsTarget fuel T R methods lookup = Some false).
Proof. exact (implements_lem T R methods lookup fuel). Qed.
Print Assumptions C48_implements_target_partial.

(** ** Refuted: "exactly when identical".  A parameter of the literal type
    interface{ Err() error } is accepted where the method of Target has one of the type named
    Context with that structure; a struct with a plain field is accepted for one with an
    embedded field. *)
Definition no_sig : sig := {| s_recv := true; s_variadic := false; s_params := []; s_results := [] |}.
Definition T_lit : tgraph :=
  [ TInterface [("Err", {| s_recv := true; s_variadic := false; s_params := []; s_results := [1] |})];
    TNamed "error" 2;
    TInterface [("Error", {| s_recv := true; s_variadic := false; s_params := []; s_results := [3] |})];
    TBasic (Some String_);
    TStruct [{| f_name := "F"; f_tag := ""; f_embedded := false; f_type := 3 |}];
    TNamed "Node" 6;
    TStruct [{| f_name := "Next"; f_tag := ""; f_embedded := false; f_type := 7 |}];
    TPointer 5 ].
Definition R_lit : rgraph :=
  [ {| r_name := "Context"; r_kind := RInterface [("Err", 1)] |};
    {| r_name := ""; r_kind := RFunc false [] [2] |};
    {| r_name := "error"; r_kind := RInterface [("Error", 3)] |};
    {| r_name := ""; r_kind := RFunc false [] [4] |};
    {| r_name := "string"; r_kind := RBasic String_ |};
    {| r_name := ""; r_kind := RStruct [{| f_name := "F"; f_tag := ""; f_embedded := true; f_type := 4 |}] |};
    {| r_name := "Node"; r_kind := RStruct [{| f_name := "Next"; f_tag := ""; f_embedded := false; f_type := 7 |}] |};
    {| r_name := ""; r_kind := RPtr 6 |} ].
Theorem C48_literal_for_named_type_refuted :
  (exists seen, checkTypesMatch 65 T_lit R_lit ∅ 0 0 = Ok seen) /\ ~ identical T_lit R_lit 0 0 /\
  (exists seen, checkTypesMatch 65 T_lit R_lit ∅ 4 5 = Ok seen).
Proof.
  split; [eexists; vm_compute; done|]. split; [|eexists; vm_compute; done].
  intros (S & HS & H). destruct (HS 0 0 H) as [E _]. vm_compute in E. done.
Qed.
Print Assumptions C48_literal_for_named_type_refuted.

(** The hypotheses hold for these graphs; the recursive type Node is identical to itself. *)
Example C48_case :
  closed T_lit R_lit /\ distinct_methods R_lit /\ identical T_lit R_lit 5 6 /\
  checkTypesMatch 65 T_lit R_lit ∅ 5 4 = Err /\ checkTypesMatch 65 T_lit R_lit ∅ 5 7 = Err.
Proof.
  split; [|split; [|split; [|split; vm_compute; done]]].
  - split.
    + intros t u. rewrite elem_of_list_In. do 8 (destruct t as [|t]; [intros H; vm_compute in H; simpl; intuition lia|]). by intros [].
    + intros t u. rewrite elem_of_list_In. do 8 (destruct t as [|t]; [intros H; vm_compute in H; simpl; intuition lia|]). by intros [].
  - intros r ms. do 8 (destruct r as [|r]; [intros [= <-]; simpl; repeat constructor; set_solver|]). done.
  - exists (fun t r => (t = 5 /\ r = 6) \/ (t = 7 /\ r = 7)). split; [|by left].
    intros t r [[-> ->]|[-> ->]]; simpl.
    + split; [done|]. constructor; [|constructor]. split; [done|]. split; [done|]. simpl. by right.
    + split; [done|]. by left.
Qed.
