(** C51: golang.Deps (golang/go.go).  Vocabulary: GoDepsSpec.v.  [pkgs] is an arbitrary
    package graph, the order of each import list arbitrary. *)
From stdpp Require Import base gmap fin_sets list strings sorting.
From Verif Require Import StrOrd GoDepsModel GoDepsSpec GoDepsProofs.
Local Open Scope list_scope.

(** Go has no import cycles; then the recursion is no deeper than the longest chain. *)
Theorem C51_terminates pkgs glob rank fuel load :
  acyclic pkgs rank -> (forall roots p, load = Some roots -> p ∈ roots -> rank p < fuel) ->
  Deps pkgs glob fuel load <> DepsOutOfFuel.
Proof. exact (deps_terminates_lem pkgs glob rank fuel load). Qed.
Print Assumptions C51_terminates.

(** A nil error: no loaded package had errors, and the list is sorted, free of duplicates,
    and consists of the files of the packages reached within the module, and the matches of
    their embed patterns in the working directory. *)
Theorem C51_files_and_matches pkgs glob fuel load l :
  Deps pkgs glob fuel load = DepsOk l ->
  exists roots, load = Some roots /\ (forall r, r ∈ roots -> p_errors (pkgs r) = 0) /\
    StronglySorted sle l /\ NoDup l /\
    forall x, x ∈ l <-> exists p, involved pkgs roots p /\
      (own_file pkgs p x \/ exists pat ms, pat ∈ p_patterns (pkgs p) /\ glob pat = Some ms /\ x ∈ ms).
Proof.
  intros H. apply deps_ok_lem in H as (roots & -> & H1 & H2 & H3 & H4 & _). exists roots. split; [done|].
  split; [intros r Hr; by apply H1|]. done.
Qed.
Print Assumptions C51_files_and_matches.

(** The property itself, for programs without embed patterns that match anything in the
    working directory.  Missing: see the refutation. *)
Theorem C51_exactly_module_files_partial pkgs glob fuel roots l x :
  (forall p pat ms, involved pkgs roots p -> pat ∈ p_patterns (pkgs p) -> glob pat = Some ms -> forall y, y ∈ ms -> own_file pkgs p y) ->
  Deps pkgs glob fuel (Some roots) = DepsOk l ->
  (x ∈ l <-> exists p, involved pkgs roots p /\ own_file pkgs p x).
Proof.
  intros Hp H. apply deps_ok_lem in H as (roots' & [= <-] & _ & _ & _ & H4 & _). rewrite H4. split.
  - intros (p & Hi & [Ho|(pat & ms & ? & ? & ?)]); [eauto|]. exists p. split; [done|]. by eapply Hp.
  - intros (p & Hi & Ho). exists p. split; [done|by left].
Qed.
Print Assumptions C51_exactly_module_files_partial.

(** No other outcomes: an error has a cause, a panic one nil module. *)
Theorem C51_error_has_cause pkgs glob fuel load :
  Deps pkgs glob fuel load = DepsErr ->
  load = None \/ exists roots, load = Some roots /\
    ((exists r, r ∈ roots /\ p_errors (pkgs r) <> 0) \/
     exists p pat, involved pkgs roots p /\ pat ∈ p_patterns (pkgs p) /\ glob pat = None).
Proof.
  intros H. apply deps_err_lem in H as [?|(roots & -> & [?|(q & ? & pat & ? & ?)])]; [by left|right; eauto|right; eauto 10].
Qed.
Print Assumptions C51_error_has_cause.
Theorem C51_panic_only_without_module pkgs glob fuel load :
  Deps pkgs glob fuel load = DepsPanic -> exists roots r, load = Some roots /\ r ∈ roots /\ p_module (pkgs r) = None.
Proof. exact (deps_panic_lem pkgs glob fuel load). Qed.
Print Assumptions C51_panic_only_without_module.

(** ** A diamond, another module in between, an embedded file. *)
Definition pk m gof emb pats imps : package :=
  {| p_module := m; p_gofiles := gof; p_compiled := gof; p_other := []; p_embed := emb; p_patterns := pats;
     p_imports := imps; p_errors := 0 |}.
Definition prog (n : nat) : package :=
  match n with
  | 0 => pk (Some "m") ["/m/main.go"] ["/m/x.tmpl"] ["*.tmpl"] [1; 2; 5]
  | 1 => pk (Some "m") ["/m/a/a.go"] [] [] [3; 4]
  | 2 => pk (Some "m") ["/m/b/b.go"] [] [] [3]
  | 3 => pk (Some "m") ["/m/c/c.go"] [] [] []
  | 4 => pk (Some "other") ["/mod/other/o.go"] [] [] [6]
  | 5 => pk None ["/goroot/fmt/print.go"] [] [] []
  | _ => pk (Some "m") ["/m/only/through/other.go"] [] [] []
  end.
Example prog_deps : Deps prog (fun _ => Some []) 7 (Some [0]) =
  DepsOk ["/m/a/a.go"; "/m/b/b.go"; "/m/c/c.go"; "/m/main.go"; "/m/x.tmpl"].
Proof. vm_compute. reflexivity. Qed.
Example prog_acyclic : acyclic prog (fun n => 10 - n).
Proof.
  intros p i. do 7 (destruct p as [|p]; [simpl; rewrite ?elem_of_cons, ?elem_of_nil; intros; lia|]).
  simpl. by intros ?%elem_of_nil.
Qed.

(** ** Refuted: "exactly".  Embed patterns are relative to the directory of their package but
    are matched in the working directory: an unrelated file there is in the list. *)
Theorem C51_exactly_module_files_refuted :
  ~ forall pkgs glob fuel roots l x, Deps pkgs glob fuel (Some roots) = DepsOk l ->
      (x ∈ l <-> exists p, involved pkgs roots p /\ own_file pkgs p x).
Proof.
  intros H. set (glob := fun _ : string => Some ["unrelated.tmpl"]).
  assert (E : Deps prog glob 7 (Some [0]) =
    DepsOk ["/m/a/a.go"; "/m/b/b.go"; "/m/c/c.go"; "/m/main.go"; "/m/x.tmpl"; "unrelated.tmpl"]) by (vm_compute; reflexivity).
  destruct (proj1 (H _ _ _ _ _ "unrelated.tmpl" E)) as (p & _ & Ho); [do 5 right; left|].
  unfold own_file in Ho.
  do 7 (destruct p as [|p];
    [simpl in Ho; rewrite ?elem_of_cons, ?elem_of_nil in Ho;
     repeat match goal with H : _ \/ _ |- _ => destruct H | H : False |- _ => destruct H | H : _ = _ :> string |- _ => discriminate H end|]).
  simpl in Ho; rewrite ?elem_of_cons, ?elem_of_nil in Ho;
     repeat match goal with H : _ \/ _ |- _ => destruct H | H : False |- _ => destruct H | H : _ = _ :> string |- _ => discriminate H end.
Qed.
Print Assumptions C51_exactly_module_files_refuted.

(** ** Refuted: an error rather than a panic when the package is in no module. *)
Theorem C51_no_panic_refuted : exists pkgs glob fuel roots, Deps pkgs glob fuel (Some roots) = DepsPanic.
Proof. exists prog, (fun _ => Some []), 7, [5]. vm_compute. reflexivity. Qed.
Print Assumptions C51_no_panic_refuted.

(** ** golang.Binary: the target's inputs are the dependencies, its only output the out file
    (named like the directory if none is given), the flags come before the package. *)
Theorem C51_binary_target base rel pkgs glob fuel load dir out flags ins outs args :
  Binary base rel (Deps pkgs glob fuel load) dir out flags = Some (ins, outs, args) ->
  Deps pkgs glob fuel load = DepsOk ins /\
  outs = [if decide (out = "") then base dir else out] /\
  exists relOut, rel dir (if decide (out = "") then base dir else out) = Some relOut /\
    args = ["build"; "-C"; dir; "-o"; relOut] ++ flags ++ ["."].
Proof.
  unfold Binary. destruct (rel dir _) as [r|] eqn:E; [|done]. destruct (Deps pkgs glob fuel load) eqn:Ed; try done.
  intros [= <- <- <-]. split; [done|]. split; [done|]. eauto.
Qed.
Print Assumptions C51_binary_target.
