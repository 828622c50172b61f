(** Vocabulary for C55. *)
From stdpp Require Import base gmap list strings.
From Coq Require Import Ascii.
From Verif Require Import PathModel CompileModel.
Local Open Scope list_scope.

Definition ends_in (suf s : string) : Prop := exists p, s = p +:+ suf.
Definition go_file (e : entry) : Prop := e_isdir e = false /\ ends_in ".go" (e_name e).
Definition test_file (e : entry) : Prop := ends_in "_test.go" (e_name e).

(** The declaration declares [n], as a variable, a constant, ... *)
Definition declares (d : decl) (n : string) (k : objkind) : Prop :=
  match d with
  | DVar _ specs => k = OVar /\ exists v, v ∈ specs /\ n ∈ v_names v
  | DConst specs => k = OConst /\ exists v, v ∈ specs /\ n ∈ v_names v
  | DType names => k = OType /\ n ∈ names
  | DFunc f => k = OFunc /\ n = f
  end.
(** A Go file of the directory, whether or not it takes part in the build, has the declaration. *)
Definition in_dir (es : list entry) (d : decl) : Prop := exists e, e ∈ es /\ go_file e /\ d ∈ e_decls e.
(** The package, as built, has the declaration. *)
Definition in_package (es : list entry) (d : decl) : Prop :=
  exists e, e ∈ es /\ go_file e /\ ~ test_file e /\ e_active e = true /\ d ∈ e_decls e.
Definition exported (n : string) : Prop := exists c s, n = String c s /\ 65 <= nat_of_ascii c <= 90.
(** An exported identifier of the package that implements Target. *)
Definition is_target (E : cenv) (es : list entry) (n : string) : Prop :=
  exported n /\ c_impl E n = true /\ exists d k, in_package es d /\ declares d n k.

(** How go/doc sees a var declaration: it belongs to the exported type T of the package if no
    other type of the package is mentioned, and T is, by about 3 of 4 of the specs.  Only
    exported names count. *)
Definition visible (v : valuespec) : Prop := exists n, n ∈ v_names v /\ exported n.
Lemma exported_alt n : exported n <-> IsExported n = true.
Proof.
  split.
  - intros (c & s & -> & H). simpl. by rewrite bool_decide_eq_true_2.
  - destruct n as [|c s]; simpl; [done|]. intros H%bool_decide_eq_true_1. by exists c, s.
Qed.
Lemma visible_alt v : visible v <-> Exists (fun n => IsExported n = true) (v_names v).
Proof. rewrite Exists_exists. unfold visible. by setoid_rewrite exported_alt. Qed.
#[global] Instance visible_dec v : Decision (visible v) :=
  match decide (Exists (fun n => IsExported n = true) (v_names v)) with
  | left H => left (proj2 (visible_alt v) H)
  | right H => right (fun x => H (proj1 (visible_alt v) x))
  end.
Definition belongs_to (specs : list valuespec) (T : string) : Prop :=
  exported T /\ (forall v T', v ∈ specs -> visible v -> v_type v = Some (T', false) -> T' <> "" -> T' = T) /\
  exists k, k > 0 /\ k = length (filter (fun v => visible v /\ v_type v = Some (T, false)) specs) /\
    3 * length (filter visible specs) / 4 <= k.
(** The declaration's comment becomes the doc string of n. *)
Definition documents (d : decl) (n doc : string) : Prop :=
  exists specs, d = DVar doc specs /\ declares d n OVar /\ exported n /\ ~ exists T, belongs_to specs T.

(** Interpreted string literals of Go: text between the quotes, and value. *)
Inductive lit_body : string -> string -> Prop :=
  | lit_nil : lit_body "" ""
  | lit_plain c t v : c <> dquote -> c <> backslash -> c <> ascii_of_nat 10 -> lit_body t v -> lit_body (String c t) (String c v)
  | lit_simple x n t v : (x, n) ∈ [("a"%char, 7); ("b"%char, 8); ("f"%char, 12); ("n"%char, 10); ("r"%char, 13); ("t"%char, 9); ("v"%char, 11); (backslash, 92); (dquote, 34)] ->
      lit_body t v -> lit_body (String backslash (String x t)) (String (ascii_of_nat n) v)
  | lit_hex a b t v : a < 16 -> b < 16 -> lit_body t v ->
      lit_body (String backslash (String "x"%char (String (hexdigit a) (String (hexdigit b) t)))) (String (ascii_of_nat (16 * a + b)) v).
Definition literal (t v : string) : Prop := exists b, t = String dquote (b +:+ String dquote "") /\ lit_body b v.

(** driver.go compiles: the doc argument of every registration is a string literal, the last
    one a variable, constant or function of the package, and the package is imported under a name
    if it is used. *)
Definition well_formed (es : list entry) (d : driver) : Prop :=
  (forall n t, (n, t) ∈ d_calls d -> (exists v, literal t v) /\ exists dc k, in_package es dc /\ declares dc n k /\ k <> OType) /\
  (d_calls d <> [] <-> d_import d = "subpkg").

(** Without line ends at the end. *)
Definition crlf (s : string) : Prop := Forall (fun c => c = ascii_of_nat 10 \/ c = ascii_of_nat 13) (String.list_ascii_of_string s).
Definition trimmed (s v : string) : Prop := exists t, s = v +:+ t /\ crlf t /\ forall u c, v = u +:+ String c "" -> c <> ascii_of_nat 10 /\ c <> ascii_of_nat 13.

(** A file of the embedded tree, by the names on the way to it. *)
Inductive in_tree : etree -> list string -> string -> Prop :=
  | in_file n c : in_tree (EFile n c) [n] c
  | in_sub n ch t p c : t ∈ ch -> in_tree t p c -> in_tree (EDir n ch) (n :: p) c.
