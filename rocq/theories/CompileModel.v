(** Model of compile.go and of the parts of driver.go.tmpl that depend on the user's package:
    CompilePackage up to the go commands, populateFabDir; and of the parts of go/parser.ParseDir,
    go/doc.New and strconv.Quote it relies on. *)
From stdpp Require Import base gmap list strings.
From Coq Require Import Ascii.
From Verif Require Import PathModel.
Local Open Scope list_scope.

(** ** The package.  [baseTypeName] (go/doc) of a type expression: the name and whether it is
    qualified by a package; the empty name for types like []T. *)
Record valuespec := { v_names : list string; v_type : option (string * bool); v_doc : string }.
(** A top-level declaration; [doc]: the comment of the whole declaration.  Imports and methods
    declare no package-level identifier and are left out. *)
Inductive decl :=
  | DVar (doc : string) (specs : list valuespec)
  | DConst (specs : list valuespec)
  | DType (names : list string)
  | DFunc (name : string).
(** An entry of the directory; if a Go file, its package clause, whether it takes part in the
    build (build constraints, name), its declarations. *)
Record entry := { e_name : string; e_isdir : bool; e_content : string; e_pkg : string; e_active : bool; e_decls : list decl }.

Definition has_suffix (suf s : string) : bool :=
  bool_decide (String.length suf <= String.length s /\ substring (String.length s - String.length suf) (String.length suf) s = suf).
Definition is_go (e : entry) : bool := negb (e_isdir e) && has_suffix ".go" (e_name e).
Definition is_test (e : entry) : bool := has_suffix "_test.go" (e_name e).
(** packages.Load without tests: GoFiles. *)
Definition in_build (e : entry) : bool := is_go e && negb (is_test e) && e_active e.

Inductive objkind := OVar | OConst | OType | OFunc.
#[global] Instance objkind_eq_dec : EqDecision objkind. Proof. solve_decision. Defined.
Definition decl_objs (d : decl) : list (string * objkind) :=
  match d with
  | DVar _ specs => (fun n => (n, OVar)) <$> concat (v_names <$> specs)
  | DConst specs => (fun n => (n, OConst)) <$> concat (v_names <$> specs)
  | DType names => (fun n => (n, OType)) <$> names
  | DFunc name => [(name, OFunc)]
  end.
(** pkg.Types.Scope(): every package-level identifier but _ and init. *)
Definition scope (es : list entry) : list (string * objkind) :=
  filter (fun o => o.1 <> "_" /\ o.1 <> "init") (concat (decl_objs <$> concat (e_decls <$> filter (fun e => in_build e = true) es))).

(** token.IsExported.  Simplified: capital letters of ASCII. *)
Definition IsExported (s : string) : bool :=
  match s with
  | String c _ => bool_decide (65 <= nat_of_ascii c <= 90)
  | EmptyString => false
  end.

(** ** go/doc.  exports.go, filterSpec and filterDecl: unexported names go, then specs without
    names, then declarations without specs. *)
Definition filter_spec (v : valuespec) : valuespec :=
  {| v_names := filter (fun n => IsExported n = true) (v_names v); v_type := v_type v; v_doc := v_doc v |}.
Definition filter_specs (l : list valuespec) : list valuespec := filter (fun v => v_names v <> []) (filter_spec <$> l).
(** reader.go, readValue: the dominant type name and its frequency. *)
Fixpoint dominant (specs : list valuespec) (domName : string) (domFreq : nat) : string * nat :=
  match specs with
  | [] => (domName, domFreq)
  | v :: specs =>
      match v_type v with
      | Some (name, false) =>
          if decide (name = "") then dominant specs domName domFreq
          else if decide (domName <> "" /\ domName <> name) then ("", domFreq)
          else dominant specs name (S domFreq)
      | _ => dominant specs domName domFreq
      end
  end.
(** readValue: whether the declaration is associated with a type of the package. *)
Definition associated (specs : list valuespec) : bool :=
  let '(n, f) := dominant specs "" 0 in
  bool_decide (n <> "" /\ IsExported n = true /\ 3 * length specs / 4 <= f).
(** doc.Package.Vars: the declarations associated with no type, with their names.  Simplified:
    no dot imports (go/doc then moves declarations back); the order, which is by name, is that
    of the list. *)
Definition doc_vars (ds : list decl) : list (string * list string) :=
  omap (fun d => match d with
                 | DVar doc specs =>
                     let specs := filter_specs specs in
                     if decide (specs = []) then None
                     else if associated specs then None
                     else Some (doc, concat (v_names <$> specs))
                 | _ => None
                 end) ds.

(** ** strconv.Quote.  Simplified: bytes beyond ASCII are copied (so they are for printable
    characters in UTF-8). *)
Definition hexdigit (n : nat) : ascii := ascii_of_nat (if bool_decide (n < 10) then 48 + n else 87 + n).
Definition dquote : ascii := ascii_of_nat 34.
Definition backslash : ascii := ascii_of_nat 92.
Definition quote_char (c : ascii) : string :=
  let n := nat_of_ascii c in
  let esc x := String backslash (String x "") in
  if decide (c = dquote) then esc dquote
  else if decide (c = backslash) then esc backslash
  else if bool_decide (32 <= n < 127 \/ 128 <= n) then String c ""
  else if decide (n = 7) then esc "a"%char
  else if decide (n = 8) then esc "b"%char
  else if decide (n = 12) then esc "f"%char
  else if decide (n = 10) then esc "n"%char
  else if decide (n = 13) then esc "r"%char
  else if decide (n = 9) then esc "t"%char
  else if decide (n = 11) then esc "v"%char
  else String backslash (String "x"%char (String (hexdigit (n / 16)) (String (hexdigit (n mod 16)) ""))).
Fixpoint quote_body (s : string) : string :=
  match s with EmptyString => "" | String c s => quote_char c +:+ quote_body s end.
Definition Quote (s : string) : string := String dquote (quote_body s +:+ String dquote "").

(** strings.TrimRight(s, "\r\n") *)
Fixpoint trim_crlf (s : string) : string :=
  match s with
  | EmptyString => ""
  | String c s =>
      match trim_crlf s with
      | EmptyString => if decide (c = ascii_of_nat 10 \/ c = ascii_of_nat 13) then "" else String c ""
      | s' => String c s'
      end
  end.

(** ** CompilePackage *)
Record cenv := {
  (** checkImplementsTarget (types.go, TypesModel.v) on the type of a package-level identifier. *)
  c_impl : string -> bool;
  (** go/doc/comment: Printer.Text after Parser.Parse. *)
  c_text : string -> string;
  (** maps.Values: some order. *)
  c_order : list (string * string) -> list (string * string);
  (** Whether all of the file operations on the temporary directory and the go commands succeed. *)
  c_tools : bool }.
(** What is built: the package's files, and the parts of driver.go: the name of the import and
    the registrations, as they are written: name and text of the doc argument. *)
Record driver := { d_subpkg : string; d_files : list (string * string); d_import : string; d_calls : list (string * string) }.

(** compile.go:121-133 *)
Definition select_targets (E : cenv) (es : list entry) : gmap string string :=
  foldl (fun m o => if IsExported o.1 && c_impl E o.1 then <[o.1 := ""]> m else m) ∅ (scope es).
(** compile.go:135-148, 2 loops *)
Definition set_doc (E : cenv) (doc : string) (m : gmap string string) (name : string) : gmap string string :=
  match m !! name with
  | Some _ => <[name := Quote (trim_crlf (c_text E doc))]> m
  | None => m
  end.
Definition set_docs (E : cenv) (vars : list (string * list string)) (m : gmap string string) : gmap string string :=
  foldl (fun m v => foldl (set_doc E v.1) m v.2) m vars.
(** compile.go:166-180 *)
Definition copied (es : list entry) : list (string * string) :=
  (fun e => (e_name e, e_content e)) <$> filter (fun e => e_isdir e = false /\ is_test e = false /\ has_suffix ".go" (e_name e) = true) es.
(** parser.ParseDir: every Go file, by package clause *)
Definition parsed_packages (es : list entry) : list string := remove_dups (e_pkg <$> filter (fun e => is_go e = true) es).
(** compile.go:79-251.  [name]: pkg.Name; [errors]: pkg.Errors.  None: an error, and binfile is
    not touched; Some: binfile is now the result of go build on this. *)
Definition CompilePackage (E : cenv) (name : string) (errors : nat) (es : list entry) : option driver :=
  if decide (errors <> 0) then None
  else if decide (filter (fun e => in_build e = true) es = []) then None
  else if decide (length (parsed_packages es) <> 1) then None
  else if decide (name ∉ parsed_packages es) then None
  else
    let ds := concat (e_decls <$> filter (fun e => is_go e = true) es) in
    let targets := set_docs E (doc_vars ds) (select_targets E es) in
    let vals := c_order E (map_to_list targets) in
    if c_tools E then
      Some {| d_subpkg := name; d_files := copied es; d_import := if decide (vals = []) then "_" else "subpkg"; d_calls := vals |}
    else None.
(** driver.go.tmpl:51-57, one registration *)
Definition call_text (c : string * string) : string :=
  "_, err = con.RegisterTarget(" +:+ String dquote c.1 +:+ String dquote ", " +:+ c.2 +:+ ", subpkg." +:+ c.1 +:+ ")".

(** ** populateFabDir, compile.go:257-293: the embedded tree. *)
Inductive etree := EFile (name content : string) | EDir (name : string) (children : list etree).
Fixpoint populate (destdir : string) (t : etree) : list (string * string) :=
  match t with
  | EFile n c => if has_suffix "_test.go" n then [] else [(Join [destdir; n], c)]
  | EDir n ch => concat (populate (Join [destdir; n]) <$> ch)
  end.
Definition populateFabDir (tmpdir : string) (embeds : list etree) : list (string * string) :=
  concat (populate (Join [tmpdir; "fab"]) <$> embeds).
