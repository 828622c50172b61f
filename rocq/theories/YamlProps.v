(** Properties C35 (reading YAML documents), C36 (termination), C37 (string and file lists).
    Vocabulary: YamlSpec.v. *)
From stdpp Require Import base gmap list strings.
From Coq Require Import Ascii.
From Verif Require Import PathModel PathSpec PathProofs YamlModel YamlSpec YamlProofs YamlProofs2 YamlProofs3 YamlProofs6.
Local Open Scope list_scope.

(** ** C37: lists. *)
(** A list of nodes gives the concatenation of what its elements contribute, in order ... *)
Theorem C37_from_nodes_ok fns dir ns l : YAMLStringListFromNodes fns ns dir = LOk l <->
  exists ls, Forall2 (contributes fns dir) ns ls /\ l = concat ls.
Proof. exact (from_nodes_ok fns dir ns l). Qed.
Print Assumptions C37_from_nodes_ok.

(** ... or the error of the first element that fails. *)
Theorem C37_from_nodes_error fns dir ns e : YAMLStringListFromNodes fns ns dir = LErr e <->
  exists before n after ls, ns = before ++ n :: after /\ Forall2 (contributes fns dir) before ls /\ fails fns dir n e.
Proof. exact (from_nodes_err fns dir ns e). Qed.
Print Assumptions C37_from_nodes_error.

(** Every element contributes one definite list or fails with one definite error. *)
Theorem C37_elements fns dir n :
  ((exists l, contributes fns dir n l /\ forall l', contributes fns dir n l' -> l' = l) /\ forall e, ~ fails fns dir n e) \/
  ((exists e, fails fns dir n e) /\ forall l, ~ contributes fns dir n l).
Proof.
  destruct (element_cases fns dir n) as [[l Hl]|[e He]].
  - left. split; [exists l; split; [done|]; intros; by eapply contributes_fun|]. intros e. by eapply contributes_fails.
  - right. split; [by exists e|]. intros l Hl. by eapply contributes_fails.
Qed.
Print Assumptions C37_elements.

(** A node: nothing if absent; what the function of its tag says; else it must be a sequence. *)
Theorem C37_node fns n dir :
  (n_kind n = KNone -> YAMLStringList fns n dir = LOk []) /\
  (forall t fn, n_kind n <> KNone -> has_tag n t -> fns t = Some fn -> YAMLStringList fns n dir = fn n dir) /\
  (forall t, n_kind n <> KNone -> has_tag n t -> fns t = None -> YAMLStringList fns n dir = LErr (UnknownListTag t)) /\
  (n_kind n = KSequence -> untagged n -> YAMLStringList fns n dir = YAMLStringListFromNodes fns (n_content n) dir) /\
  (n_kind n <> KNone -> n_kind n <> KSequence -> untagged n -> YAMLStringList fns n dir = LErr (BadKind (n_kind n) KSequence)).
Proof. exact (string_list_lem fns n dir). Qed.
Print Assumptions C37_node.

(** File lists: the same, every element taken from the top directory and then [dir]. *)
Theorem C37_files fns top n dir l : YAMLFileList fns top n dir = LOk l <->
  exists ss, YAMLStringList fns n dir = LOk ss /\ Forall2 (fun f s => f = JoinPath top [dir; s]) l ss.
Proof. exact (file_list_lem fns top n dir l). Qed.
Print Assumptions C37_files.
Theorem C37_files_from_nodes fns top ns dir l : YAMLFileListFromNodes fns top ns dir = LOk l <->
  exists ss, YAMLStringListFromNodes fns ns dir = LOk ss /\ Forall2 (fun f s => f = JoinPath top [dir; s]) l ss.
Proof. exact (file_list_nodes_lem fns top ns dir l). Qed.
Print Assumptions C37_files_from_nodes.
(** That is the place the element names, seen from the directory of the YAML file ([cd], see PathSpec.v). *)
Theorem C37_file_location top dir s here : cd here (JoinPath top [dir; s]) = cd (cd (cd here top) dir) s.
Proof. rewrite joinpath_lem. done. Qed.
Print Assumptions C37_file_location.

(** !Glob: the matches of all patterns, pattern by pattern, in the directory of the YAML file. *)
Theorem C37_glob fns glob top n dir l : globDecoder fns glob top n dir = LOk l <->
  n_kind n = KSequence /\ exists patterns ms, YAMLStringListFromNodes fns (n_content n) dir = LOk patterns /\
    Forall2 (fun p m => glob (if decide (JoinPath top [dir] = "") then "." else JoinPath top [dir]) p = Some m) patterns ms /\
    l = concat ms.
Proof. exact (glob_lem fns glob top n dir l). Qed.
Print Assumptions C37_glob.

(** ** C35: reading a document. *)
(** [pre]: names registered before.  Whatever ReadYAMLFile does, every entry of the registry
    afterwards is one of before or is the doc string and the value of a definition of that
    name in some YAML file; objects made before stay. *)
Theorem C35_registry_explained top fns leaf ybool docs ne fuel D s :
  let pre q o := exists d, y_reg s !! q = Some (d, o) in
  let r := ReadYAMLFile top docs ne (YAMLTarget top fns leaf ybool docs ne fuel) D s in
  forall s' e, r = ROk s' tt \/ r = RErr s' e ->
    y_objs s `prefix_of` y_objs s' /\
    forall q, y_reg s' !! q = y_reg s !! q \/
      exists dir k v o, defines top docs dir q k v /\ y_reg s' !! q = Some (key_doc k, o) /\
        denotes top fns leaf ybool pre (defines top docs) (y_objs s') dir v o.
Proof. exact (registry_explained top fns leaf ybool docs ne fuel D s). Qed.
Print Assumptions C35_registry_explained.

(** That doc string is the comment. *)
Theorem C35_doc k d : d = key_doc k <-> doc_of k d.
Proof. exact (key_doc_spec k d). Qed.
Print Assumptions C35_doc.

(** On success the document is a mapping that meets the requirements, and every one of its
    targets is registered under the directory-qualified name, with the doc string and value
    of a definition of that name. *)
Theorem C35_success top fns leaf ybool docs ne fuel D s s' :
  let pre q o := exists d, y_reg s !! q = Some (d, o) in
  ReadYAMLFile top docs ne (YAMLTarget top fns leaf ybool docs ne fuel) D s = ROk s' tt ->
  exists doc dir ps, docs (Join [top; D]) = Some doc /\ file_dir top D = Some dir /\ has_entries doc ps /\ entries_ok dir ps /\
    forall k v, (k, v) ∈ ps -> target_key k ->
      exists dir' k' v' o, defines top docs dir' (reg_name dir (n_value k)) k' v' /\
        y_reg s' !! reg_name dir (n_value k) = Some (key_doc k', o) /\
        denotes top fns leaf ybool pre (defines top docs) (y_objs s') dir' v' o.
Proof. exact (read_success top fns leaf ybool docs ne fuel D s s'). Qed.
Print Assumptions C35_success.

(** The fields of a target that is written as a mapping (the Post, Pre, Target, In, Out ... above):
    the mapping has scalar keys, none twice; a field is the value of the key, empty if absent ... *)
Theorem C35_mapping_fields n name v :
  (exists fs, decode_struct n = Some fs /\ field name fs = v) <-> exists ps, mapping_of n ps /\ value_of name ps v.
Proof.
  split.
  - intros (fs & (ps & H & ->)%struct_mapping & Hv). exists ps. split; [done|]. apply field_value; [apply H|exact Hv].
  - intros (ps & H & Hv). eexists. split; [apply struct_mapping; by exists ps|]. apply field_value; [apply H|exact Hv].
Qed.
Print Assumptions C35_mapping_fields.
(** ... and a list (Pre) is a sequence, null, or absent; anything else is an error. *)
Theorem C35_list_field f l : seq_field f = Some l <-> lists f l.
Proof. exact (seq_lists f l). Qed.
Print Assumptions C35_list_field.
Example C35_fields_ex : let k s := Node KScalar "" s "" "" [] in let n := Node KMapping "!Deps" "" "" "" [k "Post"; k "Main"; k "Pre"; Node KScalar "!!str" "x" "" "" []] in
  (exists ps, mapping_of n ps /\ value_of "Post" ps (k "Main") /\ value_of "Target" ps zero_node) /\
  forall l, ~ lists (Node KScalar "!!str" "x" "" "" []) l.
Proof.
  intros k n. split; [|intros l H; apply C35_list_field in H; discriminate H].
  exists [(k "Post", k "Main"); (k "Pre", Node KScalar "!!str" "x" "" "" [])].
  assert (H : mapping_of n [(k "Post", k "Main"); (k "Pre", Node KScalar "!!str" "x" "" "" [])]).
  { split; [done|]. split; [done|]. split; [|apply (bool_decide_unpack _); vm_compute; exact I].
    intros a b [Hx|[Hx|Hx%elem_of_nil]%elem_of_cons]%elem_of_cons; by simplify_eq. }
  split; [done|]. split; (apply field_value; [apply H|reflexivity]).
Qed.

(** A document that refers to no target of another directory than the top one: reading it
    ends; it succeeds exactly if the document meets the requirements and every value can be
    decoded; then exactly its target keys are registered, the last definition of each name
    winning; if it fails, exactly the entries before the first bad one are. *)
Theorem C35_document_exactly top fns leaf ybool docs ne doc dir :
  (forall ps k v q, has_entries doc ps -> (k, v) ∈ ps -> target_key k -> refers top dir v q -> ~ far q) ->
  exists N, forall fuel s, N <= fuel ->
    let registered ps s' := forall q,
      (exists k v o, last_def dir ps q k v /\ y_reg s' !! q = Some (key_doc k, o) /\
        denotes top fns leaf ybool (fun _ _ => False) (fun _ _ _ _ => False) (y_objs s') dir v o) \/
      (no_def dir ps q /\ y_reg s' !! q = y_reg s !! q) in
    let valid ps := entries_ok dir ps /\ forall k v, (k, v) ∈ ps -> target_key k -> decodable top fns leaf ybool dir v in
    match ReadYAML (YAMLTarget top fns leaf ybool docs ne fuel) doc dir s with
    | ROk s' _ => exists ps, has_entries doc ps /\ valid ps /\ registered ps s'
    | RErr s' _ => (forall ps, has_entries doc ps -> ~ valid ps) /\
        ((forall ps, ~ has_entries doc ps) /\ s' = s \/ exists before after, has_entries doc (before ++ after) /\ registered before s')
    | ROut => False
    end.
Proof. exact (document_exactly top fns leaf ybool docs ne doc dir). Qed.
Print Assumptions C35_document_exactly.

(** ** C36: termination, if the files can be ranked so that every definition refers only to
    targets of lower-ranked directories or of the top directory.  Missing: references within
    a directory by a path with a slash, and cycles of files without a cycle of definitions
    (see the refutations). *)
Theorem C36_terminates_partial top fns leaf ybool docs ne (rank : string -> nat) :
  (forall D doc dir ps k v q, docs (Join [top; D]) = Some doc -> file_dir top D = Some dir ->
    has_entries doc ps -> (k, v) ∈ ps -> target_key k -> refers top dir v q -> far q ->
    rank (Join [top; Dir q]) < rank (Join [top; D])) ->
  (forall n dir, exists N, forall fuel s, N <= fuel -> YAMLTarget top fns leaf ybool docs ne fuel n dir s <> ROut) /\
  (forall D, exists N, forall fuel s, N <= fuel -> ReadYAMLFile top docs ne (YAMLTarget top fns leaf ybool docs ne fuel) D s <> ROut).
Proof.
  intros H. assert (Hr : forall r, ranked top docs rank r) by (intros r D doc dir ps k v q _; by apply H). split.
  - intros n dir. by eapply all_end.
  - intros D. by eapply read_file_ends.
Qed.
Print Assumptions C36_terminates_partial.

(** *** Concrete nodes *)
Definition sc (v : string) : node := Node KScalar "!!str" v "" "" [].
Definition doc_key (v d : string) : node := Node KScalar "!!str" v "" d [].
Definition sq (t : string) (l : list node) : node := Node KSequence t "" "" "" l.
Definition mp (t : string) (l : list (node * node)) : node := Node KMapping t "" "" "" (flat_map (fun p => [p.1; p.2]) l).
Definition document (l : list (node * node)) : node := Node KDocument "" "" "" "" [mp "!!map" l].
Definition leaf0 (t : string) : option (node -> string -> bool) := if decide (t = "Command") then Some (fun _ _ => true) else None.
Definition fns0 (t : string) : option (node -> string -> lres) :=
  if decide (t = "Two") then Some (fun _ _ => LOk ["x"; "y"]) else None.
Definition ybool0 (n : node) : option bool := if decide (n_value n = "true") then Some true else Some false.
Definition s_empty : ystate := {| y_objs := []; y_reg := ∅ |}.

Example C37_case :
  YAMLFileList fns0 "/p" (sq "!!seq" [sc "a"; sq "!Two" []; sc "../b"; sc "/c"]) "d" = LOk ["/p/d/a"; "/p/d/x"; "/p/d/y"; "/p/b"; "/c"] /\
  YAMLStringList fns0 zero_node "d" = LOk [] /\
  YAMLStringList fns0 (sq "!!seq" [sc "a"; sq "!!seq" []; sq "!Other" []]) "d" = LErr (BadKind KSequence KScalar) /\
  has_tag (sq "!Two" []) "Two" /\ untagged (sc "a").
Proof.
  split_and!; try (vm_compute; reflexivity).
  - split; [done|]. split; [|by right]. intros [? [=]].
  - right. right. by eexists.
Qed.

(** The main file and the file of directory [sub], which is referred to. *)
Definition main_doc : node := document
  [ (doc_key "Check" "# vet and test", sq "!All" [sc "Vet"; sc "sub/Test"]); (sc "Vet", mp "!Command" [(sc "Shell", sc "go vet")]) ].
Definition sub_doc : node := document [ (sc "_dir", sc "sub"); (sc "Test", sq "!Command" [sc "go test"]); (sc "Again", sc "Test") ].
Definition ne0 : notexist := {| ne_file := fun _ => true; ne_list := fun _ => false; ne_leaf := fun _ _ _ => false |}.
Definition docs1 (f : string) : option node :=
  if decide (f = "/p") then Some main_doc else if decide (f = "/p/sub") then Some sub_doc else None.
Example C35_case :
  match ReadYAMLFile "/p" docs1 ne0 (YAMLTarget "/p" fns0 leaf0 ybool0 docs1 ne0 20) "" s_empty with
  | ROk s _ =>
      map fst (map_to_list (y_reg s)) ≡ₚ ["Check"; "Vet"; "sub/Test"; "sub/Again"] /\
      y_reg s !! "Check" = Some ("vet and test", 3) /\
      y_objs s = [SRef "Vet"; SLeaf "Command" (sq "!Command" [sc "go test"]) "sub"; SRef "Test"; SAll [0; 1];
                  SLeaf "Command" (mp "!Command" [(sc "Shell", sc "go vet")]) ""]
  | _ => False
  end.
Proof.
  destruct (ReadYAMLFile _ _ _ _ _) as [s []|s|] eqn:E; vm_compute in E; [|discriminate|discriminate].
  injection E as <-. split; [|split; vm_compute; reflexivity].
  apply (bool_decide_unpack _). vm_compute. reflexivity.
Qed.

Lemma refers_inv top dir n q : refers top dir n q ->
  (n_kind n = KScalar /\ ref_key top dir (n_value n) = Some q) \/ exists c, c ∈ tparts n /\ refers top dir c q.
Proof. destruct 1 as [q ? ? ?|c q Hc ?]; [by left|right]. exists c. split; [by apply part_tparts|done]. Qed.
Ltac refs H :=
  apply refers_inv in H as [[? H]|(? & ?Hc & H)];
  [try discriminate; vm_compute in H; try discriminate
  |match goal with Hc : _ ∈ tparts ?n |- _ =>
     let l := eval vm_compute in (tparts n) in change (tparts n) with l in Hc;
     repeat (apply elem_of_cons in Hc as [->|Hc]; [refs H|]);
     try (by apply elem_of_nil in Hc)
   end].
Lemma docs1_entries D doc dir ps k v q : docs1 (Join ["/p"; D]) = Some doc -> file_dir "/p" D = Some dir ->
  has_entries doc ps -> (k, v) ∈ ps -> target_key k -> refers "/p" dir v q ->
  (Join ["/p"; D] = "/p" /\ q ∈ ["Vet"; "sub/Test"]) \/ (Join ["/p"; D] = "/p/sub" /\ q = "Test").
Proof.
  unfold docs1, file_dir. intros Hd Hdir Hps Hin Hkey Hq. destruct (decide (Join ["/p"; D] = "/p")) as [E|E].
  - left. split; [done|]. injection Hd as <-. rewrite E in Hdir. vm_compute in Hdir. injection Hdir as <-.
    assert (ps = [ (doc_key "Check" "# vet and test", sq "!All" [sc "Vet"; sc "sub/Test"]); (sc "Vet", mp "!Command" [(sc "Shell", sc "go vet")]) ]) as ->.
    { eapply has_entries_fun; [done|]. by eexists. }
    repeat (apply elem_of_cons in Hin as [[= -> ->]|Hin]); [| |by apply elem_of_nil in Hin].
    + refs Hq; injection Hq as <-; rewrite !elem_of_cons; auto.
    + refs Hq.
  - destruct (decide (Join ["/p"; D] = "/p/sub")) as [E'|E']; [|done]. right. split; [done|]. injection Hd as <-. rewrite E' in Hdir. vm_compute in Hdir. injection Hdir as <-.
    assert (ps = [ (sc "_dir", sc "sub"); (sc "Test", sq "!Command" [sc "go test"]); (sc "Again", sc "Test") ]) as ->.
    { eapply has_entries_fun; [done|]. by eexists. }
    repeat (apply elem_of_cons in Hin as [[= -> ->]|Hin]); [| | |by apply elem_of_nil in Hin].
    + by destruct Hkey as (_ & ? & _).
    + refs Hq.
    + refs Hq. by injection Hq as <-.
Qed.
(** The hypothesis of C36_terminates_partial holds of the example ... *)
Example C36_case D : exists N, forall fuel s, N <= fuel ->
  ReadYAMLFile "/p" docs1 ne0 (YAMLTarget "/p" fns0 leaf0 ybool0 docs1 ne0 fuel) D s <> ROut.
Proof.
  apply (C36_terminates_partial "/p" fns0 leaf0 ybool0 docs1 ne0 (fun f => if decide (f = "/p") then 1 else 0)).
  intros D' doc dir ps k v q Hd Hdir Hps Hin Hkey Hq Hf.
  destruct (docs1_entries D' doc dir ps k v q Hd Hdir Hps Hin Hkey Hq) as [[-> Hq']|[-> ->]].
  - repeat (apply elem_of_cons in Hq' as [->|Hq']); [| |by apply elem_of_nil in Hq'].
    + by destruct Hf.
    + rewrite (decide_True _ _ (eq_refl "/p")). rewrite decide_False; [lia|]. vm_compute. discriminate.
  - by destruct Hf.
Qed.
(** ... and that of C35_document_exactly of the file of [sub]. *)
Example C35_case_exactly ps k v q : has_entries sub_doc ps -> (k, v) ∈ ps -> target_key k -> refers "/p" "sub" v q -> ~ far q.
Proof.
  intros Hps Hin Hkey Hq Hf. destruct (docs1_entries "sub" sub_doc "sub" ps k v q) as [[E _]|[_ ->]]; try done.
Qed.
Example C35_case_fails :
  ReadYAML (YAMLTarget "/p" fns0 leaf0 ybool0 docs1 ne0 20) (document [(sc "A", sc "B"); (sc "A", sc "C"); (sc "x/y", sc "D")]) "" s_empty =
    RErr (register "A" "" 1 (register "A" "" 0 {| y_objs := [SRef "B"; SRef "C"]; y_reg := ∅ |})) false.
Proof. vm_compute. reflexivity. Qed.

(** *** C36 in full is false: no definition refers to itself, even indirectly ([rk] falls along
    every reference), and yet reading does not end.  The reference leads to a later target of
    the same file; for every reference that is not registered yet the file is read again. *)
Definition own_doc : node := document [ (sc "_dir", sc "sub"); (sc "A", sq "!All" [sc "./C"]); (sc "C", sq "!Command" [sc "true"]) ].
Definition docs2 (f : string) : option node := if decide (f = "/p/sub") then Some own_doc else None.

Definition acyclic_definitions (top : string) (docs : string -> option node) : Prop :=
  exists rk : string -> nat, forall dir q k v q', defines top docs dir q k v -> refers top dir v q' -> rk q' < rk q.

Lemma own_acyclic : acyclic_definitions "/p" docs2.
Proof.
  exists (fun q => if decide (q = "sub/A") then 1 else 0). intros dir q k v q' (D & doc & ps & Hd & Hdir & Hps & Hin & Hkey & ->) Hq.
  unfold docs2 in Hd. unfold file_dir in Hdir. destruct (decide _) as [E|]; [|done]. rewrite E in Hdir. vm_compute in Hdir. injection Hdir as <-. injection Hd as <-.
  assert (ps = [ (sc "_dir", sc "sub"); (sc "A", sq "!All" [sc "./C"]); (sc "C", sq "!Command" [sc "true"]) ]) as ->.
  { eapply has_entries_fun; [done|]. by eexists. }
  repeat (apply elem_of_cons in Hin as [[= -> ->]|Hin]); [| | |by apply elem_of_nil in Hin].
  - by destruct Hkey as (_ & ? & _).
  - refs Hq. injection Hq as <-. vm_compute. lia.
  - refs Hq.
Qed.
Lemma own_loops fuel : forall s, y_reg s !! "sub/C" = None ->
  YAMLTarget "/p" fns0 leaf0 ybool0 docs2 ne0 fuel (sc "./C") "sub" s = ROut /\
  YAMLTarget "/p" fns0 leaf0 ybool0 docs2 ne0 fuel (sq "!All" [sc "./C"]) "sub" s = ROut.
Proof.
  induction fuel as [|fuel IH]; intros s Hs; [done|]. split.
  - change (YAMLTarget "/p" fns0 leaf0 ybool0 docs2 ne0 (S fuel) (sc "./C") "sub" s) with
      (match y_reg s !! "sub/C" with
       | Some (_, o) => ROk s o
       | None => bind (bind (YAMLTarget "/p" fns0 leaf0 ybool0 docs2 ne0 fuel (sq "!All" [sc "./C"]) "sub" s)
           (fun s1 o => entries_loop (YAMLTarget "/p" fns0 leaf0 ybool0 docs2 ne0 fuel) "sub" [(sc "C", sq "!Command" [sc "true"])] true
              (register "sub/A" "" o s1)))
           (fun s _ => match y_reg s !! "sub/C" with Some (_, o) => ROk s o | None => RErr s false end)
       end).
    rewrite Hs. by rewrite (proj2 (IH s Hs)).
  - change (YAMLTarget "/p" fns0 leaf0 ybool0 docs2 ne0 (S fuel) (sq "!All" [sc "./C"]) "sub" s) with
      (bind (bind (YAMLTarget "/p" fns0 leaf0 ybool0 docs2 ne0 fuel (sc "./C") "sub" s) (fun s o => bind (ROk s []) (fun s os => ROk s (o :: os))))
        (fun s ts => new (SAll ts) s)).
    by rewrite (proj1 (IH s Hs)).
Qed.
Theorem C36_own_file_refuted : exists top docs D,
  acyclic_definitions top docs /\
  forall fuel, ReadYAMLFile top docs ne0 (YAMLTarget top fns0 leaf0 ybool0 docs ne0 fuel) D s_empty = ROut.
Proof.
  exists "/p", docs2, "sub". split; [exact own_acyclic|]. intros fuel.
  change (ReadYAMLFile "/p" docs2 ne0 (YAMLTarget "/p" fns0 leaf0 ybool0 docs2 ne0 fuel) "sub" s_empty) with
    (bind (YAMLTarget "/p" fns0 leaf0 ybool0 docs2 ne0 fuel (sq "!All" [sc "./C"]) "sub" s_empty)
           (fun s1 o => entries_loop (YAMLTarget "/p" fns0 leaf0 ybool0 docs2 ne0 fuel) "sub" [(sc "C", sq "!Command" [sc "true"])] true
              (register "sub/A" "" o s1))).
  by rewrite (proj2 (own_loops fuel s_empty eq_refl)).
Qed.
Print Assumptions C36_own_file_refuted.

(** Two files that refer to each other, in targets that do not depend on each other. *)
Definition a_doc : node := document [ (sc "_dir", sc "a"); (sc "X", sc "../b/Y"); (sc "W", sq "!Command" [sc "w"]) ].
Definition b_doc : node := document [ (sc "_dir", sc "b"); (sc "Z", sc "../a/W"); (sc "Y", sq "!Command" [sc "y"]) ].
Definition docs3 (f : string) : option node :=
  if decide (f = "/p/a") then Some a_doc else if decide (f = "/p/b") then Some b_doc else None.
Lemma cross_acyclic : acyclic_definitions "/p" docs3.
Proof.
  exists (fun q => if decide (q = "a/X") then 1 else if decide (q = "b/Z") then 1 else 0).
  intros dir q k v q' (D & doc & ps & Hd & Hdir & Hps & Hin & Hkey & ->) Hq.
  unfold docs3 in Hd. unfold file_dir in Hdir. destruct (decide (Join ["/p"; D] = "/p/a")) as [E|].
  - rewrite E in Hdir. vm_compute in Hdir. injection Hdir as <-. injection Hd as <-.
    assert (ps = [ (sc "_dir", sc "a"); (sc "X", sc "../b/Y"); (sc "W", sq "!Command" [sc "w"]) ]) as ->.
    { eapply has_entries_fun; [done|]. by eexists. }
    repeat (apply elem_of_cons in Hin as [[= -> ->]|Hin]); [| | |by apply elem_of_nil in Hin].
    + by destruct Hkey as (_ & ? & _).
    + refs Hq. injection Hq as <-. vm_compute. lia.
    + refs Hq.
  - destruct (decide (Join ["/p"; D] = "/p/b")) as [E|]; [|done]. rewrite E in Hdir. vm_compute in Hdir. injection Hdir as <-. injection Hd as <-.
    assert (ps = [ (sc "_dir", sc "b"); (sc "Z", sc "../a/W"); (sc "Y", sq "!Command" [sc "y"]) ]) as ->.
    { eapply has_entries_fun; [done|]. by eexists. }
    repeat (apply elem_of_cons in Hin as [[= -> ->]|Hin]); [| | |by apply elem_of_nil in Hin].
    + by destruct Hkey as (_ & ? & _).
    + refs Hq. injection Hq as <-. vm_compute. lia.
    + refs Hq.
Qed.
Lemma cross_loops fuel : forall s, y_reg s !! "b/Y" = None -> y_reg s !! "a/W" = None ->
  YAMLTarget "/p" fns0 leaf0 ybool0 docs3 ne0 fuel (sc "../b/Y") "a" s = ROut /\
  YAMLTarget "/p" fns0 leaf0 ybool0 docs3 ne0 fuel (sc "../a/W") "b" s = ROut.
Proof.
  induction fuel as [|fuel IH]; intros s Hb Ha; [done|]. split.
  - change (YAMLTarget "/p" fns0 leaf0 ybool0 docs3 ne0 (S fuel) (sc "../b/Y") "a" s) with
      (match y_reg s !! "b/Y" with
       | Some (_, o) => ROk s o
       | None => bind (bind (YAMLTarget "/p" fns0 leaf0 ybool0 docs3 ne0 fuel (sc "../a/W") "b" s)
           (fun s1 o => entries_loop (YAMLTarget "/p" fns0 leaf0 ybool0 docs3 ne0 fuel) "b" [(sc "Y", sq "!Command" [sc "y"])] true
              (register "b/Z" "" o s1)))
           (fun s _ => match y_reg s !! "b/Y" with Some (_, o) => ROk s o | None => RErr s false end)
       end).
    rewrite Hb. by rewrite (proj2 (IH s Hb Ha)).
  - change (YAMLTarget "/p" fns0 leaf0 ybool0 docs3 ne0 (S fuel) (sc "../a/W") "b" s) with
      (match y_reg s !! "a/W" with
       | Some (_, o) => ROk s o
       | None => bind (bind (YAMLTarget "/p" fns0 leaf0 ybool0 docs3 ne0 fuel (sc "../b/Y") "a" s)
           (fun s1 o => entries_loop (YAMLTarget "/p" fns0 leaf0 ybool0 docs3 ne0 fuel) "a" [(sc "W", sq "!Command" [sc "w"])] true
              (register "a/X" "" o s1)))
           (fun s _ => match y_reg s !! "a/W" with Some (_, o) => ROk s o | None => RErr s false end)
       end).
    rewrite Ha. by rewrite (proj1 (IH s Hb Ha)).
Qed.
Theorem C36_two_files_refuted : exists top docs D,
  acyclic_definitions top docs /\
  (forall dir q k v q', defines top docs dir q k v -> refers top dir v q' -> far q' -> file_dir top (Dir q') <> Some dir) /\
  forall fuel, ReadYAMLFile top docs ne0 (YAMLTarget top fns0 leaf0 ybool0 docs ne0 fuel) D s_empty = ROut.
Proof.
  exists "/p", docs3, "a". split; [exact cross_acyclic|]. split.
  - intros dir q k v q' (D & doc & ps & Hd & Hdir & Hps & Hin & Hkey & ->) Hq _.
    unfold docs3 in Hd. unfold file_dir in Hdir. destruct (decide (Join ["/p"; D] = "/p/a")) as [E|].
    + rewrite E in Hdir. vm_compute in Hdir. injection Hdir as <-. injection Hd as <-.
      assert (ps = [ (sc "_dir", sc "a"); (sc "X", sc "../b/Y"); (sc "W", sq "!Command" [sc "w"]) ]) as ->.
      { eapply has_entries_fun; [done|]. by eexists. }
      repeat (apply elem_of_cons in Hin as [[= -> ->]|Hin]); [| | |by apply elem_of_nil in Hin].
      * by destruct Hkey as (_ & ? & _).
      * refs Hq. injection Hq as <-. vm_compute. discriminate.
      * refs Hq.
    + destruct (decide (Join ["/p"; D] = "/p/b")) as [E|]; [|done]. rewrite E in Hdir. vm_compute in Hdir. injection Hdir as <-. injection Hd as <-.
      assert (ps = [ (sc "_dir", sc "b"); (sc "Z", sc "../a/W"); (sc "Y", sq "!Command" [sc "y"]) ]) as ->.
      { eapply has_entries_fun; [done|]. by eexists. }
      repeat (apply elem_of_cons in Hin as [[= -> ->]|Hin]); [| | |by apply elem_of_nil in Hin].
      * by destruct Hkey as (_ & ? & _).
      * refs Hq. injection Hq as <-. vm_compute. discriminate.
      * refs Hq.
  - intros fuel.
    change (ReadYAMLFile "/p" docs3 ne0 (YAMLTarget "/p" fns0 leaf0 ybool0 docs3 ne0 fuel) "a" s_empty) with
      (bind (YAMLTarget "/p" fns0 leaf0 ybool0 docs3 ne0 fuel (sc "../b/Y") "a" s_empty)
           (fun s1 o => entries_loop (YAMLTarget "/p" fns0 leaf0 ybool0 docs3 ne0 fuel) "a" [(sc "W", sq "!Command" [sc "w"])] true
              (register "a/X" "" o s1))).
    by rewrite (proj1 (cross_loops fuel s_empty eq_refl eq_refl)).
Qed.
Print Assumptions C36_two_files_refuted.
