(** What YAML nodes stand for. *)
From stdpp Require Import base gmap list strings.
From Coq Require Import Ascii.
From Verif Require Import PathModel YamlModel.
Local Open Scope list_scope.

(** ** Tags.  The tags of plain YAML (!!str and so on) and the empty ones do not count. *)
Definition begins (c : ascii) (s : string) : Prop := exists s', s = String c s'.
Definition has_tag (n : node) (t : string) : Prop :=
  t <> "" /\ ~ begins "!" t /\ (n_tag n = t \/ n_tag n = String "!" t).
Definition untagged (n : node) : Prop := n_tag n = "" \/ n_tag n = "!" \/ exists s, n_tag n = String "!" (String "!" s).

(** ** Lists: what one element contributes, or how it fails. *)
Inductive contributes (fns : list_fns) (dir : string) (n : node) : list string -> Prop :=
  | contrib_scalar : untagged n -> n_kind n = KScalar -> contributes fns dir n [n_value n]
  | contrib_fn t fn l : has_tag n t -> fns t = Some fn -> fn n dir = LOk l -> contributes fns dir n l.
Inductive fails (fns : list_fns) (dir : string) (n : node) : lerr -> Prop :=
  | fails_kind : untagged n -> n_kind n <> KScalar -> fails fns dir n (BadKind (n_kind n) KScalar)
  | fails_unknown t : has_tag n t -> fns t = None -> fails fns dir n (UnknownListTag t)
  | fails_fn t fn e : has_tag n t -> fns t = Some fn -> fn n dir = LErr e -> fails fns dir n e.

(** ** Doc strings.  The comment above the key, or if there is none the one beside it, without
    the number signs and blanks it begins with. *)
Definition hash_or_blank (c : ascii) : Prop := c = "#"%char \/ c = " "%char.
Definition doc_of (k : node) (d : string) : Prop :=
  exists comment t, comment = t +:+ d /\ (n_head k <> "" /\ comment = n_head k \/ n_head k = "" /\ comment = n_line k) /\
    Forall hash_or_blank (String.list_ascii_of_string t) /\ forall c s, d = String c s -> ~ hash_or_blank c.

(** ** Targets. *)
(** The nodes in a node's target positions. *)
Inductive part (n : node) : node -> Prop :=
  | part_list t c : has_tag n t -> t = "All" \/ t = "Seq" \/ t = "Deps" -> n_kind n = KSequence -> c ∈ n_content n -> part n c
  | part_arg c cs : has_tag n "ArgTarget" -> n_kind n = KSequence -> n_content n = c :: cs -> part n c
  | part_post fs : has_tag n "Deps" -> decode_struct n = Some fs -> part n (field "Post" fs)
  | part_pre fs ns c : has_tag n "Deps" -> decode_struct n = Some fs -> seq_field (field "Pre" fs) = Some ns -> c ∈ ns -> part n c
  | part_files fs : has_tag n "Files" -> decode_struct n = Some fs -> part n (field "Target" fs).

(** A definition [n] in the YAML file of directory [dir] refers to the target named [q]. *)
Inductive refers (top dir : string) (n : node) : string -> Prop :=
  | refers_self q : untagged n -> n_kind n = KScalar -> ref_key top dir (n_value n) = Some q -> refers top dir n q
  | refers_part c q : part n c -> refers top dir c q -> refers top dir n q.
(** A target of another directory than the top one. *)
Definition far (q : string) : Prop := Dir q <> ".".

(** The entries of a document. *)
Definition has_entries (doc : node) (ps : list (node * node)) : Prop :=
  exists m, n_kind doc = KDocument /\ n_content doc = [m] /\ n_kind m = KMapping /\ n_content m = flat_map (fun p => [p.1; p.2]) ps.
(** A key that names a target. *)
Definition target_key (k : node) : Prop := n_kind k = KScalar /\ n_value k <> "_dir" /\ has_slash (n_value k) = false.

(** The YAML file of directory [dir] defines [q] as [v]; [dir] is the normal form of a path [D]
    from the top directory. *)
Definition defines (top : string) (docs : string -> option node) (dir : string) (q : string) (k v : node) : Prop :=
  exists D doc ps, docs (Join [top; D]) = Some doc /\ file_dir top D = Some dir /\ has_entries doc ps /\
    (k, v) ∈ ps /\ target_key k /\ q = reg_name dir (n_value k).

Section denotes.
  Context (top : string) (fns : list_fns) (leaf : string -> option (node -> string -> bool))
    (ybool : node -> option bool).
  (** [pre q o]: the name was registered before any YAML was read.  [def dir q k v]: the YAML
      file of directory [dir] has a definition of [q], with key [k] and value [v]. *)
  Context (pre : string -> nat -> Prop) (def : string -> string -> node -> node -> Prop).

  (** The target value [o] is what the node [n], in directory [dir], describes. *)
  Inductive denotes (objs : list shape) : string -> node -> nat -> Prop :=
    | den_name dir n o : untagged n -> n_kind n = KScalar -> has_slash (n_value n) = false ->
        objs !! o = Some (SRef (n_value n)) -> denotes objs dir n o
    | den_top dir n o q : untagged n -> n_kind n = KScalar -> has_slash (n_value n) = true ->
        ref_key top dir (n_value n) = Some q -> ~ far q -> objs !! o = Some (SRef q) -> denotes objs dir n o
    | den_far_pre dir n o q : untagged n -> n_kind n = KScalar -> has_slash (n_value n) = true ->
        ref_key top dir (n_value n) = Some q -> far q -> pre q o -> denotes objs dir n o
    | den_far dir n o q dir' k v : untagged n -> n_kind n = KScalar -> has_slash (n_value n) = true ->
        ref_key top dir (n_value n) = Some q -> far q -> def dir' q k v -> denotes objs dir' v o -> denotes objs dir n o
    | den_all dir n o os : has_tag n "All" -> n_kind n = KSequence -> denote objs dir (n_content n) os ->
        objs !! o = Some (SAll os) -> denotes objs dir n o
    | den_seq dir n o os : has_tag n "Seq" -> n_kind n = KSequence -> denote objs dir (n_content n) os ->
        objs !! o = Some (SSeq os) -> denotes objs dir n o
    | den_deps dir n o post pre t a os : has_tag n "Deps" ->
        (n_kind n = KSequence /\ n_content n = post :: pre) \/
        (n_kind n = KMapping /\ exists fs, decode_struct n = Some fs /\ post = field "Post" fs /\ seq_field (field "Pre" fs) = Some pre) ->
        denotes objs dir post t -> denote objs dir pre os ->
        objs !! a = Some (SAll os) -> objs !! o = Some (SSeq [a; t]) -> denotes objs dir n o
    | den_arg dir n o c cs t args : has_tag n "ArgTarget" -> n_kind n = KSequence -> n_content n = c :: cs ->
        denotes objs dir c t -> YAMLStringListFromNodes fns cs dir = LOk args ->
        objs !! o = Some (SArgs t args) -> denotes objs dir n o
    | den_files dir n o fs t ins outs ac : has_tag n "Files" -> decode_struct n = Some fs ->
        denotes objs dir (field "Target" fs) t ->
        YAMLFileList fns top (field "In" fs) dir = LOk ins -> YAMLFileList fns top (field "Out" fs) dir = LOk outs ->
        bool_field ybool (field "Autoclean" fs) = Some ac ->
        objs !! o = Some (SFiles t ins outs ac) -> denotes objs dir n o
    | den_leaf dir n o t accepts : has_tag n t -> t ∉ ["All"; "Seq"; "Deps"; "ArgTarget"; "Files"] ->
        leaf t = Some accepts -> accepts n dir = true -> objs !! o = Some (SLeaf t n dir) -> denotes objs dir n o
  (** One after the other. *)
  with denote (objs : list shape) : string -> list node -> list nat -> Prop :=
    | den_nil dir : denote objs dir [] []
    | den_cons dir n ns o os : denotes objs dir n o -> denote objs dir ns os -> denote objs dir (n :: ns) (o :: os).
End denotes.

(** ** Definitions that can be decoded without looking into other directories. *)
Section decodable.
  Context (top : string) (fns : list_fns) (leaf : string -> option (node -> string -> bool)) (ybool : node -> option bool).
  Inductive decodable (dir : string) : node -> Prop :=
    | dec_name n q : untagged n -> n_kind n = KScalar -> ref_key top dir (n_value n) = Some q -> ~ far q -> decodable dir n
    | dec_list n t : has_tag n t -> t = "All" \/ t = "Seq" -> n_kind n = KSequence -> Forall (decodable dir) (n_content n) -> decodable dir n
    | dec_deps n : has_tag n "Deps" -> n_kind n = KSequence -> n_content n <> [] -> Forall (decodable dir) (n_content n) -> decodable dir n
    | dec_deps_map n fs ns : has_tag n "Deps" -> decode_struct n = Some fs -> seq_field (field "Pre" fs) = Some ns ->
        decodable dir (field "Post" fs) -> Forall (decodable dir) ns -> decodable dir n
    | dec_arg n c cs args : has_tag n "ArgTarget" -> n_kind n = KSequence -> n_content n = c :: cs ->
        decodable dir c -> YAMLStringListFromNodes fns cs dir = LOk args -> decodable dir n
    | dec_files n fs ins outs ac : has_tag n "Files" -> decode_struct n = Some fs -> decodable dir (field "Target" fs) ->
        YAMLFileList fns top (field "In" fs) dir = LOk ins -> YAMLFileList fns top (field "Out" fs) dir = LOk outs ->
        bool_field ybool (field "Autoclean" fs) = Some ac -> decodable dir n
    | dec_leaf n t accepts : has_tag n t -> t ∉ ["All"; "Seq"; "Deps"; "ArgTarget"; "Files"] ->
        leaf t = Some accepts -> accepts n dir = true -> decodable dir n.
End decodable.

(** ** Documents *)
(** The requirements on a document's entries for directory [dir]. *)
Definition entries_ok (dir : string) (ps : list (node * node)) : Prop :=
  (forall k v, (k, v) ∈ ps -> n_kind k = KScalar /\
    ((n_value k = "_dir" /\ n_kind v = KScalar /\ n_value v = dir) \/ (n_value k <> "_dir" /\ has_slash (n_value k) = false))) /\
  (dir = "" \/ exists k v, (k, v) ∈ ps /\ n_value k = "_dir").
(** The last of the entries that defines [q]. *)
Definition last_def (dir : string) (ps : list (node * node)) (q : string) (k v : node) : Prop :=
  exists before after, ps = before ++ (k, v) :: after /\ target_key k /\ reg_name dir (n_value k) = q /\
    forall k' v', (k', v') ∈ after -> target_key k' -> reg_name dir (n_value k') <> q.
(** None of them does. *)
Definition no_def (dir : string) (ps : list (node * node)) (q : string) : Prop :=
  forall k v, (k, v) ∈ ps -> target_key k -> reg_name dir (n_value k) <> q.

(** ** Mappings that are decoded into a struct. *)
Definition mapping_of (n : node) (ps : list (node * node)) : Prop :=
  n_kind n = KMapping /\ n_content n = flat_map (fun p => [p.1; p.2]) ps /\
  (forall k v, (k, v) ∈ ps -> n_kind k = KScalar) /\ NoDup ((fun p => n_value p.1) <$> ps).
(** The value of the key [name]; the empty node if there is no such key. *)
Inductive value_of (name : string) (ps : list (node * node)) : node -> Prop :=
  | value_here k v : (k, v) ∈ ps -> n_value k = name -> value_of name ps v
  | value_absent v : (forall k v', (k, v') ∈ ps -> n_value k <> name) -> v = Node KNone "" "" "" "" [] -> value_of name ps v.
(** A sequence, null or nothing. *)
Inductive lists (f : node) : list node -> Prop :=
  | lists_absent : n_kind f = KNone -> lists f []
  | lists_null : n_kind f = KScalar -> n_tag f = "!!null" -> lists f []
  | lists_sequence : n_kind f = KSequence -> lists f (n_content f).
