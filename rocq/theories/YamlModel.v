(** Model of yaml.go: decoding targets and lists from YAML nodes, reading YAML files.  Also the
    decoders of All, Seq, Deps, ArgTarget and Files (all.go, seq.go, deps.go, argtarg.go,
    files.go), the ones that decode nested targets; the other decoders are leaves.

    Parsing YAML text is the library's work: a file is its document node. *)
From stdpp Require Import base gmap list strings.
From Coq Require Import Ascii.
From Verif Require Import PathModel.
Local Open Scope list_scope.

(** yaml.Node.  [KNone] is the zero node, of an absent field. *)
Inductive kind := KNone | KDocument | KSequence | KMapping | KScalar | KAlias.
#[global] Instance kind_eq_dec : EqDecision kind. Proof. solve_decision. Defined.
Inductive node := Node (k : kind) (tag value head line : string) (content : list node).
Definition n_kind (n : node) : kind := let 'Node k _ _ _ _ _ := n in k.
Definition n_tag (n : node) : string := let 'Node _ t _ _ _ _ := n in t.
Definition n_value (n : node) : string := let 'Node _ _ v _ _ _ := n in v.
Definition n_head (n : node) : string := let 'Node _ _ _ h _ _ := n in h.
Definition n_line (n : node) : string := let 'Node _ _ _ _ l _ := n in l.
Definition n_content (n : node) : list node := let 'Node _ _ _ _ _ c := n in c.
Definition zero_node : node := Node KNone "" "" "" "" [].

(** yaml.go:391-396: strings.TrimPrefix(tag, "!") unless it begins with "!!". *)
Definition normalizeTag (tag : string) : string :=
  match tag with
  | String c s =>
      if decide (c = "!"%char) then
        match s with
        | String d _ => if decide (d = "!"%char) then "" else s
        | EmptyString => ""
        end
      else tag
  | EmptyString => ""
  end.

(** strings.TrimLeft(s, "# ") *)
Fixpoint trim_doc (s : string) : string :=
  match s with
  | String c s' => if decide (c = "#"%char \/ c = " "%char) then trim_doc s' else s
  | EmptyString => ""
  end.
(** yaml.go:188-195 *)
Definition key_doc (k : node) : string := trim_doc (if decide (n_head k = "") then n_line k else n_head k).

(** ** String lists *)
Inductive lerr := BadKind (got want : kind) | UnknownListTag (tag : string) | OtherErr (e : nat).
Inductive lres := LOk (l : list string) | LErr (e : lerr).
(** The registry of string-list functions (yaml.go:28, registry.go), with the controller and
    the file system they use already applied. *)
Definition list_fns := string -> option (node -> string -> lres).

(** yaml.go:331-359 *)
Fixpoint YAMLStringListFromNodes (fns : list_fns) (nodes : list node) (dir : string) : lres :=
  match nodes with
  | [] => LOk []
  | n :: nodes =>
      let tag := normalizeTag (n_tag n) in
      let rest l := match YAMLStringListFromNodes fns nodes dir with LOk l' => LOk (l ++ l') | e => e end in
      if decide (tag = "" /\ n_kind n = KScalar) then rest [n_value n]
      else if decide (tag = "") then LErr (BadKind (n_kind n) KScalar)
      else match fns tag with
           | None => LErr (UnknownListTag tag)
           | Some fn => match fn n dir with LErr e => LErr e | LOk l => rest l end
           end
  end.
(** yaml.go:285-305 *)
Definition YAMLStringList (fns : list_fns) (n : node) (dir : string) : lres :=
  if decide (n_kind n = KNone) then LOk []
  else
    let tag := normalizeTag (n_tag n) in
    if decide (tag <> "") then
      match fns tag with None => LErr (UnknownListTag tag) | Some fn => fn n dir end
    else if decide (n_kind n <> KSequence) then LErr (BadKind (n_kind n) KSequence)
    else YAMLStringListFromNodes fns (n_content n) dir.
(** yaml.go:368-374 *)
Definition YAMLFileList (fns : list_fns) (top : string) (n : node) (dir : string) : lres :=
  match YAMLStringList fns n dir with
  | LOk l => LOk ((fun s => JoinPath top [dir; s]) <$> l)
  | e => e
  end.
(** yaml.go:383-389 *)
Definition YAMLFileListFromNodes (fns : list_fns) (top : string) (nodes : list node) (dir : string) : lres :=
  match YAMLStringListFromNodes fns nodes dir with
  | LOk l => LOk ((fun s => JoinPath top [dir; s]) <$> l)
  | e => e
  end.

(** files.go:357-384.  [glob root pattern]: fs.Glob(os.DirFS(root), pattern), None for a bad
    pattern. *)
Fixpoint glob_loop (glob : string -> string -> option (list string)) (root : string) (patterns : list string) : lres :=
  match patterns with
  | [] => LOk []
  | p :: patterns =>
      match glob root p with
      | None => LErr (OtherErr 0)
      | Some ms => match glob_loop glob root patterns with LOk l => LOk (ms ++ l) | e => e end
      end
  end.
Definition globDecoder (fns : list_fns) (glob : string -> string -> option (list string)) (top : string) (n : node) (dir : string) : lres :=
  if decide (n_kind n <> KSequence) then LErr (BadKind (n_kind n) KSequence)
  else match YAMLStringListFromNodes fns (n_content n) dir with
       | LErr e => LErr e
       | LOk patterns =>
           let dir := JoinPath top [dir] in
           glob_loop glob (if decide (dir = "") then "." else dir) patterns
       end.

(** ** Decoding a mapping into a struct, as far as used here: keys are scalars, no key occurs
    twice, unknown keys are ignored, the field is a yaml.Node.  Simplification: merge keys
    are not modelled. *)
Fixpoint pairs (l : list node) : option (list (node * node)) :=
  match l with
  | [] => Some []
  | k :: v :: l => match pairs l with Some ps => Some ((k, v) :: ps) | None => None end
  | [_] => None
  end.
Definition decode_struct (n : node) : option (list (string * node)) :=
  match n_kind n, pairs (n_content n) with
  | KMapping, Some ps =>
      if decide (Forall (fun p => n_kind p.1 = KScalar) ps /\ NoDup ((fun p => n_value p.1) <$> ps))
      then Some ((fun p => (n_value p.1, p.2)) <$> ps) else None
  | _, _ => None
  end.
Fixpoint field (name : string) (fs : list (string * node)) : node :=
  match fs with
  | [] => zero_node
  | (k, v) :: fs => if decide (k = name) then v else field name fs
  end.

(** ** Target values.  Each decoding makes new objects; an object refers to others by number. *)
Inductive shape :=
  | SRef (name : string)                                          (* yaml.go:92-96 *)
  | SAll (ts : list nat) | SSeq (ts : list nat)
  | SArgs (t : nat) (args : list string)
  | SFiles (t : nat) (ins outs : list string) (autoclean : bool)
  | SLeaf (tag : string) (n : node) (dir : string).               (* whatever another decoder makes *)
(** The objects made, and the registry: name to doc string and target. *)
Record ystate := { y_objs : list shape; y_reg : gmap string (string * nat) }.
Definition alloc (sh : shape) (s : ystate) : ystate * nat :=
  ({| y_objs := y_objs s ++ [sh]; y_reg := y_reg s |}, length (y_objs s)).
(** register.go:11-26, by name (see RegistryModel.v for the rest). *)
Definition register (name doc : string) (o : nat) (s : ystate) : ystate :=
  {| y_objs := y_objs s; y_reg := <[name := (doc, o)]> (y_reg s) |}.

(** Errors keep the changes made so far; [ne]: does errors.Is say of the error that it is
    fs.ErrNotExist?  (All the wrapping on the way keeps that.) *)
Inductive res (A : Type) := ROk (s : ystate) (a : A) | RErr (s : ystate) (ne : bool) | ROut.
Arguments ROk {A}. Arguments RErr {A}. Arguments ROut {A}.
Definition bind {A B} (r : res A) (f : ystate -> A -> res B) : res B :=
  match r with ROk s a => f s a | RErr s ne => RErr s ne | ROut => ROut end.
Definition new (sh : shape) (s : ystate) : res nat := let '(s, o) := alloc sh s in ROk s o.
(** Which errors are fs.ErrNotExist: those of opening the YAML file of a directory, those of
    string-list functions, those of other decoders. *)
Record notexist := { ne_file : string -> bool; ne_list : nat -> bool; ne_leaf : string -> node -> string -> bool }.
Definition ne_lerr (ne : notexist) (e : lerr) : bool := match e with OtherErr k => ne_list ne k | _ => false end.
Definition lift {A} (ne : notexist) (r : lres) (s : ystate) (f : list string -> res A) : res A :=
  match r with LOk l => f l | LErr e => RErr s (ne_lerr ne e) end.

Section yaml.
  (** The controller's top directory, the string-list functions, which other tags there are
      and whether their decoder accepts a node, boolean fields, and what opening and parsing
      the YAML file of a directory gives (None: any failure; [ne] tells which). *)
  Context (top : string) (fns : list_fns) (leaf : string -> option (node -> string -> bool))
    (ybool : node -> option bool) (docs : string -> option node) (ne : notexist).

  Notation decoder := (node -> string -> ystate -> res nat).

  (** slices.Mapx of YAMLTarget: stops at the first error. *)
  Fixpoint map_targets (yt : decoder) (ns : list node) (dir : string) (s : ystate) : res (list nat) :=
    match ns with
    | [] => ROk s []
    | n :: ns => bind (yt n dir s) (fun s o => bind (map_targets yt ns dir s) (fun s os => ROk s (o :: os)))
    end.

  (** deps.go:45-47 *)
  Definition mk_deps (t : nat) (pre : list nat) (s : ystate) : res nat :=
    bind (new (SAll pre) s) (fun s a => new (SSeq [a; t]) s).

  (** A field of type []yaml.Node: absent, null, or a sequence. *)
  Definition seq_field (n : node) : option (list node) :=
    if decide (n_kind n = KNone \/ (n_kind n = KScalar /\ n_tag n = "!!null")) then Some []
    else if decide (n_kind n = KSequence) then Some (n_content n) else None.
  (** A field of type bool *)
  Definition bool_field (n : node) : option bool :=
    if decide (n_kind n = KNone) then Some false else ybool n.

  (** The decoders; [yt] is Controller.YAMLTarget. *)
  Definition decode_tag (yt : decoder) (tag : string) (n : node) (dir : string) (s : ystate) : res nat :=
    if decide (tag = "All") then                                  (* all.go:41-53 *)
      if decide (n_kind n <> KSequence) then RErr s false
      else bind (map_targets yt (n_content n) dir s) (fun s ts => new (SAll ts) s)
    else if decide (tag = "Seq") then                             (* seq.go:46-61 *)
      if decide (n_kind n <> KSequence) then RErr s false
      else bind (map_targets yt (n_content n) dir s) (fun s ts => new (SSeq ts) s)
    else if decide (tag = "Deps") then                            (* deps.go:48-91 *)
      match n_kind n with
      | KSequence =>
          match n_content n with
          | [] => RErr s false
          | c :: cs => bind (yt c dir s) (fun s t => bind (map_targets yt cs dir s) (fun s pre => mk_deps t pre s))
          end
      | KMapping =>
          match decode_struct n with
          | None => RErr s false
          | Some fs =>
              match seq_field (field "Pre" fs) with
              | None => RErr s false
              | Some pre => bind (yt (field "Post" fs) dir s) (fun s t => bind (map_targets yt pre dir s) (fun s pre => mk_deps t pre s))
              end
          end
      | _ => RErr s false
      end
    else if decide (tag = "ArgTarget") then                       (* argtarg.go:51-69 *)
      if decide (n_kind n <> KSequence) then RErr s false
      else match n_content n with
           | [] => RErr s false
           | c :: cs => bind (yt c dir s) (fun s t => lift ne (YAMLStringListFromNodes fns cs dir) s (fun args => new (SArgs t args) s))
           end
    else if decide (tag = "Files") then                           (* files.go:323-355 *)
      if decide (n_kind n <> KMapping) then RErr s false
      else match decode_struct n with
           | None => RErr s false
           | Some fs =>
               match bool_field (field "Autoclean" fs) with
               | None => RErr s false
               | Some ac =>
                   bind (yt (field "Target" fs) dir s) (fun s t =>
                   lift ne (YAMLFileList fns top (field "In" fs) dir) s (fun ins =>
                   lift ne (YAMLFileList fns top (field "Out" fs) dir) s (fun outs =>
                   new (SFiles t ins outs ac) s)))
               end
           end
    else match leaf tag with                                      (* yaml.go:48-51 *)
         | None => RErr s false
         | Some accepts => if accepts n dir then new (SLeaf tag n dir) s else RErr s (ne_leaf ne tag n dir)
         end.

  (** yaml.go:180-230, the loop *)
  Fixpoint entries_loop (yt : decoder) (dir : string) (ps : list (node * node)) (saw : bool) (s : ystate) : res unit :=
    match ps with
    | [] => if decide (dir <> "" /\ saw = false) then RErr s false else ROk s tt   (* yaml.go:232-236 *)
    | (k, v) :: ps =>
        if decide (n_kind k <> KScalar) then RErr s false
        else if decide (n_value k = "_dir") then
          if decide (n_kind v <> KScalar) then RErr s false
          else if decide (n_value v <> dir) then RErr s false
          else entries_loop yt dir ps true s
        else if has_slash (n_value k) then RErr s false
        else bind (yt v dir s) (fun s o =>
             entries_loop yt dir ps saw (register (reg_name dir (n_value k)) (key_doc k) o s))
    end.
  (** yaml.go:155-237 *)
  Definition ReadYAML (yt : decoder) (doc : node) (dir : string) (s : ystate) : res unit :=
    if decide (n_kind doc <> KDocument) then RErr s false
    else match n_content doc with
         | [m] =>
             if decide (n_kind m <> KMapping) then RErr s false
             else match pairs (n_content m) with
                  | None => RErr s false
                  | Some ps => entries_loop yt dir ps false s
                  end
         | _ => RErr s false
         end.
  (** yaml.go:243-261 *)
  Definition ReadYAMLFile (yt : decoder) (dir : string) (s : ystate) : res unit :=
    match docs (Join [top; dir]) with
    | None => RErr s (ne_file ne (Join [top; dir]))
    | Some doc =>
        match file_dir top dir with
        | None => RErr s false
        | Some rel => ReadYAML yt doc rel s
        end
    end.

  (** yaml.go:46-90 *)
  Fixpoint YAMLTarget (fuel : nat) (n : node) (dir : string) (s : ystate) : res nat :=
    match fuel with
    | 0 => ROut
    | S fuel =>
        let tag := normalizeTag (n_tag n) in
        if decide (tag <> "") then decode_tag (YAMLTarget fuel) tag n dir s
        else if decide (n_kind n <> KScalar) then RErr s false
        else if has_slash (n_value n) then
          match RelPath top (JoinPath top [dir; n_value n]) with
          | None => RErr s false
          | Some qname =>
              if decide (Dir qname <> ".") then
                match y_reg s !! qname with
                | Some (_, o) => ROk s o
                | None =>
                    bind (ReadYAMLFile (YAMLTarget fuel) (Dir qname) s) (fun s _ =>
                      match y_reg s !! qname with
                      | Some (_, o) => ROk s o
                      | None => RErr s false
                      end)
                end
              else new (SRef qname) s
          end
        else new (SRef (n_value n)) s
    end.
End yaml.
