(** Vocabulary for running what YAML files define. *)
From stdpp Require Import base gmap list strings relations.
From Verif Require Import PathModel FindModel ContextModel RunnerModel RunnerSpec RunnerSpec2 YamlModel YamlSpec.
Local Open Scope list_scope.

(** Reading the project file with nothing registered before (a project without Go package)
    leaves [s], whether or not it reports an error. *)
Definition loads (top : string) (fns : list_fns) (leaf : string -> option (node -> string -> bool))
    (ybool : node -> option bool) (docs : string -> option node) (ne : notexist) (s : ystate) : Prop :=
  exists fuel, let r := ReadYAMLFile top docs ne (YAMLTarget top fns leaf ybool docs ne fuel) ""
                          {| y_objs := []; y_reg := ∅ |} in
    r = ROk s tt \/ exists e, r = RErr s e.

(** What the objects are for: no name registered before, definitions in YAML files. *)
Definition means top fns leaf ybool docs (objs : list shape) : string -> node -> nat -> Prop :=
  denotes top fns leaf ybool (fun _ _ => False) (defines top docs) objs.

(** No name is defined twice. *)
Definition defined_once (top : string) (docs : string -> option node) : Prop :=
  forall q dir1 k1 v1 dir2 k2 v2, defines top docs dir1 q k1 v1 -> defines top docs dir2 q k2 v2 -> dir1 = dir2 /\ v1 = v2.

(** The executions with a given registry: entered first, then any calls, under any schedule. *)
Definition executes (w : world) (reg : gmap string obj) (tr : list event) : Prop :=
  trace w tr /\ registered_first tr /\ forall n o, EvRegister n o ∈ tr <-> reg !! n = Some o.

(** The target [t] is [o], or an ArgTarget made of [o] that is not among the targets [objs] (as
    the command line NAME -flag ... makes; [objs']: all targets). *)
Definition asks_for (objs objs' : list shape) (t : tref) (o : nat) : Prop :=
  t = TPtr o \/ exists (x : nat) args, t = TPtr x /\ length objs <= x /\ objs' !! x = Some (SArgs o args).
(** Clients ask only for registered targets, possibly with arguments (as the command line does,
    ParseArgs). *)
Definition clients_ask_registered (s : ystate) (objs' : list shape) (tr : list event) : Prop :=
  forall c cx ts t, EvCall c None cx ts ∈ tr -> t ∈ ts -> exists q doc o, asks_for (y_objs s) objs' t o /\ y_reg s !! q = Some (doc, o).

(** The body of target [o] ended without error, or with an error. *)
Definition ended_well (o : obj) (tr : list event) : Prop := exists g a, EvEnd g a o None ∈ tr.
Definition ended_badly (o : obj) (tr : list event) : Prop := exists g a e, EvEnd g a o (Some e) ∈ tr.

Definition tagged (n : node) : Prop := exists t, has_tag n t.
Definition reference (top dir : string) (n : node) (q : string) : Prop :=
  untagged n /\ n_kind n = KScalar /\ ref_key top dir (n_value n) = Some q.

(** [m] is, or occurs in a target position of, [n]. *)
Inductive inside : node -> node -> Prop :=
  | in_self n : inside n n
  | in_part n c m : part n c -> inside c m -> inside n m.

Section rules.
  Context (top : string) (fns : list_fns) (docs : string -> option node)
    (lf : string -> node -> string -> option (list string * list string)).
  (** [n] in directory [dir] is a rule for making files: a !Files, or another of which [lf]
      says so. *)
  Definition rule (dir : string) (n : node) (ins outs : list string) : Prop :=
    (exists fs, has_tag n "Files" /\ decode_struct n = Some fs /\
       YAMLFileList fns top (field "In" fs) dir = LOk ins /\ YAMLFileList fns top (field "Out" fs) dir = LOk outs) \/
    (exists t, has_tag n t /\ t ∉ ["All"; "Seq"; "Deps"; "ArgTarget"; "Files"] /\ lf t n dir = Some (ins, outs)).
  (** [n] occurs in the definition of [q]. *)
  Definition written (q dir : string) (n : node) : Prop :=
    exists k v, defines top docs dir q k v /\ inside v n.
  (** An input is, or is in a directory that is, an output. *)
  Definition makes (outs ins : list string) : Prop :=
    exists i o k, i ∈ ins /\ o ∈ outs /\ o = Nat.iter k Dir i.
  (** The rule [n] of directory [dir] is the only one written that has the file [i] among its outputs. *)
  Definition only_maker (i : string) (dir : string) (n : node) : Prop :=
    (exists ins outs, rule dir n ins outs /\ i ∈ outs) /\
    forall q' dir' n' ins' outs', written q' dir' n' -> rule dir' n' ins' outs' -> i ∈ outs' -> dir' = dir /\ n' = n.

  (** If the description [n] in the YAML file of directory [dir] is to be carried out, [m] in
      that of directory [d] must be: a part, or what a name stands for, or the rule that makes
      an input; and, if [all] (fab -f), the Target of a !Files, which otherwise may be up to
      date.  [known]: the names registered. *)
  Inductive required (all : bool) (known : string -> Prop) : string -> node -> string -> node -> Prop :=
    | req_self dir n : required all known dir n dir n
    | req_part dir n c d m : part n c -> all = true \/ ~ has_tag n "Files" ->
        required all known dir c d m -> required all known dir n d m
    | req_name dir n q dir' k v d m : reference top dir n q -> defines top docs dir' q k v ->
        required all known dir' v d m -> required all known dir n d m
    | req_rule dir n ins outs i q' dir' n' d m : rule dir n ins outs -> i ∈ ins ->
        known q' -> written q' dir' n' -> only_maker i dir' n' -> required all known dir' n' d m -> required all known dir n d m.

  (** What running [n] may run: its parts, what its names stand for, and the rules that make its
      input files. *)
  Inductive uses : string -> node -> string -> node -> Prop :=
    | uses_part dir n c : part n c -> uses dir n dir c
    | uses_name dir n q dir' k v : reference top dir n q -> defines top docs dir' q k v -> uses dir n dir' v
    | uses_rule dir n ins outs q' dir' n' ins' outs' : rule dir n ins outs -> written q' dir' n' ->
        rule dir' n' ins' outs' -> makes outs' ins -> uses dir n dir' n'.
  Inductive involved : string -> node -> string -> node -> Prop :=
    | inv_self dir n : involved dir n dir n
    | inv_step dir n dir' n' d m : uses dir n dir' n' -> involved dir' n' d m -> involved dir n d m.
  (** What runs for [n] with the arguments [a] passes on the arguments [b]. *)
  Definition gives (dir : string) (n : node) (a b : list string) : Prop :=
    (~ has_tag n "ArgTarget" /\ b = a) \/
    (has_tag n "ArgTarget" /\ exists c cs, n_content n = c :: cs /\ YAMLStringListFromNodes fns cs dir = LOk b).
  (** Running [n] with the arguments [a] may run [m] with the arguments [b]. *)
  Inductive involved_with : string -> node -> list string -> string -> node -> list string -> Prop :=
    | iw_self dir n a : involved_with dir n a dir n a
    | iw_step dir n a dir' n' b d m c : uses dir n dir' n' -> gives dir n a b ->
        involved_with dir' n' b d m c -> involved_with dir n a d m c.
End rules.

(** Two contexts agree on everything but the arguments. *)
Definition same_settings (cx cx' : ctx) : Prop :=
  GetVerbose cx' = GetVerbose cx /\ GetForce cx' = GetForce cx /\ GetDryRun cx' = GetDryRun cx /\ GetHashDB cx' = GetHashDB cx.

(** The target value [x] belongs to the node [n] of directory [dir]: it is what [n] describes,
    or the group of the prerequisites of a !Deps, or ([objs'] is [objs] with the contents of
    other decoders' targets filled in) inside what another decoder made of [n]. *)
Definition belongs top fns leaf ybool docs (objs objs' : list shape) (dir : string) (n : node) (x : nat) : Prop :=
  means top fns leaf ybool docs objs dir n x \/
  (exists o t, means top fns leaf ybool docs objs dir n o /\ has_tag n "Deps" /\ objs !! o = Some (SSeq [x; t])) \/
  (exists o t, means top fns leaf ybool docs objs dir n o /\ has_tag n t /\ objs !! o = Some (SLeaf t n dir) /\ length objs <= x /\
    ((exists ts, objs' !! o = Some (SSeq ts) /\ x ∈ ts) \/ exists ins outs ac, objs' !! o = Some (SFiles x ins outs ac))).

(** Target [x] is the [i]th part of target [p]. *)
Definition slot (objs : list shape) (p i x : nat) : Prop :=
  match objs !! p with
  | Some (SAll ts) | Some (SSeq ts) => ts !! i = Some x
  | Some (SArgs t _) | Some (SFiles t _ _ _) => i = 0 /\ x = t
  | _ => False
  end.
(** ... and nothing else has it: no other target, no name. *)
Definition only_in (s : ystate) (p i x : nat) : Prop :=
  slot (y_objs s) p i x /\ (forall p' i', slot (y_objs s) p' i' x -> p' = p /\ i' = i) /\
  x < length (y_objs s) /\ forall q d, y_reg s !! q <> Some (d, x).

(** The last part of a !Deps and the others. *)
Definition deps_parts (n post : node) (pre : list node) : Prop :=
  (n_kind n = KSequence /\ n_content n = post :: pre) \/
  (n_kind n = KMapping /\ exists fs, decode_struct n = Some fs /\ post = field "Post" fs /\ seq_field (field "Pre" fs) = Some pre).

(** [o] being what [n] describes: the part [c] of [n] has become [x], the [j]th part of the
    target [p], which is [o] itself, or the group of the prerequisites of a !Deps. *)
Inductive placed (objs : list shape) (n : node) (o : nat) : node -> nat -> nat -> nat -> Prop :=
  | placed_list j c x : has_tag n "All" \/ has_tag n "Seq" -> n_content n !! j = Some c -> slot objs o j x ->
      placed objs n o c o j x
  | placed_post post pre x : has_tag n "Deps" -> deps_parts n post pre -> slot objs o 1 x -> placed objs n o post o 1 x
  | placed_pre post pre a j c x : has_tag n "Deps" -> deps_parts n post pre -> slot objs o 0 a -> pre !! j = Some c ->
      slot objs a j x -> placed objs n o c a j x
  | placed_arg c cs x : has_tag n "ArgTarget" -> n_content n = c :: cs -> slot objs o 0 x -> placed objs n o c o 0 x
  | placed_files fs x : has_tag n "Files" -> decode_struct n = Some fs -> slot objs o 0 x ->
      placed objs n o (field "Target" fs) o 0 x.
(** Target [o] is what [n] describes, and the parts written in place (not as names) are its own,
    at every depth; so is the group of the prerequisites of a !Deps. *)
Inductive laid top fns leaf ybool docs (s : ystate) (dir : string) : node -> nat -> Prop :=
  | laid_intro n o :
      means top fns leaf ybool docs (y_objs s) dir n o ->
      (forall c p j x, placed (y_objs s) n o c p j x -> tagged c -> only_in s p j x) ->
      (forall c p j x, placed (y_objs s) n o c p j x -> tagged c -> laid top fns leaf ybool docs s dir c x) ->
      (forall a, has_tag n "Deps" -> slot (y_objs s) o 0 a -> only_in s o 0 a) ->
      laid top fns leaf ybool docs s dir n o.

(** [x] is a Files target. *)
Definition is_rule (objs : list shape) (x : nat) : Prop := exists t ins outs ac, objs !! x = Some (SFiles t ins outs ac).
(** [x] is a part of [p] written in place, and not a rule (a rule may also be run by whoever
    needs its outputs). *)
Definition own_part (s : ystate) (objs' : list shape) (p x : nat) : Prop := exists i, only_in s p i x /\ ~ is_rule objs' x.
(** [x] is [p], or written in place within [p], at any depth. *)
Definition in_place (s : ystate) (objs' : list shape) : nat -> nat -> Prop := rtc (own_part s objs').

(** [y] is the target for [m], which is written in place within [n], for which [o] is the target;
    the targets on the way, and [y], satisfy [good]. *)
Inductive spot (objs : list shape) (good : nat -> Prop) : node -> nat -> node -> nat -> Prop :=
  | spot_self n o : spot objs good n o n o
  | spot_step n o c p j x m y : placed objs n o c p j x -> tagged c -> good x -> spot objs good c x m y -> spot objs good n o m y.
