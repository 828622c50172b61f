(** From YAML files to running targets: the target values that decoding made (YamlModel.v) as
    targets of the controller (RunnerModel.v). *)
From stdpp Require Import base gmap list strings.
From Verif Require Import PathModel FindModel ContextModel RunnerModel ChainModel YamlModel.
Local Open Scope list_scope.

(** Target values are numbered by the order in which they were made; the number is the identity
    of the pointer.  The Files targets among them, in that order, which is the order in which
    they enter the registry of outputs (files.go:95-111). *)
Definition as_files (o : nat) (sh : shape) : option files :=
  match sh with
  | SFiles _ ins outs _ => Some {| f_id := o; f_in := ins; f_out := outs |}
  | _ => None
  end.
Definition files_of (objs : list shape) : list files := omap id (imap as_files objs).

(** The methods Run: all.go:32-34, seq.go:33-40, argtarg.go:41-44, files.go:119-160 (the Run of
    a name reference is RunnerModel.deferred_prog).  [leafp]: the other targets. *)
Definition target_prog (objs : list shape) (leafp : nat -> ctx -> prog) (o : nat) (cx : ctx) : prog :=
  match objs !! o with
  | Some (SAll ts) => all_prog (TPtr <$> ts) cx
  | Some (SSeq ts) => seq_prog (TPtr <$> ts) cx
  | Some (SArgs t args) => arg_prog (TPtr t) args cx
  | Some (SFiles t ins outs _) =>
      files_prog (declare_all (files_of objs)) {| f_id := o; f_in := ins; f_out := outs |} (TPtr t) cx
  | _ => leafp o cx
  end.
(** yaml.go:92-96 *)
Definition target_name (objs : list shape) (o : nat) : option string :=
  match objs !! o with Some (SRef name) => Some name | _ => None end.
Definition project_world (addr : nat -> nat) (objs : list shape) (leafp : nat -> ctx -> prog) : world :=
  {| w_addr := addr; w_deferred := target_name objs; w_body := target_prog objs leafp |}.

(** The targets inside a target. *)
Definition children (objs : list shape) (o : nat) : list nat :=
  match objs !! o with
  | Some (SAll ts) | Some (SSeq ts) => ts
  | Some (SArgs t _) | Some (SFiles t _ _ _) => [t]
  | _ => []
  end.

(** Targets made by the decoders that YamlModel.v leaves open: a !Command is one
    target or (command.go:403-410) a Seq of new ones; !go.Binary, !proto.Proto and !ts.Decls
    are Files targets with a new subtarget (golang/go.go:55, proto/proto.go:56, ts/tsdecls.go:49).
    [expands lf reg objs objs']: [objs'] has the targets of [objs] with the contents of such
    targets filled in, their own subtargets following at the end; among these may also be
    ArgTargets that ParseArgs makes of registered targets (controller.go:88-91).  [lf tag n dir]: the
    input and output files of the Files target that the decoder for [tag] makes of [n], if it
    makes one. *)
Definition expands (lf : string -> node -> string -> option (list string * list string))
    (reg : gmap string nat) (objs objs' : list shape) : Prop :=
  let new t := length objs <= t /\ exists tag n d, objs' !! t = Some (SLeaf tag n d) in
  length objs <= length objs' /\
  (forall o sh, objs !! o = Some sh -> (forall t n d, sh <> SLeaf t n d) -> objs' !! o = Some sh) /\
  (forall o t n d, objs !! o = Some (SLeaf t n d) ->
     (objs' !! o = Some (SLeaf t n d) /\ lf t n d = None) \/
     (exists ts, objs' !! o = Some (SSeq ts) /\ lf t n d = None /\ Forall new ts /\ NoDup ts) \/
     (exists t' ins outs ac, objs' !! o = Some (SFiles t' ins outs ac) /\ lf t n d = Some (ins, outs) /\ new t')) /\
  (forall o sh, length objs <= o -> objs' !! o = Some sh ->
     (exists t n d, sh = SLeaf t n d) \/ (exists q u args, reg !! q = Some u /\ sh = SArgs u args)) /\
  (forall o1 o2 t, new t -> t ∈ children objs' o1 -> t ∈ children objs' o2 -> o1 = o2).
