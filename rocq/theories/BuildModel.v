(** Builds of whole projects: many Files targets, their commands, the files and the hash
    database, run by the controller (RunnerModel.v, ChainModel.v) in one process. *)
From stdpp Require Import base gmap list strings.
From Verif Require Import PathModel FindModel FileHashModel FilesModel ContextModel RunnerModel ChainModel.
Local Open Scope list_scope.

(** What the interactions of target bodies depend on and change; [e_time] counts the
    interactions that may change something. *)
Record env := { e_fs : files_state; e_db : gset hash; e_time : nat }.

(** A project: the targets of a program ([p_world]); the Files targets that have been
    declared, in order, with their subtargets (the field Target, files.go:114) and the JSON
    descriptions of those, which do not change during the session (see C17 for those that
    do); and what the world does, which may depend on the time [t], so that commands need not
    do the same each time.  [p_cmd t f n r] is the change of the files when a step of
    kind [n] of the command of the Files target [f] is answered [r]; [p_other t n r] when
    another target does something; [p_db t l r] is the change of the database when operation
    [l] is answered [r].  [p_possible] is an assumption about the files (such as that names of
    directory entries contain no slash); BuildSpec.v requires that nothing in the build breaks
    it. *)
Record project := {
  p_world : world;
  p_rules : list files;
  p_sub : files -> obj;
  p_desc : files -> tgt;
  p_cmd : nat -> obj -> nat -> nat -> files_state -> files_state;
  p_other : nat -> nat -> nat -> files_state -> files_state;
  p_db : nat -> label -> nat -> gset hash -> gset hash;
  p_possible : files_state -> Prop;
}.

(** files.go:113-117 *)
Definition rule_of (p : project) (f : files) : rule :=
  {| r_tgt := p_desc p f; r_in := f_in f; r_out := f_out f |}.

Section model.
  (** As in FilesModel.v. *)
  Context (hashf : string -> string) (H : json -> hash).

  (** The effect of an interaction. *)
  Definition next (p : project) (l : label) (r : nat) (σ : env) : env :=
    match l with
    | OpHash _ _ => σ
    | OpHas _ | OpAdd _ => {| e_fs := e_fs σ; e_db := p_db p (e_time σ) l r (e_db σ); e_time := S (e_time σ) |}
    | OpCmd f n => {| e_fs := p_cmd p (e_time σ) f n r (e_fs σ); e_db := e_db σ; e_time := S (e_time σ) |}
    | OpOther n => {| e_fs := p_other p (e_time σ) n r (e_fs σ); e_db := e_db σ; e_time := S (e_time σ) |}
    end.

  (** The answers that are possible.  computeHash (files.go:167-195) is one step; when it
      panics or never returns there is no answer.  Has (files.go:135) says whether the hash
      is in the database, or fails.  Commands may do anything. *)
  Definition valid (p : project) (l : label) (r : nat) (σ : env) : Prop :=
    match l with
    | OpHash _ o =>
        forall f, f ∈ p_rules p -> f_id f = o ->
          exists fuel,
            match computeHash hashf H fuel (e_fs σ) (rule_of p f) with
            | HOk h => r = S h
            | HErr _ => r = 0
            | _ => False
            end
    | OpHas h => (r = 0 -> h ∉ e_db σ) /\ (r = 1 -> h ∈ e_db σ)
    | _ => True
    end.

  Definition after_event (p : project) (σ : env) (ev : event) : env :=
    match ev with EvEff _ l r => next p l r σ | _ => σ end.
  (** Files and database after the events [tr]. *)
  Definition after (p : project) (σ : env) (tr : list event) : env := fold_left (after_event p) tr σ.
End model.
