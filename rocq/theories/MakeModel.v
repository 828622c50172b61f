(** Projects defined in YAML (ProjModel.v) as projects with files and a hash database
    (BuildModel.v). *)
From stdpp Require Import base gmap list strings.
From Verif Require Import PathModel FindModel FileHashModel FilesModel ContextModel RunnerModel ChainModel YamlModel BuildModel ProjModel.
Local Open Scope list_scope.

(** The world around a project, as in BuildModel.project: the descriptions of the subtargets of
    Files targets, what commands and other targets do to the files, what happens to the
    database, and an assumption about the files. *)
Record workings := {
  u_desc : obj -> tgt;
  u_cmd : nat -> obj -> nat -> nat -> files_state -> files_state;
  u_other : nat -> nat -> nat -> files_state -> files_state;
  u_db : nat -> label -> nat -> gset hash -> gset hash;
  u_possible : files_state -> Prop;
}.

(** files.go:113-117: the field Target. *)
Definition target_of (objs : list shape) (o : nat) : nat :=
  match objs !! o with Some (SFiles t _ _ _) => t | _ => 0 end.

(** The project: the Files targets are those among the target values (files.go:95-111). *)
Definition yaml_build (U : workings) (addr : nat -> nat) (objs : list shape) (leafp : nat -> ctx -> prog) : project := {|
  p_world := project_world addr objs leafp;
  p_rules := files_of objs;
  p_sub := fun f => target_of objs (f_id f);
  p_desc := fun f => u_desc U (f_id f);
  p_cmd := u_cmd U;
  p_other := u_other U;
  p_db := u_db U;
  p_possible := u_possible U;
|}.
