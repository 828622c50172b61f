(** Vocabulary for the fab command bringing the files of a YAML project up to date. *)
From stdpp Require Import base gmap list strings relations.
From Verif Require Import TopDirModel DriverModel RegistryModel.
From Verif Require Import PathModel FindModel FileHashModel FileHashSpec FilesModel FilesSpec.
From Verif Require Import ContextModel RunnerModel RunnerSpec RunnerSpec2 ChainModel YamlModel YamlSpec.
From Verif Require Import MainModel MainSpec ProjModel ProjSpec EndSpec BuildModel BuildSpec MakeModel.
Local Open Scope list_scope.

(** The Target of every !Files is written in place (not as a name), and is not a rule itself.
    (For !go.Binary and the like this is so by what the decoders do, see ProjModel.expands.) *)
Definition targets_in_place (top : string) (fns : list_fns) (docs : string -> option node)
    (lf : string -> node -> string -> option (list string * list string)) : Prop :=
  forall q dir n fs, written top docs q dir n -> has_tag n "Files" -> decode_struct n = Some fs ->
    tagged (field "Target" fs) /\ forall ins outs, ~ rule top fns lf dir (field "Target" fs) ins outs.

(** [x] is a part of [p] and of nothing else: it is no rule, no other target has it, no name. *)
Definition sole_part (reg : gmap string nat) (objs : list shape) (p x : nat) : Prop :=
  x ∈ children objs p /\ (forall p', x ∈ children objs p' -> p' = p) /\ ~ is_rule objs x /\ forall q, reg !! q <> Some x.
(** [x] is part of the rule [i] alone: its Target, or a part of that, at any depth. *)
Definition rule_part (reg : gmap string nat) (objs : list shape) (i x : nat) : Prop :=
  is_rule objs i /\ tc (sole_part reg objs) i x.

(** What the targets other than All, Seq, ArgTarget, Files and names do: those that are part of a rule
    run the command of that rule; the others do something else. *)
Definition commands_belong (reg : gmap string nat) (objs : list shape) (leafp : nat -> ctx -> prog) : Prop :=
  forall o cx, allowed (fun _ => False)
    (fun l => (exists i n, rule_part reg objs i o /\ l = OpCmd i n) \/ exists n, l = OpOther n) (leafp o cx).

(** No name that stood for nothing when it was read (and so is looked up whenever it is run, see
    C06) stands for a rule. *)
Definition no_early_names (reg : gmap string nat) (objs : list shape) : Prop :=
  forall x q o, objs !! x = Some (SRef q) -> reg !! q = Some o -> ~ is_rule objs o.

(** Two processes find the same in the YAML files. *)
Definition same_yaml (M1 : machine) (wd1 : string) (M2 : machine) (wd2 : string) : Prop :=
  (forall dir, k_docs M2 wd2 dir = k_docs M1 wd1 dir) /\
  (forall dir, openFabYAML (fun p => k_fs M2 (at_wd wd2 p)) dir = OpenNotExist <-> openFabYAML (fun p => k_fs M1 (at_wd wd1 p)) dir = OpenNotExist) /\
  (forall n, k_bool M2 n = k_bool M1 n).

Section make.
  Context (hashf : string -> string) (H : json -> hash) (right : FilesModel.rule -> files_state -> Prop).

  (** A run of fab, without -n, in a YAML project, that has come as far as [tr] (perhaps it was
      killed), begun with the files and the database [σ]. *)
  Record fab_run (M : machine) (fuel : nat) (argv : list string) (m : Main) (top : string) (T : tags) (wd : string)
      (a : list act) (st : nat) (r : request) (lf : string -> node -> string -> option (list string * list string))
      (objs' : list shape) (addr : nat -> nat) (leafp : nat -> ctx -> prog) (U : workings) (σ : env) (tr : list event) : Prop := {
    fr_project : yaml_project M argv m top T wd;
    fr_fab : fab M fuel argv = Some (a, st);
    fr_request : r ∈ requests a;
    fr_under_way : under_way lf r objs' addr leafp tr;
    fr_not_dry : m_dryrun m = false;
    (* what the project is like *)
    fr_targets : targets_in_place top (tag_lists T) (k_docs M wd) lf;
    fr_commands : commands_belong (snd <$> r_reg r) objs' leafp;
    fr_separate : separate (yaml_build U addr objs' leafp);
    fr_database : database_honest hashf H right (yaml_build U addr objs' leafp);
    fr_possible : u_possible U (e_fs σ);
    (* the answers that targets get are possible ones *)
    fr_answers : forall l1 g l y l2, tr = l1 ++ EvEff g l y :: l2 -> valid hashf H (yaml_build U addr objs' leafp) l y (after (yaml_build U addr objs' leafp) σ l1);
    (* commands do their job *)
    fr_work : commands_work right (yaml_build U addr objs' leafp) σ tr;
    (* rules are not run several times; or else their commands are single steps, there is no -f,
       and no one else uses the database *)
    fr_again : no_early_names (snd <$> r_reg r) objs' \/
      (m_force m = false /\ database_sound (yaml_build U addr objs' leafp) /\ database_keeps (yaml_build U addr objs' leafp) /\ distinct_descriptions (yaml_build U addr objs' leafp) /\
       one_step (yaml_build U addr objs' leafp) tr);
  }.

  (** The files and the database after any number of runs of fab, in the same or changed projects,
      completed or killed, from an empty database; with arbitrary changes of files, losses of
      database entries, and additions of hashes of right states by others, in between. *)
  Inductive fab_history : env -> Prop :=
    | fh_start fs t : fab_history {| e_fs := fs; e_db := ∅; e_time := t |}
    | fh_edit σ fs db t : fab_history σ -> (forall x, x ∈ db -> x ∈ e_db σ \/ honest hashf H right {[x]}) ->
        fab_history {| e_fs := fs; e_db := db; e_time := t |}
    | fh_run M fuel argv m top T wd a st r lf objs' addr leafp U σ tr : fab_history σ ->
        fab_run M fuel argv m top T wd a st r lf objs' addr leafp U σ tr -> fab_history (after (yaml_build U addr objs' leafp) σ tr).
End make.
