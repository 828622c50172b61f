(** Runs of fab (MakeSpec.v) whose hash database is the table of sqlite/db.go. *)
From stdpp Require Import base gmap list strings relations.
From Verif Require SqliteModel SqliteSpec.
From Verif Require Import TopDirModel DriverModel RegistryModel.
From Verif Require Import PathModel FindModel FileHashModel FileHashSpec FilesModel FilesSpec.
From Verif Require Import ContextModel RunnerModel RunnerSpec RunnerSpec2 ChainModel YamlModel YamlSpec.
From Verif Require Import MainModel MainSpec ProjModel ProjSpec EndSpec BuildModel BuildSpec MakeModel MakeSpec StoreSpec.
Local Open Scope list_scope.

Section store.
  Context (code : string -> hash) (hashf : string -> string) (H : json -> hash) (right : FilesModel.rule -> files_state -> Prop).

  (** A run as in MakeSpec.v, which begins with the files [fs], at time [t], and takes the database
      from [s] to [s'] by the statements [l].  (The database of [U] plays no role.) *)
  Record sqlite_fab_run (others : hash -> Prop) (M : machine) (fuel : nat) (argv : list string) (m : Main) (top : string) (T : tags) (wd : string)
      (a : list act) (st : nat) (r : request) (lf : string -> node -> string -> option (list string * list string))
      (objs' : list shape) (addr : nat -> nat) (leafp : nat -> ctx -> prog) (U : workings) (fs : files_state) (t : nat)
      (s : SqliteModel.state) (l : list SqliteModel.event) (s' : SqliteModel.state) (tr : list event) : Prop := {
    sf_project : yaml_project M argv m top T wd;
    sf_fab : fab M fuel argv = Some (a, st);
    sf_request : r ∈ requests a;
    sf_under_way : under_way lf r objs' addr leafp tr;
    sf_not_dry : m_dryrun m = false;
    (* what the project is like *)
    sf_targets : targets_in_place top (tag_lists T) (k_docs M wd) lf;
    sf_commands : commands_belong (snd <$> r_reg r) objs' leafp;
    sf_separate : separate (yaml_build U addr objs' leafp);
    sf_possible : u_possible U fs;
    (* the database, and what others do with it *)
    sf_db : exists cs, SqliteModel.run s cs = Some s';
    sf_log : SqliteModel.s_log s' = SqliteModel.s_log s ++ l;
    sf_uses : uses code others tr l;
    (* the hashes that rules compute are those of the files they find *)
    sf_hash : forall l1 g b o y l2, tr = l1 ++ EvEff g (OpHash b o) y :: l2 ->
      valid hashf H (yaml_build U addr objs' leafp) (OpHash b o) y (after (yaml_build U addr objs' leafp) {| e_fs := fs; e_db := ∅; e_time := t |} l1);
    (* commands do their job *)
    sf_work : commands_work right (yaml_build U addr objs' leafp) {| e_fs := fs; e_db := ∅; e_time := t |} tr;
    (* rules are not run several times; or else their commands are single steps, there is no -f,
       no one else uses the database, and nothing in it expires *)
    sf_again : no_early_names (snd <$> r_reg r) objs' \/
      (m_force m = false /\ (forall x, ~ others x) /\ nothing_expires (SqliteModel.s_log s) l /\
       distinct_descriptions (yaml_build U addr objs' leafp) /\ one_step (yaml_build U addr objs' leafp) tr);
  }.

  (** Any number of runs of fab, in the same or changed projects, completed or killed, from a new
      database; with arbitrary changes of files in between, and with other processes that use the
      database at any time.  These add only hashes of right states. *)
  Inductive sqlite_fab_history : files_state -> SqliteModel.state -> Prop :=
    | sfh_start fs : sqlite_fab_history fs SqliteModel.init
    | sfh_edit fs fs' s : sqlite_fab_history fs s -> sqlite_fab_history fs' s
    | sfh_others fs s cs s' l : sqlite_fab_history fs s -> SqliteModel.run s cs = Some s' ->
        SqliteModel.s_log s' = SqliteModel.s_log s ++ l ->
        (forall x now, SqliteModel.EvAdd x now ∈ l -> right_hash hashf H right (code x)) -> sqlite_fab_history fs s'
    | sfh_run (others : hash -> Prop) M fuel argv m top T wd a st r lf objs' addr leafp U fs t s l s' tr : sqlite_fab_history fs s ->
        (forall x, others x -> right_hash hashf H right x) ->
        sqlite_fab_run others M fuel argv m top T wd a st r lf objs' addr leafp U fs t s l s' tr ->
        sqlite_fab_history (files_after (yaml_build U addr objs' leafp) fs t tr) s'.
End store.
