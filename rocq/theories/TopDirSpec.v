(** What marks a directory as (part of) a project, by location (PathSpec.v). *)
From stdpp Require Import base list strings.
From Verif Require Import PathModel PathSpec TopDirModel.
Local Open Scope list_scope.

(** The entry named [n] in the directory at [l]. *)
Definition entry_in (fs : fsys) (l : loc) (n : string) : entry := fs (abs_path (n :: l)).

Definition has_fab (fs : fsys) (l : loc) : Prop := entry_in fs l "_fab" = IsDirectory.

(** The YAML file of the directory at [l] is readable and contains [c]. *)
Definition yaml_file (fs : fsys) (l : loc) (c : string) : Prop :=
  entry_in fs l "fab.yaml" = IsFile c \/
  (entry_in fs l "fab.yaml" = NotExist /\ entry_in fs l "fab.yml" = IsFile c).

(** Nothing in the directory at [l] says that it belongs to a project. *)
Definition unmarked (fs : fsys) (l : loc) : Prop :=
  entry_in fs l "fab.yaml" = NotExist /\ entry_in fs l "fab.yml" = NotExist /\
  (entry_in fs l "_fab" = NotExist \/ exists c, entry_in fs l "_fab" = IsFile c).

(** A path that does not end in a slash. *)
Definition no_trailing_slash (p : string) : Prop := last (split p) <> Some "".
