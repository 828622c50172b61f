(** Vocabulary for C100 when CompilePackage is called many times at once, by processes that share
    the file system. *)
From stdpp Require Import base gmap list strings relations.
From Verif Require Import PathModel CompileModel CompileSpec WorkdirModel WorkdirSpec.
Local Open Scope list_scope.

(** A call: what it is called with, and the package that is in its package directory. *)
Record call := { k_env : cenv; k_name : string; k_errors : nat; k_es : list entry; k_pkgdir : path; k_binfile : path }.
Definition k_driver (k : call) : option driver := CompilePackage (k_env k) (k_name k) (k_errors k) (k_es k).

(** One of the calls makes a step.  (os.MkdirTemp never gives it the directory of a call that is
    not finished: that directory is there.) *)
Definition many_step (T : tools) (calls : nat -> call) (c c' : fsys * (nat -> phase)) : Prop :=
  exists i, cstep T (k_pkgdir (calls i)) (k_binfile (calls i)) (k_driver (calls i)) (c.1, c.2 i) (c'.1, c'.2 i) /\
    (forall j, j <> i -> c'.2 j = c.2 j) /\
    (forall j t, j <> i -> tmp_of (c'.2 i) = Some t -> tmp_of (c.2 j) <> Some t).

(** At [p] is all of a driver that one of the calls that have this binfile built, from exactly
    the right files. *)
Definition new_binary (T : tools) (calls : nat -> call) (fs : fsys) (p : path) : Prop :=
  exists i d exe, k_binfile (calls i) = p /\ k_driver (calls i) = Some d /\ built_from T (k_es (calls i)) d exe /\ fs !! p = Some (FFile exe).

(** The packages are there; each binfile is in a directory that is there, is not one itself, is
    not in TMPDIR, and is not a file of a package. *)
Record ready (T : tools) (calls : nat -> call) (fs0 : fsys) : Prop := {
  r_proper : proper fs0;
  r_temp : is_dir fs0 (t_tempdir T);
  r_embeds : distinct_names (t_embeds T);
  r_order : forall i l, c_order (k_env (calls i)) l ≡ₚ l;
  r_package : forall i, package_there fs0 (k_pkgdir (calls i)) (k_es (calls i));
  r_parent : forall i, is_dir fs0 (parent (k_binfile (calls i)));
  r_apart : forall i, parent (k_binfile (calls i)) <> t_tempdir T;
  r_root : forall i, k_binfile (calls i) <> [];
  r_nodir : forall i, fs0 !! k_binfile (calls i) <> Some FDir;
  r_source : forall i j e, e ∈ k_es (calls j) -> e_isdir e = false -> k_binfile (calls i) <> k_pkgdir (calls j) ++ [e_name e]
}.
