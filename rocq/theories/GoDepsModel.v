(** Model of golang.Deps and golang.Binary (golang/go.go). *)
From stdpp Require Import base gmap list strings.
From Verif Require Import PathModel StrOrd.
Local Open Scope list_scope.

(** The fields of packages.Package that are used; packages are numbered, [p_imports] are the
    values of the map Imports in the order of the iteration (any order: the theorems hold for
    every list).  [p_module]: the module path, None for a nil pointer. *)
Record package := { p_module : option string; p_gofiles : list string; p_compiled : list string;
  p_other : list string; p_embed : list string; p_patterns : list string; p_imports : list nat; p_errors : nat }.

(** Results of gopkgAdd: the set of files, an error, a nil-pointer panic. *)
Inductive gres := GOk (files : gset string) | GErr | GPanic | GOutOfFuel.

Section model.
  (** The package values: [None] does not occur for the packages of a program.  [glob]:
      filepath.Glob, whose only error is ErrBadPattern.  It is relative to the working
      directory. *)
  Context (pkgs : nat -> package) (glob : string -> option (list string)).

  (** golang/go.go:147-153 *)
  Fixpoint add_patterns (ps : list string) (files : gset string) : gres :=
    match ps with
    | [] => GOk files
    | p :: ps =>
        match glob p with
        | None => GErr
        | Some ms => add_patterns ps (files ∪ list_to_set ms)
        end
    end.
  (** golang/go.go:154-158 *)
  Fixpoint add_imports (add : nat -> gset string -> gres) (is : list nat) (files : gset string) : gres :=
    match is with
    | [] => GOk files
    | i :: is =>
        match add i files with
        | GOk files => add_imports add is files
        | x => x
        end
    end.
  (** golang/go.go:136-160.  There is no record of the packages already visited. *)
  Fixpoint gopkgAdd (fuel : nat) (modpath : string) (p : nat) (files : gset string) : gres :=
    match fuel with
    | 0 => GOutOfFuel
    | S fuel =>
        match p_module (pkgs p) with
        | None => GOk files
        | Some m =>
            if decide (m = modpath) then
              let files := files ∪ list_to_set (p_gofiles (pkgs p)) ∪ list_to_set (p_compiled (pkgs p))
                ∪ list_to_set (p_other (pkgs p)) ∪ list_to_set (p_embed (pkgs p)) in
              match add_patterns (p_patterns (pkgs p)) files with
              | GOk files => add_imports (gopkgAdd fuel modpath) (p_imports (pkgs p)) files
              | x => x
              end
            else GOk files
        end
    end.
  (** golang/go.go:122-128: pkg.Module.Path panics if Module is nil. *)
  Fixpoint add_roots (fuel : nat) (roots : list nat) (files : gset string) : gres :=
    match roots with
    | [] => GOk files
    | r :: roots =>
        match p_module (pkgs r) with
        | None => GPanic
        | Some m =>
            match gopkgAdd fuel m r files with
            | GOk files => add_roots fuel roots files
            | x => x
            end
        end
    end.

  (** golang/go.go:94-134.  [load]: the packages that packages.Load returns, None for an error. *)
  Inductive dres := DepsOk (l : list string) | DepsErr | DepsPanic | DepsOutOfFuel.
  Definition Deps (fuel : nat) (load : option (list nat)) : dres :=
    match load with
    | None => DepsErr
    | Some roots =>
        if decide (Exists (fun r => p_errors (pkgs r) <> 0) roots) then DepsErr
        else match add_roots fuel roots ∅ with
             | GOk files => DepsOk (ssort (elements files))
             | GErr => DepsErr
             | GPanic => DepsPanic
             | GOutOfFuel => DepsOutOfFuel
             end
    end.
End model.

(** golang/go.go:36-56: the outfile, and the arguments of go build; [rel] is filepath.Rel
    (None: its error), [base] is filepath.Base. *)
Definition Binary (base : string -> string) (rel : string -> string -> option string)
    (deps : dres) (dir outfile : string) (flags : list string) : option (list string * list string * list string) :=
  let outfile := if decide (outfile = "") then base dir else outfile in
  match rel dir outfile, deps with
  | Some relOut, DepsOk l => Some (l, [outfile], ["build"; "-C"; dir; "-o"; relOut] ++ flags ++ ["."])
  | _, _ => None
  end.
