(** Vocabulary for C100 when others use the file system at the same time. *)
From stdpp Require Import base gmap list strings relations.
From Verif Require Import PathModel CompileModel CompileSpec WorkdirModel WorkdirSpec.
Local Open Scope list_scope.

(** What a call of CompilePackage relies on: its temporary directory with all that is in it, the
    directories on the way to it, and the package. *)
Definition relied_on (pkgdir : path) (es : list entry) (t p : path) : Prop :=
  t `prefix_of` p \/ p `prefix_of` t \/ p = pkgdir \/ exists e, e ∈ es /\ e_isdir e = false /\ p = pkgdir ++ [e_name e].
Definition agree (pkgdir : path) (es : list entry) (t : path) (fs fs' : fsys) : Prop := forall p, relied_on pkgdir es t p -> fs' !! p = fs !! p.
(** Others change anything else, binfile included, at any time.  (The call begins when it has
    its temporary directory.) *)
Definition others (pkgdir : path) (es : list entry) (c c' : fsys * phase) : Prop :=
  c'.2 = c.2 /\
  match c.2 with
  | Started => c'.1 = c.1
  | Working t _ | Cleaning t _ => agree pkgdir es t c.1 c'.1
  | Finished _ => True
  end.
Definition shared_step (T : tools) (pkgdir binfile : path) (es : list entry) (d : option driver) (c c' : fsys * phase) : Prop :=
  cstep T pkgdir binfile d c c' \/ others pkgdir es c c'.
