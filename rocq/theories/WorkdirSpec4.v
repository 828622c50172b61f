(** Vocabulary for C100 when others change even the package during a call. *)
From stdpp Require Import base gmap list strings relations.
From Verif Require Import PathModel CompileModel CompileSpec WorkdirModel WorkdirSpec.
Local Open Scope list_scope.

(** Others leave alone the temporary directory, with all that is in it, and the way to it. *)
Definition hectic_others (c c' : fsys * phase) : Prop :=
  c'.2 = c.2 /\
  match c.2 with
  | Started => c'.1 = c.1
  | Working t _ | Cleaning t _ => forall p, t `prefix_of` p \/ p `prefix_of` t -> c'.1 !! p = c.1 !! p
  | Finished _ => True
  end.
Definition hectic_step (T : tools) (pkgdir binfile : path) (d : option driver) (c c' : fsys * phase) : Prop :=
  cstep T pkgdir binfile d c c' \/ hectic_others c c'.
(** [exe] is an output of a go build that succeeded. *)
Definition build_output (T : tools) (exe : string) : Prop := exists tree, t_build T tree = Some exe.
