(** Which files belong to a Go package within its module. *)
From stdpp Require Import base gmap list strings.
From Verif Require Import GoDepsModel.
Local Open Scope list_scope.

Section spec.
  Context (pkgs : nat -> package).
  (** [q] is reached from [p] through imports, all packages on the way being in module [m]. *)
  Inductive within (m : string) (p : nat) : nat -> Prop :=
    | within_self : p_module (pkgs p) = Some m -> within m p p
    | within_import q i : within m p q -> i ∈ p_imports (pkgs q) -> p_module (pkgs i) = Some m -> within m p i.
  Definition own_file (p : nat) (x : string) : Prop :=
    x ∈ p_gofiles (pkgs p) \/ x ∈ p_compiled (pkgs p) \/ x ∈ p_other (pkgs p) \/ x ∈ p_embed (pkgs p).
  (** Reached from one of the loaded packages in that package's own module. *)
  Definition involved (roots : list nat) (p : nat) : Prop :=
    exists r m, r ∈ roots /\ within m r p.
  (** No import cycles, as Go demands. *)
  Definition acyclic (rank : nat -> nat) : Prop := forall p i, i ∈ p_imports (pkgs p) -> rank i < rank p.
End spec.
