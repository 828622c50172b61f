(** Which files a list of names covers. *)
From stdpp Require Import base gmap list sorting strings.
From Verif Require Import PathModel StrOrd FileHashModel.
Local Open Scope list_scope.

(** [q] is [p], or lies in the directory [p], at any depth. *)
Inductive at_or_under (fs : files_state) : string -> string -> Prop :=
  | under_self p : at_or_under fs p p
  | under_child p names n q : fs p = FDir (Some names) -> n ∈ names ->
      at_or_under fs (Join [p; n]) q -> at_or_under fs p q.

(** [q] is a file, or missing; [h] is the hash of its contents, or empty. *)
Inductive file_hash (hashf : string -> string) (fs : files_state) (q : string) : string -> Prop :=
  | fh_missing : fs q = FMissing -> file_hash hashf fs q ""
  | fh_file c : fs q = FFile (Some c) -> file_hash hashf fs q (hashf c).

Definition covered (fs : files_state) (items : list string) (q : string) : Prop :=
  exists item, item ∈ items /\ at_or_under fs item q.

(** The directory tree at [p] is finite. *)
Inductive finite (fs : files_state) : string -> Prop :=
  | finite_intro p : (forall names n, fs p = FDir (Some names) -> n ∈ names -> finite fs (Join [p; n])) ->
      finite fs p.

(** Something that can be neither listed nor hashed. *)
Definition unreadable (fs : files_state) (q : string) : Prop :=
  fs q = FStatErr \/ fs q = FDir None \/ fs q = FFile None.

(** The (name, hash) pairs of a flat list. *)
Fixpoint pairs (l : list string) : list (string * string) :=
  match l with
  | n :: h :: l => (n, h) :: pairs l
  | _ => []
  end.

(** The outcome of the (unbounded) Go function. *)
Definition hashes_to (hashf : string -> string) (fs : files_state) (items : list string) (r : hres (list string)) : Prop :=
  r <> HOutOfFuel /\ exists fuel, fileHashes hashf fuel fs items = r.

Definition strictly_sorted (l : list string) : Prop := StronglySorted sle l /\ NoDup l.
