(** When two types, given by cyclic graphs, are the same: bisimilarity. *)
From stdpp Require Import base gmap list strings.
From Verif Require Import TypesModel.
Local Open Scope list_scope.

Section spec.
  Context (T : tgraph) (R : rgraph).

  (** Two signatures agree, given which of the types they mention do ([S]); [extra]: the
      number of leading parameters of the reflected function to ignore (its receiver). *)
  Definition sig_agrees (S : nat -> nat -> Prop) (s : sig) (fn : nat) (extra : nat) : Prop :=
    exists ins outs, r_kind (rnode R fn) = RFunc (s_variadic s) ins outs /\
      exists recv ins', ins = recv ++ ins' /\ length recv = extra /\
        Forall2 S (s_params s) ins' /\ Forall2 S (s_results s) outs.

  Definition field_agrees (S : nat -> nat -> Prop) (v g : field) : Prop :=
    f_name v = f_name g /\ f_tag v = f_tag g /\ S (f_type v) (f_type g).

  (** Two types have the same outermost structure, given which of the types they mention
      agree. *)
  Definition struct_agrees (S : nat -> nat -> Prop) (t : tty) (r : rkind) : Prop :=
    match t, r with
    | TArray n e, RArray n' e' => n = n' /\ S e e'
    | TBasic (Some k), RBasic k' => k = k'
    | TChan d e, RChan d' e' => d = d' /\ S e e'
    | TInterface ms, RInterface rms =>
        length ms = length rms /\
        forall n s, (n, s) ∈ ms -> exists fn, (n, fn) ∈ rms /\ sig_agrees S s fn 0
    | TMap k e, RMap k' e' => S k k' /\ S e e'
    | TPointer e, RPtr e' => S e e'
    | TSlice e, RSlice e' => S e e'
    | TStruct fs, RStruct gs => Forall2 (field_agrees S) fs gs
    | _, _ => False
    end.

  (** The same for types with names: a named type agrees if it has the same name and its
      underlying type agrees. *)
  Definition agrees (S : nat -> nat -> Prop) (t r : nat) : Prop :=
    match tnode T t with
    | TNamed name u => name = r_name (rnode R r) /\ S u r
    | TSignature s => sig_agrees S s r (if s_recv s then 1 else 0)
    | x => struct_agrees S x (r_kind (rnode R r))
    end.

  (** [S] relates types only if they agree one level deep and [S] relates the types
      mentioned there. *)
  Definition matching (S : nat -> nat -> Prop) : Prop := forall t r, S t r -> agrees S t r.

  (** The two types unfold to the same structure, where the names of named types in [t] (but
      not of those in [r] that [t] spells out) are compared. *)
  Definition same_structure (t r : nat) : Prop := exists S, matching S /\ S t r.

  (** The two types are identical: same structure, names (of both), and embedded fields. *)
  Definition basic_name (k : basic) : string :=
    match k with
    | Bool => "bool" | Int => "int" | Int8 => "int8" | Int16 => "int16" | Int32 => "int32" | Int64 => "int64"
    | Uint => "uint" | Uint8 => "uint8" | Uint16 => "uint16" | Uint32 => "uint32" | Uint64 => "uint64"
    | Uintptr => "uintptr" | Float32 => "float32" | Float64 => "float64" | Complex64 => "complex64"
    | Complex128 => "complex128" | String_ => "string" | UnsafePointer => "Pointer"
    end.
  Definition identical_rel (S : nat -> nat -> Prop) : Prop :=
    forall t r, S t r ->
      match tnode T t with
      | TNamed name u =>
          name = r_name (rnode R r) /\
          (match tnode T u with
           | TSignature s => sig_agrees S s r 0 /\ s_recv s = false
           | x => struct_agrees S x (r_kind (rnode R r))
           end)
      | TBasic (Some k) => r_kind (rnode R r) = RBasic k /\ r_name (rnode R r) = basic_name k
      | TSignature s => r_name (rnode R r) = "" /\ s_recv s = false /\ sig_agrees S s r 0
      | x => r_name (rnode R r) = "" /\ struct_agrees S x (r_kind (rnode R r))
      end.
  Definition identical (t r : nat) : Prop := exists S, identical_rel S /\ S t r.
End spec.

(** Go's invariant: an interface has at most one method of each name. *)
Definition distinct_methods (R : rgraph) : Prop :=
  forall r ms, r_kind (rnode R r) = RInterface ms -> NoDup ms.*1.

(** All references are to nodes of the graph. *)
Definition t_refs (t : tty) : list nat :=
  match t with
  | TArray _ e | TChan _ e | TPointer e | TSlice e => [e]
  | TMap k e => [k; e]
  | TNamed _ u => [u]
  | TSignature s => s_params s ++ s_results s
  | TInterface ms => concat ((fun m => s_params m.2 ++ s_results m.2) <$> ms)
  | TStruct fs => f_type <$> fs
  | TBasic _ | TOther => []
  end.
Definition r_refs (r : rty) : list nat :=
  match r_kind r with
  | RArray _ e | RChan _ e | RPtr e | RSlice e => [e]
  | RMap k e => [k; e]
  | RFunc _ ins outs => ins ++ outs
  | RInterface ms => ms.*2
  | RStruct fs => f_type <$> fs
  | RBasic _ | RInvalid => []
  end.
Definition closed (T : tgraph) (R : rgraph) : Prop :=
  (forall t u, u ∈ t_refs (tnode T t) -> u < length T) /\ (forall r u, u ∈ r_refs (rnode R r) -> u < length R).
