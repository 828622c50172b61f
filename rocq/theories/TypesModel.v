(** Model of types.go: the comparison of a go/types type (from source text) with a
    reflect.Type (of the running program).

    Both kinds of types are nodes of finite graphs, which may be cyclic; a reference to a
    type is the number of its node.  (Generic types, whose instances go/types may create
    without bound, are outside the model, as they are outside the code: "TODO".) *)
From stdpp Require Import base gmap list strings.
Local Open Scope list_scope.

(** Basic kinds, common to types.BasicKind and reflect.Kind. *)
Inductive basic :=
  | Bool | Int | Int8 | Int16 | Int32 | Int64 | Uint | Uint8 | Uint16 | Uint32 | Uint64 | Uintptr
  | Float32 | Float64 | Complex64 | Complex128 | String_ | UnsafePointer.
Inductive dir := SendRecv | SendOnly | RecvOnly.
#[global] Instance basic_eq_dec : EqDecision basic. Proof. solve_decision. Defined.
#[global] Instance dir_eq_dec : EqDecision dir. Proof. solve_decision. Defined.

(** types.Signature *)
Record sig := { s_recv : bool; s_variadic : bool; s_params : list nat; s_results : list nat }.
(** A struct field: name, tag, whether it is embedded, type. *)
Record field := { f_name : string; f_tag : string; f_embedded : bool; f_type : nat }.

(** A node of the graph of go/types types. *)
Inductive tty :=
  | TArray (len : nat) (elem : nat)
  | TBasic (k : option basic)             (* None: invalid and untyped kinds *)
  | TChan (d : dir) (elem : nat)
  | TInterface (methods : list (string * sig)) (* its method set, all *types.Func *)
  | TMap (key elem : nat)
  | TNamed (name : string) (under : nat)
  | TPointer (elem : nat)
  | TSignature (s : sig)
  | TSlice (elem : nat)
  | TStruct (fields : list field)
  | TOther.                               (* Tuple, TypeParam, Union, Alias *)

(** A node of the graph of reflect types: kind and Name() ("" for an unnamed type). *)
Inductive rkind :=
  | RInvalid
  | RBasic (k : basic)
  | RArray (len : nat) (elem : nat)
  | RChan (d : dir) (elem : nat)
  | RFunc (variadic : bool) (ins outs : list nat)
  | RInterface (methods : list (string * nat))  (* Method.Type *)
  | RMap (key elem : nat)
  | RPtr (elem : nat)
  | RSlice (elem : nat)
  | RStruct (fields : list field).
Record rty := { r_name : string; r_kind : rkind }.

Definition tgraph := list tty.
Definition rgraph := list rty.
Definition tnode (T : tgraph) (t : nat) : tty := default TOther (T !! t).
Definition rnode (R : rgraph) (r : nat) : rty := default {| r_name := ""; r_kind := RInvalid |} (R !! r).

(** Result of a check: the pairs seen so far (no error), an error, or (an artifact of the
    model) the recursion went deeper than [fuel]. *)
Inductive res := Ok (seen : gset (nat * nat)) | Err | OutOfFuel.

(** Check a list of pairs, one after the other; stop at the first error. *)
Fixpoint check_list (f : gset (nat * nat) -> nat -> nat -> res) (l : list (nat * nat)) (seen : gset (nat * nat)) : res :=
  match l with
  | [] => Ok seen
  | (t, r) :: l => match f seen t r with Ok seen => check_list f l seen | x => x end
  end.

(** types.go:67-112 *)
Definition checkSignaturesMatch (f : gset (nat * nat) -> nat -> nat -> res) (R : rgraph)
    (seen : gset (nat * nat)) (s : sig) (fn : nat) (skipReceiver : bool) : res :=
  match r_kind (rnode R fn) with
  | RFunc variadic ins outs =>
      if negb (bool_decide (s_variadic s = variadic)) then Err else
      let hasReceiver := skipReceiver && s_recv s in
      let nParamsWithReceiver := if hasReceiver then S (length (s_params s)) else length (s_params s) in
      if negb (bool_decide (nParamsWithReceiver = length ins)) then Err else
      if negb (bool_decide (length (s_results s) = length outs)) then Err else
      match check_list f (zip (s_params s) (if hasReceiver then drop 1 ins else ins)) seen with
      | Ok seen => check_list f (zip (s_results s) outs) seen
      | x => x
      end
  | _ => Err
  end.

(** types.go:129-204 *)
Definition basic_matches (k : basic) (r : rkind) : bool :=
  match k, r with
  | Bool, RBasic Bool => true
  | Int, RBasic Int => true
  | Int8, RBasic Int8 => true
  | Int16, RBasic Int16 => true
  | Int32, RBasic Int32 => true
  | Int64, RBasic Int64 => true
  | Uint, RBasic Uint => true
  | Uint8, RBasic Uint8 => true
  | Uint16, RBasic Uint16 => true
  | Uint32, RBasic Uint32 => true
  | Uint64, RBasic Uint64 => true
  | Uintptr, RBasic Uintptr => true
  | Float32, RBasic Float32 => true
  | Float64, RBasic Float64 => true
  | Complex64, RBasic Complex64 => true
  | Complex128, RBasic Complex128 => true
  | String_, RBasic String_ => true
  | UnsafePointer, RBasic UnsafePointer => true
  | _, _ => false
  end.

(** types.go:210-223 *)
Definition dir_matches (d r : dir) : bool :=
  match d, r with
  | SendRecv, SendRecv => true
  | SendOnly, SendOnly => true
  | RecvOnly, RecvOnly => true
  | _, _ => false
  end.

(** reflect.Type.MethodByName *)
Fixpoint method_by_name (name : string) (ms : list (string * nat)) : option nat :=
  match ms with
  | [] => None
  | (n, t) :: ms => if decide (n = name) then Some t else method_by_name name ms
  end.

(** types.go:234-252 *)
Fixpoint check_methods (f : gset (nat * nat) -> nat -> nat -> res) (R : rgraph)
    (ms : list (string * sig)) (rms : list (string * nat)) (seen : gset (nat * nat)) : res :=
  match ms with
  | [] => Ok seen
  | (n, s) :: ms =>
      match method_by_name n rms with
      | None => Err
      | Some rt =>
          match checkSignaturesMatch f R seen s rt false with
          | Ok seen => check_methods f R ms rms seen
          | x => x
          end
      end
  end.

(** types.go:291-302 (embedding is not compared) *)
Fixpoint check_fields (f : gset (nat * nat) -> nat -> nat -> res) (ts rs : list field) (seen : gset (nat * nat)) : res :=
  match ts, rs with
  | v :: ts, g :: rs =>
      if negb (bool_decide (f_name v = f_name g)) then Err else
      if negb (bool_decide (f_tag v = f_tag g)) then Err else
      match f seen (f_type v) (f_type g) with
      | Ok seen => check_fields f ts rs seen
      | x => x
      end
  | _, _ => Ok seen
  end.

(** types.go:115-312 *)
Fixpoint checkTypesMatch (fuel : nat) (T : tgraph) (R : rgraph) (seen : gset (nat * nat)) (t r : nat) : res :=
  match fuel with
  | 0 => OutOfFuel
  | S fuel =>
      if decide ((t, r) ∈ seen) then Ok seen else
      let seen := {[(t, r)]} ∪ seen in
      let f := checkTypesMatch fuel T R in
      match tnode T t, r_kind (rnode R r) with
      | TArray n e, RArray n' e' => if bool_decide (n = n') then f seen e e' else Err
      | TBasic (Some k), rk => if basic_matches k rk then Ok seen else Err
      | TChan d e, RChan d' e' => if dir_matches d d' then f seen e e' else Err
      | TInterface ms, RInterface rms =>
          if bool_decide (length ms = length rms) then check_methods f R ms rms seen else Err
      | TMap k e, RMap k' e' => match f seen k k' with Ok seen => f seen e e' | x => x end
      | TNamed name u, _ => if bool_decide (name = r_name (rnode R r)) then f seen u r else Err
      | TPointer e, RPtr e' => f seen e e'
      | TSignature s, _ => checkSignaturesMatch f R seen s r true
      | TSlice e, RSlice e' => f seen e e'
      | TStruct fs, RStruct gs =>
          if bool_decide (length fs = length gs) then check_fields f fs gs seen else Err
      | _, _ => Err
      end
  end.

(** What a name means in the method set of a type (types.NewMethodSet): a func with its
    signature, or something else. *)
Inductive member := MFunc (s : sig) | MOther.

(** types.go:42-65.  [methods]: the methods of nullTarget in the (random) order in which the
    map is iterated, each with the type of its Func (whose first parameter is the receiver).
    [lookup]: the method set of the type.  [Some true]: the type implements Target;
    [Some false]: an error; [None]: out of fuel. *)
Fixpoint checkImplementsTarget (fuel : nat) (T : tgraph) (R : rgraph)
    (methods : list (string * nat)) (lookup : string -> option member) : option bool :=
  match methods with
  | [] => Some true
  | (name, fn) :: methods =>
      match lookup name with
      | Some (MFunc s) =>
          match checkSignaturesMatch (checkTypesMatch fuel T R) R ∅ s fn true with
          | Ok _ => checkImplementsTarget fuel T R methods lookup
          | Err => Some false
          | OutOfFuel => None
          end
      | _ => Some false
      end
  end.
