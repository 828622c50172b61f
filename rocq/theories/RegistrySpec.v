(** Vocabulary for the properties of the target registry. *)
From stdpp Require Import base gmap list strings.
From Coq Require Import Ascii.
From Verif Require Import RegistryModel.
Local Open Scope list_scope.

(** A history of calls of RegisterTarget (name, doc, target), oldest first. *)
Notation history := (list (string * string * target)).
Definition after (addr : nat -> nat) (h : history) : registry :=
  fold_left (fun r '(n, d, t) => (RegisterTarget addr n d t r).1) h NewController.

(** [x] is the last element of [h] with property [P]. *)
Definition last_with (P : string * string * target -> Prop) (h : history) (x : string * string * target) : Prop :=
  exists before later, h = before ++ x :: later /\ P x /\ forall y, y ∈ later -> ~ P y.

Definition is_ptr (t : target) : Prop := exists o, t = TPtr o.
(** A (successful) registration under the name [n]; of the target at address [a]. *)
Definition names_it (n : string) (x : string * string * target) : Prop := x.1.1 = n /\ is_ptr x.2.
Definition of_addr (addr : nat -> nat) (a : nat) (x : string * string * target) : Prop :=
  exists o, x.2 = TPtr o /\ addr o = a.

(** Registrations made while a function runs: [hs i] is the history up to its i-th access. *)
Definition growing (hs : nat -> history) : Prop := forall i j, i <= j -> hs i `prefix_of` hs j.

(** The arguments that name no target, in order; argument [i] is looked up in [regs i]. *)
#[global] Instance target_eq_dec : EqDecision target.
Proof. solve_decision. Defined.
Fixpoint unknown_from (regs : nat -> registry) (i : nat) (args : list string) : list string :=
  match args with
  | [] => []
  | a :: args =>
      (if decide (RegistryTarget (regs i) a = None) then [a] else []) ++ unknown_from regs (S i) args
  end.
Definition unknown_args (regs : nat -> registry) (args : list string) : list string := unknown_from regs 0 args.

(** The second argument looks like a flag. *)
Definition flag_second (args : list string) : Prop := exists a0 s rest, args = a0 :: String "-"%char s :: rest.
Definition empty_second (args : list string) : Prop := exists a0 rest, args = a0 :: "" :: rest.

(** ** What a listing should look like. *)
(** Put four spaces at the beginning of every line.  Text after the last newline is a line
    only if it is not empty. *)
Fixpoint indent_rest (s : string) : string :=
  match s with
  | EmptyString => ""
  | String c s' =>
      if decide (c = "010"%char) then
        String c (if decide (s' = "") then "" else "    " +:+ indent_rest s')
      else String c (indent_rest s')
  end.
Definition indent_lines (s : string) : string := if decide (s = "") then "" else "    " +:+ indent_rest s.

(** The doc string has a newline that is not its last character. *)
Fixpoint multiline (s : string) : bool :=
  match s with
  | EmptyString => false
  | String c s' => bool_decide (c = "010"%char /\ s' <> "") || multiline s'
  end.

Definition listing (entries : list (string * string)) : string :=
  String.concat "" ((fun '(n, d) => n +:+ nl +:+ (if decide (d = "") then "" else indent_lines d +:+ nl)) <$> entries).
