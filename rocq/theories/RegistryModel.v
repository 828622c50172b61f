(** Model of the target registry (register.go, controller.go:19-45), Controller.ParseArgs
    and Controller.ListTargets (controller.go:77-125).

    Every access to the two maps happens under con.mu, so accesses are atomic; a function
    that makes several accesses is given the registry as it is at each of them. *)
From stdpp Require Import base gmap list strings.
From Coq Require Import Ascii.
From Verif Require Import StrOrd.
Local Open Scope list_scope.

(** A target value: a pointer (identified by [o]) or a value of another kind, including the
    nil interface. *)
Inductive target := TPtr (o : nat) | TNonPtr (k : nat).

(** register.go:36-39 *)
Record tuple := { t_target : target; t_name : string; t_doc : string }.

(** controller.go:28-31 *)
Record registry := { by_name : gmap string tuple; by_addr : gmap nat tuple }.
(** controller.go:38-45 *)
Definition NewController : registry := {| by_name := ∅; by_addr := ∅ |}.

Section addr.
  (** The address of the value a pointer points to, and the result of Desc. *)
  Context (addr : nat -> nat) (desc : target -> string).

  (** register.go:28-34 *)
  Definition targetAddr (t : target) : option nat :=
    match t with TPtr o => Some (addr o) | TNonPtr _ => None end.

  (** register.go:11-26; the result is [None] for an error. *)
  Definition RegisterTarget (name doc : string) (t : target) (r : registry) : registry * option target :=
    match targetAddr t with
    | None => (r, None)
    | Some a =>
        let tuple := {| t_target := t; t_name := name; t_doc := doc |} in
        ({| by_name := <[name := tuple]> (by_name r); by_addr := <[a := tuple]> (by_addr r) |}, Some t)
    end.

  (** register.go:42-48 *)
  Definition RegistryNames (r : registry) : list string :=
    ssort ((map_to_list (by_name r)).*1).

  (** register.go:52-57.  [None]: the nil target (a registered target is never nil). *)
  Definition RegistryTarget (r : registry) (name : string) : option (target * string) :=
    (fun t => (t_target t, t_doc t)) <$> by_name r !! name.

  (** register.go:65-77 *)
  Definition Describe (r : registry) (t : target) : string :=
    match targetAddr t with
    | Some a =>
        match by_addr r !! a with
        | Some tuple => t_name tuple
        | None => "unnamed " +:+ desc t
        end
    | None => "unnamed " +:+ desc t
    end.
End addr.

(** ** ParseArgs *)
Inductive argt := Plain (t : target) | WithArgs (t : target) (args : list string). (* ArgTarget *)
Inductive parsed := POk (ts : list argt) | PErr (msg : string) | PPanic.

(** strings.Join(l, " ") *)
Fixpoint unwords (l : list string) : string :=
  match l with
  | [] => ""
  | [x] => x
  | x :: l => x +:+ " " +:+ unwords l
  end.

(** controller.go:97-103.  [regs i] is the registry at the i-th access. *)
Fixpoint lookup_all (regs : nat -> registry) (i : nat) (args : list string) : list argt * list string :=
  match args with
  | [] => ([], [])
  | a :: args =>
      let '(ts, un) := lookup_all regs (S i) args in
      match RegistryTarget (regs i) a with
      | Some (t, _) => (Plain t :: ts, un)
      | None => (ts, a :: un)
      end
  end.

(** controller.go:106-113 *)
Definition parse_result (p : list argt * list string) : parsed :=
  match p with
  | (ts, []) => POk ts
  | (_, [u]) => PErr ("unknown target " +:+ u)
  | (_, us) => PErr ("unknown targets: " +:+ unwords us)
  end.

(** controller.go:83-114.  args[1][0] panics if args[1] is the empty string. *)
Definition ParseArgs (regs : nat -> registry) (args : list string) : parsed :=
  match args with
  | a0 :: (a1 :: _) as rest =>
      match a1 with
      | EmptyString => PPanic
      | String c _ =>
          if decide (c = "-"%char) then
            parse_result
              match RegistryTarget (regs 0) a0 with
              | Some (t, _) => ([WithArgs t rest], [])
              | None => ([], [a0])
              end
          else parse_result (lookup_all regs 0 args)
      end
  | _ => parse_result (lookup_all regs 0 args)
  end.

(** ** ListTargets *)
Definition nl : string := String "010"%char "".

(** main.go:145 and controller.go:121: the regular expression "^" without the flag m matches
    once, at the beginning of the text. *)
Definition bol_replace (d : string) : string := "    " +:+ d.

(** controller.go:119-123 *)
Fixpoint list_loop (regs : nat -> registry) (i : nat) (names : list string) : string :=
  match names with
  | [] => ""
  | n :: names =>
      n +:+ nl +:+
      (let d := match RegistryTarget (regs i) n with Some (_, d) => d | None => "" end in
       if decide (d = "") then "" else bol_replace d +:+ nl) +:+
      list_loop regs (S i) names
  end.
(** controller.go:117-125; everything written to w. *)
Definition ListTargets (regs : nat -> registry) : string :=
  list_loop regs 1 (RegistryNames (regs 0)).
