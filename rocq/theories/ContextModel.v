(** Model of context.go: the decorations fab puts on a [context.Context]. *)
From stdpp Require Import base list strings.

(** A reference to a [HashDB] value.  Only its identity matters here. *)
Definition dbref := nat.

(** One layer of [context.WithValue].  context.go:5-11 declares one key type per
    decoration; [COther] stands for any layer with a key of another package.
    context.go:14-76 (the [WithX] functions). *)
Inductive layer :=
  | CDryRun (b : bool)
  | CForce (b : bool)
  | CHashDB (db : option dbref)   (* None: WithHashDB(ctx, nil) *)
  | CVerbose (b : bool)
  | CArgs (args : list string)
  | COther (key : nat).

(** A context is a chain of layers, outermost first; [] is context.Background(). *)
Definition ctx := list layer.

Definition Background : ctx := [].

(** context.go:15-17 *)
Definition WithDryRun (c : ctx) (b : bool) : ctx := CDryRun b :: c.
(** context.go:28-30 *)
Definition WithForce (c : ctx) (b : bool) : ctx := CForce b :: c.
(** context.go:41-43 *)
Definition WithHashDB (c : ctx) (db : option dbref) : ctx := CHashDB db :: c.
(** context.go:54-56 *)
Definition WithVerbose (c : ctx) (b : bool) : ctx := CVerbose b :: c.
(** context.go:67-69 *)
Definition WithArgs (c : ctx) (args : list string) : ctx := CArgs args :: c.

(** context.go:21-24.  [ctx.Value] walks the chain from the outermost layer; the
    type assertion yields the zero value when the key is absent. *)
Fixpoint GetDryRun (c : ctx) : bool :=
  match c with
  | [] => false
  | CDryRun b :: _ => b
  | _ :: c => GetDryRun c
  end.
(** context.go:34-37 *)
Fixpoint GetForce (c : ctx) : bool :=
  match c with
  | [] => false
  | CForce b :: _ => b
  | _ :: c => GetForce c
  end.
(** context.go:47-50 *)
Fixpoint GetHashDB (c : ctx) : option dbref :=
  match c with
  | [] => None
  | CHashDB db :: _ => db
  | _ :: c => GetHashDB c
  end.
(** context.go:60-63 *)
Fixpoint GetVerbose (c : ctx) : bool :=
  match c with
  | [] => false
  | CVerbose b :: _ => b
  | _ :: c => GetVerbose c
  end.
(** context.go:73-76.  nil and an empty slice are not distinguished. *)
Fixpoint GetArgs (c : ctx) : list string :=
  match c with
  | [] => []
  | CArgs a :: _ => a
  | _ :: c => GetArgs c
  end.
