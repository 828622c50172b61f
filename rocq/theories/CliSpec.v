(** How a command line is read, as documented in package flag: a grammar. *)
From stdpp Require Import base gmap list strings.
From Coq Require Import Ascii.
From Verif Require Import DriverModel.
Local Open Scope list_scope.

(** The first character, if any. *)
Definition starts (c : ascii) (s : string) : Prop := exists s', s = String c s'.
(** [s] is a flag: one or two minus signs, then the flag's name and perhaps more. *)
Definition dashed (s body : string) : Prop :=
  (s = "-" +:+ body \/ s = "--" +:+ body) /\ body <> "" /\ ~ starts "-" body /\ ~ starts "=" body.
Definition no_equals (s : string) : Prop := equals ∉ String.list_ascii_of_string s.
(** Words for truth values. *)
Inductive truth : string -> bool -> Prop :=
  | truth_true s : s ∈ ["1"; "t"; "T"; "true"; "TRUE"; "True"] -> truth s true
  | truth_false s : s ∈ ["0"; "f"; "F"; "false"; "FALSE"; "False"] -> truth s false.

(** One flag: the arguments it takes up, its name, its setting. *)
Inductive item (flags : gmap string flagkind) : list string -> string -> flagval -> Prop :=
  | item_set s n : dashed s n -> no_equals n -> flags !! n = Some FBool -> item flags [s] n (VBool true)
  | item_bool s n x b : dashed s (n +:+ "=" +:+ x) -> no_equals n -> flags !! n = Some FBool -> truth x b -> item flags [s] n (VBool b)
  | item_string s n x : dashed s (n +:+ "=" +:+ x) -> no_equals n -> flags !! n = Some FString -> item flags [s] n (VString x)
  | item_next s n x : dashed s n -> no_equals n -> flags !! n = Some FString -> item flags [s; x] n (VString x).
(** What follows the flags, and the arguments that leaves: nothing, or arguments from one that is
    no flag (a single minus sign is none), or arguments after a terminator. *)
Inductive tail_args : list string -> list string -> Prop :=
  | tail_nil : tail_args [] []
  | tail_stop s l : (forall c s', s <> String "-" (String c s')) -> tail_args (s :: l) (s :: l)
  | tail_end l : tail_args ("--" :: l) l.
Record one := { on_args : list string; on_name : string; on_value : flagval }.
Definition is_item (flags : gmap string flagkind) (i : one) : Prop := item flags (on_args i) (on_name i) (on_value i).
(** [argv] is the flags [is], in order, and then arguments [args]. *)
Definition reads (flags : gmap string flagkind) (argv : list string) (is : list one) (args : list string) : Prop :=
  Forall (is_item flags) is /\ exists t, argv = concat (on_args <$> is) ++ t /\ tail_args t args.
(** The last setting of a flag. *)
Definition set_to (is : list one) (n : string) (v : flagval) : Prop :=
  exists before i after, is = before ++ i :: after /\ on_name i = n /\ on_value i = v /\ forall j, j ∈ after -> on_name j <> n.
Definition not_set (is : list one) (n : string) : Prop := forall i, i ∈ is -> on_name i <> n.
(** After flags that are in order comes -h or -help (or --h, -h=x ...), and there is no flag of that name. *)
Definition asks (flags : gmap string flagkind) (argv : list string) : Prop :=
  exists is s n rest, Forall (is_item flags) is /\ argv = concat (on_args <$> is) ++ s :: rest /\
    (dashed s n \/ exists x, dashed s (n +:+ "=" +:+ x)) /\ (n = "h" \/ n = "help") /\ flags !! n = None.

(** A boolean flag is on; a string flag's value. *)
Definition on (is : list one) (n : string) (b : bool) : Prop := set_to is n (VBool b) \/ not_set is n /\ b = false.
Definition given (is : list one) (n d x : string) : Prop := set_to is n (VString x) \/ not_set is n /\ x = d.
