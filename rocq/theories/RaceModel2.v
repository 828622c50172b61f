(** The accesses to shared variables that built-in targets make in their bodies, besides those
    of RaceModel.v: the registries of files.go, clean.go and yaml.go, the list of a Clean target,
    and name references that are read for the JSON description of a Files target.

    Simplifications: what never changes after the targets have been declared (the fields of
    Files, All, ... targets) is not shown; what Command and user-defined targets do is not
    shown; within a block of actions below no other thread acts (a mutex is held, or, in
    clean.go:46 and files.go:182, see there). *)
From stdpp Require Import base gmap list strings.
From Verif Require Import ContextModel RunnerModel RaceModel.
Local Open Scope list_scope.

Inductive var :=
  | VFilesReg             (* filesRegistry.items, files.go:21 *)
  | VAuto                 (* autocleanRegistry, clean.go:80 *)
  | VTags (lists : bool)  (* items of the registries of yaml.go:27-28 *)
  | VArray (n : nat).     (* the elements of a slice that is Clean.Files, clean.go:30 *)
Inductive mutex2 :=
  | MFilesReg             (* filesRegistry.mu *)
  | MAuto                 (* autocleanMu, clean.go:79 *)
  | MTags (lists : bool).
Inductive act2 :=
  | Base (a : act)
  | RdD (d : obj)         (* reads Target of the deferred target d without locking its mutex *)
  | RdV (v : var)
  | WrV (v : var)
  | LockV (m : mutex2)
  | UnlockV (m : mutex2).

(** What the targets of a program are like: the name references that the JSON description of
    the Files target [f] contains (exported fields, reached through exported fields); and for
    a Clean target the array of its Files, whether Autoclean is set, and whether elements of that
    array are written (sorting moves some, unless appending copied them to another array; or
    appending fills its spare capacity, which is then shown after the mutex is released). *)
Record clean := { cl_array : nat; cl_autoclean : bool; cl_sorts : bool }.
Record shapes := { sh_shown : obj -> list obj; sh_clean : obj -> option clean }.

(** registry.go:14-18, 20-25, files.go:239-243, clean.go:41-44: what any thread may do, e.g. by
    calling Files, RegisterYAMLTarget, ReadYAML, or running a Files target (files.go:216). *)
Inductive shared_acts : list act2 -> Prop :=
  | sa_declare : shared_acts [LockV MFilesReg; WrV VFilesReg; UnlockV MFilesReg]
  | sa_find : shared_acts [LockV MFilesReg; RdV VFilesReg; UnlockV MFilesReg]
  | sa_autoclean : shared_acts [LockV MAuto; RdV VAuto; WrV VAuto; UnlockV MAuto]
  | sa_tag b : shared_acts [LockV (MTags b); WrV (VTags b); UnlockV (MTags b)]
  | sa_lookup b : shared_acts [LockV (MTags b); RdV (VTags b); UnlockV (MTags b)].

(** clean.go:38-46.  Reading and sorting the list is shown as one step. *)
Definition clean_acts (c : clean) : list act2 :=
  (if cl_autoclean c then [LockV MAuto; RdV VAuto; UnlockV MAuto] else []) ++
  RdV (VArray (cl_array c)) :: (if cl_sorts c then [WrV (VArray (cl_array c))] else []).

(** files.go:182: json.Marshal of the target.  (The step OpHash of RunnerModel.v is the whole
    of computeHash.) *)
Definition hash_acts (sh : shapes) (s : state) (ch : choice) : list act2 :=
  match ch with
  | ChGo g _ =>
      match s_gors s !! g with
      | Some gr => match g_st gr with GBody (Eff (OpHash _ f) _) => RdD <$> sh_shown sh f | _ => [] end
      | None => []
      end
  | _ => []
  end.

Inductive execution2 (w : world) (sh : shapes) : state -> list (thread * act2) -> Prop :=
  | ex2_init : execution2 w sh init []
  | ex2_step s T ch s' : execution2 w sh s T -> step w s ch = Some s' ->
      execution2 w sh s' (T ++ (pair (actor s ch) <$> (Base <$> actions w s ch) ++ hash_acts sh s ch))
  | ex2_use s T t l : execution2 w sh s T -> may_use s t -> l = describe_acts \/ l = indent_acts ->
      execution2 w sh s (T ++ (pair t <$> (Base <$> l)))
  | ex2_shared s T t l : execution2 w sh s T -> may_use s t -> shared_acts l -> execution2 w sh s (T ++ (pair t <$> l))
  | ex2_clean s T g gr p c : execution2 w sh s T -> s_gors s !! g = Some gr -> g_st gr = GBody p ->
      sh_clean sh (g_obj gr) = Some c -> execution2 w sh s (T ++ (pair (TGo g) <$> clean_acts c)).
