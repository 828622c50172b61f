(** Vocabulary for the fab command from the command line to what is executed, for projects whose
    targets are defined in YAML. *)
From stdpp Require Import base gmap list strings relations.
From Coq Require Import Ascii.
From Verif Require Import PathModel FindModel TopDirModel DriverModel ContextModel RegistryModel RunnerModel RunnerSpec RunnerSpec2 YamlModel YamlSpec MainModel MainSpec ProjModel ProjSpec.
Local Open Scope list_scope.

(** The command line is valid and says [m]; fab is called in a project whose top directory is
    [top]; the process that reads the YAML files has working directory [wd] and decoders [T],
    and has no targets before: there is no Go package, or it has none. *)
Definition yaml_project (M : machine) (argv : list string) (m : Main) (top : string) (T : tags) (wd : string) : Prop :=
  (exists cache, k_cache M = Some cache /\ fab_main cache "" argv = Some m) /\ "--" ∉ argv /\
  TopDir (k_decl M) (k_fs M) (Some (k_cwd M)) "." = Ok top /\ reader M top T wd {| y_objs := []; y_reg := ∅ |}.

(** The arguments [args] name the target [q]: as the first argument, if the second begins with a
    hyphen; else as any. *)
Definition names_target (args : list string) (q : string) : Prop :=
  (exists s rest, args = q :: String "-"%char s :: rest) \/
  ((forall a s rest, args <> a :: String "-"%char s :: rest) /\ q ∈ args).

(** The arguments of Controller.Run for the targets of a request.  A target with arguments is a
    new ArgTarget (controller.go:88-91). *)
Definition as_tref (r : request) (objs' : list shape) (t : argt) (u : tref) : Prop :=
  match t with
  | Plain (RegistryModel.TPtr o) => u = RunnerModel.TPtr o
  | RegistryModel.WithArgs (RegistryModel.TPtr o) args =>
      exists x : nat, u = RunnerModel.TPtr x /\ length (r_objs r) <= x /\ objs' !! x = Some (SArgs o args)
  | _ => False
  end.

(** The request [r] is being carried out, and [tr] is what the controller has done so far (the
    process may be killed at any time): [objs'] are the target values, those that decoding and
    ParseArgs made; [leafp] is what commands and the like do, which is not to call Run. *)
Record under_way (lf : string -> node -> string -> option (list string * list string)) (r : request)
    (objs' : list shape) (addr : nat -> nat) (leafp : nat -> ctx -> prog) (tr : list event) : Prop := {
  uw_objs : expands lf (snd <$> r_reg r) (r_objs r) objs';
  uw_addr : forall o1 o2, addr o1 = addr o2 -> o1 = o2;
  uw_leaf : forall o cx ts, ~ may_call (leafp o cx) ts;
  uw_exec : executes (project_world addr objs' leafp) (snd <$> r_reg r) tr;
  uw_call : exists c ts, Forall2 (as_tref r objs') (r_targets r) ts /\
    forall c' cx' ts', EvCall c' None cx' ts' ∈ tr -> c' = c /\ cx' = r_ctx r /\ ts' = ts
}.
(** It has been carried out, with result [e]. *)
Definition carried_out (M : machine) (lf : string -> node -> string -> option (list string * list string)) (r : request)
    (objs' : list shape) (addr : nat -> nat) (leafp : nat -> ctx -> prog) (tr : list event) (e : option err) : Prop :=
  under_way lf r objs' addr leafp tr /\
  (exists c ts, EvCall c None (r_ctx r) ts ∈ tr /\ EvRet c None e ∈ tr) /\ (k_run M r = true <-> e = None).

(** The files of the project as seen by that process. *)
Definition defined (M : machine) (top wd dir q : string) (v : node) : Prop := exists k, defines top (k_docs M wd) dir q k v.
(** The target made for the node [n] of the YAML file of directory [dir]. *)
Definition made_for (M : machine) (top : string) (T : tags) (wd : string) (r : request) (dir : string) (n : node) (x : nat) : Prop :=
  means top (tag_lists T) (tag_leaf T) (k_bool M) (k_docs M wd) (r_objs r) dir n x.

(** Why something to be carried out failed: a name that is not registered, a rule whose own work
    failed, or a command (or the like) whose body returned an error. *)
Definition failure_cause (M : machine) (top : string) (T : tags) (wd : string) (lf : string -> node -> string -> option (list string * list string))
    (r : request) (tr : list event) (d : string) (n : node) : Prop :=
  (exists q, reference top d n q /\ r_reg r !! q = None) \/
  (exists ins outs x g a k, rule top (tag_lists T) lf d n ins outs /\ made_for M top T wd r d n x /\ EvEnd g a x (Some (EBody k)) ∈ tr) \/
  (exists t x, has_tag n t /\ t ∉ ["All"; "Seq"; "Deps"; "ArgTarget"; "Files"] /\ made_for M top T wd r d n x /\ ended_badly x tr).

(** The arguments for the targets named: those that follow, if the second begins with a hyphen. *)
Definition own_args (args : list string) : list string :=
  match args with _ :: ((String c _ :: _) as rest) => if decide (c = "-"%char) then rest else [] | _ => [] end.

(** A body may have the effect [l]. *)
Inductive may_eff : prog -> label -> Prop :=
  | me_here l k : may_eff (Eff l k) l
  | me_eff l k r l' : may_eff (k r) l' -> may_eff (Eff l k) l'
  | me_call cx ts k e l : may_eff (k e) l -> may_eff (Call cx ts k) l
  | me_res d k r l : may_eff (k r) l -> may_eff (Resolve d k) l.

(** fab gives up without asking for anything to be run: the project file is wrong; the hash
    database cannot be opened; the second argument is the empty string (a panic); a target is
    named that there is not; or the project has a Go package, and nothing is named, or a target
    of it cannot be registered, or its binary is not where fab put it. *)
Definition gave_up (M : machine) (fuel : nat) (m : Main) (top : string) (T : tags) (wd : string) : Prop :=
  let s0 := {| y_objs := []; y_reg := ∅ |} in
  (exists s, read_top M T fuel wd top s0 = RErr s false) \/
  k_db M (at_wd wd (m_fabdir m)) = None \/
  (exists x rest, m_args m = x :: "" :: rest) \/
  (exists s q, read_ok M T fuel wd top s0 s /\ names_target (m_args m) q /\ y_reg s !! q = None) \/
  exists path p, has_package M top path p /\
    (m_args m = [] \/ (exists n d, (n, d, None) ∈ p_targets p) \/
     at_wd wd (Join [m_fabdir m; path; "fab.bin"]) <> at_wd (k_cwd M) (Join [m_fabdir m; path; "fab.bin"])).
