(** Model of a run of the fab command from the command line to the exit status: cmd/fab/main.go,
    Main.Run and Main.driverless (main.go:68-143), OpenHashDB (main.go:147-156) and the main
    function of a driver (driver.go.tmpl).

    The parts are those of the other models: TopDir (TopDirModel.v), flag parsing and the
    driver's argument vector (DriverModel.v), reading YAML (YamlModel.v), ParseArgs and
    ListTargets (RegistryModel.v), contexts (ContextModel.v).  Whether the driver is fresh is
    the subject of DriverModel.v; here getDriver finds or builds the driver of the package
    that is in the _fab directory.

    Simplifications: the texts of error messages and of the progress messages of -v are not
    modelled, only that there is one; no file changes while fab starts; a package that calls
    fab functions of its own accord during initialization only adds decoders (tags). *)
From stdpp Require Import base gmap list strings.
From Coq Require Import Ascii.
From Verif Require Import PathModel TopDirModel DriverModel YamlModel RegistryModel ContextModel.
Local Open Scope list_scope.

(** The decoders registered in a process (yaml.go:26-35 and 273-277). *)
Record tags := { tag_lists : list_fns; tag_leaf : string -> option (node -> string -> bool);
  tag_ne_list : nat -> bool; tag_ne_leaf : string -> node -> string -> bool }.

(** A compiled _fab package: its target objects; the exported targets (compile.go) in order,
    with name, doc string and object (None: a target that is not a pointer); its decoders. *)
Record gopkg := { p_objs : list shape; p_targets : list (string * string * option nat); p_tags : tags }.

(** What getDriver (main.go:162-322) finds in a directory where there is a _fab entry:
    no package (errNoDriver), an error, or a package; [path] is the package path. *)
Inductive loaded := NoPackage | LoadFails | Package (path : string) (p : gopkg).

(** A request to Controller.Run: the working directory of the process, the controller's top
    directory, the target objects, the registry, the context and the targets. *)
Record request := { r_wd : string; r_top : string; r_objs : list shape; r_reg : gmap string (string * nat); r_ctx : ctx; r_targets : list argt }.

Record machine := {
  k_cwd : string;                                     (* the working directory, absolute *)
  k_cache : option string;                            (* os.UserCacheDir or $HOME/.cache *)
  k_fs : fsys;                                        (* by absolute path *)
  k_decl : string -> option (option string);          (* YAML text to _dir declaration, see TopDirModel.v *)
  k_yaml : string -> option node;                     (* YAML text to document *)
  k_bool : node -> option bool;
  k_tags : tags;                                      (* of the fab binary: predefined and package golang *)
  k_load : string -> loaded;                          (* by absolute path of the top directory *)
  k_db : string -> option dbref;                      (* OpenHashDB, by absolute path *)
  k_run : request -> bool                             (* does Controller.Run return nil? *)
}.

(** What a process does that can be seen. *)
Inductive act :=
  | Note                        (* a progress message of -v *)
  | Usage                       (* the summary of the flags *)
  | Complain                    (* an error message *)
  | Print (s : string)
  | OpenDB (dir : string)       (* creates the directory and the file if necessary *)
  | Run (r : request).

(** The place a path names in a process with working directory [wd]. *)
Definition at_wd (wd p : string) : string := if IsAbs p then Clean p else Join [wd; p].

(** yaml.go:263-271 and decoding, for paths of a process with working directory [wd]. *)
Definition k_docs (M : machine) (wd dir : string) : option node :=
  match openFabYAML (fun p => k_fs M (at_wd wd p)) dir with Opened (IsFile c) => k_yaml M c | _ => None end.
Definition k_ne (M : machine) (wd : string) (T : tags) : notexist :=
  {| ne_file := fun dir => match openFabYAML (fun p => k_fs M (at_wd wd p)) dir with OpenNotExist => true | _ => false end;
     ne_list := tag_ne_list T; ne_leaf := tag_ne_leaf T |}.

(** con.ReadYAMLFile("") for a controller with top directory [top]. *)
Definition read_top (M : machine) (T : tags) (fuel : nat) (wd top : string) (s : ystate) : res unit :=
  let docs := k_docs M wd in let ne := k_ne M wd T in
  ReadYAMLFile top docs ne (YAMLTarget top (tag_lists T) (tag_leaf T) (k_bool M) docs ne fuel) "" s.

(** The registry of RegistryModel.v: object [o] is the pointer number [o]. *)
Definition as_registry (m : gmap string (string * nat)) : registry :=
  {| by_name := map_imap (fun n p => Some {| t_target := TPtr p.2; t_name := n; t_doc := p.1 |}) m; by_addr := ∅ |}.

(** The outcome of a process: what it did and its exit status.  [None]: fuel ran out. *)
Definition outcome := option (list act * nat).
Definition done (a : list act) (status : nat) : outcome := Some (a, status).

(** ParseArgs and Run: main.go:137-142 and driver.go.tmpl:83-90.  A panic ends the process
    with status 2 and a message. *)
Definition parse_and_run (M : machine) (wd top : string) (s : ystate) (c : ctx) (args : list string) : list act * nat :=
  match ParseArgs (fun _ => as_registry (y_reg s)) args with
  | PErr _ => ([Complain], 1)
  | PPanic => ([Complain], 2)
  | POk ts =>
      let r := {| r_wd := wd; r_top := top; r_objs := y_objs s; r_reg := y_reg s; r_ctx := c; r_targets := ts |} in
      if k_run M r then ([Run r], 0) else ([Run r; Complain], 1)
  end.

(** main.go:110-143, with the error handling of cmd/fab/main.go:44-47: the whole rest of the process. *)
Definition driverless (M : machine) (fuel : nat) (m : Main) : outcome :=
  let note := if m_verbose m then [Note] else [] in
  match read_top M (k_tags M) fuel (k_cwd M) (m_topdir m) {| y_objs := []; y_reg := ∅ |} with
  | ROut => None
  | RErr _ false => done (note ++ [Complain]) 1
  | ROk s _ | RErr s true =>
      if m_list m then done (note ++ [Print (ListTargets (fun _ => as_registry (y_reg s)))]) 0
      else
        let c := WithDryRun (WithForce (WithVerbose Background (m_verbose m)) (m_force m)) (m_dryrun m) in
        let dir := at_wd (k_cwd M) (m_fabdir m) in
        match k_db M dir with
        | None => done (note ++ [OpenDB dir; Complain]) 1
        | Some db =>
            let '(a, st) := parse_and_run M (k_cwd M) (m_topdir m) s (WithHashDB c (Some db)) (m_args m) in
            done (note ++ [OpenDB dir] ++ a) st
        end
  end.

(** driver.go.tmpl:53-59: false if there is an error. *)
Fixpoint register_all (ts : list (string * string * option nat)) (s : ystate) : ystate * bool :=
  match ts with
  | [] => (s, true)
  | (name, doc, Some o) :: ts => register_all ts (register name doc o s)
  | (_, _, None) :: _ => (s, false)
  end.

Definition hint : string := "Specify one or more of the following targets:" +:+ nl +:+ nl.

(** Package flag, for flags -h and -help that are not defined: the usage is printed and the
    exit status is 0; any other bad flag gives a message and status 2.  The same walk as
    [parse] (DriverModel.v). *)
Fixpoint asks_help (flags : gmap string flagkind) (args : list string) : bool :=
  match args with
  | [] => false
  | s :: rest =>
      match classify s with
      | AFlag f =>
          let '(name, value) := split_eq f in
          match flags !! name with
          | None => bool_decide (name = "h" \/ name = "help")
          | Some FBool =>
              match value with
              | None => asks_help flags rest
              | Some x => match ParseBool x with None => false | Some _ => asks_help flags rest end
              end
          | Some FString =>
              match value, rest with
              | Some _, _ => asks_help flags rest
              | None, _ :: rest => asks_help flags rest
              | None, [] => false
              end
          end
      | _ => false
      end
  end.
Definition usage (flags : gmap string flagkind) (argv : list string) : outcome :=
  if asks_help flags argv then done [Usage] 0 else done [Complain; Usage] 2.

(** driver.go.tmpl:20-98: the driver of [p] as a process with working directory [wd]. *)
Definition driver (M : machine) (fuel : nat) (p : gopkg) (wd : string) (argv : list string) : outcome :=
  match k_cache M with
  | None => done [Complain] 1
  | Some cache =>
    match driver_main cache argv with
    | None => usage driver_flags argv
    | Some m =>
        let c := WithDryRun (WithForce (WithVerbose Background (m_verbose m)) (m_force m)) (m_dryrun m) in
        match register_all (p_targets p) {| y_objs := p_objs p; y_reg := ∅ |} with
        | (_, false) => done [Complain] 1
        | (s, true) =>
            match read_top M (p_tags p) fuel wd (m_topdir m) s with
            | ROut => None
            | RErr _ false => done [Complain] 1
            | ROk s _ | RErr s true =>
                let dir := at_wd wd (m_fabdir m) in
                match k_db M dir with
                | None => done [OpenDB dir; Complain] 1
                | Some db =>
                    let listing := Print (ListTargets (fun _ => as_registry (y_reg s))) in
                    if m_list m then done [OpenDB dir; listing] 0
                    else if decide (m_args m = []) then done [OpenDB dir; Print hint; listing] 0
                    else
                      let '(a, st) := parse_and_run M wd (m_topdir m) s (WithHashDB c (Some db)) (m_args m) in
                      done (OpenDB dir :: a) st
                end
            end
        end
    end
  end.

(** main.go:68-106 with cmd/fab/main.go:44-47.  The driver is built at [bin], seen from the
    working directory of fab; it is looked for at [bin], seen from its own working directory
    (os/exec: a relative path is evaluated relative to Dir).  The model takes it that there
    is no other executable file there. *)
Definition Main_Run (M : machine) (fuel : nat) (m : Main) : outcome :=
  match (if decide (m_topdir m = "") then TopDir (k_decl M) (k_fs M) (Some (k_cwd M)) "." else Ok (m_topdir m)) with
  | Ok top =>
      let m := {| m_fabdir := m_fabdir m; m_topdir := top; m_verbose := m_verbose m; m_list := m_list m;
                  m_force := m_force m; m_dryrun := m_dryrun m; m_args := m_args m |} in
      let wd := at_wd (k_cwd M) top in
      match k_fs M (at_wd (k_cwd M) (Join [top; "_fab"])) with
      | NotExist => driverless M fuel m
      | _ =>
          match k_load M wd with
          | NoPackage => driverless M fuel m
          | LoadFails => done [Complain] 1
          | Package path p =>
              let note := if m_verbose m then [Note] else [] in
              let bin := Join [m_fabdir m; path; "fab.bin"] in
              if decide (at_wd wd bin = at_wd (k_cwd M) bin) then
                match driver M fuel p wd (driver_args m) with
                | None => None
                | Some (a, 0) => done (note ++ a) 0
                | Some (a, _) => done (note ++ a ++ [Complain]) 1
                end
              else done (note ++ [Complain]) 1
          end
      end
  | _ => done [Complain] 1
  end.

(** cmd/fab/main.go:13-48. *)
Definition fab (M : machine) (fuel : nat) (argv : list string) : outcome :=
  match k_cache M with
  | None => done [Complain] 1
  | Some cache =>
      match fab_main cache "" argv with
      | None => usage fab_flags argv
      | Some m => Main_Run M fuel m
      end
  end.
