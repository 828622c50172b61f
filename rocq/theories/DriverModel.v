(** Model of dirhash.go, of Main.getDriver and Main.checkVersion (main.go), and of the
    argument vector fab hands to its driver, with the part of package flag both use. *)
From stdpp Require Import base gmap list strings.
From Coq Require Import Ascii.
From Verif Require Import PathModel.
Local Open Scope list_scope.

(** ** dirhash.go.  [sha]: SHA-224, in hexadecimal; [json]: the canonical JSON encoding of the
    map.  Simplified: the map holds the hexadecimal form. *)
Record hasher := { sha : string -> string; json : gmap string string -> string }.
(** dirhash.go:25-34 *)
Definition dh_file (H : hasher) (d : gmap string string) (f : string * string) : gmap string string := <[Base f.1 := sha H f.2]> d.
(** dirhash.go:38-45 *)
Definition dh_hash (H : hasher) (d : gmap string string) : string := sha H (json H d).
(** main.go:243-252: all files *)
Definition dirhash (H : hasher) (files : list (string * string)) : string := dh_hash H (foldl (dh_file H) ∅ files).

(** ** getDriver, in steps between which the sources may be edited and the process may die. *)
(** The Go files of the package, by base name. *)
Notation sources := (gmap string string).
(** The build information of a fab binary; None if it cannot be read. *)
Notation fabinfo := (option string).
Record binary := { b_src : sources; b_fab : fabinfo }.
(** fab.bin, hash and fab-version.json in driverdir. *)
Record disk := { d_bin : option binary; d_hash : option string; d_ver : option string }.
(** How sources are hashed and build information is encoded and decoded. *)
Record tools := { t_hash : sources -> string; t_enc : string -> string; t_dec : string -> option string }.

(** What is to be done next; the variables of getDriver that matter from there on. *)
Inductive pc :=
  | PStat
  | PVersion
  | PReadHash
  | PHash (old : option string) (info : fabinfo)     (* old: None if compile is already true *)
  | PCopy (newhash : string) (info : fabinfo)
  | PRename (copied : sources) (newhash : string) (info : fabinfo)
  | PTruncHash (newhash : string) (info : fabinfo)
  | PWriteHash (newhash : string) (info : fabinfo)
  | PTruncVer (info : string)
  | PWriteVer (info : string)
  | PReturn.
Record proc := { p_fab : fabinfo; p_force : bool; p_pc : pc }.
Record state := { s_src : option sources; s_disk : disk; s_proc : option proc }.

Inductive file := FBin | FHash | FVer.
Inductive action :=
  | AEdit (s : option sources)               (* the user changes _fab, or removes it *)
  | ARemove (f : file)                       (* somebody deletes a file of driverdir *)
  | AStart (fab : fabinfo) (force : bool)    (* fab is started *)
  | AStep
  | ADie (torn : nat).                       (* fab fails or is killed; of what it was writing, [torn] bytes are there *)
Inductive event :=
  | EvCompiled (b : binary)
  | EvDriver (b : option binary)             (* getDriver returns the driver; the binary now there *)
  | EvNoDriver
  | EvDied.

Definition set_disk (d : disk) (s : state) : state := {| s_src := s_src s; s_disk := d; s_proc := s_proc s |}.
Definition with_bin (b : option binary) (d : disk) : disk := {| d_bin := b; d_hash := d_hash d; d_ver := d_ver d |}.
Definition with_hash (h : option string) (d : disk) : disk := {| d_bin := d_bin d; d_hash := h; d_ver := d_ver d |}.
Definition with_ver (v : option string) (d : disk) : disk := {| d_bin := d_bin d; d_hash := d_hash d; d_ver := v |}.

(** main.go:305-347: compile?, the new build information, and whether the file is removed. *)
Definition checkVersion (T : tools) (fab : fabinfo) (v : option string) : bool * fabinfo * bool :=
  match fab with
  | None => (true, None, true)
  | Some new =>
      match v with
      | None => (true, Some new, false)
      | Some enc =>
          match t_dec T enc with
          | None => (true, Some new, false)
          | Some old => if decide (new = old) then (false, None, false) else (true, Some new, false)
          end
      end
  end.

(** main.go:214-302, one step.  Result None: return errNoDriver.  packages.Load is put here
    together with the reading of the files (243-248); the MkdirAll of driverdir and failures
    (see ADie) are left out.  CompilePackage reads the files in one step (compile.go:165-178)
    and renames the binary into place in another (compile.go:251). *)
Definition proc_step (T : tools) (p : proc) (src : option sources) (d : disk) : option (disk * pc * list event) :=
  match p_pc p, src with
  | PStat, None => None
  | PHash _ _, None | PCopy _ _, None => None
  | PStat, Some _ =>                                                        (* 162-168, 214-232 *)
      if p_force p then Some (d, PHash None None, [])
      else match d_bin d with
           | None => Some (d, PHash None None, [])
           | Some _ => Some (d, PVersion, [])
           end
  | PVersion, _ =>                                                          (* 234-240 *)
      match checkVersion T (p_fab p) (d_ver d) with
      | (compile, info, remove) =>
          let d := if remove then with_ver None d else d in
          Some (d, if compile then PHash None info else PReadHash, [])
      end
  | PReadHash, _ => Some (d, PHash (d_hash d) None, [])                     (* 242-252 *)
  | PHash old info, Some s =>                                               (* 254-282 *)
      let new := t_hash T s in
      match old with
      | Some old => Some (d, if decide (new = old) then PReturn else PCopy new info, [])
      | None => Some (d, PCopy new info, [])
      end
  | PCopy new info, Some s => Some (d, PRename s new info, [])              (* 284 *)
  | PRename copied new info, _ =>
      let b := {| b_src := copied; b_fab := p_fab p |} in
      Some (with_bin (Some b) d, PTruncHash new info, [EvCompiled b])
  | PTruncHash new info, _ => Some (with_hash (Some "") d, PWriteHash new info, [])    (* 287 *)
  | PWriteHash new info, _ =>
      Some (with_hash (Some new) d, match info with Some i => PTruncVer i | None => PReturn end, [])
  | PTruncVer i, _ => Some (with_ver (Some "") d, PWriteVer i, [])          (* 290-300 *)
  | PWriteVer i, _ => Some (with_ver (Some (t_enc T i)) d, PReturn, [])
  | PReturn, _ => Some (d, PReturn, [])
  end.

Definition step (T : tools) (s : state) (a : action) : option (state * list event) :=
  match a with
  | AEdit src => Some ({| s_src := src; s_disk := s_disk s; s_proc := s_proc s |}, [])
  | ARemove f =>
      let d := s_disk s in
      Some (set_disk (match f with FBin => with_bin None d | FHash => with_hash None d | FVer => with_ver None d end) s, [])
  | AStart fab force =>
      match s_proc s with
      | Some _ => None
      | None => Some ({| s_src := s_src s; s_disk := s_disk s; s_proc := Some {| p_fab := fab; p_force := force; p_pc := PStat |} |}, [])
      end
  | AStep =>
      match s_proc s with
      | None => None
      | Some p =>
          match p_pc p with
          | PReturn => Some ({| s_src := s_src s; s_disk := s_disk s; s_proc := None |}, [EvDriver (d_bin (s_disk s))])
          | _ =>
              match proc_step T p (s_src s) (s_disk s) with
              | None => Some ({| s_src := s_src s; s_disk := s_disk s; s_proc := None |}, [EvNoDriver])
              | Some (d, pc, evs) => Some ({| s_src := s_src s; s_disk := d; s_proc := Some {| p_fab := p_fab p; p_force := p_force p; p_pc := pc |} |}, evs)
              end
          end
      end
  | ADie torn =>
      match s_proc s with
      | None => None
      | Some p =>
          let d := s_disk s in
          let d := match p_pc p with
                   | PWriteHash new _ => with_hash (Some (substring 0 torn new)) d
                   | PWriteVer i => with_ver (Some (substring 0 torn (t_enc T i))) d
                   | _ => d
                   end in
          Some ({| s_src := s_src s; s_disk := d; s_proc := None |}, [EvDied])
      end
  end.
Fixpoint exec (T : tools) (s : state) (acts : list action) : option (state * list event) :=
  match acts with
  | [] => Some (s, [])
  | a :: acts =>
      match step T s a with
      | None => None
      | Some (s, evs) => match exec T s acts with None => None | Some (s', evs') => Some (s', evs ++ evs') end
      end
  end.

(** ** The argument vector. *)
Record Main := { m_fabdir : string; m_topdir : string; m_verbose : bool; m_list : bool; m_force : bool; m_dryrun : bool; m_args : list string }.
(** main.go:92-106 *)
Definition driver_args (m : Main) : list string :=
  ["-fab"; m_fabdir m; "-top"; m_topdir m] ++
  (if m_verbose m then ["-v"] else []) ++ (if m_list m then ["-list"] else []) ++
  (if m_force m then ["-f"] else []) ++ (if m_dryrun m then ["-n"] else []) ++ m_args m.

(** Package flag: FlagSet.parseOne and Parse.  A flag is a string or a boolean. *)
Inductive flagkind := FString | FBool.
Inductive flagval := VString (s : string) | VBool (b : bool).
Notation vals := (gmap string flagval).
Definition minus := "-"%char. Definition equals := "="%char.
(** The name and the value after =, which is looked for from the second character on. *)
Fixpoint cut_eq (s : string) : string * option string :=
  match s with
  | EmptyString => ("", None)
  | String c s' => if decide (c = equals) then ("", Some s') else let '(n, v) := cut_eq s' in (String c n, v)
  end.
Definition split_eq (s : string) : string * option string :=
  match s with EmptyString => ("", None) | String c s' => let '(n, v) := cut_eq s' in (String c n, v) end.
(** strconv.ParseBool *)
Definition ParseBool (s : string) : option bool :=
  if decide (s ∈ ["1"; "t"; "T"; "true"; "TRUE"; "True"]) then Some true
  else if decide (s ∈ ["0"; "f"; "F"; "false"; "FALSE"; "False"]) then Some false else None.
Inductive arg := ANotFlag | ATerminator | ABadFlag | AFlag (name : string).
Definition classify (s : string) : arg :=
  match s with
  | String c (String c2 s') =>
      if decide (c = minus) then
        let name := if decide (c2 = minus) then s' else String c2 s' in
        match name with
        | EmptyString => ATerminator
        | String c3 _ => if decide (c3 = minus \/ c3 = equals) then ABadFlag else AFlag name
        end
      else ANotFlag
  | _ => ANotFlag
  end.
(** None: a usage error. *)
Fixpoint parse (flags : gmap string flagkind) (args : list string) (v : vals) : option (vals * list string) :=
  match args with
  | [] => Some (v, [])
  | s :: rest =>
      match classify s with
      | ANotFlag => Some (v, args)
      | ATerminator => Some (v, rest)
      | ABadFlag => None
      | AFlag f =>
          let '(name, value) := split_eq f in
          match flags !! name with
          | None => None
          | Some FBool =>
              match value with
              | None => parse flags rest (<[name := VBool true]> v)
              | Some x => match ParseBool x with None => None | Some b => parse flags rest (<[name := VBool b]> v) end
              end
          | Some FString =>
              match value, rest with
              | Some x, _ => parse flags rest (<[name := VString x]> v)
              | None, x :: rest => parse flags rest (<[name := VString x]> v)
              | None, [] => None
              end
          end
      end
  end.
Definition get_string (v : vals) (n d : string) : string := match v !! n with Some (VString s) => s | _ => d end.
Definition get_bool (v : vals) (n : string) : bool := match v !! n with Some (VBool b) => b | _ => false end.

(** cmd/fab/main.go:14-47; [cache] is the default of -fab.  Topdir is found by Run. *)
Definition fab_flags : gmap string flagkind := {["fab" := FString; "v" := FBool; "list" := FBool; "f" := FBool; "n" := FBool]}.
Definition fab_main (cache top : string) (argv : list string) : option Main :=
  match parse fab_flags argv ∅ with
  | None => None
  | Some (v, args) => Some {| m_fabdir := get_string v "fab" cache; m_topdir := top; m_verbose := get_bool v "v"; m_list := get_bool v "list";
      m_force := get_bool v "f"; m_dryrun := get_bool v "n"; m_args := args |}
  end.
(** driver.go.tmpl:20-50 *)
Definition driver_flags : gmap string flagkind := {["fab" := FString; "top" := FString; "v" := FBool; "list" := FBool; "f" := FBool; "n" := FBool]}.
Definition driver_main (cache : string) (argv : list string) : option Main :=
  match parse driver_flags argv ∅ with
  | None => None
  | Some (v, args) => Some {| m_fabdir := get_string v "fab" cache; m_topdir := get_string v "top" ""; m_verbose := get_bool v "v";
      m_list := get_bool v "list"; m_force := get_bool v "f"; m_dryrun := get_bool v "n"; m_args := args |}
  end.
