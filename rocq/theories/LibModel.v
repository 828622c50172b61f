(** Model of the targets defined on top of Files: their constructors and their YAML decoders
    (clean.go:81-120, golang/go.go:36-89 and 161-176, proto/proto.go:40-91 and 152-165,
    ts/tsdecls.go), and of the Run method of ts.Decls' subtarget. *)
From stdpp Require Import base gmap list strings.
From Verif Require Import PathModel StrOrd YamlModel FilesModel.
From Verif Require GoDepsModel ProtoModel CleanModel.
Local Open Scope list_scope.

(** The subtargets of these Files targets.  Simplification: of a Command only Cmd and Args are
    ever set here. *)
Inductive sub :=
  | SubCmd (cmd : string) (args : list string)
  | SubDecls (dir typename prefix outfile : string).        (* ts/tsdecls.go:62-64 *)
Inductive target :=
  | LClean (files : list string) (autoclean : bool)
  | LFiles (s : sub) (ins outs : list string).
(** What the subtarget looks like to json.Marshal and reflect.TypeOf. *)
Definition tgt_of (s : sub) : tgt :=
  match s with
  | SubCmd cmd args => TCmd {| c_shell := ""; c_cmd := cmd; c_args := args; c_stdout_file := ""; c_stderr_file := "";
      c_stdin_file := ""; c_dir := ""; c_env := [] |}
  | SubDecls dir typename prefix outfile =>
      TUser "*ts.declsType" (Some (JObj [("Dir", JStr dir); ("Typename", JStr typename); ("Prefix", JStr prefix); ("Outfile", JStr outfile)]))
  end.

(** Results: the target, together with the autoclean registry afterwards (clean.go:76-79).
    All errors come before the registry is changed. *)
Inductive tres := TOk (reg : gset string) (t : target) | TErr | TPanic | TOutOfFuel.
(** files.go:97-111 with Autoclean(ac) (files.go:229-246) as the only option.  The registry of
    Files targets is in FindModel.v. *)
Definition Files (s : sub) (ins outs : list string) (ac : bool) (reg : gset string) : tres :=
  TOk (CleanModel.Autoclean ac outs reg) (LFiles s ins outs).

(** ts/tsdecls.go:54-60, golang/go.go:59-65 *)
Definition must (r : tres) : tres := match r with TErr => TPanic | r => r end.

Section lib.
  (** The top directory; the string-list functions; what yaml.Node.Decode makes of a node for a
      field of type bool, string, []string (None: an error). *)
  Context (top : string) (fns : list_fns) (ybool : node -> option bool) (ystr : node -> option string)
    (ystrs : node -> option (list string)).
  (** golang.Deps(dir, recursive, tests), see GoDepsModel.v; the files proto.Deps can open. *)
  Context (godeps : string -> bool -> bool -> GoDepsModel.dres) (fs : ProtoModel.fsys).

  Definition str_field (n : node) : option string := if decide (n_kind n = KNone) then Some "" else ystr n.
  Definition strs_field (n : node) : option (list string) := if decide (n_kind n = KNone) then Some [] else ystrs n.

  (** clean.go:81-116 *)
  Definition cleanDecoder (n : node) (dir : string) (reg : gset string) : tres :=
    match n_kind n with
    | KMapping =>
        match decode_struct n with
        | None => TErr
        | Some flds =>
            match bool_field ybool (field "Autoclean" flds) with
            | None => TErr
            | Some ac =>
                match YAMLFileList fns top (field "Files" flds) dir with
                | LErr _ => TErr
                | LOk files => TOk reg (LClean files ac)
                end
            end
        end
    | KSequence =>
        match YAMLFileListFromNodes fns top (n_content n) dir with
        | LErr _ => TErr
        | LOk files => TOk reg (LClean files false)
        end
    | _ => TErr
    end.

  (** golang/go.go:36-56 *)
  Definition Binary (dir outfile : string) (flags : list string) (reg : gset string) : tres :=
    let outfile := if decide (outfile = "") then Base dir else outfile in
    match Rel dir outfile with
    | None => TErr
    | Some relOutfile =>
        match godeps dir false false with
        | GoDepsModel.DepsErr => TErr
        | GoDepsModel.DepsPanic => TPanic
        | GoDepsModel.DepsOutOfFuel => TOutOfFuel
        | GoDepsModel.DepsOk deps =>
            let args := ["build"; "-C"; dir; "-o"; relOutfile] ++ flags in
            let args := args ++ ["."] in
            Files (SubCmd "go" args) deps [outfile] true reg
        end
    end.
  (** golang/go.go:67-89 *)
  Definition binaryDecoder (n : node) (dir : string) (reg : gset string) : tres :=
    match decode_struct n with
    | None => TErr
    | Some flds =>
        match str_field (field "Dir" flds), str_field (field "Out" flds) with
        | Some bDir, Some bOut =>
            let out := if decide (bOut = "") then Base bDir else bOut in
            match YAMLStringList fns (field "Flags" flds) dir with
            | LErr _ => TErr
            | LOk flags => Binary (JoinPath top [dir; bDir]) (JoinPath top [dir; out]) flags reg
            end
        | _, _ => TErr
        end
    end.
  (** golang/go.go:161-173; None: the node cannot be decoded. *)
  Definition depsDecoder (n : node) (dir : string) : option GoDepsModel.dres :=
    match decode_struct n with
    | None => None
    | Some flds =>
        match str_field (field "Dir" flds), bool_field ybool (field "Recursive" flds), bool_field ybool (field "Tests" flds) with
        | Some gDir, Some rec, Some tests => Some (godeps (JoinPath top [dir; gDir]) rec tests)
        | _, _, _ => None
        end
    end.
  (** As a string-list function.  Simplification: a panic counts as an error. *)
  Definition go_deps_fn (n : node) (dir : string) : lres :=
    match depsDecoder n dir with
    | Some (GoDepsModel.DepsOk l) => LOk l
    | _ => LErr (OtherErr 1)
    end.

  (** proto/proto.go:40-57; the fuel suffices (C49_terminates). *)
  Definition Proto (inputs outputs includes otherOpts : list string) (ac : bool) (reg : gset string) : tres :=
    match ProtoModel.Proto fs includes (S (size fs)) inputs otherOpts with
    | None => TErr
    | Some (ins, args) => Files (SubCmd "protoc" args) ins outputs ac reg
    end.
  (** proto/proto.go:59-87 *)
  Definition protoDecoder (n : node) (dir : string) (reg : gset string) : tres :=
    match decode_struct n with
    | None => TErr
    | Some flds =>
        match strs_field (field "Opts" flds), bool_field ybool (field "Autoclean" flds) with
        | Some opts, Some ac =>
            match YAMLFileList fns top (field "Inputs" flds) dir with
            | LErr _ => TErr
            | LOk inputs =>
                match YAMLFileList fns top (field "Outputs" flds) dir with
                | LErr _ => TErr
                | LOk outputs =>
                    match YAMLFileList fns top (field "Includes" flds) dir with
                    | LErr _ => TErr
                    | LOk includes => Proto inputs outputs includes opts ac reg
                    end
                end
            end
        | _, _ => TErr
        end
    end.
  (** proto/proto.go:152-161.  The includes are passed on as they are. *)
  Definition protodepsDecoder (n : node) (dir : string) : lres :=
    match decode_struct n with
    | None => LErr (OtherErr 2)
    | Some flds =>
        match str_field (field "File" flds), strs_field (field "Includes" flds) with
        | Some file, Some includes =>
            match ProtoModel.Deps fs includes (S (size fs)) (JoinPath top [dir; file]) with
            | ProtoModel.DepsRet l true => LOk l
            | _ => LErr (OtherErr 2)
            end
        | _, _ => LErr (OtherErr 2)
        end
    end.

  (** ts/tsdecls.go:37-51; [ac]: the option Autoclean, the only one the decoder passes. *)
  Definition Decls (dir typename prefix outfile : string) (ac : bool) (reg : gset string) : tres :=
    match godeps dir false false with
    | GoDepsModel.DepsErr => TErr
    | GoDepsModel.DepsPanic => TPanic
    | GoDepsModel.DepsOutOfFuel => TOutOfFuel
    | GoDepsModel.DepsOk gopkg => Files (SubDecls dir typename prefix outfile) gopkg [outfile] ac reg
    end.
  (** ts/tsdecls.go:89-102 *)
  Definition declsDecoder (n : node) (dir : string) (reg : gset string) : tres :=
    match decode_struct n with
    | None => TErr
    | Some flds =>
        match str_field (field "Dir" flds), str_field (field "Type" flds), str_field (field "Prefix" flds),
              str_field (field "Out" flds), bool_field ybool (field "Autoclean" flds) with
        | Some dDir, Some typ, Some prefix, Some out, Some ac =>
            Decls (JoinPath top [dir; dDir]) typ prefix (JoinPath top [dir; out]) ac reg
        | _, _, _, _, _ => TErr
        end
    end.
End lib.

(** ** ts/tsdecls.go:68-82, the Run method of the subtarget.  The contents of files by name;
    [create]: os.Create succeeds; [gen]: what tsdecls.Write writes, and its error; [close]: the
    explicit Close succeeds (the deferred one's result is ignored).
    Simplification: a failing os.Create changes nothing. *)
Inductive derr := ECreate | EGen (e : nat) | EClose.
Definition decls_run (dry create : bool) (gen : string * option nat) (close : bool) (outfile : string)
    (files : gmap string string) : gmap string string * option derr :=
  if dry then (files, None)
  else if create then
    let files := <[outfile := ""]> files in
    let files := <[outfile := gen.1]> files in
    match gen.2 with
    | Some e => (files, Some (EGen e))
    | None => if close then (files, None) else (files, Some EClose)
    end
  else (files, Some ECreate).
