(** The file operations of CompilePackage (compile.go:79-251, 257-312), one after the other, each
    of which may fail, on the file system; and the go commands it runs.  What is computed from the
    package beforehand is [CompilePackage] of CompileModel.v.

    Simplifications: a path is the list of its elements (no symbolic links); packages.Load and
    ParseDir have read the package before, and nobody changes the files in the meantime; the
    environment of the process and its working directory are not shown. *)
From stdpp Require Import base gmap list strings.
From Verif Require Import PathModel CompileModel.
Local Open Scope list_scope.

Notation path := (list string).
Inductive node := FDir | FFile (content : string).
#[global] Instance node_eq_dec : EqDecision node. Proof. solve_decision. Defined.
Notation fsys := (gmap path node).

(** What CompilePackage depends on besides the package. *)
Record tools := {
  t_tempdir : path;                     (* os.TempDir() *)
  t_dev : path -> nat;                  (* the file system (device) a directory is on *)
  t_embeds : list etree;                (* the embedded sources of fab, embeds.go *)
  t_render : driver -> string;          (* driver.go.tmpl *)
  t_modinit : string;                   (* what go mod init x writes *)
  t_addreplace : string -> option string; (* modfile.Parse, AddReplace, Format: compile.go:212-224 *)
  t_tidied : string -> string -> Prop;  (* go.mod before and after go mod tidy *)
  (** go build in a directory with these contents; None: an error. *)
  t_build : (path -> option node) -> option string }.

(** The directory [dir] and what is below it. *)
Definition below (dir : path) (fs : fsys) : path -> option node := fun q => fs !! (dir ++ q).

(** The operations. *)
Inductive op :=
  | OMkdirAll (p : path)                     (* os.MkdirAll *)
  | OReadDir (p : path)                      (* os.ReadDir *)
  | OCreate (excl : bool) (p : path)         (* os.Create, or os.OpenFile with O_CREATE|O_EXCL *)
  | OOpen (p : path)                         (* os.Open *)
  | OFill (p : path) (content : string)      (* writing to the newly created file *)
  | OCopy (src dst : path)                   (* io.Copy *)
  | OGoInit (dir : path)                     (* go mod init x *)
  | OEditMod (p : path)                      (* compile.go:207-226: read, parse, change, write *)
  | OGoTidy (dir : path)                     (* go mod tidy *)
  | OGoBuild (dir : path)                    (* go build *)
  | ORename (src dst : path).                (* os.Rename *)

Definition parent (p : path) : path := removelast p.
Definition is_dir (fs : fsys) (p : path) : Prop := p = [] \/ fs !! p = Some FDir.
#[global] Instance is_dir_dec fs p : Decision (is_dir fs p). Proof. apply _. Defined.
(** The directories from the root to [p], without the root. *)
Definition dirs_to (p : path) : list path := (fun n => take (S n) p) <$> seq 0 (length p).
Definition mkdirs (l : list path) (fs : fsys) : fsys := foldl (fun fs q => if fs !! q then fs else <[q := FDir]> fs) fs l.

(** What the operations do if they succeed. *)
Inductive succeeds (T : tools) : op -> fsys -> fsys -> Prop :=
  | s_mkdir p fs : Forall (fun q => forall c, fs !! q <> Some (FFile c)) (dirs_to p) ->
      succeeds T (OMkdirAll p) fs (mkdirs (dirs_to p) fs)
  | s_readdir p fs : is_dir fs p -> succeeds T (OReadDir p) fs fs
  | s_create excl p fs : is_dir fs (parent p) -> p <> [] -> fs !! p <> Some FDir -> (excl = true -> fs !! p = None) ->
      succeeds T (OCreate excl p) fs (<[p := FFile ""]> fs)
  | s_open p fs c : fs !! p = Some (FFile c) -> succeeds T (OOpen p) fs fs
  | s_fill p c c0 fs : fs !! p = Some (FFile c0) -> succeeds T (OFill p c) fs (<[p := FFile c]> fs)
  | s_copy src dst c c0 fs : fs !! src = Some (FFile c) -> fs !! dst = Some (FFile c0) ->
      succeeds T (OCopy src dst) fs (<[dst := FFile c]> fs)
  | s_init dir fs : is_dir fs dir -> fs !! (dir ++ ["go.mod"]) = None ->
      succeeds T (OGoInit dir) fs (<[dir ++ ["go.mod"] := FFile (t_modinit T)]> fs)
  | s_edit p c c' fs : fs !! p = Some (FFile c) -> t_addreplace T c = Some c' -> succeeds T (OEditMod p) fs (<[p := FFile c']> fs)
  | s_tidy dir fs m m' sum : fs !! (dir ++ ["go.mod"]) = Some (FFile m) -> t_tidied T m m' -> fs !! (dir ++ ["go.sum"]) <> Some FDir ->
      succeeds T (OGoTidy dir) fs (<[dir ++ ["go.sum"] := FFile sum]> (<[dir ++ ["go.mod"] := FFile m']> fs))
  | s_build dir fs tree exe : (forall q, tree q = below dir fs q) -> t_build T tree = Some exe -> fs !! (dir ++ ["x"]) <> Some FDir ->
      succeeds T (OGoBuild dir) fs (<[dir ++ ["x"] := FFile exe]> fs)
  (** rename(2): fails between file systems (EXDEV). *)
  | s_rename src dst c fs : fs !! src = Some (FFile c) -> is_dir fs (parent dst) -> dst <> [] -> fs !! dst <> Some FDir ->
      t_dev T (parent src) = t_dev T (parent dst) -> succeeds T (ORename src dst) fs (<[dst := FFile c]> (delete src fs)).

(** What is possible if they fail, which they may at any time. *)
Definition same_but (changed : path -> Prop) (fs fs' : fsys) : Prop := forall p, ~ changed p -> fs' !! p = fs !! p.
Inductive fails : op -> fsys -> fsys -> Prop :=
  | f_mkdir p n fs : fails (OMkdirAll p) fs (mkdirs (take n (dirs_to p)) fs)
  | f_readdir p fs : fails (OReadDir p) fs fs
  | f_create excl p fs : fails (OCreate excl p) fs fs
  | f_open p fs : fails (OOpen p) fs fs
  | f_fill p c fs fs' : same_but (fun q => q = p) fs fs' -> fails (OFill p c) fs fs'
  | f_copy src dst fs fs' : same_but (fun q => q = dst) fs fs' -> fails (OCopy src dst) fs fs'
  | f_init dir fs fs' : same_but (fun q => dir `prefix_of` q) fs fs' -> fails (OGoInit dir) fs fs'
  | f_edit p fs fs' : same_but (fun q => q = p) fs fs' -> fails (OEditMod p) fs fs'
  | f_tidy dir fs fs' : same_but (fun q => dir `prefix_of` q) fs fs' -> fails (OGoTidy dir) fs fs'
  | f_build dir fs fs' : same_but (fun q => dir `prefix_of` q) fs fs' -> fails (OGoBuild dir) fs fs'
  | f_rename src dst fs : fails (ORename src dst) fs fs.

(** compile.go:262-293.  embeds.ReadDir and embeds.ReadFile cannot fail here. *)
Fixpoint populate_ops (destdir : path) (t : etree) : list op :=
  match t with
  | EFile n c => if has_suffix "_test.go" n then [] else [OCreate false (destdir ++ [n]); OFill (destdir ++ [n]) c]
  | EDir n ch => OMkdirAll (destdir ++ [n]) :: concat (populate_ops (destdir ++ [n]) <$> ch)
  end.
(** compile.go:257-261 *)
Definition populateFabDir_ops (tmpdir : path) (embeds : list etree) : list op :=
  OMkdirAll (tmpdir ++ ["fab"]) :: concat (populate_ops (tmpdir ++ ["fab"]) <$> embeds).
(** compile.go:295-312 *)
Definition copyFile_ops (pkgdir : path) (filename : string) (destdir : path) : list op :=
  [OCreate true (destdir ++ [filename]); OOpen (pkgdir ++ [filename]); OCopy (pkgdir ++ [filename]) (destdir ++ [filename])].
(** compile.go:156-250, in this temporary directory.  Any failure ends it. *)
Definition body (T : tools) (tmpdir pkgdir binfile : path) (d : driver) : list op :=
  populateFabDir_ops tmpdir (t_embeds T) ++
  (let subpkgdir := tmpdir ++ ["pkg"; d_subpkg d] in
   OMkdirAll subpkgdir :: OReadDir pkgdir :: concat ((fun f => copyFile_ops pkgdir f subpkgdir) <$> (d_files d).*1)) ++
  [OCreate false (tmpdir ++ ["driver.go"]); OFill (tmpdir ++ ["driver.go"]) (t_render T d);
   OGoInit tmpdir; OEditMod (tmpdir ++ ["go.mod"]); OGoTidy tmpdir; OGoBuild tmpdir; ORename (tmpdir ++ ["x"]) binfile].

(** A call of CompilePackage: what it still has to do.  [Finished]: it has returned nil or an
    error. *)
Inductive phase :=
  | Started
  | Working (tmpdir : path) (todo : list op)
  | Cleaning (tmpdir : path) (ok : bool)      (* the deferred os.RemoveAll, compile.go:154 *)
  | Finished (ok : bool).

(** os.MkdirTemp("", "fab"), compile.go:150: a new directory. *)
Definition fresh (T : tools) (fs : fsys) (tmpdir : path) : Prop :=
  (exists s, tmpdir = t_tempdir T ++ ["fab" +:+ s]) /\ forall p, tmpdir `prefix_of` p -> fs !! p = None.

Inductive cstep (T : tools) (pkgdir binfile : path) (d : option driver) : fsys * phase -> fsys * phase -> Prop :=
  (** compile.go:80-153: errors before anything is written *)
  | c_none fs : d = None -> cstep T pkgdir binfile d (fs, Started) (fs, Finished false)
  | c_nothing fs : cstep T pkgdir binfile d (fs, Started) (fs, Finished false)
  | c_temp fs d' tmpdir : d = Some d' -> is_dir fs (t_tempdir T) -> fresh T fs tmpdir ->
      cstep T pkgdir binfile d (fs, Started) (<[tmpdir := FDir]> fs, Working tmpdir (body T tmpdir pkgdir binfile d'))
  | c_ok fs fs' tmpdir o todo : succeeds T o fs fs' -> cstep T pkgdir binfile d (fs, Working tmpdir (o :: todo)) (fs', Working tmpdir todo)
  | c_fail fs fs' tmpdir o todo : fails o fs fs' -> cstep T pkgdir binfile d (fs, Working tmpdir (o :: todo)) (fs', Cleaning tmpdir false)
  | c_done fs tmpdir : cstep T pkgdir binfile d (fs, Working tmpdir []) (fs, Cleaning tmpdir true)
  (** whatever of the directory can be removed is *)
  | c_clean fs fs' tmpdir ok : (forall p, fs' !! p = fs !! p \/ tmpdir `prefix_of` p /\ fs' !! p = None) ->
      cstep T pkgdir binfile d (fs, Cleaning tmpdir ok) (fs', Finished ok).
