(** Model of TopDir (top.go). *)
From stdpp Require Import base list strings.
From Verif Require Import PathModel.
Local Open Scope list_scope.

(** What os.Stat / os.Open report about a path.  [IOErr] is any error that is not
    fs.ErrNotExist (permission denied, not a directory, I/O error...). *)
Inductive entry := NotExist | IOErr | IsDirectory | IsFile (content : string).

(** The state of the file system during one call. *)
Definition fsys := string -> entry.

Inductive result :=
  | Ok (dir : string)
  | ErrAbs                (* top.go:27 *)
  | ErrStat (dir : string) (* top.go:36 *)
  | ErrOpen (dir : string) (* top.go:61 *)
  | ErrYAML (dir : string) (* top.go:68 *)
  | ErrAbsDecl (decl dir : string)  (* top.go:77 *)
  | ErrMismatch (decl dir : string) (* top.go:92 *)
  | ErrNotFound           (* top.go:49 and top.go:99 *)
  | OutOfFuel.

(** filepath.Abs; [cwd = None] if the working directory cannot be determined. *)
Definition Abs (cwd : option string) (p : string) : option string :=
  if IsAbs p then Some (Clean p) else (fun w => Join [w; p]) <$> cwd.

(** yaml.go:263-271.  Opening a directory succeeds; reading it then fails. *)
Inductive opened := Opened (e : entry) | OpenNotExist | OpenErr.
Definition open1 (fs : fsys) (p : string) : opened :=
  match fs p with
  | NotExist => OpenNotExist
  | IOErr => OpenErr
  | e => Opened e
  end.
Definition openFabYAML (fs : fsys) (dir : string) : opened :=
  match open1 fs (Join [dir; "fab.yaml"]) with
  | OpenNotExist => open1 fs (Join [dir; "fab.yml"])
  | o => o
  end.

(** top.go:85-107. *)
Fixpoint decl_loop (fuel : nat) (origDecl origDir decl dir : string) : result :=
  match fuel with
  | 0 => OutOfFuel
  | S fuel =>
      if decide (Base decl <> Base dir) then ErrMismatch origDecl origDir
      else
        let dirDir := Dir dir in
        let declDir := Dir decl in
        if decide (dirDir = dir) then ErrNotFound
        else if decide (declDir = ".") then Ok dirDir
        else decl_loop fuel origDecl origDir declDir dirDir
  end.

(** top.go:55-108; [None] means "no fab.yaml here".  [decode] is the YAML library: the
    content of a file to its top-level mapping's "_dir" entry, if that is a string
    ([None]: not a YAML mapping). *)
Definition topDirHelper (decode : string -> option (option string)) (fs : fsys) (dir : string) : option result :=
  match openFabYAML fs dir with
  | OpenNotExist => None
  | OpenErr => Some (ErrOpen dir)
  | Opened (IsFile content) =>
      Some match decode content with
           | None => ErrYAML dir
           | Some None => Ok dir
           | Some (Some decl) =>
               if IsAbs decl then ErrAbsDecl decl dir
               else decl_loop (S (length (split dir))) decl dir decl dir
           end
  | Opened _ => Some (ErrYAML dir)
  end.

(** top.go:30-52 *)
Fixpoint top_loop (fuel : nat) (decode : string -> option (option string)) (fs : fsys) (dir : string) : result :=
  match fuel with
  | 0 => OutOfFuel
  | S fuel =>
      let continue :=
        match topDirHelper decode fs dir with
        | Some r => r
        | None =>
            let parent := Dir dir in
            if decide (parent = dir) then ErrNotFound else top_loop fuel decode fs parent
        end in
      match fs (Join [dir; "_fab"]) with
      | IsDirectory => Ok dir
      | IOErr => ErrStat dir
      | NotExist | IsFile _ => continue
      end
  end.

(** top.go:23-53 *)
Definition TopDir (decode : string -> option (option string)) (fs : fsys) (cwd : option string) (dir : string) : result :=
  match Abs cwd dir with
  | None => ErrAbs
  | Some dir => top_loop (S (length (split dir))) decode fs dir
  end.
