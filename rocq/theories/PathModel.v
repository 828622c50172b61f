(** Model of the parts of Go's path/filepath (Unix) that fab uses, and of
    Controller.JoinPath and Controller.RelPath (controller.go:47-75).

    path/filepath is not part of the repository; it is modelled after its documentation,
    on components (the pieces between slashes) rather than byte offsets. *)
From stdpp Require Import base list strings.
From Coq Require Import Ascii.
Local Open Scope list_scope.

Definition slash : ascii := "/"%char.

(** strings.Split(s, "/"): never empty. *)
Fixpoint split (s : string) : list string :=
  match s with
  | EmptyString => [""]
  | String c s =>
      if decide (c = slash) then "" :: split s
      else match split s with
           | [] => [String c ""]
           | x :: xs => String c x :: xs
           end
  end.

(** strings.Join(l, "/") *)
Fixpoint join (l : list string) : string :=
  match l with
  | [] => ""
  | [x] => x
  | x :: l => x +:+ "/" +:+ join l
  end.

(** filepath.IsAbs *)
Definition IsAbs (s : string) : bool :=
  match s with
  | String c _ => bool_decide (c = slash)
  | EmptyString => false
  end.

(** The components of a path that mean something. *)
Definition comps (s : string) : list string := filter (fun c => c <> "" /\ c <> ".") (split s).

(** One step of filepath.Clean: the stack of components so far, innermost first. *)
Definition push (rooted : bool) (st : list string) (c : string) : list string :=
  if decide (c = "..") then
    match st with
    | [] => if rooted then [] else [".."]
    | x :: st' => if decide (x = "..") then ".." :: st else st'
    end
  else c :: st.

Definition clean_comps (s : string) : list string :=
  reverse (fold_left (push (IsAbs s)) (comps s) []).

(** filepath.Clean *)
Definition Clean (s : string) : string :=
  if IsAbs s then "/" +:+ join (clean_comps s)
  else if decide (clean_comps s = []) then "." else join (clean_comps s).

(** filepath.Join *)
Fixpoint Join (elts : list string) : string :=
  match elts with
  | [] => ""
  | e :: elts' => if decide (e = "") then Join elts' else Clean (join elts)
  end.

(** filepath.Dir: Clean of everything up to and including the last slash. *)
Definition Dir (s : string) : string := Clean (join (removelast (split s) ++ [""])).

(** filepath.Base: the last component, "." for the empty path, "/" if there are only
    slashes. *)
Definition Base (s : string) : string :=
  if decide (s = "") then "."
  else match last (filter (fun c => c <> "") (split s)) with
       | Some c => c
       | None => "/"
       end.

(** filepath.Rel, on the cleaned paths.  [rel_comps base targ] walks both while they agree. *)
Fixpoint rel_comps (base targ : list string) : option (list string) :=
  match base, targ with
  | [], _ => Some targ
  | _ :: _, [] => Some ((fun _ => "..") <$> base)
  | b :: base', t :: targ' =>
      if decide (b = t) then rel_comps base' targ'
      else if decide (b = "..") then None
      else Some (((fun _ => "..") <$> base) ++ targ)
  end.
(** Components of a cleaned path; "." counts as a component only in the target. *)
Definition Rel (basepath targpath : string) : option string :=
  let base := Clean basepath in
  let targ := Clean targpath in
  if decide (targ = base) then Some "."
  else if bool_decide (IsAbs base <> IsAbs targ) then None
  else
    let tc := if IsAbs targ then clean_comps targpath
              else if decide (targ = ".") then ["."] else clean_comps targpath in
    join <$> rel_comps (clean_comps basepath) tc.

(** controller.go:57-67.  The loop from the right finds the last absolute element. *)
Fixpoint last_abs (elts : list string) : option (list string) :=
  match elts with
  | [] => None
  | e :: elts' =>
      match last_abs elts' with
      | Some l => Some l
      | None => if IsAbs e then Some elts else None
      end
  end.
Definition JoinPath (topdir : string) (elts : list string) : string :=
  match last_abs elts with
  | Some l => Join l
  | None => Join (topdir :: elts)
  end.

(** controller.go:70-72 *)
Definition RelPath (topdir path : string) : option string := Rel topdir path.

(** strings.Contains(s, "/") *)
Fixpoint has_slash (s : string) : bool :=
  match s with
  | EmptyString => false
  | String c s => bool_decide (c = slash) || has_slash s
  end.

(** yaml.go:59-67: the registry key a scalar target reference [value], in the YAML file of
    directory [dir], stands for. *)
Definition ref_key (topdir dir value : string) : option string :=
  if has_slash value then RelPath topdir (JoinPath topdir [dir; value]) else Some value.

(** yaml.go:244-257: the [dir] argument that ReadYAMLFile(dir) passes to ReadYAML. *)
Definition file_dir (topdir dir : string) : option string :=
  match Rel topdir (Join [topdir; dir]) with
  | Some rel => Some (if decide (rel = ".") then "" else rel)
  | None => None
  end.

(** yaml.go:224: the name under which ReadYAML(_, dir) registers the target [name]. *)
Definition reg_name (dir name : string) : string := Join [dir; name].
