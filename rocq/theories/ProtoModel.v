(** Model of proto.Deps and proto.Proto (proto/proto.go). *)
From stdpp Require Import base gmap list strings.
From Coq Require Import Ascii.
From Verif Require Import PathModel StrOrd.
Local Open Scope list_scope.

(** What os.Open and reading give for a name; a name not in the map does not exist.
    [Lines]: the lines bufio.Scanner delivers; [ok = false]: reading then fails (an I/O
    error, a directory, or a line longer than the scanner's buffer). *)
Inductive fentry := OpenErr | Lines (l : list string) (ok : bool).
Definition fsys := gmap string fentry.

(** ** proto.go:112, the regular expression ^import(\s+public)?\s*Q([^Q]+)Q, where Q is the
    double quote *)
Definition is_space (c : ascii) : bool :=
  bool_decide (c = " "%char \/ c = "009"%char \/ c = "010"%char \/ c = "012"%char \/ c = "013"%char).
Fixpoint skip_spaces (s : string) : string :=
  match s with
  | String c s' => if is_space c then skip_spaces s' else s
  | EmptyString => ""
  end.
Fixpoint strip_prefix (p s : string) : option string :=
  match p, s with
  | EmptyString, _ => Some s
  | String c p, String d s => if decide (c = d) then strip_prefix p s else None
  | _, EmptyString => None
  end.
Definition quote : ascii := """"%char.
(** [^Q]+Q : the text up to the next quote, which must be there; not empty. *)
Fixpoint until_quote (s : string) : option string :=
  match s with
  | EmptyString => None
  | String c s => if decide (c = quote) then Some "" else String c <$> until_quote s
  end.
(** \s*Q([^Q]+)Q *)
Definition quoted (s : string) : option string :=
  match skip_spaces s with
  | String c s =>
      if decide (c = quote) then
        match until_quote s with Some "" => None | x => x end
      else None
  | EmptyString => None
  end.
(** (\s+public)? : at least one space, then the word; otherwise nothing is consumed. *)
Definition skip_public (s : string) : string :=
  match s with
  | String c _ =>
      if is_space c then match strip_prefix "public" (skip_spaces s) with Some s' => s' | None => s end else s
  | EmptyString => s
  end.
(** m[2] of importRegex.FindStringSubmatch(line). *)
Definition import_of (line : string) : option string :=
  match strip_prefix "import" line with
  | None => None
  | Some s => quoted (skip_public s)
  end.

(** Results carry the set built so far, which Deps returns also with an error. *)
Inductive pres := POk (result : gset string) | PErr (result : gset string) | POutOfFuel.

Section fs.
  Context (fs : fsys) (includes : list string).

  (** proto.go:129-151.  [deps l ok result] is protodeps on a file with those lines. *)
  Fixpoint import_loop (deps : list string -> bool -> gset string -> pres) (incs : list string) (imp : string)
      (result : gset string) : pres :=
    match incs with
    | [] => POk result
    | inc :: incs =>
        let full := Join [inc; imp] in
        if decide (full ∈ result) then import_loop deps incs imp result
        else match fs !! full with
             | None => import_loop deps incs imp result
             | Some OpenErr => PErr result
             | Some (Lines l ok) => deps l ok ({[full]} ∪ result)
             end
    end.

  (** proto.go:114-127 *)
  Fixpoint lines_loop (deps : list string -> bool -> gset string -> pres) (lines : list string) (ok : bool)
      (result : gset string) : pres :=
    match lines with
    | [] => if ok then POk result else PErr result
    | line :: lines =>
        match import_of line with
        | None => lines_loop deps lines ok result
        | Some imp =>
            match import_loop deps includes imp result with
            | POk result => lines_loop deps lines ok result
            | x => x
            end
        end
    end.
  Fixpoint protodeps (fuel : nat) (lines : list string) (ok : bool) (result : gset string) : pres :=
    match fuel with
    | 0 => POutOfFuel
    | S fuel => lines_loop (protodeps fuel) lines ok result
    end.

  (** proto.go:97-110: the list and whether the error is nil. *)
  Inductive dres := DepsRet (l : list string) (ok : bool) | DepsOutOfFuel.
  Definition Deps (fuel : nat) (filename : string) : dres :=
    match fs !! filename with
    | Some (Lines l ok) =>
        match protodeps fuel l ok {[filename]} with
        | POk result => DepsRet (ssort (elements result)) true
        | PErr result => DepsRet (ssort (elements result)) false
        | POutOfFuel => DepsOutOfFuel
        end
    | _ => DepsRet [] false
    end.

  (** proto.go:40-57: the inputs and the command of the resulting Files target. *)
  Fixpoint proto_deps (fuel : nat) (inputs : list string) (all : gset string) : option (gset string) :=
    match inputs with
    | [] => Some all
    | i :: inputs =>
        match Deps fuel i with
        | DepsRet l true => proto_deps fuel inputs (all ∪ list_to_set l)
        | _ => None
        end
    end.
  Definition Proto (fuel : nat) (inputs otherOpts : list string) : option (list string * list string) :=
    match proto_deps fuel inputs (list_to_set inputs) with
    | Some all => Some (ssort (elements all), (String.append "-I" <$> includes) ++ otherOpts ++ inputs)
    | None => None
    end.
End fs.
