(** Model of fileHashes (files.go:247-322). *)
From stdpp Require Import base gmap list sorting strings.
From Verif Require Import PathModel StrOrd.
Local Open Scope list_scope.

(** What the file system says about a path (os.Stat follows symbolic links).
    [FStatErr]: os.Stat fails, but not with fs.ErrNotExist (permission denied, a path
    component is not a directory, too many links...).  [FFile None]: opening or reading
    fails; [FDir None]: os.ReadDir fails. *)
Inductive fentry :=
  | FMissing
  | FStatErr
  | FFile (content : option string)
  | FDir (names : option (list string)).

(** The file system while one list of hashes is being computed. *)
Definition files_state := string -> fentry.

(** [HOutOfFuel] is an artifact of the model: the recursion in Go has no bound. *)
Inductive hres (A : Type) := HOk (a : A) | HErr (item : string) | HPanic | HOutOfFuel.
Arguments HOk {A} a.
Arguments HErr {A} item.
Arguments HPanic {A}.
Arguments HOutOfFuel {A}.

(** files.go:268-276, parameterized by the helper for one item. *)
Fixpoint items_helper (f : string -> gmap string string -> hres (gmap string string))
    (items : list string) (hs : gmap string string) : hres (gmap string string) :=
  match items with
  | [] => HOk hs
  | item :: items =>
      match f item hs with
      | HOk hs => items_helper f items hs
      | r => r
      end
  end.

(** files.go:278-307.  [hashf] is hashFile's hex-encoded SHA-224 of the content
    (files.go:309-322).  Line 291 dereferences [info], which is nil when os.Stat failed with
    an error other than ErrNotExist. *)
Fixpoint item_helper (hashf : string -> string) (fuel : nat) (fs : files_state)
    (item : string) (hs : gmap string string) : hres (gmap string string) :=
  match fuel with
  | 0 => HOutOfFuel
  | S fuel =>
      match hs !! item with
      | Some _ => HOk hs
      | None =>
          match fs item with
          | FMissing => HOk (<[item := ""]> hs)
          | FStatErr => HPanic
          | FDir None => HErr item
          | FDir (Some names) =>
              items_helper (item_helper hashf fuel fs) ((fun n => Join [item; n]) <$> names) hs
          | FFile None => HErr item
          | FFile (Some c) => HOk (<[item := hashf c]> hs)
          end
      end
  end.

(** [filename, hash, filename, hash, ...] *)
Fixpoint flatten (l : list (string * string)) : list string :=
  match l with
  | [] => []
  | (n, h) :: l => n :: h :: flatten l
  end.

(** files.go:257-265 *)
Definition listing (hs : gmap string string) : list (string * string) :=
  (fun k => (k, default "" (hs !! k))) <$> ssort ((map_to_list hs).*1).

(** files.go:250-266 *)
Definition fileHashes (hashf : string -> string) (fuel : nat) (fs : files_state) (items : list string) : hres (list string) :=
  match items_helper (item_helper hashf fuel fs) items ∅ with
  | HOk hs => HOk (flatten (listing hs))
  | HErr i => HErr i
  | HPanic => HPanic
  | HOutOfFuel => HOutOfFuel
  end.
