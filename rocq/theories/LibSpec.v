(** What paths and parameters of the library targets mean. *)
From stdpp Require Import base gmap list strings.
From Verif Require Import PathModel PathSpec YamlModel FilesModel LibModel.
Local Open Scope list_scope.

(** The place that the path [p], written in the YAML file of directory [dir] of the project
    [top], leads to when the working directory is [w]: from the YAML file's directory. *)
Definition there (w : loc) (top dir p : string) : loc := cd (cd (cd w top) dir) p.

(** A field is absent, or is a scalar that is this string. *)
Definition text (ystr : node -> option string) (flds : list (string * node)) (key value : string) : Prop :=
  (n_kind (field key flds) = KNone /\ value = "") \/ (n_kind (field key flds) <> KNone /\ ystr (field key flds) = Some value).
Definition texts (ystrs : node -> option (list string)) (flds : list (string * node)) (key : string) (value : list string) : Prop :=
  (n_kind (field key flds) = KNone /\ value = []) \/ (n_kind (field key flds) <> KNone /\ ystrs (field key flds) = Some value).
Definition truth (ybool : node -> option bool) (flds : list (string * node)) (key : string) (value : bool) : Prop :=
  (n_kind (field key flds) = KNone /\ value = false) \/ (n_kind (field key flds) <> KNone /\ ybool (field key flds) = Some value).

(** The last element of a path: a path of names, perhaps with slashes before and after. *)
Definition last_element (p T : string) : Prop :=
  name T /\ exists l1 l2, split p = l1 ++ T :: l2 /\ Forall (fun c => c = "") l2.

(** go build -C d -o r ... run in [w]: where it puts the program if [r] is no directory. *)
Definition build_output (w : loc) (args : list string) (o : loc) : Prop :=
  exists d r rest, args = ["build"; "-C"; d; "-o"; r] ++ rest /\ cd (cd w d) r = o.

(** A target of a type defined outside fab does not borrow the type name of Command, and the
    type of ts.Decls' subtarget, which is not exported, has no values but those Decls makes. *)
Definition genuine (t : tgt) : Prop :=
  forall ty j, t = TUser ty j -> ty <> "*fab.Command" /\ (ty = "*ts.declsType" -> exists s, t = tgt_of s).
