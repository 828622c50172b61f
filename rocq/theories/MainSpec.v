(** Vocabulary for the properties of whole runs of the fab command. *)
From stdpp Require Import base gmap list strings.
From Coq Require Import Ascii.
From Verif Require Import PathModel PathSpec TopDirModel DriverModel YamlModel RegistryModel ContextModel MainModel.
Local Open Scope list_scope.

(** The requests to run targets, and the text printed that is not an error or progress message. *)
Definition requests (a : list act) : list request := omap (fun x => match x with Run r => Some r | _ => None end) a.
Definition printed (a : list act) : string := String.concat "" (omap (fun x => match x with Print s => Some s | _ => None end) a).

(** The top directory of the project fab works on: the one given, or the one found. *)
Definition in_project (M : machine) (m : Main) (top : string) : Prop :=
  (m_topdir m <> "" /\ top = m_topdir m) \/ (m_topdir m = "" /\ TopDir (k_decl M) (k_fs M) (Some (k_cwd M)) "." = Ok top).
(** The project has the Go package [p]; it has none. *)
Definition has_package (M : machine) (top path : string) (p : gopkg) : Prop :=
  k_fs M (at_wd (k_cwd M) (Join [top; "_fab"])) <> NotExist /\ k_load M (at_wd (k_cwd M) top) = Package path p.
Definition no_package (M : machine) (top : string) : Prop :=
  k_fs M (at_wd (k_cwd M) (Join [top; "_fab"])) = NotExist \/ k_load M (at_wd (k_cwd M) top) = NoPackage.

(** The targets [ts] are those named by the arguments: one target and its own arguments if
    the second argument begins with a hyphen, else one target for each. *)
Definition asked (reg : gmap string (string * nat)) (args : list string) (ts : list argt) : Prop :=
  (exists a s rest d o, args = a :: String "-"%char s :: rest /\ reg !! a = Some (d, o) /\ ts = [RegistryModel.WithArgs (TPtr o) (String "-"%char s :: rest)]) \/
  ((forall a s rest, args <> a :: String "-"%char s :: rest) /\
   Forall2 (fun a t => exists d o, reg !! a = Some (d, o) /\ t = Plain (TPtr o)) args ts).

(** The same machine with another result of loading the package. *)
Definition with_load (M : machine) (l : loaded) : machine :=
  {| k_cwd := k_cwd M; k_cache := k_cache M; k_fs := k_fs M; k_decl := k_decl M; k_yaml := k_yaml M; k_bool := k_bool M;
     k_tags := k_tags M; k_load := fun _ => l; k_db := k_db M; k_run := k_run M |}.

(** A request without its working directory. *)
Definition elsewhere (r : request) (wd : string) : request :=
  {| r_wd := wd; r_top := r_top r; r_objs := r_objs r; r_reg := r_reg r; r_ctx := r_ctx r; r_targets := r_targets r |}.

(** The last of a list of Go targets with the name [n]. *)
Definition last_go (ts : list (string * string * option nat)) (n doc : string) (o : nat) : Prop :=
  exists before after, ts = before ++ (n, doc, Some o) :: after /\ forall d o', (n, d, o') ∉ after.

(** The path [d] is the absolute, normal path of the place that [p] names, seen from the
    directory [wd] ([cd]: PathSpec.v). *)
Definition place (wd p d : string) : Prop := IsAbs d = true /\ clean d /\ cd [] d = cd (cd [] wd) p.

(** The request [r] is for what [m] says, in the project at [top], in a process with working
    directory [wd] that did [a]. *)
Definition faithful (M : machine) (m : Main) (top wd : string) (a : list act) (r : request) : Prop :=
  GetVerbose (r_ctx r) = m_verbose m /\ GetForce (r_ctx r) = m_force m /\ GetDryRun (r_ctx r) = m_dryrun m /\ GetArgs (r_ctx r) = [] /\
  (exists dir db, place wd (m_fabdir m) dir /\ OpenDB dir ∈ a /\ k_db M dir = Some db /\ GetHashDB (r_ctx r) = Some db) /\
  r_top r = top /\ r_wd r = wd /\ asked (r_reg r) (m_args m) (r_targets r).

(** The process that reads the YAML files of the project at [top]: its decoders, its working
    directory, and the targets it has before (those of the Go package, the last one of each name). *)
Definition go_targets (p : gopkg) (s : ystate) : Prop :=
  y_objs s = p_objs p /\ (forall q d o, y_reg s !! q = Some (d, o) <-> last_go (p_targets p) q d o).
Definition reader (M : machine) (top : string) (T : tags) (wd : string) (s0 : ystate) : Prop :=
  (no_package M top /\ T = k_tags M /\ wd = k_cwd M /\ s0 = {| y_objs := []; y_reg := ∅ |}) \/
  (exists path p, has_package M top path p /\ T = p_tags p /\ wd = at_wd (k_cwd M) top /\ go_targets p s0).

(** Reading the project's YAML files changes the targets from [s0] to [s], and goes on from there. *)
Definition read_ok (M : machine) (T : tags) (fuel : nat) (wd top : string) (s0 s : ystate) : Prop :=
  read_top M T fuel wd top s0 = ROk s tt \/ read_top M T fuel wd top s0 = RErr s true.

(** Two processes that print the same, ask for the same, but for the working directory, and
    both succeed or both fail. *)
Definition agree (x y : outcome) : Prop :=
  match x, y with
  | None, None => True
  | Some (a, st), Some (b, st') => (st = 0 <-> st' = 0) /\ printed a = printed b /\ Forall2 (fun r r' => r' = elsewhere r (r_wd r')) (requests a) (requests b)
  | _, _ => False
  end.

(** The lines of a listing for one name of a registry. *)
Definition entry_of (reg : gmap string (string * nat)) (n : string) : string :=
  n +:+ nl +:+ match reg !! n with Some (d, _) => if decide (d = "") then "" else "    " +:+ d +:+ nl | None => "" end.
