(** Vocabulary for the properties of builds of whole projects. *)
From stdpp Require Import base gmap list strings relations.
From Verif Require Import PathModel FindModel FileHashModel FileHashSpec FilesModel FilesSpec.
From Verif Require Import ContextModel RunnerModel RunnerSpec ChainModel BuildModel.
Local Open Scope list_scope.

(** The Files targets are distinct, are run as in the code, and each is its own target. *)
Record well_formed (p : project) : Prop := {
  wf_addr : addr_injective (p_world p);
  wf_ids : forall f1 f2, f1 ∈ p_rules p -> f2 ∈ p_rules p -> f_id f1 = f_id f2 -> f1 = f2;
  wf_plain : forall f, f ∈ p_rules p -> w_deferred (p_world p) (f_id f) = None;
  wf_body : forall f cx, f ∈ p_rules p ->
    w_body (p_world p) (f_id f) cx = files_prog (declare_all (p_rules p)) f (TPtr (p_sub p f)) cx;
}.

(** The prerequisites that the code finds for a Files target. *)
Definition needs (p : project) (f : files) : list files := prereqs (declare_all (p_rules p)) (f_in f).

(** Commands touch no files of Files targets other than their own, except for those that
    they are found to be prerequisites of; other targets touch no files of Files targets. *)
Record separate (p : project) : Prop := {
  sep_cmd : forall t q f n r fs, p_possible p fs -> q ∈ p_rules p -> f ∈ p_rules p -> q <> f -> q ∉ needs p f ->
    unchanged fs (p_cmd p t (f_id q) n r fs) (f_in f ++ f_out f);
  sep_other : forall t f n r fs, p_possible p fs -> f ∈ p_rules p -> unchanged fs (p_other p t n r fs) (f_in f ++ f_out f);
  sep_possible : forall fs, p_possible p fs -> (forall t o n r, p_possible p (p_cmd p t o n r fs)) /\ forall t n r, p_possible p (p_other p t n r fs);
}.

(** The database holds only what has been added, by this process.  (It may forget.) *)
Record database_sound (p : project) : Prop := {
  db_has : forall t h r db, p_db p t (OpHas h) r db ⊆ db;
  db_add : forall t h r db, p_db p t (OpAdd h) r db ⊆ {[h]} ∪ db;
}.

(** How the targets of the project behave.  [owner x = Some i]: target [x] is the subtarget
    of the Files target [i], or part of it.  Those belong to [i] alone. *)
Record orderly (p : project) (owner : obj -> option obj) (tr : list event) : Prop := {
  (* the subtarget belongs to its Files target; Files targets belong to none *)
  or_sub : forall f, f ∈ p_rules p -> owner (p_sub p f) = Some (f_id f) /\ owner (f_id f) = None;
  or_rule : forall x i, owner x = Some i -> (exists f, f ∈ p_rules p /\ f_id f = i) /\ w_deferred (p_world p) x = None;
  (* what belongs to a Files target is requested only by it, or by what belongs to it *)
  or_client : forall c cx ts x i, EvCall c None cx ts ∈ tr -> TPtr x ∈ ts -> owner x <> Some i;
  or_call : forall g a o cx0 c cx ts x i, EvStart g a o cx0 ∈ tr -> EvCall c (Some g) cx ts ∈ tr ->
    TPtr x ∈ ts -> owner x = Some i -> o = i \/ owner o = Some i;
  or_named : forall name x i, EvRegister name x ∈ tr -> owner x <> Some i;
  (* commands are run by what belongs to the Files target; the database is used by Files
     targets *)
  or_cmd : forall g a o cx i n r, EvStart g a o cx ∈ tr -> EvEff g (OpCmd i n) r ∈ tr -> owner o = Some i;
  or_add : forall g a o cx h r, EvStart g a o cx ∈ tr -> EvEff g (OpAdd h) r ∈ tr -> exists f, f ∈ p_rules p /\ f_id f = o;
  (* no Files target is run as a dry run *)
  or_not_dry : forall g a cx f, f ∈ p_rules p -> EvStart g a (f_id f) cx ∈ tr -> GetDryRun cx = false;
}.

(** A Files target that is referred to by name may be run several times (see C06); its subtarget,
    belonging to it alone, is run at most once. *)
Definition once (p : project) (tr : list event) : Prop :=
  forall g1 a1 cx1 g2 a2 cx2 f, f ∈ p_rules p ->
    EvStart g1 a1 (f_id f) cx1 ∈ tr -> EvStart g2 a2 (f_id f) cx2 ∈ tr -> a1 = a2.
(** When a run of a Files target has ended without error, then its subtarget has ended without
    error, or no command of it has run since that run took the hash, nor will.  (So it is when
    it is run once, see C58_once_is_settled; or its command is one step, see
    C58_named_rules_are_settled.) *)
Definition settled (p : project) (tr : list event) : Prop :=
  forall f g a l1 l2, f ∈ p_rules p -> tr = l1 ++ EvEnd g a (f_id f) None :: l2 ->
    (exists gs b, EvEnd gs b (p_sub p f) None ∈ l1) \/
    (exists k1 r k2, l1 = k1 ++ EvEff g (OpHash true (f_id f)) r :: k2 /\
      forall g' n r', EvEff g' (OpCmd (f_id f) n) r' ∉ k2 ++ l2).

(** The command of each Files target is one step: nothing is seen of it before it is done. *)
Definition one_step (p : project) (tr : list event) : Prop :=
  forall f m1 g n r m2, f ∈ p_rules p -> tr = m1 ++ EvEff g (OpCmd (f_id f) n) r :: m2 ->
    (forall g' n' r', EvEff g' (OpCmd (f_id f) n') r' ∉ m1) /\ (forall g' n' r', EvEff g' (OpCmd (f_id f) n') r' ∉ m2).
(** No two Files targets have subtargets with the same description. *)
Definition distinct_descriptions (p : project) : Prop :=
  forall f1 f2, f1 ∈ p_rules p -> f2 ∈ p_rules p -> same_description (p_desc p f1) (p_desc p f2) -> f1 = f2.

Section spec.
  Context (hashf : string -> string) (H : json -> hash).

  (** The executions that are possible, given the files and the database at the start.  A
      process that is killed is one whose execution stops anywhere. *)
  Definition session (p : project) (σ : env) (tr : list event) : Prop :=
    trace (p_world p) tr /\
    forall l1 g l r l2, tr = l1 ++ EvEff g l r :: l2 -> valid hashf H p l r (after p σ l1).

  (** [right r fs]: the outputs of rule [r] are right, for its inputs, when the files are
      [fs].  This depends only on what the hash covers. *)
  Definition hash_covers (right : rule -> files_state -> Prop) : Prop :=
    forall fs1 r1 fs2 r2, same_state fs1 r1 fs2 r2 -> right r1 fs1 -> right r2 fs2.

  (** In [tr], from [l1] to [l1 ++ l2], only the command of [f] touches the files of [f]. *)
  Definition undisturbed (p : project) (σ : env) (f : files) (l1 l2 : list event) : Prop :=
    forall m1 g l r m2, l2 = m1 ++ EvEff g l r :: m2 -> (forall n, l <> OpCmd (f_id f) n) ->
      unchanged (e_fs (after p σ (l1 ++ m1))) (e_fs (after p σ (l1 ++ m1 ++ [EvEff g l r]))) (f_in f ++ f_out f).

  (** The commands do their job: when a subtarget has run, successfully and undisturbed, the
      outputs are right. *)
  Definition commands_work (right : rule -> files_state -> Prop) (p : project) (σ : env) (tr : list event) : Prop :=
    forall f l1 g a cx l2 l3, f ∈ p_rules p ->
      tr = l1 ++ EvStart g a (p_sub p f) cx :: l2 ++ EvEnd g a (p_sub p f) None :: l3 ->
      undisturbed p σ f (l1 ++ [EvStart g a (p_sub p f) cx]) l2 ->
      right (rule_of p f) (e_fs (after p σ (l1 ++ EvStart g a (p_sub p f) cx :: l2))).

  (** Every hash in the database is that of a right state. *)
  Definition honest (right : rule -> files_state -> Prop) (db : gset hash) : Prop :=
    forall h fuel fs r, h ∈ db -> computeHash hashf H fuel fs r = HOk h -> right r fs.

  (** The database holds only what has been added, by this process or others (there is one
      database for all the projects of a user); what others add meanwhile are hashes of right
      states too.  (It may forget.) *)
  Record database_honest (right : rule -> files_state -> Prop) (p : project) : Prop := {
    dh_has : forall t h r db x, x ∈ p_db p t (OpHas h) r db -> x ∈ db \/ honest right {[x]};
    dh_add : forall t h r db x, x ∈ p_db p t (OpAdd h) r db -> x = h \/ x ∈ db \/ honest right {[x]};
  }.

  (** The session is one of a proper project, as described above. *)
  Record build (right : rule -> files_state -> Prop) (p : project) (owner : obj -> option obj) (σ : env) (tr : list event) : Prop := {
    b_wf : well_formed p;
    b_sep : separate p;
    b_db : database_honest right p;
    b_possible : p_possible p (e_fs σ);
    b_session : session p σ tr;
    b_orderly : orderly p owner tr;
    b_settled : settled p tr;
    b_work : commands_work right p σ tr;
  }.

  (** [f] was completed without error. *)
  Definition built (f : files) (tr : list event) : Prop := exists g a, EvEnd g a (f_id f) None ∈ tr.
End spec.

(** [f], and the Files targets that it needs, directly or not. *)
Definition needed (p : project) (f q : files) : Prop := rtc (fun f q => q ∈ needs p f) f q.
(** Every run of [f] that was started has ended without error. *)
Definition finished (f : files) (tr : list event) : Prop :=
  forall g a cx, EvStart g a (f_id f) cx ∈ tr -> EvEnd g a (f_id f) None ∈ tr.

(** The database forgets nothing. *)
Definition database_keeps (p : project) : Prop :=
  (forall t h r db, db ⊆ p_db p t (OpHas h) r db) /\ (forall t h r db, db ⊆ p_db p t (OpAdd h) r db) /\
  (forall t h db, h ∈ p_db p t (OpAdd h) 0 db).

(** Two processes that deal with the same Files targets.  (Their targets may be at different
    addresses in memory; the other targets may be different.) *)
Record same_rules (p1 p2 : project) : Prop := {
  sr_rules : p_rules p2 = p_rules p1;
  sr_desc : forall f, f ∈ p_rules p1 -> p_desc p2 f = p_desc p1 f;
  sr_possible : forall fs, p_possible p1 fs <-> p_possible p2 fs;
}.

(** Files targets run with a hash database; and without the flag -f. *)
Definition with_database (p : project) (tr : list event) : Prop :=
  forall f g a cx, f ∈ p_rules p -> EvStart g a (f_id f) cx ∈ tr -> GetHashDB cx <> None.
Definition not_forced (p : project) (tr : list event) : Prop :=
  forall f g a cx, f ∈ p_rules p -> EvStart g a (f_id f) cx ∈ tr -> GetForce cx = false.

(** [i] is an output of [f], or an input that is in a directory that is an output of [f]:
    the code finds that [f] produces it (see C23). *)
Definition makes (p : project) (f : files) (i : string) : Prop :=
  f ∈ p_rules p /\
  (i ∈ f_out f \/ (exists f', f' ∈ p_rules p /\ i ∈ f_in f') /\ findInFilesRegistry (declare_all (p_rules p)) i = Found f).

(** The inputs that no Files target makes; nothing in the build changes them. *)
Definition source (p : project) (i : string) : Prop :=
  (exists f, f ∈ p_rules p /\ i ∈ f_in f) /\ forall f, ~ makes p f i.
Definition sources_kept (p : project) : Prop :=
  forall i, source p i ->
    forall fs, p_possible p fs -> (forall t o n r, unchanged fs (p_cmd p t o n r fs) [i]) /\ (forall t n r, unchanged fs (p_other p t n r fs) [i]).

(** What is right is determined by the inputs. *)
Definition determined (right : rule -> files_state -> Prop) (p : project) : Prop :=
  forall f fs1 fs2, p_possible p fs1 -> p_possible p fs2 -> f ∈ p_rules p -> right (rule_of p f) fs1 -> right (rule_of p f) fs2 ->
    (forall i, i ∈ f_in f -> same_files fs1 [i] fs2 [i]) -> forall o, makes p f o -> same_files fs1 [o] fs2 [o].

(** The states reached by any number of builds, of the same or changed projects, killed at
    any point or not, from an empty database; with arbitrary changes of files, losses of
    database entries, and additions of hashes of right states by others, in between. *)
Inductive builds_from_nothing hashf H (right : rule -> files_state -> Prop) : env -> Prop :=
  | bfn_start fs t : builds_from_nothing hashf H right {| e_fs := fs; e_db := ∅; e_time := t |}
  | bfn_edit σ fs db t : builds_from_nothing hashf H right σ ->
      (forall x, x ∈ db -> x ∈ e_db σ \/ honest hashf H right {[x]}) ->
      builds_from_nothing hashf H right {| e_fs := fs; e_db := db; e_time := t |}
  | bfn_build p owner σ tr : builds_from_nothing hashf H right σ -> build hashf H right p owner σ tr ->
      builds_from_nothing hashf H right (after p σ tr).

(** ** Conditions on the targets themselves, for every execution. *)

(** A body that requests only the targets [asks], and whose other interactions are [does].
    (Only deferred references resolve names.) *)
CoInductive allowed (asks : obj -> Prop) (does : label -> Prop) : prog -> Prop :=
  | al_ret e : allowed asks does (Ret e)
  | al_call cx ts k : (forall x, TPtr x ∈ ts -> asks x) -> (forall e, allowed asks does (k e)) -> allowed asks does (Call cx ts k)
  | al_eff l k : does l -> (forall r, allowed asks does (k r)) -> allowed asks does (Eff l k).

(** [owner x = Some i]: target [x] is the subtarget of the Files target [i], or part of it. *)
Record tidy (p : project) (owner : obj -> option obj) : Prop := {
  td_sub : forall f, f ∈ p_rules p -> owner (p_sub p f) = Some (f_id f) /\ owner (f_id f) = None;
  td_rule : forall x i, owner x = Some i -> (exists f, f ∈ p_rules p /\ f_id f = i) /\ w_deferred (p_world p) x = None;
  (* the parts of a Files target may run its command and request its other parts *)
  td_owned : forall x i cx, owner x = Some i ->
    allowed (fun y => owner y = None \/ owner y = Some i) (fun l => (exists n, l = OpCmd i n) \/ exists n, l = OpOther n) (w_body (p_world p) x cx);
  (* other targets, except for Files targets, may not *)
  td_free : forall x cx, owner x = None -> (forall f, f ∈ p_rules p -> f_id f <> x) -> w_deferred (p_world p) x = None ->
    allowed (fun y => owner y = None) (fun l => exists n, l = OpOther n) (w_body (p_world p) x cx);
}.
(** How the targets are used: no part of a Files target is requested by the clients of the
    controller, or registered; no Files target is registered under a name for which there is
    a deferred reference (see C06), or run with the flag -n. *)
Record proper_use (p : project) (owner : obj -> option obj) (tr : list event) : Prop := {
  pu_client : forall c cx ts x i, EvCall c None cx ts ∈ tr -> TPtr x ∈ ts -> owner x <> Some i;
  pu_named : forall name x i, EvRegister name x ∈ tr -> owner x <> Some i;
  pu_rules : forall name f x, f ∈ p_rules p -> EvRegister name (f_id f) ∈ tr -> w_deferred (p_world p) x <> Some name;
  pu_not_dry : forall g a cx f, f ∈ p_rules p -> EvStart g a (f_id f) cx ∈ tr -> GetDryRun cx = false;
}.

(** Files targets whose subtarget is one command, which succeeds only when it has made the
    outputs right. *)
Record single_commands (right : rule -> files_state -> Prop) (p : project) (owner : obj -> option obj) : Prop := {
  sc_only : forall f x, f ∈ p_rules p -> owner x = Some (f_id f) -> x = p_sub p f;
  sc_body : forall f cx, f ∈ p_rules p ->
    w_body (p_world p) (p_sub p f) cx = Eff (OpCmd (f_id f) 0) (fun r => Ret (match r with 0 => None | _ => Some (EBody r) end));
  sc_right : forall t f fs, p_possible p fs -> f ∈ p_rules p -> right (rule_of p f) (p_cmd p t (f_id f) 0 0 fs);
}.
