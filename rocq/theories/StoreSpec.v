(** Builds (BuildModel.v) whose hash database is the table of sqlite/db.go (SqliteModel.v), in
    a file that other processes may be using too. *)
From stdpp Require Import base gmap list strings.
From Verif Require SqliteModel SqliteSpec.
From Verif Require Import PathModel FindModel FileHashModel FileHashSpec FilesModel FilesSpec.
From Verif Require Import ContextModel RunnerModel RunnerSpec ChainModel BuildModel BuildSpec.
Local Open Scope list_scope.

Definition is_db (l : label) : Prop := match l with OpHas _ | OpAdd _ => True | _ => False end.

Section store.
  (** The hash with bytes [x] is number [code x]. *)
  Context (code : string -> hash).

  (** The hashes in the table. *)
  Definition contents (s : SqliteModel.state) : gset hash :=
    list_to_set ((fun row => code row.1) <$> SqliteModel.s_table s).

  (** [uses others tr l]: [l] are the SQL statements executed, in order, while a process goes
      through the events [tr] (files.go:135, 158 call Has and Add, and see their answers):
      those of its own Has and Add calls, and others.  Those may be evictions, its own or not,
      and what other processes do; those add only hashes in [others].  A call may also fail,
      its statement having been executed or not. *)
  Inductive uses (others : hash -> Prop) : list event -> list SqliteModel.event -> Prop :=
    | u_nil : uses others [] []
    | u_not_db ev tr l : (forall g lb r, ev = EvEff g lb r -> ~ is_db lb) -> uses others tr l -> uses others (ev :: tr) l
    | u_has g x r u b tr l : (b = true -> r <> 0) -> (b = false -> r <> 1) -> uses others tr l ->
        uses others (EvEff g (OpHas (code x)) r :: tr) (SqliteModel.EvHas x u b :: l)
    | u_add g x r now tr l : uses others tr l -> uses others (EvEff g (OpAdd (code x)) r :: tr) (SqliteModel.EvAdd x now :: l)
    | u_has_failed g h r tr l : 1 < r -> uses others tr l -> uses others (EvEff g (OpHas h) r :: tr) l
    | u_add_failed g h r tr l : r <> 0 -> uses others tr l -> uses others (EvEff g (OpAdd h) r :: tr) l
    | u_evict k now tr l : uses others tr l -> uses others tr (SqliteModel.EvDelete k now :: l)
    | u_other_has x u b tr l : uses others tr l -> uses others tr (SqliteModel.EvHas x u b :: l)
    | u_other_add x now tr l : others (code x) -> uses others tr l -> uses others tr (SqliteModel.EvAdd x now :: l).

  (** No eviction among the later statements of the history [l1 ++ l2], its last [l2], finds
      anything too old. *)
  Definition nothing_expires (l1 l2 : list SqliteModel.event) : Prop :=
    forall m1 k now m2, l2 = m1 ++ SqliteModel.EvDelete k now :: m2 ->
      forall x t, SqliteSpec.holds x t (l1 ++ m1) -> SqliteSpec.spares k now t.

  (** The project with another database. *)
  Definition with_db (p : project) (d : nat -> label -> nat -> gset hash -> gset hash) : project := {|
    p_world := p_world p; p_rules := p_rules p; p_sub := p_sub p; p_desc := p_desc p; p_cmd := p_cmd p; p_other := p_other p;
    p_db := d; p_possible := p_possible p |}.

  Context (hashf : string -> string) (H : json -> hash) (right : rule -> files_state -> Prop).
  (** [h] is not the hash of a wrong state. *)
  Definition right_hash (h : hash) : Prop := forall fuel fs r, computeHash hashf H fuel fs r = HOk h -> right r fs.

  (** A build as in BuildSpec.v, which begins with the files [fs], at time [t], and takes the
      database from [s] to [s'].  (The database of [p] plays no role.) *)
  Record sqlite_build (others : hash -> Prop) (p : project) (owner : obj -> option obj) (fs : files_state) (t : nat)
      (s s' : SqliteModel.state) (tr : list event) : Prop := {
    sb_wf : well_formed p;
    sb_sep : separate p;
    sb_possible : p_possible p fs;
    sb_trace : trace (p_world p) tr;
    (* the hashes that Files targets compute are those of the files they find *)
    sb_hash : forall l1 g b o r l2, tr = l1 ++ EvEff g (OpHash b o) r :: l2 ->
      valid hashf H p (OpHash b o) r (after p {| e_fs := fs; e_db := ∅; e_time := t |} l1);
    sb_db : exists cs l, SqliteModel.run s cs = Some s' /\ SqliteModel.s_log s' = SqliteModel.s_log s ++ l /\ uses others tr l;
    sb_orderly : orderly p owner tr;
    sb_settled : settled p tr;
    sb_work : commands_work right p {| e_fs := fs; e_db := ∅; e_time := t |} tr;
  }.
  (** The files at the end. *)
  Definition files_after (p : project) (fs : files_state) (t : nat) (tr : list event) : files_state :=
    e_fs (after p {| e_fs := fs; e_db := ∅; e_time := t |} tr).

  (** The files and the database after any number of builds, of the same or changed projects,
      completed or killed, from a new database; with arbitrary changes of files in between, and
      with other processes that use the database at any time.  These add only hashes of right
      states. *)
  Inductive sqlite_history : files_state -> SqliteModel.state -> Prop :=
    | sh_start fs : sqlite_history fs SqliteModel.init
    | sh_edit fs fs' s : sqlite_history fs s -> sqlite_history fs' s
    | sh_others fs s cs s' l : sqlite_history fs s -> SqliteModel.run s cs = Some s' ->
        SqliteModel.s_log s' = SqliteModel.s_log s ++ l ->
        (forall x now, SqliteModel.EvAdd x now ∈ l -> right_hash (code x)) -> sqlite_history fs s'
    | sh_build p owner fs t s s' tr : sqlite_history fs s -> sqlite_build right_hash p owner fs t s s' tr ->
        sqlite_history (files_after p fs t tr) s'.
End store.
