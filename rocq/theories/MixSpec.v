(** Vocabulary for the fab command in projects of any kind: targets from a Go package, from YAML
    files, or both.  Everything is said of the target values, wherever they come from. *)
From stdpp Require Import base gmap list strings relations.
From Verif Require Import PathModel FindModel TopDirModel DriverModel ContextModel RegistryModel RunnerModel RunnerSpec RunnerSpec2 YamlModel YamlSpec MainModel MainSpec ProjModel ProjSpec EndSpec.
Local Open Scope list_scope.

(** The command line is valid and says [m]; fab is called in a project whose top directory is
    [top]; the process that reads the YAML files has working directory [wd] and decoders [T], and
    has the targets [s0] of the Go package before, if there is one. *)
Definition any_project (M : machine) (argv : list string) (m : Main) (top : string) (T : tags) (wd : string) (s0 : ystate) : Prop :=
  (exists cache, k_cache M = Some cache /\ fab_main cache "" argv = Some m) /\ "--" ∉ argv /\
  TopDir (k_decl M) (k_fs M) (Some (k_cwd M)) "." = Ok top /\ reader M top T wd s0.

(** The name [q] stands for the target [o], with doc string [d]: the last Go target of that name,
    or what a YAML definition of it describes. *)
Definition stands_for (M : machine) (top : string) (T : tags) (wd : string) (s0 : ystate) (r : request) (q d : string) (o : nat) : Prop :=
  r_reg r !! q = Some (d, o) /\
  (y_reg s0 !! q = Some (d, o) \/
   exists dir k v, defines top (k_docs M wd) dir q k v /\ d = key_doc k /\
     denotes top (tag_lists T) (tag_leaf T) (k_bool M) (fun q o => exists d, y_reg s0 !! q = Some (d, o)) (defines top (k_docs M wd)) (r_objs r) dir v o).

(** The request [r] is being carried out, and [tr] is what the controller has done so far.
    [objs']: the target values, those of the request, with what decoders made of their nodes, and
    others made since.  [leafp]: the bodies of all other targets: commands, Go functions, types of
    the Go package; they may call Run. *)
Record running (r : request) (objs' : list shape) (addr : nat -> nat) (leafp : nat -> ctx -> prog) (tr : list event) : Prop := {
  rn_len : length (r_objs r) <= length objs';
  rn_objs : forall o sh, r_objs r !! o = Some sh -> (forall t n d, sh <> SLeaf t n d) -> objs' !! o = Some sh;
  rn_addr : forall o1 o2, addr o1 = addr o2 -> o1 = o2;
  rn_exec : executes (project_world addr objs' leafp) (snd <$> r_reg r) tr;
  rn_call : exists c ts, Forall2 (as_tref r objs') (r_targets r) ts /\
    forall c' cx' ts', EvCall c' None cx' ts' ∈ tr -> c' = c /\ cx' = r_ctx r /\ ts' = ts
}.
Definition has_run (M : machine) (r : request) (objs' : list shape) (addr : nat -> nat) (leafp : nat -> ctx -> prog) (tr : list event) (e : option err) : Prop :=
  running r objs' addr leafp tr /\
  (exists c ts, EvCall c None (r_ctx r) ts ∈ tr /\ EvRet c None e ∈ tr) /\ (k_run M r = true <-> e = None).

(** Other bodies call Run only with contexts that have the settings of their own. *)
Inductive may_run_with : prog -> ctx -> Prop :=
  | rw_here cx ts k : may_run_with (Call cx ts k) cx
  | rw_call cx ts k e cx' : may_run_with (k e) cx' -> may_run_with (Call cx ts k) cx'
  | rw_res d k r cx' : may_run_with (k r) cx' -> may_run_with (Resolve d k) cx'
  | rw_eff l k r cx' : may_run_with (k r) cx' -> may_run_with (Eff l k) cx'.
Definition keep_settings (leafp : nat -> ctx -> prog) : Prop := forall o cx cx', may_run_with (leafp o cx) cx' -> same_settings cx cx'.

(** Target [x] is the Files target that has the output [p]: the last one made of those. *)
Definition outputs (objs : list shape) (x : nat) (p : string) : Prop := exists t ins outs ac, objs !! x = Some (SFiles t ins outs ac) /\ p ∈ outs.
Definition maker_of (objs : list shape) (p : string) (x : nat) : Prop := outputs objs x p /\ forall y, outputs objs y p -> y <= x.
(** Target [x] is the one responsible for the file [i]: the maker of it or of the nearest
    directory above it that has one. *)
Definition responsible (objs : list shape) (i : string) (x : nat) : Prop :=
  exists k, maker_of objs (Nat.iter k Dir i) x /\ (forall j y, j < k -> ~ outputs objs y (Nat.iter j Dir i)) /\
    (forall j, 1 <= j <= k -> Nat.iter j Dir i ∉ [""; "."; "/"]).

(** What a target cannot succeed without. *)
Inductive needs (all : bool) (objs : list shape) (reg : gmap string nat) : nat -> nat -> Prop :=
  | needs_all o ts t : objs !! o = Some (SAll ts) -> t ∈ ts -> needs all objs reg o t
  | needs_seq o ts t : objs !! o = Some (SSeq ts) -> t ∈ ts -> needs all objs reg o t
  | needs_args o t args : objs !! o = Some (SArgs t args) -> needs all objs reg o t
  | needs_name o n t : objs !! o = Some (SRef n) -> reg !! n = Some t -> needs all objs reg o t
  | needs_maker o t ins outs ac i x : objs !! o = Some (SFiles t ins outs ac) -> i ∈ ins -> responsible objs i x -> needs all objs reg o x
  | needs_files o t ins outs ac : all = true -> objs !! o = Some (SFiles t ins outs ac) -> needs all objs reg o t.
(** What a composite target asks for. *)
Definition asks_of (objs : list shape) (reg : gmap string nat) (o t : nat) : Prop := needs true objs reg o t.
(** What any target may ask for: the others, whatever their bodies may pass to Run. *)
Inductive may_need (objs : list shape) (reg : gmap string nat) (leafp : nat -> ctx -> prog) : nat -> nat -> Prop :=
  | mn_asks o t : asks_of objs reg o t -> may_need objs reg leafp o t
  | mn_body o cx ts t : (exists t' n d, objs !! o = Some (SLeaf t' n d)) \/ objs !! o = None ->
      may_call (leafp o cx) ts -> TPtr t ∈ ts -> may_need objs reg leafp o t.

(** The target [o] has succeeded: its body ended without error, or it is a name that stands for a
    target that has. *)
Inductive completed (objs : list shape) (reg : gmap string nat) (tr : list event) : nat -> Prop :=
  | comp_own o : (forall n, objs !! o <> Some (SRef n)) -> ended_well o tr -> completed objs reg tr o
  | comp_name o n o' : objs !! o = Some (SRef n) -> reg !! n = Some o' -> completed objs reg tr o' -> completed objs reg tr o.

(** Why something failed: a name that is not registered; a Files target whose own work (hashing,
    the database) failed; another target whose body returned an error. *)
Definition broken (objs : list shape) (reg : gmap string nat) (tr : list event) (o : nat) : Prop :=
  (exists n, objs !! o = Some (SRef n) /\ reg !! n = None) \/
  (exists t ins outs ac g a k, objs !! o = Some (SFiles t ins outs ac) /\ EvEnd g a o (Some (EBody k)) ∈ tr) \/
  (((exists t n d, objs !! o = Some (SLeaf t n d)) \/ objs !! o = None) /\ ended_badly o tr).

(** fab gives up without asking for anything to be run. *)
Definition gives_up (M : machine) (fuel : nat) (m : Main) (top : string) (T : tags) (wd : string) (s0 : ystate) : Prop :=
  (exists s, read_top M T fuel wd top s0 = RErr s false) \/
  k_db M (at_wd wd (m_fabdir m)) = None \/
  (exists x rest, m_args m = x :: "" :: rest) \/
  (exists s q, read_ok M T fuel wd top s0 s /\ names_target (m_args m) q /\ y_reg s !! q = None) \/
  exists path p, has_package M top path p /\
    (m_args m = [] \/ (exists n d, (n, d, None) ∈ p_targets p) \/
     at_wd wd (Join [m_fabdir m; path; "fab.bin"]) <> at_wd (k_cwd M) (Join [m_fabdir m; path; "fab.bin"])).
