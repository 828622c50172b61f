(** Properties of whole runs of the fab command. *)
From stdpp Require Import base gmap list strings sorting.
From Coq Require Import Ascii.
From Verif Require Import StrOrd PathModel PathSpec PathProofs PathProofs2 PathProofs3 TopDirModel TopDirSpec TopDirProofs DriverModel DriverSpec DriverProofs4
  YamlModel YamlSpec YamlProofs YamlProofs3 YamlProps ContextModel RegistryModel RegistrySpec RegistryProofs MainModel MainSpec MainProofs MainProofs2 MainProofs3 MainProofs4.
Local Open Scope list_scope.

(** From the command line to Main.Run. *)
Lemma fab_run M fuel argv cache m : k_cache M = Some cache -> fab_main cache "" argv = Some m -> fab M fuel argv = Main_Run M fuel m.
Proof. intros E E'. unfold fab. by rewrite E, E'. Qed.
Lemma fab_main_top cache top argv m : fab_main cache top argv = Some m -> m_topdir m = top.
Proof. unfold fab_main. destruct (parse _ _ _) as [[v args]|]; [|done]. by intros [= <-]. Qed.
Lemma fab_main_args cache top argv m : fab_main cache top argv = Some m -> "--" ∉ argv -> not_flag_first (m_args m).
Proof. unfold fab_main. destruct (parse _ _ _) as [[v args]|] eqn:E; [|done]. intros [= <-] Hn. by eapply parse_rest. Qed.
Lemma fab_project M fuel argv cache m a st : k_cache M = Some cache -> fab_main cache "" argv = Some m -> fab M fuel argv = Some (a, st) ->
  (exists top, TopDir (k_decl M) (k_fs M) (Some (k_cwd M)) "." = Ok top /\ in_project M m top) \/ (a = [Complain] /\ st = 1).
Proof.
  intros Hc Hm. rewrite (fab_run _ _ _ _ _ Hc Hm). pose proof (fab_main_top _ _ _ _ Hm) as Ht. unfold Main_Run. rewrite decide_True by done.
  destruct (TopDir _ _ _ _) as [top| | | | | | | |] eqn:E; try (intros [= <- <-]; by right). intros _. left. exists top. split; [done|]. right. done.
Qed.

(** ** C61.  The exit status is 0 exactly if there was no error message; at most one request
    to run targets is made, and if one is made, the status is 0 exactly if it succeeds. *)
Theorem C61_exit_status M fuel argv a st : fab M fuel argv = Some (a, st) ->
  (st = 0 <-> Complain ∉ a) /\
  (requests a = [] \/ exists r, requests a = [r] /\ (k_run M r = true <-> st = 0)).
Proof. exact (wf_fab M fuel argv a st). Qed.
Print Assumptions C61_exit_status.

(** If the project's YAML files cannot be read, and not because some file does not exist,
    fab fails without running or listing anything. *)
Lemma broken_fab M fuel argv cache m top T wd s0 s a st : k_cache M = Some cache -> fab_main cache "" argv = Some m -> "--" ∉ argv ->
  TopDir (k_decl M) (k_fs M) (Some (k_cwd M)) "." = Ok top -> reader M top T wd s0 -> read_top M T fuel wd top s0 = RErr s false ->
  fab M fuel argv = Some (a, st) -> st <> 0 /\ requests a = [] /\ printed a = "".
Proof.
  intros Hc Hm Hn Ht Hr Hb. rewrite (fab_run _ _ _ _ _ Hc Hm). eapply broken_lem; [|by eapply fab_main_args|done|done].
  right. split; [by eapply fab_main_top|done].
Qed.
Theorem C61_broken_project_file_partial M fuel argv cache m top T wd s0 s a st :
  k_cache M = Some cache -> fab_main cache "" argv = Some m -> "--" ∉ argv ->
  TopDir (k_decl M) (k_fs M) (Some (k_cwd M)) "." = Ok top -> reader M top T wd s0 -> read_top M T fuel wd top s0 = RErr s false ->
  fab M fuel argv = Some (a, st) -> st <> 0 /\ requests a = [] /\ printed a = "".
Proof. exact (broken_fab M fuel argv cache m top T wd s0 s a st). Qed.
Print Assumptions C61_broken_project_file_partial.

(** Stated for project files themselves: the file is there; it is no YAML, or its document is
    not a mapping, or that does not meet the requirements, or some value cannot be decoded.
    The document refers to no other directory, and the decoders do not report missing files. *)
Lemma bad_file_fab M argv cache m top T wd s0 : IsAbs (k_cwd M) = true -> k_cache M = Some cache -> fab_main cache "" argv = Some m -> "--" ∉ argv ->
  TopDir (k_decl M) (k_fs M) (Some (k_cwd M)) "." = Ok top -> reader M top T wd s0 ->
  openFabYAML (fun p => k_fs M (at_wd wd p)) top <> OpenNotExist ->
  (forall e, tag_ne_list T e = false) -> (forall t n dir, tag_ne_leaf T t n dir = false) ->
  (forall doc ps, k_docs M wd top = Some doc -> has_entries doc ps ->
     (forall k v q, (k, v) ∈ ps -> target_key k -> refers top "" v q -> ~ far q) /\
     ~ (entries_ok "" ps /\ forall k v, (k, v) ∈ ps -> target_key k -> decodable top (tag_lists T) (tag_leaf T) (k_bool M) "" v)) ->
  exists N, forall fuel, N <= fuel -> exists a st, fab M fuel argv = Some (a, st) /\ st <> 0 /\ requests a = [] /\ printed a = "".
Proof.
  intros Hcwd Hc Hm Hn Ht Hr Hex Hl Hlf Hbad. destruct (topdir_abs _ _ _ _ _ Hcwd Ht) as [Ha Hcl].
  destruct (bad_file_lem M m top T wd s0) as [N HN]; try done; [right; split; [by eapply fab_main_top|done]|by eapply fab_main_args|].
  exists N. intros fuel Hf. rewrite (fab_run _ _ _ _ _ Hc Hm). by apply HN.
Qed.
Theorem C61_wrong_project_file_partial M argv cache m top T wd s0 : IsAbs (k_cwd M) = true -> k_cache M = Some cache -> fab_main cache "" argv = Some m -> "--" ∉ argv ->
  TopDir (k_decl M) (k_fs M) (Some (k_cwd M)) "." = Ok top -> reader M top T wd s0 ->
  openFabYAML (fun p => k_fs M (at_wd wd p)) top <> OpenNotExist ->
  (forall e, tag_ne_list T e = false) -> (forall t n dir, tag_ne_leaf T t n dir = false) ->
  (forall doc ps, k_docs M wd top = Some doc -> has_entries doc ps ->
     (forall k v q, (k, v) ∈ ps -> target_key k -> refers top "" v q -> ~ far q) /\
     ~ (entries_ok "" ps /\ forall k v, (k, v) ∈ ps -> target_key k -> decodable top (tag_lists T) (tag_leaf T) (k_bool M) "" v)) ->
  exists N, forall fuel, N <= fuel -> exists a st, fab M fuel argv = Some (a, st) /\ st <> 0 /\ requests a = [] /\ printed a = "".
Proof. exact (bad_file_fab M argv cache m top T wd s0). Qed.
Print Assumptions C61_wrong_project_file_partial.

(** *** A concrete machine: fab is called in /p/d; /p has a YAML file, of text [text]. *)
Definition plain_tags : tags := {| tag_lists := fns0; tag_leaf := leaf0; tag_ne_list := fun _ => false; tag_ne_leaf := fun _ _ _ => false |}.
(** The decoders of the fab binary include those of package golang. *)
Definition fab_tags : tags := {| tag_lists := fns0; tag_leaf := fun t => if decide (t = "go.Binary") then Some (fun _ _ => true) else leaf0 t;
  tag_ne_list := fun _ => false; tag_ne_leaf := fun _ _ _ => false |}.
Definition text_of (t : string) : option node :=
  if decide (t = "good") then Some (document [(doc_key "A" "# first", sq "!Command" [sc "a"]); (sc "B", sq "!Command" [sc "b"])])
  else if decide (t = "dangling") then Some (document [(sc "A", sq "!Command" [sc "a"]); (sc "B", sc "x/Y"); (sc "C", sq "!Command" [sc "c"])])
  else if decide (t = "untyped") then Some (document [(sc "A", sq "!Command" [sc "a"]); (sc "B", sq "!!seq" [])])
  else if decide (t = "binary") then Some (document [(sc "A", mp "!go.Binary" [])])
  else None.
Definition files_of (text : string) (go : bool) (p : string) : entry :=
  if decide (p = "/p/fab.yaml") then IsFile text
  else if decide (p = "/p/_fab") then (if go then IsDirectory else NotExist)
  else NotExist.
Definition pkg0 (ts : list (string * string * option nat)) : gopkg :=
  {| p_objs := [SLeaf "Go" zero_node ""]; p_targets := ts; p_tags := plain_tags |}.
Definition M0 (text : string) (go : option gopkg) (db : bool) : machine :=
  {| k_cwd := "/p/d"; k_cache := Some "/home/.cache/fab"; k_fs := files_of text (if go then true else false); k_decl := fun _ => Some None;
     k_yaml := text_of; k_bool := fun _ => Some false; k_tags := fab_tags;
     k_load := fun d => if decide (d = "/p") then match go with Some p => Package "proj" p | None => NoPackage end else LoadFails;
     k_db := fun _ => if db then Some 7 else None;
     k_run := fun r => match r_targets r with [Plain (TPtr 1)] => false | _ => true end |}.

Definition status (o : outcome) : option nat := snd <$> o.
Definition targets_run (o : outcome) : list (list argt) := match o with Some (a, _) => r_targets <$> requests a | None => [] end.
Definition text_out (o : outcome) : string := match o with Some (a, _) => printed a | None => "" end.

Example C61_case :
  status (fab (M0 "good" None true) 9 ["A"]) = Some 0 /\ targets_run (fab (M0 "good" None true) 9 ["A"]) = [[Plain (TPtr 0)]] /\
  status (fab (M0 "good" None true) 9 ["B"]) = Some 1 /\ targets_run (fab (M0 "good" None true) 9 ["B"]) = [[Plain (TPtr 1)]] /\
  status (fab (M0 "good" None true) 9 ["Z"]) = Some 1 /\ targets_run (fab (M0 "good" None true) 9 ["Z"]) = [] /\
  status (fab (M0 "good" None true) 9 ["A"; ""]) = Some 2 /\
  status (fab (M0 "good" None true) 9 ["-x"]) = Some 2 /\ status (fab (M0 "good" None true) 9 ["-help"]) = Some 0 /\
  status (fab (M0 "good" (Some (pkg0 [])) true) 9 ["B"]) = Some 0 /\ status (fab (M0 "good" (Some (pkg0 [])) true) 9 ["A"]) = Some 1 /\
  status (fab (M0 "good" (Some (pkg0 [("T", "", None)])) true) 9 ["A"]) = Some 1.
Proof. vm_compute. done. Qed.
Example C61_partial_case : exists cache m s, let M := M0 "untyped" None true in
  k_cache M = Some cache /\ fab_main cache "" ["A"] = Some m /\ "--" ∉ ["A"] /\ TopDir (k_decl M) (k_fs M) (Some (k_cwd M)) "." = Ok "/p" /\
  reader M "/p" fab_tags "/p/d" {| y_objs := []; y_reg := ∅ |} /\ read_top M fab_tags 9 "/p/d" "/p" {| y_objs := []; y_reg := ∅ |} = RErr s false /\
  status (fab M 9 ["A"]) = Some 1.
Proof.
  eexists _, _, _. split; [reflexivity|]. split; [vm_compute; reflexivity|]. split; [set_solver|]. split; [vm_compute; reflexivity|].
  split; [left; split; [left; reflexivity|done]|]. split; vm_compute; reflexivity.
Qed.

(** A project file that is no YAML; one whose second value has no tag. *)
Example C61_wrong_case : (forall t n dir, tag_ne_leaf fab_tags t n dir = false) /\
  (let M := M0 "junk" None true in openFabYAML (fun p => k_fs M (at_wd "/p/d" p)) "/p" <> OpenNotExist /\ k_docs M "/p/d" "/p" = None /\ status (fab M 9 ["A"]) = Some 1) /\
  let M := M0 "untyped" None true in exists doc ps, k_docs M "/p/d" "/p" = Some doc /\ has_entries doc ps /\
    ~ (forall k v, (k, v) ∈ ps -> target_key k -> decodable "/p" (tag_lists fab_tags) (tag_leaf fab_tags) (k_bool M) "" v).
Proof.
  split; [done|]. split; [vm_compute; done|]. intros M. eexists _, [(sc "A", sq "!Command" [sc "a"]); (sc "B", sq "!!seq" [])]. split; [vm_compute; reflexivity|].
  split; [eexists; split_and!; reflexivity|]. intros H.
  assert (Hd : decodable "/p" (tag_lists fab_tags) (tag_leaf fab_tags) (k_bool M) "" (sq "!!seq" [])).
  { apply (H (sc "B")); [right; left|]. split; [done|]. split; [discriminate|reflexivity]. }
  assert (Hno : forall t, ~ has_tag (sq "!!seq" []) t).
  { intros t (_ & Hb & [E|E]); cbn in E; [subst t; apply Hb; by eexists|injection E as <-; apply Hb; by eexists]. }
  inversion Hd; try discriminate; match goal with H : has_tag _ _ |- _ => exact (Hno _ H) end.
Qed.

(** But an error that says that some file does not exist is taken to mean that the project
    has no YAML file: here the file is there, its second entry refers to a target of a
    directory without YAML file; fab -list shows the first target only and succeeds, and the
    first target can be run. *)
Theorem C61_dangling_reference_refuted : exists M top, TopDir (k_decl M) (k_fs M) (Some (k_cwd M)) "." = Ok top /\ no_package M top /\
  k_fs M (Join [top; "fab.yaml"]) <> NotExist /\
  (exists s e, read_top M (k_tags M) 9 (k_cwd M) top {| y_objs := []; y_reg := ∅ |} = RErr s e) /\
  status (fab M 9 ["-list"]) = Some 0 /\ text_out (fab M 9 ["-list"]) = "A" +:+ nl /\
  status (fab M 9 ["A"]) = Some 0 /\ targets_run (fab M 9 ["A"]) = [[Plain (TPtr 0)]] /\ status (fab M 9 ["C"]) = Some 1.
Proof.
  exists (M0 "dangling" None true), "/p". split; [vm_compute; reflexivity|]. split; [left; reflexivity|]. split; [vm_compute; discriminate|].
  split; [eexists _, _; vm_compute; reflexivity|]. vm_compute. done.
Qed.
Print Assumptions C61_dangling_reference_refuted.

(** ** C62.  A project with YAML targets only, without and with a Go package that adds
    nothing: fab prints the same, asks for the same and both times succeeds or fails, if
    targets are named, the hash database can be opened, fab's directory is an absolute
    path, and the outcome of running does not depend on the working directory. *)
Lemma modes_fab M fuel argv cache m path p : IsAbs (k_cwd M) = true -> k_cache M = Some cache -> fab_main cache "" argv = Some m -> "--" ∉ argv -> m_args m <> [] ->
  IsAbs (m_fabdir m) = true -> k_db M (Clean (m_fabdir m)) <> None ->
  p_objs p = [] -> p_targets p = [] -> p_tags p = k_tags M -> (forall r wd, k_run M (elsewhere r wd) = k_run M r) ->
  agree (fab (with_load M NoPackage) fuel argv) (fab (with_load M (Package path p)) fuel argv).
Proof.
  intros Hcwd Hc Hm Hn Ha Hf Hdb Ho Hts HT Hrun.
  rewrite (fab_run (with_load M NoPackage) fuel argv cache m), (fab_run (with_load M (Package path p)) fuel argv cache m) by done.
  pose proof (fab_main_top _ _ _ _ Hm) as Ht.
  destruct (TopDir (k_decl M) (k_fs M) (Some (k_cwd M)) ".") as [top| | | | | | | |] eqn:E.
  { apply (modes_lem M fuel m top path p); try done; [right; done|exact (proj1 (topdir_abs _ _ _ _ _ Hcwd E))|by eapply fab_main_args|by rewrite Hc]. }
  all: unfold Main_Run; rewrite !decide_True by done; cbn [k_decl k_fs k_cwd with_load]; rewrite E; split; [done|split; [done|constructor]].
Qed.
Theorem C62_modes_agree_partial M fuel argv cache m path p :
  IsAbs (k_cwd M) = true -> k_cache M = Some cache -> fab_main cache "" argv = Some m -> "--" ∉ argv -> m_args m <> [] ->
  IsAbs (m_fabdir m) = true -> k_db M (Clean (m_fabdir m)) <> None ->
  p_objs p = [] -> p_targets p = [] -> p_tags p = k_tags M -> (forall r wd, k_run M (elsewhere r wd) = k_run M r) ->
  agree (fab (with_load M NoPackage) fuel argv) (fab (with_load M (Package path p)) fuel argv).
Proof. exact (modes_fab M fuel argv cache m path p). Qed.
Print Assumptions C62_modes_agree_partial.
Definition pkg1 : gopkg := {| p_objs := []; p_targets := []; p_tags := fab_tags |}.
Example C62_case : exists m, let M := M0 "good" (Some pkg1) true in
  fab_main "/home/.cache/fab" "" ["-v"; "A"; "B"] = Some m /\ "--" ∉ ["-v"; "A"; "B"] /\ m_args m <> [] /\ IsAbs (m_fabdir m) = true /\
  targets_run (fab (with_load M NoPackage) 9 ["-v"; "A"; "B"]) = [[Plain (TPtr 0); Plain (TPtr 1)]] /\
  targets_run (fab (with_load M (Package "proj" pkg1)) 9 ["-v"; "A"; "B"]) = [[Plain (TPtr 0); Plain (TPtr 1)]] /\
  forall r wd, k_run M (elsewhere r wd) = k_run M r.
Proof. eexists. split; [vm_compute; reflexivity|]. split; [set_solver|]. split; [discriminate|]. split; [reflexivity|]. split; [vm_compute; reflexivity|]. split; [vm_compute; reflexivity|done]. Qed.

(** If no target is named: one prints nothing, the other the list of targets. *)
Theorem C62_no_arguments_refuted : exists M path p, p_objs p = [] /\ p_targets p = [] /\ p_tags p = k_tags M /\
  text_out (fab (with_load M NoPackage) 9 []) = "" /\ targets_run (fab (with_load M NoPackage) 9 []) = [[]] /\
  text_out (fab (with_load M (Package path p)) 9 []) = hint +:+ "A" +:+ nl +:+ "    first" +:+ nl +:+ "B" +:+ nl /\
  targets_run (fab (with_load M (Package path p)) 9 []) = [].
Proof. exists (M0 "good" (Some pkg1) true), "proj", pkg1. split; [done|]. split; [done|]. split; [done|]. vm_compute. done. Qed.
Print Assumptions C62_no_arguments_refuted.
(** If the hash database cannot be opened, one can list the targets, the other cannot. *)
Theorem C62_list_without_database_refuted : exists M path p, p_objs p = [] /\ p_targets p = [] /\ p_tags p = k_tags M /\
  status (fab (with_load M NoPackage) 9 ["-list"]) = Some 0 /\ status (fab (with_load M (Package path p)) 9 ["-list"]) = Some 1.
Proof. exists (M0 "good" (Some pkg1) false), "proj", pkg1. split; [done|]. split; [done|]. split; [done|]. vm_compute. done. Qed.
Print Assumptions C62_list_without_database_refuted.
(** The fab binary has the decoders of package golang; a driver has them only if the Go
    package imports that package.  An empty Go package makes !go.Binary unknown. *)
Theorem C62_go_tags_refuted : exists M path p, p_objs p = [] /\ p_targets p = [] /\ p_tags p = plain_tags /\ k_tags M = fab_tags /\
  status (fab (with_load M NoPackage) 9 ["A"]) = Some 0 /\ status (fab (with_load M (Package path p)) 9 ["A"]) = Some 1.
Proof.
  exists (M0 "binary" (Some pkg1) true), "proj", {| p_objs := []; p_targets := []; p_tags := plain_tags |}.
  split; [done|]. split; [done|]. split; [done|]. split; [done|]. vm_compute. done.
Qed.
Print Assumptions C62_go_tags_refuted.

(** ** C63.  With -list nothing is run ... *)
Lemma list_fab M fuel argv cache m a st : k_cache M = Some cache -> fab_main cache "" argv = Some m -> "--" ∉ argv -> m_list m = true ->
  fab M fuel argv = Some (a, st) -> requests a = [].
Proof.
  intros Hc Hm Hn Hl H. destruct (fab_project _ _ _ _ _ _ _ Hc Hm H) as [(top & _ & Hp)|[-> _]]; [|done].
  rewrite (fab_run _ _ _ _ _ Hc Hm) in H. eapply list_nothing; [done|by eapply fab_main_args|done|done].
Qed.
Theorem C63_list_runs_nothing_partial M fuel argv cache m a st :
  k_cache M = Some cache -> fab_main cache "" argv = Some m -> "--" ∉ argv -> m_list m = true ->
  fab M fuel argv = Some (a, st) -> requests a = [].
Proof. exact (list_fab M fuel argv cache m a st). Qed.
Print Assumptions C63_list_runs_nothing_partial.

(** ... and if fab succeeds, what is printed is the listing (C34) of the Go targets and what
    the YAML files add. *)
Lemma list_loop_reg reg names : forall i, list_loop (fun _ => as_registry reg) i names = String.concat "" (entry_of reg <$> names).
Proof.
  induction names as [|n names IH]; intros i; [done|]. cbn [list_loop fmap list_fmap]. rewrite IH, concat_cons. unfold entry_of.
  rewrite as_registry_lookup. destruct (reg !! n) as [[d o]|]; simpl fmap; [|by rewrite !sapp_assoc].
  cbv beta iota zeta. cbn [fst snd]. unfold bol_replace. by rewrite !sapp_assoc.
Qed.
Lemma names_reg reg : exists names, ListTargets (fun _ => as_registry reg) = String.concat "" (entry_of reg <$> names) /\
  StronglySorted sle names /\ NoDup names /\ forall n, n ∈ names <-> is_Some (reg !! n).
Proof.
  exists (RegistryNames (as_registry reg)). split; [apply list_loop_reg|]. split; [apply names_sorted|]. split; [apply names_nodup|].
  intros n. unfold RegistryNames. rewrite ssort_elem. rewrite elem_of_list_fmap. split.
  - intros ([k t] & -> & Hin%elem_of_map_to_list). simpl. cbn in Hin. rewrite map_lookup_imap in Hin. by destruct (reg !! k).
  - intros [[d o] E]. exists (n, {| t_target := TPtr o; t_name := n; t_doc := d |}). split; [done|]. apply elem_of_map_to_list. cbn. by rewrite map_lookup_imap, E.
Qed.
(** What the YAML files of the project at [top] add to the targets [s0]. *)
Lemma read_explained M T fuel wd top s0 s : read_ok M T fuel wd top s0 s ->
  y_objs s0 `prefix_of` y_objs s /\
  forall q, y_reg s !! q = y_reg s0 !! q \/
    exists dir k v o, defines top (k_docs M wd) dir q k v /\ y_reg s !! q = Some (key_doc k, o) /\
      denotes top (tag_lists T) (tag_leaf T) (k_bool M) (fun q o => exists d, y_reg s0 !! q = Some (d, o)) (defines top (k_docs M wd)) (y_objs s) dir v o.
Proof.
  intros [H|H]; unfold read_top in H; cbv zeta in H.
  - exact (registry_explained top (tag_lists T) (tag_leaf T) (k_bool M) (k_docs M wd) (k_ne M wd T) fuel "" s0 s false (or_introl H)).
  - exact (registry_explained top (tag_lists T) (tag_leaf T) (k_bool M) (k_docs M wd) (k_ne M wd T) fuel "" s0 s true (or_intror H)).
Qed.
Lemma listing_fab M fuel argv cache m a : k_cache M = Some cache -> fab_main cache "" argv = Some m -> "--" ∉ argv -> m_list m = true ->
  fab M fuel argv = Some (a, 0) ->
  exists top T wd s0 s names, TopDir (k_decl M) (k_fs M) (Some (k_cwd M)) "." = Ok top /\ reader M top T wd s0 /\ read_ok M T fuel wd top s0 s /\
    printed a = String.concat "" (entry_of (y_reg s) <$> names) /\ StronglySorted sle names /\ NoDup names /\
    (forall n, n ∈ names <-> is_Some (y_reg s !! n)) /\ (forall n, is_Some (y_reg s0 !! n) -> n ∈ names).
Proof.
  intros Hc Hm Hn Hl H. destruct (fab_project _ _ _ _ _ _ _ Hc Hm H) as [(top & Ht & Hp)|[_ ?]]; [|done].
  rewrite (fab_run _ _ _ _ _ Hc Hm) in H.
  destruct (listing_lem M fuel m top a Hp (fab_main_args _ _ _ _ Hm Hn) Hl H) as (T & wd & s0 & s & Hr & Hok & E).
  destruct (names_reg (y_reg s)) as (names & E' & Hs & Hd & Hin). exists top, T, wd, s0, s, names. rewrite E, E'. split_and!; try done.
  intros n Hs0. apply Hin. destruct (read_explained _ _ _ _ _ _ _ Hok) as [_ Hx]. destruct (Hx n) as [->|(dir & k & v & o & _ & -> & _)]; [done|by eexists].
Qed.
Theorem C63_listing_partial M fuel argv cache m a : k_cache M = Some cache -> fab_main cache "" argv = Some m -> "--" ∉ argv -> m_list m = true ->
  fab M fuel argv = Some (a, 0) ->
  exists top T wd s0 s names, TopDir (k_decl M) (k_fs M) (Some (k_cwd M)) "." = Ok top /\ reader M top T wd s0 /\ read_ok M T fuel wd top s0 s /\
    printed a = String.concat "" (entry_of (y_reg s) <$> names) /\ StronglySorted sle names /\ NoDup names /\
    (forall n, n ∈ names <-> is_Some (y_reg s !! n)) /\ (forall n, is_Some (y_reg s0 !! n) -> n ∈ names).
Proof. exact (listing_fab M fuel argv cache m a). Qed.
Print Assumptions C63_listing_partial.
Definition go_pkg : gopkg := pkg0 [("T", "a Go target", Some 0); ("A", "the Go A", Some 0)].
Example C63_case : exists m, fab_main "/home/.cache/fab" "" ["-list"; "A"] = Some m /\ "--" ∉ ["-list"; "A"] /\ m_list m = true /\
  status (fab (M0 "good" (Some go_pkg) true) 9 ["-list"; "A"]) = Some 0 /\
  text_out (fab (M0 "good" (Some go_pkg) true) 9 ["-list"; "A"]) = "A" +:+ nl +:+ "    first" +:+ nl +:+ "B" +:+ nl +:+ "T" +:+ nl +:+ "    a Go target" +:+ nl.
Proof. eexists. split; [vm_compute; reflexivity|]. split; [set_solver|]. split; [reflexivity|]. split; vm_compute; reflexivity. Qed.
(** It succeeds if the YAML files can be read, no -- is given, and, if there is a Go package,
    all its targets are pointers, the database can be opened and the driver found. *)
Lemma lists_fab M fuel argv cache m top T wd s0 s : k_cache M = Some cache -> fab_main cache "" argv = Some m -> "--" ∉ argv ->
  TopDir (k_decl M) (k_fs M) (Some (k_cwd M)) "." = Ok top -> reader M top T wd s0 -> read_ok M T fuel wd top s0 s -> m_list m = true ->
  (no_package M top \/ exists path p, has_package M top path p /\ Forall (fun t => t.2 <> None) (p_targets p) /\ k_db M (at_wd wd (m_fabdir m)) <> None /\
     at_wd wd (Join [m_fabdir m; path; "fab.bin"]) = at_wd (k_cwd M) (Join [m_fabdir m; path; "fab.bin"])) ->
  exists a, fab M fuel argv = Some (a, 0).
Proof.
  intros Hc Hm Hn Ht Hr Hok Hl Hor. rewrite (fab_run _ _ _ _ _ Hc Hm). eapply lists_lem; try done; [right; split; [by eapply fab_main_top|done]|by eapply fab_main_args|by rewrite Hc].
Qed.
Theorem C63_succeeds_partial M fuel argv cache m top T wd s0 s : k_cache M = Some cache -> fab_main cache "" argv = Some m -> "--" ∉ argv ->
  TopDir (k_decl M) (k_fs M) (Some (k_cwd M)) "." = Ok top -> reader M top T wd s0 -> read_ok M T fuel wd top s0 s -> m_list m = true ->
  (no_package M top \/ exists path p, has_package M top path p /\ Forall (fun t => t.2 <> None) (p_targets p) /\ k_db M (at_wd wd (m_fabdir m)) <> None /\
     at_wd wd (Join [m_fabdir m; path; "fab.bin"]) = at_wd (k_cwd M) (Join [m_fabdir m; path; "fab.bin"])) ->
  exists a, fab M fuel argv = Some (a, 0).
Proof. exact (lists_fab M fuel argv cache m top T wd s0 s). Qed.
Print Assumptions C63_succeeds_partial.
(** After -- a flag for the driver can undo -list. *)
Theorem C63_terminator_refuted : exists M cache argv m, k_cache M = Some cache /\ fab_main cache "" argv = Some m /\ m_list m = true /\
  targets_run (fab M 9 argv) <> [].
Proof.
  exists (M0 "good" (Some go_pkg) true), "/home/.cache/fab", ["-list"; "--"; "-list=false"; "T"]. eexists.
  split; [reflexivity|]. split; [vm_compute; reflexivity|]. split; [reflexivity|]. vm_compute. discriminate.
Qed.
Print Assumptions C63_terminator_refuted.
(** With a driver, -list opens (and if necessary makes) the hash database. *)
Theorem C63_list_opens_database_refuted : exists M a, fab M 9 ["-list"] = Some (a, 0) /\ OpenDB "/home/.cache/fab" ∈ a.
Proof.
  exists (M0 "good" (Some go_pkg) true). eexists. split; [vm_compute; reflexivity|]. left.
Qed.
Print Assumptions C63_list_opens_database_refuted.

(** ** C64.  What is run gets the flags and the arguments of the command line. *)
Lemma settings_fab M fuel argv cache m a st r : IsAbs (k_cwd M) = true -> k_cache M = Some cache -> fab_main cache "" argv = Some m -> "--" ∉ argv ->
  fab M fuel argv = Some (a, st) -> r ∈ requests a ->
  m_list m = false /\ exists top wd, TopDir (k_decl M) (k_fs M) (Some (k_cwd M)) "." = Ok top /\
    ((no_package M top /\ wd = k_cwd M) \/ (exists path p, has_package M top path p /\ place (k_cwd M) top wd)) /\ faithful M m top wd a r.
Proof.
  intros Hcwd Hc Hm Hn H Hr. destruct (fab_project _ _ _ _ _ _ _ Hc Hm H) as [(top & Ht & Hp)|[-> _]]; [|by apply elem_of_nil in Hr].
  rewrite (fab_run _ _ _ _ _ Hc Hm) in H.
  destruct (main_request M fuel m top a st r Hp (fab_main_args _ _ _ _ Hm Hn) H Hr) as (Hl & T & wd & s0 & s & Hrd & Hf & _). split; [done|].
  exists top, wd. split; [done|]. destruct Hrd as [(? & _ & -> & _)|(path & p & ? & _ & -> & _)].
  - split; [by left|]. by apply faithful_of.
  - split; [right; exists path, p; split; [done|by apply at_wd_place]|]. apply faithful_of; [by apply at_wd_abs|done].
Qed.
Theorem C64_settings_partial M fuel argv cache m a st r : IsAbs (k_cwd M) = true -> k_cache M = Some cache -> fab_main cache "" argv = Some m -> "--" ∉ argv ->
  fab M fuel argv = Some (a, st) -> r ∈ requests a ->
  m_list m = false /\ exists top wd, TopDir (k_decl M) (k_fs M) (Some (k_cwd M)) "." = Ok top /\
    ((no_package M top /\ wd = k_cwd M) \/ (exists path p, has_package M top path p /\ place (k_cwd M) top wd)) /\ faithful M m top wd a r.
Proof. exact (settings_fab M fuel argv cache m a st r). Qed.
Print Assumptions C64_settings_partial.
Example C64_case : exists m a r, fab_main "/home/.cache/fab" "" ["-n"; "-f=true"; "-fab"; "/x"; "T"; "-k"; "-v"] = Some m /\
  "--" ∉ ["-n"; "-f=true"; "-fab"; "/x"; "T"; "-k"; "-v"] /\
  fab (M0 "good" (Some go_pkg) true) 9 ["-n"; "-f=true"; "-fab"; "/x"; "T"; "-k"; "-v"] = Some (a, 0) /\ r ∈ requests a /\
  r_targets r = [RegistryModel.WithArgs (TPtr 0) ["-k"; "-v"]] /\ GetDryRun (r_ctx r) = true /\ GetForce (r_ctx r) = true /\ GetVerbose (r_ctx r) = false.
Proof. eexists _, _, _. split; [vm_compute; reflexivity|]. split; [set_solver|]. split; [vm_compute; reflexivity|]. split; [left|]. done. Qed.
(** And what can be run is run: if the YAML files can be read, the arguments name targets
    that are there, the database can be opened, and, if there is a Go package, some target is
    named, all Go targets are pointers and the driver is found. *)
Lemma runs_fab M fuel argv cache m top T wd s0 s ts : k_cache M = Some cache -> fab_main cache "" argv = Some m -> "--" ∉ argv ->
  TopDir (k_decl M) (k_fs M) (Some (k_cwd M)) "." = Ok top -> reader M top T wd s0 -> read_ok M T fuel wd top s0 s -> m_list m = false ->
  k_db M (at_wd wd (m_fabdir m)) <> None -> asked (y_reg s) (m_args m) ts -> (forall a rest, m_args m <> a :: "" :: rest) ->
  (no_package M top \/ exists path p, has_package M top path p /\ m_args m <> [] /\ Forall (fun t => t.2 <> None) (p_targets p) /\
     at_wd wd (Join [m_fabdir m; path; "fab.bin"]) = at_wd (k_cwd M) (Join [m_fabdir m; path; "fab.bin"])) ->
  exists a st r, fab M fuel argv = Some (a, st) /\ requests a = [r] /\ r_objs r = y_objs s /\ r_reg r = y_reg s /\ r_targets r = ts.
Proof.
  intros Hc Hm Hn Ht Hr Hok Hl Hdb Ha He Hor. rewrite (fab_run _ _ _ _ _ Hc Hm).
  eapply runs_lem; try done; [right; split; [by eapply fab_main_top|done]|by eapply fab_main_args|by rewrite Hc|].
  intros (x & rest & E). by eapply He.
Qed.
Theorem C64_runs_partial M fuel argv cache m top T wd s0 s ts : k_cache M = Some cache -> fab_main cache "" argv = Some m -> "--" ∉ argv ->
  TopDir (k_decl M) (k_fs M) (Some (k_cwd M)) "." = Ok top -> reader M top T wd s0 -> read_ok M T fuel wd top s0 s -> m_list m = false ->
  k_db M (at_wd wd (m_fabdir m)) <> None -> asked (y_reg s) (m_args m) ts -> (forall a rest, m_args m <> a :: "" :: rest) ->
  (no_package M top \/ exists path p, has_package M top path p /\ m_args m <> [] /\ Forall (fun t => t.2 <> None) (p_targets p) /\
     at_wd wd (Join [m_fabdir m; path; "fab.bin"]) = at_wd (k_cwd M) (Join [m_fabdir m; path; "fab.bin"])) ->
  exists a st r, fab M fuel argv = Some (a, st) /\ requests a = [r] /\ r_objs r = y_objs s /\ r_reg r = y_reg s /\ r_targets r = ts.
Proof. exact (runs_fab M fuel argv cache m top T wd s0 s ts). Qed.
Print Assumptions C64_runs_partial.
Example C64_runs_case : let M := M0 "good" None true in exists m s,
  fab_main "/home/.cache/fab" "" ["A"; "B"] = Some m /\ TopDir (k_decl M) (k_fs M) (Some (k_cwd M)) "." = Ok "/p" /\
  reader M "/p" fab_tags "/p/d" {| y_objs := []; y_reg := ∅ |} /\ read_ok M fab_tags 9 "/p/d" "/p" {| y_objs := []; y_reg := ∅ |} s /\
  m_list m = false /\ k_db M (at_wd "/p/d" (m_fabdir m)) <> None /\ asked (y_reg s) (m_args m) [Plain (TPtr 0); Plain (TPtr 1)] /\
  (forall a rest, m_args m <> a :: "" :: rest) /\ no_package M "/p".
Proof.
  intros M. eexists _, _. split; [vm_compute; reflexivity|]. split; [vm_compute; reflexivity|]. split; [left; split; [left; reflexivity|done]|].
  split; [left; vm_compute; reflexivity|]. split; [reflexivity|]. split; [vm_compute; discriminate|]. split; [|split; [done|left; reflexivity]].
  right. split; [intros ? ? ?; done|]. constructor; [by eexists _, _|]. constructor; [by eexists _, _|constructor].
Qed.
(** After -- it is not so (see also C46): here the dry run that was asked for is undone. *)
Theorem C64_terminator_refuted : exists M cache argv m a r, k_cache M = Some cache /\ fab_main cache "" argv = Some m /\ m_dryrun m = true /\
  fab M 9 argv = Some (a, 0) /\ r ∈ requests a /\ GetDryRun (r_ctx r) = false.
Proof.
  exists (M0 "good" (Some go_pkg) true), "/home/.cache/fab", ["-n"; "--"; "-n=0"; "T"]. eexists _, _, _.
  split; [reflexivity|]. split; [vm_compute; reflexivity|]. split; [reflexivity|]. split; [vm_compute; reflexivity|]. split; [left|]. reflexivity.
Qed.
Print Assumptions C64_terminator_refuted.

(** ** C65.  Every target name that can be used stands for the Go target of that name (the
    last, if there are several) or for a definition of that name in a YAML file. *)
Lemma origin_fab M fuel argv cache m a st r : k_cache M = Some cache -> fab_main cache "" argv = Some m -> "--" ∉ argv ->
  fab M fuel argv = Some (a, st) -> r ∈ requests a ->
  exists top T wd s0, TopDir (k_decl M) (k_fs M) (Some (k_cwd M)) "." = Ok top /\ reader M top T wd s0 /\ y_objs s0 `prefix_of` r_objs r /\
    forall q, r_reg r !! q = y_reg s0 !! q \/
      exists dir k v o, defines top (k_docs M wd) dir q k v /\ r_reg r !! q = Some (key_doc k, o) /\
        denotes top (tag_lists T) (tag_leaf T) (k_bool M) (fun q o => exists d, y_reg s0 !! q = Some (d, o)) (defines top (k_docs M wd)) (r_objs r) dir v o.
Proof.
  intros Hc Hm Hn H Hr. destruct (fab_project _ _ _ _ _ _ _ Hc Hm H) as [(top & Ht & Hp)|[-> _]]; [|by apply elem_of_nil in Hr].
  rewrite (fab_run _ _ _ _ _ Hc Hm) in H.
  destruct (main_request M fuel m top a st r Hp (fab_main_args _ _ _ _ Hm Hn) H Hr) as (Hl & T & wd & s0 & s & Hrd & Hf & Hok & -> & ->).
  exists top, T, wd, s0. split; [done|]. split; [done|]. exact (read_explained _ _ _ _ _ _ _ Hok).
Qed.
Theorem C65_origin_partial M fuel argv cache m a st r : k_cache M = Some cache -> fab_main cache "" argv = Some m -> "--" ∉ argv ->
  fab M fuel argv = Some (a, st) -> r ∈ requests a ->
  exists top T wd s0, TopDir (k_decl M) (k_fs M) (Some (k_cwd M)) "." = Ok top /\ reader M top T wd s0 /\ y_objs s0 `prefix_of` r_objs r /\
    forall q, r_reg r !! q = y_reg s0 !! q \/
      exists dir k v o, defines top (k_docs M wd) dir q k v /\ r_reg r !! q = Some (key_doc k, o) /\
        denotes top (tag_lists T) (tag_leaf T) (k_bool M) (fun q o => exists d, y_reg s0 !! q = Some (d, o)) (defines top (k_docs M wd)) (r_objs r) dir v o.
Proof. exact (origin_fab M fuel argv cache m a st r). Qed.
Print Assumptions C65_origin_partial.

(** Without a project file (neither fab.yaml nor fab.yml) the targets are those of the Go package. *)
Lemma no_file_reads M T fuel wd top s : IsAbs top = true -> clean top -> openFabYAML (fun p => k_fs M (at_wd wd p)) top = OpenNotExist ->
  read_top M T fuel wd top s = RErr s true.
Proof. intros Ha Hc E. unfold read_top, ReadYAMLFile. rewrite Join_top by done. unfold k_docs at 1. rewrite E. cbn [ne_file k_ne]. by rewrite E. Qed.
Theorem C65_no_project_file M T fuel wd top s : IsAbs top = true -> clean top ->
  k_fs M (Join [top; "fab.yaml"]) = NotExist -> k_fs M (Join [top; "fab.yml"]) = NotExist ->
  read_ok M T fuel wd top s s.
Proof.
  intros Ha Hc E1 E2. right. apply no_file_reads; [done|done|]. assert (Hne : top <> "") by (by intros ->).
  assert (Hj : forall f, at_wd wd (Join [top; f]) = Join [top; f]).
  { intros f. rewrite at_abs by (by rewrite Join_abs, decide_False). destruct (Join_clean [top; f]) as [E|E]; [|done].
    apply Join_nil in E. inversion E. congruence. }
  unfold openFabYAML, open1. by rewrite !Hj, E1, E2.
Qed.
Print Assumptions C65_no_project_file.
(** If there is a project file, and every directory that a YAML file refers to has one, and
    the decoders do not report missing files, then what is run is run only if the project
    file is read to its end: every target it defines is there. *)
Lemma complete_fab M fuel argv cache m top T wd s0 a st r : IsAbs (k_cwd M) = true -> k_cache M = Some cache -> fab_main cache "" argv = Some m -> "--" ∉ argv ->
  TopDir (k_decl M) (k_fs M) (Some (k_cwd M)) "." = Ok top -> reader M top T wd s0 ->
  openFabYAML (fun p => k_fs M (at_wd wd p)) top <> OpenNotExist ->
  (forall e, tag_ne_list T e = false) -> (forall t n dir, tag_ne_leaf T t n dir = false) ->
  (forall dir q k v q', defines top (k_docs M wd) dir q k v -> refers top dir v q' -> far q' -> openFabYAML (fun p => k_fs M (at_wd wd p)) (Join [top; Dir q']) <> OpenNotExist) ->
  fab M fuel argv = Some (a, st) -> r ∈ requests a ->
  exists doc ps, k_docs M wd top = Some doc /\ has_entries doc ps /\ entries_ok "" ps /\
    forall k v, (k, v) ∈ ps -> target_key k -> is_Some (r_reg r !! reg_name "" (n_value k)).
Proof.
  intros Hcwd Hc Hm Hn Ht Hr Hex Hl Hlf Hfar. rewrite (fab_run _ _ _ _ _ Hc Hm). destruct (topdir_abs _ _ _ _ _ Hcwd Ht) as [Ha Hcl].
  apply (complete_lem M fuel m top T wd s0); try done; [right; split; [by eapply fab_main_top|done]|by eapply fab_main_args].
Qed.
Theorem C65_whole_file_partial M fuel argv cache m top T wd s0 a st r : IsAbs (k_cwd M) = true -> k_cache M = Some cache -> fab_main cache "" argv = Some m -> "--" ∉ argv ->
  TopDir (k_decl M) (k_fs M) (Some (k_cwd M)) "." = Ok top -> reader M top T wd s0 ->
  openFabYAML (fun p => k_fs M (at_wd wd p)) top <> OpenNotExist ->
  (forall e, tag_ne_list T e = false) -> (forall t n dir, tag_ne_leaf T t n dir = false) ->
  (forall dir q k v q', defines top (k_docs M wd) dir q k v -> refers top dir v q' -> far q' -> openFabYAML (fun p => k_fs M (at_wd wd p)) (Join [top; Dir q']) <> OpenNotExist) ->
  fab M fuel argv = Some (a, st) -> r ∈ requests a ->
  exists doc ps, k_docs M wd top = Some doc /\ has_entries doc ps /\ entries_ok "" ps /\
    forall k v, (k, v) ∈ ps -> target_key k -> is_Some (r_reg r !! reg_name "" (n_value k)).
Proof. exact (complete_fab M fuel argv cache m top T wd s0 a st r). Qed.
Print Assumptions C65_whole_file_partial.

(** The entries of a project file that is valid and refers to no other directory: the last
    one of a name counts, also against the Go target of that name; the Go targets of other
    names stay.  And fab ends. *)
Lemma yaml_wins_fab M argv cache m top T wd s0 doc ps : IsAbs (k_cwd M) = true -> k_cache M = Some cache -> fab_main cache "" argv = Some m -> "--" ∉ argv ->
  TopDir (k_decl M) (k_fs M) (Some (k_cwd M)) "." = Ok top -> reader M top T wd s0 -> k_docs M (k_cwd M) top = Some doc -> has_entries doc ps ->
  entries_ok "" ps -> (forall k v, (k, v) ∈ ps -> target_key k -> decodable top (tag_lists T) (tag_leaf T) (k_bool M) "" v) ->
  (forall k v q, (k, v) ∈ ps -> target_key k -> refers top "" v q -> ~ far q) ->
  exists N, forall fuel, N <= fuel -> exists a st, fab M fuel argv = Some (a, st) /\
    forall r, r ∈ requests a -> forall q,
      (exists k v o, last_def "" ps q k v /\ r_reg r !! q = Some (key_doc k, o) /\
        denotes top (tag_lists T) (tag_leaf T) (k_bool M) (fun _ _ => False) (fun _ _ _ _ => False) (r_objs r) "" v o) \/
      (no_def "" ps q /\ r_reg r !! q = y_reg s0 !! q).
Proof.
  intros Hcwd Hc Hm Hn Ht Hr Hd Hps Hok Hdec Hloc. destruct (topdir_abs _ _ _ _ _ Hcwd Ht) as [Ha Hcl].
  destruct (yaml_wins_lem M m top T wd s0 doc ps) as [N HN]; try done; [right; split; [by eapply fab_main_top|done]|by eapply fab_main_args|].
  exists N. intros fuel Hf. rewrite (fab_run _ _ _ _ _ Hc Hm). by apply HN.
Qed.
Theorem C65_yaml_wins_partial M argv cache m top T wd s0 doc ps : IsAbs (k_cwd M) = true -> k_cache M = Some cache -> fab_main cache "" argv = Some m -> "--" ∉ argv ->
  TopDir (k_decl M) (k_fs M) (Some (k_cwd M)) "." = Ok top -> reader M top T wd s0 -> k_docs M (k_cwd M) top = Some doc -> has_entries doc ps ->
  entries_ok "" ps -> (forall k v, (k, v) ∈ ps -> target_key k -> decodable top (tag_lists T) (tag_leaf T) (k_bool M) "" v) ->
  (forall k v q, (k, v) ∈ ps -> target_key k -> refers top "" v q -> ~ far q) ->
  exists N, forall fuel, N <= fuel -> exists a st, fab M fuel argv = Some (a, st) /\
    forall r, r ∈ requests a -> forall q,
      (exists k v o, last_def "" ps q k v /\ r_reg r !! q = Some (key_doc k, o) /\
        denotes top (tag_lists T) (tag_leaf T) (k_bool M) (fun _ _ => False) (fun _ _ _ _ => False) (r_objs r) "" v o) \/
      (no_def "" ps q /\ r_reg r !! q = y_reg s0 !! q).
Proof. exact (yaml_wins_fab M argv cache m top T wd s0 doc ps). Qed.
Print Assumptions C65_yaml_wins_partial.
(** The Go package has T and A, the project file A and B. *)
Definition good_entries : list (node * node) := [(doc_key "A" "# first", sq "!Command" [sc "a"]); (sc "B", sq "!Command" [sc "b"])].
Example C65_case : let M := M0 "good" (Some go_pkg) true in
  TopDir (k_decl M) (k_fs M) (Some (k_cwd M)) "." = Ok "/p" /\
  (exists s0, reader M "/p" plain_tags "/p" s0 /\ y_reg s0 !! "A" = Some ("the Go A", 0) /\ y_reg s0 !! "T" = Some ("a Go target", 0)) /\
  (exists doc, k_docs M (k_cwd M) "/p" = Some doc /\ has_entries doc good_entries) /\ entries_ok "" good_entries /\
  (forall k v, (k, v) ∈ good_entries -> target_key k -> decodable "/p" (tag_lists plain_tags) (tag_leaf plain_tags) (k_bool M) "" v) /\
  (forall k v q, (k, v) ∈ good_entries -> target_key k -> refers "/p" "" v q -> ~ far q) /\
  (exists a r, fab M 9 ["A"; "T"] = Some (a, 0) /\ r ∈ requests a /\ r_reg r !! "A" = Some ("first", 1) /\ r_reg r !! "T" = Some ("a Go target", 0) /\
    r_targets r = [Plain (TPtr 1); Plain (TPtr 0)]).
Proof.
  intros M. split; [vm_compute; reflexivity|]. split.
  { destruct (register_all (p_targets go_pkg) {| y_objs := p_objs go_pkg; y_reg := ∅ |}) as [s0 b] eqn:E.
    assert (b = true) as -> by (vm_compute in E; by injection E as _ <-). exists s0. split.
    - right. exists "proj", go_pkg. split; [split; [vm_compute; discriminate|vm_compute; reflexivity]|]. split; [done|]. split; [reflexivity|]. by apply go_targets_ok.
    - vm_compute in E. injection E as <-. split; reflexivity. }
  split; [eexists; split; [vm_compute; reflexivity|]; eexists; split_and!; reflexivity|].
  assert (Hcmd : forall v, v ∈ good_entries.*2 -> exists x, v = sq "!Command" [sc x]).
  { intros v Hv. unfold good_entries in Hv. cbn in Hv. apply elem_of_cons in Hv as [->|Hv]; [by eexists|]. apply elem_of_list_singleton in Hv as ->. by eexists. }
  assert (Hin : forall k v, (k, v) ∈ good_entries -> v ∈ good_entries.*2) by (intros k v H; apply elem_of_list_fmap; by exists (k, v)).
  split; [|split; [|split]].
  - split; [|by left]. intros k v H. unfold good_entries in H. apply elem_of_cons in H as [[= -> ->]|H]; [split; [done|right; split; [discriminate|reflexivity]]|].
    apply elem_of_list_singleton in H as [= -> ->]. split; [done|right; split; [discriminate|reflexivity]].
  - intros k v H%Hin _. destruct (Hcmd v H) as [x ->]. eapply (dec_leaf _ _ _ _ _ _ "Command"); [|set_solver|reflexivity|reflexivity].
    split; [discriminate|]. split; [intros [? ?]; discriminate|]. right. reflexivity.
  - intros k v q H%Hin _ Hq. exfalso. destruct (Hcmd v H) as [x ->]. clear H.
    assert (Ht : forall t, has_tag (sq "!Command" [sc x]) t -> t = "Command").
    { intros t (_ & Hb & [E|E]); cbn in E; [|by injection E as <-]. subst t. destruct Hb. by eexists. }
    destruct Hq as [q [Hu|[Hu|[? Hu]]] _ _|c q Hp _]; [discriminate..|].
    inversion Hp as [t ? Htag Hor|? ? Htag|? Htag|? ? ? Htag|? Htag]; try (apply Ht in Htag; congruence).
    apply Ht in Htag as ->. by destruct Hor as [?|[?|?]].
  - eexists _, _. split; [vm_compute; reflexivity|]. split; [left|]. split_and!; reflexivity.
Qed.

(** ** C66.  Paths: [at_wd], in the model and in [has_package] and [no_package], is the place
    that a path names, seen from a directory. *)
Theorem C66_at_wd wd p d : IsAbs wd = true -> d = at_wd wd p <-> place wd p d.
Proof. exact (at_wd_place wd p d). Qed.
Print Assumptions C66_at_wd.
Example C66_at_wd_case : at_wd "/p/d" "../x" = "/p/x" /\ place "/p/d" "../x" "/p/x" /\ ~ place "/p/d" "../x" "/x".
Proof. split; [vm_compute; reflexivity|]. split; [by apply at_wd_place|]. intros H. apply at_wd_place in H; [|done]. vm_compute in H. discriminate. Qed.

(** The place of the hash database: if fab's directory is an absolute path, or the
    project has no Go package, it is the place the path names where fab is called. *)
Lemma place_fab M fuel argv cache m top a st d : IsAbs (k_cwd M) = true -> k_cache M = Some cache -> fab_main cache "" argv = Some m -> "--" ∉ argv ->
  TopDir (k_decl M) (k_fs M) (Some (k_cwd M)) "." = Ok top -> IsAbs (m_fabdir m) = true \/ no_package M top ->
  fab M fuel argv = Some (a, st) -> OpenDB d ∈ a -> place (k_cwd M) (m_fabdir m) d.
Proof.
  intros Hcwd Hc Hm Hn Ht Hor. rewrite (fab_run _ _ _ _ _ Hc Hm). intros H Hin. apply at_wd_place; [done|].
  destruct (opens_lem M fuel m top a st d) as [[_ ->]|(path & p & [H1 H2] & ->)]; try done;
    [right; split; [by eapply fab_main_top|done]|by eapply fab_main_args|].
  destruct Hor as [Ha|[?|?]]; [by rewrite !at_abs|congruence|congruence].
Qed.
Theorem C66_database_place_partial M fuel argv cache m top a st d : IsAbs (k_cwd M) = true -> k_cache M = Some cache -> fab_main cache "" argv = Some m -> "--" ∉ argv ->
  TopDir (k_decl M) (k_fs M) (Some (k_cwd M)) "." = Ok top -> IsAbs (m_fabdir m) = true \/ no_package M top ->
  fab M fuel argv = Some (a, st) -> OpenDB d ∈ a -> place (k_cwd M) (m_fabdir m) d.
Proof. exact (place_fab M fuel argv cache m top a st d). Qed.
Print Assumptions C66_database_place_partial.
Example C66_case :
  (exists a, fab (M0 "good" None true) 9 ["-fab"; "cache"; "A"] = Some (a, 0) /\ OpenDB "/p/d/cache" ∈ a) /\
  (exists a, fab (M0 "good" (Some go_pkg) true) 9 ["-fab"; "/p/d/cache"; "A"] = Some (a, 1) /\ OpenDB "/p/d/cache" ∈ a).
Proof. split; eexists; (split; [vm_compute; reflexivity|]); set_solver. Qed.

(** A relative path of fab's directory, with a Go package, below the top directory: fab
    builds the driver and does not find it.  Without the package the same call works. *)
Theorem C66_relative_fabdir_refuted : exists M path p, p_tags p = k_tags M /\ IsAbs (k_cwd M) = true /\
  status (fab (with_load M NoPackage) 9 ["-fab"; "cache"; "A"]) = Some 0 /\
  status (fab (with_load M (Package path p)) 9 ["-fab"; "cache"; "A"]) = Some 1 /\ targets_run (fab (with_load M (Package path p)) 9 ["-fab"; "cache"; "A"]) = [] /\
  status (fab (with_load M (Package path p)) 9 ["-fab"; "/p/d/cache"; "A"]) = Some 0.
Proof. exists (M0 "good" (Some pkg1) true), "proj", pkg1. split; [done|]. split; [done|]. vm_compute. done. Qed.
Print Assumptions C66_relative_fabdir_refuted.

(** Main.Run for a relative top directory: with a Go package the driver, which runs in that
    directory, looks for the project file at the relative path from there. *)
Definition in_root (M : machine) : machine :=
  {| k_cwd := "/"; k_cache := k_cache M; k_fs := k_fs M; k_decl := k_decl M; k_yaml := k_yaml M; k_bool := k_bool M;
     k_tags := k_tags M; k_load := k_load M; k_db := k_db M; k_run := k_run M |}.
Theorem C66_relative_topdir_refuted : exists M path p m, p_tags p = k_tags M /\ m_topdir m = "p" /\ m_args m = ["A"] /\ IsAbs (m_fabdir m) = true /\
  status (Main_Run (with_load M NoPackage) 9 m) = Some 0 /\ targets_run (Main_Run (with_load M NoPackage) 9 m) = [[Plain (TPtr 0)]] /\
  status (Main_Run (with_load M (Package path p)) 9 m) = Some 1 /\ targets_run (Main_Run (with_load M (Package path p)) 9 m) = [].
Proof.
  exists (in_root (M0 "good" (Some pkg1) true)), "proj", pkg1,
    {| m_fabdir := "/f"; m_topdir := "p"; m_verbose := false; m_list := false; m_force := false; m_dryrun := false; m_args := ["A"] |}.
  do 4 (split; [done|]). vm_compute. done.
Qed.
Print Assumptions C66_relative_topdir_refuted.
