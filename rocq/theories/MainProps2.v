(** What a target name stands for in projects with several YAML files (C65). *)
From stdpp Require Import base gmap list strings sorting.
From Coq Require Import Ascii.
From Verif Require Import StrOrd PathModel PathSpec PathProofs PathProofs2 PathProofs3 TopDirModel TopDirSpec TopDirProofs DriverModel DriverSpec DriverProofs4
  YamlModel YamlSpec YamlProofs YamlProofs2 YamlProofs3 YamlProofs4 YamlProps ContextModel RegistryModel RegistrySpec RegistryProofs MainModel MainSpec MainProofs MainProofs2 MainProofs3 MainProofs4 YamlProofs5 MainProps.
Local Open Scope list_scope.

(** ** C65.  There is a project file, every directory that a YAML file refers to has one too,
    the decoders do not report missing files, and no other directory's file has an empty key
    or one that is [.] or [..].  Then a name that the project file defines stands for its last
    definition there, whatever Go targets and files of other directories there are.  Any other
    name stands for the Go target, or for its last definition in the file of another directory. *)
Lemma project_file_fab M fuel argv cache m top T wd s0 a st r : IsAbs (k_cwd M) = true -> k_cache M = Some cache -> fab_main cache "" argv = Some m -> "--" ∉ argv ->
  TopDir (k_decl M) (k_fs M) (Some (k_cwd M)) "." = Ok top -> reader M top T wd s0 ->
  openFabYAML (fun p => k_fs M (at_wd wd p)) top <> OpenNotExist ->
  (forall e, tag_ne_list T e = false) -> (forall t n dir, tag_ne_leaf T t n dir = false) ->
  (forall dir q k v q', defines top (k_docs M wd) dir q k v -> refers top dir v q' -> far q' -> openFabYAML (fun p => k_fs M (at_wd wd p)) (Join [top; Dir q']) <> OpenNotExist) ->
  (forall dir q k v, defines top (k_docs M wd) dir q k v -> dir <> "" -> n_value k <> "" /\ n_value k <> "." /\ n_value k <> "..") ->
  fab M fuel argv = Some (a, st) -> r ∈ requests a ->
  let den := denotes top (tag_lists T) (tag_leaf T) (k_bool M) (fun q o => exists d, y_reg s0 !! q = Some (d, o)) (defines top (k_docs M wd)) in
  exists doc ps, k_docs M wd top = Some doc /\ has_entries doc ps /\ forall q,
    (exists k v o, last_def "" ps q k v /\ r_reg r !! q = Some (key_doc k, o) /\ den (r_objs r) "" v o) \/
    (no_def "" ps q /\
      (r_reg r !! q = y_reg s0 !! q \/
       exists D doc' ps' dir k v o, Join [top; D] <> top /\ k_docs M wd (Join [top; D]) = Some doc' /\ file_dir top D = Some dir /\ has_entries doc' ps' /\
         last_def dir ps' q k v /\ r_reg r !! q = Some (key_doc k, o) /\ den (r_objs r) dir v o)).
Proof.
  intros Hcwd Hc Hm Hn Ht Hr Hex Hl Hlf Hfar Hnames H Hin den. destruct (topdir_abs _ _ _ _ _ Hcwd Ht) as [Ha Hcl].
  assert (Hp : in_project M m top) by (right; split; [by eapply fab_main_top|done]).
  destruct (complete_fab M fuel argv cache m top T wd s0 a st r Hcwd Hc Hm Hn Ht Hr Hex Hl Hlf Hfar H Hin) as (doc & ps0 & Hd & Hps0 & _).
  rewrite (MainProps.fab_run _ _ _ _ _ Hc Hm) in H.
  destruct (main_request M fuel m top a st r Hp (fab_main_args _ _ _ _ Hm Hn) H Hin) as (_ & T' & wd' & s0' & s & Hr' & _ & Hok & Ho & Hg).
  destruct (reader_fun _ _ _ _ _ _ _ _ Hr Hr') as (<- & <- & <-). rewrite Ho, Hg.
  exists doc. destruct Hok as [E|E].
  - rewrite (read_top_eq M T fuel wd top s0 doc Ha Hcl Hd) in E.
    destruct (project_read top (tag_lists T) (tag_leaf T) (k_bool M) (k_docs M wd) (k_ne M wd T) fuel doc s0 s Ha Hcl Hd Hnames E) as (ps & Hps & HH).
    exists ps. split; [done|]. split; [done|]. exact HH.
  - exfalso. unfold read_top in E. eapply (file_quiet top (tag_lists T) (tag_leaf T) (k_bool M) (k_docs M wd) (k_ne M wd T)); [exact Hl|exact Hlf| | |exact E].
    + intros D doc' dir ps k v q H1 H2 H3 H4 H5 H6 H7. cbn [ne_file k_ne].
      assert (Hx : openFabYAML (fun p => k_fs M (at_wd wd p)) (Join [top; Dir q]) <> OpenNotExist).
      { eapply Hfar; [|done|done]. by exists D, doc', ps. }
      by destruct (openFabYAML _ (Join [top; Dir q])).
    + rewrite Join_top by done. cbn [ne_file k_ne]. by destruct (openFabYAML _ top).
Qed.
Theorem C65_project_file_partial M fuel argv cache m top T wd s0 a st r : IsAbs (k_cwd M) = true -> k_cache M = Some cache -> fab_main cache "" argv = Some m -> "--" ∉ argv ->
  TopDir (k_decl M) (k_fs M) (Some (k_cwd M)) "." = Ok top -> reader M top T wd s0 ->
  openFabYAML (fun p => k_fs M (at_wd wd p)) top <> OpenNotExist ->
  (forall e, tag_ne_list T e = false) -> (forall t n dir, tag_ne_leaf T t n dir = false) ->
  (forall dir q k v q', defines top (k_docs M wd) dir q k v -> refers top dir v q' -> far q' -> openFabYAML (fun p => k_fs M (at_wd wd p)) (Join [top; Dir q']) <> OpenNotExist) ->
  (forall dir q k v, defines top (k_docs M wd) dir q k v -> dir <> "" -> n_value k <> "" /\ n_value k <> "." /\ n_value k <> "..") ->
  fab M fuel argv = Some (a, st) -> r ∈ requests a ->
  let den := denotes top (tag_lists T) (tag_leaf T) (k_bool M) (fun q o => exists d, y_reg s0 !! q = Some (d, o)) (defines top (k_docs M wd)) in
  exists doc ps, k_docs M wd top = Some doc /\ has_entries doc ps /\ forall q,
    (exists k v o, last_def "" ps q k v /\ r_reg r !! q = Some (key_doc k, o) /\ den (r_objs r) "" v o) \/
    (no_def "" ps q /\
      (r_reg r !! q = y_reg s0 !! q \/
       exists D doc' ps' dir k v o, Join [top; D] <> top /\ k_docs M wd (Join [top; D]) = Some doc' /\ file_dir top D = Some dir /\ has_entries doc' ps' /\
         last_def dir ps' q k v /\ r_reg r !! q = Some (key_doc k, o) /\ den (r_objs r) dir v o)).
Proof. exact (project_file_fab M fuel argv cache m top T wd s0 a st r). Qed.
Print Assumptions C65_project_file_partial.

(** *** A machine with two YAML files: [/p/fab.yaml] and [/p/x/fab.yaml]; and the Go package of
    C65_case, which has T and A. *)
Definition top_entries : list (node * node) := [(doc_key "A" "# first", sq "!Command" [sc "a"]); (sc "A", sq "!Command" [sc "b"]); (sc "U", sc "x/T"); (sc "x", sq "!Command" [sc "top"])].
Definition sub_entries : list (node * node) := [(sc "_dir", sc "x"); (sc "T", sq "!Command" [sc "t"])].
Definition text2 (t : string) : option node :=
  if decide (t = "top") then Some (document top_entries)
  else if decide (t = "x") then Some (document sub_entries)
  else if decide (t = "dots") then Some (document [(sc "_dir", sc "x"); (sc "T", sq "!Command" [sc "t"]); (sc ".", sq "!Command" [sc "sub"])])
  else if decide (t = "last") then Some (document [(sc "x", sq "!Command" [sc "top"]); (sc "U", sc "x/T")])
  else text_of t.
Definition M2 (text sub : string) (go : option gopkg) : machine :=
  let M := M0 text go true in
  {| k_cwd := k_cwd M; k_cache := k_cache M; k_fs := fun p => if decide (p = "/p/x/fab.yaml") then IsFile sub else k_fs M p; k_decl := k_decl M;
     k_yaml := text2; k_bool := k_bool M; k_tags := k_tags M; k_load := k_load M; k_db := k_db M; k_run := fun _ => true |}.
Lemma M2_docs wd p doc : IsAbs p = true -> clean p -> k_docs (M2 "top" "x" (Some go_pkg)) wd p = Some doc ->
  (p = "/p" /\ doc = document top_entries) \/ (p = "/p/x" /\ doc = document sub_entries).
Proof.
  intros Ha Hc. assert (Hne : p <> "") by (by intros ->).
  assert (Hat : forall f, IsAbs f = false -> IsAbs (at_wd wd (Join [p; f])) = true /\ cd [] (at_wd wd (Join [p; f])) = cd (cd [] p) f).
  { intros f Hf. assert (Hj : IsAbs (Join [p; f]) = true) by (by rewrite Join_abs, decide_False). rewrite at_abs by done. split; [by rewrite IsAbs_Clean|].
    rewrite cd_Clean, cd_Join by (by repeat constructor). done. }
  assert (Heq : forall f q, IsAbs f = false -> cd [] q = cd (cd [] (Dir q)) f -> IsAbs (Dir q) = true -> clean (Dir q) -> (forall l l', cd l f = cd l' f -> l = l') -> at_wd wd (Join [p; f]) = q -> p = Dir q).
  { intros f q Hf Hq Hda Hdc Hinj E. destruct (Hat f Hf) as [_ H]. rewrite E, Hq in H. apply abs_clean_inj; [done..|]. symmetry. by eapply Hinj. }
  assert (Hy1 : forall l l', cd l "fab.yaml" = cd l' "fab.yaml" -> l = l') by (intros l l' H; by injection H).
  assert (Hy2 : forall l l', cd l "fab.yml" = cd l' "fab.yml" -> l = l') by (intros l l' H; by injection H).
  assert (Hlast : forall f q, IsAbs f = false -> at_wd wd (Join [p; f]) = q -> cd [] q = cd (cd [] p) f) by (intros f q Hf <-; by apply Hat).
  unfold k_docs, openFabYAML, open1. cbn [k_fs M2 M0]. unfold files_of.
  destruct (decide (at_wd wd (Join [p; "fab.yaml"]) = "/p/x/fab.yaml")) as [E|_].
  { apply (Heq "fab.yaml" "/p/x/fab.yaml") in E; [|vm_compute; done..|done]. intros H. right. split; [exact E|]. vm_compute in H. vm_compute. congruence. }
  destruct (decide (at_wd wd (Join [p; "fab.yaml"]) = "/p/fab.yaml")) as [E|_].
  { apply (Heq "fab.yaml" "/p/fab.yaml") in E; [|vm_compute; done..|done]. intros H. left. split; [exact E|]. vm_compute in H. vm_compute. congruence. }
  destruct (decide (at_wd wd (Join [p; "fab.yaml"]) = "/p/_fab")) as [E|_]; [done|].
  destruct (decide (at_wd wd (Join [p; "fab.yml"]) = "/p/x/fab.yaml")) as [E|_]; [apply Hlast in E; [discriminate E|done]|].
  destruct (decide (at_wd wd (Join [p; "fab.yml"]) = "/p/fab.yaml")) as [E|_]; [apply Hlast in E; [discriminate E|done]|].
  destruct (decide (at_wd wd (Join [p; "fab.yml"]) = "/p/_fab")) as [E|_]; done.
Qed.
Lemma M2_defines wd dir q k v : defines "/p" (k_docs (M2 "top" "x" (Some go_pkg)) wd) dir q k v ->
  (dir = "" /\ (k, v) ∈ top_entries) \/ (dir = "x" /\ (k, v) ∈ sub_entries /\ target_key k).
Proof.
  intros (D & doc & ps & Hd & Hdir & Hps & Hin & Hkey & _). unfold file_dir in Hdir.
  apply M2_docs in Hd as [[E ->]|[E ->]]; [| |by apply Join_abs_top|by apply Join_top_clean]; rewrite E in Hdir; vm_compute in Hdir; injection Hdir as <-.
  - left. split; [done|]. assert (Hp : has_entries (document top_entries) top_entries) by (eexists; split_and!; reflexivity). by rewrite <-(has_entries_fun _ _ _ Hps Hp).
  - right. split; [done|]. split; [|done]. assert (Hp : has_entries (document sub_entries) sub_entries) by (eexists; split_and!; reflexivity). by rewrite <-(has_entries_fun _ _ _ Hps Hp).
Qed.
Lemma command_refers top dir x q : ~ refers top dir (sq "!Command" [sc x]) q.
Proof.
  assert (Ht : forall t, has_tag (sq "!Command" [sc x]) t -> t = "Command").
  { intros t (_ & Hb & [E|E]); cbn in E; [|by injection E as <-]. subst t. destruct Hb. by eexists. }
  destruct 1 as [q [Hu|[Hu|[? Hu]]] _ _|c q Hp _]; [discriminate..|].
  inversion Hp as [t ? Htag Hor|? ? Htag|? Htag|? ? ? Htag|? Htag]; try (apply Ht in Htag; congruence).
  apply Ht in Htag as ->. by destruct Hor as [?|[?|?]].
Qed.
Lemma ref_refers top dir x q : refers top dir (sc x) q -> ref_key top dir x = Some q.
Proof. destruct 1 as [q' _ _ H|c q' Hp _]; [exact H|]. exfalso. inversion Hp as [t ? Htag ? Hk|? ? Htag Hk|? Htag Hk|? ? ? Htag Hk|? Htag Hk]; done. Qed.
Example C65_project_file_case : let M := M2 "top" "x" (Some go_pkg) in exists s0,
  TopDir (k_decl M) (k_fs M) (Some (k_cwd M)) "." = Ok "/p" /\ reader M "/p" plain_tags "/p" s0 /\
  openFabYAML (fun p => k_fs M (at_wd "/p" p)) "/p" <> OpenNotExist /\
  (forall dir q k v q', defines "/p" (k_docs M "/p") dir q k v -> refers "/p" dir v q' -> far q' -> openFabYAML (fun p => k_fs M (at_wd "/p" p)) (Join ["/p"; Dir q']) <> OpenNotExist) /\
  (forall dir q k v, defines "/p" (k_docs M "/p") dir q k v -> dir <> "" -> n_value k <> "" /\ n_value k <> "." /\ n_value k <> "..") /\
  exists a r, fab M 9 ["A"; "T"; "U"; "x"; "x/T"] = Some (a, 0) /\ r ∈ requests a /\ r_objs r !! 2 = Some (SLeaf "Command" (sq "!Command" [sc "b"]) "") /\
    r_reg r !! "A" = Some ("", 2) /\ r_reg r !! "T" = Some ("a Go target", 0) /\ r_reg r !! "U" = Some ("", 3) /\ r_reg r !! "x/T" = Some ("", 3).
Proof.
  intros M. destruct (register_all (p_targets go_pkg) {| y_objs := p_objs go_pkg; y_reg := ∅ |}) as [s0 b] eqn:E.
  assert (b = true) as -> by (vm_compute in E; by injection E as _ <-). exists s0. split; [vm_compute; reflexivity|]. split.
  { right. exists "proj", go_pkg. split; [split; [vm_compute; discriminate|vm_compute; reflexivity]|]. split; [done|]. split; [reflexivity|]. by apply go_targets_ok. }
  split; [vm_compute; discriminate|]. split; [|split].
  - intros dir q k v q' Hd Hr Hf. apply M2_defines in Hd as [[-> Hin]|(-> & Hin & Hkey)].
    + unfold top_entries in Hin. apply elem_of_cons in Hin as [[= -> ->]|Hin]; [by apply command_refers in Hr|]. apply elem_of_cons in Hin as [[= -> ->]|Hin]; [by apply command_refers in Hr|].
      apply elem_of_cons in Hin as [[= -> ->]|Hin]; [|apply elem_of_list_singleton in Hin as [= -> ->]; by apply command_refers in Hr].
      apply ref_refers in Hr. vm_compute in Hr. injection Hr as <-. vm_compute. discriminate.
    + unfold sub_entries in Hin. apply elem_of_cons in Hin as [[= -> ->]|Hin]; [by destruct Hkey as (_ & ? & _)|]. apply elem_of_list_singleton in Hin as [= -> ->]. by apply command_refers in Hr.
  - intros dir q k v Hd Hne. apply M2_defines in Hd as [[-> _]|(-> & Hin & Hkey)]; [done|].
    unfold sub_entries in Hin. apply elem_of_cons in Hin as [[= -> ->]|Hin]; [by destruct Hkey as (_ & ? & _)|]. by apply elem_of_list_singleton in Hin as [= -> ->].
  - eexists _, _. split; [vm_compute; reflexivity|]. split; [left|]. split_and!; reflexivity.
Qed.
(** A file of another directory whose key is a dot takes over a name of the project file. *)
Theorem C65_dot_key_refuted : exists M top doc ps k v a r o, no_package M top /\ TopDir (k_decl M) (k_fs M) (Some (k_cwd M)) "." = Ok top /\
  k_docs M (k_cwd M) top = Some doc /\ has_entries doc ps /\ last_def "" ps "x" k v /\ v = sq "!Command" [sc "top"] /\
  fab M 9 ["x"] = Some (a, 0) /\ r ∈ requests a /\ r_targets r = [Plain (TPtr o)] /\ r_reg r !! "x" = Some ("", o) /\
  r_objs r !! o = Some (SLeaf "Command" (sq "!Command" [sc "sub"]) "x").
Proof.
  exists (M2 "last" "dots" None), "/p", (document [(sc "x", sq "!Command" [sc "top"]); (sc "U", sc "x/T")]), [(sc "x", sq "!Command" [sc "top"]); (sc "U", sc "x/T")], (sc "x"), (sq "!Command" [sc "top"]).
  eexists _, _, 2. split; [left; reflexivity|]. split; [vm_compute; reflexivity|]. split; [vm_compute; reflexivity|]. split; [eexists; split_and!; reflexivity|].
  split. { exists [], [(sc "U", sc "x/T")]. split; [done|]. split; [done|]. split; [vm_compute; reflexivity|]. intros k' v' [= -> ->]%elem_of_list_singleton _. vm_compute. discriminate. }
  split; [done|]. split; [vm_compute; reflexivity|]. split; [left|]. split_and!; reflexivity.
Qed.
Print Assumptions C65_dot_key_refuted.
(** If the project file refers to a directory that has no YAML file, its definitions from there
    on are ignored: here the name C stands for the Go target, though the project file defines it. *)
Theorem C65_dangling_refuted : exists M path p top doc ps k v a r, has_package M top path p /\ TopDir (k_decl M) (k_fs M) (Some (k_cwd M)) "." = Ok top /\
  k_docs M top top = Some doc /\ has_entries doc ps /\ last_def "" ps "C" k v /\
  fab M 9 ["C"] = Some (a, 0) /\ r ∈ requests a /\ r_targets r = [Plain (TPtr 0)] /\ r_objs r !! 0 = Some (SLeaf "Go" zero_node "") /\ r_reg r !! "C" = Some ("", 0).
Proof.
  exists (M0 "dangling" (Some (pkg0 [("C", "", Some 0)])) true), "proj", (pkg0 [("C", "", Some 0)]), "/p", 
    (document [(sc "A", sq "!Command" [sc "a"]); (sc "B", sc "x/Y"); (sc "C", sq "!Command" [sc "c"])]), [(sc "A", sq "!Command" [sc "a"]); (sc "B", sc "x/Y"); (sc "C", sq "!Command" [sc "c"])].
  eexists _, _, _, _. split; [split; [vm_compute; discriminate|vm_compute; reflexivity]|]. split; [vm_compute; reflexivity|]. split; [vm_compute; reflexivity|]. split; [eexists; split_and!; reflexivity|].
  split. { exists [(sc "A", sq "!Command" [sc "a"]); (sc "B", sc "x/Y")], []. split; [reflexivity|]. split; [done|]. split; [vm_compute; reflexivity|]. by intros k' v' ?%elem_of_nil. }
  split; [vm_compute; reflexivity|]. split; [left|]. split_and!; reflexivity.
Qed.
Print Assumptions C65_dangling_refuted.
