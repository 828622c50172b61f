(** C78-C83.  The fab command from the command line to what is executed, for projects whose
    targets are defined in YAML: the theorems on whole runs of the command (MainProps.v), on
    reading YAML (YamlProps.v) and on running a project (ProjProps.v) together. *)
From stdpp Require Import base gmap list strings relations.
From Coq Require Import Ascii Wellfounded.
From Verif Require Import PathModel PathSpec PathProofs FindModel TopDirModel DriverModel ContextModel RegistryModel RunnerModel RunnerSpec RunnerSpec2 RunnerTerm RunnerProofs RunnerProofs3 YamlModel YamlSpec MainModel MainSpec ProjModel ProjSpec EndSpec.
From Verif Require Import RunnerProps YamlProps ProjProofs ProjProofs8 MainProofs MainProofs4 MainProps ProjProps EndProofs.
Local Open Scope list_scope.

(** ** C78.  If fab NAME... exits with status 0 (and this was not -list), then the targets named
    are defined, and everything their definitions require to be carried out has been, without
    error; with -f or -n also what is up to date. *)
Theorem C78_success_is_done M fuel argv m top T wd a :
  yaml_project M argv m top T wd -> fab M fuel argv = Some (a, 0) -> m_list m = false -> m_args m <> [] -> defined_once top (k_docs M wd) ->
  exists r, requests a = [r] /\ forall lf objs' addr leafp tr e, carried_out M lf r objs' addr leafp tr e ->
    e = None /\ forall q, names_target (m_args m) q -> exists dir v, defined M top wd dir q v /\
      forall d n, required top (tag_lists T) (k_docs M wd) lf (m_force m || m_dryrun m) (fun q => is_Some (r_reg r !! q)) dir v d n ->
        (tagged n -> exists x, made_for M top T wd r d n x /\ ended_well x tr) /\
        (forall q', reference top d n q' -> exists dir' v', defined M top wd dir' q' v').
Proof.
  intros Hy Hf Hl Ha Ho. destruct (success_request _ _ _ _ _ _ _ _ Hy Hf Hl Ha) as (r & Hr & _). exists r. split; [done|].
  intros lf objs' addr leafp tr e Hco. assert (Hin : r ∈ requests a) by (rewrite Hr; by left). split.
  - by apply (status_result _ _ _ _ _ _ Hf Hin _ _ _ _ _ (proj1 Hco) _ Hco).
  - by apply (end_success _ _ _ _ _ _ _ _ _ _ Hy Hf Hin _ _ _ _ _ (proj1 Hco) _ Hco).
Qed.
Print Assumptions C78_success_is_done.

(** ** C79.  If fab exits with another status (and this was not -list), then either nothing was
    asked for, and there is one of the reasons for that, or among what the targets named
    involve is the cause: a name that is not defined, a rule or a command that failed. *)
Theorem C79_failure_has_cause M fuel argv m top T wd a st :
  yaml_project M argv m top T wd -> fab M fuel argv = Some (a, st) -> m_list m = false -> st <> 0 ->
  (requests a = [] /\ gave_up M fuel m top T wd) \/
  exists r, requests a = [r] /\ forall lf objs' addr leafp tr e, carried_out M lf r objs' addr leafp tr e ->
    e <> None /\ exists q dir v d n, names_target (m_args m) q /\ defined M top wd dir q v /\
      involved top (tag_lists T) (k_docs M wd) lf dir v d n /\ failure_cause M top T wd lf r tr d n.
Proof.
  intros Hy Hf Hl Hst. destruct (wf_fab _ _ _ _ _ Hf) as (_ & [E|(r & E & _)]); [left; split; [done|by eapply no_request]|].
  right. exists r. split; [done|]. intros lf objs' addr leafp tr e Hco. assert (Hin : r ∈ requests a) by (rewrite E; by left). split.
  - intros He. apply Hst. by apply (status_result _ _ _ _ _ _ Hf Hin _ _ _ _ _ (proj1 Hco) _ Hco).
  - by apply (end_failure _ _ _ _ _ _ _ _ _ _ Hy Hf Hin _ _ _ _ _ (proj1 Hco) _ Hco).
Qed.
Print Assumptions C79_failure_has_cause.

(** ** C80.  Only what is involved in the targets named on the command line is run (or, with
    arguments, the target made for them), up to whatever point fab gets. *)
Theorem C80_only_what_is_named_runs M fuel argv m top T wd a st r lf objs' addr leafp tr g b x cx :
  yaml_project M argv m top T wd -> fab M fuel argv = Some (a, st) -> r ∈ requests a -> under_way lf r objs' addr leafp tr ->
  EvStart g b x cx ∈ tr ->
  exists q dir v, names_target (m_args m) q /\ defined M top wd dir q v /\
    ((own_args (m_args m) <> [] /\ length (r_objs r) <= x /\ exists o d, r_reg r !! q = Some (d, o) /\ objs' !! x = Some (SArgs o (own_args (m_args m)))) \/
     exists d n, involved top (tag_lists T) (k_docs M wd) lf dir v d n /\
       belongs top (tag_lists T) (tag_leaf T) (k_bool M) (k_docs M wd) (r_objs r) objs' d n x).
Proof.
  intros Hy Hf Hin Hco Hs. destruct (end_runs _ _ _ _ _ _ _ _ _ _ Hy Hf Hin _ _ _ _ _ Hco _ _ _ _ Hs) as (_ & q & dir & v & Hq & Hd & Hcase).
  exists q, dir, v. split; [done|]. split; [done|]. destruct Hcase as [(H1 & H2 & _ & H3)|(d & n & Hiw & Hb)]; [by left|right].
  exists d, n. split; [by eapply iw_involved|done].
Qed.
Print Assumptions C80_only_what_is_named_runs.

(** ** C81.  Whatever is run sees the settings of the command line, and the arguments that the
    command line and the !ArgTargets on the way give it. *)
Theorem C81_settings_of_command_line M fuel argv m top T wd a st r lf objs' addr leafp tr g b x cx :
  yaml_project M argv m top T wd -> fab M fuel argv = Some (a, st) -> r ∈ requests a -> under_way lf r objs' addr leafp tr ->
  EvStart g b x cx ∈ tr ->
  GetVerbose cx = m_verbose m /\ GetForce cx = m_force m /\ GetDryRun cx = m_dryrun m /\
  (exists db, k_db M (at_wd wd (m_fabdir m)) = Some db /\ GetHashDB cx = Some db) /\
  exists q dir v, names_target (m_args m) q /\ defined M top wd dir q v /\
    ((own_args (m_args m) <> [] /\ length (r_objs r) <= x /\ exists o d, r_reg r !! q = Some (d, o) /\ objs' !! x = Some (SArgs o (own_args (m_args m)))) \/
     exists d n, involved_with top (tag_lists T) (k_docs M wd) lf dir v (own_args (m_args m)) d n (GetArgs cx) /\
       belongs top (tag_lists T) (tag_leaf T) (k_bool M) (k_docs M wd) (r_objs r) objs' d n x).
Proof.
  intros Hy Hf Hin Hco Hs. destruct (end_runs _ _ _ _ _ _ _ _ _ _ Hy Hf Hin _ _ _ _ _ Hco _ _ _ _ Hs) as ((S1 & S2 & S3 & S4) & q & dir & v & Hq & Hd & Hcase).
  destruct (project_request _ _ _ _ _ _ _ _ _ _ Hy Hf Hin) as (_ & _ & _ & _ & F1 & F2 & F3 & _ & (db & F4 & F5) & _).
  split; [by rewrite S1|]. split; [by rewrite S2|]. split; [by rewrite S3|]. split; [exists db; by rewrite S4|].
  exists q, dir, v. split; [done|]. split; [done|]. destruct Hcase as [(H1 & H2 & _ & H3)|Hcase]; [by left|by right].
Qed.
Print Assumptions C81_settings_of_command_line.

(** ** C82.  If no definition uses itself, and commands end, then fab ends: whatever has happened
    since the request was made, however the goroutines are scheduled, it comes to the return. *)
Theorem C82_acyclic_ends M fuel argv m top T wd a st r lf objs' addr leafp sched st' :
  yaml_project M argv m top T wd -> fab M fuel argv = Some (a, st) -> r ∈ requests a ->
  expands lf (snd <$> r_reg r) (r_objs r) objs' -> (forall o1 o2, addr o1 = addr o2 -> o1 = o2) ->
  (forall o cx ts, ~ may_call (leafp o cx) ts) -> (forall o cx, finite (leafp o cx)) ->
  run (project_world addr objs' leafp) init sched = Some st' ->
  (forall n o, EvRegister n o ∈ s_log st' -> (snd <$> r_reg r) !! n = Some o) ->
  well_founded (fun b a : string * node => uses top (tag_lists T) (k_docs M wd) lf a.1 a.2 b.1 b.2) ->
  inevitable (project_world addr objs' leafp) (fun st => all_returned (s_log st)) st'.
Proof.
  intros Hy Hf Hin He Hi Hq Hfin Hrun Hreg Hwf. destruct (the_project _ _ _ _ _ _ _ _ _ _ Hy Hf Hin) as (s & Hl & Ho & Hg).
  rewrite Ho, Hg in *. exact (C76_no_cycle_returns _ _ _ _ _ _ _ _ _ _ _ _ _ Hl He Hi Hq Hfin Hrun Hreg Hwf).
Qed.
Print Assumptions C82_acyclic_ends.

(** ** C83.  With -n the only effects are those that commands themselves have in a dry run:
    rules neither compute hashes nor consult or change the database.  With -f no rule consults
    the database. *)
Theorem C83_dry_run_no_effects M fuel argv m top T wd a st r lf objs' addr leafp tr (harmless : label -> Prop) g l y :
  yaml_project M argv m top T wd -> fab M fuel argv = Some (a, st) -> r ∈ requests a -> under_way lf r objs' addr leafp tr ->
  m_dryrun m = true -> (forall o cx l, GetDryRun cx = true -> may_eff (leafp o cx) l -> harmless l) ->
  EvEff g l y ∈ tr -> harmless l.
Proof.
  intros Hy Hf Hin Hco Hd Hh Hl. destruct (eff_started _ _ _ _ _ (proj1 (uw_exec _ _ _ _ _ _ Hco)) Hl) as (b & o & cx & Hs & Hm).
  destruct (C81_settings_of_command_line _ _ _ _ _ _ _ _ _ _ _ _ _ _ _ _ _ _ _ Hy Hf Hin Hco Hs) as (_ & _ & Ed & _).
  apply body_eff in Hm as [Hm|(E & _)]; [|congruence]. eapply Hh; [|exact Hm]. congruence.
Qed.
Print Assumptions C83_dry_run_no_effects.
Theorem C83_force_no_lookup M fuel argv m top T wd a st r lf objs' addr leafp tr g h y :
  yaml_project M argv m top T wd -> fab M fuel argv = Some (a, st) -> r ∈ requests a -> under_way lf r objs' addr leafp tr ->
  m_force m = true -> (forall o cx, ~ may_eff (leafp o cx) (OpHas h)) -> EvEff g (OpHas h) y ∉ tr.
Proof.
  intros Hy Hf Hin Hco Hd Hh Hl. destruct (eff_started _ _ _ _ _ (proj1 (uw_exec _ _ _ _ _ _ Hco)) Hl) as (b & o & cx & Hs & Hm).
  destruct (C81_settings_of_command_line _ _ _ _ _ _ _ _ _ _ _ _ _ _ _ _ _ _ _ Hy Hf Hin Hco Hs) as (_ & Ef & _).
  apply body_eff in Hm as [Hm|(_ & E & _)]; [by eapply Hh|]. apply (E ltac:(congruence) h). done.
Qed.
Print Assumptions C83_force_no_lookup.

(** ** A concrete machine: the project of ProjProps.v in the directory /p; fab is called in /p/d. *)
Definition project_files (p : string) : entry :=
  if decide (p = "/p/fab.yaml") then IsFile "main" else if decide (p = "/p/sub/fab.yaml") then IsFile "sub" else NotExist.
Definition M1 : machine :=
  {| k_cwd := "/p/d"; k_cache := Some "/home/.cache/fab"; k_fs := project_files; k_decl := fun _ => Some None;
     k_yaml := fun t => if decide (t = "main") then Some (document main_entries) else if decide (t = "sub") then Some (document sub_entries) else None;
     k_bool := ybool0; k_tags := plain_tags; k_load := fun _ => NoPackage; k_db := fun _ => Some 7;
     k_run := fun r => match r_targets r with [Plain (RegistryModel.TPtr 13)] => false | _ => true end |}.
Definition r_none : request := {| r_wd := ""; r_top := ""; r_objs := []; r_reg := ∅; r_ctx := []; r_targets := [] |}.
Definition req_of (argv : list string) : request := match fab M1 20 argv with Some (a, _) => nth 0 (requests a) r_none | None => r_none end.
(** The execution of the request for [ts], on target values [objs']. *)
Definition elog (argv : list string) (objs' : list shape) (ts : list tref) : list event :=
  s_log (client 300 (project_world (fun o => 100 + o) objs' ok_leaf) init (pregs ++ [ChRun (r_ctx (req_of argv)) ts])).

Lemma M1_docs f doc : IsAbs f = true -> clean f -> k_docs M1 "/p/d" f = Some doc -> pdocs f = Some doc.
Proof.
  intros Ha Hc H.
  assert (Hin : forall b q l, name b -> IsAbs b = false -> IsAbs q = true -> clean q -> at_wd "/p/d" (Join [f; b]) = l -> cd [] l = b :: cd [] q -> f = q).
  { intros b q l Hb Hb' Hq Hq' E E'. apply abs_clean_inj; try done.
    assert (Hf : f <> "") by (by intros ->).
    unfold at_wd in E. rewrite Join_abs, decide_False, Ha in E by done. rewrite <-E in E'. rewrite cd_Clean, cd_Join in E' by (by repeat constructor).
    cbn [fold_left] in E'. destruct Hb as (B1 & B2 & B3 & B4). unfold cd at 1 in E'. rewrite Hb', B4 in E'. cbn [fold_left] in E'.
    unfold enter in E'. rewrite decide_False in E' by tauto. rewrite decide_False in E' by done. by injection E'. }
  unfold k_docs, openFabYAML, open1 in H. cbn [k_fs M1] in H. unfold project_files in H.
  assert (Hn1 : name "fab.yaml") by (by vm_compute). assert (Hn2 : name "fab.yml") by (by vm_compute).
  destruct (decide (at_wd "/p/d" (Join [f; "fab.yaml"]) = "/p/fab.yaml")) as [E|N1].
  { assert (f = "/p") as -> by (by eapply (Hin "fab.yaml" "/p")). exact H. }
  destruct (decide (at_wd "/p/d" (Join [f; "fab.yaml"]) = "/p/sub/fab.yaml")) as [E|N2].
  { assert (f = "/p/sub") as -> by (by eapply (Hin "fab.yaml" "/p/sub")). exact H. }
  destruct (decide (at_wd "/p/d" (Join [f; "fab.yml"]) = "/p/fab.yaml")) as [E|N3].
  { exfalso. assert (Hf : f <> "") by (by intros ->).
    unfold at_wd in E. rewrite Join_abs, decide_False, Ha in E by done. apply (f_equal (cd [])) in E. rewrite cd_Clean, cd_Join in E by (by repeat constructor).
    cbn [fold_left] in E. discriminate E. }
  destruct (decide (at_wd "/p/d" (Join [f; "fab.yml"]) = "/p/sub/fab.yaml")) as [E|N4].
  { exfalso. assert (Hf : f <> "") by (by intros ->).
    unfold at_wd in E. rewrite Join_abs, decide_False, Ha in E by done. apply (f_equal (cd [])) in E. rewrite cd_Clean, cd_Join in E by (by repeat constructor).
    cbn [fold_left] in E. discriminate E. }
  done.
Qed.
Lemma M1_defines dir q k v : defines "/p" (k_docs M1 "/p/d") dir q k v -> defines "/p" pdocs dir q k v.
Proof.
  intros (D & doc & ps & Hd & H). exists D, doc, ps. split; [|done]. apply M1_docs; [| |done].
  - by rewrite Join_abs, decide_False.
  - destruct (Join_clean ["/p"; D]) as [E|E]; [|done]. apply Join_nil in E. by inversion E.
Qed.
Lemma M1_once : defined_once "/p" (k_docs M1 "/p/d").
Proof. intros q d1 k1 v1 d2 k2 v2 H1%M1_defines H2%M1_defines. by eapply ponce. Qed.
Lemma M1_project argv m : fab_main "/home/.cache/fab" "" argv = Some m -> "--" ∉ argv -> yaml_project M1 argv m "/p" plain_tags "/p/d".
Proof.
  intros Hm Hn. split; [by exists "/home/.cache/fab"|]. split; [done|]. split; [vm_compute; reflexivity|]. left.
  split; [|done]. left. vm_compute. reflexivity.
Qed.
Lemma req_reg argv : argv ∈ [["-n"; "Main"]; ["-n"; "Bad"]; ["-n"; "Main"; "-x"]] -> r_reg (req_of argv) = y_reg proj /\ r_objs (req_of argv) = y_objs proj.
Proof.
  intros H. repeat (apply elem_of_cons in H as [-> |H]; [split; vm_compute; reflexivity|]). apply elem_of_nil in H. destruct H.
Qed.
Lemma elog_executes argv objs' ts : argv ∈ [["-n"; "Main"]; ["-n"; "Bad"]; ["-n"; "Main"; "-x"]] ->
  elog argv objs' ts = [EvRegister "zero" 0; EvRegister "Main" 8; EvRegister "Gen" 10; EvRegister "Bad" 13; EvRegister "sub/Lint" 5] ++ drop 5 (elog argv objs' ts) ->
  forallb (fun ev => negb (is_reg ev)) (drop 5 (elog argv objs' ts)) = true ->
  executes (project_world (fun o => 100 + o) objs' ok_leaf) (snd <$> r_reg (req_of argv)) (elog argv objs' ts).
Proof.
  intros Hin E H. rewrite (proj1 (req_reg _ Hin)). pose proof (no_reg _ H) as H'. eapply (pexecutes _ _ _); [apply client_trace| |exact E|exact H'].
  rewrite E. apply regs_of. exact H'.
Qed.
Definition one_call (ts : list tref) (ev : event) : bool :=
  match ev with EvCall c None _ _ => bool_decide (c = 0) | _ => true end.
Lemma one_call_only ts tr : forallb (one_call ts) tr = true -> forall c cx ts, EvCall c None cx ts ∈ tr -> c = 0.
Proof. intros H c cx ts' Hin. rewrite forallb_forall in H. apply elem_of_list_In, H in Hin. by apply bool_decide_eq_true in Hin. Qed.
Lemma elog_carried argv objs' ts e : argv ∈ [["-n"; "Main"]; ["-n"; "Bad"]; ["-n"; "Main"; "-x"]] ->
  elog argv objs' ts = [EvRegister "zero" 0; EvRegister "Main" 8; EvRegister "Gen" 10; EvRegister "Bad" 13; EvRegister "sub/Lint" 5] ++ drop 5 (elog argv objs' ts) ->
  forallb (fun ev => negb (is_reg ev)) (drop 5 (elog argv objs' ts)) = true ->
  expands no_rules (snd <$> r_reg (req_of argv)) (r_objs (req_of argv)) objs' ->
  Forall2 (as_tref (req_of argv) objs') (r_targets (req_of argv)) ts ->
  EvCall 0 None (r_ctx (req_of argv)) ts ∈ elog argv objs' ts -> forallb (one_call ts) (elog argv objs' ts) = true ->
  EvRet 0 None e ∈ elog argv objs' ts -> (k_run M1 (req_of argv) = true <-> e = None) ->
  carried_out M1 no_rules (req_of argv) objs' (fun o => 100 + o) ok_leaf (elog argv objs' ts) e.
Proof.
  intros Hin E H He Hts Hc H1 Hr Hk. pose proof (elog_executes argv objs' ts Hin E H) as Hx. split; [split|split; [|exact Hk]].
  - exact He.
  - exact pinj.
  - intros o cx us; exact (ChainProofs2.may_ret _ _).
  - exact Hx.
  - exists 0, ts. split; [exact Hts|]. intros c cx us Hc'. pose proof (one_call_only ts _ H1 _ _ _ Hc') as ->.
    by destruct (call_unique _ _ _ _ _ _ _ _ _ (proj1 Hx) Hc Hc') as (_ & -> & ->).
  - exists 0, ts. split; [exact Hc|exact Hr].
Qed.
Definition m_of (argv : list string) : Main := match fab_main "/home/.cache/fab" "" argv with Some m => m | None => {| m_fabdir := ""; m_topdir := ""; m_verbose := false; m_list := false; m_force := false; m_dryrun := false; m_args := [] |} end.
(* fab -n Main *)
Lemma main_carried : carried_out M1 no_rules (req_of ["-n"; "Main"]) (y_objs proj) (fun o => 100 + o) ok_leaf (elog ["-n"; "Main"] (y_objs proj) [RunnerModel.TPtr 8]) None.
Proof.
  apply elog_carried; [by left|vm_compute; reflexivity|vm_compute; reflexivity| | | |vm_compute; reflexivity| |].
  - rewrite (proj2 (req_reg ["-n"; "Main"] ltac:(by left))). apply expands_self.
  - assert (E : r_targets (req_of ["-n"; "Main"]) = [Plain (RegistryModel.TPtr 8)]) by (vm_compute; reflexivity). rewrite E. repeat constructor.
  - in_log.
  - in_log.
  - vm_compute. tauto.
Qed.
(* fab -n Bad *)
Definition ebad : option err := match last (elog ["-n"; "Bad"] (y_objs proj) [RunnerModel.TPtr 13]) with Some (EvRet _ _ e) => e | _ => None end.
Lemma bad_carried : carried_out M1 no_rules (req_of ["-n"; "Bad"]) (y_objs proj) (fun o => 100 + o) ok_leaf (elog ["-n"; "Bad"] (y_objs proj) [RunnerModel.TPtr 13]) ebad.
Proof.
  apply elog_carried; [right; by left|vm_compute; reflexivity|vm_compute; reflexivity| | | |vm_compute; reflexivity| |].
  - rewrite (proj2 (req_reg ["-n"; "Bad"] ltac:(right; by left))). apply expands_self.
  - assert (E : r_targets (req_of ["-n"; "Bad"]) = [Plain (RegistryModel.TPtr 13)]) by (vm_compute; reflexivity). rewrite E. repeat constructor.
  - in_log.
  - let e := eval vm_compute in ebad in change ebad with e. in_log.
  - vm_compute. split; discriminate.
Qed.
(* fab -n Main -x: one more target, with the arguments *)
Definition xobjs : list shape := y_objs proj ++ [SArgs 8 ["-x"]].
Lemma args_carried : carried_out M1 no_rules (req_of ["-n"; "Main"; "-x"]) xobjs (fun o => 100 + o) ok_leaf (elog ["-n"; "Main"; "-x"] xobjs [RunnerModel.TPtr 14]) None.
Proof.
  assert (Hin : ["-n"; "Main"; "-x"] ∈ [["-n"; "Main"]; ["-n"; "Bad"]; ["-n"; "Main"; "-x"]]) by (right; right; by left).
  apply elog_carried; [exact Hin|vm_compute; reflexivity|vm_compute; reflexivity| | | |vm_compute; reflexivity| |].
  - rewrite (proj2 (req_reg _ Hin)), (proj1 (req_reg _ Hin)). unfold xobjs.
    destruct (expands_self (snd <$> y_reg proj) (y_objs proj)) as (E1 & E2 & E3 & _).
    assert (Hlen : length (y_objs proj) = 14) by (vm_compute; reflexivity). split; [rewrite app_length; lia|].
    split; [|split; [|split]].
    + intros o sh H _. by apply lookup_app_l_Some.
    + intros o t n d H. left. split; [by apply lookup_app_l_Some|done].
    + intros o sh Hle H. right. rewrite lookup_app_r in H by done. rewrite Hlen in *. exists "Main", 8, ["-x"]. split; [vm_compute; reflexivity|].
      destruct (o - 14) as [|k]; [by injection H as <-|done].
    + intros o1 o2 t (Hle & tag & n & d & H). exfalso. rewrite lookup_app_r in H by done. by destruct (t - length (y_objs proj)).
  - assert (E : r_targets (req_of ["-n"; "Main"; "-x"]) = [RegistryModel.WithArgs (RegistryModel.TPtr 8) ["-x"]]) by (vm_compute; reflexivity). rewrite E.
    repeat constructor. exists 14. split; [reflexivity|]. rewrite (proj2 (req_reg _ Hin)). split; [vm_compute; lia|vm_compute; reflexivity].
  - in_log.
  - in_log.
  - vm_compute. tauto.
Qed.

(** fab -n Main succeeds; its definition requires, with -n, also the command of Gen. *)
Example C78_case : exists m a, yaml_project M1 ["-n"; "Main"] m "/p" plain_tags "/p/d" /\ fab M1 20 ["-n"; "Main"] = Some (a, 0) /\ m_list m = false /\ m_args m = ["Main"] /\
  m_dryrun m = true /\ requests a = [req_of ["-n"; "Main"]] /\ names_target (m_args m) "Main" /\ defined_once "/p" (k_docs M1 "/p/d") /\
  required "/p" fns0 (k_docs M1 "/p/d") no_rules (m_force m || m_dryrun m) (fun q => is_Some (r_reg (req_of ["-n"; "Main"]) !! q)) "" n_main "" (cmd "gen") /\
  carried_out M1 no_rules (req_of ["-n"; "Main"]) (y_objs proj) (fun o => 100 + o) ok_leaf (elog ["-n"; "Main"] (y_objs proj) [RunnerModel.TPtr 8]) None.
Proof.
  exists (m_of ["-n"; "Main"]), [OpenDB "/home/.cache/fab"; Run (req_of ["-n"; "Main"])].
  split; [apply M1_project; [vm_compute; reflexivity|by apply (bool_decide_unpack _)]|]. split; [vm_compute; reflexivity|]. split; [vm_compute; reflexivity|].
  split; [vm_compute; reflexivity|]. split; [vm_compute; reflexivity|]. split; [reflexivity|].
  split; [right; split; [intros a s rest [=]|by left]|]. split; [exact M1_once|]. split; [|exact main_carried].
  assert (Hseq : has_tag n_main "Seq") by (split; [done|split; [intros [? [=]]|by right]]).
  eapply req_part; [eapply (part_list _ "Seq" (sc "Gen")); [exact Hseq|auto|done|by left]|by left|].
  eapply (req_name _ _ _ _ _ _ _ _ "Gen" "" (sc "Gen") n_gen); [|exists "", (document main_entries), main_entries|].
  - split; [right; right; by eexists|]. split; [done|vm_compute; reflexivity].
  - split; [vm_compute; reflexivity|]. split; [vm_compute; reflexivity|]. split; [by eexists|]. split; [do 2 right; by left|]. split; [done|vm_compute; reflexivity].
  - eapply req_part; [|by left|constructor].
    let f := eval vm_compute in (decode_struct n_gen) in match f with Some ?fs => change (cmd "gen") with (field "Target" fs) end.
    apply part_files; [split; [done|split; [intros [? [=]]|by right]]|vm_compute; reflexivity].
Qed.

(** fab -n Bad fails, because of a name that is not defined; fab Z because there is no such
    target. *)
Example C79_case : (exists m a, yaml_project M1 ["-n"; "Bad"] m "/p" plain_tags "/p/d" /\ fab M1 20 ["-n"; "Bad"] = Some (a, 1) /\ m_list m = false /\
    requests a = [req_of ["-n"; "Bad"]] /\
    carried_out M1 no_rules (req_of ["-n"; "Bad"]) (y_objs proj) (fun o => 100 + o) ok_leaf (elog ["-n"; "Bad"] (y_objs proj) [RunnerModel.TPtr 13]) ebad) /\
  exists m a, yaml_project M1 ["Z"] m "/p" plain_tags "/p/d" /\ fab M1 20 ["Z"] = Some (a, 1) /\ m_list m = false /\ requests a = [].
Proof.
  split.
  - exists (m_of ["-n"; "Bad"]), [OpenDB "/home/.cache/fab"; Run (req_of ["-n"; "Bad"]); Complain].
    split; [apply M1_project; [vm_compute; reflexivity|by apply (bool_decide_unpack _)]|]. split; [vm_compute; reflexivity|]. split; [vm_compute; reflexivity|].
    split; [reflexivity|exact bad_carried].
  - exists (m_of ["Z"]), [OpenDB "/home/.cache/fab"; Complain].
    split; [apply M1_project; [vm_compute; reflexivity|by apply (bool_decide_unpack _)]|]. split; [vm_compute; reflexivity|]. split; vm_compute; reflexivity.
Qed.
(** What fab -n Main -x runs, and the arguments that it sees: the new target for the arguments
    sees none, all else sees -x; no effects. *)
Example C80_case : carried_out M1 no_rules (req_of ["-n"; "Main"; "-x"]) xobjs (fun o => 100 + o) ok_leaf (elog ["-n"; "Main"; "-x"] xobjs [RunnerModel.TPtr 14]) None /\
  omap (fun ev => match ev with EvStart _ _ o cx => Some (o, GetArgs cx, GetDryRun cx) | _ => None end) (elog ["-n"; "Main"; "-x"] xobjs [RunnerModel.TPtr 14]) =
  (14, [], true) :: ((fun o => (o, ["-x"], true)) <$> [8; 10; 9; 5; 4; 3; 2; 7; 10; 6]).
Proof. split; [exact args_carried|vm_compute; reflexivity]. Qed.
Example C81_case : exists m a, yaml_project M1 ["-n"; "Main"; "-x"] m "/p" plain_tags "/p/d" /\ fab M1 20 ["-n"; "Main"; "-x"] = Some (a, 0) /\
  requests a = [req_of ["-n"; "Main"; "-x"]] /\ m_dryrun m = true /\ own_args (m_args m) = ["-x"].
Proof.
  exists (m_of ["-n"; "Main"; "-x"]), [OpenDB "/home/.cache/fab"; Run (req_of ["-n"; "Main"; "-x"])].
  split; [apply M1_project; [vm_compute; reflexivity|by apply (bool_decide_unpack _)]|]. split; [vm_compute; reflexivity|]. split; [reflexivity|]. split; vm_compute; reflexivity.
Qed.
(** The project has no cycle. *)
Lemma M1_uses d n d' n' : uses "/p" fns0 (k_docs M1 "/p/d") no_rules d n d' n' -> uses "/p" fns0 pdocs no_rules d n d' n'.
Proof.
  destruct 1 as [dir n c Hp|dir n q dir' k v Hr Hd|dir n ins outs q' dir' n' ins' outs' Hr (k & v & Hd & Hi) Hr' Hm].
  - by apply uses_part.
  - eapply uses_name; [exact Hr|by apply M1_defines].
  - eapply uses_rule; [exact Hr| |exact Hr'|exact Hm]. exists k, v. split; [by apply M1_defines|done].
Qed.
Lemma M1_acyclic : well_founded (fun b a : string * node => uses "/p" fns0 (k_docs M1 "/p/d") no_rules a.1 a.2 b.1 b.2).
Proof.
  apply (Wellfounded.Inclusion.wf_incl _ _ (fun b a : string * node => uses "/p" fns0 pdocs no_rules a.1 a.2 b.1 b.2)); [intros x y; apply M1_uses|].
  apply (ProjProofs5.ranked_wf _ _ _ _ prank). exact pranked.
Qed.
(* the state after the request for Main *)
Definition estate : state := default init (run (pworld ok_leaf) init (pregs ++ [ChRun (r_ctx (req_of ["-n"; "Main"])) [RunnerModel.TPtr 8]])).
Example C82_case : inevitable (pworld ok_leaf) (fun st => all_returned (s_log st)) estate /\ ~ all_returned (s_log estate).
Proof.
  split.
  - destruct C78_case as (m & a & Hy & Hf & _ & _ & _ & Hr & _).
    destruct (req_reg ["-n"; "Main"] ltac:(by left)) as [Eg Eo].
    apply (C82_acyclic_ends M1 20 ["-n"; "Main"] m "/p" plain_tags "/p/d" a 0 (req_of ["-n"; "Main"]) no_rules (y_objs proj) (fun o => 100 + o) ok_leaf
      (pregs ++ [ChRun (r_ctx (req_of ["-n"; "Main"])) [RunnerModel.TPtr 8]]) estate Hy Hf).
    + rewrite Hr. by left.
    + rewrite Eo. apply expands_self.
    + exact pinj.
    + intros o cx ts; exact (ChainProofs2.may_ret _ _).
    + intros; constructor.
    + vm_compute; reflexivity.
    + rewrite Eg. clear. intros n o Hin. apply elem_of_list_In in Hin. compute_log Hin. simpl in Hin.
      apply lookup_fmap_Some. repeat (destruct Hin as [Hin|Hin]; [first [discriminate Hin | exists ("", o); injection Hin as <- <-; split; [reflexivity|vm_compute; reflexivity]]|]). destruct Hin.
    + exact M1_acyclic.
  - intros H. destruct (H 0 None (r_ctx (req_of ["-n"; "Main"])) [RunnerModel.TPtr 8]) as [e He]; [in_log|].
    apply elem_of_list_In in He. compute_log He. simpl in He. repeat (destruct He as [He|He]; [discriminate He|]). destruct He.
Qed.
(** fab -n Main -x has no effects; under fab -f Main there is one: the rule of Gen hashes its
    files, after its command. *)
Definition effects (tr : list event) : list label := omap (fun ev => match ev with EvEff _ l _ => Some l | _ => None end) tr.
Example C83_case : effects (elog ["-n"; "Main"; "-x"] xobjs [RunnerModel.TPtr 14]) = [] /\
  effects (elog ["-f"; "Main"] (y_objs proj) [RunnerModel.TPtr 8]) = [OpHash false 10] /\
  effects (elog ["Main"] (y_objs proj) [RunnerModel.TPtr 8]) = [OpHash true 10].
Proof. split; [vm_compute; reflexivity|]. split; vm_compute; reflexivity. Qed.
