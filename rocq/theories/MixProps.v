(** C90-C93.  The fab command from the command line to what is executed, in projects of any kind:
    with a Go package, YAML files or both; Go functions may call Run themselves. *)
From stdpp Require Import base gmap list strings relations.
From Coq Require Import Ascii Wellfounded.
From Verif Require Import PathModel PathSpec PathProofs FindModel TopDirModel DriverModel ContextModel RegistryModel RunnerModel RunnerSpec RunnerSpec2 RunnerTerm RunnerProofs RunnerProofs3 YamlModel YamlSpec MainModel MainSpec ProjModel ProjSpec EndSpec MixSpec.
From Verif Require RunnerFair.
From Verif Require Import RunnerInv6 RunnerProps YamlProps ProjProofs ProjProofs2 ProjProofs8 MainProofs MainProofs4 MainProps ProjProps EndProofs EndProps MixProofs MixProofs2.
Local Open Scope list_scope.

(** ** C90.  The exit status is that of the whole.  If fab NAME... exits with status 0 (and this was
    not -list), then every target named, and everything it cannot succeed without (parts, what
    names stand for, the makers of inputs), has succeeded; with -f or -n also what is up to date,
    if Go functions pass on the settings of their contexts. *)
Theorem C90_success_is_done M fuel argv m top T wd s0 a :
  any_project M argv m top T wd s0 -> fab M fuel argv = Some (a, 0) -> m_list m = false -> m_args m <> [] ->
  exists r, requests a = [r] /\ forall objs' addr leafp tr e, has_run M r objs' addr leafp tr e ->
    e = None /\ forall q, names_target (m_args m) q -> exists d o, stands_for M top T wd s0 r q d o /\
      (forall x, rtc (needs false objs' (snd <$> r_reg r)) o x -> completed objs' (snd <$> r_reg r) tr x) /\
      (m_force m = true \/ m_dryrun m = true -> keep_settings leafp ->
        forall x, rtc (needs true objs' (snd <$> r_reg r)) o x -> completed objs' (snd <$> r_reg r) tr x).
Proof.
  intros Hy Hf Hl Ha. destruct (mix_success _ _ _ _ _ _ _ _ _ Hy Hf Hl Ha) as (r & Hr & _). exists r. split; [done|].
  intros objs' addr leafp tr e Hco. assert (Hin : r ∈ requests a) by (rewrite Hr; by left). split.
  - by apply (status' _ _ _ _ _ _ Hf Hin _ _ _ _ (proj1 Hco) _ Hco).
  - intros q Hq. destruct (success' _ _ _ _ _ _ _ _ _ _ _ Hy Hf Hin _ _ _ _ (proj1 Hco) _ Hco false ltac:(done) eq_refl q Hq) as (d & o & Hreg & H1).
    exists d, o. split; [by eapply name_stands|]. split; [done|]. intros Hfd Hk.
    destruct (success' _ _ _ _ _ _ _ _ _ _ _ Hy Hf Hin _ _ _ _ (proj1 Hco) _ Hco true) with (q := q) as (d' & o' & Hreg' & H2); [|done|done|].
    + intros _. split; [|done]. apply orb_true_iff. exact Hfd.
    + rewrite Hreg in Hreg'. by injection Hreg' as <- <-.
Qed.
Print Assumptions C90_success_is_done.
(** If it exits with another status, then either nothing was asked for, and there is one of the
    reasons for that, or among what a target named asks for, directly or through composite
    targets, is the cause. *)
Theorem C90_failure_has_cause M fuel argv m top T wd s0 a st :
  any_project M argv m top T wd s0 -> fab M fuel argv = Some (a, st) -> m_list m = false -> st <> 0 ->
  (requests a = [] /\ gives_up M fuel m top T wd s0) \/
  exists r, requests a = [r] /\ forall objs' addr leafp tr e, has_run M r objs' addr leafp tr e ->
    e <> None /\ exists q d o x, names_target (m_args m) q /\ stands_for M top T wd s0 r q d o /\
      rtc (asks_of objs' (snd <$> r_reg r)) o x /\ broken objs' (snd <$> r_reg r) tr x.
Proof.
  intros Hy Hf Hl Hst. destruct (wf_fab _ _ _ _ _ Hf) as (_ & [E|(r & E & _)]); [left; split; [done|by eapply mix_no_request]|].
  right. exists r. split; [done|]. intros objs' addr leafp tr e Hco. assert (Hin : r ∈ requests a) by (rewrite E; by left). split.
  - intros He. apply Hst. by apply (status' _ _ _ _ _ _ Hf Hin _ _ _ _ (proj1 Hco) _ Hco).
  - destruct (failure' _ _ _ _ _ _ _ _ _ _ _ Hy Hf Hin _ _ _ _ (proj1 Hco) _ Hco Hst) as (q & d & o & x & H1 & H2 & H3).
    exists q, d, o, x. split; [done|]. split; [by eapply name_stands|done].
Qed.
Print Assumptions C90_failure_has_cause.

(** ** C91.  Nothing else is run: whatever is started is something that a target named on the
    command line asks for, by itself or through others (or, with arguments, the target made for
    them). *)
Theorem C91_only_what_is_needed_runs M fuel argv m top T wd s0 a st r objs' addr leafp tr g b x cx :
  any_project M argv m top T wd s0 -> fab M fuel argv = Some (a, st) -> r ∈ requests a -> running r objs' addr leafp tr ->
  EvStart g b x cx ∈ tr ->
  exists q d o, names_target (m_args m) q /\ stands_for M top T wd s0 r q d o /\
    (rtc (may_need objs' (snd <$> r_reg r) leafp) o x \/
     (own_args (m_args m) <> [] /\ length (r_objs r) <= x /\ objs' !! x = Some (SArgs o (own_args (m_args m))))).
Proof.
  intros Hy Hf Hin Hco Hs. destruct (only' _ _ _ _ _ _ _ _ _ _ _ Hy Hf Hin _ _ _ _ Hco _ _ _ _ Hs) as (q & d & o & H1 & H2 & H3).
  exists q, d, o. split; [done|]. split; [by eapply name_stands|done].
Qed.
Print Assumptions C91_only_what_is_needed_runs.
(** It sees the settings of the command line, if Go functions pass on those of their contexts. *)
Theorem C91_settings_of_command_line M fuel argv m top T wd s0 a st r objs' addr leafp tr g b x cx :
  any_project M argv m top T wd s0 -> fab M fuel argv = Some (a, st) -> r ∈ requests a -> running r objs' addr leafp tr ->
  keep_settings leafp -> EvStart g b x cx ∈ tr ->
  GetVerbose cx = m_verbose m /\ GetForce cx = m_force m /\ GetDryRun cx = m_dryrun m /\
  exists db, k_db M (at_wd wd (m_fabdir m)) = Some db /\ GetHashDB cx = Some db.
Proof.
  intros Hy Hf Hin Hco Hk Hs. destruct (settings' _ _ _ _ _ _ _ _ _ _ _ Hy Hf Hin _ _ _ _ Hco _ _ _ _ Hk Hs) as (S1 & S2 & S3 & S4).
  destruct (mix_request _ _ _ _ _ _ _ _ _ _ _ Hy Hf Hin) as (_ & _ & _ & _ & F1 & F2 & F3 & _ & (db & F4 & F5) & _).
  split; [by rewrite S1|]. split; [by rewrite S2|]. split; [by rewrite S3|]. exists db. by rewrite S4.
Qed.
Print Assumptions C91_settings_of_command_line.
(** So with -n Files targets neither hash nor consult or change the database: the only effects are
    those that other bodies have in a dry run. *)
Theorem C91_dry_run_no_effects M fuel argv m top T wd s0 a st r objs' addr leafp tr (harmless : label -> Prop) g l y :
  any_project M argv m top T wd s0 -> fab M fuel argv = Some (a, st) -> r ∈ requests a -> running r objs' addr leafp tr ->
  keep_settings leafp -> m_dryrun m = true -> (forall o cx l, GetDryRun cx = true -> may_eff (leafp o cx) l -> harmless l) ->
  EvEff g l y ∈ tr -> harmless l.
Proof.
  intros Hy Hf Hin Hco Hk Hd Hh Hl. destruct (eff_started _ _ _ _ _ (proj1 (rn_exec _ _ _ _ _ Hco)) Hl) as (b & o & cx & Hs & Hm).
  destruct (C91_settings_of_command_line _ _ _ _ _ _ _ _ _ _ _ _ _ _ _ _ _ _ _ Hy Hf Hin Hco Hk Hs) as (_ & _ & Ed & _).
  apply body_eff in Hm as [Hm|(E & _)]; [|congruence]. eapply Hh; [|exact Hm]. congruence.
Qed.
Print Assumptions C91_dry_run_no_effects.

(** ** C92.  Order.  A running Seq asks for its parts one at a time, each only after the earlier
    ones, and all that these cannot succeed without, have succeeded. *)
Theorem C92_seq_in_order r objs' addr leafp tr l1 c g cx' ts l2 b o cx us :
  running r objs' addr leafp tr -> tr = l1 ++ EvCall c (Some g) cx' ts :: l2 -> EvStart g b o cx ∈ l1 -> objs' !! o = Some (SSeq us) ->
  exists j t, us !! j = Some t /\ ts = [RunnerModel.TPtr t] /\
    forall i t' x, i < j -> us !! i = Some t' -> rtc (needs false objs' (snd <$> r_reg r)) t' x -> completed objs' (snd <$> r_reg r) l1 x.
Proof.
  intros Hco E Hs Ho. destruct Hco as [_ _ Hinj Hx _]. eapply (seq_call addr objs' leafp); [exact Hinj| |exact Hs|exact Ho].
  rewrite <-E. by apply exec_part.
Qed.
Print Assumptions C92_seq_in_order.
(** A running Files target hashes its files, consults or changes the database, runs its subtarget
    (any call but its first) or ends with success only after the targets responsible for its
    inputs, and all that these cannot succeed without, have succeeded. *)
Theorem C92_makers_of_inputs_first r objs' addr leafp tr l1 ev l2 g b o cx t ins outs ac :
  running r objs' addr leafp tr -> tr = l1 ++ ev :: l2 -> EvStart g b o cx ∈ l1 -> objs' !! o = Some (SFiles t ins outs ac) ->
  (exists l y, ev = EvEff g l y) \/ (exists c cx' ts, ev = EvCall c (Some g) cx' ts /\ exists c' cx'' ts', EvCall c' (Some g) cx'' ts' ∈ l1) \/ ev = EvEnd g b o None ->
  forall i x y, i ∈ ins -> responsible objs' i x -> rtc (needs false objs' (snd <$> r_reg r)) x y -> completed objs' (snd <$> r_reg r) l1 y.
Proof.
  intros Hco E Hs Ho Hev. destruct Hco as [_ _ Hinj Hx _]. eapply (files_act addr objs' leafp); [exact Hinj| |exact Hs|exact Ho|].
  - rewrite <-E. by apply exec_part.
  - destruct Hev as [H|[(c & cx' & ts & -> & c' & cx'' & ts' & H)| ->]]; [by left| |by right; right].
    right; left. exists c, cx', ts. split; [done|]. intros Hc.
    assert (Hin : (c', ts') ∈ calls_by g l1); [|rewrite Hc in Hin; by apply elem_of_nil in Hin].
    unfold calls_by. apply elem_of_list_omap. exists (EvCall c' (Some g) cx'' ts'). split; [done|]. by rewrite decide_True.
Qed.
Print Assumptions C92_makers_of_inputs_first.

(** ** C93.  If no target can come to ask for itself, and bodies end, then fab ends: whatever has
    happened since the request was made, however the goroutines are scheduled, it comes to the
    return. *)
Theorem C93_acyclic_ends r objs' addr leafp sched st' :
  (forall o1 o2, addr o1 = addr o2 -> o1 = o2) -> (forall o cx, finite (leafp o cx)) ->
  run (project_world addr objs' leafp) init sched = Some st' ->
  (forall n o, EvRegister n o ∈ s_log st' -> (snd <$> r_reg r) !! n = Some o) ->
  well_founded (fun b a => may_need objs' (snd <$> r_reg r) leafp a b) ->
  inevitable (project_world addr objs' leafp) (fun st => all_returned (s_log st)) st'.
Proof.
  intros Hi Hfin Hrun Hreg Hwf. apply inevitable_lem; [by apply target_finite|by exists sched|].
  by apply (need_wf addr objs' leafp (snd <$> r_reg r) Hi).
Qed.
Print Assumptions C93_acyclic_ends.
(** A cycle elsewhere does no harm: it is enough that the targets named do not lead into one (under
    a fair schedule). *)
Theorem C93_cycle_elsewhere_ends M fuel argv m top T wd s0 a st r objs' addr leafp (h : nat -> state) chs n c ts :
  any_project M argv m top T wd s0 -> fab M fuel argv = Some (a, st) -> r ∈ requests a ->
  (forall o1 o2, addr o1 = addr o2 -> o1 = o2) -> (forall o cx, finite (leafp o cx)) ->
  execution (project_world addr objs' leafp) h chs -> fair (project_world addr objs' leafp) h chs ->
  (forall n m o, EvRegister m o ∈ s_log (h n) -> (snd <$> r_reg r) !! m = Some o) ->
  Forall2 (as_tref r objs') (r_targets r) ts -> EvCall c None (r_ctx r) ts ∈ s_log (h n) ->
  (forall q d o, names_target (m_args m) q -> stands_for M top T wd s0 r q d o -> Acc (fun b a => may_need objs' (snd <$> r_reg r) leafp a b) o) ->
  exists k e, n <= k /\ EvRet c None e ∈ s_log (h k).
Proof.
  intros Hy Hf Hin Hi Hfin He Hfair Hreg Hts Hc Hacc. eapply (RunnerFair.fair_returns_safe_lem _ h chs He Hfair); [|exact Hc].
  intros x Hx. apply elem_of_list_lookup in Hx as [i Hx]. destruct (Forall2_lookup_r _ _ _ _ _ Hts Hx) as (t & Ht & Has).
  pose proof (the_args' _ _ _ _ _ _ _ _ _ _ _ Hy Hf Hin) as Hask.
  destruct (asked_target _ _ _ _ Hask (elem_of_list_lookup_2 _ _ _ Ht)) as (q & d & o & Hq & Hr & Hto).
  pose proof (Hacc q d o Hq (name_stands _ _ _ _ _ _ _ _ _ _ _ Hy Hf Hin _ _ _ Hr)) as Ho.
  apply (need_safe addr objs' leafp (snd <$> r_reg r) Hi (fun k => s_log (h k))); [done|by intros; eapply Hreg|].
  destruct Hto as [[-> _]|[-> _]]; simpl in Has; [by injection Has as ->|].
  destruct Has as (y & [= ->] & _ & Hy'). constructor. intros z Hz.
  assert (z = o) as ->; [|done]. inversion Hz as [? ? Hz' E1 E2|? ? ? ? Hoth ? ? E1 E2].
  - apply asks_needs in Hz'. unfold ProjProofs.asks in Hz'. by rewrite Hy' in Hz'.
  - exfalso. destruct Hoth as [(? & ? & ? & E)|E]; congruence.
Qed.
Print Assumptions C93_cycle_elsewhere_ends.

(** ** A concrete project: a Go package with a Files target Gen (of a command) and a function Check
    that runs another command; a YAML file with a !Seq Main of Check and a rule that has as input a
    file in the directory that Gen makes; and Bad. *)
Definition mix_pkg : gopkg :=
  {| p_objs := [SLeaf "Command" (cmd "gen") ""; SFiles 0 ["/p/in"] ["/p/mid"] false; SLeaf "F" (sc "Check") ""; SLeaf "Command" (cmd "check") ""];
     p_targets := [("Gen", "makes mid", Some 1); ("Check", "", Some 2)]; p_tags := plain_tags |}.
Definition mix_entries : list (node * node) :=
  [(sc "Main", sq "!Seq" [sc "Check"; rule_node (cmd "use") "mid/x" "out"]); (sc "Bad", sq "!All" [sc "Check"; sc "Nowhere"])].
Definition M2 : machine :=
  {| k_cwd := "/p/d"; k_cache := Some "/home/.cache/fab";
     k_fs := fun p => if decide (p = "/p/fab.yaml") then IsFile "mix" else if decide (p = "/p/_fab") then IsDirectory else NotExist;
     k_decl := fun _ => Some None;
     k_yaml := fun t => if decide (t = "mix") then Some (document mix_entries) else None;
     k_bool := ybool0; k_tags := fab_tags; k_load := fun d => if decide (d = "/p") then Package "proj" mix_pkg else LoadFails; k_db := fun _ => Some 7;
     k_run := fun r => match r_targets r with [Plain (RegistryModel.TPtr 7)] => true | _ => false end |}.
Definition mreq (argv : list string) : request := match fab M2 20 argv with Some (a, _) => nth 0 (requests a) r_none | None => r_none end.
Definition mix_s0 : ystate := fst (register_all (p_targets mix_pkg) {| y_objs := p_objs mix_pkg; y_reg := ∅ |}).
Definition mix_objs : list shape :=
  [SLeaf "Command" (cmd "gen") ""; SFiles 0 ["/p/in"] ["/p/mid"] false; SLeaf "F" (sc "Check") ""; SLeaf "Command" (cmd "check") "";
   SRef "Check"; SLeaf "Command" (cmd "use") ""; SFiles 5 ["/p/mid/x"] ["/p/out"] false; SSeq [4; 6]; SRef "Check"; SRef "Nowhere"; SAll [8; 9]].
(** The function Check calls Run. *)
Definition mix_leaf (o : nat) (cx : ctx) : prog := if decide (o = 2) then Call cx [RunnerModel.TPtr 3] (fun e => Ret e) else Ret None.
Definition mix_names : list (string * nat) := [("Gen", 1); ("Check", 2); ("Main", 7); ("Bad", 10)].
Definition mlog (argv : list string) (o : nat) : list event :=
  s_log (client 300 (project_world (fun o => 100 + o) mix_objs mix_leaf) init (((fun p => ChRegister p.1 p.2) <$> mix_names) ++ [ChRun (r_ctx (mreq argv)) [RunnerModel.TPtr o]])).

Lemma executes_pre w pre l reg : trace w (pre ++ l) -> (forall ev, ev ∈ pre -> exists n x, ev = EvRegister n x) ->
  (forall n x, EvRegister n x ∈ pre <-> reg !! n = Some x) -> (forall n x, EvRegister n x ∉ l) -> executes w reg (pre ++ l).
Proof.
  intros Ht Hp Hreg Hl. split; [done|]. split.
  - intros i j c p cx ts name x Hi Hj. destruct (decide (j < length pre)) as [Hj'|Hj'].
    + destruct (decide (i < length pre)) as [Hi'|]; [|lia]. exfalso. rewrite lookup_app_l in Hi by done.
      apply elem_of_list_lookup_2, Hp in Hi as (? & ? & Hi). discriminate Hi.
    + exfalso. rewrite lookup_app_r in Hj by lia. apply elem_of_list_lookup_2 in Hj. by apply Hl in Hj.
  - intros n o. rewrite elem_of_app, Hreg. split; [|by left]. intros [?|H]; [done|]. by apply Hl in H.
Qed.
Lemma executes_regs w (names : list (string * nat)) reg l : reg = list_to_map names -> NoDup names.*1 ->
  trace w (((fun p => EvRegister p.1 p.2) <$> names) ++ l) -> (forall n x, EvRegister n x ∉ l) ->
  executes w reg (((fun p => EvRegister p.1 p.2) <$> names) ++ l).
Proof.
  intros Hreg Hnd Ht Hl. apply executes_pre; [done| | |done].
  - intros ev Hi. apply elem_of_list_fmap in Hi as (p & -> & _). by eexists _, _.
  - intros n x. rewrite elem_of_list_fmap, Hreg, <-(elem_of_list_to_map names) by done. split.
    + intros ([n' x'] & E & H). injection E as -> ->. exact H.
    + intros H. by exists (n, x).
Qed.
Lemma M2_project argv m : fab_main "/home/.cache/fab" "" argv = Some m -> "--" ∉ argv -> any_project M2 argv m "/p" plain_tags "/p" mix_s0.
Proof.
  intros Hm Hn. split; [by exists "/home/.cache/fab"|]. split; [done|]. split; [vm_compute; reflexivity|]. right.
  exists "proj", mix_pkg. split; [split; [vm_compute; discriminate|vm_compute; reflexivity]|]. split; [done|]. split; [vm_compute; reflexivity|].
  apply (MainProofs2.go_targets_ok mix_pkg mix_s0). vm_compute. reflexivity.
Qed.
Lemma mreq_is argv : argv ∈ [["-n"; "Main"]; ["-n"; "Bad"]] -> r_objs (mreq argv) = mix_objs /\ (snd <$> r_reg (mreq argv)) = list_to_map mix_names.
Proof.
  intros H. repeat (apply elem_of_cons in H as [-> |H]; [split; [vm_compute; reflexivity|apply (bool_decide_unpack _); vm_compute; exact I]|]). apply elem_of_nil in H. destruct H.
Qed.
Lemma mlog_run argv o e : argv ∈ [["-n"; "Main"]; ["-n"; "Bad"]] -> r_targets (mreq argv) = [Plain (RegistryModel.TPtr o)] ->
  mlog argv o = ((fun p => EvRegister p.1 p.2) <$> mix_names) ++ drop 4 (mlog argv o) ->
  forallb (fun ev => negb (is_reg ev)) (drop 4 (mlog argv o)) = true ->
  EvCall 0 None (r_ctx (mreq argv)) [RunnerModel.TPtr o] ∈ mlog argv o -> forallb (one_call [RunnerModel.TPtr o]) (mlog argv o) = true ->
  EvRet 0 None e ∈ mlog argv o -> (k_run M2 (mreq argv) = true <-> e = None) ->
  has_run M2 (mreq argv) mix_objs (fun o => 100 + o) mix_leaf (mlog argv o) e.
Proof.
  intros Hin Ht E H Hc H1 Hr Hk. destruct (mreq_is argv Hin) as [Eo Eg].
  assert (Hx : executes (project_world (fun o => 100 + o) mix_objs mix_leaf) (snd <$> r_reg (mreq argv)) (mlog argv o)).
  { rewrite E. apply executes_regs; [exact Eg|by apply (bool_decide_unpack _)| |by apply no_reg]. rewrite <-E. apply client_trace. }
  split; [split|split; [|exact Hk]].
  - by rewrite Eo.
  - rewrite Eo. done.
  - exact pinj.
  - exact Hx.
  - exists 0, [RunnerModel.TPtr o]. split; [rewrite Ht; by repeat constructor|]. intros c cx us Hc'. pose proof (one_call_only [] _ H1 _ _ _ Hc') as ->.
    by destruct (call_unique _ _ _ _ _ _ _ _ _ (proj1 Hx) Hc Hc') as (_ & -> & ->).
  - exists 0, [RunnerModel.TPtr o]. split; [exact Hc|exact Hr].
Qed.
Lemma mix_main_run : has_run M2 (mreq ["-n"; "Main"]) mix_objs (fun o => 100 + o) mix_leaf (mlog ["-n"; "Main"] 7) None.
Proof.
  apply mlog_run; [by left|vm_compute; reflexivity|vm_compute; reflexivity|vm_compute; reflexivity|in_log|vm_compute; reflexivity|in_log|vm_compute; tauto].
Qed.
Definition mbad : option err := match last (mlog ["-n"; "Bad"] 10) with Some (EvRet _ _ e) => e | _ => None end.
Lemma mix_bad_run : has_run M2 (mreq ["-n"; "Bad"]) mix_objs (fun o => 100 + o) mix_leaf (mlog ["-n"; "Bad"] 10) mbad.
Proof.
  apply mlog_run; [right; by left|vm_compute; reflexivity|vm_compute; reflexivity|vm_compute; reflexivity|in_log|vm_compute; reflexivity| |vm_compute; split; discriminate].
  let e := eval vm_compute in mbad in change mbad with e. in_log.
Qed.
Lemma mix_keeps : keep_settings mix_leaf.
Proof.
  intros o cx cx' H. unfold mix_leaf in H. case_decide; [|inversion H].
  inversion H as [|? ? ? e ? H1| |]; subst; [apply same_refl|inversion H1].
Qed.
(** In the project Main needs the command of Gen: its rule has an input in the directory that Gen
    makes. *)
Lemma mix_responsible : responsible mix_objs "/p/mid/x" 1.
Proof.
  exists 1. change (Nat.iter 1 Dir "/p/mid/x") with (Dir "/p/mid/x"). assert (E : Dir "/p/mid/x" = "/p/mid") by (vm_compute; reflexivity). rewrite E. split; [split|split].
  - exists 0, ["/p/in"], ["/p/mid"], false. split; [done|by left].
  - intros y (t & ins & outs & ac & H & Hp). unfold mix_objs in H.
    do 11 (destruct y as [|y]; [first [lia|simpl in H; injection H as <- <- <- <-; apply elem_of_list_singleton in Hp; discriminate Hp|discriminate H]|]). done.
  - intros [|j] y Hj; [|lia]. simpl. intros (t & ins & outs & ac & H & Hp).
    do 11 (destruct y as [|y]; [first [discriminate H|simpl in H; injection H as <- <- <- <-; apply elem_of_list_singleton in Hp; discriminate Hp]|]). done.
  - intros j Hj. assert (j = 1) as -> by lia. simpl. rewrite E. by apply (bool_decide_unpack _).
Qed.

Lemma mix_outputs x p : outputs mix_objs x p -> (x = 1 /\ p = "/p/mid") \/ (x = 6 /\ p = "/p/out").
Proof.
  intros (t & ins & outs & ac & H & Hp). unfold mix_objs in H.
  do 11 (destruct x as [|x]; [first [discriminate H|simpl in H; injection H as <- <- <- <-; apply elem_of_list_singleton in Hp; by auto]|]). discriminate H.
Qed.
Lemma mix_only_responsible i x : i ∈ ["/p/in"; "/p/mid/x"] -> responsible mix_objs i x -> i = "/p/mid/x" /\ x = 1.
Proof.
  intros Hi (k & [Ho _] & _ & Hk). apply mix_outputs in Ho.
  repeat (apply elem_of_cons in Hi as [-> |Hi]); [exfalso| |by apply elem_of_nil in Hi].
  - destruct k as [|[|k]].
    + destruct Ho as [[_ E]|[_ E]]; discriminate E.
    + destruct Ho as [[_ E]|[_ E]]; vm_compute in E; discriminate E.
    + apply (Hk 2); [lia|]. assert (E : Nat.iter 2 Dir "/p/in" = "/") by (vm_compute; reflexivity). rewrite E. right; right; by left.
  - destruct k as [|[|[|k]]].
    + destruct Ho as [[_ E]|[_ E]]; discriminate E.
    + destruct Ho as [[-> _]|[_ E]]; [done|vm_compute in E; discriminate E].
    + destruct Ho as [[_ E]|[_ E]]; vm_compute in E; discriminate E.
    + exfalso. apply (Hk 3); [lia|]. assert (E : Nat.iter 3 Dir "/p/mid/x" = "/") by (vm_compute; reflexivity). rewrite E. right; right; by left.
Qed.
Lemma mix_at (o : nat) (sh : shape) : mix_objs !! o = Some sh -> List.In (o, sh) (zip (seq 0 11) mix_objs).
Proof.
  intros H. apply elem_of_list_In, elem_of_list_lookup. exists o. rewrite lookup_zip_with.
  assert (o < 11) by (apply lookup_lt_Some in H; exact H). rewrite lookup_seq_lt by done. simpl. by rewrite H.
Qed.
(** The project has no cycle. *)
Definition mix_rank (o : nat) : nat := nth o [0; 1; 1; 0; 2; 0; 2; 3; 2; 0; 3] 0.
Lemma mix_ranked o t : may_need mix_objs (snd <$> r_reg (mreq ["-n"; "Main"])) mix_leaf o t -> mix_rank t < mix_rank o.
Proof.
  rewrite (proj2 (mreq_is ["-n"; "Main"] ltac:(by left))).
  destruct 1 as [o t Hn|o cx ts t _ Hm Hin].
  - destruct Hn as [o ts t H Hin|o ts t H Hin|o t args H|o n t H Hn|o t ins outs ac i x H Hi Hr|o t ins outs ac _ H];
      apply mix_at in H; simpl in H; repeat (destruct H as [H|H]; [first [discriminate H|injection H as <- H; subst]|]); try destruct H.
    all: repeat (apply elem_of_cons in Hin as [-> |Hin]; [vm_compute; lia|]); try (by apply elem_of_nil in Hin).
    all: try (vm_compute in Hn; injection Hn as <-; vm_compute; lia).
    all: try discriminate Hn.
    all: try (vm_compute; lia).
    all: apply elem_of_list_singleton in Hi as ->; apply mix_only_responsible in Hr as [E ->]; [|set_solver]; try discriminate E; vm_compute; lia.
  - unfold mix_leaf in Hm. case_decide as Ho; [subst o|by inversion Hm].
    inversion Hm as [|? ? ? ? ? Hm'| |]; subst; [|by inversion Hm']. apply elem_of_list_singleton in Hin. injection Hin as ->. vm_compute; lia.
Qed.
Lemma mix_acyclic : well_founded (fun b a => may_need mix_objs (snd <$> r_reg (mreq ["-n"; "Main"])) mix_leaf a b).
Proof. apply (Wellfounded.Inclusion.wf_incl _ _ (ltof _ mix_rank)); [intros x y H; by apply mix_ranked|apply well_founded_ltof]. Qed.

(** fab -n Main succeeds.  What Main cannot succeed without, with -n, includes the command of the Go
    target Gen: Main has a rule as a part, this has an input in the directory that Gen makes. *)
Example C90_case : exists m a, any_project M2 ["-n"; "Main"] m "/p" plain_tags "/p" mix_s0 /\ fab M2 20 ["-n"; "Main"] = Some (a, 0) /\ m_list m = false /\ m_args m = ["Main"] /\
  m_dryrun m = true /\ requests a = [mreq ["-n"; "Main"]] /\ keep_settings mix_leaf /\
  has_run M2 (mreq ["-n"; "Main"]) mix_objs (fun o => 100 + o) mix_leaf (mlog ["-n"; "Main"] 7) None /\
  rtc (needs true mix_objs (snd <$> r_reg (mreq ["-n"; "Main"]))) 7 0 /\ rtc (needs false mix_objs (snd <$> r_reg (mreq ["-n"; "Main"]))) 7 2.
Proof.
  exists (m_of ["-n"; "Main"]), [OpenDB "/home/.cache/fab"; Run (mreq ["-n"; "Main"])].
  split; [apply M2_project; [vm_compute; reflexivity|by apply (bool_decide_unpack _)]|]. split; [vm_compute; reflexivity|]. split; [vm_compute; reflexivity|].
  split; [vm_compute; reflexivity|]. split; [vm_compute; reflexivity|]. split; [reflexivity|]. split; [exact mix_keeps|]. split; [exact mix_main_run|].
  rewrite (proj2 (mreq_is ["-n"; "Main"] ltac:(by left))). split.
  - apply (rtc_l _ _ 6); [by apply (needs_seq _ _ _ _ [4; 6]); [|right; left]|].
    apply (rtc_l _ _ 1); [by eapply (needs_maker _ _ _ 6); [done|left|exact mix_responsible]|].
    apply (rtc_l _ _ 0); [by eapply (needs_files _ _ _ 1)|]. constructor.
  - apply (rtc_l _ _ 4); [by apply (needs_seq _ _ _ _ [4; 6]); [|left]|].
    apply (rtc_l _ _ 2); [by eapply (needs_name _ _ _ 4)|]. constructor.
Qed.
(** fab -n Bad fails, because of a name that is not defined; fab Z because there is no such
    target. *)
Example C90_failure_case : (exists m a, any_project M2 ["-n"; "Bad"] m "/p" plain_tags "/p" mix_s0 /\ fab M2 20 ["-n"; "Bad"] = Some (a, 1) /\ m_list m = false /\
    requests a = [mreq ["-n"; "Bad"]] /\ has_run M2 (mreq ["-n"; "Bad"]) mix_objs (fun o => 100 + o) mix_leaf (mlog ["-n"; "Bad"] 10) mbad) /\
  exists m a, any_project M2 ["Z"] m "/p" plain_tags "/p" mix_s0 /\ fab M2 20 ["Z"] = Some (a, 1) /\ m_list m = false /\ requests a = [].
Proof.
  split.
  - exists (m_of ["-n"; "Bad"]), [OpenDB "/home/.cache/fab"; Run (mreq ["-n"; "Bad"]); Complain; Complain].
    split; [apply M2_project; [vm_compute; reflexivity|by apply (bool_decide_unpack _)]|]. split; [vm_compute; reflexivity|]. split; [vm_compute; reflexivity|].
    split; [reflexivity|exact mix_bad_run].
  - exists (m_of ["Z"]), [OpenDB "/home/.cache/fab"; Complain; Complain].
    split; [apply M2_project; [vm_compute; reflexivity|by apply (bool_decide_unpack _)]|]. split; [vm_compute; reflexivity|]. split; vm_compute; reflexivity.
Qed.
(** What fab -n Main runs, all of it with the settings of the command line and without effects of
    Files targets: first Check and what it calls, then Gen, its command, and that of the rule of
    Main. *)
Example C91_case : running (mreq ["-n"; "Main"]) mix_objs (fun o => 100 + o) mix_leaf (mlog ["-n"; "Main"] 7) /\
  omap (fun ev => match ev with EvStart _ _ o cx => Some (o, GetDryRun cx) | _ => None end) (mlog ["-n"; "Main"] 7) = (fun o => (o, true)) <$> [7; 2; 3; 6; 1; 0; 5] /\
  effects (mlog ["-n"; "Main"] 7) = [].
Proof. split; [exact (proj1 mix_main_run)|]. split; vm_compute; reflexivity. Qed.
Definition call_at (o : nat) (tr : list event) : nat :=
  (fix go tr k := match tr with [] => k | EvCall _ (Some _) _ [RunnerModel.TPtr x] :: tr => if decide (x = o) then k else go tr (S k) | _ :: tr => go tr (S k) end) tr 0.
Definition call_ctx (tr : list event) (k : nat) : nat * ctx := match tr !! k with Some (EvCall c _ cx _) => (c, cx) | _ => (0, []) end.
Definition start_ctx (g : nat) (tr : list event) : ctx := match omap (fun ev => match ev with EvStart g' _ _ cx => if decide (g' = g) then Some cx else None | _ => None end) tr with cx :: _ => cx | [] => [] end.
(** Main asks for its second part, and the rule of Main for its command, at the places that C92 is
    about. *)
Example C92_case : let tr := mlog ["-n"; "Main"] 7 in let i := call_at 6 tr in let j := call_at 5 tr in
  running (mreq ["-n"; "Main"]) mix_objs (fun o => 100 + o) mix_leaf tr /\
  (exists c cx cx', tr = take i tr ++ EvCall c (Some 0) cx [RunnerModel.TPtr 6] :: drop (S i) tr /\ EvStart 0 107 7 cx' ∈ take i tr) /\ mix_objs !! 7 = Some (SSeq [4; 6]) /\
  (exists c cx cx' c' cx'' ts, tr = take j tr ++ EvCall c (Some 3) cx [RunnerModel.TPtr 5] :: drop (S j) tr /\ EvStart 3 106 6 cx' ∈ take j tr /\ EvCall c' (Some 3) cx'' ts ∈ take j tr) /\
  mix_objs !! 6 = Some (SFiles 5 ["/p/mid/x"] ["/p/out"] false) /\ responsible mix_objs "/p/mid/x" 1.
Proof.
  intros tr i j. split; [exact (proj1 mix_main_run)|]. split; [|split; [done|split; [|split; [done|exact mix_responsible]]]].
  - exists (call_ctx tr i).1, (call_ctx tr i).2, (start_ctx 0 tr). split; [vm_compute; reflexivity|in_log].
  - exists (call_ctx tr j).1, (call_ctx tr j).2, (start_ctx 3 tr), (call_ctx tr (call_at 1 tr)).1, (call_ctx tr (call_at 1 tr)).2, [RunnerModel.TPtr 1].
    split; [vm_compute; reflexivity|]. split; in_log.
Qed.
(* the state after the request for Main *)
Definition mstate : state := default init (run (project_world (fun o => 100 + o) mix_objs mix_leaf) init
  (((fun p => ChRegister p.1 p.2) <$> mix_names) ++ [ChRun (r_ctx (mreq ["-n"; "Main"])) [RunnerModel.TPtr 7]])).
Lemma mix_finite o cx : finite (mix_leaf o cx).
Proof. unfold mix_leaf. case_decide; repeat constructor. Qed.
Example C93_case : inevitable (project_world (fun o => 100 + o) mix_objs mix_leaf) (fun st => all_returned (s_log st)) mstate /\ ~ all_returned (s_log mstate).
Proof.
  split.
  - apply (C93_acyclic_ends (mreq ["-n"; "Main"]) mix_objs (fun o => 100 + o) mix_leaf
      (((fun p => ChRegister p.1 p.2) <$> mix_names) ++ [ChRun (r_ctx (mreq ["-n"; "Main"])) [RunnerModel.TPtr 7]])).
    + exact pinj.
    + exact mix_finite.
    + vm_compute; reflexivity.
    + rewrite (proj2 (mreq_is ["-n"; "Main"] ltac:(by left))). intros n o Hin. apply elem_of_list_In in Hin. compute_log Hin. simpl in Hin.
      repeat (destruct Hin as [Hin|Hin]; [first [discriminate Hin | injection Hin as <- <-; vm_compute; reflexivity]|]). destruct Hin.
    + exact mix_acyclic.
  - intros H. destruct (H 0 None (r_ctx (mreq ["-n"; "Main"])) [RunnerModel.TPtr 7]) as [e He]; [in_log|].
    apply elem_of_list_In in He. compute_log He. simpl in He. repeat (destruct He as [He|He]; [discriminate He|]). destruct He.
Qed.
