(** Which definition of a name counts, and paths of the command line. *)
From stdpp Require Import base gmap list strings.
From Coq Require Import Ascii.
From Verif Require Import StrOrd PathModel PathSpec PathProofs PathProofs2 PathProofs3 TopDirModel TopDirSpec TopDirProofs DriverModel DriverSpec DriverProofs4
  YamlModel YamlSpec YamlProofs YamlProofs2 YamlProofs3 YamlProofs4 ContextModel RegistryModel RegistrySpec RegistryProofs MainModel MainSpec MainProofs MainProofs2 MainProofs3.
Local Open Scope list_scope.

(** There is one reader. *)
Lemma go_targets_fun p s s' : go_targets p s -> go_targets p s' -> s = s'.
Proof.
  destruct s as [o1 r1], s' as [o0 r0]. intros [Ho Hg] [Ho1 Hg1]; simpl in *. f_equal; [congruence|].
  apply map_eq. intros q. apply option_eq. intros [d o]. rewrite Hg, Hg1. done.
Qed.
Lemma reader_fun M top T wd s0 T' wd' s0' : reader M top T wd s0 -> reader M top T' wd' s0' -> T = T' /\ wd = wd' /\ s0 = s0'.
Proof.
  intros [(H1 & -> & -> & ->)|(path & p & [H1 H2] & -> & -> & Hg)] [(H1' & -> & -> & ->)|(path' & p' & [H1' H2'] & -> & -> & Hg')]; [done| | |].
  - by destruct H1 as [H1|H1]; [|congruence].
  - by destruct H1' as [H1'|H1']; [|congruence].
  - rewrite H2 in H2'. injection H2' as <- <-. split; [done|]. split; [done|]. by eapply go_targets_fun.
Qed.

(** If reading the YAML files ends, fab ends. *)
Lemma main_ends M fuel m top : in_project M m top -> not_flag_first (m_args m) ->
  (forall T wd s0, reader M top T wd s0 -> read_top M T fuel wd top s0 <> ROut) -> Main_Run M fuel m <> None.
Proof.
  intros Hp Hn Hr. destruct (main_cases M fuel m top Hp) as [[Hnp ->]|[[_ ->]|(path & p & Hpk & ->)]]; [|done|].
  - unfold driverless, done. cbn [m_topdir set_top]. specialize (Hr (k_tags M) (k_cwd M) {| y_objs := []; y_reg := ∅ |}).
    destruct (read_top _ _ _ _ _ _) as [s []|s [|]|]; [| |done|by destruct Hr; [left|]].
    all: destruct (m_list _); [done|]; destruct (k_db M _); [|done]; by destruct (parse_and_run _ _ _ _ _ _).
  - cbv zeta. case_decide; [|done]. set (wd := at_wd (k_cwd M) top) in *.
    assert (Hd : driver M fuel p wd (driver_args (set_top m top)) <> None).
    { unfold driver, done. destruct (k_cache M) as [cache|]; [|done]. rewrite (flags_lem cache (set_top m top)) by done.
      destruct (register_all _ _) as [s0 []] eqn:E0; [|done]. apply go_targets_ok in E0. cbn [m_topdir set_top].
      specialize (Hr (p_tags p) wd s0). destruct (read_top _ _ _ _ _ _) as [s []|s [|]|]; [| |done|destruct Hr; [right; by exists path, p|done]].
      all: destruct (k_db M _); [|done]; destruct (m_list _); [done|]; case_decide; [done|]; by destruct (parse_and_run _ _ _ _ _ _). }
    destruct (driver M fuel p wd _) as [[b [|n]]|]; done.
Qed.

(** The project file. *)
Lemma Join_top top : IsAbs top = true -> clean top -> Join [top; ""] = top.
Proof.
  intros Ha Hc. assert (Hne : top <> "") by (by intros ->).
  assert (Hj : IsAbs (Join [top; ""]) = true) by (by rewrite Join_abs, decide_False).
  destruct (Join_clean [top; ""]) as [E|E]; [by rewrite E in Hj|].
  transitivity (Clean (Join [top; ""])); [done|]. transitivity (Clean top); [|done]. rewrite !Clean_abs by done.
  rewrite cd_Join by (by repeat constructor). done.
Qed.
Lemma file_dir_top top : IsAbs top = true -> clean top -> file_dir top "" = Some "".
Proof. intros Ha Hc. unfold file_dir. rewrite Join_top by done. unfold Rel. by rewrite decide_True. Qed.
Lemma k_docs_wd M wd wd' top : IsAbs top = true -> k_docs M wd top = k_docs M wd' top.
Proof.
  intros Ht. unfold k_docs, openFabYAML, open1. assert (Hne : top <> "") by (by intros ->).
  assert (Hj : forall f, IsAbs (Join [top; f]) = true) by (intros f; by rewrite Join_abs, decide_False).
  by rewrite !(at_abs _ _ (Hj _)).
Qed.

Lemma read_top_eq M T fuel wd top s doc : IsAbs top = true -> clean top -> k_docs M wd top = Some doc ->
  read_top M T fuel wd top s = ReadYAML (YAMLTarget top (tag_lists T) (tag_leaf T) (k_bool M) (k_docs M wd) (k_ne M wd T) fuel) doc "" s.
Proof. intros Ha Hc Hd. unfold read_top, ReadYAMLFile. by rewrite Join_top, Hd, file_dir_top. Qed.

Lemma yaml_wins_lem M m top T wd s0 doc ps : in_project M m top -> IsAbs top = true -> clean top -> not_flag_first (m_args m) ->
  reader M top T wd s0 -> k_docs M (k_cwd M) top = Some doc -> has_entries doc ps ->
  entries_ok "" ps -> (forall k v, (k, v) ∈ ps -> target_key k -> decodable top (tag_lists T) (tag_leaf T) (k_bool M) "" v) ->
  (forall k v q, (k, v) ∈ ps -> target_key k -> refers top "" v q -> ~ far q) ->
  exists N, forall fuel, N <= fuel -> exists a st, Main_Run M fuel m = Some (a, st) /\
    forall r, r ∈ requests a -> forall q,
      (exists k v o, last_def "" ps q k v /\ r_reg r !! q = Some (key_doc k, o) /\
        denotes top (tag_lists T) (tag_leaf T) (k_bool M) (fun _ _ => False) (fun _ _ _ _ => False) (r_objs r) "" v o) \/
      (no_def "" ps q /\ r_reg r !! q = y_reg s0 !! q).
Proof.
  intros Hp Ha Hc Hn Hr Hd Hps Hok Hdec Hloc. rewrite (k_docs_wd M _ wd) in Hd by done.
  destruct (document_exactly top (tag_lists T) (tag_leaf T) (k_bool M) (k_docs M wd) (k_ne M wd T) doc "") as [N HN].
  { intros ps' k v q Hps'. rewrite (has_entries_fun _ _ _ Hps' Hps). apply Hloc. }
  exists N. intros fuel Hf. specialize (HN fuel s0 Hf). cbv zeta in HN. rewrite <-(read_top_eq M T fuel wd top s0 doc) in HN by done.
  assert (Hs : exists s, read_top M T fuel wd top s0 = ROk s tt /\ forall q,
        (exists k v o, last_def "" ps q k v /\ y_reg s !! q = Some (key_doc k, o) /\
          denotes top (tag_lists T) (tag_leaf T) (k_bool M) (fun _ _ => False) (fun _ _ _ _ => False) (y_objs s) "" v o) \/
        (no_def "" ps q /\ y_reg s !! q = y_reg s0 !! q)).
  { destruct (read_top _ _ _ _ _ _) as [s []|s e|]; [|by destruct (proj1 HN ps Hps)|done]. exists s. split; [done|].
    destruct HN as (ps' & Hps' & _ & H). by rewrite (has_entries_fun _ _ _ Hps' Hps) in H. }
  clear HN. destruct Hs as (s & Er & Hs).
  destruct (Main_Run M fuel m) as [[a st]|] eqn:Em.
  2:{ exfalso. eapply (main_ends M fuel m top); try done. intros T' wd' s0' Hr'. destruct (reader_fun _ _ _ _ _ _ _ _ Hr Hr') as (<- & <- & <-). by rewrite Er. }
  exists a, st. split; [done|]. intros r Hin.
  destruct (main_request M fuel m top a st r Hp Hn Em Hin) as (_ & T' & wd' & s0' & s' & Hr' & _ & Hok' & -> & ->).
  destruct (reader_fun _ _ _ _ _ _ _ _ Hr Hr') as (<- & <- & <-).
  destruct Hok' as [E|E]; rewrite Er in E; [injection E as <-|done]. exact Hs.
Qed.

(** Which database is opened: the one in the directory of the command line, if that is an absolute path. *)
Lemma opens_driverless M fuel m a st d : driverless M fuel m = Some (a, st) -> OpenDB d ∈ a -> d = at_wd (k_cwd M) (m_fabdir m).
Proof.
  unfold driverless, done. assert (Hnote : forall b x, OpenDB d ∈ (if b : bool then [Note] else []) ++ x -> OpenDB d ∈ x).
  { intros b x. destruct b; [|done]. intros [?|?]%elem_of_app; [|done]. set_solver. }
  destruct (read_top _ _ _ _ _ _) as [s []|s [|]|]; [| |intros [= <- <-] ?%Hnote; set_solver|done].
  all: destruct (m_list _); [intros [= <- <-] ?%Hnote; set_solver|]; destruct (k_db M _); [|intros [= <- <-] ?%Hnote; set_solver].
  all: destruct (parse_and_run _ _ _ _ _ _) as [x n] eqn:E; intros [= <- <-] H%Hnote; cbn [app] in H.
  all: apply elem_of_cons in H as [[= ->]|H]; [done|]; exfalso; apply par_shape in E as [[-> _]|(ts & _ & [(_ & -> & _)|(_ & -> & _)])].
  all: repeat (apply elem_of_cons in H as [?|H]; [done|]); by apply elem_of_nil in H.
Qed.
Lemma opens_driver M fuel p wd argv m a st d : driver M fuel p wd argv = Some (a, st) -> (forall cache, k_cache M = Some cache -> driver_main cache argv = Some m) ->
  OpenDB d ∈ a -> d = at_wd wd (m_fabdir m).
Proof.
  unfold driver, done. intros H Hm. revert H. destruct (k_cache M) as [cache|]; [|intros [= <- <-]; set_solver]. rewrite (Hm cache) by done.
  destruct (register_all _ _) as [s0 []]; [|intros [= <- <-]; set_solver].
  destruct (read_top _ _ _ _ _ _) as [s []|s [|]|]; [| |intros [= <- <-]; set_solver|done].
  all: destruct (k_db M _) as [db|]; [|intros [= <- <-]; set_solver].
  all: destruct (m_list m); [intros [= <- <-]; set_solver|].
  all: case_decide; [intros [= <- <-]; set_solver|].
  all: destruct (parse_and_run _ _ _ _ _ _) as [x n] eqn:E; intros [= <- <-] H'.
  all: apply elem_of_cons in H' as [[= ->]|H']; [done|]; exfalso; apply par_shape in E as [[-> _]|(ts & _ & [(_ & -> & _)|(_ & -> & _)])].
  all: repeat (apply elem_of_cons in H' as [?|H']; [done|]); by apply elem_of_nil in H'.
Qed.
Lemma opens_lem M fuel m top a st d : in_project M m top -> not_flag_first (m_args m) -> Main_Run M fuel m = Some (a, st) -> OpenDB d ∈ a ->
  (no_package M top /\ d = at_wd (k_cwd M) (m_fabdir m)) \/
  (exists path p, has_package M top path p /\ d = at_wd (at_wd (k_cwd M) top) (m_fabdir m)).
Proof.
  intros Hp Hn. destruct (main_cases M fuel m top Hp) as [[Hnp ->]|[[_ ->]|(path & p & Hpk & ->)]].
  - intros H Hin. left. split; [done|]. by apply (opens_driverless M fuel (set_top m top) a st d).
  - intros [= <- <-]. set_solver.
  - cbv zeta. case_decide; [|intros [= <- <-]; destruct (m_verbose m); set_solver].
    destruct (driver M fuel p _ _) as [[b n]|] eqn:Ed; [|done]. intros H' Hin. right. exists path, p. split; [done|].
    apply (opens_driver M fuel p _ _ (set_top m top) b n d Ed); [intros c _; by apply flags_lem|].
    destruct n; injection H' as <- <-; [apply elem_of_app in Hin as [Hin|Hin]|rewrite !elem_of_app in Hin; destruct Hin as [Hin|[Hin|Hin]]]; try done;
      exfalso; destruct (m_verbose m); set_solver.
Qed.

(** ** fab does run what can be run. *)
Lemma runs_par M wd top s c args ts : asked (y_reg s) args ts -> ~ empty_second args ->
  exists st, parse_and_run M wd top s c args = (let r := {| r_wd := wd; r_top := top; r_objs := y_objs s; r_reg := y_reg s; r_ctx := c; r_targets := ts |} in
    if k_run M r then [Run r] else [Run r; Complain], st).
Proof. intros Ha He. unfold parse_and_run. rewrite (asked_inv _ _ _ Ha He). cbv zeta. destruct (k_run M _); by eexists. Qed.
Lemma register_all_total ts : Forall (fun t => t.2 <> None) ts -> forall s, exists s', register_all ts s = (s', true).
Proof.
  induction 1 as [|[[n d] [o|]] ts H _ IH]; intros s; simpl; [by eexists|apply IH|done].
Qed.
Lemma runs_lem M fuel m top T wd s0 s ts : in_project M m top -> not_flag_first (m_args m) -> k_cache M <> None ->
  reader M top T wd s0 -> read_ok M T fuel wd top s0 s -> m_list m = false -> k_db M (at_wd wd (m_fabdir m)) <> None ->
  asked (y_reg s) (m_args m) ts -> ~ empty_second (m_args m) ->
  (no_package M top \/ exists path p, has_package M top path p /\ m_args m <> [] /\ Forall (fun t => t.2 <> None) (p_targets p) /\
     at_wd wd (Join [m_fabdir m; path; "fab.bin"]) = at_wd (k_cwd M) (Join [m_fabdir m; path; "fab.bin"])) ->
  exists a st r, Main_Run M fuel m = Some (a, st) /\ requests a = [r] /\ r_objs r = y_objs s /\ r_reg r = y_reg s /\ r_targets r = ts.
Proof.
  intros Hp Hn Hc Hr Hok Hl Hdb Ha He Hor. rewrite (main_eq M fuel m top Hp).
  destruct Hr as [(Hnp & -> & -> & ->)|(path & p & [H1 H2] & -> & -> & Hg)].
  - assert (E : exists a st r, driverless M fuel (set_top m top) = Some (a, st) /\ requests a = [r] /\ r_objs r = y_objs s /\ r_reg r = y_reg s /\ r_targets r = ts).
    2:{ destruct Hnp as [E'|E']; [by rewrite E'|]. rewrite E'. by destruct (k_fs M _). }
    unfold driverless, done. cbn [m_topdir m_list m_fabdir m_args set_top m_verbose m_force m_dryrun].
    destruct Hok as [Er|Er]; rewrite Er, Hl; destruct (k_db M _) as [db|]; try done.
    all: destruct (runs_par M (k_cwd M) top s (WithHashDB (WithDryRun (WithForce (WithVerbose Background (m_verbose m)) (m_force m)) (m_dryrun m)) (Some db)) (m_args m) ts Ha He) as [st E].
    all: rewrite E; clear E; cbv zeta; destruct (k_run M _); eexists _, _, _; (split; [reflexivity|]); rewrite !requests_app, requests_note; done.
  - destruct Hor as [[E|E]|(path' & p' & [_ E] & Hargs & Hts & Hbin)]; [done|congruence|]. rewrite H2 in E. injection E as <- <-.
    rewrite H2. set (wd := at_wd (k_cwd M) top) in *.
    assert (E : exists a st r, driver M fuel p wd (driver_args (set_top m top)) = Some (a, st) /\ requests a = [r] /\ r_objs r = y_objs s /\ r_reg r = y_reg s /\ r_targets r = ts).
    { unfold driver, done. destruct (k_cache M) as [cache|]; [|done]. rewrite (flags_lem cache (set_top m top)) by done.
      destruct (register_all_total _ Hts {| y_objs := p_objs p; y_reg := ∅ |}) as [s1 E0]. rewrite E0. apply go_targets_ok in E0.
      assert (s1 = s0) as -> by (by eapply go_targets_fun).
      cbn [m_topdir m_list m_fabdir m_args set_top m_verbose m_force m_dryrun].
      destruct Hok as [Er|Er]; rewrite Er, Hl; destruct (k_db M _) as [db|]; try done; rewrite decide_False by done.
      all: destruct (runs_par M wd top s (WithHashDB (WithDryRun (WithForce (WithVerbose Background (m_verbose m)) (m_force m)) (m_dryrun m)) (Some db)) (m_args m) ts Ha He) as [st E].
      all: rewrite E; clear E; cbv zeta; destruct (k_run M _); eexists _, _, _; (split; [reflexivity|]); done. }
    destruct E as (a & st & r & E & Hreq & Hrest). cbv zeta. rewrite decide_True by done. rewrite E.
    assert (Hgoal : exists a' st' r, match st with 0 => done ((if m_verbose m then [Note] else []) ++ a) 0 | S _ => done ((if m_verbose m then [Note] else []) ++ a ++ [Complain]) 1 end = Some (a', st') /\ requests a' = [r] /\ r_objs r = y_objs s /\ r_reg r = y_reg s /\ r_targets r = ts).
    { destruct st; eexists _, _, r; (split; [reflexivity|]); rewrite !requests_app, requests_note, Hreq; done. }
    destruct (k_fs M _); [done|exact Hgoal..].
Qed.
Lemma lists_lem M fuel m top T wd s0 s : in_project M m top -> not_flag_first (m_args m) -> k_cache M <> None ->
  reader M top T wd s0 -> read_ok M T fuel wd top s0 s -> m_list m = true ->
  (no_package M top \/ exists path p, has_package M top path p /\ Forall (fun t => t.2 <> None) (p_targets p) /\ k_db M (at_wd wd (m_fabdir m)) <> None /\
     at_wd wd (Join [m_fabdir m; path; "fab.bin"]) = at_wd (k_cwd M) (Join [m_fabdir m; path; "fab.bin"])) ->
  exists a, Main_Run M fuel m = Some (a, 0).
Proof.
  intros Hp Hn Hc Hr Hok Hl Hor. rewrite (main_eq M fuel m top Hp).
  destruct Hr as [(Hnp & -> & -> & ->)|(path & p & [H1 H2] & -> & -> & Hg)].
  - assert (E : exists a, driverless M fuel (set_top m top) = Some (a, 0)).
    2:{ destruct Hnp as [E'|E']; [by rewrite E'|]. rewrite E'. by destruct (k_fs M _). }
    unfold driverless, done. cbn [m_topdir m_list m_fabdir m_args set_top m_verbose m_force m_dryrun].
    destruct Hok as [Er|Er]; rewrite Er, Hl; by eexists.
  - destruct Hor as [[E|E]|(path' & p' & [_ E] & Hts & Hdb & Hbin)]; [done|congruence|]. rewrite H2 in E. injection E as <- <-.
    rewrite H2. set (wd := at_wd (k_cwd M) top) in *.
    assert (E : exists a, driver M fuel p wd (driver_args (set_top m top)) = Some (a, 0)).
    { unfold driver, done. destruct (k_cache M) as [cache|]; [|done]. rewrite (flags_lem cache (set_top m top)) by done.
      destruct (register_all_total _ Hts {| y_objs := p_objs p; y_reg := ∅ |}) as [s1 E0]. rewrite E0. apply go_targets_ok in E0.
      assert (s1 = s0) as -> by (by eapply go_targets_fun).
      cbn [m_topdir m_list m_fabdir m_args set_top m_verbose m_force m_dryrun].
      destruct Hok as [Er|Er]; rewrite Er, Hl; destruct (k_db M _) as [db|]; try done; by eexists. }
    destruct E as (a & E). cbv zeta. rewrite decide_True by done. rewrite E. destruct (k_fs M _); [done|by eexists..].
Qed.

(** ** Paths. *)
Lemma abs_clean_inj d d' : IsAbs d = true -> clean d -> IsAbs d' = true -> clean d' -> cd [] d = cd [] d' -> d = d'.
Proof. intros Ha Hc Ha' Hc' E. unfold clean in *. rewrite <-Hc, <-Hc'. by rewrite !Clean_abs, E. Qed.
Lemma at_wd_place wd p d : IsAbs wd = true -> d = at_wd wd p <-> place wd p d.
Proof.
  intros Hw. assert (Hp : place wd p (at_wd wd p)).
  { unfold at_wd, place. destruct (IsAbs p) eqn:Hp.
    - rewrite IsAbs_Clean. split; [done|]. split; [apply Clean_idem|]. rewrite cd_Clean. by apply cd_abs.
    - assert (Hne : wd <> "") by (by intros ->). split; [by rewrite Join_abs, decide_False|]. split.
      + destruct (Join_clean [wd; p]) as [E|E]; [|done]. apply Join_nil in E. inversion E. congruence.
      + by rewrite cd_Join by (by repeat constructor). }
  split; [by intros ->|]. intros (H1 & H2 & H3). destruct Hp as (H1' & H2' & H3'). apply abs_clean_inj; [done..|]. by rewrite H3, H3'.
Qed.
Lemma at_wd_abs wd p : IsAbs wd = true -> IsAbs (at_wd wd p) = true.
Proof. intros Hw. by apply (proj1 (at_wd_place wd p _ Hw) eq_refl). Qed.
Lemma faithful_of M m top wd a r : IsAbs wd = true -> faithful0 M m top wd a r -> faithful M m top wd a r.
Proof.
  intros Hw (H1 & H2 & H3 & H4 & (db & H5 & H6 & H7) & H8). do 4 (split; [done|]). split; [|done].
  exists (at_wd wd (m_fabdir m)), db. split; [by apply at_wd_place|done].
Qed.

(** ** Project files that are there but wrong, or complete. *)
Lemma bad_file_lem M m top T wd s0 : in_project M m top -> IsAbs top = true -> clean top -> not_flag_first (m_args m) -> reader M top T wd s0 ->
  openFabYAML (fun p => k_fs M (at_wd wd p)) top <> OpenNotExist ->
  (forall e, tag_ne_list T e = false) -> (forall t n dir, tag_ne_leaf T t n dir = false) ->
  (forall doc ps, k_docs M wd top = Some doc -> has_entries doc ps ->
     (forall k v q, (k, v) ∈ ps -> target_key k -> refers top "" v q -> ~ far q) /\
     ~ (entries_ok "" ps /\ forall k v, (k, v) ∈ ps -> target_key k -> decodable top (tag_lists T) (tag_leaf T) (k_bool M) "" v)) ->
  exists N, forall fuel, N <= fuel -> exists a st, Main_Run M fuel m = Some (a, st) /\ st <> 0 /\ requests a = [] /\ printed a = "".
Proof.
  intros Hp Ha Hc Hn Hr Hex Hl Hlf Hbad.
  assert (HN : exists N, forall fuel, N <= fuel -> exists s, read_top M T fuel wd top s0 = RErr s false).
  { destruct (k_docs M wd top) as [doc|] eqn:Hd.
    - destruct (document_exactly top (tag_lists T) (tag_leaf T) (k_bool M) (k_docs M wd) (k_ne M wd T) doc "") as [N HN].
      { intros ps k v q Hps. by apply (proj1 (Hbad doc ps eq_refl Hps)). }
      exists N. intros fuel Hf. specialize (HN fuel s0 Hf). cbv zeta in HN.
      pose proof (local_quiet top (tag_lists T) (tag_leaf T) (k_bool M) (k_docs M wd) (k_ne M wd T) fuel doc "" s0 Hl Hlf (fun ps k v q Hps => proj1 (Hbad doc ps eq_refl Hps) k v q)) as Hq.
      rewrite (read_top_eq M T fuel wd top s0 doc) by done.
      destruct (ReadYAML _ _ _ _) as [s []|s [|]|]; [|by destruct (Hq s)|by eexists|done].
      destruct HN as (ps & Hps & Hv & _). by destruct (proj2 (Hbad doc ps eq_refl Hps)).
    - exists 0. intros fuel _. exists s0. unfold read_top, ReadYAMLFile. rewrite Join_top by done. rewrite Hd. cbn [ne_file k_ne]. by destruct (openFabYAML _ _). }
  destruct HN as [N HN]. exists N. intros fuel Hf. destruct (HN fuel Hf) as [s Er].
  destruct (Main_Run M fuel m) as [[a st]|] eqn:Em.
  2:{ exfalso. eapply (main_ends M fuel m top); try done. intros T' wd' s0' Hr'. destruct (reader_fun _ _ _ _ _ _ _ _ Hr Hr') as (<- & <- & <-). by rewrite Er. }
  exists a, st. split; [done|]. by eapply broken_lem.
Qed.
Lemma complete_lem M fuel m top T wd s0 a st r : in_project M m top -> IsAbs top = true -> clean top -> not_flag_first (m_args m) -> reader M top T wd s0 ->
  openFabYAML (fun p => k_fs M (at_wd wd p)) top <> OpenNotExist ->
  (forall e, tag_ne_list T e = false) -> (forall t n dir, tag_ne_leaf T t n dir = false) ->
  (forall dir q k v q', defines top (k_docs M wd) dir q k v -> refers top dir v q' -> far q' -> openFabYAML (fun p => k_fs M (at_wd wd p)) (Join [top; Dir q']) <> OpenNotExist) ->
  Main_Run M fuel m = Some (a, st) -> r ∈ requests a ->
  exists doc ps, k_docs M wd top = Some doc /\ has_entries doc ps /\ entries_ok "" ps /\
    forall k v, (k, v) ∈ ps -> target_key k -> is_Some (r_reg r !! reg_name "" (n_value k)).
Proof.
  intros Hp Ha Hc Hn Hr Hex Hl Hlf Hfar Hm Hin.
  destruct (main_request M fuel m top a st r Hp Hn Hm Hin) as (_ & T' & wd' & s0' & s & Hr' & _ & Hok & _ & ->).
  destruct (reader_fun _ _ _ _ _ _ _ _ Hr Hr') as (<- & <- & <-).
  destruct Hok as [E|E].
  - unfold read_top in E. apply (read_success top) in E as (doc & dir & ps & Hd & Hdir & Hps & Hok & Hall).
    rewrite Join_top in Hd by done. rewrite file_dir_top in Hdir by done. injection Hdir as <-.
    exists doc, ps. split; [done|]. split; [done|]. split; [done|]. intros k v Hkv Hkey.
    destruct (Hall k v Hkv Hkey) as (dir' & k' & v' & o & _ & E' & _). rewrite E'. by eexists.
  - exfalso. unfold read_top in E. eapply (file_quiet top (tag_lists T) (tag_leaf T) (k_bool M) (k_docs M wd) (k_ne M wd T)); [exact Hl|exact Hlf| | |exact E].
    + intros D doc dir ps k v q H1 H2 H3 H4 H5 H6 H7. cbn [ne_file k_ne].
      assert (Hx : openFabYAML (fun p => k_fs M (at_wd wd p)) (Join [top; Dir q]) <> OpenNotExist).
      { eapply Hfar; [|done|done]. exists D, doc, ps. done. }
      by destruct (openFabYAML _ (Join [top; Dir q])).
    + rewrite Join_top by done. cbn [ne_file k_ne]. by destruct (openFabYAML _ top).
Qed.
