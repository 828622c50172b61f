(** With and without a driver. *)
From stdpp Require Import base gmap list strings.
From Coq Require Import Ascii.
From Verif Require Import StrOrd PathModel PathSpec PathProofs PathProofs2 PathProofs3 TopDirModel TopDirSpec TopDirProofs DriverModel DriverSpec DriverProofs4
  YamlModel ContextModel RegistryModel RegistrySpec RegistryProofs MainModel MainSpec MainProofs MainProofs2.
Local Open Scope list_scope.

(** Reading YAML depends on the files only through the paths from the top directory. *)
Section ext.
  Context (top : string) (fns : list_fns) (leaf : string -> option (node -> string -> bool)) (ybool : node -> option bool).
  Context (docs docs' : string -> option node) (ne ne' : notexist).
  Hypothesis (Hdocs : forall dir, docs (Join [top; dir]) = docs' (Join [top; dir])).
  Hypothesis (Hfile : forall dir, ne_file ne (Join [top; dir]) = ne_file ne' (Join [top; dir])).
  Hypothesis (Hlist : forall e, ne_list ne e = ne_list ne' e) (Hleaf : forall t n dir, ne_leaf ne t n dir = ne_leaf ne' t n dir).
  Lemma bind_ext {A B} (r r' : res A) (f f' : ystate -> A -> res B) : r = r' -> (forall s a, f s a = f' s a) -> bind r f = bind r' f'.
  Proof. intros -> H. destruct r'; simpl; [apply H|done|done]. Qed.
  Lemma lift_ext {A} r s (f f' : list string -> res A) : (forall l, f l = f' l) -> lift ne r s f = lift ne' r s f'.
  Proof. intros H. destruct r as [l|[]]; simpl; [apply H|done|done|by rewrite Hlist]. Qed.
  Lemma map_targets_ext yt yt' ns dir : (forall n d s, yt n d s = yt' n d s) -> forall s, map_targets yt ns dir s = map_targets yt' ns dir s.
  Proof. intros H. induction ns as [|n ns IH]; intros s; simpl; [done|]. apply bind_ext; [apply H|]. intros s1 o. by rewrite IH. Qed.
  Lemma decode_tag_ext yt yt' tag n dir s : (forall n d s, yt n d s = yt' n d s) ->
    decode_tag top fns leaf ybool ne yt tag n dir s = decode_tag top fns leaf ybool ne' yt' tag n dir s.
  Proof.
    intros H. unfold decode_tag.
    case_decide; [case_decide; [done|]; apply bind_ext; [by apply map_targets_ext|done]|].
    case_decide; [case_decide; [done|]; apply bind_ext; [by apply map_targets_ext|done]|].
    case_decide.
    { destruct (n_kind n); try done.
      - destruct (n_content n); [done|]. apply bind_ext; [apply H|]. intros. apply bind_ext; [by apply map_targets_ext|done].
      - destruct (decode_struct n); [|done]. destruct (seq_field _); [|done]. apply bind_ext; [apply H|]. intros. apply bind_ext; [by apply map_targets_ext|done]. }
    case_decide.
    { case_decide; [done|]. destruct (n_content n); [done|]. apply bind_ext; [apply H|]. intros. by apply lift_ext. }
    case_decide.
    { case_decide; [done|]. destruct (decode_struct n); [|done]. destruct (bool_field _ _); [|done]. apply bind_ext; [apply H|]. intros.
      apply lift_ext. intros. by apply lift_ext. }
    destruct (leaf tag); [|done]. by rewrite Hleaf.
  Qed.
  Lemma entries_ext yt yt' dir ps : (forall n d s, yt n d s = yt' n d s) -> forall saw s, entries_loop yt dir ps saw s = entries_loop yt' dir ps saw s.
  Proof.
    intros H. induction ps as [|[k v] ps IH]; intros saw s; simpl; [done|]. case_decide; [done|]. case_decide; [case_decide; [done|]; case_decide; [done|]; apply IH|].
    destruct (has_slash _); [done|]. apply bind_ext; [apply H|]. intros. apply IH.
  Qed.
  Lemma read_ext yt yt' dir s : (forall n d s, yt n d s = yt' n d s) -> ReadYAMLFile top docs ne yt dir s = ReadYAMLFile top docs' ne' yt' dir s.
  Proof.
    intros H. unfold ReadYAMLFile. rewrite Hdocs, Hfile. destruct (docs' _) as [doc|]; [|done]. destruct (file_dir top dir); [|done].
    unfold ReadYAML. case_decide; [done|]. destruct (n_content doc) as [|m [|]]; [done| |done]. case_decide; [done|]. destruct (pairs _); [|done]. by apply entries_ext.
  Qed.
  Lemma target_ext fuel : forall n dir s, YAMLTarget top fns leaf ybool docs ne fuel n dir s = YAMLTarget top fns leaf ybool docs' ne' fuel n dir s.
  Proof.
    induction fuel as [|fuel IH]; intros n dir s; simpl; [done|]. case_decide; [by apply decode_tag_ext|]. case_decide; [done|]. destruct (has_slash _); [|done].
    destruct (RelPath _ _) as [q|]; [|done]. case_decide; [|done]. destruct (y_reg s !! q) as [[]|]; [done|]. apply bind_ext; [by apply read_ext|done].
  Qed.
End ext.

Lemma read_top_wd M T fuel wd wd' top s : IsAbs top = true -> read_top M T fuel wd top s = read_top M T fuel wd' top s.
Proof.
  intros Ht. unfold read_top. assert (Hj : forall d f, Join [Join [top; d]; f] = Join [Join [top; d]; f] /\ IsAbs (Join [Join [top; d]; f]) = true).
  { intros d f. split; [done|]. assert (top <> "") by (by intros ->). assert (IsAbs (Join [top; d]) = true) by (rewrite Join_abs, decide_False by done; done).
    rewrite Join_abs, decide_False; [done|]. intros E. by rewrite E in *. }
  assert (Ho : forall d, openFabYAML (fun p => k_fs M (at_wd wd p)) (Join [top; d]) = openFabYAML (fun p => k_fs M (at_wd wd' p)) (Join [top; d])).
  { intros d. unfold openFabYAML, open1. by rewrite !(at_abs _ _ (proj2 (Hj d _))). }
  apply read_ext; [intros d; unfold k_docs; by rewrite Ho|intros d; cbn [ne_file k_ne]; by rewrite Ho|].
  intros n d s1. apply target_ext; [intros d'; unfold k_docs; by rewrite Ho|intros d'; cbn [ne_file k_ne]; by rewrite Ho|done|done].
Qed.
Lemma read_top_load M l T fuel wd top s : read_top (with_load M l) T fuel wd top s = read_top M T fuel wd top s.
Proof. done. Qed.

Lemma driver_agrees M fuel m p wd : IsAbs (m_topdir m) = true -> IsAbs (m_fabdir m) = true -> not_flag_first (m_args m) -> m_args m <> [] ->
  (m_list m = true -> k_db M (Clean (m_fabdir m)) <> None) -> k_cache M <> None ->
  p_objs p = [] -> p_targets p = [] -> p_tags p = k_tags M -> (forall r wd, k_run M (elsewhere r wd) = k_run M r) ->
  agree (driverless M fuel m) (driver M fuel p wd (driver_args m)).
Proof.
  intros Ht Hf Hn Ha Hdb Hc Ho Hts HT Hrun. unfold driverless, driver, done. destruct (k_cache M) as [cache|]; [|done]. rewrite (flags_lem cache m) by done.
  rewrite Hts, Ho, HT. cbn [register_all]. rewrite (read_top_wd M (k_tags M) fuel wd (k_cwd M) (m_topdir m)) by done.
  rewrite !(at_abs _ (m_fabdir m)) by done.
  destruct (read_top M (k_tags M) fuel (k_cwd M) (m_topdir m) _) as [s []|s [|]|]; [| |unfold agree; rewrite requests_app, requests_note, printed_app, printed_note; split; [done|split; [done|constructor]]|done].
  all: destruct (m_list m) eqn:El.
  all: destruct (k_db M (Clean (m_fabdir m))) as [db|] eqn:Ed; try (by destruct Hdb).
  all: try (unfold agree; rewrite requests_app, requests_note, printed_app, printed_note; split; [done|split; [done|constructor]]).
  all: rewrite decide_False by done.
  all: unfold parse_and_run; destruct (ParseArgs _ _) as [ts|msg|] eqn:Ep; try (unfold agree; rewrite !requests_app, requests_note, !printed_app, printed_note; split; [done|split; [done|constructor]]).
  all: set (r := {| r_wd := k_cwd M; r_top := m_topdir m; r_objs := _; r_reg := _; r_ctx := _; r_targets := _ |}).
  all: set (r' := {| r_wd := wd; r_top := m_topdir m; r_objs := _; r_reg := _; r_ctx := _; r_targets := _ |}).
  all: assert (E : k_run M r' = k_run M r) by (exact (Hrun r wd)).
  all: rewrite E; destruct (k_run M r); unfold agree; rewrite !requests_app, requests_note, !printed_app, printed_note; (split; [done|split; [done|]]); (constructor; [done|constructor]).
Qed.
Lemma at_wd_bin wd wd' f path : IsAbs f = true -> at_wd wd (Join [f; path; "fab.bin"]) = at_wd wd' (Join [f; path; "fab.bin"]).
Proof.
  intros H. assert (f <> "") by (by intros ->). assert (IsAbs (Join [f; path; "fab.bin"]) = true) by (rewrite Join_abs, decide_False by done; done). by rewrite !at_abs.
Qed.
Lemma modes_lem M fuel m top path p : IsAbs (k_cwd M) = true -> in_project M m top -> IsAbs top = true -> IsAbs (m_fabdir m) = true -> not_flag_first (m_args m) -> m_args m <> [] ->
  (m_list m = true -> k_db M (Clean (m_fabdir m)) <> None) -> k_cache M <> None ->
  p_objs p = [] -> p_targets p = [] -> p_tags p = k_tags M -> (forall r wd, k_run M (elsewhere r wd) = k_run M r) ->
  agree (Main_Run (with_load M NoPackage) fuel m) (Main_Run (with_load M (Package path p)) fuel m).
Proof.
  intros Hcwd Hp Ht Hf Hn Ha Hdb Hc Ho Hts HT Hrun.
  rewrite (main_eq (with_load M NoPackage) fuel m top) by done. rewrite (main_eq (with_load M (Package path p)) fuel m top) by done. cbn [k_fs k_cwd k_load with_load].
  assert (Hdl : forall l, driverless (with_load M l) fuel (set_top m top) = driverless M fuel (set_top m top)) by done.
  assert (Hdr : forall l wd, driver (with_load M l) fuel p wd (driver_args (set_top m top)) = driver M fuel p wd (driver_args (set_top m top))) by done.
  pose proof (driver_agrees M fuel (set_top m top) p (at_wd (k_cwd M) top) Ht Hf Hn Ha Hdb Hc Ho Hts HT Hrun) as Hag.
  rewrite decide_True by (by apply at_wd_bin).
  assert (Hself : forall x, agree x x).
  { intros [[a st]|]; simpl; [|done]. split; [done|split; [done|]]. apply Forall_Forall2_diag, Forall_forall. by intros [] _. }
  assert (Hgoal : agree (driverless M fuel (set_top m top))
    match driver M fuel p (at_wd (k_cwd M) top) (driver_args (set_top m top)) with
    | Some (a, 0) => done ((if m_verbose m then [Note] else []) ++ a) 0
    | Some (a, S _) => done ((if m_verbose m then [Note] else []) ++ a ++ [Complain]) 1
    | None => None
    end).
  { destruct (driver M fuel p _ _) as [[b n]|]; [|done]. destruct (driverless M fuel _) as [[a st]|]; [|destruct n; done].
    unfold agree in Hag. destruct Hag as (Hst & Hpr & Hrq). destruct n; unfold done, agree.
    - rewrite requests_app, requests_note, printed_app, printed_note. by split; [|split].
    - rewrite !requests_app, requests_note, !printed_app, printed_note. split; [rewrite Hst; done|]. split; [simpl; by rewrite sapp_nil|]. simpl. by rewrite app_nil_r. }
  destruct (k_fs M _); [apply Hself|exact Hgoal..].
Qed.
