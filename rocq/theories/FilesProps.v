(** Properties C14-C20 (and the ordering part of C23) of Files targets.  Vocabulary:
    FilesSpec.v.  A history is the list of everything observable that happened: runs
    starting, hashes taken, look-ups, subtargets starting and ending, additions, returns,
    edits, evictions, in any interleaving and with runs abandoned anywhere (crashes).

    Assumptions about hashing, as premises: SHA-224 of a document does not collide ([H]
    injective), nor does the hash of file contents, and the latter is never the empty
    string. *)
From stdpp Require Import base gmap list sorting strings.
From Verif Require Import PathModel FileHashModel FileHashSpec FileHashProofs FilesModel FilesSpec FilesProofs FilesProofs2 FilesProofs3 FilesProofs4 FilesProofs5 FilesProofs6 FilesProofs7 FilesProofs8 FilesProofs9 FilesProofs10 FilesProofs11.
Local Open Scope list_scope.

(** ** C14 *)
Theorem C14_skip_only_in_recorded_state hashf H R fs0 tr a i b :
  Inj (=) (=) hashf -> (forall c, hashf c <> "") -> Inj (=) (=) H ->
  history hashf H R fs0 tr -> tr = a ++ LRet i RNil :: b -> LSubStart i ∉ a ->
  exists r fl h a1 a2 a3,
    a = a1 ++ LHash i Before (files_after fs0 a1) r (HOk h) :: a2 ++ LHas i h (Some true) :: a3 /\
    LStart i r fl ∈ a1 /\
    exists j fs' r',
      success_recorded R fs0 (a1 ++ LHash i Before (files_after fs0 a1) r (HOk h) :: a2) j fs' r' h /\
      same_state (files_after fs0 a1) r fs' r'.
Proof. exact (fun Hh Hne HH => skip_up_to_date hashf H R fs0 Hh Hne HH tr a i b). Qed.
Print Assumptions C14_skip_only_in_recorded_state.

(** ** C15 *)
Theorem C15_changed_state_rebuilds hashf H R fs0 tr a i b :
  Inj (=) (=) hashf -> (forall c, hashf c <> "") -> Inj (=) (=) H ->
  history hashf H R fs0 tr -> tr = a ++ LRet i RNil :: b ->
  (forall a1 r h a2 j fs' r', a = a1 ++ LHash i Before (files_after fs0 a1) r (HOk h) :: a2 ->
     success_recorded R fs0 a j fs' r' h -> ~ same_state (files_after fs0 a1) r fs' r') ->
  LSubEnd i None ∈ a.
Proof. exact (fun Hh Hne HH => changed_runs hashf H R fs0 Hh Hne HH tr a i b). Qed.
Print Assumptions C15_changed_state_rebuilds.

(** For one file: if an input or output file [q] now has a content that it had in no
    recorded state, the subtarget runs. *)
Lemma one_file_changed hashf H R fs0 tr a i b :
  Inj (=) (=) hashf -> (forall c, hashf c <> "") -> Inj (=) (=) H ->
  history hashf H R fs0 tr -> tr = a ++ LRet i RNil :: b ->
  forall q e, (e = FMissing \/ exists c, e = FFile (Some c)) ->
  (forall a1 r h a2, a = a1 ++ LHash i Before (files_after fs0 a1) r (HOk h) :: a2 ->
     files_after fs0 a1 q = e /\ covered (files_after fs0 a1) (r_in r) q \/
     files_after fs0 a1 q = e /\ covered (files_after fs0 a1) (r_out r) q) ->
  (forall j fs' r' h, success_recorded R fs0 a j fs' r' h -> fs' q <> e) ->
  LSubEnd i None ∈ a.
Proof.
  intros Hh Hne HH Ht Htr q e He Hnow Hrec. eapply changed_runs; try done.
  intros a1 r h a2 j fs' r' Ha Hsr (_ & Hin & Hout). destruct (Hnow _ _ _ _ Ha) as [[Hq Hc]|[Hq Hc]].
  - apply (Hrec _ _ _ _ Hsr). by destruct (proj1 (Hin q e He) (conj Hc Hq)).
  - apply (Hrec _ _ _ _ Hsr). by destruct (proj1 (Hout q e He) (conj Hc Hq)).
Qed.
Theorem C15_one_changed_file_rebuilds hashf H R fs0 tr a i b :
  Inj (=) (=) hashf -> (forall c, hashf c <> "") -> Inj (=) (=) H ->
  history hashf H R fs0 tr -> tr = a ++ LRet i RNil :: b ->
  forall q e, (e = FMissing \/ exists c, e = FFile (Some c)) ->
  (forall a1 r h a2, a = a1 ++ LHash i Before (files_after fs0 a1) r (HOk h) :: a2 ->
     files_after fs0 a1 q = e /\ covered (files_after fs0 a1) (r_in r) q \/
     files_after fs0 a1 q = e /\ covered (files_after fs0 a1) (r_out r) q) ->
  (forall j fs' r' h, success_recorded R fs0 a j fs' r' h -> fs' q <> e) ->
  LSubEnd i None ∈ a.
Proof. exact (one_file_changed hashf H R fs0 tr a i b). Qed.
Print Assumptions C15_one_changed_file_rebuilds.

(** ** C16.  No assumption on hashing is needed. *)
Theorem C16_up_to_date_not_rebuilt hashf H R fs0 tr k1 j h ok k2 i fs r res k3 fs' r' :
  history hashf H R fs0 tr ->
  tr = k1 ++ LAdd j h true ok :: k2 ++ LHash i Before fs r res :: k3 ->
  LEvict h ∉ k2 -> LEvict h ∉ k3 ->
  LHash j After fs' r' (HOk h) ∈ k1 ->
  unchanged fs' fs (r_in r' ++ r_out r') ->
  r_in r = r_in r' -> r_out r = r_out r' -> same_description (r_tgt r) (r_tgt r') ->
  res = HOk h /\ LSubStart i ∉ tr /\ (forall h' ap ok', LAdd i h' ap ok' ∉ tr) /\
  (forall h' b, LHas i h' b ∈ tr -> h' = h /\ b <> Some false) /\
  (forall x, LRet i x ∈ tr -> x = RNil \/ (x = RErr EHas /\ LHas i h None ∈ tr)).
Proof. exact (up_to_date_lem hashf H R fs0 tr k1 j h ok k2 i fs r res k3 fs' r'). Qed.
Print Assumptions C16_up_to_date_not_rebuilt.

(** The same rule, without unresolved references ([ran] leaves it alone). *)
Theorem C16_same_rule_not_rebuilt hashf H R fs0 tr k1 j h ok k2 i fs r res k3 fs' r' fl fl' :
  history hashf H R fs0 tr ->
  tr = k1 ++ LAdd j h true ok :: k2 ++ LHash i Before fs r res :: k3 -> LEvict h ∉ k2 -> LEvict h ∉ k3 ->
  LHash j After fs' r' (HOk h) ∈ k1 ->
  LStart j r fl ∈ tr -> LStart i r fl' ∈ tr -> ran R (r_tgt r) = Some (r_tgt r) ->
  unchanged fs' fs (r_in r ++ r_out r) ->
  res = HOk h /\ LSubStart i ∉ tr /\ (forall h' ap ok', LAdd i h' ap ok' ∉ tr) /\
  (forall x, LRet i x ∈ tr -> x = RNil \/ (x = RErr EHas /\ LHas i h None ∈ tr)).
Proof. exact (same_rule_not_rebuilt hashf H R fs0 tr k1 j h ok k2 i fs r res k3 fs' r' fl fl'). Qed.
Print Assumptions C16_same_rule_not_rebuilt.

(** Such a run can complete at once, and with success; and no run is ever stuck. *)
Theorem C16_skip_completes hashf H R fs0 tr i fs r h :
  history hashf H R fs0 (tr ++ [LHash i Before fs r (HOk h)]) -> recorded tr h ->
  history hashf H R fs0 (tr ++ [LHash i Before fs r (HOk h); LHas i h (Some true); LRet i RNil]).
Proof. exact (finish_skip hashf H R fs0 tr i fs r h). Qed.
Print Assumptions C16_skip_completes.

Theorem C16_never_stuck hashf H R fs0 tr i r fl :
  history hashf H R fs0 tr -> LStart i r fl ∈ tr -> (forall x, LRet i x ∉ tr) ->
  (forall p, p ∈ r_in r \/ p ∈ r_out r -> finite (files_after fs0 tr) p) ->
  exists ev, of_run i ev = true /\ history hashf H R fs0 (tr ++ [ev]).
Proof. exact (progress_lem hashf H R fs0 tr i r fl). Qed.
Print Assumptions C16_never_stuck.

(** ** C17 is false: when the subtarget of a rule is a reference by name, freshly read from
    YAML in each process, then no run is ever skipped, whatever happens (the recorded
    description contains the resolved target, the one looked up does not). *)
Theorem C17_named_subtarget_never_skipped_refuted hashf H R fs0 tr r n t :
  Inj (=) (=) hashf -> (forall c, hashf c <> "") -> Inj (=) (=) H ->
  history hashf H R fs0 tr -> r_tgt r = TDeferred n None -> R n = Some t -> enc t <> Some JNull ->
  (forall i r' fl, LStart i r' fl ∈ tr -> r' = r) ->
  forall i h, LHas i h (Some true) ∉ tr.
Proof. exact (fun Hh Hne HH => deferred_never hashf H R fs0 Hh Hne HH tr r n t). Qed.
Print Assumptions C17_named_subtarget_never_skipped_refuted.

(** The part that holds: if the reference has already been resolved (by an earlier run in the
    same process) when the files are hashed, a recorded state is recognised. *)
Theorem C17_resolved_reference_skipped_partial hashf H R fs0 tr k1 j h ok k2 i fs r res k3 fs' r' rj fl n t :
  history hashf H R fs0 tr ->
  tr = k1 ++ LAdd j h true ok :: k2 ++ LHash i Before fs r res :: k3 -> LEvict h ∉ k2 -> LEvict h ∉ k3 ->
  LHash j After fs' r' (HOk h) ∈ k1 -> LStart j rj fl ∈ tr ->
  r_tgt rj = TDeferred n None -> R n = Some t -> r_tgt r = TDeferred n (Some t) ->
  r_in r = r_in rj -> r_out r = r_out rj -> unchanged fs' fs (r_in r ++ r_out r) ->
  res = HOk h /\ LSubStart i ∉ tr /\ (forall h' ap ok', LAdd i h' ap ok' ∉ tr) /\
  (forall x, LRet i x ∈ tr -> x = RNil \/ (x = RErr EHas /\ LHas i h None ∈ tr)).
Proof. exact (resolved_lem hashf H R fs0 tr k1 j h ok k2 i fs r res k3 fs' r' rj fl n t). Qed.
Print Assumptions C17_resolved_reference_skipped_partial.

(** A concrete history with two complete runs, both of which build although nothing changes. *)
Definition sh (s : string) : command :=
  {| c_shell := s; c_cmd := ""; c_args := []; c_stdout_file := ""; c_stderr_file := ""; c_stdin_file := ""; c_dir := ""; c_env := [] |}.
Definition ex_fs (i : string) (o : option string) : files_state := fun p =>
  if decide (p = "in") then FFile (Some i)
  else if decide (p = "out") then match o with Some c => FFile (Some c) | None => FMissing end
  else FMissing.
Definition ex_rule (t : tgt) : rule := {| r_tgt := t; r_in := ["in"]; r_out := ["out"] |}.
Definition ex_doc (hashf : string -> string) (j : json) (ty i : string) (o : option string) : json :=
  document j ty ["in"; hashf i] ["out"; match o with Some c => hashf c | None => "" end].
Lemma ex_hash hashf H t j ty i o : enc t = Some j -> type_string t = Some ty ->
  computeHash hashf H 1 (ex_fs i o) (ex_rule t) = HOk (H (ex_doc hashf j ty i o)).
Proof.
  intros He Ht. unfold computeHash, ex_rule. cbn [r_in r_out r_tgt]. rewrite He, Ht.
  assert (E1 : fileHashes hashf 1 (ex_fs i o) ["in"] = HOk ["in"; hashf i]) by (vm_compute; reflexivity).
  assert (E2 : fileHashes hashf 1 (ex_fs i o) ["out"] = HOk ["out"; match o with Some c => hashf c | None => "" end])
    by (destruct o; vm_compute; reflexivity).
  by rewrite E1, E2.
Qed.

Lemma ra_building' hashf H R fs0 fs db k l s r t fs1 fs2 f1 f2 h h' : RA hashf H R fs0 fs db k l s ->
  computeHash hashf H f1 fs r = HOk h ->
  ran R (r_tgt r) = Some t -> computeHash hashf H f2 fs2 {| r_tgt := t; r_in := r_in r; r_out := r_out r |} = HOk h' -> h ∉ db ->
  exists s', RA hashf H R fs0 fs2 ({[h']} ∪ db) (S k) (l ++ building_run k r {| r_tgt := t; r_in := r_in r; r_out := r_out r |} fs fs1 fs2 h h') s'.
Proof. intros. by eapply ra_building. Qed.
Example C17_two_builds hashf H (HH : Inj (=) (=) H) :
  let t := TCmd (sh "make") in
  let R := fun n => if decide (n = "Build") then Some t else None in
  let r := ex_rule (TDeferred "Build" None) in
  let r' := ex_rule (TDeferred "Build" (Some t)) in
  let fs := ex_fs "1" (Some "1") in
  exists h h', history hashf H R fs (building_run 0 r r' fs fs fs h h' ++ building_run 1 r r' fs fs fs h h').
Proof.
  intros t R r r' fs.
  assert (E1 := ex_hash hashf H (TDeferred "Build" None) _ _ "1" (Some "1") eq_refl eq_refl).
  assert (E2 := ex_hash hashf H (TDeferred "Build" (Some t)) _ _ "1" (Some "1") eq_refl eq_refl).
  do 2 eexists.
  destruct (ra_building hashf H R fs fs ∅ 0 [] _ r (TDeferred "Build" (Some t)) fs fs 1 1 _ _ (ra_init hashf H R fs) E1 (not_elem_of_empty _) eq_refl E2) as (s1 & Hs1).
  destruct (ra_building' hashf H R fs fs _ 1 _ _ r (TDeferred "Build" (Some t)) fs fs 1 1 _ _ Hs1 E1 eq_refl E2) as (s2 & Hs2).
  { rewrite elem_of_union, elem_of_singleton. intros [E%HH|E]; [|done]. by apply document_inj in E as (? & _). }
  eapply ra_history. exact Hs2.
Qed.

(** One that builds with the name, and one that skips with the resolved name. *)
Example C17_partial_case hashf H :
  let t := TCmd (sh "make") in
  let R := fun n => if decide (n = "Build") then Some t else None in
  let r := ex_rule (TDeferred "Build" None) in
  let r' := ex_rule (TDeferred "Build" (Some t)) in
  let fs := ex_fs "1" (Some "1") in
  exists h h', history hashf H R fs (building_run 0 r r' fs fs fs h h' ++ skipping_run 1 r' fs h').
Proof.
  intros t R r r' fs.
  assert (E1 := ex_hash hashf H (TDeferred "Build" None) _ _ "1" (Some "1") eq_refl eq_refl).
  assert (E2 := ex_hash hashf H (TDeferred "Build" (Some t)) _ _ "1" (Some "1") eq_refl eq_refl).
  do 2 eexists.
  destruct (ra_building hashf H R fs fs ∅ 0 [] _ r (TDeferred "Build" (Some t)) fs fs 1 1 _ _ (ra_init hashf H R fs) E1 (not_elem_of_empty _) eq_refl E2) as (s1 & Hs1).
  destruct (ra_skipping hashf H R fs fs _ 1 _ _ r' 1 _ Hs1 E2 (elem_of_union_l _ _ _ (elem_of_singleton_2 _ _ eq_refl))) as (s2 & Hs2).
  eapply ra_history. exact Hs2.
Qed.

(** ** C18 is false: the description of a Seq (or of Deps, or of an F) does not show what is
    in it, so a changed sequence of commands is skipped. *)
Lemma changed_seq_skipped hashf H R :
  let r1 := ex_rule (TSeq [TCmd (sh "cc -O0 in")]) in
  let r2 := ex_rule (TSeq [TCmd (sh "cc -O2 in"); TCmd (sh "strip out")]) in
  let fs := ex_fs "1" None in let fs' := ex_fs "1" (Some "object code of 1") in
  exists h h', history hashf H R fs (building_run 0 r1 r1 fs fs fs' h h' ++ skipping_run 1 r2 fs' h').
Proof.
  intros r1 r2 fs fs'.
  assert (E1 := ex_hash hashf H (r_tgt r1) _ _ "1" None eq_refl eq_refl).
  assert (E2 := ex_hash hashf H (r_tgt r1) _ _ "1" (Some "object code of 1") eq_refl eq_refl).
  assert (E3 := ex_hash hashf H (r_tgt r2) _ _ "1" (Some "object code of 1") eq_refl eq_refl).
  do 2 eexists.
  destruct (ra_building hashf H R fs fs ∅ 0 [] _ r1 (r_tgt r1) fs fs' 1 1 _ _ (ra_init hashf H R fs) E1 (not_elem_of_empty _) eq_refl E2) as (s1 & Hs1).
  destruct (ra_skipping hashf H R fs fs' _ 1 _ _ r2 1 _ Hs1 E3 (elem_of_union_l _ _ _ (elem_of_singleton_2 _ _ eq_refl))) as (s2 & Hs2).
  eapply ra_history. exact Hs2.
Qed.
Theorem C18_changed_seq_is_skipped_refuted hashf H R :
  let r1 := ex_rule (TSeq [TCmd (sh "cc -O0 in")]) in
  let r2 := ex_rule (TSeq [TCmd (sh "cc -O2 in"); TCmd (sh "strip out")]) in
  let fs := ex_fs "1" None in let fs' := ex_fs "1" (Some "object code of 1") in
  exists h h', history hashf H R fs (building_run 0 r1 r1 fs fs fs' h h' ++ skipping_run 1 r2 fs' h').
Proof. exact (changed_seq_skipped hashf H R). Qed.
Print Assumptions C18_changed_seq_is_skipped_refuted.

(** It holds for targets whose description shows all of their encoded fields.  Missing: Seq,
    Deps, F, user-defined types, nil. *)
Theorem C18_changed_rule_rebuilds_partial hashf H R fs0 tr a i b :
  Inj (=) (=) hashf -> (forall c, hashf c <> "") -> Inj (=) (=) H ->
  history hashf H R fs0 tr -> tr = a ++ LRet i RNil :: b ->
  (forall r fl, LStart i r fl ∈ a -> transparent (r_tgt r)) ->
  (forall j fs' r' h, success_recorded R fs0 a j fs' r' h -> transparent (r_tgt r')) ->
  (forall r fl j fs' r' h, LStart i r fl ∈ a -> success_recorded R fs0 a j fs' r' h -> r_tgt r' <> r_tgt r) ->
  LSubEnd i None ∈ a.
Proof. exact (fun Hh Hne HH => transparent_changed hashf H R fs0 Hh Hne HH tr a i b). Qed.
Print Assumptions C18_changed_rule_rebuilds_partial.
Theorem C18_descriptions_differ_partial t1 t2 :
  transparent t1 -> transparent t2 -> enc t1 = enc t2 -> t1 = t2.
Proof. exact (enc_injective t1 t2). Qed.
Print Assumptions C18_descriptions_differ_partial.

(** ** C19 *)
Lemma of_run_i i ev : of_run i ev = true ->
  match ev with LPrereqs j _ | LHash j _ _ _ _ | LHas j _ _ | LSubStart j | LSubEnd j _ | LAdd j _ _ _ | LRet j _ => i = j | _ => False end.
Proof. destruct ev; simpl; try done; apply bool_decide_eq_true. Qed.
Lemma of_run_true i ev :
  match ev with LPrereqs j _ | LHash j _ _ _ _ | LHas j _ _ | LSubStart j | LSubEnd j _ | LAdd j _ _ _ | LRet j _ => i = j | _ => False end ->
  of_run i ev = true.
Proof. destruct ev; simpl; try done; apply bool_decide_eq_true. Qed.

Section c19.
  Context (hashf : string -> string) (H : json -> hash) (R : string -> option tgt) (fs0 : files_state).
  Notation history := (history hashf H R fs0).
  Lemma c19_records tr a i h ap ok b : history tr -> tr = a ++ LAdd i h ap ok :: b ->
    LSubEnd i None ∈ a /\ exists fs r, LHash i After fs r (HOk h) ∈ a.
  Proof.
    intros Ht Htr. split; [|by eapply add_origin].
    destruct (hist_ev _ _ _ _ tr a i _ b Ht Htr ltac:(simpl; by rewrite bool_decide_true)) as (r1 & fl1 & st1 & _ & Hrep & _).
    destruct (c19_add _ _ _ _ _ _ _ _ _ Hrep eq_refl) as (j & Hj). apply filter_in in Hj as [Hj Ho]. by apply of_run_i in Ho as <-.
  Qed.
  Lemma ex_run tr i ev : history tr -> ev ∈ tr -> of_run i ev = true -> exists r fl st, LStart i r fl ∈ tr /\ replay (Idle (files_run fl)) (filter (of_run i) tr) st.
  Proof.
    intros Ht (a & b & Hab)%elem_of_list_split Ho. destruct (hist_ev _ _ _ _ tr a i _ b Ht Hab Ho) as (r & fl & _ & Hst & _).
    assert (Hst' : LStart i r fl ∈ tr) by (rewrite Hab, elem_of_app; by left).
    destruct (hist_run _ _ _ _ tr i r fl Ht Hst') as [st Hrep]. eauto.
  Qed.
  Ltac tofilter H := eapply in_filter in H; [|eapply of_run_true; reflexivity].
  Lemma c19_subtarget_fails tr i e : history tr -> LSubEnd i (Some e) ∈ tr ->
    (forall h ap ok, LAdd i h ap ok ∉ tr) /\ (forall x, LRet i x ∈ tr -> x = RErr (ESub e)).
  Proof.
    intros Ht He. destruct (ex_run tr i _ Ht He ltac:(by apply of_run_true)) as (r & fl & st & _ & Hrep). tofilter He.
    destruct (c19_sub_fails _ _ _ _ _ Hrep He) as [H1 H2]. split.
    - intros h ap ok Hx. tofilter Hx. by eapply H1.
    - intros x Hx. tofilter Hx. by eapply H2.
  Qed.
  Lemma c19_prerequisite_fails tr i e : history tr -> LPrereqs i (Some e) ∈ tr ->
    (forall ev, ev ∈ tr -> of_run i ev = true -> ev = LPrereqs i (Some e) \/ ev = LRet i (RErr (EPrereq e))).
  Proof.
    intros Ht He ev Hev Ho. destruct (ex_run tr i _ Ht He ltac:(by apply of_run_true)) as (r & fl & st & _ & Hrep). tofilter He.
    destruct (c19_pre_fails _ _ _ _ _ Hrep He ev) as [[j ->]|[j ->]]; [by apply in_filter|..]; apply of_run_i in Ho as <-; auto.
  Qed.
  Lemma c19_dry_run tr i r fl : history tr -> LStart i r fl ∈ tr -> fl_dry fl = true ->
    (forall m fs r res, LHash i m fs r res ∉ tr) /\ (forall h b, LHas i h b ∉ tr) /\ (forall h ap ok, LAdd i h ap ok ∉ tr) /\
    (LRet i RNil ∈ tr -> LSubEnd i None ∈ tr).
  Proof.
    intros Ht Hst Hd. destruct (hist_run _ _ _ _ tr i r fl Ht Hst) as [st Hrep].
    destruct (c19_dry _ _ _ Hrep Hd) as [H1 H2]. repeat split.
    - intros m fs r' res Hx. tofilter Hx. apply H1 in Hx. naive_solver.
    - intros h b Hx. tofilter Hx. apply H1 in Hx. naive_solver.
    - intros h ap ok Hx. tofilter Hx. apply H1 in Hx. naive_solver.
    - intros Hx. tofilter Hx. apply H2 in Hx as (j & Hj). apply filter_in in Hj as [Hj Ho]. by apply of_run_i in Ho as <-.
  Qed.
  Lemma c19_forced tr i r fl : history tr -> LStart i r fl ∈ tr -> fl_force fl = true -> fl_dry fl = false ->
    (forall h b, LHas i h b ∉ tr) /\
    (LRet i RNil ∈ tr -> LSubEnd i None ∈ tr /\ (fl_db fl = true -> exists h, LAdd i h true true ∈ tr)).
  Proof.
    intros Ht Hst Hf Hd. destruct (hist_run _ _ _ _ tr i r fl Ht Hst) as [st Hrep].
    destruct (c19_force _ _ _ Hrep Hf Hd) as [H1 H2]. split.
    - intros h b Hx. tofilter Hx. by eapply H1.
    - intros Hx. tofilter Hx. apply H2 in Hx as [(j & Hj) Hx]. split.
      + apply filter_in in Hj as [Hj Ho]. by apply of_run_i in Ho as <-.
      + intros Hdb. destruct (Hx Hdb) as (j' & h & Hj'). apply filter_in in Hj' as [Hj' Ho]. apply of_run_i in Ho as <-. eauto.
  Qed.
  Lemma c19_no_database tr i r fl : history tr -> LStart i r fl ∈ tr -> fl_db fl = false ->
    (forall m fs r res, LHash i m fs r res ∉ tr) /\ (forall h b, LHas i h b ∉ tr) /\ (forall h ap ok, LAdd i h ap ok ∉ tr) /\
    (LRet i RNil ∈ tr -> LSubEnd i None ∈ tr).
  Proof.
    intros Ht Hst Hd. destruct (hist_run _ _ _ _ tr i r fl Ht Hst) as [st Hrep].
    destruct (c19_nodb _ _ _ Hrep Hd) as (H1 & H2 & H3 & H4). repeat split.
    - intros m fs r' res Hx. tofilter Hx. by eapply H1.
    - intros h b Hx. tofilter Hx. by eapply H2.
    - intros h ap ok Hx. tofilter Hx. by eapply H3.
    - intros Hx. tofilter Hx. apply H4 in Hx as (j & Hj). apply filter_in in Hj as [Hj Ho]. by apply of_run_i in Ho as <-.
  Qed.
  Lemma c19_success_recorded tr i r fl : history tr -> LStart i r fl ∈ tr -> fl_db fl = true -> fl_dry fl = false ->
    LRet i RNil ∈ tr -> LSubStart i ∈ tr -> exists h, LAdd i h true true ∈ tr.
  Proof.
    intros Ht Hst Hdb Hd Hr Hs. destruct (hist_run _ _ _ _ tr i r fl Ht Hst) as [st Hrep]. tofilter Hr. tofilter Hs.
    destruct (c19_success _ _ _ Hrep Hdb Hd _ _ Hr Hs) as (j' & h & Hj'). apply filter_in in Hj' as [Hj' Ho]. apply of_run_i in Ho as <-. eauto.
  Qed.
  Lemma c23_order tr a i ev b : history tr -> tr = a ++ ev :: b -> of_run i ev = true ->
    (forall e, ev <> LPrereqs i e) -> (forall x, ev <> LRet i x) -> LPrereqs i None ∈ a.
  Proof.
    intros Ht Htr Ho H1 H2. destruct (hist_ev _ _ _ _ tr a i _ b Ht Htr Ho) as (r1 & fl1 & st1 & _ & Hrep & _).
    assert (Hx : exists j, LPrereqs j None ∈ filter (of_run i) a).
    { pose proof (pre_first _ _ _ _ _ _ Hrep eq_refl) as Hp. destruct ev; try done; apply of_run_i in Ho as <-; naive_solver. }
    destruct Hx as [j Hj]. apply filter_in in Hj as [Hj Ho']. by apply of_run_i in Ho' as <-.
  Qed.
End c19.

(** Something is recorded only after the subtarget has succeeded, and it is the hash taken
    after that. *)
Theorem C19_recorded_only_after_success hashf H R fs0 tr a i h ap ok b :
  history hashf H R fs0 tr -> tr = a ++ LAdd i h ap ok :: b ->
  LSubEnd i None ∈ a /\ exists fs r, LHash i After fs r (HOk h) ∈ a.
Proof. exact (c19_records hashf H R fs0 tr a i h ap ok b). Qed.
Print Assumptions C19_recorded_only_after_success.

Theorem C19_failed_subtarget_records_nothing hashf H R fs0 tr i e :
  history hashf H R fs0 tr -> LSubEnd i (Some e) ∈ tr ->
  (forall h ap ok, LAdd i h ap ok ∉ tr) /\ (forall x, LRet i x ∈ tr -> x = RErr (ESub e)).
Proof. exact (c19_subtarget_fails hashf H R fs0 tr i e). Qed.
Print Assumptions C19_failed_subtarget_records_nothing.

(** After a failed prerequisite nothing happens but returning the error. *)
Theorem C19_failed_prerequisite_stops hashf H R fs0 tr i e :
  history hashf H R fs0 tr -> LPrereqs i (Some e) ∈ tr ->
  forall ev, ev ∈ tr -> of_run i ev = true -> ev = LPrereqs i (Some e) \/ ev = LRet i (RErr (EPrereq e)).
Proof. exact (c19_prerequisite_fails hashf H R fs0 tr i e). Qed.
Print Assumptions C19_failed_prerequisite_stops.

Theorem C19_dry_run_ignores_database hashf H R fs0 tr i r fl :
  history hashf H R fs0 tr -> LStart i r fl ∈ tr -> fl_dry fl = true ->
  (forall m fs r res, LHash i m fs r res ∉ tr) /\ (forall h b, LHas i h b ∉ tr) /\ (forall h ap ok, LAdd i h ap ok ∉ tr) /\
  (LRet i RNil ∈ tr -> LSubEnd i None ∈ tr).
Proof. exact (c19_dry_run hashf H R fs0 tr i r fl). Qed.
Print Assumptions C19_dry_run_ignores_database.

Theorem C19_force_always_runs_and_records hashf H R fs0 tr i r fl :
  history hashf H R fs0 tr -> LStart i r fl ∈ tr -> fl_force fl = true -> fl_dry fl = false ->
  (forall h b, LHas i h b ∉ tr) /\
  (LRet i RNil ∈ tr -> LSubEnd i None ∈ tr /\ (fl_db fl = true -> exists h, LAdd i h true true ∈ tr)).
Proof. exact (c19_forced hashf H R fs0 tr i r fl). Qed.
Print Assumptions C19_force_always_runs_and_records.

Theorem C19_no_database_always_runs hashf H R fs0 tr i r fl :
  history hashf H R fs0 tr -> LStart i r fl ∈ tr -> fl_db fl = false ->
  (forall m fs r res, LHash i m fs r res ∉ tr) /\ (forall h b, LHas i h b ∉ tr) /\ (forall h ap ok, LAdd i h ap ok ∉ tr) /\
  (LRet i RNil ∈ tr -> LSubEnd i None ∈ tr).
Proof. exact (c19_no_database hashf H R fs0 tr i r fl). Qed.
Print Assumptions C19_no_database_always_runs.

(** A successful run of the subtarget is recorded before success is returned. *)
Theorem C19_success_is_recorded hashf H R fs0 tr i r fl :
  history hashf H R fs0 tr -> LStart i r fl ∈ tr -> fl_db fl = true -> fl_dry fl = false ->
  LRet i RNil ∈ tr -> LSubStart i ∈ tr -> exists h, LAdd i h true true ∈ tr.
Proof. exact (c19_success_recorded hashf H R fs0 tr i r fl). Qed.
Print Assumptions C19_success_is_recorded.

(** ** C20 is false: the input is changed from 1 to 2 while the subtarget is running, the
    output is built from 1, and the next run skips. *)
Lemma stale_skipped hashf H R t j ty : enc t = Some j -> type_string t = Some ty -> ran R t = Some t ->
  let r := ex_rule t in
  let fs := ex_fs "1" None in
  let fs1 := ex_fs "1" (Some "built from 1") in
  let fs2 := ex_fs "2" (Some "built from 1") in
  exists h h', history hashf H R fs (building_run 0 r r fs fs1 fs2 h h' ++ skipping_run 1 r fs2 h').
Proof.
  intros He Ht Hr r fs fs1 fs2.
  assert (E1 := ex_hash hashf H t j ty "1" None He Ht).
  assert (E2 := ex_hash hashf H t j ty "2" (Some "built from 1") He Ht).
  do 2 eexists.
  destruct (ra_building hashf H R fs fs ∅ 0 [] _ r t fs1 fs2 1 1 _ _ (ra_init hashf H R fs) E1 (not_elem_of_empty _) Hr E2) as (s1 & Hs1).
  destruct (ra_skipping hashf H R fs fs2 _ 1 _ _ r 1 _ Hs1 E2 (elem_of_union_l _ _ _ (elem_of_singleton_2 _ _ eq_refl))) as (s2 & Hs2).
  eapply ra_history. exact Hs2.
Qed.
Theorem C20_edit_during_run_is_missed_refuted hashf H R t j ty :
  enc t = Some j -> type_string t = Some ty -> ran R t = Some t ->
  let r := ex_rule t in
  let fs := ex_fs "1" None in
  let fs1 := ex_fs "1" (Some "built from 1") in
  let fs2 := ex_fs "2" (Some "built from 1") in
  exists h h', history hashf H R fs (building_run 0 r r fs fs1 fs2 h h' ++ skipping_run 1 r fs2 h').
Proof. exact (stale_skipped hashf H R t j ty). Qed.
Print Assumptions C20_edit_during_run_is_missed_refuted.

(** The part that holds: if no input changes between the start of a subtarget and the moment
    its result is hashed, then a run skips only if the inputs are now as they were when some
    subtarget that succeeded started. *)
Theorem C20_no_edit_during_run_partial hashf H R fs0 tr a i b :
  Inj (=) (=) hashf -> (forall c, hashf c <> "") -> Inj (=) (=) H ->
  history hashf H R fs0 tr -> tr = a ++ LRet i RNil :: b -> LSubStart i ∉ a ->
  (forall j l1 l2 fs r h l3, a = l1 ++ LSubStart j :: l2 ++ LHash j After fs r (HOk h) :: l3 ->
     unchanged (files_after fs0 l1) fs (r_in r)) ->
  exists r h a1 a2 j rj fl l1 l2 l3,
    a = a1 ++ LHash i Before (files_after fs0 a1) r (HOk h) :: a2 /\
    a = l1 ++ LSubStart j :: l2 ++ LSubEnd j None :: l3 /\ LStart j rj fl ∈ l1 /\
    same_files (files_after fs0 a1) (r_in r) (files_after fs0 l1) (r_in rj).
Proof. exact (fun Hh Hne HH => calm_lem hashf H R fs0 Hh Hne HH tr a i b). Qed.
Print Assumptions C20_no_edit_during_run_partial.

(** ** C23, ordering: a Files target looks at its files or the database, or runs its
    subtarget, only after its prerequisites have completed successfully. *)
Theorem C23_prerequisites_first hashf H R fs0 tr a i ev b :
  history hashf H R fs0 tr -> tr = a ++ ev :: b -> of_run i ev = true ->
  (forall e, ev <> LPrereqs i e) -> (forall x, ev <> LRet i x) -> LPrereqs i None ∈ a.
Proof. exact (c23_order hashf H R fs0 tr a i ev b). Qed.
Print Assumptions C23_prerequisites_first.

(** ** Concrete cases for the hypotheses above: a run that builds and one that then skips
    (C14, C16, C19), and a change of the input after which the next run builds (C15, C18). *)
Example ex_build_then_skip hashf H R :
  let r := ex_rule (TCmd (sh "cc in")) in
  let fs := ex_fs "1" None in let fs' := ex_fs "1" (Some "object code of 1") in
  exists h h', history hashf H R fs (building_run 0 r r fs fs fs' h h' ++ skipping_run 1 r fs' h').
Proof.
  intros r fs fs'.
  assert (E1 := ex_hash hashf H (r_tgt r) _ _ "1" None eq_refl eq_refl).
  assert (E2 := ex_hash hashf H (r_tgt r) _ _ "1" (Some "object code of 1") eq_refl eq_refl).
  do 2 eexists.
  destruct (ra_building hashf H R fs fs ∅ 0 [] _ r (r_tgt r) fs fs' 1 1 _ _ (ra_init hashf H R fs) E1 (not_elem_of_empty _) eq_refl E2) as (s1 & Hs1).
  destruct (ra_skipping hashf H R fs fs' _ 1 _ _ r 1 _ Hs1 E2 (elem_of_union_l _ _ _ (elem_of_singleton_2 _ _ eq_refl))) as (s2 & Hs2).
  eapply ra_history. exact Hs2.
Qed.
(** In that history no input changes while the subtarget runs. *)
Example C20_partial_case hashf H R :
  let r := ex_rule (TCmd (sh "cc in")) in
  let fs := ex_fs "1" None in let fs' := ex_fs "1" (Some "object code of 1") in
  exists h h' a, history hashf H R fs (a ++ [LRet 1 RNil]) /\
    a = building_run 0 r r fs fs fs' h h' ++ [LStart 1 r normal; LPrereqs 1 None; LHash 1 Before fs' r (HOk h'); LHas 1 h' (Some true)] /\
    forall j l1 l2 fs2 r2 h2 l3, a = l1 ++ LSubStart j :: l2 ++ LHash j After fs2 r2 (HOk h2) :: l3 ->
      unchanged (files_after fs l1) fs2 (r_in r2).
Proof.
  intros r fs fs'. destruct (ex_build_then_skip hashf H R) as (h & h' & Hist).
  exists h, h', (building_run 0 r r fs fs fs' h h' ++ [LStart 1 r normal; LPrereqs 1 None; LHash 1 Before fs' r (HOk h'); LHas 1 h' (Some true)]).
  split; [rewrite <-app_assoc; exact Hist|]. split; [done|].
  intros j l1 l2 fs2 r2 h2 l3 E. unfold building_run in E. cbn [app] in E. splits E.
  match goal with E : _ = _ ++ LHash _ _ _ _ _ :: _ |- _ => splits E end.
  intros q (it & Hit & Hq). cbn [r r_in ex_rule] in Hit. apply elem_of_list_singleton in Hit as ->.
  inversion Hq as [|? names n ? Hd]; subst; [reflexivity|]. cbn in Hd. discriminate Hd.
Qed.
Example ex_change_then_build hashf H R : Inj (=) (=) H ->
  let r1 := ex_rule (TCmd (sh "cc -O0 in")) in
  let r2 := ex_rule (TCmd (sh "cc -O2 in")) in
  let fs := ex_fs "1" (Some "x") in
  exists h h' h2, history hashf H R fs (building_run 0 r1 r1 fs fs fs h h' ++ building_run 1 r2 r2 fs fs fs h2 h2).
Proof.
  intros HH r1 r2 fs.
  assert (E1 := ex_hash hashf H (r_tgt r1) _ _ "1" (Some "x") eq_refl eq_refl).
  assert (E2 := ex_hash hashf H (r_tgt r2) _ _ "1" (Some "x") eq_refl eq_refl).
  do 3 eexists.
  destruct (ra_building hashf H R fs fs ∅ 0 [] _ r1 (r_tgt r1) fs fs 1 1 _ _ (ra_init hashf H R fs) E1 (not_elem_of_empty _) eq_refl E1) as (s1 & Hs1).
  destruct (ra_building' hashf H R fs fs _ 1 _ _ r2 (r_tgt r2) fs fs 1 1 _ _ Hs1 E2 eq_refl E2) as (s2 & Hs2).
  { rewrite elem_of_union, elem_of_singleton. intros [E%HH|E]; [|done]. apply document_inj in E as (? & _). done. }
  eapply ra_history. exact Hs2.
Qed.
