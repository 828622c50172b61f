(** C88: the hash database of sqlite/db.go is one of those that C58-C60 are about. *)
From stdpp Require Import base gmap list strings.
From Verif Require SqliteModel SqliteSpec SqliteProofs.
From Verif Require Import PathModel FindModel FileHashModel FileHashSpec FilesModel FilesSpec.
From Verif Require Import ContextModel RunnerModel RunnerSpec ChainModel BuildModel BuildSpec BuildProofs BuildProofs2 BuildProofs3 BuildProofs4 BuildProofs5.
From Verif Require Import BuildExample BuildProps StoreSpec StoreProofs StoreProofs2.
Local Open Scope list_scope.

(** Whatever the process and others do with the database, in any interleaving, with crashes and
    evictions at any time: the process sees the answers of some database as in BuildModel.v.  It
    contains what the table contains; it satisfies the conditions of C58, if the others add
    hashes of right states only; those of C59, if no eviction finds anything old. *)
Theorem C88_sqlite_is_such_a_database code hashf H others p σ tr s cs s' l :
  Inj (=) (=) code -> SqliteModel.reachable s -> SqliteModel.run s cs = Some s' -> SqliteModel.s_log s' = SqliteModel.s_log s ++ l ->
  uses code others tr l ->
  exists db0 d, let p' := with_db p d in let σ' := {| e_fs := e_fs σ; e_db := db0; e_time := e_time σ |} in
    (forall x, x ∈ db0 -> x ∈ contents code s \/ others x) /\
    (forall l1 g h r l2, tr = l1 ++ EvEff g (OpHas h) r :: l2 -> valid hashf H p' (OpHas h) r (after p' σ' l1)) /\
    e_db (after p' σ' tr) = contents code s' /\
    (forall right, (forall x, others x -> right_hash hashf H right x) -> database_honest hashf H right p') /\
    ((forall x, ~ others x) -> database_sound p') /\
    (nothing_expires (SqliteModel.s_log s) l -> contents code s ⊆ db0 /\ database_keeps p').
Proof.
  intros Hc Hr E El Hu.
  destruct (is_a_database code Hc others p σ tr s cs s' l (SqliteProofs.reachable_inv s Hr) E El Hu) as (db0 & d & H1 & H2 & H3 & H4 & H5 & H6).
  exists db0, d. cbv zeta. split; [exact H1|]. split; [exact H2|]. split; [exact H3|]. split; [exact (fun right => H4 hashf H right)|]. by split.
Qed.
Print Assumptions C88_sqlite_is_such_a_database.

(** C58 with this database. *)
Theorem C88_incremental_build_is_correct code hashf H right p owner fs t s s' tr f :
  Inj (=) (=) code -> Inj (=) (=) hashf -> (forall c, hashf c <> "") -> Inj (=) (=) H -> hash_covers right ->
  sqlite_history code hashf H right fs s -> sqlite_build code hashf H right (right_hash hashf H right) p owner fs t s s' tr ->
  f ∈ p_rules p -> built f tr -> right (rule_of p f) (files_after p fs t tr).
Proof.
  intros Hc Hh Hne HH Hcov Hhi B Hf Hb.
  destruct (history_from_nothing code Hc hashf H right fs s Hhi) as [Hr Hn].
  destruct (sqlite_session code Hc hashf H right _ p owner fs t s s' tr (SqliteProofs.reachable_inv s Hr) B) as (_ & db0 & d & l & H0 & _ & _ & _ & HB & _).
  assert (N : builds_from_nothing hashf H right {| e_fs := fs; e_db := db0; e_time := t |}).
  { apply (bfn_edit _ _ _ _ fs db0 t (Hn 0)). intros x Hx. apply H0 in Hx as [Hx|Hx]; [by left|]. right.
    intros h fuel fs' r Hin Hcc. apply elem_of_singleton in Hin as ->. by eapply Hx. }
  pose proof (C58_incremental_build_is_correct hashf H right (with_db p d) owner _ tr f Hh Hne HH Hcov N (HB (fun _ x => x)) Hf Hb) as Hx.
  rewrite (proj1 (after_files p d {| e_fs := fs; e_db := db0; e_time := t |} {| e_fs := fs; e_db := nohash; e_time := t |} tr eq_refl eq_refl)) in Hx.
  exact Hx.
Qed.
Print Assumptions C88_incremental_build_is_correct.

(** The table never holds the hash of a wrong state. *)
Theorem C88_table_holds_only_right_states code hashf H right fs s x secs fuel fs' r :
  Inj (=) (=) code -> Inj (=) (=) hashf -> (forall c, hashf c <> "") -> Inj (=) (=) H -> hash_covers right ->
  sqlite_history code hashf H right fs s -> (x, secs) ∈ SqliteModel.s_table s ->
  computeHash hashf H fuel fs' r = HOk (code x) -> right r fs'.
Proof.
  intros Hc Hh Hne HH Hcov Hhi Hin. destruct (history_from_nothing code Hc hashf H right fs s Hhi) as [_ Hn].
  apply (C58_database_holds_only_right_states hashf H right _ Hh Hne HH Hcov (Hn 0)). simpl. apply (contents_elem code). eauto.
Qed.
Print Assumptions C88_table_holds_only_right_states.

(** C59 with this database: the next build runs no command, if no other process uses the
    database meanwhile, and no eviction finds anything old: it suffices that all is within the
    keep period (30 days, main.go:154). *)
Theorem C88_repeated_build_does_nothing code hashf H right p1 p2 o1 o2 fs t s s1 s2 l tr1 tr2 f :
  Inj (=) (=) code -> SqliteModel.reachable s -> same_rules p1 p2 ->
  sqlite_build code hashf H right (fun _ => False) p1 o1 fs t s s1 tr1 ->
  sqlite_build code hashf H right (fun _ => False) p2 o2 (files_after p1 fs t tr1) (e_time (after p1 {| e_fs := fs; e_db := ∅; e_time := t |} tr1)) s1 s2 tr2 ->
  SqliteModel.s_log s2 = SqliteModel.s_log s ++ l -> nothing_expires (SqliteModel.s_log s) l ->
  with_database p1 tr1 -> with_database p2 tr2 -> not_forced p2 tr2 ->
  f ∈ p_rules p1 -> built f tr1 -> (forall q, needed p1 f q -> finished q tr1) ->
  (forall g n r, EvEff g (OpCmd (f_id f) n) r ∉ tr2) /\
  (forall c g a cx cx', EvStart g a (f_id f) cx ∈ tr2 -> EvCall c (Some g) cx' [TPtr (p_sub p2 f)] ∉ tr2) /\
  unchanged (files_after p1 fs t tr1) (files_after p2 (files_after p1 fs t tr1) (e_time (after p1 {| e_fs := fs; e_db := ∅; e_time := t |} tr1)) tr2) (f_in f ++ f_out f).
Proof. exact (sqlite_repeat code hashf H right p1 p2 o1 o2 fs t s s1 s2 l tr1 tr2 f). Qed.
Print Assumptions C88_repeated_build_does_nothing.
Theorem C88_nothing_expires_within_the_keep_period l1 l2 :
  (forall k now x t ev, SqliteModel.EvDelete k now ∈ l2 -> ev ∈ l1 ++ l2 -> SqliteSpec.accessed x t ev -> (now - t <= k)%Z) ->
  nothing_expires l1 l2.
Proof. exact (within_keep l1 l2). Qed.
Print Assumptions C88_nothing_expires_within_the_keep_period.

(** C60 with this database. *)
Theorem C88_same_as_a_clean_build code hashf H right p1 p2 o1 o2 fs1 fs2 t1 t2 s1 s1' s2 s2' tr1 tr2 f i :
  Inj (=) (=) code -> Inj (=) (=) hashf -> (forall c, hashf c <> "") -> Inj (=) (=) H -> hash_covers right ->
  sqlite_history code hashf H right fs1 s1 -> sqlite_history code hashf H right fs2 s2 ->
  sqlite_build code hashf H right (right_hash hashf H right) p1 o1 fs1 t1 s1 s1' tr1 ->
  sqlite_build code hashf H right (right_hash hashf H right) p2 o2 fs2 t2 s2 s2' tr2 ->
  same_rules p1 p2 -> sources_kept p1 -> sources_kept p2 -> determined right p1 ->
  (forall i, source p1 i -> same_files fs1 [i] fs2 [i]) ->
  f ∈ p_rules p1 -> built f tr1 -> built f tr2 -> i ∈ f_in f \/ i ∈ f_out f ->
  same_files (files_after p1 fs1 t1 tr1) [i] (files_after p2 fs2 t2 tr2) [i].
Proof. exact (sqlite_clean code hashf H right p1 p2 o1 o2 fs1 fs2 t1 t2 s1 s1' s2 s2' tr1 tr2 f i). Qed.
Print Assumptions C88_same_as_a_clean_build.

(** Conversely, every build with a database that keeps just what is added can occur with this
    one, with any options, if no time passes. *)
Theorem C88_every_build_can_occur code hashf H right p owner σ tr (o : SqliteModel.opts) : Inj (=) (=) code ->
  e_db σ = ∅ ->
  (forall t h r db, p_db p t (OpHas h) r db = db) -> (forall t h db, p_db p t (OpAdd h) 0 db = {[h]} ∪ db) ->
  (forall g h r, EvEff g (OpAdd h) r ∈ tr -> r = 0) ->
  (forall g h r, EvEff g (OpHas h) r ∈ tr \/ EvEff g (OpAdd h) r ∈ tr -> exists x, h = code x) ->
  build hashf H right p owner σ tr ->
  exists s', sqlite_build code hashf H right (fun _ => False) p owner (e_fs σ) (e_time σ) SqliteModel.init s' tr /\
    contents code s' = e_db (after p σ tr).
Proof.
  intros Hc E Hhas Hadd Hok Hco B.
  destruct (build_possible code hashf H right p owner σ tr o 0%Z SqliteModel.init Hc SqliteProofs.init_inv) as (s' & H1 & _ & H2 & _); try done.
  { constructor. }
  by exists s'.
Qed.
Print Assumptions C88_every_build_can_occur.

(** Concrete case: the first build of BuildExample.v runs two commands; the second one, none. *)
Section case.
  Ltac compute_in l E := let v := eval vm_compute in l in assert (E : l = v) by (vm_compute; reflexivity).
  Context (code : string -> hash) (enc : json -> string) (hashf : string -> string).
  Context (Hcode : Inj (=) (=) code) (Henc : Inj (=) (=) enc) (Hh : Inj (=) (=) hashf).
  Definition HC (j : json) : hash := code (enc j).
  Lemma HC_inj : Inj (=) (=) HC.
  Proof. intros j1 j2 E. apply Henc, Hcode, E. Qed.
  (** As opened by fab, main.go:154. *)
  Definition fab_opts : SqliteModel.opts := {| SqliteModel.keep := 30 * 24 * 3600 * 1000000000; SqliteModel.updateOnAccess := true |}.

  Lemma ex_use1 g h r : EvEff g (OpHas h) r ∈ ex_tr1 hashf HC \/ EvEff g (OpAdd h) r ∈ ex_tr1 hashf HC -> exists x, h = code x.
  Proof.
    intros Hin. compute_in (ex_tr1 hashf HC) E. rewrite E in Hin. clear E.
    destruct Hin as [Hin|Hin]; repeat (apply elem_of_cons in Hin as [Hin|Hin]; [first [discriminate Hin|injection Hin; intros; subst; by eexists]|]); by apply elem_of_nil in Hin.
  Qed.
  Lemma ex_add1 g h r : EvEff g (OpAdd h) r ∈ ex_tr1 hashf HC -> r = 0.
  Proof.
    intros Hin. compute_in (ex_tr1 hashf HC) E. rewrite E in Hin. clear E.
    repeat (apply elem_of_cons in Hin as [Hin|Hin]; [first [discriminate Hin|injection Hin; intros; subst; done]|]); by apply elem_of_nil in Hin.
  Qed.
  Lemma ex_use2 g h r : EvEff g (OpHas h) r ∈ ex_tr2 hashf HC \/ EvEff g (OpAdd h) r ∈ ex_tr2 hashf HC -> exists x, h = code x.
  Proof.
    intros Hin. compute_in (ex_tr2 hashf HC) E. rewrite E in Hin. clear E.
    destruct Hin as [Hin|Hin]; repeat (apply elem_of_cons in Hin as [Hin|Hin]; [first [discriminate Hin|injection Hin; intros; subst; by eexists]|]); by apply elem_of_nil in Hin.
  Qed.
  Lemma ex_add2 g h r : EvEff g (OpAdd h) r ∈ ex_tr2 hashf HC -> r = 0.
  Proof.
    intros Hin. compute_in (ex_tr2 hashf HC) E. rewrite E in Hin. clear E.
    repeat (apply elem_of_cons in Hin as [Hin|Hin]; [first [discriminate Hin|injection Hin; intros; subst; done]|]); by apply elem_of_nil in Hin.
  Qed.

  Example C88_case : exists s1 s2 l,
    sqlite_build code hashf HC ex_right (fun _ => False) ex_project ex_owner (ex_start "1") 0 SqliteModel.init s1 (ex_tr1 hashf HC) /\
    sqlite_build code hashf HC ex_right (fun _ => False) ex_project ex_owner (e_fs (ex_s1 hashf HC)) (e_time (ex_s1 hashf HC)) s1 s2 (ex_tr2 hashf HC) /\
    SqliteModel.s_log s2 = [] ++ l /\ nothing_expires [] l /\
    sqlite_history code hashf HC ex_right (ex_start "1") SqliteModel.init /\
    built ex_f2 (ex_tr1 hashf HC) /\ (exists g, EvEff g (OpCmd (f_id ex_f2) 0) 0 ∈ ex_tr1 hashf HC) /\
    built ex_f2 (ex_tr2 hashf HC) /\ SqliteModel.s_table s1 <> [].
  Proof.
    destruct (build_possible code hashf HC ex_right ex_project ex_owner ex_s0 (ex_tr1 hashf HC) fab_opts 0%Z SqliteModel.init Hcode SqliteProofs.init_inv) as (s1 & B1 & A1 & C1 & _);
      [constructor|done|done|done|exact ex_add1|exact ex_use1|exact (ex_build1 hashf HC HC_inj)|].
    assert (I1 : SqliteProofs.inv s1).
    { destruct (sb_db _ _ _ _ _ _ _ _ _ _ _ _ B1) as (cs & l & Hr & _). exact (SqliteProofs.run_inv cs _ _ SqliteProofs.init_inv Hr). }
    destruct (build_possible code hashf HC ex_right ex_project ex_owner (ex_s1 hashf HC) (ex_tr2 hashf HC) fab_opts 0%Z s1 Hcode I1) as (s2 & B2 & A2 & C2 & _);
      [exact A1|symmetry; exact C1|done|done|exact ex_add2|exact ex_use2|exact (ex_build2 hashf HC)|].
    exists s1, s2, (SqliteModel.s_log s2). split; [exact B1|]. split; [exact B2|]. split; [done|]. split; [exact (now_keeps 0%Z [] _ A2)|].
    split; [constructor|]. split; [exists 0, 2; in_trace|]. split; [eexists; in_trace|]. split; [exists 0, 2; in_trace|].
    intros E. unfold contents in C1. rewrite E in C1. simpl in C1.
    assert (Hin : ex_h hashf HC ex_f1 (e_fs (ex_s1 hashf HC)) ∈ e_db (after ex_project ex_s0 (ex_tr1 hashf HC))).
    { compute_in (ex_tr1 hashf HC) E1. unfold ex_s1. rewrite E1. clear. cbn [after fold_left after_event next e_db p_db ex_project ex_s0].
      apply elem_of_union. right. apply elem_of_union. left. apply elem_of_singleton. vm_compute. reflexivity. }
    rewrite <-C1 in Hin. by apply elem_of_empty in Hin.
  Qed.
End case.
