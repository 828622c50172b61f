(** C88 (continued): C84-C87 with the database of sqlite/db.go, which fab opens (main.go:147-156). *)
From stdpp Require Import base gmap list strings relations.
From Verif Require SqliteModel SqliteSpec SqliteProofs.
From Verif Require Import TopDirModel DriverModel RegistryModel.
From Verif Require Import PathModel FindModel FileHashModel FileHashSpec FilesModel FilesSpec.
From Verif Require Import ContextModel RunnerModel RunnerSpec RunnerSpec2 ChainModel YamlModel YamlSpec.
From Verif Require Import MainModel MainSpec ProjModel ProjSpec EndSpec BuildModel BuildSpec MakeModel MakeSpec StoreSpec StoreSpec2.
From Verif Require Import BuildProofs2 BuildProofs3 StoreProofs StoreProofs2 StoreProofs3 StoreProps MakeProps MakeExample MainProps ProjProps EndProps.
Local Open Scope list_scope.

Local Notation start fs db t := {| e_fs := fs; e_db := db; e_time := t |}.

(** The run of MakeSpec.v that a run with sqlite is. *)
Lemma as_run code hashf H right M fuel argv m top T wd a st r lf objs' addr leafp U fs t s l s' tr :
  Inj (=) (=) code -> Inj (=) (=) hashf -> (forall c, hashf c <> "") -> Inj (=) (=) H ->
  sqlite_fab_history code hashf H right fs s ->
  sqlite_fab_run code hashf H right (right_hash hashf H right) M fuel argv m top T wd a st r lf objs' addr leafp U fs t s l s' tr ->
  exists db d, fab_history hashf H right (start fs db t) /\
    MakeSpec.fab_run hashf H right M fuel argv m top T wd a st r lf objs' addr leafp (with_udb U d) (start fs db t) tr /\
    e_fs (after (yaml_build (with_udb U d) addr objs' leafp) (start fs db t) tr) = files_after (yaml_build U addr objs' leafp) fs t tr.
Proof.
  intros Hcode Hh Hne HH Hhi R. destruct (sqlite_fab_history_is code Hcode hashf H right fs s Hhi) as [Hr Hf].
  destruct (sqlite_run_is_run code Hcode hashf H right _ _ _ _ _ _ _ _ _ _ _ _ _ _ _ _ _ _ _ _ _ _ (SqliteProofs.reachable_inv s Hr) R (fun _ x => x)) as (db & d & H0 & Hfr & _ & Hfs & _).
  exists db, d. split; [|split; [exact Hfr|exact Hfs]].
  apply (fh_edit _ _ _ _ fs db t (Hf 0)). intros x Hx. apply H0 in Hx as [Hx|Hx]; [by left|]. right.
  intros h fu fs' ru Hin Hc. apply elem_of_singleton in Hin as ->. by eapply Hx.
Qed.

(** C84 with this database. *)
Theorem C88_fab_files_are_up_to_date code hashf H right M fuel argv m top T wd a r lf objs' addr leafp U fs t s l s' tr e :
  Inj (=) (=) code -> Inj (=) (=) hashf -> (forall c, hashf c <> "") -> Inj (=) (=) H ->
  hash_covers right -> sqlite_fab_history code hashf H right fs s ->
  sqlite_fab_run code hashf H right (right_hash hashf H right) M fuel argv m top T wd a 0 r lf objs' addr leafp U fs t s l s' tr ->
  carried_out M lf r objs' addr leafp tr e -> defined_once top (k_docs M wd) ->
  forall q, names_target (m_args m) q -> exists dir v, EndSpec.defined M top wd dir q v /\
    forall d n ins outs, required top (tag_lists T) (k_docs M wd) lf (m_force m) (fun q => is_Some (r_reg r !! q)) dir v d n ->
      rule top (tag_lists T) lf d n ins outs ->
      exists x, made_for M top T wd r d n x /\
        right {| r_tgt := u_desc U x; r_in := ins; r_out := outs |} (files_after (yaml_build U addr objs' leafp) fs t tr).
Proof.
  intros Hcode Hh Hne HH Hcov Hhi R Hco Honce q Hq. destruct (as_run code hashf H right _ _ _ _ _ _ _ _ _ _ _ _ _ _ _ _ _ _ _ _ _ Hcode Hh Hne HH Hhi R) as (db & d & Hf & Hr & Ef).
  rewrite <-Ef. exact (C84_files_are_up_to_date hashf H right M fuel argv m top T wd a r lf objs' addr leafp (with_udb U d) (start fs db t) tr e Hh Hne HH Hcov Hf Hr Hco Honce q Hq).
Qed.
Theorem C88_fab_completed_rules_are_right code hashf H right M fuel argv m top T wd a st r lf objs' addr leafp U fs t s l s' tr d n ins outs x :
  Inj (=) (=) code -> Inj (=) (=) hashf -> (forall c, hashf c <> "") -> Inj (=) (=) H ->
  hash_covers right -> sqlite_fab_history code hashf H right fs s ->
  sqlite_fab_run code hashf H right (right_hash hashf H right) M fuel argv m top T wd a st r lf objs' addr leafp U fs t s l s' tr ->
  made_for M top T wd r d n x -> rule top (tag_lists T) lf d n ins outs -> ended_well x tr ->
  right {| r_tgt := u_desc U x; r_in := ins; r_out := outs |} (files_after (yaml_build U addr objs' leafp) fs t tr).
Proof.
  intros Hcode Hh Hne HH Hcov Hhi R Hm Hru Hw. destruct (as_run code hashf H right _ _ _ _ _ _ _ _ _ _ _ _ _ _ _ _ _ _ _ _ _ Hcode Hh Hne HH Hhi R) as (db & dd & Hf & Hr & Ef).
  rewrite <-Ef. exact (C84_completed_rules_are_right hashf H right M fuel argv m top T wd a st r lf objs' addr leafp (with_udb U dd) (start fs db t) tr d n ins outs x Hh Hne HH Hcov Hf Hr Hm Hru Hw).
Qed.

(** C85: after any history, a row of the table is not the hash of a wrong state. *)
Theorem C88_fab_table_is_honest code hashf H right fs s x secs fuel fs' ru :
  Inj (=) (=) code -> Inj (=) (=) hashf -> (forall c, hashf c <> "") -> Inj (=) (=) H ->
  hash_covers right -> sqlite_fab_history code hashf H right fs s -> (x, secs) ∈ SqliteModel.s_table s ->
  computeHash hashf H fuel fs' ru = HOk (code x) -> right ru fs'.
Proof.
  intros Hcode Hh Hne HH Hcov Hhi Hin. destruct (sqlite_fab_history_is code Hcode hashf H right fs s Hhi) as [_ Hf].
  apply (C85_database_is_honest hashf H right _ fuel fs' ru (code x) Hh Hne HH Hcov (Hf 0)). simpl. apply (contents_elem code). eauto.
Qed.

(** C86: the next fab NAME... runs no command, if no other process uses the database meanwhile
    and no eviction finds anything old (C88_nothing_expires_within_the_keep_period). *)
Theorem C88_fab_repetition_runs_nothing code hashf H right M1 M2 fuel1 fuel2 argv1 argv2 m1 m2 top T wd1 wd2 a1 a2 st2 r1 r2 lf objs1 objs2 addr1 addr2 leafp1 leafp2 U1 U2 fs t s l1 s1 l2 s2 tr1 tr2 e :
  Inj (=) (=) code -> Inj (=) (=) hashf -> (forall c, hashf c <> "") -> Inj (=) (=) H ->
  SqliteModel.reachable s ->
  sqlite_fab_run code hashf H right (fun _ => False) M1 fuel1 argv1 m1 top T wd1 a1 0 r1 lf objs1 addr1 leafp1 U1 fs t s l1 s1 tr1 ->
  carried_out M1 lf r1 objs1 addr1 leafp1 tr1 e ->
  sqlite_fab_run code hashf H right (fun _ => False) M2 fuel2 argv2 m2 top T wd2 a2 st2 r2 lf objs2 addr2 leafp2 U2
    (files_after (yaml_build U1 addr1 objs1 leafp1) fs t tr1) (e_time (after (yaml_build U1 addr1 objs1 leafp1) (start fs ∅ t) tr1)) s1 l2 s2 tr2 ->
  nothing_expires (SqliteModel.s_log s) (l1 ++ l2) ->
  same_yaml M1 wd1 M2 wd2 -> (forall o, u_desc U2 o = u_desc U1 o) -> (forall fs, u_possible U1 fs <-> u_possible U2 fs) ->
  m_force m2 = false -> (forall q, names_target (m_args m2) q -> names_target (m_args m1) q) ->
  forall g i n y, EvEff g (OpCmd i n) y ∉ tr2.
Proof.
  intros Hcode Hh Hne HH Hr R1 C1 R2 Hex Hs Hd Hp Hnf Hn.
  pose proof (SqliteProofs.reachable_inv s Hr) as I.
  assert (Ho : forall x, (fun _ : hash => False) x -> right_hash hashf H right x) by (by intros x []).
  destruct (sf_db _ _ _ _ _ _ _ _ _ _ _ _ _ _ _ _ _ _ _ _ _ _ _ _ _ _ R1) as [cs1 E1].
  pose proof (sf_log _ _ _ _ _ _ _ _ _ _ _ _ _ _ _ _ _ _ _ _ _ _ _ _ _ _ R1) as L1.
  pose proof (SqliteProofs.run_inv cs1 _ _ I E1) as I1.
  set (fs1 := files_after _ fs t tr1) in *. set (t1 := e_time _) in R2.
  destruct (sqlite_run_is_run code Hcode hashf H right _ _ _ _ _ _ _ _ _ _ _ _ _ _ _ _ _ _ _ _ _ _ I R1 Ho) as (db1 & d1 & H1 & F1 & D1 & Ef1 & Et1 & K1).
  destruct (sqlite_run_is_run code Hcode hashf H right _ _ _ _ _ _ _ _ _ _ _ _ _ _ _ _ _ _ _ _ _ _ I1 R2 Ho) as (db2 & d2 & H2 & F2 & _ & _ & _ & K2).
  destruct K1 as [_ K1]. { intros k1 k now k2 -> x u Hx. eapply (Hex k1 k now (k2 ++ l2)); [by rewrite <-app_assoc|exact Hx]. }
  destruct K2 as [Hsub K2]. { intros k1 k now k2 -> x u Hx. rewrite L1, <-app_assoc in Hx. eapply (Hex (l1 ++ k1) k now k2); [by rewrite <-app_assoc|exact Hx]. }
  assert (Edb : db2 = contents code s1).
  { apply (anti_symm (⊆)); [|exact Hsub]. intros x Hx. by apply H2 in Hx as [Hx|[]]. }
  assert (Es : after (yaml_build (with_udb U1 d1) addr1 objs1 leafp1) (start fs db1 t) tr1 = start fs1 db2 t1).
  { rewrite <-Edb in D1. destruct (after (yaml_build (with_udb U1 d1) addr1 objs1 leafp1) _ tr1) as [efs edb et]. cbn [e_fs e_db e_time] in *. subst edb efs. f_equal. exact Et1. }
  rewrite <-Es in F2.
  exact (C86_repetition_runs_nothing hashf H right M1 M2 fuel1 fuel2 argv1 argv2 m1 m2 top T wd1 wd2 a1 a2 st2 r1 r2 lf objs1 objs2 addr1 addr2 leafp1 leafp2
    (with_udb U1 d1) (with_udb U2 d2) _ tr1 tr2 e Hh Hne HH F1 C1 F2 Hs Hd Hp K1 K2 Hnf Hn).
Qed.

(** C87. *)
Theorem C88_fab_same_as_a_clean_build code hashf H right M1 M2 fuel1 fuel2 argv1 argv2 m1 m2 top T wd1 wd2 a1 a2 r1 r2 lf objs1 objs2 addr1 addr2 leafp1 leafp2 U1 U2 fs1 fs2 t1 t2 s1 s2 l1 l2 s1' s2' tr1 tr2 e1 e2 :
  Inj (=) (=) code -> Inj (=) (=) hashf -> (forall c, hashf c <> "") -> Inj (=) (=) H ->
  hash_covers right -> sqlite_fab_history code hashf H right fs1 s1 -> sqlite_fab_history code hashf H right fs2 s2 ->
  sqlite_fab_run code hashf H right (right_hash hashf H right) M1 fuel1 argv1 m1 top T wd1 a1 0 r1 lf objs1 addr1 leafp1 U1 fs1 t1 s1 l1 s1' tr1 ->
  carried_out M1 lf r1 objs1 addr1 leafp1 tr1 e1 ->
  sqlite_fab_run code hashf H right (right_hash hashf H right) M2 fuel2 argv2 m2 top T wd2 a2 0 r2 lf objs2 addr2 leafp2 U2 fs2 t2 s2 l2 s2' tr2 ->
  carried_out M2 lf r2 objs2 addr2 leafp2 tr2 e2 ->
  same_yaml M1 wd1 M2 wd2 -> (forall o, u_desc U2 o = u_desc U1 o) -> (forall fs, u_possible U1 fs <-> u_possible U2 fs) ->
  defined_once top (k_docs M1 wd1) ->
  sources_kept (yaml_build U1 addr1 objs1 leafp1) -> sources_kept (yaml_build U2 addr2 objs2 leafp2) -> determined right (yaml_build U1 addr1 objs1 leafp1) ->
  (forall i, source (yaml_build U1 addr1 objs1 leafp1) i -> same_files fs1 [i] fs2 [i]) ->
  forall q, names_target (m_args m1) q -> names_target (m_args m2) q -> exists dir v, EndSpec.defined M1 top wd1 dir q v /\
    forall d n ins outs i, required top (tag_lists T) (k_docs M1 wd1) lf false (fun q => is_Some (r_reg r1 !! q)) dir v d n -> rule top (tag_lists T) lf d n ins outs ->
      i ∈ ins \/ i ∈ outs ->
      same_files (files_after (yaml_build U1 addr1 objs1 leafp1) fs1 t1 tr1) [i] (files_after (yaml_build U2 addr2 objs2 leafp2) fs2 t2 tr2) [i].
Proof.
  intros Hcode Hh Hne HH Hcov N1 N2 R1 C1 R2 C2 Hs Hd Hp Honce Hk1 Hk2 Hdet Hsrc q Hq1 Hq2.
  destruct (as_run code hashf H right _ _ _ _ _ _ _ _ _ _ _ _ _ _ _ _ _ _ _ _ _ Hcode Hh Hne HH N1 R1) as (db1 & d1 & F1 & Q1 & <-).
  destruct (as_run code hashf H right _ _ _ _ _ _ _ _ _ _ _ _ _ _ _ _ _ _ _ _ _ Hcode Hh Hne HH N2 R2) as (db2 & d2 & F2 & Q2 & <-).
  exact (C87_same_as_a_clean_build hashf H right M1 M2 fuel1 fuel2 argv1 argv2 m1 m2 top T wd1 wd2 a1 a2 r1 r2 lf objs1 objs2 addr1 addr2 leafp1 leafp2 (with_udb U1 d1) (with_udb U2 d2)
    _ _ tr1 tr2 e1 e2 Hh Hne HH Hcov F1 F2 Q1 C1 Q2 C2 Hs Hd Hp Honce Hk1 Hk2 Hdet Hsrc q Hq1 Hq2).
Qed.
Print Assumptions C88_fab_files_are_up_to_date.
Print Assumptions C88_fab_completed_rules_are_right.
Print Assumptions C88_fab_table_is_honest.
Print Assumptions C88_fab_repetition_runs_nothing.
Print Assumptions C88_fab_same_as_a_clean_build.

(** Concrete case: the project of MakeExample.v; fab Out, then fab -v Out. *)
Section case.
  Ltac compute_in l E := let v := eval vm_compute in l in assert (E : l = v) by (vm_compute; reflexivity).
  Context (code : string -> hash) (enc : json -> string) (hashf : string -> string).
  Context (Hcode : Inj (=) (=) code) (Henc : Inj (=) (=) enc) (Hh : Inj (=) (=) hashf).
  Notation HCC := (HC code enc).
  Notation tr1 := (mk_tr1 hashf HCC).
  Notation tr2 := (mk_tr2 hashf HCC).
  Notation mrun argv := (sqlite_fab_run code hashf HCC mk_right (fun _ => False) mk_machine 20 argv (mk_m argv) "/p" plain_tags "/p/d" (mk_acts argv) 0 (mk_req argv) no_rules mk_objs mk_addr mk_leaf mk_U).

  Lemma mk_use1 g h r : EvEff g (OpHas h) r ∈ tr1 \/ EvEff g (OpAdd h) r ∈ tr1 -> exists x, h = code x.
  Proof.
    intros Hin. compute_in (mk_tr1 hashf (HC code enc)) E. rewrite E in Hin. clear E.
    destruct Hin as [Hin|Hin]; repeat (apply elem_of_cons in Hin as [Hin|Hin]; [first [discriminate Hin|injection Hin; intros; subst; by eexists]|]); by apply elem_of_nil in Hin.
  Qed.
  Lemma mk_add1 g h r : EvEff g (OpAdd h) r ∈ tr1 -> r = 0.
  Proof.
    intros Hin. compute_in (mk_tr1 hashf (HC code enc)) E. rewrite E in Hin. clear E.
    repeat (apply elem_of_cons in Hin as [Hin|Hin]; [first [discriminate Hin|injection Hin; intros; subst; done]|]); by apply elem_of_nil in Hin.
  Qed.
  Lemma mk_use2 g h r : EvEff g (OpHas h) r ∈ tr2 \/ EvEff g (OpAdd h) r ∈ tr2 -> exists x, h = code x.
  Proof.
    intros Hin. compute_in (mk_tr2 hashf (HC code enc)) E. rewrite E in Hin. clear E.
    destruct Hin as [Hin|Hin]; repeat (apply elem_of_cons in Hin as [Hin|Hin]; [first [discriminate Hin|injection Hin; intros; subst; by eexists]|]); by apply elem_of_nil in Hin.
  Qed.
  Lemma mk_add2 g h r : EvEff g (OpAdd h) r ∈ tr2 -> r = 0.
  Proof.
    intros Hin. compute_in (mk_tr2 hashf (HC code enc)) E. rewrite E in Hin. clear E.
    repeat (apply elem_of_cons in Hin as [Hin|Hin]; [first [discriminate Hin|injection Hin; intros; subst; done]|]); by apply elem_of_nil in Hin.
  Qed.
  Lemma mk_contents : mk_h hashf HCC mk_f2 (e_fs (mk_s1 hashf HCC)) ∈ e_db (after mk_p mk_s0 tr1).
  Proof.
    unfold mk_s1. compute_in (mk_tr1 hashf (HC code enc)) E1. rewrite E1. clear. cbn [after fold_left after_event next e_db p_db mk_p yaml_build u_db mk_U mk_s0].
    apply elem_of_union_l, elem_of_singleton. vm_compute. reflexivity.
  Qed.

  Example C88_fab_case : exists s1 s2 l1 l2,
    mrun ["Out"] (mk_start "1") 0 SqliteModel.init l1 s1 tr1 /\ mk_done ["Out"] tr1 /\
    mrun ["-v"; "Out"] (files_after mk_p (mk_start "1") 0 tr1) (e_time (after mk_p mk_s0 tr1)) s1 l2 s2 tr2 /\
    nothing_expires [] (l1 ++ l2) /\ SqliteModel.s_table s1 <> [] /\
    sqlite_fab_history code hashf HCC mk_right (files_after mk_p (mk_start "1") 0 tr1) s1.
  Proof.
    pose proof (HC_inj code enc Hcode Henc) as Hi.
    destruct (run_possible code hashf HCC mk_right mk_machine 20 ["Out"] (mk_m ["Out"]) "/p" plain_tags "/p/d" (mk_acts ["Out"]) 0 (mk_req ["Out"]) no_rules mk_objs mk_addr mk_leaf mk_U mk_s0 tr1 fab_opts 0%Z SqliteModel.init Hcode SqliteProofs.init_inv)
      as (s1 & l1 & B1 & A1 & C1 & _); [apply Forall_nil_2|reflexivity|reflexivity|reflexivity|exact mk_add1|exact mk_use1|exact (proj1 (mk_run1 hashf HCC Hi))|].
    destruct (sf_db _ _ _ _ _ _ _ _ _ _ _ _ _ _ _ _ _ _ _ _ _ _ _ _ _ _ B1) as [cs1 E1].
    pose proof (sf_log _ _ _ _ _ _ _ _ _ _ _ _ _ _ _ _ _ _ _ _ _ _ _ _ _ _ B1) as L1.
    pose proof (SqliteProofs.run_inv cs1 _ _ SqliteProofs.init_inv E1) as I1.
    destruct (run_possible code hashf HCC mk_right mk_machine 20 ["-v"; "Out"] (mk_m ["-v"; "Out"]) "/p" plain_tags "/p/d" (mk_acts ["-v"; "Out"]) 0 (mk_req ["-v"; "Out"]) no_rules mk_objs mk_addr mk_leaf mk_U (after mk_p mk_s0 tr1) tr2 fab_opts 0%Z s1 Hcode I1)
      as (s2 & l2 & B2 & A2 & C2 & _); [exact A1|symmetry; exact C1|reflexivity|reflexivity|exact mk_add2|exact mk_use2| |].
    { rewrite <-mk_s1_eq. exact (proj1 (mk_run2 hashf HCC)). }
    pose proof (sf_log _ _ _ _ _ _ _ _ _ _ _ _ _ _ _ _ _ _ _ _ _ _ _ _ _ _ B2) as L2.
    exists s1, s2, l1, l2. split; [exact B1|]. split; [exact (proj2 (mk_run1 hashf HCC Hi))|]. split; [exact B2|].
    split; [|split].
    - apply (now_keeps 0%Z). simpl. rewrite L2, L1 in A2. exact A2.
    - intros E. unfold contents in C1. rewrite E in C1. simpl in C1. pose proof mk_contents as Hin.
      unfold mk_p in Hin. rewrite <-C1 in Hin. by apply elem_of_empty in Hin.
    - eapply (sfh_run code hashf HCC mk_right (fun _ => False)); [apply sfh_start|by intros x []|exact B1].
  Qed.
End case.
