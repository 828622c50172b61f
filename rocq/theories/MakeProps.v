(** C84-C87.  What fab achieves, from the command line and the YAML files to the files of the
    project: C58-C60 (builds) and C78-C83 (the command) together.  The concrete cases are in
    MakeExample.v. *)
From stdpp Require Import base gmap list strings relations.
From Verif Require Import TopDirModel DriverModel RegistryModel.
From Verif Require Import PathModel FindModel FileHashModel FileHashSpec FilesModel FilesSpec.
From Verif Require Import ContextModel RunnerModel RunnerSpec RunnerSpec2 ChainModel YamlModel YamlSpec.
From Verif Require Import MainModel MainSpec ProjModel ProjSpec EndSpec BuildModel BuildSpec MakeModel MakeSpec.
From Verif Require Import EndProofs MakeProofs3 MakeProofs7 BuildProps.
Local Open Scope list_scope.

(** ** C78 (more).  If fab exits with status 0 then nothing that was run failed: every target
    that was started has ended without error (those that nobody insisted on too). *)
Theorem C78_success_nothing_failed M fuel argv m top T wd a r lf objs' addr leafp tr e :
  yaml_project M argv m top T wd -> fab M fuel argv = Some (a, 0) -> r ∈ requests a -> carried_out M lf r objs' addr leafp tr e ->
  forall g b (x : nat) cx, EvStart g b x cx ∈ tr -> EvEnd g b x None ∈ tr.
Proof. exact (nothing_failed M fuel argv m top T wd a r lf objs' addr leafp tr e). Qed.
Print Assumptions C78_success_nothing_failed.

(** ** C84.  After any history (runs of fab, completed or killed, in this or other versions of
    the project; edits of any files), if fab NAME... exits with status 0, then the outputs of
    every rule that the definitions of the targets named require are right for its inputs. *)
Theorem C84_files_are_up_to_date hashf H right M fuel argv m top T wd a r lf objs' addr leafp U σ tr e :
  Inj (=) (=) hashf -> (forall c, hashf c <> "") -> Inj (=) (=) H -> hash_covers right ->
  fab_history hashf H right σ ->
  fab_run hashf H right M fuel argv m top T wd a 0 r lf objs' addr leafp U σ tr -> carried_out M lf r objs' addr leafp tr e ->
  defined_once top (k_docs M wd) ->
  forall q, names_target (m_args m) q -> exists dir v, EndSpec.defined M top wd dir q v /\
    forall d n ins outs, required top (tag_lists T) (k_docs M wd) lf (m_force m) (fun q => is_Some (r_reg r !! q)) dir v d n ->
      rule top (tag_lists T) lf d n ins outs ->
      exists x, made_for M top T wd r d n x /\
        right {| r_tgt := u_desc U x; r_in := ins; r_out := outs |} (e_fs (after (yaml_build U addr objs' leafp) σ tr)).
Proof.
  intros Hh Hne HH Hcov Hhist R Hco Honce q Hq.
  destruct (end_success _ _ _ _ _ _ _ _ _ _ (fr_project _ _ _ _ _ _ _ _ _ _ _ _ _ _ _ _ _ _ _ _ R) (fr_fab _ _ _ _ _ _ _ _ _ _ _ _ _ _ _ _ _ _ _ _ R)
    (fr_request _ _ _ _ _ _ _ _ _ _ _ _ _ _ _ _ _ _ _ _ R) _ _ _ _ _ (proj1 Hco) _ Hco eq_refl Honce q Hq) as (dir & v & Hd & Hreq).
  exists dir, v. split; [done|]. intros d n ins outs Hr Hru.
  rewrite (fr_not_dry _ _ _ _ _ _ _ _ _ _ _ _ _ _ _ _ _ _ _ _ R), orb_false_r in Hreq.
  assert (Htag : tagged n) by (destruct Hru as [(? & Ht & _)|(t & Ht & _)]; by eexists).
  destruct (proj1 (Hreq d n Hr) Htag) as (x & Hm & Hw). exists x. split; [exact Hm|].
  exact (completed_right hashf H right Hh Hne HH Hcov _ _ _ _ _ _ _ _ _ _ _ _ _ _ _ _ _ _ _ _ _ _ Hhist R Hm Hru Hw).
Qed.
Print Assumptions C84_files_are_up_to_date.

(** Even in a run that fails, or is killed: what has been completed is right. *)
Theorem C84_completed_rules_are_right hashf H right M fuel argv m top T wd a st r lf objs' addr leafp U σ tr d n ins outs x :
  Inj (=) (=) hashf -> (forall c, hashf c <> "") -> Inj (=) (=) H -> hash_covers right ->
  fab_history hashf H right σ -> fab_run hashf H right M fuel argv m top T wd a st r lf objs' addr leafp U σ tr ->
  made_for M top T wd r d n x -> rule top (tag_lists T) lf d n ins outs -> ended_well x tr ->
  right {| r_tgt := u_desc U x; r_in := ins; r_out := outs |} (e_fs (after (yaml_build U addr objs' leafp) σ tr)).
Proof. intros Hh Hne HH Hcov. exact (completed_right hashf H right Hh Hne HH Hcov M fuel argv m top T wd a st r lf objs' addr leafp U σ tr d n ins outs x). Qed.
Print Assumptions C84_completed_rules_are_right.

(** ** C85.  Whatever runs of fab and edits there have been, wherever they were killed: if the
    database has the hash of a rule and its files, the outputs are right. *)
Theorem C85_database_is_honest hashf H right σ fuel fs ru h :
  Inj (=) (=) hashf -> (forall c, hashf c <> "") -> Inj (=) (=) H -> hash_covers right ->
  fab_history hashf H right σ -> h ∈ e_db σ -> computeHash hashf H fuel fs ru = HOk h -> right ru fs.
Proof.
  intros Hh Hne HH Hcov Hhist Hin Hc. apply (history_builds hashf H right Hh Hne HH) in Hhist.
  exact (C58_database_holds_only_right_states hashf H right σ Hh Hne HH Hcov Hhist h fuel fs ru Hin Hc).
Qed.
Print Assumptions C85_database_is_honest.

(** ** C86.  fab NAME... again, right after it has succeeded, without -f: no command of any rule
    is run.  (It may be another machine state otherwise, and name fewer targets.) *)
Theorem C86_repetition_runs_nothing hashf H right M1 M2 fuel1 fuel2 argv1 argv2 m1 m2 top T wd1 wd2 a1 a2 st2 r1 r2 lf objs1 objs2 addr1 addr2 leafp1 leafp2 U1 U2 σ tr1 tr2 e :
  Inj (=) (=) hashf -> (forall c, hashf c <> "") -> Inj (=) (=) H ->
  fab_run hashf H right M1 fuel1 argv1 m1 top T wd1 a1 0 r1 lf objs1 addr1 leafp1 U1 σ tr1 -> carried_out M1 lf r1 objs1 addr1 leafp1 tr1 e ->
  fab_run hashf H right M2 fuel2 argv2 m2 top T wd2 a2 st2 r2 lf objs2 addr2 leafp2 U2 (after (yaml_build U1 addr1 objs1 leafp1) σ tr1) tr2 ->
  same_yaml M1 wd1 M2 wd2 -> (forall o, u_desc U2 o = u_desc U1 o) -> (forall fs, u_possible U1 fs <-> u_possible U2 fs) ->
  database_keeps (yaml_build U1 addr1 objs1 leafp1) -> database_keeps (yaml_build U2 addr2 objs2 leafp2) ->
  m_force m2 = false -> (forall q, names_target (m_args m2) q -> names_target (m_args m1) q) ->
  forall g i n y, EvEff g (OpCmd i n) y ∉ tr2.
Proof.
  intros Hh Hne HH R1 C1 R2 Hs Hd Hp K1 K2 Hnf Hn.
  exact (repeat_nothing hashf H right Hh Hne HH M1 M2 fuel1 fuel2 argv1 argv2 m1 m2 top T wd1 wd2 a1 a2 0 st2 r1 r2 lf objs1 objs2 addr1 addr2 leafp1 leafp2 U1 U2 σ _ tr1 tr2
    R1 R2 Hs Hd Hp e C1 eq_refl eq_refl Hnf K1 K2 Hn).
Qed.
Print Assumptions C86_repetition_runs_nothing.

(** Whatever it names: no command is run of a rule that was completed, and its files stay as they
    are. *)
Theorem C86_completed_rules_stay hashf H right M1 M2 fuel1 fuel2 argv1 argv2 m1 m2 top T wd1 wd2 a1 a2 st2 r1 r2 lf objs1 objs2 addr1 addr2 leafp1 leafp2 U1 U2 σ tr1 tr2 e d n ins outs x :
  Inj (=) (=) hashf -> (forall c, hashf c <> "") -> Inj (=) (=) H ->
  fab_run hashf H right M1 fuel1 argv1 m1 top T wd1 a1 0 r1 lf objs1 addr1 leafp1 U1 σ tr1 -> carried_out M1 lf r1 objs1 addr1 leafp1 tr1 e ->
  fab_run hashf H right M2 fuel2 argv2 m2 top T wd2 a2 st2 r2 lf objs2 addr2 leafp2 U2 (after (yaml_build U1 addr1 objs1 leafp1) σ tr1) tr2 ->
  same_yaml M1 wd1 M2 wd2 -> (forall o, u_desc U2 o = u_desc U1 o) -> (forall fs, u_possible U1 fs <-> u_possible U2 fs) ->
  database_keeps (yaml_build U1 addr1 objs1 leafp1) -> database_keeps (yaml_build U2 addr2 objs2 leafp2) ->
  m_force m2 = false ->
  made_for M1 top T wd1 r1 d n x -> rule top (tag_lists T) lf d n ins outs -> ended_well x tr1 ->
  (forall g n r, EvEff g (OpCmd x n) r ∉ tr2) /\
  unchanged (e_fs (after (yaml_build U1 addr1 objs1 leafp1) σ tr1))
    (e_fs (after (yaml_build U2 addr2 objs2 leafp2) (after (yaml_build U1 addr1 objs1 leafp1) σ tr1) tr2)) (ins ++ outs).
Proof.
  intros Hh Hne HH R1 C1 R2 Hs Hd Hp K1 K2 Hnf Hm Hru (g & b & Hw).
  pose proof (uw_objs _ _ _ _ _ _ (fr_under_way _ _ _ _ _ _ _ _ _ _ _ _ _ _ _ _ _ _ _ _ R1)) as Hexp.
  pose proof (rule_elem _ _ _ _ _ _ _ _ _ _ _ _ Hexp Hm Hru) as Hin.
  destruct (repeat_rule hashf H right Hh Hne HH M1 M2 fuel1 fuel2 argv1 argv2 m1 m2 top T wd1 wd2 a1 a2 0 st2 r1 r2 lf objs1 objs2 addr1 addr2 leafp1 leafp2 U1 U2 σ _ tr1 tr2
    R1 R2 Hs Hd Hp e C1 eq_refl eq_refl Hnf K1 K2 _ Hin (ex_intro _ g (ex_intro _ b Hw))) as (E1 & _ & E2).
  exact (conj E1 E2).
Qed.
Print Assumptions C86_completed_rules_stay.

(** ** C87.  If fab NAME... succeeds in two copies of a project, with the same YAML files and the
    same sources, after whatever histories (one of them may be a clean start), and what is right
    is determined by the inputs, then the files of the rules required are the same in both. *)
Theorem C87_same_as_a_clean_build hashf H right M1 M2 fuel1 fuel2 argv1 argv2 m1 m2 top T wd1 wd2 a1 a2 r1 r2 lf objs1 objs2 addr1 addr2 leafp1 leafp2 U1 U2 σ1 σ2 tr1 tr2 e1 e2 :
  Inj (=) (=) hashf -> (forall c, hashf c <> "") -> Inj (=) (=) H -> hash_covers right ->
  fab_history hashf H right σ1 -> fab_history hashf H right σ2 ->
  fab_run hashf H right M1 fuel1 argv1 m1 top T wd1 a1 0 r1 lf objs1 addr1 leafp1 U1 σ1 tr1 -> carried_out M1 lf r1 objs1 addr1 leafp1 tr1 e1 ->
  fab_run hashf H right M2 fuel2 argv2 m2 top T wd2 a2 0 r2 lf objs2 addr2 leafp2 U2 σ2 tr2 -> carried_out M2 lf r2 objs2 addr2 leafp2 tr2 e2 ->
  same_yaml M1 wd1 M2 wd2 -> (forall o, u_desc U2 o = u_desc U1 o) -> (forall fs, u_possible U1 fs <-> u_possible U2 fs) ->
  defined_once top (k_docs M1 wd1) ->
  sources_kept (yaml_build U1 addr1 objs1 leafp1) -> sources_kept (yaml_build U2 addr2 objs2 leafp2) -> determined right (yaml_build U1 addr1 objs1 leafp1) ->
  (forall i, source (yaml_build U1 addr1 objs1 leafp1) i -> same_files (e_fs σ1) [i] (e_fs σ2) [i]) ->
  forall q, names_target (m_args m1) q -> names_target (m_args m2) q -> exists dir v, EndSpec.defined M1 top wd1 dir q v /\
    forall d n ins outs i, required top (tag_lists T) (k_docs M1 wd1) lf false (fun q => is_Some (r_reg r1 !! q)) dir v d n -> rule top (tag_lists T) lf d n ins outs ->
      i ∈ ins \/ i ∈ outs ->
      same_files (e_fs (after (yaml_build U1 addr1 objs1 leafp1) σ1 tr1)) [i] (e_fs (after (yaml_build U2 addr2 objs2 leafp2) σ2 tr2)) [i].
Proof.
  intros Hh Hne HH Hcov N1 N2 R1 C1 R2 C2 Hs Hd Hp Honce Hk1 Hk2 Hdet Hsrc q Hq1 Hq2.
  destruct (both_built hashf H right M1 M2 fuel1 fuel2 argv1 argv2 m1 m2 top T wd1 wd2 a1 a2 0 0 r1 r2 lf objs1 objs2 addr1 addr2 leafp1 leafp2 U1 U2 σ1 σ2 tr1 tr2
    R1 R2 Hs e1 C1 eq_refl e2 C2 eq_refl Honce q Hq1 Hq2) as (dir & v & Hdef & Hb).
  exists dir, v. split; [exact Hdef|]. intros d n ins outs i Hreq Hru Hi.
  destruct (Hb d n ins outs Hreq Hru) as (f & Hf & <- & <- & B1 & B2).
  destruct (run_build hashf H right Hh Hne HH _ _ _ _ _ _ _ _ _ _ _ _ _ _ _ _ _ R1) as [ow1 Bd1].
  destruct (run_build hashf H right Hh Hne HH _ _ _ _ _ _ _ _ _ _ _ _ _ _ _ _ _ R2) as [ow2 Bd2].
  exact (C60_same_as_a_clean_build hashf H right _ _ ow1 ow2 σ1 σ2 tr1 tr2 f i Hh Hne HH Hcov (history_builds hashf H right Hh Hne HH _ N1) (history_builds hashf H right Hh Hne HH _ N2)
    Bd1 Bd2 (same_rules_two hashf H right M1 M2 fuel1 fuel2 argv1 argv2 m1 m2 top T wd1 wd2 a1 a2 0 0 r1 r2 lf objs1 objs2 addr1 addr2 leafp1 leafp2 U1 U2 σ1 σ2 tr1 tr2 R1 R2 Hs Hd Hp)
    Hk1 Hk2 Hdet Hsrc Hf B1 B2 Hi).
Qed.
Print Assumptions C87_same_as_a_clean_build.
