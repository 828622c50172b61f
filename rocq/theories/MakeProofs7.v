(** Proofs for C84-C87, put together. *)
From stdpp Require Import base gmap list strings relations.
From Verif Require Import TopDirModel DriverModel RegistryModel.
From Verif Require Import PathModel FindModel FileHashModel FileHashSpec FilesModel FilesSpec.
From Verif Require Import ContextModel RunnerModel RunnerSpec RunnerSpec2 RunnerProofs RunnerProofs2 ChainModel ChainProofs YamlModel YamlSpec.
From Verif Require Import MainModel MainSpec ProjModel ProjSpec EndSpec BuildModel BuildSpec MakeModel MakeSpec.
From Verif Require Import YamlProofs ProjLaid ProjProofs ProjProofs2 ProjProofs3 ProjProofs4 ProjProofs5 ProjProofs7 EndProofs MakeProofs MakeProofs2 MakeProofs3 MakeProofs4 MakeProofs5 MakeProofs6.
From Verif Require Import BuildProofs2 BuildProofs3 BuildProofs4 BuildProofs6 BuildProofs8 BuildProps EndProps.
Local Open Scope list_scope.

(** Exit status 0: everything that was run has ended without error. *)
Lemma nothing_failed M fuel argv m top T wd a r lf objs' addr leafp tr e :
  yaml_project M argv m top T wd -> fab M fuel argv = Some (a, 0) -> r ∈ requests a -> carried_out M lf r objs' addr leafp tr e ->
  forall g b (x : nat) cx, EvStart g b x cx ∈ tr -> EvEnd g b x None ∈ tr.
Proof.
  intros Hy Hf Hr Hco g b x cx Hs. assert (He : e = None) by (by apply (status_result _ _ _ _ _ _ Hf Hr _ _ _ _ _ (proj1 Hco) _ Hco)). subst e.
  destruct Hco as (Huw & (c & ts & Hc & Hret) & _). pose proof (uw_exec _ _ _ _ _ _ Huw) as Hx.
  eapply (all_well addr objs' leafp (snd <$> r_reg r) (uw_leaf _ _ _ _ _ _ Huw) tr Hx); [|exact (exec_part _ _ _ _ _ Hx)|exact Hs].
  intros c' cx' ts' Hc'. destruct (uw_call _ _ _ _ _ _ Huw) as (c0 & ts0 & _ & Hall).
  destruct (Hall _ _ _ Hc') as (-> & _). destruct (Hall _ _ _ Hc) as (-> & _). done.
Qed.

(** The rules of a YAML project among the Files targets. *)
Lemma rule_elem M top T wd lf r objs' (d : string) n ins outs x : expands lf (snd <$> r_reg r) (r_objs r) objs' ->
  made_for M top T wd r d n x -> rule top (tag_lists T) lf d n ins outs -> {| f_id := x; f_in := ins; f_out := outs |} ∈ files_of objs'.
Proof.
  intros Hexp Hm Hr. destruct (rule_files top (tag_lists T) (tag_leaf T) (k_bool M) (k_docs M wd) {| y_objs := r_objs r; y_reg := r_reg r |} lf objs' Hexp d n x ins outs Hm Hr) as (t & ac & E).
  exact (files_elem_r objs' x t ins outs ac E).
Qed.

(** The targets named were carried out. *)
Lemma named_ok M fuel argv m top T wd a st r (Hy : yaml_project M argv m top T wd) (Hf : fab M fuel argv = Some (a, st)) (Hr : r ∈ requests a)
    lf objs' addr leafp tr e (Hco : carried_out M lf r objs' addr leafp tr e) (Hst : st = 0) q : names_target (m_args m) q ->
  exists d (o : nat), r_reg r !! q = Some (d, o) /\ ok objs' (snd <$> r_reg r) tr o.
Proof.
  intros Hq. assert (He : e = None) by (by apply (status_result _ _ _ _ _ _ Hf Hr _ _ _ _ _ (proj1 Hco) _ Hco)).
  destruct (call_named _ _ _ _ _ _ _ _ _ _ Hy Hf Hr _ _ _ _ _ _ Hco q Hq) as (c & ts & u & d & o & Hc & Hret & Hu & Has & Hreg). subst e.
  exists d, o. split; [done|]. destruct Hco as (Huw & _ & _). pose proof (uw_exec _ _ _ _ _ _ Huw) as Hx.
  pose proof (exec_part _ _ _ _ _ Hx) as Hp. pose proof (uw_addr _ _ _ _ _ _ Huw) as Hinj.
  pose proof (ret_none_all _ _ _ _ _ _ _ (proj1 Hx) Hc Hret Hu) as Hs.
  destruct Has as [-> |(x & args & -> & Hlen & Hx')]; [by eapply succ_ok|].
  eapply (ok_insists addr objs' leafp _ Hinj tr tr x); [done|by eapply succ_ok|]. unfold insists, asks. by rewrite Hx'.
Qed.

Section histories.
  Context (hashf : string -> string) (H : json -> hash) (right : FilesModel.rule -> files_state -> Prop).
  Context (Hh : Inj (=) (=) hashf) (Hne : forall c, hashf c <> "") (HH : Inj (=) (=) H) (Hcov : hash_covers right).

  Lemma completed_right M fuel argv m top T wd a st r lf objs' addr leafp U σ tr d n ins outs x :
    fab_history hashf H right σ -> fab_run hashf H right M fuel argv m top T wd a st r lf objs' addr leafp U σ tr ->
    made_for M top T wd r d n x -> rule top (tag_lists T) lf d n ins outs -> ended_well x tr ->
    right {| r_tgt := u_desc U x; r_in := ins; r_out := outs |} (e_fs (after (yaml_build U addr objs' leafp) σ tr)).
  Proof.
    intros Hh1 Hrun Hm Hr (g & b & Hend).
    pose proof (uw_objs _ _ _ _ _ _ (fr_under_way _ _ _ _ _ _ _ _ _ _ _ _ _ _ _ _ _ _ _ _ Hrun)) as Hexp.
    pose proof (rule_elem _ _ _ _ _ _ _ _ _ _ _ _ Hexp Hm Hr) as Hin.
    destruct (run_build hashf H right Hh Hne HH _ _ _ _ _ _ _ _ _ _ _ _ _ _ _ _ _ Hrun) as [owner B].
    apply (history_builds hashf H right Hh Hne HH) in Hh1.
    exact (C58_incremental_build_is_correct hashf H right (yaml_build U addr objs' leafp) owner σ tr {| f_id := x; f_in := ins; f_out := outs |} Hh Hne HH Hcov Hh1 B Hin (ex_intro _ g (ex_intro _ b Hend))).
  Qed.

  (** Two runs in the same project deal with the same rules. *)
  Section two.
    Context (M1 M2 : machine) (fuel1 fuel2 : nat) (argv1 argv2 : list string) (m1 m2 : Main) (top : string) (T : tags) (wd1 wd2 : string)
      (a1 a2 : list act) (st1 st2 : nat) (r1 r2 : request) (lf : string -> node -> string -> option (list string * list string))
      (objs1 objs2 : list shape) (addr1 addr2 : nat -> nat) (leafp1 leafp2 : nat -> ctx -> prog) (U1 U2 : workings) (σ1 σ2 : env) (tr1 tr2 : list event).
    Context (R1 : fab_run hashf H right M1 fuel1 argv1 m1 top T wd1 a1 st1 r1 lf objs1 addr1 leafp1 U1 σ1 tr1).
    Context (R2 : fab_run hashf H right M2 fuel2 argv2 m2 top T wd2 a2 st2 r2 lf objs2 addr2 leafp2 U2 σ2 tr2).
    Context (Hsame : same_yaml M1 wd1 M2 wd2).
    Context (Hdesc : forall o, u_desc U2 o = u_desc U1 o) (Hposs : forall fs, u_possible U1 fs <-> u_possible U2 fs).
    Notation p1 := (yaml_build U1 addr1 objs1 leafp1).
    Notation p2 := (yaml_build U2 addr2 objs2 leafp2).

    Lemma same_targets : r_objs r2 = r_objs r1 /\ r_reg r2 = r_reg r1.
    Proof.
      destruct (project_request _ _ _ _ _ _ _ _ _ _ (fr_project _ _ _ _ _ _ _ _ _ _ _ _ _ _ _ _ _ _ _ _ R1) (fr_fab _ _ _ _ _ _ _ _ _ _ _ _ _ _ _ _ _ _ _ _ R1)
        (fr_request _ _ _ _ _ _ _ _ _ _ _ _ _ _ _ _ _ _ _ _ R1)) as (_ & _ & _ & _ & _ & _ & _ & _ & _ & s1 & K1 & O1 & G1).
      destruct (project_request _ _ _ _ _ _ _ _ _ _ (fr_project _ _ _ _ _ _ _ _ _ _ _ _ _ _ _ _ _ _ _ _ R2) (fr_fab _ _ _ _ _ _ _ _ _ _ _ _ _ _ _ _ _ _ _ _ R2)
        (fr_request _ _ _ _ _ _ _ _ _ _ _ _ _ _ _ _ _ _ _ _ R2)) as (_ & _ & _ & _ & _ & _ & _ & _ & _ & s2 & K2 & O2 & G2).
      pose proof (read_same _ _ _ _ _ _ _ _ _ _ _ Hsame K1 K2) as ->. split; congruence.
    Qed.
    Lemma same_rules_two : same_rules p1 p2.
    Proof.
      destruct same_targets as [Eo Eg]. split; [|intros f _; apply Hdesc|exact Hposs].
      pose proof (uw_objs _ _ _ _ _ _ (fr_under_way _ _ _ _ _ _ _ _ _ _ _ _ _ _ _ _ _ _ _ _ R1)) as X1.
      pose proof (uw_objs _ _ _ _ _ _ (fr_under_way _ _ _ _ _ _ _ _ _ _ _ _ _ _ _ _ _ _ _ _ R2)) as X2. rewrite Eo in X2.
      exact (expands_files _ _ _ _ _ _ X2 X1).
    Qed.

    Context (e1 : option err) (C1 : carried_out M1 lf r1 objs1 addr1 leafp1 tr1 e1) (S1 : st1 = 0).
    Lemma first_named q : names_target (m_args m1) q -> exists d (o : nat), r_reg r1 !! q = Some (d, o) /\ ok objs1 (snd <$> r_reg r1) tr1 o.
    Proof. exact (named_ok _ _ _ _ _ _ _ _ _ _ (fr_project _ _ _ _ _ _ _ _ _ _ _ _ _ _ _ _ _ _ _ _ R1) (fr_fab _ _ _ _ _ _ _ _ _ _ _ _ _ _ _ _ _ _ _ _ R1)
        (fr_request _ _ _ _ _ _ _ _ _ _ _ _ _ _ _ _ _ _ _ _ R1) _ _ _ _ _ _ C1 S1 q). Qed.
    Lemma first_finished f : finished f tr1.
    Proof.
      intros g b cx Hs. pose proof (fr_fab _ _ _ _ _ _ _ _ _ _ _ _ _ _ _ _ _ _ _ _ R1) as Hf1. rewrite S1 in Hf1.
      exact (nothing_failed _ _ _ _ _ _ _ _ _ _ _ _ _ _ _ (fr_project _ _ _ _ _ _ _ _ _ _ _ _ _ _ _ _ _ _ _ _ R1) Hf1
        (fr_request _ _ _ _ _ _ _ _ _ _ _ _ _ _ _ _ _ _ _ _ R1) C1 g b _ cx Hs).
    Qed.

    (** The second right after the first, without -f. *)
    Section repeat.
      Context (Eσ : σ2 = after p1 σ1 tr1) (Hnf : m_force m2 = false) (K1 : database_keeps p1) (K2 : database_keeps p2).
      Lemma repeat_rule f : f ∈ files_of objs1 -> built f tr1 ->
        (forall g n r, EvEff g (OpCmd (f_id f) n) r ∉ tr2) /\
        (forall c g a cx cx', EvStart g a (f_id f) cx ∈ tr2 -> EvCall c (Some g) cx' [RunnerModel.TPtr (target_of objs2 (f_id f))] ∉ tr2) /\
        unchanged (e_fs (after p1 σ1 tr1)) (e_fs (after p2 σ2 tr2)) (f_in f ++ f_out f).
      Proof.
        intros Hf Hb. destruct (run_build hashf H right Hh Hne HH _ _ _ _ _ _ _ _ _ _ _ _ _ _ _ _ _ R1) as [ow1 B1].
        destruct (run_orderly hashf H right _ _ _ _ _ _ _ _ _ _ _ _ _ _ _ _ _ R2) as (ow2 & _ & O2 & _ & _ & W2).
        pose proof (run_session _ _ _ _ _ _ _ _ _ _ _ _ _ _ _ _ _ _ _ _ R2) as SS2. rewrite Eσ in SS2. rewrite Eσ.
        exact (C59_repeated_build_does_nothing hashf H p1 p2 ow1 ow2 σ1 tr1 tr2 f (b_wf _ _ _ _ _ _ _ B1) (b_sep _ _ _ _ _ _ _ B1) K1
          W2 (fr_separate _ _ _ _ _ _ _ _ _ _ _ _ _ _ _ _ _ _ _ _ R2) K2 same_rules_two (b_possible _ _ _ _ _ _ _ B1) (b_session _ _ _ _ _ _ _ B1) SS2
          (b_orderly _ _ _ _ _ _ _ B1) (b_settled _ _ _ _ _ _ _ B1) O2 (run_db _ _ _ _ _ _ _ _ _ _ _ _ _ _ _ _ _ _ _ _ R1) (run_db _ _ _ _ _ _ _ _ _ _ _ _ _ _ _ _ _ _ _ _ R2)
          (run_force _ _ _ _ _ _ _ _ _ _ _ _ _ _ _ _ _ _ _ _ R2 Hnf) Hf Hb (fun q _ => first_finished q)).
      Qed.
      Lemma repeat_nothing : (forall q, names_target (m_args m2) q -> names_target (m_args m1) q) -> forall g i n y, EvEff g (OpCmd i n) y ∉ tr2.
      Proof.
        intros Hargs g i n y Hin.
        destruct (run_orderly hashf H right _ _ _ _ _ _ _ _ _ _ _ _ _ _ _ _ _ R2) as (ow2 & _ & O2 & _ & _ & W2).
        pose proof (run_session _ _ _ _ _ _ _ _ _ _ _ _ _ _ _ _ _ _ _ _ R2) as [T2 _].
        apply elem_of_list_split in Hin as (l1 & l2 & E). assert (T2' := T2). rewrite E in T2', O2.
        destruct (cmd_nest p2 ow2 W2 _ _ _ _ _ _ T2' O2) as (f & gf & b & cx & c & h & Hf & Ef & Hs & _).
        assert (Hs2 : EvStart gf b i cx ∈ tr2) by (rewrite E; apply elem_of_app; by left).
        destruct (the_project _ _ _ _ _ _ _ _ _ _ (fr_project _ _ _ _ _ _ _ _ _ _ _ _ _ _ _ _ _ _ _ _ R1) (fr_fab _ _ _ _ _ _ _ _ _ _ _ _ _ _ _ _ _ _ _ _ R1)
          (fr_request _ _ _ _ _ _ _ _ _ _ _ _ _ _ _ _ _ _ _ _ R1)) as (s & Hl & Ho & Hg).
        destruct same_targets as [Eo Eg].
        pose proof (fr_under_way _ _ _ _ _ _ _ _ _ _ _ _ _ _ _ _ _ _ _ _ R1) as Huw1. pose proof (fr_under_way _ _ _ _ _ _ _ _ _ _ _ _ _ _ _ _ _ _ _ _ R2) as Huw2.
        assert (X1 := uw_objs _ _ _ _ _ _ Huw1). assert (X2 := uw_objs _ _ _ _ _ _ Huw2). rewrite Eo, Eg in X2. rewrite Ho, Hg in X1, X2.
        assert (E1 := uw_exec _ _ _ _ _ _ Huw1). assert (E2 := uw_exec _ _ _ _ _ _ Huw2). rewrite Eg in E2. rewrite Hg in E1, E2.
        assert (Hcl : forall c cx ts t, EvCall c None cx ts ∈ tr2 -> t ∈ ts -> exists (o : nat), asks_for (y_objs s) objs2 t o /\ o < length (y_objs s) /\ ok objs1 (snd <$> y_reg s) tr1 o).
        { intros c' cx' ts t Hc Ht.
          destruct (call_only _ _ _ _ _ _ _ _ _ _ (fr_project _ _ _ _ _ _ _ _ _ _ _ _ _ _ _ _ _ _ _ _ R2) (fr_fab _ _ _ _ _ _ _ _ _ _ _ _ _ _ _ _ _ _ _ _ R2)
            (fr_request _ _ _ _ _ _ _ _ _ _ _ _ _ _ _ _ _ _ _ _ R2) _ _ _ _ _ Huw2 _ _ _ _ Hc Ht) as (_ & q & d & o & Hq & Has & Hreg & _).
          destruct (first_named q (Hargs q Hq)) as (d' & o' & Hreg' & Hok). rewrite Eg, Hreg' in Hreg. assert (o' = o) as -> by congruence.
          exists o. rewrite Eo, Ho in Has. rewrite Hg in Hok. split; [exact Has|]. split; [|exact Hok].
          rewrite Hg in Hreg'. refine (proj1 (reg_known _ _ _ _ _ _ _ Hl q o _)). rewrite lookup_fmap. exact (f_equal (fmap snd) Hreg'). }
        assert (Hno : forall f t ac c g a cx cx', objs2 !! f_id f = Some (SFiles t (f_in f) (f_out f) ac) -> ended_well (f_id f) tr1 ->
          EvStart g a (f_id f) cx ∈ tr2 -> EvCall c (Some g) cx' [RunnerModel.TPtr t] ∉ tr2).
        { intros f0 t ac c0 g0 b0 cx0 cx' Ho2 Hw Hs0. assert (Hf2 : f0 ∈ files_of objs2) by (destruct f0; exact (files_elem_r objs2 _ _ _ _ _ Ho2)).
          rewrite (expands_files _ _ _ _ _ _ X2 X1) in Hf2. destruct (repeat_rule f0 Hf2 Hw) as (_ & Hn & _).
          specialize (Hn c0 g0 b0 cx0 cx' Hs0). unfold target_of in Hn. by rewrite Ho2 in Hn. }
        destruct (started_before _ _ _ _ _ _ s lf objs1 objs2 Hl X1 X2 addr1 addr2 leafp1 leafp2 (uw_addr _ _ _ _ _ _ Huw1) (uw_addr _ _ _ _ _ _ Huw2)
          (uw_leaf _ _ _ _ _ _ Huw2) tr1 tr2 E1 E2 Hcl Hno tr2 (exec_part _ _ _ _ _ E2) gf b i cx Hs2) as [[_ Hok]|[(_ & t & n' & d & Hi)|(_ & o & args & Hi & _)]].
        - assert (Hf1 : f ∈ files_of objs1) by (rewrite <-(expands_files _ _ _ _ _ _ X2 X1); exact Hf).
          assert (Hb : built f tr1).
          { unfold built. rewrite Ef. destruct Hok as [i' _ Hw|i' n' o' Hn' _ _]; [exact Hw|].
            exfalso. unfold is_ref in Hn'. destruct (files_elem _ _ Hf1) as (t & ac & Hi). rewrite Ef in Hi. by rewrite Hn' in Hi. }
          destruct (repeat_rule f Hf1 Hb) as (Hn & _). apply (Hn g n y). rewrite Ef, E. apply elem_of_app. right. by left.
        - destruct (files_elem _ _ Hf) as (t' & ac & Hi'). rewrite Ef in Hi'. by rewrite Hi in Hi'.
        - destruct (files_elem _ _ Hf) as (t' & ac & Hi'). rewrite Ef in Hi'. by rewrite Hi in Hi'.
      Qed.
    End repeat.

    (** Both completed. *)
    Context (e2 : option err) (C2 : carried_out M2 lf r2 objs2 addr2 leafp2 tr2 e2) (S2 : st2 = 0) (Honce : defined_once top (k_docs M1 wd1)).
    Lemma second_named q : names_target (m_args m2) q -> exists d (o : nat), r_reg r2 !! q = Some (d, o) /\ ok objs2 (snd <$> r_reg r2) tr2 o.
    Proof. exact (named_ok _ _ _ _ _ _ _ _ _ _ (fr_project _ _ _ _ _ _ _ _ _ _ _ _ _ _ _ _ _ _ _ _ R2) (fr_fab _ _ _ _ _ _ _ _ _ _ _ _ _ _ _ _ _ _ _ _ R2)
        (fr_request _ _ _ _ _ _ _ _ _ _ _ _ _ _ _ _ _ _ _ _ R2) _ _ _ _ _ _ C2 S2 q). Qed.

    Lemma both_built q : names_target (m_args m1) q -> names_target (m_args m2) q -> exists dir v, EndSpec.defined M1 top wd1 dir q v /\
      forall d n ins outs, required top (tag_lists T) (k_docs M1 wd1) lf false (fun q => is_Some (r_reg r1 !! q)) dir v d n -> rule top (tag_lists T) lf d n ins outs ->
        exists f, f ∈ files_of objs1 /\ f_in f = ins /\ f_out f = outs /\ built f tr1 /\ built f tr2.
    Proof.
      intros Hq1 Hq2. destruct (first_named q Hq1) as (d1 & o & Hr1 & Ok1). destruct (second_named q Hq2) as (d2 & o2 & Hr2 & Ok2).
      destruct same_targets as [Eo Eg]. rewrite Eg in Ok2. rewrite Eg, Hr1 in Hr2. assert (o2 = o) as -> by congruence. clear Hr2.
      destruct (the_project _ _ _ _ _ _ _ _ _ _ (fr_project _ _ _ _ _ _ _ _ _ _ _ _ _ _ _ _ _ _ _ _ R1) (fr_fab _ _ _ _ _ _ _ _ _ _ _ _ _ _ _ _ _ _ _ _ R1)
          (fr_request _ _ _ _ _ _ _ _ _ _ _ _ _ _ _ _ _ _ _ _ R1)) as (s & Hl & Ho & Hg).
      pose proof (fr_under_way _ _ _ _ _ _ _ _ _ _ _ _ _ _ _ _ _ _ _ _ R1) as Huw1. pose proof (fr_under_way _ _ _ _ _ _ _ _ _ _ _ _ _ _ _ _ _ _ _ _ R2) as Huw2.
      assert (X1 := uw_objs _ _ _ _ _ _ Huw1). assert (X2 := uw_objs _ _ _ _ _ _ Huw2). rewrite Eo, Eg in X2. assert (X1' := X1). rewrite Ho, Hg in X1, X2.
      assert (E1 := exec_part _ _ _ _ _ (uw_exec _ _ _ _ _ _ Huw1)). assert (E2 := exec_part _ _ _ _ _ (uw_exec _ _ _ _ _ _ Huw2)). rewrite Eg in E2. rewrite Hg in *.
      destruct (loads_reg _ _ _ _ _ _ _ _ _ _ Hl Hr1) as (dir & k & v & Hd & Hm). exists dir, v. split; [by exists k|].
      intros d n ins outs Hreq Hrule.
      set (P := fun x : nat => ok objs1 (snd <$> y_reg s) tr1 x /\ ((x < length (y_objs s) /\ ok objs2 (snd <$> y_reg s) tr2 x) \/
        (length (y_objs s) <= x /\ exists t n d, objs1 !! x = Some (SLeaf t n d)))).
      destruct (required_closed top (tag_lists T) (tag_leaf T) (k_bool M1) (k_docs M1 wd1) (k_ne M1 wd1 T) s lf objs1 Hl X1 addr1 leafp1 (uw_addr _ _ _ _ _ _ Huw1) Honce false P dir v d n) with (o := o)
        as (x & Hmx & [K1 K2]).
      - (* closed under what is insisted on *)
        intros y t [P1 P2] Hi. split; [by eapply (ok_insists addr1 objs1 leafp1 _ (uw_addr _ _ _ _ _ _ Huw1)); [exact E1|exact P1|]|].
        destruct P2 as [[Hlt P2]|(_ & t0 & n0 & d0 & E0)]; [|unfold insists, asks in Hi; by rewrite E0 in Hi].
        assert (P2i : insists objs2 (snd <$> y_reg s) y t -> ok objs2 (snd <$> y_reg s) tr2 t)
          by (intros Hi2; by eapply (ok_insists addr2 objs2 leafp2 _ (uw_addr _ _ _ _ _ _ Huw2)); [exact E2|exact P2|]).
        assert (Hchild : t ∈ children objs1 y -> (t < length (y_objs s) -> ok objs2 (snd <$> y_reg s) tr2 t) -> (t < length (y_objs s) /\ ok objs2 (snd <$> y_reg s) tr2 t) \/
          (length (y_objs s) <= t /\ exists t' n d, objs1 !! t = Some (SLeaf t' n d))).
        { intros Hc Hk. destruct (child_cases _ _ _ _ _ _ _ _ _ Hl X1 _ _ Hc) as [(Y1 & Y2 & _)|[(Y1 & Y2 & Y3)|(Y1 & _)]]; [left; split; [lia|apply Hk; lia]|by right|lia]. }
        destruct (lookup_lt_is_Some_2 (y_objs s) y Hlt) as [sh Hsh]. destruct (leaf_dec sh) as [(t0 & n0 & d0 & ->)|Hnl].
        + destruct (proj1 (proj2 (proj2 X1)) _ _ _ _ Hsh) as [[E _]|[(us & E & _ & Hus & _)|(t' & ins' & outs' & ac & E & Elf & Ht')]]; unfold insists, asks in Hi; rewrite E in Hi.
          * done.
          * rewrite Forall_forall in Hus. right. by apply Hus.
          * destruct Hi as (f & Hf & ->). left. split; [exact (prereq_lt s lf objs1 X1 f ins' Hf)|]. apply P2i.
            destruct (proj1 (proj2 (proj2 X2)) _ _ _ _ Hsh) as [[_ El]|[(? & _ & El & _)|(t1 & i1 & o1 & c1 & E1' & El & _)]]; [congruence|congruence|].
            assert (i1 = ins') as -> by congruence. unfold insists. rewrite E1'. exists f. rewrite (expands_files _ _ _ _ _ _ X2 X1). done.
        + assert (Y1 := proj1 (proj2 X1) _ _ Hsh Hnl). assert (Y2 := proj1 (proj2 X2) _ _ Hsh Hnl).
          unfold insists, asks in Hi, P2i. rewrite Y1 in Hi. rewrite Y2 in P2i. unfold children in Hchild. rewrite Y1 in Hchild.
          destruct sh as [n0|us|us|t0 args|t0 ins' outs' ac|tag nd dir0].
          * left. split; [|by apply P2i]. exact (proj1 (reg_known _ _ _ _ _ _ _ Hl _ _ Hi)).
          * apply Hchild; [done|intros _; by apply P2i].
          * apply Hchild; [done|intros _; by apply P2i].
          * apply Hchild; [subst; by left|intros _; by apply P2i].
          * destruct Hi as (f & Hf & ->). left. split; [exact (prereq_lt s lf objs1 X1 f ins' Hf)|]. apply P2i. exists f.
            rewrite (expands_files _ _ _ _ _ _ X2 X1). done.
          * by destruct (Hnl tag nd dir0).
      - done.
      - intros y x0 [P1 _] Hx0. destruct P1 as [y Hn _|y n1 o' Hn Hreg _]; [by apply Hn in Hx0|]. unfold is_ref in Hn. assert (n1 = x0) as -> by congruence. by exists o'.
      - exact Hreq.
      - exact Hm.
      - split; [exact Ok1|]. left. split; [|exact Ok2]. refine (proj1 (reg_known _ _ _ _ _ _ _ Hl q o _)). rewrite lookup_fmap. exact (f_equal (fmap snd) Hr1).
      - destruct (rule_files _ _ _ _ _ s lf objs1 X1 _ _ _ _ _ Hmx Hrule) as (t & ac & Hx).
        pose proof (files_elem_r objs1 x t ins outs ac Hx) as Hf.
        exists {| f_id := x; f_in := ins; f_out := outs |}. split; [done|]. split; [done|]. split; [done|].
        split.
        + destruct K1 as [x _ Hw|x n1 o' Hn _ _]; [exact Hw|]. exfalso. unfold is_ref in Hn. by rewrite Hn in Hx.
        + destruct K2 as [[_ K2]|(_ & t0 & n0 & d0 & E0)]; [|by rewrite E0 in Hx].
          rewrite <-(expands_files _ _ _ _ _ _ X2 X1) in Hf. apply files_elem in Hf as (t2 & ac2 & Hx2). cbn [f_id] in Hx2.
          destruct K2 as [x _ Hw|x n1 o' Hn _ _]; [exact Hw|]. exfalso. unfold is_ref in Hn. by rewrite Hn in Hx2.
    Qed.
  End two.
End histories.
