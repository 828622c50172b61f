(** Proofs for C100: all executions. *)
From stdpp Require Import base gmap list strings relations.
From Verif Require Import PathModel CompileModel CompileSpec WorkdirModel WorkdirSpec WorkdirProofs WorkdirProofs2.
Local Open Scope list_scope.

Lemma proper_prefix fs p q : proper fs -> is_dir fs p -> q `prefix_of` p -> q <> [] -> fs !! q = Some FDir.
Proof.
  intros Hp Hd [k ->] Hq. revert Hd. induction k as [|x k IH] using rev_ind; intros Hd.
  - rewrite app_nil_r in Hd. by destruct Hd.
  - apply IH. destruct Hd as [E|E]; [destruct q; [done|]; by destruct k|]. apply Hp in E. unfold parent in E. rewrite (assoc_L (++)) in E.
    by rewrite removelast_last in E.
Qed.
Lemma fresh_not T fs t p nd : fresh T fs t -> fs !! p = Some nd -> ~ t `prefix_of` p.
Proof. intros [_ H] E Hp. by rewrite (H p Hp) in E. Qed.
Lemma fresh_not_dir T fs t p : fresh T fs t -> is_dir fs p -> ~ t `prefix_of` p.
Proof.
  intros Hf [->|E]; [|by eapply fresh_not]. destruct Hf as [(s & ->) _]. intros H%prefix_nil_inv. by destruct (t_tempdir T).
Qed.

Lemma parent_snoc' (p : path) x : parent (p ++ [x]) = p.
Proof. apply removelast_last. Qed.

(** What is above the temporary directories. *)
Definition temp_ok (T : tools) (fs : fsys) : Prop := is_dir fs (t_tempdir T) -> forall q, q `prefix_of` t_tempdir T -> q <> [] -> fs !! q = Some FDir.
Lemma proper_temp T fs : proper fs -> temp_ok T fs.
Proof. intros H Hd q Hq Hn. by eapply proper_prefix. Qed.

Section exec.
  Context (T : tools) (pkgdir binfile : path) (es : list entry) (fs0 : fsys).
  Context (Hproper : temp_ok T fs0) (Hpkg : package_there fs0 pkgdir es) (Hemb : distinct_names (t_embeds T)) (Hbin : is_dir fs0 (parent binfile)).
  Definition right_files (d : driver) : Prop := forall n c, (n, c) ∈ d_files d <-> exists e, e ∈ es /\ e_name e = n /\ e_content e = c /\ go_file e /\ ~ test_file e.

  Lemma anc_start t : is_dir fs0 (t_tempdir T) -> fresh T fs0 t -> anc t (<[t := FDir]> fs0).
  Proof.
    intros Hd Hf q Hq Hn Ht. rewrite lookup_insert_ne by done. apply (Hproper Hd); [|done].
    destruct Hf as [(s & ->) _]. destruct Hq as [k E]. destruct k as [|x k _] using rev_ind; [by rewrite app_nil_r in E|].
    rewrite (assoc_L (++)) in E. apply app_inj_tail in E as [-> _]. by exists k.
  Qed.
  Lemma start_outside t : outside t fs0 (<[t := FDir]> fs0).
  Proof. by apply outside_insert. Qed.

  Lemma prework_files d t fs2 : right_files d -> is_dir fs0 (t_tempdir T) -> fresh T fs0 t -> oks T (prework T t pkgdir d) (<[t := FDir]> fs0) fs2 ->
    (forall q c, q <> ["go.mod"] -> q <> ["go.sum"] -> (fs2 !! (t ++ q) = Some (FFile c) <-> source T es d q c)) /\
    exists m m', t_addreplace T (t_modinit T) = Some m /\ t_tidied T m m' /\ fs2 !! (t ++ ["go.mod"]) = Some (FFile m').
  Proof.
    intros Hd Hdir Hf H. pose proof (anc_start t Hdir Hf) as Ha. pose proof (prework_inside T t pkgdir d) as Hin. apply Forall_app in Hin as [Hin _].
    unfold prework in H, Hin. apply oks_app in H as (f1 & HA & H). apply Forall_app in Hin as [HinA _].
    pose proof (insides_ok _ _ _ _ _ Ha HinA HA) as Ho1. apply (fabdir_over _ _ _ _ _ Hemb) in HA.
    apply oks_app in H as (f2 & HB & H). cbv zeta in HB. destruct HB as (f1a & HB1 & f1b & HB2 & HB).
    assert (Ho1a : outside t (<[t := FDir]> fs0) f1a).
    { eapply outside_trans; [exact Ho1|]. eapply inside_ok; [by eapply anc_outside| |exact HB1]. by apply prefix_app_r. }
    inversion HB2; subst. inversion HB1; subst.
    apply (copies_over T t) in HB; [|by apply prefix_app_r|].
    2:{ intros n c Hn. apply Hd in Hn as (e & He & <- & <- & Hg & _). destruct Hpkg as (_ & _ & Hc). pose proof (Hc e He (proj1 Hg)) as Hx.
        split; [|by eapply fresh_not]. etrans; [apply Ho1a; by eapply fresh_not|]. etrans; [apply (start_outside t); by eapply fresh_not|done]. }
    change (oks T ([OCreate false (t ++ ["driver.go"]); OFill (t ++ ["driver.go"]) (t_render T d)] ++ [OGoInit t; OEditMod (t ++ ["go.mod"]); OGoTidy t]) f2 fs2) in H.
    apply oks_app in H as (f3 & HC & H). apply over_pair in HC.
    destruct H as (f4 & H4 & f5 & H5 & f6 & H6 & ->). inversion H4; subst. inversion H5 as [| | | | | | |? c0 c' ? Hc0 Hc'| | |]; subst.
    rewrite lookup_insert in Hc0. injection Hc0 as <-. inversion H6 as [| | | | | | | |? ? m m' sum Hm Hti| |]; subst.
    rewrite lookup_insert in Hm. injection Hm as <-.
    assert (Hdiff : t ++ ["go.sum"] <> t ++ ["go.mod"]) by (intros E; by apply (inj _) in E).
    split; [|exists c', m'; split_and!; [done|done|]; rewrite lookup_insert_ne by done; by rewrite lookup_insert].
    intros q c Hq1 Hq2.
    assert (t ++ ["go.sum"] <> t ++ q) by (intros E; apply (inj _) in E; by subst).
    assert (t ++ ["go.mod"] <> t ++ q) by (intros E; apply (inj _) in E; by subst).
    rewrite !lookup_insert_ne by done.
    assert (Hno : forall x, <[t := FDir]> fs0 !! (t ++ q) <> Some (FFile x)).
    { intros x E. destruct (decide (t = t ++ q)) as [E'|E']; [rewrite <-E' in E; by rewrite lookup_insert in E|]. rewrite lookup_insert_ne in E by done.
      eapply fresh_not; [exact Hf|exact E|]. by apply prefix_app_r. }
    assert (HAB : over (fun p c => grove (t ++ ["fab"]) (t_embeds T) p c \/ exists n, (n, c) ∈ d_files d /\ p = (t ++ ["pkg"; d_subpkg d]) ++ [n]) (<[t := FDir]> fs0) f2).
    { eapply over_trans; [|exact HA|]; [intros p x x' (? & ? & _ & _ & _ & ->) (n & _ & E); rewrite <-!(assoc_L (++)) in E; apply (inj _) in E; discriminate E|].
      eapply over_ext; [|eapply over_trans; [|apply over_mkdirs|exact HB]]; [|done]. intros p x. naive_solver. }
    assert (HABC : over (fun p c => (grove (t ++ ["fab"]) (t_embeds T) p c \/ exists n, (n, c) ∈ d_files d /\ p = (t ++ ["pkg"; d_subpkg d]) ++ [n]) \/ (p = t ++ ["driver.go"] /\ c = t_render T d)) (<[t := FDir]> fs0) f3).
    { eapply over_trans; [|exact HAB|exact HC].
      intros p x x' [(? & ? & _ & _ & _ & ->)|(n & _ & ->)] [E _]; rewrite <-!(assoc_L (++)) in E; apply (inj _) in E; discriminate E. }
    rewrite (HABC (t ++ q) c). unfold source. split.
    - intros [[[(x & p & Hx & Hi & Hu & E)|(n & Hn & E)]|[E ->]]|[E _]]; [..|by apply Hno in E].
      + rewrite <-(assoc_L (++)) in E. apply (inj _) in E as ->. left. exists x, p. done.
      + rewrite <-(assoc_L (++)) in E. apply (inj _) in E as ->. right. left. apply Hd in Hn as (e & He & <- & <- & Hg & Ht). by exists e.
      + apply (inj _) in E as ->. by right; right.
    - intros [(x & p & Hx & Hi & Hu & ->)|[(e & He & Hg & Ht & -> & ->)|[-> ->]]]; left; [left; left|left; right|by right].
      + exists x, p. split_and!; try done. by rewrite <-(assoc_L (++)).
      + exists (e_name e). split; [apply Hd; by exists e|]. by rewrite <-(assoc_L (++)).
  Qed.

  Definition started (t : path) : Prop := is_dir fs0 (t_tempdir T) /\ fresh T fs0 t.
  Definition replaced (d : driver) (t : path) (fs : fsys) : Prop := exists exe, built_from T es d exe /\ outside t (<[binfile := FFile exe]> fs0) fs /\ t_dev T t = t_dev T (parent binfile).
  Lemma built_lem d t s : right_files d -> started t -> oks T (prework T t pkgdir d ++ [OGoBuild t]) (<[t := FDir]> fs0) s ->
    exists exe, s !! (t ++ ["x"]) = Some (FFile exe) /\ built_from T es d exe /\ outside t fs0 s.
  Proof.
    intros Hr [Hd Hf] H. apply oks_app in H as (f2 & HP & f3 & HB & ->).
    pose proof (prework_inside T t pkgdir d) as Hin. apply Forall_app in Hin as [Hin _].
    pose proof (insides_ok _ _ _ _ _ (anc_start t Hd Hf) Hin HP) as Ho. destruct (prework_files d t f2 Hr Hd Hf HP) as [Hsrc (m & m' & ? & ? & Hm)].
    inversion HB as [| | | | | | | | |? ? tree exe Htree Hexe Hx|]; subst. exists exe. split; [by rewrite lookup_insert|]. split.
    - exists tree. split; [done|]. split; [intros q c Hq1 Hq2; rewrite Htree; by apply Hsrc|]. exists m, m'. by rewrite Htree.
    - eapply outside_trans; [eapply outside_trans; [apply start_outside|exact Ho]|]. apply outside_insert. by apply prefix_app_r.
  Qed.
  Lemma whole_body d t fs : right_files d -> started t -> oks T (body T t pkgdir binfile d) (<[t := FDir]> fs0) fs -> replaced d t fs.
  Proof.
    intros Hr Hst H. rewrite body_prework in H. change [OGoBuild t; ORename (t ++ ["x"]) binfile] with ([OGoBuild t] ++ [ORename (t ++ ["x"]) binfile]) in H.
    rewrite (assoc_L (++)) in H. apply oks_app in H as (f3 & HP & f4 & HR & ->). destruct (built_lem d t f3 Hr Hst HP) as (exe & Hx & Hb & Ho).
    inversion HR as [| | | | | | | | | |? ? c ? Hc Hpar Hne Hnd Hdev]; subst.
    rewrite Hx in Hc. injection Hc as <-. exists exe. split; [done|]. split; [|by rewrite (parent_snoc' t "x") in Hdev].
    intros p Hp. destruct (decide (p = binfile)) as [->|Hn]; [by rewrite !lookup_insert|]. rewrite !(lookup_insert_ne _ binfile) by done.
    rewrite lookup_delete_ne by (intros <-; apply Hp; by apply prefix_app_r). by rewrite Ho.
  Qed.

  Definition good (d : option driver) (c : fsys * phase) : Prop :=
    match c.2 with
    | Started => c.1 = fs0
    | Working t todo => exists d', d = Some d' /\ started t /\ exists dn, body T t pkgdir binfile d' = dn ++ todo /\ oks T dn (<[t := FDir]> fs0) c.1
    | Cleaning t false => started t /\ outside t fs0 c.1
    | Cleaning t true => exists d', d = Some d' /\ started t /\ replaced d' t c.1
    | Finished false => c.1 = fs0 \/ exists t, started t /\ outside t fs0 c.1
    | Finished true => exists d' t, d = Some d' /\ started t /\ replaced d' t c.1
    end.
  Lemma before_end d t dn o todo : body T t pkgdir binfile d = dn ++ o :: todo -> Forall (inside t) dn.
  Proof.
    intros E. rewrite body_prework in E. pose proof (prework_inside T t pkgdir d) as Hin.
    destruct todo as [|x todo _] using rev_ind.
    - change [OGoBuild t; ORename (t ++ ["x"]) binfile] with ([OGoBuild t] ++ [ORename (t ++ ["x"]) binfile]) in E. rewrite (assoc_L (++)) in E.
      apply app_inj_tail in E as [<- _]. done.
    - change [OGoBuild t; ORename (t ++ ["x"]) binfile] with ([OGoBuild t] ++ [ORename (t ++ ["x"]) binfile]) in E. rewrite app_comm_cons, !(assoc_L (++)) in E.
      apply app_inj_tail in E as [E _]. rewrite E in Hin. by apply Forall_app in Hin as [? _].
  Qed.
  Lemma at_end d t dn o todo : body T t pkgdir binfile d = dn ++ o :: todo -> inside t o \/ exists src, o = ORename src binfile.
  Proof.
    intros E. rewrite body_prework in E. pose proof (prework_inside T t pkgdir d) as Hin.
    change [OGoBuild t; ORename (t ++ ["x"]) binfile] with ([OGoBuild t] ++ [ORename (t ++ ["x"]) binfile]) in E. rewrite (assoc_L (++)) in E.
    destruct todo as [|x todo _] using rev_ind.
    - apply app_inj_tail in E as [_ <-]. right. by eexists.
    - rewrite app_comm_cons, (assoc_L (++)) in E. apply app_inj_tail in E as [E _]. rewrite E in Hin. left.
      apply Forall_app in Hin as [_ Hin]. by apply Forall_cons in Hin as [? _].
  Qed.
  Lemma good_step d c c' : (forall d', d = Some d' -> right_files d') -> good d c -> cstep T pkgdir binfile d c c' -> good d c'.
  Proof.
    intros Hr Hg Hs. destruct Hs as [fs Hn|fs|fs d' t Hd Hdir Hf|fs fs' t o todo Ho|fs fs' t o todo Ho|fs t|fs fs' t ok Hx]; unfold good in *; cbn [fst snd] in *.
    - by left.
    - by left.
    - subst fs. exists d'. split; [done|]. split; [done|]. by exists [].
    - destruct Hg as (d' & Hd & Hst & dn & E & Hok). exists d'. split; [done|]. split; [done|]. exists (dn ++ [o]). split; [by rewrite <-(assoc_L (++))|].
      apply oks_app. exists fs. split; [done|]. by exists fs'.
    - destruct Hg as (d' & Hd & Hst & dn & E & Hok). split; [done|]. pose proof (before_end _ _ _ _ _ E) as Hin.
      pose proof (insides_ok _ _ _ _ _ (anc_start t (proj1 Hst) (proj2 Hst)) Hin Hok) as Hout.
      assert (outside t fs0 fs) as H0 by (eapply outside_trans; [apply start_outside|done]).
      destruct (at_end _ _ _ _ _ E) as [Hi|[src ->]]; [|by inversion Ho; subst].
      eapply outside_trans; [exact H0|]. eapply inside_fails; [|exact Hi|exact Ho]. eapply anc_outside; [|exact Hout]. by apply anc_start; destruct Hst.
    - destruct Hg as (d' & Hd & Hst & dn & E & Hok). exists d'. split; [done|]. split; [done|]. rewrite app_nil_r in E. subst dn. apply whole_body; [by apply Hr|done|done].
    - assert (Hout : outside t fs fs') by (intros p Hp; destruct (Hx p) as [?|[? _]]; done).
      destruct ok.
      + destruct Hg as (d' & Hd & Hst & exe & Hb & Ho & Hdev). exists d', t. split; [done|]. split; [done|]. exists exe. split; [done|]. split; [by eapply outside_trans|done].
      + destruct Hg as [Hst Ho]. right. exists t. split; [done|]. by eapply outside_trans.
  Qed.
  Lemma good_run d c : (forall d', d = Some d' -> right_files d') -> rtc (cstep T pkgdir binfile d) (fs0, Started) c -> good d c.
  Proof. intros Hr H. assert (good d (fs0, Started)) as H0 by done. induction H as [c|c1 c2 c3 H1 H2 IH]; [done|]. by eapply IH, good_step. Qed.
End exec.
