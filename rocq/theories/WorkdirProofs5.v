(** Proofs for C100: a successful execution. *)
From stdpp Require Import base gmap list strings relations.
From Verif Require Import PathModel CompileModel CompileSpec WorkdirModel WorkdirSpec WorkdirProofs WorkdirProofs2 WorkdirProofs3 WorkdirProofs4.
Local Open Scope list_scope.

Lemma oks_one T o fs fs' : succeeds T o fs fs' -> oks T [o] fs fs'.
Proof. intros H. by exists fs'. Qed.
Lemma copied_in es n c : (n, c) ∈ copied es -> exists e, e ∈ es /\ e_isdir e = false /\ e_name e = n /\ e_content e = c.
Proof. unfold copied. intros (e & [= -> ->] & He)%elem_of_list_fmap. apply elem_of_list_filter in He as [(? & _) ?]. by exists e. Qed.
Lemma copied_names es : NoDup (e_name <$> es) -> NoDup (copied es).*1.
Proof.
  induction es as [|e es IH]; intros H; [constructor|]. simpl in H. apply NoDup_cons in H as [Hn H]. unfold copied. rewrite filter_cons.
  destruct (decide _); [|by apply IH]. simpl. apply NoDup_cons. split; [|by apply IH]. intros ([n c] & E & Hx)%elem_of_list_fmap. simpl in E. subst n.
  apply copied_in in Hx as (e' & He & _ & E & _). apply Hn. rewrite <-E. by apply elem_of_list_fmap_1.
Qed.

Section can.
  Context (T : tools) (pkgdir binfile : path) (es : list entry) (fs0 : fsys).
  Context (Hproper : temp_ok T fs0) (Hpkg : package_there fs0 pkgdir es) (Hemb : distinct_names (t_embeds T)) (Hbin : is_dir fs0 (parent binfile)).

  Lemma fab_can t fs : solid fs t -> void fs (t ++ ["fab"]) ->
    exists fs', oks T (populateFabDir_ops t (t_embeds T)) fs fs' /\ forall p, ~ (t ++ ["fab"]) `prefix_of` p -> fs' !! p = fs !! p.
  Proof.
    intros Hs Hv. destruct (mkdir_can T fs t "fab" [] Hs Hv) as (f1 & H1 & S1 & O1 & N1).
    destruct (forest_can T (t ++ ["fab"]) (t_embeds T) f1) as (f2 & H2 & E2); [apply Forall_forall; intros e _; apply populate_can|done|done| |].
    - intros e He q Hq. rewrite N1; [|intros Hx; exact (snoc_prefix_q (t ++ ["fab"]) q [] _ Hx Hq)]. apply Hv. etrans; [|exact Hq]. by apply prefix_app_r.
    - exists f2. split; [by exists f1|]. intros p Hp. rewrite E2; [by apply O1|]. intros (e & _ & Hx). apply Hp. etrans; [|exact Hx]. by apply prefix_app_r.
  Qed.

  Lemma prework_can d t m m' : d_files d = copied es -> is_dir fs0 (t_tempdir T) -> fresh T fs0 t -> t_addreplace T (t_modinit T) = Some m -> t_tidied T m m' ->
    exists fs2, oks T (prework T t pkgdir d) (<[t := FDir]> fs0) fs2 /\ fs2 !! (t ++ ["x"]) = None.
  Proof.
    intros Hfiles Hd Hf Hm Hti. pose proof (anc_start T fs0 Hproper t Hd Hf) as Ha.
    assert (Hnt : t <> []) by (destruct Hf as [(s & ->) _]; by destruct (t_tempdir T)).
    assert (S0 : solid (<[t := FDir]> fs0) t).
    { intros q Hq Hn. destruct (decide (q = t)) as [->|Hne]; [by rewrite lookup_insert|]. by apply Ha. }
    assert (V0 : forall x, void (<[t := FDir]> fs0) (t ++ [x])).
    { intros x q Hq. rewrite lookup_insert_ne by (intros <-; by eapply snoc_prefix). apply Hf. etrans; [|exact Hq]. by apply prefix_app_r. }
    destruct (fab_can t _ S0 (V0 "fab")) as (f1 & H1 & O1).
    assert (Hkeep : forall x y q, x <> y -> (t ++ [x]) `prefix_of` q -> ~ (t ++ [y]) `prefix_of` q) by (intros x y q Hxy A B; by pose proof (two_below _ _ _ _ A B)).
    assert (Hpre : forall y q, q `prefix_of` t -> ~ (t ++ [y]) `prefix_of` q) by (intros y q A B; exact (snoc_prefix_q t q [] y A B)).
    assert (S1 : solid f1 t) by (eapply (solid_keep _ f1 t (fun q => (t ++ ["fab"]) `prefix_of` q)); [exact S0|done|apply Hpre]).
    assert (V1 : forall x, x <> "fab" -> void f1 (t ++ [x])) by (intros x Hx q Hq; rewrite O1; [by apply (V0 x)|by eapply Hkeep]).
    destruct (mkdir_can T f1 t "pkg" [d_subpkg d] S1) as (f2 & H2 & S2 & O2 & N2); [by apply V1|].
    assert (S2' : solid f2 t) by (eapply (solid_keep _ f2 t (fun q => (t ++ ["pkg"]) `prefix_of` q)); [exact S1|done|apply Hpre]).
    assert (V2 : forall x, x <> "fab" -> x <> "pkg" -> void f2 (t ++ [x])) by (intros x Hx Hy q Hq; rewrite O2; [by apply (V1 x)|by eapply Hkeep]).
    assert (Out : forall p, ~ t `prefix_of` p -> f2 !! p = fs0 !! p).
    { intros p Hp. assert (forall y, ~ (t ++ [y]) `prefix_of` p) by (intros y Hy; apply Hp; etrans; [|exact Hy]; by apply prefix_app_r).
      rewrite O2, O1 by done. rewrite lookup_insert_ne; [done|]. by intros <-. }
    destruct (copies_can T pkgdir (t ++ ["pkg"; d_subpkg d]) (d_files d) f2) as (f3 & H3 & O3).
    - exact S2.
    - rewrite Hfiles. apply copied_names, Hpkg.
    - intros n c Hn. split.
      + rewrite N2; [|apply (snoc_prefix (t ++ ["pkg"; d_subpkg d]) [] n)]. apply (V1 "pkg"); [done|]. exists [d_subpkg d; n]. by rewrite <-!(assoc_L (++)).
      + rewrite Hfiles in Hn. apply copied_in in Hn as (e & He & Hi & <- & <-). destruct Hpkg as (_ & _ & Hc). pose proof (Hc e He Hi) as E.
        rewrite Out; [exact E|]. by eapply fresh_not.
    - assert (Hsub : forall q, (t ++ ["pkg"; d_subpkg d]) `prefix_of` q -> (t ++ ["pkg"]) `prefix_of` q).
      { intros q Hq. etrans; [|exact Hq]. exists [d_subpkg d]. by rewrite <-(assoc_L (++)). }
      assert (S3 : solid f3 t).
      { eapply (solid_keep _ f3 t (fun q => (t ++ ["pkg"; d_subpkg d]) `prefix_of` q)); [exact S2'|intros q Hq; apply O3; by left|].
        intros q Hq Hx. eapply (Hpre "pkg" q Hq). by apply Hsub. }
      assert (V3 : forall x, x <> "fab" -> x <> "pkg" -> void f3 (t ++ [x])).
      { intros x Hx Hy q Hq. rewrite O3; [by apply (V2 x)|]. left. intros Hz. eapply (Hkeep x "pkg" q); [done|done|by apply Hsub]. }
      assert (Hnr : is_dir f2 pkgdir).
      { destruct Hpkg as (Hdir & _). pose proof (fresh_not_dir _ _ _ _ Hf Hdir) as Hnp. destruct Hdir as [->|E]; [by left|]. right. by rewrite Out. }
      assert (Hd2 : forall x y, x <> y -> t ++ [x] <> t ++ [y]) by (intros x y Hxy E; apply (inj _) in E; by injection E).
      set (f4 := <[t ++ ["driver.go"] := FFile (t_render T d)]> f3).
      set (f5 := <[t ++ ["go.mod"] := FFile (t_modinit T)]> f4). set (f6 := <[t ++ ["go.mod"] := FFile m]> f5).
      set (f7 := <[t ++ ["go.sum"] := FFile ""]> (<[t ++ ["go.mod"] := FFile m']> f6)).
      exists f7. split.
      + unfold prework. apply oks_app. exists f1. split; [exact H1|]. apply oks_app. exists f3. split.
        * cbv zeta. exists f2. split; [exact H2|]. exists f2. split; [by constructor|exact H3].
        * change (oks T ([OCreate false (t ++ ["driver.go"]); OFill (t ++ ["driver.go"]) (t_render T d)] ++ [OGoInit t; OEditMod (t ++ ["go.mod"]); OGoTidy t]) f3 f7).
          apply oks_app. exists f4. split; [apply write_can; [done|by apply (V3 "driver.go")]|].
          exists f5. split; [constructor; [|unfold f4; rewrite lookup_insert_ne by (by apply Hd2); by apply (V3 "go.mod")]|].
          { apply solid_dir. eapply (solid_keep f3 f4 t (fun q => q = t ++ ["driver.go"])); [done|intros q Hq; unfold f4; by rewrite lookup_insert_ne|].
            intros q Hq ->. by eapply snoc_prefix. }
          exists f6. split; [econstructor; [unfold f5; by rewrite lookup_insert|done]|]. exists f7. split; [|done].
          apply (s_tidy T t f6 m m' ""); [unfold f6; by rewrite lookup_insert|done|]. unfold f6, f5, f4. rewrite !lookup_insert_ne by (by apply Hd2).
          rewrite (V3 "go.sum"); done.
      + unfold f7, f6, f5, f4. rewrite !lookup_insert_ne by (by apply Hd2). by apply (V3 "x").
  Qed.

  Lemma oks_run d t dn todo fs1 fs2 : oks T dn fs1 fs2 -> rtc (cstep T pkgdir binfile d) (fs1, Working t (dn ++ todo)) (fs2, Working t todo).
  Proof.
    revert fs1. induction dn as [|o dn IH]; intros fs1 H; simpl in H; [subst; constructor|]. destruct H as (f1 & H1 & H2).
    eapply rtc_l; [by apply c_ok|]. by apply IH.
  Qed.

  Lemma run_can d t m m' : d_files d = copied es -> right_files es d -> is_dir fs0 (t_tempdir T) -> fresh T fs0 t ->
    t_addreplace T (t_modinit T) = Some m -> t_tidied T m m' ->
    (forall tree, (forall q c, q <> ["go.mod"] -> q <> ["go.sum"] -> (tree q = Some (FFile c) <-> source T es d q c)) -> is_Some (t_build T tree)) ->
    binfile <> [] -> binfile <> t -> fs0 !! binfile <> Some FDir -> t_dev T t = t_dev T (parent binfile) ->
    exists exe, built_from T es d exe /\ rtc (cstep T pkgdir binfile (Some d)) (fs0, Started) (<[binfile := FFile exe]> fs0, Finished true).
  Proof.
    intros Hfiles Hr Hd Hf Hm Hti Hbuild Hb1 Hb3 Hb2 Hdev. destruct (prework_can d t m m' Hfiles Hd Hf Hm Hti) as (f2 & HP & Hx).
    pose proof (prework_inside T t pkgdir d) as Hin. apply Forall_app in Hin as [Hin _].
    pose proof (insides_ok _ _ _ _ _ (anc_start T fs0 Hproper t Hd Hf) Hin HP) as Ho.
    destruct (prework_files T pkgdir es fs0 Hproper Hpkg Hemb d t f2 Hr Hd Hf HP) as [Hsrc _]. destruct (Hbuild (below t f2) Hsrc) as [exe Hexe].
    assert (Hnp : ~ t `prefix_of` parent binfile) by (by eapply fresh_not_dir).
    assert (Hout : forall p, ~ t `prefix_of` p -> f2 !! p = fs0 !! p) by (intros p Hp; rewrite Ho by done; by apply start_outside).
    assert (Hnb : binfile <> t ++ ["x"]) by (intros ->; apply Hnp; by rewrite parent_snoc).
    set (f3 := <[t ++ ["x"] := FFile exe]> f2).
    assert (HR : succeeds T (ORename (t ++ ["x"]) binfile) f3 (<[binfile := FFile exe]> (delete (t ++ ["x"]) f3))).
    { constructor; [unfold f3; by rewrite lookup_insert| |done| |rewrite (parent_snoc t "x"); exact Hdev].
      - destruct Hbin as [E|E]; [by left|]. right. unfold f3. rewrite lookup_insert_ne; [by rewrite Hout|]. intros E'. apply Hnp. rewrite <-E'. by apply prefix_app_r.
      - unfold f3. rewrite lookup_insert_ne by done. destruct (decide (t `prefix_of` binfile)) as [Hp|Hp]; [|by rewrite Hout].
        exfalso. destruct binfile as [|y b _] using rev_ind; [done|]. rewrite parent_snoc in Hnp. destruct Hp as [k E].
        destruct k as [|z k _] using rev_ind.
        + by rewrite app_nil_r in E.
        + rewrite (assoc_L (++)) in E. apply app_inj_tail in E as [-> _]. apply Hnp. by apply prefix_app_r. }
    set (f4 := <[binfile := FFile exe]> (delete (t ++ ["x"]) f3)) in HR.
    exists exe. split; [exists (below t f2); split; [done|split; [exact Hsrc|]]|].
    { destruct (prework_files T pkgdir es fs0 Hproper Hpkg Hemb d t f2 Hr Hd Hf HP) as [_ ?]. done. }
    eapply rtc_l; [by eapply c_temp|]. rewrite body_prework. eapply rtc_transitive; [by eapply oks_run|].
    eapply rtc_l; [apply c_ok; eapply s_build; [reflexivity|exact Hexe|by rewrite Hx]|]. fold f3. eapply rtc_l; [apply c_ok; exact HR|].
    eapply rtc_l; [apply c_done|]. eapply rtc_l; [|constructor]. constructor. intros p. destruct (decide (t `prefix_of` p)) as [Hp|Hp].
    - right. split; [done|]. destruct (decide (p = binfile)) as [->|Hne].
      + exfalso. destruct binfile as [|y b _] using rev_ind; [done|]. rewrite parent_snoc in Hnp. destruct Hp as [k E].
        destruct k as [|z k _] using rev_ind; [by rewrite app_nil_r in E|].
        rewrite (assoc_L (++)) in E. apply app_inj_tail in E as [-> _]. apply Hnp. by apply prefix_app_r.
      + rewrite lookup_insert_ne by done. by apply Hf.
    - left. unfold f4, f3. destruct (decide (p = binfile)) as [->|Hne]; [by rewrite !lookup_insert|]. rewrite !(lookup_insert_ne _ binfile) by done.
      assert (t ++ ["x"] <> p) by (intros <-; apply Hp; by apply prefix_app_r). rewrite lookup_delete_ne, lookup_insert_ne by done. by rewrite Hout.
  Qed.
End can.
