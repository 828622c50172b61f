(** Proofs for C100: many calls at once. *)
From stdpp Require Import base gmap list strings relations.
From Verif Require Import PathModel CompileModel CompileSpec CompileProofs2 WorkdirModel WorkdirSpec WorkdirSpec2 WorkdirSpec3 WorkdirProofs WorkdirProofs2 WorkdirProofs3 WorkdirProofs4 WorkdirProofs5 WorkdirProofs6.
Local Open Scope list_scope.

Section many.
  Context (T : tools) (calls : nat -> call) (fs0 : fsys) (R : ready T calls fs0).
  Local Notation bin i := (k_binfile (calls i)).
  Local Notation pkg i := (k_pkgdir (calls i)).
  Local Notation pes i := (k_es (calls i)).
  Local Notation dr i := (k_driver (calls i)).
  Local Notation sh i := (shared_step T (pkg i) (bin i) (pes i) (dr i)).

  Lemma right_i i d' : dr i = Some d' -> right_files (pes i) d'.
  Proof. intros H. exact (copies_lem _ (r_order _ _ _ R i) _ _ _ d' H). Qed.
  Lemma bin_apart i t : fresh T fs0 t -> ~ t `prefix_of` bin i.
  Proof.
    intros Hf Hp. destruct (decide (t = bin i)) as [E|E].
    - destruct Hf as [(s & Es) _]. apply (r_apart _ _ _ R i). rewrite <-E, Es. apply parent_snoc'.
    - apply (fresh_not_dir T fs0 t (parent (bin i)) Hf (r_parent _ _ _ R i)). destruct Hp as [k Ek]. rewrite Ek.
      destruct k as [|x k _] using rev_ind; [rewrite app_nil_r in Ek; by rewrite Ek in E|]. rewrite (assoc_L (++)), parent_snoc'. by apply prefix_app_r.
  Qed.
  Lemma temp_dirs q : q `prefix_of` t_tempdir T -> q <> [] -> fs0 !! q = Some FDir.
  Proof. intros Hq Hn. exact (proper_temp T fs0 (r_proper _ _ _ R) (r_temp _ _ _ R) q Hq Hn). Qed.

  Definition G (fs : fsys) : Prop := forall p, fs !! p = fs0 !! p \/ (exists t, fresh T fs0 t /\ t `prefix_of` p) \/ new_binary T calls fs p.
  Lemma G_keep fs p nd : G fs -> fs0 !! p = Some nd -> (forall j, bin j <> p) -> fs !! p = Some nd.
  Proof.
    intros HG E Hb. destruct (HG p) as [->|[(t & [_ Hf] & Ht)|(i & d & exe & Hi & _)]]; [done| |by destruct (Hb i)].
    rewrite (Hf p Ht) in E. done.
  Qed.
  Lemma dir_keep fs p : G fs -> is_dir fs0 p -> is_dir fs p.
  Proof. intros HG [->|E]; [by left|]. right. apply (G_keep fs p FDir HG E). intros j <-. by apply (r_nodir _ _ _ R j). Qed.
  Lemma src_keep fs j e : G fs -> e ∈ pes j -> e_isdir e = false -> fs !! (pkg j ++ [e_name e]) = Some (FFile (e_content e)).
  Proof.
    intros HG He Hd. destruct (r_package _ _ _ R j) as (_ & _ & Hp). apply (G_keep fs _ _ HG (Hp e He Hd)). intros i. by apply (r_source _ _ _ R).
  Qed.

  Definition base (j : nat) (fs : fsys) : Prop := temp_ok T fs /\ package_there fs (pkg j) (pes j) /\ forall t, fresh T fs t -> fresh T fs0 t.
  Lemma base_G j fs : G fs -> base j fs.
  Proof.
    intros HG. split; [|split].
    - intros _ q Hq Hn. pose proof (temp_dirs q Hq Hn) as E. apply (G_keep fs q FDir HG E). intros i <-. by apply (r_nodir _ _ _ R i).
    - destruct (r_package _ _ _ R j) as (Hd & Hnd & Hp). split; [by apply dir_keep|]. split; [done|]. intros e He Hx. by apply src_keep.
    - intros t [Hs Hf]. split; [done|]. intros p Hp. pose proof (Hf p Hp) as E. destruct (HG p) as [<-|[(t' & [_ Hf'] & Ht')|(i & d & exe & _ & _ & _ & E')]]; [done|by apply Hf'|].
      by rewrite E in E'.
  Qed.

  Definition Inv (fs : fsys) (phs : nat -> phase) : Prop :=
    G fs /\ (forall j, phs j = Started \/ exists fsj, base j fsj /\ rtc (sh j) (fsj, Started) (fs, phs j)) /\
    (forall i j t, i <> j -> tmp_of (phs i) = Some t -> tmp_of (phs j) <> Some t) /\
    (forall i, ended (phs i) -> new_binary T calls fs (bin i)) /\
    (forall p, (forall t, fresh T fs0 t -> ~ t `prefix_of` p) -> (forall i, bin i = p -> ~ ended (phs i)) -> fs !! p = fs0 !! p).

  Definition touch (i : nat) (t : path) (fs fs' : fsys) : Prop :=
    outside t fs fs' \/ exists d' exe, dr i = Some d' /\ built_from T (pes i) d' exe /\ outside t (<[bin i := FFile exe]> fs) fs'.
  Lemma touch_cases i t fs fs' p : touch i t fs fs' -> ~ t `prefix_of` p -> fs' !! p = fs !! p \/ p = bin i /\ new_binary T calls fs' p.
  Proof.
    intros [H|(d' & exe & Hd & Hb & H)] Hp; [left; by apply H|]. destruct (decide (p = bin i)) as [->|Hn].
    - right. split; [done|]. exists i, d', exe. split_and!; try done. rewrite (H _ Hp). by rewrite lookup_insert.
    - left. rewrite (H _ Hp). by rewrite lookup_insert_ne.
  Qed.
  Lemma touch_nb i t fs fs' p : touch i t fs fs' -> ~ t `prefix_of` p -> new_binary T calls fs p -> new_binary T calls fs' p.
  Proof.
    intros H Hp (j & d & exe & ? & ? & ? & E). destruct (touch_cases i t fs fs' p H Hp) as [E'|[_ ?]]; [|done].
    exists j, d, exe. split_and!; try done. by rewrite E'.
  Qed.
  Lemma touch_G i t fs fs' : fresh T fs0 t -> touch i t fs fs' -> G fs -> G fs'.
  Proof.
    intros Hf H HG p. destruct (decide (t `prefix_of` p)) as [Hp|Hp]; [right; left; by exists t|].
    destruct (HG p) as [E|[?|Hb]].
    - destruct (touch_cases i t fs fs' p H Hp) as [E'|[_ ?]]; [left; by rewrite E', E|by right; right].
    - by right; left.
    - right; right. by eapply touch_nb.
  Qed.
  Lemma touch_agree i j t t' fs fs' : fresh T fs0 t -> fresh T fs0 t' -> t <> t' -> touch i t fs fs' -> agree (pkg j) (pes j) t' fs fs'.
  Proof.
    intros Hf Hf' Hn H p Hp.
    assert (Hx : ~ t `prefix_of` p /\ p <> bin i).
    { destruct (proj1 Hf) as (s & Es). destruct (proj1 Hf') as (s' & Es'). destruct Hp as [Hp|[Hp|[->|(e & He & Hd & ->)]]].
      - split; [|intros ->; by eapply bin_apart]. intros Hq. destruct Hp as [k ->]. rewrite Es, Es' in Hq. rewrite <-(assoc_L (++)) in Hq.
        apply prefix_app_inv in Hq. simpl in Hq. apply prefix_cons_inv_1 in Hq. apply Hn. by rewrite Es, Es', Hq.
      - destruct (decide (p = t')) as [->|Hpt].
        + split; [|intros ->; by apply (bin_apart i (bin i) Hf')]. intros Hq. rewrite Es, Es' in Hq. apply prefix_app_inv in Hq.
          apply prefix_cons_inv_1 in Hq. apply Hn. by rewrite Es, Es', Hq.
        + assert (Hq : p `prefix_of` t_tempdir T).
          { destruct Hp as [k Ek]. destruct k as [|x k _] using rev_ind; [by rewrite app_nil_r in Ek|]. rewrite Es', (assoc_L (++)) in Ek.
            apply app_inj_tail in Ek as [-> _]. by apply prefix_app_r. }
          split.
          * intros Hq'. assert (Hl : t `prefix_of` t_tempdir T) by (by etrans). apply prefix_length in Hl. rewrite Es, app_length in Hl. simpl in Hl. lia.
          * intros ->. apply (r_nodir _ _ _ R i). apply temp_dirs; [done|]. apply (r_root _ _ _ R).
      - destruct (r_package _ _ _ R j) as (Hd & _). split; [by eapply fresh_not_dir|]. destruct Hd as [Hd|Hd]; [rewrite Hd; intros E; by apply (r_root _ _ _ R i)|].
        intros E. rewrite E in Hd. by apply (r_nodir _ _ _ R i).
      - split; [|intros E; by apply (r_source _ _ _ R i j e)]. intros Hq. destruct (r_package _ _ _ R j) as (_ & _ & Hp).
        pose proof (Hp e He Hd) as E. by rewrite (proj2 Hf _ Hq) in E. }
    destruct Hx as [H1 H2]. by destruct (touch_cases i t fs fs' p H H1) as [?|[? _]].
  Qed.

  Lemma seen_tmp j fsj fs ph t : base j fsj -> rtc (sh j) (fsj, Started) (fs, ph) -> tmp_of ph = Some t -> fresh T fs0 t.
  Proof.
    intros (Ht & Hp & Hb) H E. apply (seen_run T (pkg j) (bin j) (pes j) fsj (dr j)) in H; [|by apply right_i]. apply Hb.
    unfold seen in H. cbn [fst snd] in H. destruct ph as [|t' todo|t' ok|ok]; try done; simpl in E; injection E as ->; [|apply H].
    destruct todo; [apply H|]. destruct H as (? & ? & ? & _ & Hst & _). apply Hst.
  Qed.

  Lemma ended_stays i fs ph fs' ph' : cstep T (pkg i) (bin i) (dr i) (fs, ph) (fs', ph') -> ended ph -> ended ph'.
  Proof. intros H He. inversion H; subst; try done. Qed.
  Lemma Inv_step fs phs fs' phs' : Inv fs phs -> many_step T calls (fs, phs) (fs', phs') -> Inv fs' phs'.
  Proof.
    intros (HG & H2 & H3 & H4 & H5) (i & Hs & Ho & Hd). cbn [fst snd] in *.
    assert (Hi : exists fsi, base i fsi /\ rtc (sh i) (fsi, Started) (fs, phs i)).
    { destruct (H2 i) as [E|?]; [|done]. exists fs. split; [by apply base_G|]. rewrite E. constructor. }
    destruct Hi as (fsi & Hb & Hrun).
    assert (Ht : fs' = fs \/ exists t, fresh T fs0 t /\ (tmp_of (phs i) = Some t \/ tmp_of (phs' i) = Some t) /\ touch i t fs fs' /\ (outside t fs fs' \/ ended (phs' i))).
    { destruct (step_touches T (pkg i) (bin i) (pes i) fsi (proj1 Hb) (proj1 (proj2 Hb)) (r_embeds _ _ _ R) (dr i) fs (phs i) fs' (phs' i) (right_i i) Hrun Hs) as [?|(t & Hf & Ht & Hx)]; [by left|].
      right. exists t. split; [by apply Hb|]. split; [done|]. destruct Hx as [?|(d' & exe & ? & ? & _ & Ex & ?)]; [by split; left|]. split; [right; by exists d', exe|]. right. by rewrite Ex. }
    assert (HG' : G fs') by (destruct Ht as [->|(t & ? & _ & ? & _)]; [done|by eapply touch_G]).
    split; [done|]. split; [|split; [|split]].
    - intros j. destruct (decide (j = i)) as [->|Hn].
      + right. exists fsi. split; [done|]. eapply rtc_r; [done|]. by left.
      + rewrite (Ho j Hn). destruct (H2 j) as [?|(fsj & Hbj & Hrj)]; [by left|].
        assert (Ha : forall t', tmp_of (phs j) = Some t' -> agree (pkg j) (pes j) t' fs fs').
        { intros t' Et. destruct Ht as [->|(t & Hf & Hx & Htc & _)]; [by intros p _|]. eapply touch_agree; [exact Hf|by eapply seen_tmp| |done].
          intros ->. destruct Hx as [Hx|Hx]; [by apply (H3 i j t')|by apply (Hd j t')]. }
        destruct (phs j) as [|t' todo|t' ok|ok] eqn:Ej; [by left| | |]; right; exists fsj; (split; [done|]); (eapply rtc_r; [done|]); right; (split; [done|]); cbn [fst snd]; [by apply Ha|by apply Ha|done].
    - intros a b t Hab Ea. destruct (decide (a = i)) as [->|Ha]; [rewrite (Ho b) by done; by apply Hd|]. rewrite (Ho a Ha) in Ea.
      destruct (decide (b = i)) as [->|Hb']; [intros Eb; by apply (Hd a t)|]. rewrite (Ho b Hb'). by apply (H3 a b).
    - intros k He. destruct (decide (k = i)) as [->|Hk].
      + destruct (ends_by_rename T (pkg i) (bin i) (pes i) fsi (dr i) _ _ (right_i i) Hrun Hs He) as [He'|(t & E1 & E2)]; cbn [fst snd] in *.
        * destruct Ht as [->|(t & Hf & _ & Htc & _)]; [by apply H4|]. eapply touch_nb; [done|by apply bin_apart|by apply H4].
        * rewrite E1 in Hrun, Hs. rewrite E2 in Hs.
          destruct (rename_replaces T (pkg i) (bin i) (pes i) fsi (proj1 Hb) (proj1 (proj2 Hb)) (r_embeds _ _ _ R) (dr i) t fs fs' (right_i i) Hrun Hs) as (Hf & d' & exe & ? & ? & Hx).
          exists i, d', exe. split_and!; try done. rewrite (Hx (bin i)); [by rewrite lookup_insert|]. by apply bin_apart, Hb.
      + rewrite (Ho k Hk) in He. destruct Ht as [->|(t & Hf & _ & Htc & _)]; [by apply H4|]. eapply touch_nb; [done|by apply bin_apart|by apply H4].
    - intros p Hp Hn. assert (Hpn : forall j, bin j = p -> ~ ended (phs j)).
      { intros j Hj He. apply (Hn j Hj). destruct (decide (j = i)) as [->|Hji]; [by eapply ended_stays|by rewrite Ho]. }
      rewrite <-(H5 p Hp Hpn). destruct Ht as [->|(t & Hf & _ & Htc & [?|He])]; [done|auto|].
      destruct (touch_cases i t fs fs' p Htc (Hp t Hf)) as [?|[E _]]; [done|]. by destruct (Hn i (eq_sym E)).
  Qed.
  Lemma Inv_run phs0 fs phs : (forall i, phs0 i = Started) -> rtc (many_step T calls) (fs0, phs0) (fs, phs) -> Inv fs phs.
  Proof.
    intros H0 H. assert (Hi : Inv fs0 phs0).
    { split; [by intros p; left|]. split; [by intros j; left|]. split; [intros i j t _; by rewrite H0|]. split; [|done]. intros i. by rewrite H0. }
    enough (forall c c', rtc (many_step T calls) c c' -> Inv c.1 c.2 -> Inv c'.1 c'.2) as HE by exact (HE _ _ H Hi).
    clear H Hi H0. intros c c' H. induction H as [c|[a1 a2] [b1 b2] c H1 _ IH]; [done|]. intros Ha. apply IH. by eapply Inv_step.
  Qed.
End many.
