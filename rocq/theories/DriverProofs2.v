From stdpp Require Import base gmap list strings.
From Coq Require Import Ascii.
From Verif Require Import PathModel DriverModel DriverSpec DriverProofs.
Local Open Scope list_scope.

Lemma edits_snoc acts a : edits (acts ++ [a]) = edits acts ++ match edit_of a with Some x => [x] | None => [] end.
Proof. apply omap_snoc. Qed.
Lemma starts_snoc acts a : starts (acts ++ [a]) = starts acts ++ match start_of a with Some x => [x] | None => [] end.
Proof. apply omap_snoc. Qed.
Lemma edits_app a b : edits (a ++ b) = edits a ++ edits b. Proof. apply omap_app. Qed.
Lemma starts_app a b : starts (a ++ b) = starts a ++ starts b. Proof. apply omap_app. Qed.

(** Any history, then a run so far. *)
Lemma inv_src_history T s0 pre : hash_ok T -> nothing_yet s0 -> no_return (s_src s0 :: edits pre) ->
  forall s e, exec T s0 pre = Some (s, e) -> exists since, inv_src T (s_src s0 :: edits pre) since s.
Proof.
  intros HT (H1 & H2 & H3 & H4). induction pre as [|a pre IH] using rev_ind; intros Hn s e He.
  - simpl in He. simplify_eq. exists []. constructor; simpl; [done|by rewrite H2|by rewrite H4].
  - apply exec_snoc in He as (s1 & e1 & e2 & He & Hs & ->). rewrite edits_snoc, app_comm_cons in *.
    destruct (IH (no_return_prefix _ _ Hn) _ _ He) as [since Hi]. destruct (inv_src_step _ _ _ _ _ _ _ HT Hi Hs Hn) as [? _]. eauto.
Qed.
Lemma inv_src_run T past sp fab force post : hash_ok T -> forall since0, inv_src T past since0 sp -> no_return (past ++ edits post) ->
  (forall f fo, AStart f fo ∉ post) -> forall s e, exec T sp (AStart fab force :: post) = Some (s, e) ->
  inv_src T (past ++ edits post) (s_src sp :: edits post) s.
Proof.
  intros HT since0 Hi. induction post as [|a post IH] using rev_ind; intros Hn Hns s e He.
  - simpl in He. destruct (s_proc sp) eqn:Ep; [done|]. simplify_eq. simpl.
    assert (Hst : step T sp (AStart fab force) = Some ({| s_src := s_src sp; s_disk := s_disk sp; s_proc := Some {| p_fab := fab; p_force := force; p_pc := PStat |} |}, [])) by (simpl; by rewrite Ep).
    destruct (inv_src_step _ _ _ _ _ _ _ HT Hi Hst) as [? _]; [simpl in *; done|]. done.
  - rewrite app_comm_cons in He. apply exec_snoc in He as (s1 & e1 & e2 & He & Hs & ->). rewrite edits_snoc, (assoc_L (++)) in Hn.
    assert (Hi1 : inv_src T (past ++ edits post) (s_src sp :: edits post) s1).
    { eapply IH; [by eapply no_return_prefix| |done]. intros f fo Hin. apply (Hns f fo). apply elem_of_app. by left. }
    destruct (inv_src_step _ _ _ _ _ _ _ HT Hi1 Hs Hn) as [Hi2 _]. rewrite edits_snoc, (assoc_L (++)).
    destruct a as [x| |f fo| |]; simpl in *; rewrite ?app_nil_r in *; try done. exfalso. apply (Hns f fo). apply elem_of_app. right. by left.
Qed.
Lemma sources_lem T s0 pre fab force post sp e1 s e2 s' b : hash_ok T -> nothing_yet s0 ->
  exec T s0 pre = Some (sp, e1) -> exec T sp (AStart fab force :: post) = Some (s, e2) -> (forall f fo, AStart f fo ∉ post) ->
  step T s AStep = Some (s', [EvDriver (Some b)]) -> no_return (s_src s0 :: edits (pre ++ post)) ->
  s_src sp = Some (b_src b) \/ AEdit (Some (b_src b)) ∈ post.
Proof.
  intros HT H0 Hpre Hrun Hns Hst Hn. rewrite edits_app, app_comm_cons in Hn.
  destruct (inv_src_history T s0 pre HT H0 (no_return_prefix _ _ Hn) _ _ Hpre) as [since Hi].
  pose proof (inv_src_run _ _ _ fab force post HT _ Hi Hn Hns _ _ Hrun) as Hi'.
  destruct (inv_src_step _ _ _ _ AStep _ _ HT Hi' Hst) as [_ Hd]; [simpl; by rewrite app_nil_r|].
  specialize (Hd b ltac:(by left)). apply elem_of_cons in Hd as [Hd|Hd]; [by left|right].
  unfold edits in Hd. apply elem_of_list_omap in Hd as (a & Ha & E). destruct a; simplify_eq/=. done.
Qed.

(** ** Versions that never return *)
Definition bin_fab (bin : option binary) (fab : fabinfo) : Prop := forall b, bin = Some b -> b_fab b = fab.
Definition pc_ver (fab : fabinfo) (bin : option binary) (p : pc) : Prop :=
  match p with
  | PStat | PVersion => True
  | PReadHash => bin_fab bin fab
  | PHash old info => (info = None \/ info = fab) /\ (old <> None -> bin_fab bin fab)
  | PCopy _ info | PRename _ _ info => info = None \/ info = fab
  | PTruncHash _ info | PWriteHash _ info => (info = None \/ info = fab) /\ bin_fab bin fab
  | PTruncVer i | PWriteVer i => fab = Some i /\ bin_fab bin fab
  | PReturn => bin_fab bin fab
  end.
(** The version file holds part of the encoding of a version of the past; if it is the current
    one, that compiled the binary. *)
Definition ver_good (T : tools) (past : list fabinfo) (bin : option binary) (h : string) : Prop :=
  exists v n, Some v ∈ past /\ h = substring 0 n (t_enc T v) /\
    (t_dec T h = Some v -> last past = Some (Some v) -> bin_fab bin (Some v)).
Record inv_ver (T : tools) (past : list fabinfo) (s : state) : Prop := {
  iv_ver : forall h, d_ver (s_disk s) = Some h -> ver_good T past (d_bin (s_disk s)) h;
  iv_proc : forall p, s_proc s = Some p -> last past = Some (p_fab p) /\ pc_ver (p_fab p) (d_bin (s_disk s)) (p_pc p) }.

Lemma ver_good_nobin T past bin h : ver_good T past bin h -> ver_good T past None h.
Proof. intros (v & n & ? & ? & _). exists v, n. split_and!; [done|done|]. by intros _ _ b. Qed.
Lemma pc_ver_nobin fab bin p : pc_ver fab bin p -> pc_ver fab None p.
Proof. assert (bin_fab None fab) by (by intros b). destruct p; simpl; naive_solver. Qed.
Lemma inv_ver_step T past s a s' evs : enc_ok T -> inv_ver T past s -> step T s a = Some (s', evs) ->
  no_return (past ++ match start_of a with Some x => [x] | None => [] end) ->
  inv_ver T (past ++ match start_of a with Some x => [x] | None => [] end) s' /\
  (forall b, EvDriver (Some b) ∈ evs -> last past = Some (b_fab b)).
Proof.
  intros HT [Hv Hp] Hs Hn. destruct a as [x|f|fab force| |torn]; simpl in *; rewrite ?app_nil_r in *.
  - simplify_eq. split; [|by intros b ?%elem_of_nil]. by constructor.
  - simplify_eq. split; [|by intros b ?%elem_of_nil]. constructor; simpl.
    + intros h Hh'. destruct f; simpl in *; [|eauto|done]. eapply ver_good_nobin. by eapply Hv.
    + intros p Hp'. destruct (Hp p Hp') as [? Hpc]. split; [done|]. destruct f; simpl; [|done|done]. by eapply pc_ver_nobin.
  - destruct (s_proc s); [done|]. simplify_eq. split; [|by intros b ?%elem_of_nil]. constructor; simpl.
    + intros h Hh. destruct (Hv h Hh) as (v & n & Hin & -> & Hg). exists v, n. split_and!; [apply elem_of_app; by left|done|].
      rewrite last_snoc. intros Hd [= ->]. apply Hg; [done|]. by apply no_return_last.
    + intros p [= <-]. simpl. by rewrite last_snoc.
  - destruct (s_proc s) as [p|] eqn:Ep; [|done]. destruct (Hp p eq_refl) as [Hl Hpc]. clear Hp.
    assert (Hnone : forall d, d_ver d = d_ver (s_disk s) -> d_bin d = d_bin (s_disk s) ->
       inv_ver T past {| s_src := s_src s; s_disk := d; s_proc := None |}).
    { intros d H1 H2. constructor; simpl; [rewrite H1, H2; done|done]. }
    assert (Hgen : forall d pc', (forall h, d_ver d = Some h -> ver_good T past (d_bin d) h) -> pc_ver (p_fab p) (d_bin d) pc' ->
       inv_ver T past {| s_src := s_src s; s_disk := d; s_proc := Some {| p_fab := p_fab p; p_force := p_force p; p_pc := pc' |} |}).
    { intros d pc' H1 H2. constructor; simpl; [done|]. intros ? [= <-]. done. }
    unfold proc_step in Hs.
    destruct (p_pc p) as [| | |old info|nh info|copied nh info|nh info|nh info|i|i|] eqn:Epc; simpl in Hpc.
    + destruct (s_src s) as [S|] eqn:Es; [|simplify_eq; split; [by apply Hnone|by intros b ?%elem_of_list_singleton]].
      destruct (p_force p); [|destruct (d_bin (s_disk s)) eqn:Eb]; simplify_eq; (split; [|by intros ? ?%elem_of_nil]); apply Hgen; simpl; first [done|by rewrite Eb|split; [by left|done]].
    + unfold checkVersion in Hs.
      destruct (p_fab p) as [new|] eqn:Ef.
      2: { simplify_eq. split; [|by intros ? ?%elem_of_nil]. apply Hgen; [done|]. simpl. split; [by left|done]. }
      destruct (d_ver (s_disk s)) as [h|] eqn:Eh.
      2: { simplify_eq. split; [|by intros ? ?%elem_of_nil]. apply Hgen; [rewrite Eh; done|]. simpl. split; [by right|done]. }
      destruct (t_dec T h) as [old|] eqn:Ed.
      2: { simplify_eq. split; [|by intros ? ?%elem_of_nil]. apply Hgen; [rewrite Eh; done|]. simpl. split; [by right|done]. }
      destruct (decide (new = old)) as [<-|Hne]; simplify_eq; (split; [|by intros ? ?%elem_of_nil]).
      * apply Hgen; [rewrite Eh; done|]. simpl. destruct (Hv h eq_refl) as (v & n & Hin & -> & Hg). pose proof (proj2 HT _ _ _ Ed) as ->. by apply Hg.
      * apply Hgen; [rewrite Eh; done|]. simpl. split; [by right|done].
    + simplify_eq. split; [|by intros ? ?%elem_of_nil]. apply Hgen; [done|]. simpl. auto.
    + destruct (s_src s) as [S|] eqn:Es; [|simplify_eq; split; [by apply Hnone|by intros b ?%elem_of_list_singleton]].
      destruct Hpc as [Hinf Hold]. destruct old as [old|].
      * injection Hs as <- <-. split; [|by intros ? ?%elem_of_nil]. apply Hgen; [done|]. destruct (decide _); simpl; [|done]. by apply Hold.
      * simplify_eq. split; [|by intros ? ?%elem_of_nil]. by apply Hgen.
    + destruct (s_src s) as [S|] eqn:Es; [|simplify_eq; split; [by apply Hnone|by intros b ?%elem_of_list_singleton]].
      simplify_eq. split; [|by intros ? ?%elem_of_nil]. by apply Hgen.
    + simplify_eq. split; [|by intros b ?%elem_of_list_singleton].
      apply Hgen; simpl.
      * intros h Hd. destruct (Hv h Hd) as (v & n & Hin & -> & Hg). exists v, n. split_and!; [done|done|].
        intros _ Hlast b [= <-]. simpl. congruence.
      * split; [done|]. by intros b [= <-].
    + simplify_eq. split; [|by intros ? ?%elem_of_nil]. by apply Hgen.
    + simplify_eq. split; [|by intros ? ?%elem_of_nil]. destruct Hpc as [[->|Hi] Hb]; [by apply Hgen|]. apply Hgen; [done|]. by destruct info; simpl.
    + simplify_eq. split; [|by intros ? ?%elem_of_nil]. destruct Hpc as [Hf Hb]. apply Hgen; simpl; [|done].
      intros h [= <-]. exists i, 0. split_and!; [apply last_in; by rewrite <- Hf|by rewrite sub_none|]. intros _ _. by rewrite <- Hf.
    + simplify_eq. split; [|by intros ? ?%elem_of_nil]. destruct Hpc as [Hf Hb]. apply Hgen; simpl; [|done].
      intros h [= <-]. exists i, (String.length (t_enc T i)). split_and!; [apply last_in; by rewrite <- Hf|by rewrite sub_all|]. intros _ _. by rewrite <- Hf.
    + simplify_eq. split; [by apply Hnone|]. intros b [= Hb]%elem_of_list_singleton. by rewrite Hl, (Hpc b).
  - destruct (s_proc s) as [p|] eqn:Ep; [|done]. destruct (Hp p eq_refl) as [Hl Hpc]. simplify_eq.
    split; [|by intros b ?%elem_of_list_singleton]. constructor; simpl; [|done].
    destruct (p_pc p) eqn:Epc; simpl in *; try done.
    intros h [= <-]. destruct Hpc as [Hf Hb]. exists info, torn. split_and!; [apply last_in; by rewrite <- Hf|done|]. intros _ _. by rewrite <- Hf.
Qed.
Lemma inv_ver_history T s0 pre : enc_ok T -> nothing_yet s0 -> no_return (starts pre) ->
  forall s e, exec T s0 pre = Some (s, e) -> inv_ver T (starts pre) s.
Proof.
  intros HT (H1 & H2 & H3 & H4). induction pre as [|a pre IH] using rev_ind; intros Hn s e He.
  - simpl in He. simplify_eq. constructor; simpl; [by rewrite H3|by rewrite H4].
  - apply exec_snoc in He as (s1 & e1 & e2 & He & Hs & ->). rewrite starts_snoc in *.
    apply (inv_ver_step _ _ _ _ _ _ HT (IH (no_return_prefix _ _ Hn) _ _ He) Hs Hn).
Qed.
Lemma starts_none post : (forall f fo, AStart f fo ∉ post) -> starts post = [].
Proof.
  intros H. destruct (starts post) as [|f l] eqn:E; [done|]. exfalso. assert (Hin : f ∈ starts post) by (rewrite E; by left).
  unfold starts in Hin. apply elem_of_list_omap in Hin as (a & Ha & Ef). destruct a; simplify_eq/=. by eapply H.
Qed.
Lemma version_lem T s0 pre fab force post sp e1 s e2 s' b : enc_ok T -> nothing_yet s0 ->
  exec T s0 pre = Some (sp, e1) -> exec T sp (AStart fab force :: post) = Some (s, e2) -> (forall f fo, AStart f fo ∉ post) ->
  step T s AStep = Some (s', [EvDriver (Some b)]) -> no_return (starts pre ++ [fab]) -> b_fab b = fab.
Proof.
  intros HT H0 Hpre Hrun Hns Hst Hn.
  assert (Hall : exec T s0 (pre ++ AStart fab force :: post) = Some (s, e1 ++ e2)) by (apply exec_app; eauto 10).
  assert (Hss : starts (pre ++ AStart fab force :: post) = starts pre ++ [fab]).
  { rewrite starts_app. f_equal. change (AStart fab force :: post) with ([AStart fab force] ++ post). rewrite starts_app, (starts_none post) by done. done. }
  pose proof (inv_ver_history T s0 _ HT H0 ltac:(by rewrite Hss) _ _ Hall) as Hi. rewrite Hss in Hi.
  destruct (inv_ver_step _ _ _ AStep _ _ HT Hi Hst) as [_ Hd]; [simpl; by rewrite app_nil_r|].
  specialize (Hd b ltac:(by left)). rewrite last_snoc in Hd. by simplify_eq.
Qed.

(** ** Calm histories: reverts are harmless *)
Definition hash_of_bin (T : tools) (d : disk) : Prop := forall h b, d_hash d = Some h -> d_bin d = Some b -> h = t_hash T (b_src b).
Definition pc_calm (T : tools) (src : option sources) (d : disk) (p : pc) : Prop :=
  match p with
  | PStat | PVersion | PReadHash => hash_of_bin T d
  | PHash old _ => hash_of_bin T d /\ forall o b, old = Some o -> d_bin d = Some b -> o = t_hash T (b_src b)
  | PCopy nh _ => hash_of_bin T d /\ forall S, src = Some S -> nh = t_hash T S
  | PRename copied nh _ => hash_of_bin T d /\ nh = t_hash T copied /\ src = Some copied
  | PTruncHash nh _ | PWriteHash nh _ => forall b, d_bin d = Some b -> nh = t_hash T (b_src b) /\ src = Some (b_src b)
  | PTruncVer _ | PWriteVer _ | PReturn => hash_of_bin T d /\ forall b, d_bin d = Some b -> src = Some (b_src b)
  end.
Definition inv_calm (T : tools) (s : state) : Prop :=
  match s_proc s with None => hash_of_bin T (s_disk s) | Some p => pc_calm T (s_src s) (s_disk s) (p_pc p) end.
Lemma hob_remove T d f : hash_of_bin T d -> hash_of_bin T (match f with FBin => with_bin None d | FHash => with_hash None d | FVer => with_ver None d end).
Proof. intros H h b. destruct f; simpl; [done|done|apply H]. Qed.
Lemma pc_calm_remove T src d p f : pc_calm T src d p -> pc_calm T src (match f with FBin => with_bin None d | FHash => with_hash None d | FVer => with_ver None d end) p.
Proof. pose proof (hob_remove T d f) as Hr. destruct p; simpl; destruct f; naive_solver. Qed.
Lemma inv_calm_step T s a s' evs : hash_ok T -> inv_calm T s -> step T s a = Some (s', evs) ->
  ((exists n, a = ADie n) \/ (exists x, a = AEdit x) -> s_proc s = None) ->
  inv_calm T s' /\ (forall b, EvDriver (Some b) ∈ evs -> s_src s = Some (b_src b)).
Proof.
  intros HT Hi Hs Hc. unfold inv_calm in *. destruct a as [x|f|fab force| |torn]; simpl in *.
  - simplify_eq. split; [|by intros b ?%elem_of_nil]. rewrite (Hc ltac:(eauto)) in *. done.
  - simplify_eq. split; [|by intros b ?%elem_of_nil]. simpl. destruct (s_proc s) as [p|]; [by apply pc_calm_remove|by apply hob_remove].
  - destruct (s_proc s); [done|]. simplify_eq. split; [|by intros b ?%elem_of_nil]. done.
  - destruct (s_proc s) as [p|] eqn:Ep; [|done]. unfold proc_step in Hs.
    destruct (p_pc p) as [| | |old info|nh info|copied nh info|nh info|nh info|i|i|] eqn:Epc; simpl in Hi.
    + destruct (s_src s) as [S|] eqn:Es; [|simplify_eq; split; [done|by intros b ?%elem_of_list_singleton]].
      destruct (p_force p); [|destruct (d_bin (s_disk s)) eqn:Eb]; simplify_eq; (split; [|by intros ? ?%elem_of_nil]); simpl; done.
    + destruct (checkVersion T (p_fab p) (d_ver (s_disk s))) as [[compile info] remove]. simplify_eq. split; [|by intros ? ?%elem_of_nil].
      simpl. destruct compile, remove; simpl; try split; try done.
    + simplify_eq. split; [|by intros ? ?%elem_of_nil]. simpl. split; [done|]. intros o b ? ?. by apply Hi.
    + destruct Hi as [Hb Hold]. destruct (s_src s) as [S|] eqn:Es; [|simplify_eq; split; [done|by intros b ?%elem_of_list_singleton]].
      destruct old as [old|].
      * injection Hs as <- <-. split; [|by intros ? ?%elem_of_nil]. simpl. destruct (decide (t_hash T S = old)) as [E|E]; simpl.
        -- split; [done|]. intros b Hbin. rewrite (Hold old b eq_refl Hbin) in E. f_equal. apply (HT S (b_src b) (String.length (t_hash T S))). by rewrite sub_all.
        -- split; [done|]. by intros ? [= ->].
      * simplify_eq. split; [|by intros ? ?%elem_of_nil]. simpl. split; [done|]. by intros ? [= ->].
    + destruct Hi as [Hb Hnh]. destruct (s_src s) as [S|] eqn:Es; [|simplify_eq; split; [done|by intros b ?%elem_of_list_singleton]].
      simplify_eq. split; [|by intros ? ?%elem_of_nil]. simpl. split_and!; [done|by apply Hnh|done].
    + destruct Hi as (Hb & -> & Hsrc). simplify_eq. split; [|by intros b ?%elem_of_list_singleton]. simpl. by intros b [= <-].
    + simplify_eq. split; [|by intros ? ?%elem_of_nil]. simpl. done.
    + simplify_eq. split; [|by intros ? ?%elem_of_nil]. simpl.
      assert (Hh : hash_of_bin T (with_hash (Some nh) (s_disk s))) by (intros h b [= <-] Hbin; by apply Hi).
      destruct info; simpl; (split; [done|]); intros b Hbin; by apply Hi.
    + simplify_eq. split; [|by intros ? ?%elem_of_nil]. done.
    + simplify_eq. split; [|by intros ? ?%elem_of_nil]. done.
    + simplify_eq. destruct Hi as [Hb Hsrc]. split; [done|]. intros b [= Hbin]%elem_of_list_singleton. by apply Hsrc.
  - rewrite (Hc ltac:(eauto)) in *. done.
Qed.
Lemma inv_calm_history T s0 acts : hash_ok T -> nothing_yet s0 -> calm T s0 acts -> forall s e, exec T s0 acts = Some (s, e) -> inv_calm T s.
Proof.
  intros HT (H1 & H2 & H3 & H4). induction acts as [|a acts IH] using rev_ind; intros Hc s e He.
  - simpl in He. simplify_eq. unfold inv_calm. rewrite H4. intros h b. by rewrite H2.
  - apply exec_snoc in He as (s1 & e1 & e2 & He & Hs & ->).
    assert (Hc' : calm T s0 acts). { intros p x q -> Hx s2 e Hp. eapply (Hc p x (q ++ [a])); [by rewrite <- (assoc_L (++))|done|done]. }
    eapply (inv_calm_step _ _ _ _ _ HT (IH Hc' _ _ He) Hs). intros Hx. by eapply (Hc acts a []).
Qed.
Lemma calm_lem T s0 acts s e s' b : hash_ok T -> nothing_yet s0 -> calm T s0 acts -> exec T s0 acts = Some (s, e) ->
  step T s AStep = Some (s', [EvDriver (Some b)]) -> s_src s = Some (b_src b).
Proof.
  intros HT H0 Hc He Hs. pose proof (inv_calm_history _ _ _ HT H0 Hc _ _ He) as Hi.
  destruct (inv_calm_step _ _ _ _ _ HT Hi Hs) as [_ Hd]; [|apply Hd; by left].
  intros [[? ?]|[? ?]]; done.
Qed.
