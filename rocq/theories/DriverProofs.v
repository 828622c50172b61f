From stdpp Require Import base gmap list strings.
From Coq Require Import Ascii.
From Verif Require Import PathModel DriverModel DriverSpec.
Local Open Scope list_scope.

(** ** Lists *)
Lemma no_return_prefix {A} (l l' : list (option A)) : no_return (l ++ l') -> no_return l.
Proof.
  intros H i j k x Hij Hjk Hi Hk.
  assert (Hlk : k < length l) by (by eapply lookup_lt_Some). 
  specialize (H i j k x Hij Hjk). rewrite !lookup_app_l in H by lia. auto.
Qed.
Lemma no_return_last {A} (l : list (option A)) x : no_return (l ++ [Some x]) -> Some x ∈ l -> last l = Some (Some x).
Proof.
  intros H (i & Hi)%elem_of_list_lookup. assert (i < length l) by (by eapply lookup_lt_Some).
  rewrite last_lookup. destruct (decide (i = pred (length l))) as [->|Hne]; [done|].
  specialize (H i (pred (length l)) (length l) x). rewrite lookup_app_l in H by lia.
  rewrite (lookup_app_r _ _ (length l)), Nat.sub_diag, lookup_app_l in H by lia. apply H; [lia|lia|done|done].
Qed.
Lemma omap_snoc {A B} (f : A -> option B) l a : omap f (l ++ [a]) = omap f l ++ match f a with Some b => [b] | None => [] end.
Proof. rewrite omap_app. simpl. by destruct (f a). Qed.
Lemma exec_snoc T acts : forall s a s' e, exec T s (acts ++ [a]) = Some (s', e) <->
  exists s1 e1 e2, exec T s acts = Some (s1, e1) /\ step T s1 a = Some (s', e2) /\ e = e1 ++ e2.
Proof.
  induction acts as [|b acts IH]; intros s a s' e; simpl.
  - destruct (step T s a) as [[s1 e1]|] eqn:E; split; [intros; simplify_eq| |done|].
    + exists s, [], e1. split_and!; [done|done|by rewrite app_nil_r].
    + intros (? & ? & ? & ? & ? & ->). simplify_eq. by rewrite app_nil_r.
    + intros (? & ? & ? & ? & ? & ?). simplify_eq.
  - destruct (step T s b) as [[s1 e1]|]; [|split; [done|by intros (? & ? & ? & ? & _)]].
    destruct (exec T s1 (acts ++ [a])) as [[s2 e2]|] eqn:E.
    + apply IH in E as (s3 & e3 & e4 & E & E' & ->). rewrite E. split.
      * intros. simplify_eq. exists s3, (e1 ++ e3), e4. split_and!; [done|done|by rewrite (assoc_L (++))].
      * intros (s4 & e5 & e6 & ? & ? & ->). simplify_eq. by rewrite (assoc_L (++)).
    + split; [done|]. intros (s3 & e3 & e4 & H1 & H2 & ->). destruct (exec T s1 acts) as [[s4 e4']|] eqn:E2; [|done]. simplify_eq.
      assert (exec T s1 (acts ++ [a]) = Some (s', e4' ++ e4)) by (apply IH; eauto 10). congruence.
Qed.
Lemma exec_app T a : forall b s s' e, exec T s (a ++ b) = Some (s', e) <->
  exists s1 e1 e2, exec T s a = Some (s1, e1) /\ exec T s1 b = Some (s', e2) /\ e = e1 ++ e2.
Proof.
  induction a as [|x a IH]; intros b s s' e; simpl.
  - split; [intros H; exists s, [], e; done|]. intros (? & ? & ? & ? & ? & ->). by simplify_eq.
  - destruct (step T s x) as [[s1 e1]|]; [|split; [done|by intros (? & ? & ? & ? & _)]].
    destruct (exec T s1 (a ++ b)) as [[s2 e2]|] eqn:E.
    + apply IH in E as (s3 & e3 & e4 & E & E' & ->). rewrite E. split.
      * intros. simplify_eq. exists s3, (e1 ++ e3), e4. split_and!; [done|done|by rewrite (assoc_L (++))].
      * intros (s4 & e5 & e6 & ? & ? & ->). simplify_eq. by rewrite (assoc_L (++)).
    + split; [done|]. intros (s3 & e3 & e4 & H1 & H2 & ->). destruct (exec T s1 a) as [[s4 e4']|] eqn:E2; [|done]. simplify_eq.
      assert (exec T s1 (a ++ b) = Some (s', e4' ++ e4)) by (apply IH; eauto 10). congruence.
Qed.

(** ** Sources that never return *)
Definition good (T : tools) (past : list (option sources)) (src : option sources) (bin : option binary) (h : string) : Prop :=
  (exists S n, Some S ∈ past /\ h = substring 0 n (t_hash T S)) /\
  forall S b, src = Some S -> h = t_hash T S -> bin = Some b -> b_src b = S.
Definition since_bin (since : list (option sources)) (bin : option binary) : Prop := forall b, bin = Some b -> Some (b_src b) ∈ since.
Definition pc_src (T : tools) (past since : list (option sources)) (src : option sources) (bin : option binary) (hf : option string) (p : pc) : Prop :=
  match p with
  | PStat | PVersion | PReadHash => True
  | PHash old _ => forall h, old = Some h -> good T past src bin h
  | PCopy nh _ => exists S, nh = t_hash T S /\ Some S ∈ past
  | PRename copied nh _ => Some copied ∈ since /\ exists S, nh = t_hash T S /\ Some S ∈ past /\ (src = Some S -> copied = S) /\
      forall h S', hf = Some h -> h = t_hash T S' -> src = Some S' -> copied = S'
  | PTruncHash nh _ | PWriteHash nh _ => good T past src bin nh /\ since_bin since bin
  | PTruncVer _ | PWriteVer _ | PReturn => since_bin since bin
  end.
Record inv_src (T : tools) (past since : list (option sources)) (s : state) : Prop := {
  is_last : last past = Some (s_src s);
  is_hash : forall h, d_hash (s_disk s) = Some h -> good T past (s_src s) (d_bin (s_disk s)) h;
  is_proc : forall p, s_proc s = Some p -> s_src s ∈ since /\ pc_src T past since (s_src s) (d_bin (s_disk s)) (d_hash (s_disk s)) (p_pc p) }.

Lemma last_in {A} (l : list A) x : last l = Some x -> x ∈ l.
Proof. rewrite last_Some. intros [l' ->]. apply elem_of_app. right. by left. Qed.
Lemma good_edit T past src bin h x : hash_ok T -> no_return (past ++ [x]) -> last past = Some src -> good T past src bin h -> good T (past ++ [x]) x bin h.
Proof.
  intros HT Hn Hl [(S0 & n & HS & ->) Hg]. split.
  - exists S0, n. split; [|done]. apply elem_of_app. by left.
  - intros S b -> Heq Hb. pose proof (HT _ _ _ Heq) as ->. apply no_return_last in Hn; [|done]. rewrite Hl in Hn. simplify_eq. eauto.
Qed.
Lemma pc_edit T past since src bin hf p x : hash_ok T -> no_return (past ++ [x]) -> last past = Some src ->
  (forall h, hf = Some h -> good T past src bin h) -> pc_src T past since src bin hf p -> pc_src T (past ++ [x]) (since ++ [x]) x bin hf p.
Proof.
  intros HT Hn Hl Hhf. assert (Hsb : since_bin since bin -> since_bin (since ++ [x]) bin).
  { intros H b Hb. apply elem_of_app. left. by apply H. }
  destruct p; simpl; try done.
  - intros H h Hh. eapply good_edit; eauto.
  - intros (S & -> & HS). exists S. split; [done|]. apply elem_of_app. by left.
  - intros (Hc & S & -> & HS & Hsrc & Hhs). split; [apply elem_of_app; by left|]. exists S. split_and!; [done|apply elem_of_app; by left| |].
    + intros ->. apply no_return_last in Hn; [|done]. rewrite Hl in Hn. simplify_eq. auto.
    + intros h S' Hh Heq ->. destruct (Hhf h Hh) as [(S0 & m & HS0 & E) _]. rewrite E in Heq. pose proof (HT _ _ _ Heq) as ->.
      apply no_return_last in Hn; [|done]. rewrite Hl in Hn. simplify_eq. by eapply Hhs.
  - intros [? ?]. split; [by eapply good_edit|auto].
  - intros [? ?]. split; [by eapply good_edit|auto].
Qed.
(** Removing the binary is harmless. *)
Lemma pc_nobin T past since src bin hf p : pc_src T past since src bin hf p -> pc_src T past since src None hf p.
Proof.
  assert (Hg : forall h, good T past src bin h -> good T past src None h) by (intros h [? ?]; split; [done|by intros]).
  assert (Hs : since_bin since None) by (by intros b).
  destruct p; simpl; try done; naive_solver.
Qed.
Lemma pc_nohash T past since src bin hf p : pc_src T past since src bin hf p -> pc_src T past since src bin None p.
Proof. destruct p; simpl; try done. intros (? & S & ? & ? & ? & _). split; [done|]. exists S. split_and!; try done. Qed.
Lemma good_nobin T past src bin h : good T past src bin h -> good T past src None h.
Proof. intros [? ?]. split; [done|by intros]. Qed.

Lemma sub_all s : substring 0 (String.length s) s = s.
Proof. induction s as [|c s IH]; [done|]. simpl. by rewrite IH. Qed.
Lemma good_new T past src bin S : hash_ok T -> Some S ∈ past -> (forall b, src = Some S -> bin = Some b -> b_src b = S) -> good T past src bin (t_hash T S).
Proof.
  intros HT HS Hb. split.
  - exists S, (String.length (t_hash T S)). by rewrite sub_all.
  - intros S' b -> Heq Hbin. assert (S = S') as <-; [|auto].
    apply (HT S S' (String.length (t_hash T S))). by rewrite sub_all.
Qed.
Lemma sub_none s : substring 0 0 s = "".
Proof. by destruct s. Qed.
(** A part of a good hash is good. *)
Lemma sub_sub n m s : exists k, substring 0 n (substring 0 m s) = substring 0 k s.
Proof.
  revert n m. induction s as [|c s IH]; intros n m; [exists 0; by destruct m, n|].
  destruct m as [|m]; [exists 0; by destruct n|]. destruct n as [|n]; [by exists 0|].
  simpl. destruct (IH n m) as [k Hk]. exists (S k). simpl. by rewrite Hk.
Qed.
Lemma good_part T past src bin h n : hash_ok T -> good T past src bin h -> good T past src bin (substring 0 n h).
Proof.
  intros HT [(S & m & HS & ->) Hg]. destruct (sub_sub n m (t_hash T S)) as [k Hk]. split; [eauto|].
  intros S' b -> Heq Hb. rewrite Hk in Heq. pose proof (HT _ _ _ Heq) as ->.
  apply (Hg _ _ eq_refl); [|done]. clear -HT Heq Hk.
  (* substring 0 n (substring 0 m H) = H forces substring 0 m H = H *)
  rewrite <- Hk in Heq. clear Hk k. revert Heq. generalize (t_hash T S'). clear. intros s.
  revert n m. induction s as [|c s IH]; intros n m H; [by destruct m|].
  destruct m as [|m]; [by destruct n|]. destruct n as [|n]; [done|]. simpl in *. injection H as H. f_equal. by eapply IH.
Qed.

Lemma inv_src_step T past since s a s' evs : hash_ok T -> inv_src T past since s -> step T s a = Some (s', evs) ->
  no_return (past ++ match edit_of a with Some x => [x] | None => [] end) ->
  inv_src T (past ++ match edit_of a with Some x => [x] | None => [] end)
    (match a with AStart _ _ => [s_src s] | AEdit x => since ++ [x] | _ => since end) s' /\
  (forall b, EvDriver (Some b) ∈ evs -> Some (b_src b) ∈ since).
Proof.
  intros HT [Hl Hh Hp] Hs Hn. destruct a as [x|f|fab force| |torn]; simpl in *; rewrite ?app_nil_r in *.
  - simplify_eq. split; [|by intros b ?%elem_of_nil]. constructor; simpl.
    + by rewrite last_snoc.
    + intros h Hh'. eapply good_edit; eauto.
    + intros p Hp'. destruct (Hp p Hp') as [_ Hpc]. split; [apply elem_of_app; right; by left|]. by eapply pc_edit.
  - simplify_eq. split; [|by intros b ?%elem_of_nil]. constructor; simpl; [done| |].
    + intros h Hh'. destruct f; simpl in *; [|done|eauto]. eapply good_nobin. by eapply Hh.
    + intros p Hp'. destruct (Hp p Hp') as [? Hpc]. split; [done|]. destruct f; simpl; [by eapply pc_nobin|by eapply pc_nohash|done].
  - destruct (s_proc s); [done|]. simplify_eq. split; [|by intros b ?%elem_of_nil]. constructor; simpl; [done|done|].
    intros p [= <-]. split; [by left|]. done.
  - destruct (s_proc s) as [p|] eqn:Ep; [|done]. destruct (Hp p eq_refl) as [Hsin Hpc]. clear Hp.
    assert (Hnone : forall d, d_hash d = d_hash (s_disk s) -> d_bin d = d_bin (s_disk s) ->
       inv_src T past since {| s_src := s_src s; s_disk := d; s_proc := None |}).
    { intros d H1 H2. constructor; simpl; [done|rewrite H1, H2; done|done]. }
    unfold proc_step in Hs.
    assert (Hgen : forall d pc', (forall h, d_hash d = Some h -> good T past (s_src s) (d_bin d) h) -> pc_src T past since (s_src s) (d_bin d) (d_hash d) pc' ->
       inv_src T past since {| s_src := s_src s; s_disk := d; s_proc := Some {| p_fab := p_fab p; p_force := p_force p; p_pc := pc' |} |}).
    { intros d pc' H1 H2. constructor; simpl; [done|done|]. intros ? [= <-]. done. }
    destruct (p_pc p) as [| | |old info|nh info|copied nh info|nh info|nh info|i|i|] eqn:Epc; simpl in Hpc.
    + destruct (s_src s) as [S|] eqn:Es; [|simplify_eq; split; [by apply Hnone|by intros b ?%elem_of_list_singleton]].
      destruct (p_force p); [|destruct (d_bin (s_disk s)) eqn:Eb]; simplify_eq; (split; [|by intros ? ?%elem_of_nil]); apply Hgen; simpl; try done; by rewrite Eb.
    + destruct (checkVersion T (p_fab p) (d_ver (s_disk s))) as [[compile info] remove]. simplify_eq. split; [|by intros ? ?%elem_of_nil].
      apply Hgen; [destruct remove; done|]. destruct remove, compile; done.
    + simplify_eq. split; [|by intros ? ?%elem_of_nil]. apply Hgen; [done|]. simpl. intros h Hd. by apply Hh.
    + destruct (s_src s) as [S|] eqn:Es; [|simplify_eq; split; [by apply Hnone|by intros b ?%elem_of_list_singleton]].
      assert (HS : Some S ∈ past) by (by apply last_in).
      destruct old as [old|].
      * injection Hs as <- <-. split; [|by intros ? ?%elem_of_nil]. apply Hgen; [done|].
        destruct (decide (t_hash T S = old)) as [<-|]; simpl; [|by exists S].
        intros b Hb. destruct (Hpc _ eq_refl) as [_ Hg]. by rewrite (Hg S b eq_refl eq_refl Hb).
      * simplify_eq. split; [|by intros ? ?%elem_of_nil]. apply Hgen; [done|]. by exists S.
    + destruct (s_src s) as [S|] eqn:Es; [|simplify_eq; split; [by apply Hnone|by intros b ?%elem_of_list_singleton]].
      simplify_eq. split; [|by intros ? ?%elem_of_nil]. apply Hgen; [done|]. destruct Hpc as (S' & -> & HS'). split; [done|].
      exists S'. split_and!; [done|done|by intros [= ->]|]. by intros h S2 _ _ [= ->].
    + destruct Hpc as (Hc & S & -> & HS & Hsrc & Hhs). simplify_eq. split; [|by intros b ?%elem_of_list_singleton].
      assert (Hbin : forall b, s_src s = Some S -> Some {| b_src := copied; b_fab := p_fab p |} = Some b -> b_src b = S) by (intros b ? [= <-]; simpl; auto).
      apply Hgen; simpl.
      * intros h Hd. destruct (Hh h Hd) as [Hok Hg]. split; [done|]. intros S' b HS' -> [= <-]. simpl.
        by eapply Hhs.
      * split; [by apply good_new|]. intros b [= <-]. done.
    + simplify_eq. split; [|by intros ? ?%elem_of_nil]. apply Hgen; simpl; [|done]. intros h [= <-].
      destruct Hpc as [Hg _]. rewrite <- (sub_none nh). by apply good_part.
    + simplify_eq. split; [|by intros ? ?%elem_of_nil]. destruct Hpc as [Hg Hs]. apply Hgen; simpl; [by intros h [= <-]|]. by destruct info.
    + simplify_eq. split; [|by intros ? ?%elem_of_nil]. apply Hgen; [done|done].
    + simplify_eq. split; [|by intros ? ?%elem_of_nil]. apply Hgen; [done|done].
    + simplify_eq. split; [by apply Hnone|]. intros b [= Hb]%elem_of_list_singleton. by apply Hpc.
  - destruct (s_proc s) as [p|] eqn:Ep; [|done]. destruct (Hp p eq_refl) as [Hsin Hpc]. simplify_eq.
    split; [|by intros b ?%elem_of_list_singleton]. constructor; simpl; [done| |done].
    destruct (p_pc p) eqn:Epc; simpl in *; try done.
    intros h [= <-]. destruct Hpc as [Hg _]. by apply good_part.
Qed.
