From stdpp Require Import base gmap list strings.
From Verif Require Import DriverModel DriverSpec FleetModel FleetSpec FleetProofs.
Local Open Scope list_scope.

Section sources.
Context (T : tools) (HT : hash_ok T).

Lemma hash_pre a b x : pre x (t_hash T a) -> x = t_hash T b -> a = b.
Proof. intros [t E] ->. apply (HT a b (String.length (t_hash T b))). rewrite E. apply sub_pre. Qed.
Lemma hash_inj a b : t_hash T a = t_hash T b -> a = b.
Proof. intros E. eapply hash_pre; [apply pre_refl|exact E]. Qed.

(** The binary, if there is one, is that of the sources. *)
Definition right (src : option sources) (d : disk) : Prop := forall b, d_bin d = Some b -> src = Some (b_src b).
Definition says (S : sources) (d : disk) : Prop := d_hash d = Some (t_hash T S).
(** What is known at each place. *)
Definition at_pc (src : option sources) (d : disk) (c : pc) : Prop :=
  match c with
  | PHash (Some old) _ => forall S, src = Some S -> old = t_hash T S -> right src d
  | PCopy n _ => exists S, src = Some S /\ n = t_hash T S
  | PRename c n _ => src = Some c /\ n = t_hash T c
  | PTruncHash n _ => (exists S, src = Some S /\ n = t_hash T S) /\ right src d
  | PWriteHash n _ => (exists S, src = Some S /\ n = t_hash T S) /\ right src d /\ forall x, d_hash d = Some x -> pre x n
  | PTruncVer _ | PWriteVer _ | PReturn => right src d
  | _ => True
  end.
Record known (s : fleet) : Prop := {
  kn_procs : forall id p, c_procs s !! id = Some p -> at_pc (c_src s) (c_disk s) (p_pc p);
  kn_hash : forall S, c_src s = Some S -> says S (c_disk s) -> right (c_src s) (c_disk s)
}.

(** Changes to the disk in one step, seen by others. *)
Definition grows (src : option sources) (d d' : disk) : Prop :=
  (right src d -> right src d') /\
  (d_hash d' = d_hash d \/ d_hash d' = None \/ d_hash d' = Some "" \/
    exists S x, src = Some S /\ d_hash d' = Some x /\ pre x (t_hash T S) /\ right src d').
Lemma at_pc_grows src d d' c : at_pc src d c -> grows src d d' -> at_pc src d' c.
Proof.
  intros Ha [Hr Hh]. destruct c as [| | |[old|] info|n info|c n info|n info|n info|i|i|]; simpl in *; auto.
  - intros S HS E. by apply Hr, (Ha S).
  - destruct Ha as [? ?]. auto.
  - destruct Ha as (HS & ? & Hp). split; [done|]. split; [auto|]. intros x Ex.
    destruct Hh as [Hh|[Hh|[Hh|(S & y & HS' & Hy & Hpre & _)]]].
    + apply Hp. congruence.
    + congruence.
    + rewrite Hh in Ex. injection Ex as <-. apply pre_nil.
    + rewrite Hy in Ex. injection Ex as <-. destruct HS as (S' & HS'' & ->). rewrite HS' in HS''. by injection HS'' as <-.
Qed.
Lemma hash_grows src d d' : (forall S, src = Some S -> says S d -> right src d) -> grows src d d' -> forall S, src = Some S -> says S d' -> right src d'.
Proof.
  intros Hk [Hr Hh] S HS Hs. unfold says in *. destruct Hh as [Hh|[Hh|[Hh|(S' & y & HS' & Hy & Hpre & Hrt)]]].
  - apply Hr, (Hk S HS). congruence.
  - congruence.
  - intros b Hb. rewrite Hh in Hs. injection Hs as Hs. rewrite HS. f_equal.
    symmetry. apply (hash_pre (b_src b) S ""); [apply pre_nil|done].
  - exact Hrt.
Qed.
Lemma effect_grows p src d d' c evs : at_pc src d (p_pc p) -> effect T p src d d' c evs -> grows src d d'.
Proof.
  intros Ha He. assert (Hid : grows src d d) by (split; auto).
  destruct He as [E|E|i x E|info r E|E|info S E|old info S E|n info S E|c n info E|n info E|n info l E|i E|i l E]; try exact Hid.
  - destruct r; [|exact Hid]. split; [intros HH b; exact (HH b)|by left].
  - rewrite E in Ha. destruct Ha as [HS _]. split; [|by left]. intros _ b. simpl. intros [= <-]. exact HS.
  - split; [intros HH b; exact (HH b)|]. right; right; by left.
  - rewrite E in Ha. simpl in Ha. destruct Ha as ((S & HS & ->) & Hr & Hp). destruct l; [exact Hid|]. split; [intros HH b; exact (HH b)|].
    unfold write_hash. simpl. destruct (d_hash d) as [x|] eqn:Ex; [|right; by left]. right; right; right. simpl. exists S, (overlay (t_hash T S) x).
    split; [done|]. split; [done|]. split; [apply overlay_pre; [apply pre_refl|by apply Hp]|]. intros b Hb. by apply Hr.
  - destruct l; [exact Hid|]. split; [intros HH b; exact (HH b)|by left].
Qed.
Lemma effect_own p src d d' c evs : (forall S, src = Some S -> says S d -> right src d) -> at_pc src d (p_pc p) -> effect T p src d d' c evs -> at_pc src d' c.
Proof.
  intros Hk Ha He. destruct He as [E|E|i x E|info r E|E|info S E|old info S E|n info S E|c n info E|n info E|n info l E|i E|i l E]; rewrite ?E in Ha; simpl in *; auto.
  - destruct (d_hash d) as [old|] eqn:Eh; [|done]. intros S HS ->. by apply (Hk S).
  - by apply (Ha S).
  - by exists S.
  - destruct Ha as (S' & HS & ->). split; [done|]. congruence.
  - destruct Ha as [-> ->]. split; [by exists c|]. intros b. simpl. by intros [= <-].
  - destruct Ha as [HS Hr]. split; [done|]. split; [intros b; apply Hr|]. intros x [= <-]. apply pre_nil.
  - destruct Ha as (_ & Hr & _). destruct info, l; simpl; intros b Hb; by apply Hr.
  - destruct l; [done|]. intros b Hb. by apply Ha.
Qed.

(** Every action but an edit keeps what is known. *)
Lemma known_step s a s' e : known s -> (forall x, a <> CEdit x) -> cstep T s a = Some (s', e) -> known s'.
Proof.
  intros [Hp Hk] Hne Hs. apply cstep_happens in Hs.
  destruct Hs as [x|f d Hd|id fab force Hid|id l p Hid Hr|id l p Hid Hr Hgone|id l p d pc evs Hid Hr He|id torn p d Hid Hd].
  - by destruct (Hne x).
  - assert (Hg : grows (c_src s) (c_disk s) d).
    { rewrite Hd. destruct f; simpl; (split; [intros HH b; simpl; try done; apply HH|simpl; auto]). }
    split; simpl; [intros id p Hi; by eapply at_pc_grows; [eapply Hp|]|by eapply hash_grows].
  - split; simpl; [|exact Hk]. intros id' p' Hi. destruct (decide (id = id')) as [<-|Hn]; [rewrite lookup_insert in Hi; by injection Hi as <-|rewrite lookup_insert_ne in Hi by done; by eapply Hp].
  - split; simpl; [|exact Hk]. intros id' p' [_ Hi]%lookup_delete_Some. by eapply Hp.
  - split; simpl; [|exact Hk]. intros id' p' [_ Hi]%lookup_delete_Some. by eapply Hp.
  - assert (Hg : grows (c_src s) (c_disk s) d) by (eapply effect_grows; [by eapply Hp|exact He]).
    split; simpl; [|by eapply hash_grows]. intros id' p' Hi.
    destruct (decide (id = id')) as [<-|Hn]; [rewrite lookup_insert in Hi; injection Hi as <-; simpl; eapply effect_own; [done|by eapply Hp|exact He]|].
    rewrite lookup_insert_ne in Hi by done. by eapply at_pc_grows; [eapply Hp|].
  - assert (Hg : grows (c_src s) (c_disk s) d).
    { pose proof (Hp _ _ Hid) as Ha. assert (Hi : grows (c_src s) (c_disk s) (c_disk s)) by (split; auto). rewrite Hd. destruct (p_pc p); try exact Hi; simpl in Ha.
      - destruct Ha as ((S & HS & ->) & Hrt & Hx). split; [intros HH b; exact (HH b)|]. unfold write_hash. simpl. destruct (d_hash (c_disk s)) as [x|] eqn:Ex; [|right; by left].
        right; right; right. simpl. exists S, (overlay (substring 0 torn (t_hash T S)) x). split; [done|]. split; [done|].
        split; [apply overlay_pre; [apply sub_is_pre|by apply Hx]|]. intros b Hb. by apply Hrt.
    }
    split; simpl; [|by eapply hash_grows]. intros id' p' [_ Hi]%lookup_delete_Some. by eapply at_pc_grows; [eapply Hp|].
Qed.

(** Without deaths at the one bad place: what the hash file says is in the binary, or will soon be
    deleted. *)
Definition honest (s : fleet) : Prop :=
  (exists id p n i, c_procs s !! id = Some p /\ p_pc p = PTruncHash n i) \/ forall S b, says S (c_disk s) -> d_bin (c_disk s) = Some b -> b_src b = S.
Lemma says_empty S b d : says S d -> d_hash d = Some "" -> b_src b = S.
Proof. intros Hs E. unfold says in Hs. rewrite E in Hs. injection Hs as Hs. apply (hash_pre (b_src b) S ""); [apply pre_nil|done]. Qed.
Lemma says_pre S S' x b src d : says S d -> d_hash d = Some x -> pre x (t_hash T S') -> src = Some S' -> right src d -> d_bin d = Some b -> b_src b = S.
Proof.
  intros Hs Ex Hpre HS Hr Hb. unfold says in Hs. rewrite Ex in Hs. injection Hs as Hs. apply Hr in Hb. rewrite Hb in HS. injection HS as ->. by eapply hash_pre.
Qed.
Lemma honest_step s a s' e : known s -> honest s -> no_death_between s a -> edits_when_idle s a -> cstep T s a = Some (s', e) -> honest s'.
Proof.
  intros Hkn Ho Hnd Hidle Hs. pose proof Hkn as [Hp Hk]. apply cstep_happens in Hs.
  destruct Hs as [x|f d Hd|id fab force Hid|id l p Hid Hr|id l p Hid Hr Hgone|id l p d pc evs Hid Hr He|id torn p d Hid Hd].
  - destruct Ho as [(id & p & n & i & Hl & _)|Ho]; [|by right]. rewrite (Hidle x eq_refl) in Hl. done.
  - destruct Ho as [Ho|Ho]; [by left|]. right. rewrite Hd. destruct f; simpl; [done|done|exact Ho].
  - destruct Ho as [(id' & p & n & i & Hl & E)|Ho]; [left|by right]. exists id', p, n, i. split; [|done]. simpl. rewrite lookup_insert_ne; [done|congruence].
  - destruct Ho as [(id' & p' & n & i & Hl & E)|Ho]; [left|by right]. exists id', p', n, i. split; [|done]. simpl. rewrite lookup_delete_ne; [done|congruence].
  - destruct Ho as [(id' & p' & n & i & Hl & E)|Ho]; [|by right].
    left; exists id', p', n, i; split; [|done]; simpl. rewrite lookup_delete_ne; [done|]. intros ->. rewrite Hid in Hl. injection Hl as ->.
    unfold co_step, proc_step in Hgone. rewrite E in Hgone. by destruct (c_src s).
  - assert (Hoth : (forall n i, p_pc p <> PTruncHash n i) -> (forall S b, says S (c_disk s) -> d_bin (c_disk s) = Some b -> b_src b = S) \/
      honest {| c_src := c_src s; c_disk := d; c_procs := <[id := set_pc p pc]> (c_procs s) |}).
    { intros Hno. destruct Ho as [(id' & p' & n & i & Hl & E)|Ho]; [right; left|by left]. exists id', p', n, i. split; [|done]. simpl.
      rewrite lookup_insert_ne; [done|]. intros ->. rewrite Hid in Hl. injection Hl as ->. by eapply Hno. }
    pose proof (Hp _ _ Hid) as Ha. pose proof (effect_grows _ _ _ _ _ _ Ha He) as [Hgr Hgh].
    assert (Hsame : (forall n i, p_pc p <> PTruncHash n i) -> d_bin d = d_bin (c_disk s) -> d_hash d = d_hash (c_disk s) ->
      honest {| c_src := c_src s; c_disk := d; c_procs := <[id := set_pc p pc]> (c_procs s) |}).
    { intros Hno E1 E2. destruct (Hoth Hno) as [Hq|Hq]; [|exact Hq]. right. simpl. unfold says. rewrite E1, E2. exact Hq. }
    destruct He as [E|E|i x E|info r E|E|info S E|old info S E|n info S E|c n info E|n info E|n info l' E|i E|i l' E];
      try solve [apply Hsame; [rewrite E; done|first [done|by destruct r|by destruct l']..]].
    + left. exists id. eexists. exists n, info. simpl. by rewrite lookup_insert.
    + right. simpl. intros S b Hs _. by eapply says_empty.
    + rewrite E in Ha. simpl in Ha. destruct Ha as ((S & HS & ->) & Hrt & Hx). destruct l'; [apply Hsame; [rewrite E; done|done..]|].
      right. simpl. unfold write_hash. simpl. intros S' b Hs Hb. destruct (d_hash (c_disk s)) as [x|] eqn:Ex; [|by unfold says in Hs; simpl in Hs].
      eapply says_pre; [exact Hs|reflexivity| |exact HS| |exact Hb]; [apply overlay_pre; [apply pre_refl|by apply Hx]|]. intros b' Hb'. by apply Hrt.
  - assert (Hno : forall n i, p_pc p <> PTruncHash n i) by (intros n i; by eapply Hnd).
    destruct Ho as [(id' & p' & n & i & Hl & E)|Ho].
    { left. exists id', p', n, i. split; [|done]. simpl. rewrite lookup_delete_ne; [done|]. intros ->. rewrite Hid in Hl. injection Hl as ->. by eapply Hno. }
    right. simpl. pose proof (Hp _ _ Hid) as Ha. rewrite Hd. destruct (p_pc p); try exact Ho. simpl in Ha.
    destruct Ha as ((S & HS & ->) & Hrt & Hx). unfold write_hash. simpl. intros S' b Hs Hb.
    destruct (d_hash (c_disk s)) as [x|] eqn:Ex; [|by unfold says in Hs; simpl in Hs].
    eapply says_pre; [exact Hs|reflexivity| |exact HS| |exact Hb]; [apply overlay_pre; [apply sub_is_pre|by apply Hx]|]. intros b' Hb'. by apply Hrt.
Qed.

(** What is in the hash file is part of a hash of contents seen so far. *)
Definition seen_hash (s0 : fleet) (acts : list cact) (s : fleet) : Prop :=
  forall x, d_hash (c_disk s) = Some x -> x = "" \/ exists S, was_source s0 acts S /\ pre x (t_hash T S).
Lemma current_source s0 acts s e : cexec T s0 acts = Some (s, e) -> last (c_src s0 :: cedits acts) = Some (c_src s).
Proof.
  intros Hx. apply (cinv T s0 (fun _ _ => True) (fun acts s _ => last (c_src s0 :: cedits acts) = Some (c_src s))) with (e := e); [done| |by intros ??????? |done].
  clear. intros acts s e a s' e1 _ IH _ Hs. unfold cedits in *. rewrite omap_app. apply cstep_happens in Hs.
  destruct Hs; simpl; rewrite ?app_nil_r; try exact IH. rewrite app_comm_cons, last_snoc. done.
Qed.
Lemma was_lookup s0 acts S : was_source s0 acts S <-> exists i, (c_src s0 :: cedits acts) !! i = Some (Some S).
Proof.
  rewrite <-elem_of_list_lookup, elem_of_cons. unfold was_source, cedits. rewrite elem_of_list_omap. split.
  - intros [->|H]; [by left|right]. by exists (CEdit (Some S)).
  - intros [<-|(a & Ha & E)]; [by left|right]. destruct a; simplify_eq/=. done.
Qed.
Lemma current_was s0 acts s e S : cexec T s0 acts = Some (s, e) -> c_src s = Some S -> was_source s0 acts S.
Proof. intros Hx HS. apply current_source in Hx. apply was_lookup. rewrite last_lookup, HS in Hx. by eexists. Qed.
Lemma no_return_app {A} (l1 l2 : list (option A)) : no_return (l1 ++ l2) -> no_return l1.
Proof.
  intros Hn i j k x Hij Hjk Hi Hk. pose proof (lookup_lt_Some _ _ _ Hk). specialize (Hn i j k x Hij Hjk).
  rewrite !lookup_app_l in Hn by lia. auto.
Qed.
Lemma was_app s0 acts a S : was_source s0 acts S -> was_source s0 (acts ++ [a]) S.
Proof. intros [H|H]; [by left|right]. apply elem_of_app. by left. Qed.
Lemma step_grows s a s' e : known s -> (forall x, a <> CEdit x) -> cstep T s a = Some (s', e) -> c_src s' = c_src s /\ grows (c_src s) (c_disk s) (c_disk s').
Proof.
  intros [Hp Hk] Hne Hs. apply cstep_happens in Hs. assert (Hi : grows (c_src s) (c_disk s) (c_disk s)) by (split; auto).
  destruct Hs as [x|f d Hd|id fab force Hid|id l p Hid Hr|id l p Hid Hr Hgone|id l p d pc evs Hid Hr He|id torn p d Hid Hd]; simpl; (split; [try done|try exact Hi]).
  - by destruct (Hne x).
  - rewrite Hd. destruct f; simpl; (split; [intros HH b; simpl; try done; apply HH|simpl; auto]).
  - eapply effect_grows; [by eapply Hp|exact He].
  - pose proof (Hp _ _ Hid) as Ha. rewrite Hd. destruct (p_pc p); try exact Hi; simpl in Ha.
    destruct Ha as ((S & HS & ->) & Hrt & Hx). split; [intros HH b; exact (HH b)|]. unfold write_hash. simpl. destruct (d_hash (c_disk s)) as [x|] eqn:Ex; [|right; by left].
    right; right; right. simpl. exists S, (overlay (substring 0 torn (t_hash T S)) x). split; [done|]. split; [done|].
    split; [apply overlay_pre; [apply sub_is_pre|by apply Hx]|]. intros b Hb. by apply Hrt.
Qed.
Lemma seen_step s0 acts s e a s' e1 : cexec T s0 acts = Some (s, e) -> known s -> seen_hash s0 acts s -> cstep T s a = Some (s', e1) -> seen_hash s0 (acts ++ [a]) s'.
Proof.
  intros Hx Hkn Hse Hs. assert ((exists x, a = CEdit x) \/ forall x, a <> CEdit x) as [[x ->]|Hne] by (destruct a; eauto).
  - simpl in Hs. injection Hs as <- <-. intros y Hy. destruct (Hse y Hy) as [?|(S & HS & Hp)]; [by left|right]. exists S. split; [by apply was_app|done].
  - destruct (step_grows _ _ _ _ Hkn Hne Hs) as [_ [_ Hh]]. intros y Hy. destruct Hh as [Hh|[Hh|[Hh|(S & z & HS & Hz & Hp & _)]]].
    + rewrite Hh in Hy. destruct (Hse y Hy) as [?|(S & HS & Hp)]; [by left|right]. exists S. split; [by apply was_app|done].
    + congruence.
    + left. congruence.
    + right. exists S. split; [apply was_app; by eapply current_was|]. congruence.
Qed.
Lemma known_init s0 : nothing_there s0 -> known s0.
Proof.
  intros (H1 & H2 & H3 & H4). split.
  - intros id p Hi. rewrite H4 in Hi. done.
  - intros S _ Hs. unfold says in Hs. congruence.
Qed.
Lemma known_all s0 acts s e : nothing_there s0 -> cexec T s0 acts = Some (s, e) -> always T s0 acts edits_when_idle ->
  always T s0 acts no_death_between \/ no_return (c_src s0 :: cedits acts) -> known s.
Proof.
  intros H0 Hx Hq [Hd|Hn].
  - apply (cinv T s0 (fun s a => edits_when_idle s a /\ no_death_between s a) (fun _ s _ => known s /\ honest s)) with (acts := acts) (e := e); [| |by intros p a q s1 e1 E Hx1; split; [by eapply Hq|by eapply Hd]|done].
    + split; [by apply known_init|]. right. intros S b Hs. destruct H0 as (_ & H2 & _). unfold says in Hs. congruence.
    + clear -HT. intros acts s e a s' e1 _ [Hk Ho] [Hq Hd] Hs. split; [|by eapply honest_step].
      assert ((exists x, a = CEdit x) \/ forall x, a <> CEdit x) as [[x ->]|Hne] by (destruct a; eauto); [|by eapply known_step].
      simpl in Hs. injection Hs as <- <-. pose proof (Hq x eq_refl) as Hi. split; simpl.
      * intros id p Hl. rewrite Hi in Hl. done.
      * intros S -> Hs b Hb. f_equal. symmetry. destruct Ho as [(id & p & n & i & Hl & _)|Ho]; [rewrite Hi in Hl; done|by apply Ho].
  - apply (cinv T s0 edits_when_idle (fun acts s _ => no_return (c_src s0 :: cedits acts) -> known s /\ seen_hash s0 acts s)) with (acts := acts) (e := e); [| |done|done|done].
    + intros _. split; [by apply known_init|]. intros x Hs. destruct H0 as (_ & H2 & _). congruence.
    + clear -HT. intros acts s e a s' e1 Hx IH Hq Hs Hn. unfold cedits in Hn. rewrite omap_app in Hn. fold (cedits acts) in Hn.
      rewrite app_comm_cons in Hn. destruct (IH (no_return_app _ _ Hn)) as [Hk Hse]. split; [|by eapply seen_step].
      assert ((exists x, a = CEdit x) \/ forall x, a <> CEdit x) as [[x ->]|Hne] by (destruct a; eauto); [|by eapply known_step].
      simpl in Hs. injection Hs as <- <-. pose proof (Hq x eq_refl) as Hi. split; simpl; [intros id p Hl; rewrite Hi in Hl; done|].
      intros S -> Hs. destruct (Hse _ Hs) as [E|(Y & HY & Hp)].
      * intros b Hb. f_equal. symmetry. eapply says_empty; [exact Hs|]. unfold says in Hs. congruence.
      * assert (Y = S) as -> by (by eapply hash_pre). apply was_lookup in HY as [i HiY]. pose proof (current_source _ _ _ _ Hx) as Hl.
        rewrite last_lookup in Hl. assert (Hc : c_src s = Some S).
        { destruct (decide (i = pred (length (c_src s0 :: cedits acts)))) as [->|Hne]; [congruence|].
          pose proof (lookup_lt_Some _ _ _ HiY). assert (Hm : (c_src s0 :: cedits acts) !! pred (length (c_src s0 :: cedits acts)) = Some (Some S)).
          { pose proof (Hn i (pred (length (c_src s0 :: cedits acts))) (length (c_src s0 :: cedits acts)) S) as H1.
            rewrite (lookup_app_l _ _ i) in H1 by done. rewrite (lookup_app_l _ _ (pred _)) in H1 by (simpl; lia). apply H1; [simpl in *; lia|simpl; lia|done|].
            rewrite lookup_app_r by done. rewrite Nat.sub_diag. done. }
          congruence. }
        pose proof (kn_hash _ Hk S Hc Hs) as Hr. intros b Hb. rewrite <-Hc. by apply Hr.
Qed.
Lemma right_sources s0 acts s e id s' b : nothing_there s0 -> cexec T s0 acts = Some (s, e) -> always T s0 acts edits_when_idle ->
  always T s0 acts no_death_between \/ no_return (c_src s0 :: cedits acts) -> gets T s id s' (Some b) -> c_src s = Some (b_src b).
Proof.
  intros H0 Hx Hq Hor [l Hs]. pose proof (known_all _ _ _ _ H0 Hx Hq Hor) as [Hp _]. apply cstep_happens in Hs.
  inversion Hs as [| | |id' l' p Hid Hr E1 E2 Eb| |id' l' p d pc evs Hid Hr He E1 E2 E3|]; subst.
  - specialize (Hp _ _ Hid). rewrite Hr in Hp. by apply Hp.
  - destruct He; discriminate.
Qed.
End sources.
