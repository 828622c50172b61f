From stdpp Require Import base gmap list strings.
From Verif Require Import DriverModel DriverSpec FleetModel FleetSpec FleetProofs FleetProofs2.
Local Open Scope list_scope.

(** ** No waiting *)
Definition rank (c : pc) : nat :=
  match c with PStat => 10 | PVersion => 9 | PReadHash => 8 | PHash _ _ => 7 | PCopy _ _ => 6 | PRename _ _ _ => 5 | PTruncHash _ _ => 4 | PWriteHash _ _ => 3 | PTruncVer _ => 2 | PWriteVer _ => 1 | PReturn => 0 end.
Lemma effect_rank T p src d d' c evs : effect T p src d d' c evs -> rank c < rank (p_pc p).
Proof. destruct 1 as [E|E|i x E|info r E|E|info S E|old info S E|n info S E|c n info E|n info E|n info l E|i E|i l E]; rewrite E; simpl; try lia. destruct info; simpl; lia. Qed.
Lemma gone_stays T acts s s' e id : c_procs s !! id = None -> (forall f fo, CStart id f fo ∉ acts) -> cexec T s acts = Some (s', e) -> own_steps id acts = [].
Proof.
  revert s s' e. induction acts as [|a acts IH]; intros s s' e Hid Hns Hx; [done|]. simpl in Hx. destruct (cstep T s a) as [[s1 e1]|] eqn:Ea; [|done].
  destruct (cexec T s1 acts) as [[s2 e2]|] eqn:Ex; [|done]. apply cstep_happens in Ea.
  assert (Hid1 : c_procs s1 !! id = None).
  { destruct Ea as [x|f d Hd|id' fab force Hid'|id' l p Hid' Hr|id' l p Hid' Hr Hgone|id' l p d pc evs Hid' Hr He|id' torn p d Hid' Hd]; simpl; try done.
    - rewrite lookup_insert_ne; [done|]. intros ->. apply (Hns fab force). by left.
    - rewrite lookup_delete_None. by right.
    - rewrite lookup_delete_None. by right.
    - rewrite lookup_insert_ne; [done|]. congruence.
    - rewrite lookup_delete_None. by right. }
  pose proof (IH s1 s2 e2 Hid1 ltac:(intros f fo Hi; by apply (Hns f fo); right) Ex) as Hr.
  unfold own_steps in *. simpl. destruct a as [| | |id' l|]; try exact Hr. case_decide as Hd; [|exact Hr]. subst id'. exfalso. inversion Ea; subst; congruence.
Qed.
Lemma own_cons id a acts : length (own_steps id (a :: acts)) <= S (length (own_steps id acts)).
Proof. unfold own_steps. destruct a as [| | |id' l|]; [apply le_S, le_n..| |apply le_S, le_n]. simpl. destruct (decide (id' = id)); [apply le_n|apply le_S, le_n]. Qed.
Lemma own_other id id' l acts : id' <> id -> own_steps id (CStep id' l :: acts) = own_steps id acts.
Proof. intros Hn. unfold own_steps. simpl. destruct (decide (id' = id)); [done|reflexivity]. Qed.
Lemma steps_bound T acts s s' e id p : c_procs s !! id = Some p -> (forall f fo, CStart id f fo ∉ acts) -> cexec T s acts = Some (s', e) -> length (own_steps id acts) <= S (rank (p_pc p)).
Proof.
  revert s s' e p. induction acts as [|a acts IH]; intros s s' e p Hid Hns Hx; [simpl; lia|]. simpl in Hx. destruct (cstep T s a) as [[s1 e1]|] eqn:Ea; [|done].
  destruct (cexec T s1 acts) as [[s2 e2]|] eqn:Ex; [|done]. apply cstep_happens in Ea.
  assert (Hns' : forall f fo, CStart id f fo ∉ acts) by (intros f fo Hi; by apply (Hns f fo); right).
  assert (Hothers : forall p', c_procs s1 !! id = Some p' -> rank (p_pc p') = rank (p_pc p) -> own_steps id (a :: acts) = own_steps id acts -> length (own_steps id (a :: acts)) <= S (rank (p_pc p))).
  { intros p' Hp' Hrk ->. rewrite <-Hrk. by eapply IH. }
  assert (Hgone : c_procs s1 !! id = None -> length (own_steps id (a :: acts)) <= S (rank (p_pc p))).
  { intros Hn. pose proof (gone_stays _ _ _ _ _ _ Hn Hns' Ex) as Hr. pose proof (own_cons id a acts) as Hl. rewrite Hr in Hl. etrans; [exact Hl|]. simpl. lia. }
  destruct Ea as [x|f d Hd|id' fab force Hid'|id' l p' Hid' Hr|id' l p' Hid' Hr Hgn|id' l p' d pc evs Hid' Hr He|id' torn p' d Hid' Hd]; simpl in *.
  - by apply (Hothers p).
  - by apply (Hothers p).
  - apply (Hothers p); [rewrite lookup_insert_ne; [done|congruence]|done|done].
  - destruct (decide (id' = id)) as [->|Hn]; [apply Hgone; by rewrite lookup_delete|].
    apply (Hothers p); [by rewrite lookup_delete_ne|done|]. first [done|by apply own_other].
  - destruct (decide (id' = id)) as [->|Hn]; [apply Hgone; by rewrite lookup_delete|].
    apply (Hothers p); [by rewrite lookup_delete_ne|done|]. first [done|by apply own_other].
  - destruct (decide (id' = id)) as [->|Hn].
    + rewrite Hid in Hid'. injection Hid' as <-. apply effect_rank in He. pose proof (own_cons id (CStep id l) acts) as Hl.
      assert (H : length (own_steps id acts) <= S (rank pc)) by (eapply (IH _ s2 e2 (set_pc p pc)); [|exact Hns'|exact Ex]; simpl; by rewrite lookup_insert).
      clear Hl. simpl. lia.
    + apply (Hothers p); [by rewrite lookup_insert_ne|done|]. first [done|by apply own_other].
  - destruct (decide (id' = id)) as [->|Hn]; [apply Hgone; by rewrite lookup_delete|]. apply (Hothers p); [by rewrite lookup_delete_ne|done|done].
Qed.
Lemma can_step T s id l p : c_procs s !! id = Some p -> exists s' e, cstep T s (CStep id l) = Some (s', e).
Proof. intros Hid. simpl. rewrite Hid. destruct (p_pc p); try (by eexists _, _); destruct (co_step T p l (c_src s) (c_disk s)) as [[[? ?] ?]|]; by eexists _, _. Qed.

(** ** What is executed *)
Lemma starts_app acts a : cstarts (acts ++ [a]) = cstarts acts ++ cstarts [a].
Proof. unfold cstarts. by rewrite omap_app. Qed.
Definition made (s0 : fleet) (acts : list cact) (s : fleet) (e : list (nat * event)) : Prop :=
  (forall id p, c_procs s !! id = Some p -> p_fab p ∈ cstarts acts /\ forall c n i, p_pc p = PRename c n i -> was_source s0 acts c) /\
  (forall b, d_bin (c_disk s) = Some b -> (exists id, (id, EvCompiled b) ∈ e) /\ was_source s0 acts (b_src b) /\ b_fab b ∈ cstarts acts).
Lemma made_all T s0 acts s e : nothing_there s0 -> cexec T s0 acts = Some (s, e) -> made s0 acts s e.
Proof.
  intros H0 Hx. apply (cinv T s0 (fun _ _ => True) (made s0)); [| |by intros ???????|done].
  - destruct H0 as (H1 & H2 & H3 & H4). split; [intros id p Hi; rewrite H4 in Hi; done|intros b Hb; congruence].
  - clear. intros acts s e a s' e1 Hx [Hp Hb] _ Hs. apply cstep_happens in Hs.
    assert (Hp' : forall id p, c_procs s !! id = Some p -> p_fab p ∈ cstarts (acts ++ [a]) /\ forall c n i, p_pc p = PRename c n i -> was_source s0 (acts ++ [a]) c).
    { intros id p Hi. destruct (Hp _ _ Hi) as [H1 H2]. split; [rewrite starts_app; apply elem_of_app; by left|]. intros c n i E. apply was_app. by eapply H2. }
    assert (Hb' : forall b, d_bin (c_disk s) = Some b -> (exists id, (id, EvCompiled b) ∈ e ++ e1) /\ was_source s0 (acts ++ [a]) (b_src b) /\ b_fab b ∈ cstarts (acts ++ [a])).
    { intros b Hi. destruct (Hb b Hi) as ([id H1] & H2 & H3). split; [exists id; apply elem_of_app; by left|]. split; [by apply was_app|]. rewrite starts_app. apply elem_of_app. by left. }
    destruct Hs as [x|f d Hd|id fab force Hid|id l p Hid Hr|id l p Hid Hr Hgone|id l p d pc evs Hid Hr He|id torn p d Hid Hd]; (split; simpl; [|try exact Hb']).
    + exact Hp'.
    + exact Hp'.
    + rewrite Hd. intros b Hi. apply Hb'. by destruct f.
    + intros id' p' Hi. destruct (decide (id = id')) as [<-|Hn]; [|rewrite lookup_insert_ne in Hi by done; by eapply Hp'].
      rewrite lookup_insert in Hi. injection Hi as <-. split; [|done]. rewrite starts_app. apply elem_of_app. right. by left.
    + intros id' p' [_ Hi]%lookup_delete_Some. by eapply Hp'.
    + intros id' p' [_ Hi]%lookup_delete_Some. by eapply Hp'.
    + intros id' p' Hi. destruct (decide (id = id')) as [<-|Hn]; [|rewrite lookup_insert_ne in Hi by done; by eapply Hp'].
      rewrite lookup_insert in Hi. injection Hi as <-. simpl. destruct (Hp' _ _ Hid) as [H1 H2]. split; [done|]. intros c n i ->.
      inversion He; subst; try discriminate; [|by destruct info]. apply was_app. by eapply current_was.
    + destruct He as [E|E|i x E|info r E|E|info S E|old info S E|n info S E|c n info E|n info E|n info l' E|i E|i l' E]; try exact Hb'.
      * intros b Hi. apply Hb'. by destruct r.
      * intros b [= <-]. destruct (Hp' _ _ Hid) as [H1 H2]. split; [|split; [by eapply H2|done]]. exists id. apply elem_of_app. right. by left.
      * intros b Hi. apply Hb'. by destruct l'.
      * intros b Hi. apply Hb'. by destruct l'.
    + intros id' p' [_ Hi]%lookup_delete_Some. by eapply Hp'.
    + rewrite Hd. intros b Hi. apply Hb'. by destruct (p_pc p).
Qed.
Definition has_bin (d : disk) (c : pc) : Prop :=
  match c with PVersion | PReadHash | PHash (Some _) _ | PTruncHash _ _ | PWriteHash _ _ | PTruncVer _ | PWriteVer _ | PReturn => d_bin d <> None | _ => True end.
Lemma has_all T s0 acts s e : nothing_there s0 -> CRemove FBin ∉ acts -> cexec T s0 acts = Some (s, e) -> forall id p, c_procs s !! id = Some p -> has_bin (c_disk s) (p_pc p).
Proof.
  intros H0 Hnr Hx.
  apply (cinv T s0 (fun _ a => a <> CRemove FBin) (fun _ s _ => forall id p, c_procs s !! id = Some p -> has_bin (c_disk s) (p_pc p))) with (acts := acts) (e := e); [| | |done].
  - destruct H0 as (H1 & H2 & H3 & H4). intros id p Hi. rewrite H4 in Hi. done.
  - clear. intros acts s e a s' e1 _ Hp Hne Hs. apply cstep_happens in Hs.
    assert (Hmono : forall d', (d_bin (c_disk s) <> None -> d_bin d' <> None) -> forall id p, c_procs s !! id = Some p -> has_bin d' (p_pc p)).
    { intros d' Hm id p Hi. specialize (Hp _ _ Hi). destruct (p_pc p) as [| | |[old|] ?| | | | | | |]; simpl in *; auto. }
    destruct Hs as [x|f d Hd|id fab force Hid|id l p Hid Hr|id l p Hid Hr Hgone|id l p d pc evs Hid Hr He|id torn p d Hid Hd]; simpl.
    + exact Hp.
    + apply Hmono. rewrite Hd. by destruct f.
    + intros id' p' Hi. destruct (decide (id = id')) as [<-|Hn]; [rewrite lookup_insert in Hi; by injection Hi as <-|rewrite lookup_insert_ne in Hi by done; by eapply Hp].
    + intros id' p' [_ Hi]%lookup_delete_Some. by eapply Hp.
    + intros id' p' [_ Hi]%lookup_delete_Some. by eapply Hp.
    + assert (Hd : d_bin (c_disk s) <> None -> d_bin d <> None) by (destruct He; simpl; try done; try (by destruct r); by destruct l0).
      intros id' p' Hi. destruct (decide (id = id')) as [<-|Hn]; [|rewrite lookup_insert_ne in Hi by done; by eapply Hmono].
      rewrite lookup_insert in Hi. injection Hi as <-. simpl. specialize (Hp _ _ Hid).
      destruct He as [E|E|i x E|info r E|E|info S E|old info S E|n info S E|c n info E|n info E|n info l' E|i E|i l' E]; rewrite ?E in Hp; simpl in *; try done.
      * by destruct (d_hash (c_disk s)).
      * destruct info; simpl; by apply Hd.
      * by apply Hd.
    + intros id' p' [_ Hi]%lookup_delete_Some. eapply Hmono; [|exact Hi]. rewrite Hd. by destruct (p_pc p).
  - intros p a q s1 e1 E _ ->. apply Hnr. rewrite E. apply elem_of_app. right. by left.
Qed.

(** ** Two runs that overlap with an edit *)
Section overlap.
Context (T : tools) (f : fabinfo) (fo : bool).
Definition at_ (c : pc) : proc := {| p_fab := f; p_force := fo; p_pc := c |}.
Fixpoint solo (src : option sources) (n : nat) (d : disk) (c : pc) : option (disk * pc) :=
  match n with
  | 0 => Some (d, c)
  | S n => match c with
           | PReturn => None
           | _ => match co_step T (at_ c) false src d with Some (d', c', _) => solo src n d' c' | None => None end
           end
  end.
Lemma solo_exec src n d c d' c' m id : solo src n d c = Some (d', c') ->
  exists e, cexec T {| c_src := src; c_disk := d; c_procs := <[id := at_ c]> m |} (replicate n (CStep id false)) = Some ({| c_src := src; c_disk := d'; c_procs := <[id := at_ c']> m |}, e).
Proof.
  revert d c. induction n as [|n IH]; intros d c H.
  - injection H as -> ->. by eexists.
  - cbn [solo] in H. cbn [replicate cexec]. unfold cstep. simpl c_procs. rewrite lookup_insert. simpl p_pc. simpl c_src. simpl c_disk.
    destruct (co_step T (at_ c) false src d) as [[[d1 c1] evs]|] eqn:Ec; [|by destruct c].
    assert (Hs : solo src n d1 c1 = Some (d', c')) by (by destruct c). destruct (IH d1 c1 Hs) as [e He].
    exists ((pair id <$> evs) ++ e). destruct c; try (rewrite insert_insert; unfold at_ in He; cbn [p_fab p_force at_]; unfold at_; rewrite He; reflexivity). done.
Qed.
End overlap.
Lemma overlay_nil x : overlay x "" = x.
Proof. apply overlay_full, pre_nil. Qed.
Lemma ce_app T s s1 s2 e1 e2 a1 a2 : cexec T s a1 = Some (s1, e1) -> cexec T s1 a2 = Some (s2, e2) -> cexec T s (a1 ++ a2) = Some (s2, e1 ++ e2).
Proof. intros H1 H2. by rewrite cexec_app, H1, H2. Qed.
Lemma ce_ret T src d f fo m id : m !! id = None -> cexec T {| c_src := src; c_disk := d; c_procs := <[id := at_ f fo PReturn]> m |} [CStep id false] = Some ({| c_src := src; c_disk := d; c_procs := m |}, [(id, EvDriver (d_bin d))]).
Proof. intros Hm. simpl. rewrite lookup_insert. simpl. by rewrite delete_insert. Qed.
Lemma ce_start T src d f fo m id : m !! id = None -> cexec T {| c_src := src; c_disk := d; c_procs := m |} [CStart id f fo] = Some ({| c_src := src; c_disk := d; c_procs := <[id := at_ f fo PStat]> m |}, []).
Proof. intros Hm. simpl. by rewrite Hm. Qed.
Lemma ce_edit T src x d m : cexec T {| c_src := src; c_disk := d; c_procs := m |} [CEdit x] = Some ({| c_src := x; c_disk := d; c_procs := m |}, []).
Proof. done. Qed.
Definition full (id : nat) (i : string) (n : nat) : list cact := [CStart id (Some i) false] ++ replicate n (CStep id false) ++ [CStep id false].
Lemma full_exec T i src n d d' id m : m !! id = None -> solo T (Some i) false src n d PStat = Some (d', PReturn) ->
  exists e, cexec T {| c_src := src; c_disk := d; c_procs := m |} (full id i n) = Some ({| c_src := src; c_disk := d'; c_procs := m |}, e).
Proof.
  intros Hm Hs. destruct (solo_exec _ _ _ _ _ _ _ _ _ m id Hs) as [e He]. eexists. unfold full.
  eapply ce_app; [by apply ce_start|]. eapply ce_app; [exact He|]. by apply ce_ret.
Qed.
Lemma overlap_stale T Z A B i : hash_ok T -> enc_ok T -> A <> B -> A <> Z -> B <> Z ->
  exists acts s e, cexec T {| c_src := Some Z; c_disk := {| d_bin := None; d_hash := None; d_ver := None |}; c_procs := ∅ |} acts = Some (s, e) /\
    cedits acts = [Some A; Some B] /\ (forall id n, CDie id n ∉ acts) /\ (forall fl, CRemove fl ∉ acts) /\ (forall id l, CStep id l ∈ acts -> l = false) /\
    (forall id g fo, CStart id g fo ∈ acts -> g = Some i /\ fo = false) /\
    c_procs s = ∅ /\ c_src s = Some B /\
    forall id, exists s1 e1 b, cexec T s (CStart id (Some i) false :: replicate 4 (CStep id false)) = Some (s1, e1) /\ gets T s1 id s (Some b) /\ b_src b = A.
Proof.
  intros HT HE HAB HAZ HBZ.
  assert (Hinj : forall a b, t_hash T a = t_hash T b -> a = b) by (by apply hash_inj).
  assert (Hdec : t_dec T (t_enc T i) = Some i) by apply HE.
  assert (V : forall src d, d_ver d = Some (t_enc T i) -> co_step T (at_ (Some i) false PVersion) false src d = Some (d, PReadHash, [])).
  { intros src d Hd. unfold co_step, proc_step, checkVersion. simpl. rewrite Hd, Hdec. destruct src; by rewrite decide_True. }
  assert (H1 : forall S d, co_step T (at_ (Some i) false (PHash (Some (t_hash T S)) None)) false (Some S) d = Some (d, PReturn, [])).
  { intros S d. unfold co_step, proc_step. simpl. by rewrite decide_True. }
  assert (H2 : forall S S' d, S <> S' -> co_step T (at_ (Some i) false (PHash (Some (t_hash T S')) None)) false (Some S) d = Some (d, PCopy (t_hash T S) None, [])).
  { intros S S' d Hne. unfold co_step, proc_step. simpl. rewrite decide_False; [done|]. intros E%Hinj. done. }
  set (bin := fun S => {| b_src := S; b_fab := Some i |}).
  set (dk := fun S h v => {| d_bin := Some (bin S); d_hash := Some h; d_ver := v |}).
  assert (R0 : exists e, cexec T {| c_src := Some Z; c_disk := {| d_bin := None; d_hash := None; d_ver := None |}; c_procs := ∅ |} (full 0 i 6) = Some ({| c_src := Some Z; c_disk := dk Z (t_hash T Z) None; c_procs := ∅ |}, e)).
  { apply full_exec; [done|]. simpl. unfold write_hash. simpl. rewrite overlay_nil. reflexivity. }
  assert (R1 : exists e, cexec T {| c_src := Some Z; c_disk := dk Z (t_hash T Z) None; c_procs := ∅ |} (full 1 i 9) = Some ({| c_src := Some Z; c_disk := dk Z (t_hash T Z) (Some (t_enc T i)); c_procs := ∅ |}, e)).
  { apply full_exec; [done|]. simpl. unfold write_hash, write_ver. simpl. rewrite !overlay_nil. reflexivity. }
  assert (R2 : exists e, cexec T {| c_src := Some A; c_disk := dk Z (t_hash T Z) (Some (t_enc T i)); c_procs := <[2 := at_ (Some i) false PStat]> ∅ |} (replicate 5 (CStep 2 false)) =
    Some ({| c_src := Some A; c_disk := dk Z (t_hash T Z) (Some (t_enc T i)); c_procs := <[2 := at_ (Some i) false (PRename A (t_hash T A) None)]> ∅ |}, e)).
  { apply solo_exec. unfold dk, bin. simpl. rewrite V by done. simpl. rewrite decide_False by (intros E%Hinj; congruence). reflexivity. }
  set (m2 := <[2 := at_ (Some i) false (PRename A (t_hash T A) None)]> ∅ : gmap nat proc) in *.
  assert (R3 : exists e, cexec T {| c_src := Some B; c_disk := dk Z (t_hash T Z) (Some (t_enc T i)); c_procs := <[3 := at_ (Some i) false PStat]> m2 |} (replicate 6 (CStep 3 false)) =
    Some ({| c_src := Some B; c_disk := dk B (t_hash T Z) (Some (t_enc T i)); c_procs := <[3 := at_ (Some i) false (PTruncHash (t_hash T B) None)]> m2 |}, e)).
  { apply solo_exec. unfold dk, bin. simpl. rewrite V by done. simpl. rewrite decide_False by (intros E%Hinj; congruence). reflexivity. }
  set (m3 := <[3 := at_ (Some i) false (PTruncHash (t_hash T B) None)]> ∅ : gmap nat proc).
  assert (Em : <[3 := at_ (Some i) false (PTruncHash (t_hash T B) None)]> m2 = <[2 := at_ (Some i) false (PRename A (t_hash T A) None)]> m3) by (apply insert_commute; done).
  rewrite Em in R3.
  assert (R4 : exists e, cexec T {| c_src := Some B; c_disk := dk B (t_hash T Z) (Some (t_enc T i)); c_procs := <[2 := at_ (Some i) false (PRename A (t_hash T A) None)]> m3 |} (replicate 3 (CStep 2 false)) =
    Some ({| c_src := Some B; c_disk := dk A (t_hash T A) (Some (t_enc T i)); c_procs := <[2 := at_ (Some i) false PReturn]> m3 |}, e)).
  { apply solo_exec. unfold dk, bin. simpl. unfold write_hash. simpl. rewrite overlay_nil. reflexivity. }
  assert (R5 : exists e, cexec T {| c_src := Some B; c_disk := dk A (t_hash T A) (Some (t_enc T i)); c_procs := m3 |} (replicate 2 (CStep 3 false)) =
    Some ({| c_src := Some B; c_disk := dk A (t_hash T B) (Some (t_enc T i)); c_procs := <[3 := at_ (Some i) false PReturn]> ∅ |}, e)).
  { apply solo_exec. unfold dk, bin. simpl. unfold write_hash. simpl. rewrite overlay_nil. reflexivity. }
  destruct R0 as [e0 R0], R1 as [e1 R1], R2 as [e2 R2], R3 as [e3 R3], R4 as [e4 R4], R5 as [e5 R5].
  exists (full 0 i 6 ++ full 1 i 9 ++ [CEdit (Some A)] ++ [CStart 2 (Some i) false] ++ replicate 5 (CStep 2 false) ++ [CEdit (Some B)] ++ [CStart 3 (Some i) false] ++
    replicate 6 (CStep 3 false) ++ replicate 3 (CStep 2 false) ++ [CStep 2 false] ++ replicate 2 (CStep 3 false) ++ [CStep 3 false]).
  eexists {| c_src := Some B; c_disk := dk A (t_hash T B) (Some (t_enc T i)); c_procs := ∅ |}, _. split.
  { eapply ce_app; [exact R0|]. eapply ce_app; [exact R1|]. eapply ce_app; [apply ce_edit|]. eapply ce_app; [by apply ce_start|]. eapply ce_app; [exact R2|].
    eapply ce_app; [apply ce_edit|]. eapply ce_app; [by apply ce_start|]. eapply ce_app; [exact R3|]. eapply ce_app; [exact R4|].
    eapply ce_app; [by apply ce_ret|]. eapply ce_app; [exact R5|]. by apply ce_ret. }
  split; [reflexivity|].
  split; [intros id n H; apply elem_of_list_In in H; simpl in H; repeat (destruct H as [H|H]; [discriminate H|]); destruct H|].
  split; [intros fl H; apply elem_of_list_In in H; simpl in H; repeat (destruct H as [H|H]; [discriminate H|]); destruct H|].
  split; [intros id l H; apply elem_of_list_In in H; simpl in H; repeat (destruct H as [H|H]; [first [discriminate H|by injection H]|]); destruct H|].
  split; [intros id g fo H; apply elem_of_list_In in H; simpl in H; repeat (destruct H as [H|H]; [first [discriminate H|injection H as _ <- <-; split; reflexivity]|]); destruct H|].
  split; [done|]. split; [done|]. intros id.
  assert (R6 : exists e, cexec T {| c_src := Some B; c_disk := dk A (t_hash T B) (Some (t_enc T i)); c_procs := <[id := at_ (Some i) false PStat]> ∅ |} (replicate 4 (CStep id false)) =
    Some ({| c_src := Some B; c_disk := dk A (t_hash T B) (Some (t_enc T i)); c_procs := <[id := at_ (Some i) false PReturn]> ∅ |}, e)).
  { apply solo_exec. unfold dk, bin. simpl. rewrite V by done. simpl. rewrite decide_True by done. reflexivity. }
  destruct R6 as [e6 R6]. eexists _, _, (bin A). split; [|split].
  - change (CStart id (Some i) false :: replicate 4 (CStep id false)) with ([CStart id (Some i) false] ++ replicate 4 (CStep id false)).
    eapply ce_app; [by apply ce_start|exact R6].
  - exists false. simpl. rewrite lookup_insert. simpl. rewrite delete_insert by done. reflexivity.
  - done.
Qed.
