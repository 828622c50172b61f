(** Proofs for C100: others use the file system at the same time. *)
From stdpp Require Import base gmap list strings relations.
From Verif Require Import PathModel CompileModel CompileSpec WorkdirModel WorkdirSpec WorkdirSpec2 WorkdirProofs WorkdirProofs2 WorkdirProofs3 WorkdirProofs4 WorkdirProofs5.
Local Open Scope list_scope.

Section shared.
  Context (T : tools) (pkgdir binfile : path) (es : list entry) (fs0 : fsys).
  Context (Hproper : temp_ok T fs0) (Hpkg : package_there fs0 pkgdir es) (Hemb : distinct_names (t_embeds T)).
  Local Notation A := (relied_on pkgdir es).
  Local Notation agree := (agree pkgdir es).

  Lemma A_under t p : t `prefix_of` p -> A t p. Proof. by left. Qed.
  Lemma A_parent t p : t `prefix_of` p -> A t (parent p).
  Proof.
    intros [k ->]. destruct k as [|x k _] using rev_ind.
    - rewrite app_nil_r. right. left. destruct t as [|y t _] using rev_ind; [done|]. rewrite parent_snoc. by apply prefix_app_r.
    - rewrite (assoc_L (++)), parent_snoc. left. by apply prefix_app_r.
  Qed.
  Lemma agree_trans t a b c : agree t a b -> agree t b c -> agree t a c.
  Proof. intros H1 H2 p Hp. by rewrite (H2 p Hp), (H1 p Hp). Qed.
  Lemma agree_insert t p nd fs s : agree t s fs -> agree t (<[p := nd]> s) (<[p := nd]> fs).
  Proof. intros H q Hq. destruct (decide (p = q)) as [->|Hn]; [by rewrite !lookup_insert|]. rewrite !lookup_insert_ne by done. by apply H. Qed.
  Lemma agree_mkdirs t l fs s : agree t s fs -> Forall (A t) l -> agree t (mkdirs l s) (mkdirs l fs).
  Proof.
    unfold mkdirs. revert fs s. induction l as [|q l IH]; intros fs s H Hl; [done|]. apply Forall_cons in Hl as [Hq Hl]. simpl. apply IH; [|done].
    rewrite (H q Hq). destruct (s !! q); [done|]. by apply agree_insert.
  Qed.
  Lemma agree_dir t fs s p : agree t s fs -> A t p -> is_dir fs p -> is_dir s p.
  Proof. intros H Hp [->|E]; [by left|]. right. by rewrite <-(H p Hp). Qed.

  (** The operations that only look at this. *)
  Definition local (t : path) (o : op) : Prop :=
    match o with
    | OMkdirAll p | OCreate _ p | OFill p _ | OEditMod p | OGoInit p | OGoTidy p | OGoBuild p => t `prefix_of` p
    | OReadDir p | OOpen p => A t p
    | OCopy src p => A t src /\ t `prefix_of` p
    | ORename _ _ => False
    end.
  Lemma local_inside t o : local t o -> inside t o.
  Proof. destruct o; simpl; try done. by intros [_ ?]. Qed.
  Lemma local_sim t o fs fs' s : local t o -> agree t s fs -> succeeds T o fs fs' -> exists s', succeeds T o s s' /\ agree t s' fs'.
  Proof.
    intros Hl Ha Hs. assert (Hu : forall p, t `prefix_of` p -> s !! p = fs !! p) by (intros p Hp; symmetry; by apply Ha, A_under).
    destruct Hs as [p fs Hf|p fs Hd|ex p fs Hp Hne Hnd He|p fs c Hc|p c c0 fs Hc|src dst c c0 fs H1 H2|dir fs Hd Hn|p c c' fs Hc Hc'|dir fs m m' sum Hm Ht Hs|dir fs tree exe Ht He Hx|src dst c fs];
      simpl in Hl; try done.
    - assert (HA : Forall (A t) (dirs_to p)).
      { apply Forall_forall. intros q [_ Hq]%dirs_to_elem. destruct (prefix_weak_total q t p Hq Hl); [right; by left|by left]. }
      eexists. split; [constructor|by apply agree_mkdirs]. rewrite Forall_forall in Hf. rewrite Forall_forall in HA. apply Forall_forall. intros q Hq c E.
      apply (Hf q Hq c). rewrite (Ha q); [done|by apply HA].
    - exists s. split; [constructor; by eapply agree_dir|done].
    - eexists. split; [constructor; [eapply agree_dir; [done|by apply A_parent|done]|done|by rewrite Hu|by rewrite Hu]|by apply agree_insert].
    - exists s. split; [econstructor; by rewrite <-(Ha p)|done].
    - eexists. split; [econstructor; by rewrite Hu|by apply agree_insert].
    - destruct Hl as [Hl1 Hl2]. eexists. split; [econstructor; [by rewrite <-(Ha src)|by rewrite Hu]|by apply agree_insert].
    - eexists. split; [constructor; [eapply agree_dir; [done|by apply A_under|done]|rewrite Hu; [done|by apply prefix_app_r]]|by apply agree_insert].
    - eexists. split; [econstructor; [by rewrite Hu|done]|by apply agree_insert].
    - eexists. split; [apply (s_tidy T dir s m m' sum); [rewrite Hu; [done|by apply prefix_app_r]|done|rewrite Hu; [done|by apply prefix_app_r]]|by apply agree_insert, agree_insert].
    - eexists. split; [eapply s_build; [|exact He|rewrite Hu; [done|by apply prefix_app_r]]|by apply agree_insert].
      intros q. rewrite Ht. unfold below. rewrite Hu; [done|by apply prefix_app_r].
  Qed.

  Lemma populate_local t dest e : t `prefix_of` dest -> Forall (local t) (populate_ops dest e).
  Proof.
    revert dest. induction e as [n c|n ch IH] using etree_all; intros dest Hd; simpl.
    - destruct (has_suffix _ n); [done|]. repeat constructor; by apply prefix_app_r.
    - apply Forall_cons. split; [by apply prefix_app_r|]. induction IH as [|e ch H _ IH']; simpl; [done|].
      apply Forall_app. split; [apply H; by apply prefix_app_r|done].
  Qed.
  Lemma prework_local t d : right_files es d -> Forall (local t) (prework T t pkgdir d ++ [OGoBuild t]).
  Proof.
    intros Hr. unfold prework, populateFabDir_ops. repeat (first [apply Forall_app; split | apply Forall_cons; split]); simpl; try done; try (by apply prefix_app_r).
    - clear Hemb. induction (t_embeds T) as [|e es' IH]; simpl; [done|]. apply Forall_app. split; [|done]. apply populate_local. by apply prefix_app_r.
    - right; right; by left.
    - assert (HL : forall f, f ∈ (d_files d).*1 -> A t (pkgdir ++ [f])).
      { intros f ([n c] & -> & Hn)%elem_of_list_fmap. apply Hr in Hn as (e & He & <- & _ & Hg & _). right; right; right. exists e. split; [done|]. split; [apply Hg|done]. }
      revert HL. induction ((d_files d).*1) as [|f fs IH]; intros HL; simpl; [done|].
      assert (Hf : A t (pkgdir ++ [f])) by (apply HL; by left).
      rewrite !Forall_cons. split_and!; simpl; [|done|split; [done|]|apply IH; intros; apply HL; by right]; rewrite <-(assoc_L (++)); by apply prefix_app_r.
  Qed.

  Lemma split_body d t dn o todo : right_files es d -> body T t pkgdir binfile d = dn ++ o :: todo ->
    todo <> [] /\ local t o \/ o = ORename (t ++ ["x"]) binfile /\ todo = [] /\ dn = prework T t pkgdir d ++ [OGoBuild t].
  Proof.
    intros Hr E. rewrite body_prework in E. pose proof (prework_local t d Hr) as Hin.
    change [OGoBuild t; ORename (t ++ ["x"]) binfile] with ([OGoBuild t] ++ [ORename (t ++ ["x"]) binfile]) in E. rewrite (assoc_L (++)) in E.
    destruct todo as [|x todo _] using rev_ind.
    - apply app_inj_tail in E as [<- <-]. by right.
    - rewrite app_comm_cons, (assoc_L (++)) in E. apply app_inj_tail in E as [E _]. rewrite E in Hin. left.
      split; [by destruct todo|]. apply Forall_app in Hin as [_ Hin]. by apply Forall_cons in Hin as [? _].
  Qed.

  (** The call sees what it would see alone. *)
  Definition seen (d : option driver) (c : fsys * phase) : Prop :=
    match c.2 with
    | Started => c.1 = fs0
    | Working t [] | Cleaning t _ => started T fs0 t
    | Working t todo => exists d' dn s, d = Some d' /\ started T fs0 t /\ body T t pkgdir binfile d' = dn ++ todo /\
        oks T dn (<[t := FDir]> fs0) s /\ agree t s c.1
    | Finished _ => True
    end.
  Lemma seen_step d c c' : (forall d', d = Some d' -> right_files es d') -> seen d c -> shared_step T pkgdir binfile es d c c' -> seen d c'.
  Proof.
    intros Hr Hg [Hs|[E Ho]].
    - destruct Hs as [fs Hn|fs|fs d' t Hd Hdir Hf|fs fs' t o todo Ho|fs fs' t o todo Ho|fs t|fs fs' t ok Hx]; unfold seen in *; cbn [fst snd] in *; try done.
      + subst fs. destruct (body T t pkgdir binfile d') as [|o todo] eqn:E; [done|]. exists d', [], (<[t := FDir]> fs0). done.
      + destruct Hg as (d' & dn & s & Hd & Hst & E & Hok & Ha). destruct todo as [|o' todo]; [done|].
        destruct (split_body _ _ _ _ _ (Hr d' Hd) E) as [[_ Hl]|(_ & ? & _)]; [|done]. destruct (local_sim t o fs fs' s Hl Ha Ho) as (s' & Hs' & Ha').
        exists d', (dn ++ [o]), s'. split; [done|]. split; [done|]. split; [by rewrite <-(assoc_L (++))|]. split; [|done]. apply oks_app. exists s. split; [done|]. by exists s'.
      + destruct Hg as (d' & dn & s & Hd & Hst & _). done.
    - destruct c as [fs ph], c' as [fs' ph']. cbn [fst snd] in *. subst ph'. unfold seen in *. cbn [fst snd] in *.
      destruct ph as [|t todo|t ok|ok]; try done; [by rewrite Ho|]. destruct todo as [|o todo]; [done|]. destruct Hg as (d' & dn & s & Hd & Hst & E & Hok & Ha).
      exists d', dn, s. split_and!; try done. by eapply agree_trans.
  Qed.
  Lemma seen_run d c : (forall d', d = Some d' -> right_files es d') -> rtc (shared_step T pkgdir binfile es d) (fs0, Started) c -> seen d c.
  Proof. intros Hr H. assert (seen d (fs0, Started)) as H0 by done. induction H as [c|c1 c2 c3 H1 H2 IH]; [done|]. by eapply IH, seen_step. Qed.

  Lemma step_touches d fs ph fs' ph' : (forall d', d = Some d' -> right_files es d') -> rtc (shared_step T pkgdir binfile es d) (fs0, Started) (fs, ph) ->
    cstep T pkgdir binfile d (fs, ph) (fs', ph') ->
    fs' = fs \/ exists t, fresh T fs0 t /\ (tmp_of ph = Some t \/ tmp_of ph' = Some t) /\ (outside t fs fs' \/
      exists d' exe, d = Some d' /\ built_from T es d' exe /\ ph = Working t [ORename (t ++ ["x"]) binfile] /\ ph' = Working t [] /\ outside t (<[binfile := FFile exe]> fs) fs').
  Proof.
    intros Hr H Hs. apply seen_run in H; [|done]. inversion Hs as [? Hn|?|? d' t Hd Hdir Hf|? ? t o todo Ho|? ? t o todo Ho|? t|? ? t ok Hx]; subst; unfold seen in H; cbn [fst snd] in H.
    - by left.
    - by left.
    - subst fs. right. exists t. split; [done|]. split; [by right|]. left. by apply start_outside.
    - right. exists t. destruct H as (d' & dn & s & Hd & Hst & E & Hok & Ha). split; [apply Hst|]. split; [by left|].
      destruct (split_body _ _ _ _ _ (Hr d' Hd) E) as [[_ Hl]|(-> & -> & ->)].
      + left. eapply inside_ok; [|by apply local_inside|exact Ho]. intros q Hq Hqn Hqt. rewrite Ha by (right; by left).
        pose proof (insides_ok T t dn _ _ (anc_start T fs0 Hproper t (proj1 Hst) (proj2 Hst)) ltac:(by eapply before_end) Hok) as Hout.
        exact (anc_outside _ _ _ (anc_start T fs0 Hproper t (proj1 Hst) (proj2 Hst)) Hout q Hq Hqn Hqt).
      + right. destruct (built_lem T pkgdir es fs0 Hproper Hpkg Hemb d' t s (Hr d' Hd) Hst Hok) as (exe & Hx & Hb & _).
        inversion Ho as [| | | | | | | | | |? ? c ? Hc Hpar Hne Hnd Hdev]; subst. rewrite (Ha (t ++ ["x"])), Hx in Hc by (left; by apply prefix_app_r). injection Hc as <-.
        exists d', exe. split_and!; try done. intros p Hp. destruct (decide (p = binfile)) as [->|Hn]; [by rewrite !lookup_insert|].
        rewrite !(lookup_insert_ne _ binfile) by done. rewrite lookup_delete_ne; [done|]. intros <-. apply Hp. by apply prefix_app_r.
    - right. exists t. destruct H as (d' & dn & s & Hd & Hst & E & Hok & Ha). split; [apply Hst|]. split; [by left|]. left.
      pose proof (insides_ok T t dn _ _ (anc_start T fs0 Hproper t (proj1 Hst) (proj2 Hst)) ltac:(by eapply before_end) Hok) as Hout.
      destruct (split_body _ _ _ _ _ (Hr d' Hd) E) as [[_ Hl]|(-> & _)]; [|by inversion Ho; subst].
      eapply inside_fails; [|by apply local_inside|exact Ho]. intros q Hq Hqn Hqt. rewrite Ha by (right; by left).
      exact (anc_outside _ _ _ (anc_start T fs0 Hproper t (proj1 Hst) (proj2 Hst)) Hout q Hq Hqn Hqt).
    - by left.
    - right. exists t. split; [apply H|]. split; [by left|]. left. intros p Hp. destruct (Hx p) as [?|[? _]]; done.
  Qed.

  Definition ended (ph : phase) : Prop := match ph with Working _ [] | Cleaning _ true | Finished true => True | _ => False end.
  Lemma success_replaced d c : (forall d', d = Some d' -> right_files es d') -> rtc (shared_step T pkgdir binfile es d) (fs0, Started) c -> ended c.2 ->
    exists t fs1 fs2, rtc (shared_step T pkgdir binfile es d) (fs0, Started) (fs1, Working t [ORename (t ++ ["x"]) binfile]) /\
      cstep T pkgdir binfile d (fs1, Working t [ORename (t ++ ["x"]) binfile]) (fs2, Working t []) /\ rtc (shared_step T pkgdir binfile es d) (fs2, Working t []) c.
  Proof.
    intros Hr H. revert c H. apply (rtc_ind_r (fun c => ended c.2 -> _ : Prop)); [done|]. intros c1 c2 H Hs IH He.
    assert (Hd : ended c1.2 \/ ~ ended c1.2) by (destruct c1 as [? [|? [|? ?]|? []|[]]]; simpl; tauto).
    destruct Hd as [Hd|Hd].
    - destruct (IH Hd) as (t & fs1 & fs2 & ? & ? & ?). exists t, fs1, fs2. split_and!; [done|done|]. by eapply rtc_r.
    - destruct Hs as [Hs|[E _]]; [|by rewrite E in He]. destruct Hs as [fs Hn|fs|fs d' t Hd' Hdir Hf|fs fs' t o todo Ho|fs fs' t o todo Ho|fs t|fs fs' t ok Hx]; cbn [fst snd ended] in *; try done.
      + destruct todo as [|? ?]; [|done]. pose proof (seen_run d _ Hr H) as Hg. destruct Hg as (d' & dn & s & Hd' & _ & E & _).
        destruct (split_body _ _ _ _ _ (Hr d' Hd') E) as [[? _]|(-> & _ & _)]; [done|]. exists t, fs, fs'. split; [done|]. split; [by apply c_ok|constructor].
  Qed.
  Lemma ends_by_rename d c1 c2 : (forall d', d = Some d' -> right_files es d') -> rtc (shared_step T pkgdir binfile es d) (fs0, Started) c1 ->
    cstep T pkgdir binfile d c1 c2 -> ended c2.2 -> ended c1.2 \/ exists t, c1.2 = Working t [ORename (t ++ ["x"]) binfile] /\ c2.2 = Working t [].
  Proof.
    intros Hr H Hs He. destruct Hs as [fs Hn|fs|fs d' t Hd' Hdir Hf|fs fs' t o todo Ho|fs fs' t o todo Ho|fs t|fs fs' t ok Hx]; cbn [fst snd ended] in *; try done.
    - destruct todo as [|? ?]; [|done]. pose proof (seen_run d _ Hr H) as Hg. destruct Hg as (d' & dn & s & Hd' & _ & E & _).
      destruct (split_body _ _ _ _ _ (Hr d' Hd') E) as [[? _]|(-> & _ & _)]; [done|]. right. by exists t.
    - by left.
    - left. by destruct ok.
  Qed.
  Lemma rename_replaces d t fs fs' : (forall d', d = Some d' -> right_files es d') ->
    rtc (shared_step T pkgdir binfile es d) (fs0, Started) (fs, Working t [ORename (t ++ ["x"]) binfile]) ->
    cstep T pkgdir binfile d (fs, Working t [ORename (t ++ ["x"]) binfile]) (fs', Working t []) ->
    fresh T fs0 t /\ exists d' exe, d = Some d' /\ built_from T es d' exe /\ outside t (<[binfile := FFile exe]> fs) fs'.
  Proof.
    intros Hr H Hs. apply seen_run in H; [|done]. unfold seen in H; cbn [fst snd] in H. destruct H as (d' & dn & s & Hd & Hst & E & Hok & Ha). split; [apply Hst|].
    destruct (split_body _ _ _ _ _ (Hr d' Hd) E) as [[? _]|(_ & _ & ->)]; [done|].
    destruct (built_lem T pkgdir es fs0 Hproper Hpkg Hemb d' t s (Hr d' Hd) Hst Hok) as (exe & Hx & Hb & _).
    inversion Hs as [| | |? ? ? o todo Ho| | |]; subst. inversion Ho as [| | | | | | | | | |? ? c ? Hc Hpar Hne Hnd Hdev]; subst.
    rewrite (Ha (t ++ ["x"])), Hx in Hc by (left; by apply prefix_app_r). injection Hc as <-.
    exists d', exe. split_and!; try done. intros p Hp. destruct (decide (p = binfile)) as [->|Hn]; [by rewrite !lookup_insert|].
    rewrite !(lookup_insert_ne _ binfile) by done. rewrite lookup_delete_ne; [done|]. intros <-. apply Hp. by apply prefix_app_r.
  Qed.
End shared.
