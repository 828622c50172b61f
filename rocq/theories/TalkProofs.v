(** Proofs about progress messages. *)
From stdpp Require Import base gmap list strings.
From Verif Require Import IndentModel TalkModel TalkSpec.
Local Open Scope list_scope.

Lemma spaces_pad d : spaces d = concat (replicate d [SP; SP]).
Proof. induction d as [|d IH]; [done|]. simpl. by rewrite IH. Qed.
Lemma rendered_line m : rendered m = line m.
Proof. unfold rendered, line. by destruct (m_newline m). Qed.
Lemma texec_app s a1 a2 : texec s (a1 ++ a2) = match texec s a1 with Some s1 => texec s1 a2 | None => None end.
Proof. revert s. induction a1 as [|a a1 IH]; intros s; [done|]. simpl. destruct (tstep s a); [apply IH|done]. Qed.
Lemma texec_snoc s acts a s' : texec s (acts ++ [a]) = Some s' -> exists s1, texec s acts = Some s1 /\ tstep s1 a = Some s'.
Proof. rewrite texec_app. destruct (texec s acts) as [s1|]; [|done]. simpl. destruct (tstep s1 a) eqn:E; [|done]. intros [= <-]. eauto. Qed.
Lemma called_snoc g acts a : called g (acts ++ [a]) = called g acts ++ match a with TCall g' m => if decide (g' = g) then [m] else [] | _ => [] end.
Proof. unfold called. rewrite omap_app. f_equal. destruct a as [| |g' m|]; simpl; try done. by destruct (decide (g' = g)). Qed.
Lemma all_snoc acts a : all_called (acts ++ [a]) = all_called acts ++ match a with TCall g' m => [m] | _ => [] end.
Proof. unfold all_called. rewrite omap_app. f_equal. by destruct a. Qed.
Lemma had_app s0 acts a d : had_depth s0 acts d -> had_depth s0 (acts ++ [a]) d.
Proof. intros (p & q & s & -> & H1 & H2). exists p, (q ++ [a]), s. by rewrite <- (assoc_L (++)). Qed.
Lemma had_now s0 acts s : texec s0 acts = Some s -> had_depth s0 acts (sc_depth s).
Proof. intros H. exists acts, [], s. by rewrite app_nil_r. Qed.

(** Where a goroutine is, in pieces: the message it is printing, and what of it is out. *)
Definition current (p : option ipc) : list message := match p with Some (IRead m) | Some (IPad _ m) | Some (IPut m) => [m] | None => [] end.
Definition out_of (s0 : screen) (acts : list tact) (g : nat) (p : option ipc) (rest : list piece) : Prop :=
  match p with
  | Some (IPad d _) => 0 < d /\ had_depth s0 acts d /\ rest = []
  | Some (IPut _) => exists d, had_depth s0 acts d /\ rest = match d with O => [] | S _ => [Indentation g d] end
  | _ => rest = []
  end.
Definition told (s0 : screen) (acts : list tact) (s : screen) : Prop :=
  exists ps, sc_out s = concat (bytes <$> ps) /\ forall g, exists dms rest,
    called g acts = dms.*2 ++ current (sc_procs s !! g) /\ Forall (had_depth s0 acts) dms.*1 /\
    filter (fun p => writer_of p = g) ps = concat (pieces g <$> dms) ++ rest /\ out_of s0 acts g (sc_procs s !! g) rest.
Lemma out_of_app s0 acts a g p rest : out_of s0 acts g p rest -> out_of s0 (acts ++ [a]) g p rest.
Proof.
  destruct p as [[m|d m|m]|]; simpl; try done.
  - intros (H1 & H2 & H3). split; [done|]. split; [by apply had_app|done].
  - intros (d & H1 & H2). exists d. split; [by apply had_app|done].
Qed.
Lemma had_all s0 acts a l : Forall (had_depth s0 acts) l -> Forall (had_depth s0 (acts ++ [a])) l.
Proof. intros H. eapply Forall_impl; [exact H|]. intros d. apply had_app. Qed.
Lemma filter_one g p ps : filter (fun q => writer_of q = g) (ps ++ [p]) = filter (fun q => writer_of q = g) ps ++ (if decide (writer_of p = g) then [p] else []).
Proof. rewrite filter_app. f_equal. Qed.
Lemma out_one ps p : concat (bytes <$> (ps ++ [p])) = concat (bytes <$> ps) ++ bytes p.
Proof. rewrite fmap_app, concat_app. simpl. by rewrite app_nil_r. Qed.

Lemma told_all s0 acts s : quiet s0 -> texec s0 acts = Some s -> told s0 acts s.
Proof.
  intros [H0 H0']. revert s. induction acts as [|a acts IH] using rev_ind; intros s Hx.
  - injection Hx as <-. exists []. split; [done|]. intros g. exists [], []. rewrite H0', lookup_empty. split; [done|]. split; [constructor|]. by split.
  - destruct (texec_snoc _ _ _ _ Hx) as (s1 & H1 & Hs). destruct (IH _ H1) as (ps & Ho & Hg).
    assert (Hkeep : forall g, sc_procs s !! g = sc_procs s1 !! g -> (forall m, a <> TCall g m) -> forall p, writer_of p <> g \/ ps = p :: ps -> exists dms rest,
      called g (acts ++ [a]) = dms.*2 ++ current (sc_procs s !! g) /\ Forall (had_depth s0 (acts ++ [a])) dms.*1 /\
      filter (fun p => writer_of p = g) ps = concat (pieces g <$> dms) ++ rest /\ out_of s0 (acts ++ [a]) g (sc_procs s !! g) rest).
    { intros g E Hne _ _. destruct (Hg g) as (dms & rest & K1 & K2 & K3 & K4). exists dms, rest. rewrite E, called_snoc.
      split; [|split; [by apply had_all|split; [done|by apply out_of_app]]].
      rewrite K1. destruct a as [| |g' m|]; try by rewrite app_nil_r. rewrite decide_False; [by rewrite app_nil_r|]. intros ->. by destruct (Hne m). }
    assert (Hk : forall g, sc_procs s !! g = sc_procs s1 !! g -> (forall m, a <> TCall g m) -> exists dms rest,
      called g (acts ++ [a]) = dms.*2 ++ current (sc_procs s !! g) /\ Forall (had_depth s0 (acts ++ [a])) dms.*1 /\
      filter (fun p => writer_of p = g) ps = concat (pieces g <$> dms) ++ rest /\ out_of s0 (acts ++ [a]) g (sc_procs s !! g) rest).
    { intros g E Hne. apply (Hkeep g E Hne (Body (S g) [])). left. simpl. lia. }
    clear Hkeep.
    destruct a as [| |g m|g]; simpl in Hs.
    + injection Hs as <-. exists ps. split; [done|]. intros g. by apply Hk.
    + injection Hs as <-. exists ps. split; [done|]. intros g. by apply Hk.
    + destruct (sc_procs s1 !! g) eqn:Eg; [done|]. injection Hs as <-. exists ps. split; [simpl; by rewrite app_nil_r|]. intros g'.
      destruct (decide (g' = g)) as [->|Hn]; [|apply Hk; [simpl; by rewrite lookup_insert_ne|congruence]].
      destruct (Hg g) as (dms & rest & K1 & K2 & K3 & K4). exists dms, rest. simpl. rewrite lookup_insert, called_snoc, decide_True by done.
      rewrite Eg in K1, K4. simpl in K1, K4. rewrite app_nil_r in K1. rewrite K1. split; [done|]. split; [by apply had_all|]. by split.
    + destruct (sc_procs s1 !! g) as [c|] eqn:Eg; [|done]. destruct (Hg g) as (dms & rest & K1 & K2 & K3 & K4). rewrite Eg in K1, K4.
      destruct c as [m|d m|m]; injection Hs as <-; simpl in K1, K4.
      * subst rest. exists ps. split; [simpl; by rewrite app_nil_r|]. intros g'.
        destruct (decide (g' = g)) as [->|Hn]; [|apply Hk; [simpl; by rewrite lookup_insert_ne|congruence]].
        exists dms, []. simpl. rewrite lookup_insert, called_snoc, app_nil_r, K1.
        destruct (decide (0 < sc_depth s1)) as [Hd|Hd]; simpl; (split; [done|]; split; [by apply had_all|]; split; [done|]).
        { split; [done|]. split; [|done]. by apply had_app, had_now. }
        exists (sc_depth s1). split; [by apply had_app, had_now|]. by destruct (sc_depth s1); [|lia].
      * destruct K4 as (Hd & Hh & ->). exists (ps ++ [Indentation g d]). split; [simpl; by rewrite out_one, Ho, spaces_pad|]. intros g'. rewrite filter_one. simpl writer_of.
        destruct (decide (g' = g)) as [->|Hn]; [|rewrite decide_False, app_nil_r by done; apply Hk; [simpl; by rewrite lookup_insert_ne|congruence]].
        rewrite decide_True by done. exists dms, [Indentation g d]. simpl. rewrite lookup_insert, called_snoc, app_nil_r, K1, K3, app_nil_r. simpl.
        split; [done|]. split; [by apply had_all|]. split; [done|]. exists d. split; [by apply had_app|]. by destruct d; [lia|].
      * destruct K4 as (d & Hh & ->). exists (ps ++ [Body g (line m)]). split; [simpl; by rewrite out_one, Ho, rendered_line|]. intros g'. rewrite filter_one. simpl writer_of.
        destruct (decide (g' = g)) as [->|Hn]; [|rewrite decide_False, app_nil_r by done; apply Hk; [simpl; by rewrite lookup_delete_ne|congruence]].
        rewrite decide_True by done. exists (dms ++ [(d, m)]), []. simpl. rewrite lookup_delete, called_snoc, !app_nil_r, K1, K3, !fmap_app. simpl.
        split; [done|]. split; [apply Forall_app; split; [by apply had_all|constructor; [by apply had_app|constructor]]|]. split; [|done].
        rewrite concat_app. simpl. rewrite app_nil_r, <- (assoc_L (++)). f_equal.
Qed.

(** ** One at a time *)
Definition turn (s0 : screen) (acts : list tact) (s : screen) : Prop :=
  exists dms rest, all_called acts = dms.*2 ++ rest /\ Forall (had_depth s0 acts) dms.*1 /\
    ((sc_procs s = ∅ /\ rest = [] /\ sc_out s = concat (whole <$> dms)) \/
     exists g m, sc_procs s = {[g := IRead m]} /\ rest = [m] /\ sc_out s = concat (whole <$> dms) \/
     exists d, had_depth s0 acts d /\ rest = [m] /\ (sc_procs s = {[g := IPad d m]} /\ sc_out s = concat (whole <$> dms) \/
                    sc_procs s = {[g := IPut m]} /\ sc_out s = concat (whole <$> dms) ++ concat (replicate d [SP; SP]))).
Lemma single_put {A} (g g' : nat) (x y : A) : <[g := y]> ({[g := x]} : gmap nat A) = {[g := y]}.
Proof. apply insert_singleton. Qed.
Lemma turn_all s0 acts s : quiet s0 -> in_turn s0 acts -> texec s0 acts = Some s -> turn s0 acts s.
Proof.
  intros [H0 H0']. revert s. induction acts as [|a acts IH] using rev_ind; intros s Ht Hx.
  - injection Hx as <-. exists [], []. split; [done|]. split; [constructor|]. left. done.
  - destruct (texec_snoc _ _ _ _ Hx) as (s1 & H1 & Hs).
    assert (Ht' : in_turn s0 acts). { intros p g m q s2 -> Hp. eapply (Ht p g m (q ++ [a])); [|exact Hp]. by rewrite <- (assoc_L (++)). }
    destruct (IH _ Ht' H1) as (dms & rest & K1 & K2 & K3). unfold turn. rewrite all_snoc.
    assert (Hd : Forall (had_depth s0 (acts ++ [a])) dms.*1) by (by apply had_all).
    destruct a as [| |g m|g].
    1,2: simpl in Hs; injection Hs as <-; exists dms, rest; rewrite app_nil_r; split; [done|]; split; [done|]; simpl;
      destruct K3 as [K3|(g & m & [K3|(d & A1 & A2 & A3)])]; [by left|right; exists g, m; by left|right; exists g, m; right; exists d; split; [by apply had_app|by split]].
    + simpl in Hs. assert (E : sc_procs s1 = ∅) by (by eapply (Ht acts g m []); [|exact H1]). rewrite E, lookup_empty in Hs. injection Hs as <-.
      destruct K3 as [(_ & -> & K4)|(g' & m' & [(K3 & _)|(d & _ & _ & [(K3 & _)|(K3 & _)])])]; [|by rewrite E in K3; symmetry in K3; apply map_non_empty_singleton in K3..].
      exists dms, [m]. rewrite app_nil_r in K1. rewrite K1. split; [done|]. split; [done|]. right. exists g, m. left. simpl. rewrite E, app_nil_r. done.
    + simpl in Hs. destruct K3 as [(E & _)|(g' & m' & K3)]; [by rewrite E, lookup_empty in Hs|].
      assert (Hl : forall x, sc_procs s1 = {[g' := x]} -> g' = g).
      { intros x E. destruct (decide (g' = g)) as [|Hn]; [done|]. rewrite E, lookup_singleton_ne in Hs by done. done. }
      destruct K3 as [(E & -> & Ko)|(d & Hh & -> & [(E & Ko)|(E & Ko)])]; pose proof (Hl _ E) as ->; rewrite E, lookup_singleton in Hs; injection Hs as <-.
      * exists dms, [m']. rewrite app_nil_r. split; [done|]. split; [done|]. right. exists g, m'. right. exists (sc_depth s1).
        split; [by apply had_app, had_now|]. split; [done|]. simpl. rewrite E, insert_singleton, app_nil_r. destruct (decide (0 < sc_depth s1)) as [Hp|Hp]; [by left|].
        right. split; [done|]. rewrite Ko. destruct (sc_depth s1); [|lia]. simpl. by rewrite app_nil_r.
      * exists dms, [m']. rewrite app_nil_r. split; [done|]. split; [done|]. right. exists g, m'. right. exists d. split; [by apply had_app|]. split; [done|].
        right. simpl. rewrite E, insert_singleton, Ko, spaces_pad. done.
      * exists (dms ++ [(d, m')]), []. rewrite !app_nil_r, !fmap_app. simpl. split; [done|]. split; [apply Forall_app; split; [done|constructor; [by apply had_app|constructor]]|].
        left. split; [|split; [done|]].
        { rewrite E. apply delete_singleton. }
        rewrite Ko, concat_app. simpl. unfold whole at 2. simpl. rewrite app_nil_r, rendered_line, <- (assoc_L (++)). done.
Qed.

(** ** Depth 0 *)
Definition waiting (m : gmap nat ipc) : list message := concat ((fun x => current (Some x.2)) <$> map_to_list m).
Lemma waiting_insert m g p : m !! g = None -> waiting (<[g := p]> m) ≡ₚ current (Some p) ++ waiting m.
Proof. intros H. unfold waiting. by rewrite map_to_list_insert. Qed.
Lemma waiting_delete m g p : m !! g = Some p -> waiting m ≡ₚ current (Some p) ++ waiting (delete g m).
Proof. intros H. unfold waiting. by rewrite <- (map_to_list_delete m g p). Qed.
Lemma waiting_move m g p p' : m !! g = Some p -> current (Some p) = current (Some p') -> waiting (<[g := p']> m) ≡ₚ waiting m.
Proof.
  intros H E. rewrite <- insert_delete_insert. rewrite waiting_insert by apply lookup_delete. by rewrite (waiting_delete m g p), E.
Qed.
Lemma flat_all s0 acts s : quiet s0 -> sc_depth s0 = 0 -> TInc ∉ acts -> texec s0 acts = Some s ->
  sc_depth s = 0 /\ (forall g d m, sc_procs s !! g <> Some (IPad d m)) /\ exists ms, all_called acts ≡ₚ ms ++ waiting (sc_procs s) /\ sc_out s = concat (line <$> ms).
Proof.
  intros [H0 H0'] Hd. revert s. induction acts as [|a acts IH] using rev_ind; intros s Ht Hx.
  - injection Hx as <-. split; [done|]. split; [intros g d m; by rewrite H0', lookup_empty|]. exists []. rewrite H0'. done.
  - destruct (texec_snoc _ _ _ _ Hx) as (s1 & H1 & Hs). rewrite elem_of_app in Ht.
    destruct (IH s1 ltac:(tauto) H1) as (E & Hp & ms & K1 & K2). rewrite all_snoc. destruct a as [| |g m|g]; simpl in Hs.
    + exfalso. apply Ht. right. by left.
    + injection Hs as <-. simpl. rewrite E. split; [done|]. split; [done|]. exists ms. by rewrite app_nil_r.
    + destruct (sc_procs s1 !! g) eqn:Eg; [done|]. injection Hs as <-. simpl. split; [done|]. split.
      { intros g' d m'. destruct (decide (g = g')) as [<-|Hn]; [by rewrite lookup_insert|rewrite lookup_insert_ne by done; apply Hp]. }
      exists ms. rewrite app_nil_r. split; [|done]. rewrite waiting_insert by done. rewrite K1. simpl. solve_Permutation.
    + destruct (sc_procs s1 !! g) as [[m|d m|m]|] eqn:Eg; [| |injection Hs as <-|done]; [injection Hs as <-| |].
      * rewrite E. rewrite decide_False by lia. simpl. split; [done|]. split.
        { intros g' d m'. destruct (decide (g = g')) as [<-|Hn]; [by rewrite lookup_insert|rewrite lookup_insert_ne by done; apply Hp]. }
        exists ms. rewrite !app_nil_r. split; [|done]. by rewrite (waiting_move _ g (IRead m)).
      * by destruct (Hp g d m).
      * simpl. split; [done|]. split; [intros g' d m' [_ Hl]%lookup_delete_Some; by eapply Hp|]. exists (ms ++ [m]). rewrite app_nil_r. split.
        { rewrite K1, (waiting_delete _ g (IPut m)) by done. simpl. solve_Permutation. }
        rewrite K2, rendered_line, fmap_app, concat_app. simpl. by rewrite app_nil_r.
Qed.
