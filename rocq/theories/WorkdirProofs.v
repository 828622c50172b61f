(** Proofs for C100: what the operations change. *)
From stdpp Require Import base gmap list strings relations.
From Verif Require Import PathModel CompileModel CompileSpec WorkdirModel WorkdirSpec.
Local Open Scope list_scope.

Fixpoint oks (T : tools) (l : list op) (fs fs' : fsys) : Prop :=
  match l with [] => fs' = fs | o :: l => exists fs1, succeeds T o fs fs1 /\ oks T l fs1 fs' end.
Lemma oks_app T l1 l2 fs fs' : oks T (l1 ++ l2) fs fs' <-> exists fs1, oks T l1 fs fs1 /\ oks T l2 fs1 fs'.
Proof.
  revert fs. induction l1 as [|o l1 IH]; intros fs; simpl.
  - split; [intros H; by exists fs|intros (? & -> & H); done].
  - split.
    + intros (f1 & H1 & H2). apply IH in H2 as (f2 & H2 & H3). exists f2. split; [by exists f1|done].
    + intros (f2 & (f1 & H1 & H2) & H3). exists f1. split; [done|]. apply IH. by exists f2.
Qed.

Lemma dirs_to_elem p q : q ∈ dirs_to p <-> q <> [] /\ q `prefix_of` p.
Proof.
  unfold dirs_to. rewrite elem_of_list_fmap. split.
  - intros (n & -> & Hn%elem_of_seq). split; [|by exists (drop (S n) p); rewrite take_drop].
    destruct p; simpl in *; [lia|done].
  - intros [Hq [k ->]]. exists (length q - 1). rewrite elem_of_seq, app_length. destruct q as [|x q]; [done|].
    split; [|simpl; lia]. replace (S (length (x :: q) - 1)) with (length (x :: q)) by (simpl; lia). by rewrite take_app.
Qed.
Lemma mkdirs_some l fs p nd : fs !! p = Some nd -> mkdirs l fs !! p = Some nd.
Proof.
  unfold mkdirs. revert fs. induction l as [|q l IH]; intros fs H; simpl; [done|]. apply IH. destruct (fs !! q) eqn:E; [done|].
  rewrite lookup_insert_ne; [done|]. by intros ->; rewrite H in E.
Qed.
Lemma mkdirs_not l fs p : p ∉ l -> mkdirs l fs !! p = fs !! p.
Proof.
  unfold mkdirs. revert fs. induction l as [|q l IH]; intros fs H; simpl; [done|]. apply not_elem_of_cons in H as [Hn H].
  rewrite IH by done. destruct (fs !! q); [done|]. by rewrite lookup_insert_ne.
Qed.
Lemma mkdirs_file l fs p c : mkdirs l fs !! p = Some (FFile c) <-> fs !! p = Some (FFile c).
Proof.
  split; [|by apply mkdirs_some]. unfold mkdirs. revert fs. induction l as [|q l IH]; intros fs H; simpl in H; [done|]. apply IH in H.
  destruct (fs !! q) eqn:E; [done|]. destruct (decide (q = p)) as [->|]; [by rewrite lookup_insert in H|by rewrite lookup_insert_ne in H].
Qed.

(** ** Operations in the temporary directory. *)
Definition inside (t : path) (o : op) : Prop :=
  match o with
  | OMkdirAll p | OCreate _ p | OFill p _ | OCopy _ p | OEditMod p | OGoInit p | OGoTidy p | OGoBuild p => t `prefix_of` p
  | OReadDir _ | OOpen _ => True
  | ORename _ _ => False
  end.
(** What the directory is in exists. *)
Definition anc (t : path) (fs : fsys) : Prop := forall q, q `prefix_of` t -> q <> [] -> q <> t -> fs !! q = Some FDir.
Lemma outside_refl t fs : outside t fs fs. Proof. by intros p. Qed.
Lemma outside_trans t a b c : outside t a b -> outside t b c -> outside t a c.
Proof. intros H1 H2 p Hp. by rewrite (H2 p Hp), (H1 p Hp). Qed.
Lemma prefix_not (t q : path) : q `prefix_of` t -> q <> t -> ~ t `prefix_of` q.
Proof.
  intros [k ->] Hn [k' E]. apply (f_equal length) in E. rewrite !app_length in E. assert (length k = 0) by lia. destruct k; [|done]. by rewrite app_nil_r in Hn.
Qed.
Lemma anc_outside t fs fs' : anc t fs -> outside t fs fs' -> anc t fs'.
Proof. intros H Ho q Hq Hn Ht. rewrite Ho; [by apply H|by apply prefix_not]. Qed.
Lemma outside_insert (t p : path) nd fs : t `prefix_of` p -> outside t fs (<[p := nd]> fs).
Proof. intros Hp q Hq. rewrite lookup_insert_ne; [done|]. by intros ->. Qed.
Lemma outside_mkdirs (t p : path) l fs : anc t fs -> t `prefix_of` p -> (forall q, q ∈ l -> q <> [] /\ q `prefix_of` p) -> outside t fs (mkdirs l fs).
Proof.
  intros Ha Hp Hl q Hq. destruct (decide (q ∈ l)) as [Hi|Hi]; [|by apply mkdirs_not].
  destruct (Hl q Hi) as [Hne Hqp]. assert (q `prefix_of` t) as Hqt.
  { destruct (prefix_weak_total q t p); [done|done|done|]. by destruct Hq. }
  assert (fs !! q = Some FDir) as E by (apply Ha; [done|done|intros ->; by apply Hq]). rewrite E. by apply mkdirs_some.
Qed.
Lemma same_but_outside t (P : path -> Prop) fs fs' : (forall q, P q -> t `prefix_of` q) -> same_but P fs fs' -> outside t fs fs'.
Proof. intros HP H q Hq. apply H. intros Hx. by apply Hq, HP. Qed.
Lemma inside_ok T t o fs fs' : anc t fs -> inside t o -> succeeds T o fs fs' -> outside t fs fs'.
Proof.
  intros Ha Hi Hs. destruct Hs; simpl in Hi; try apply outside_refl; try (by apply outside_insert); try done.
  - apply (outside_mkdirs t p); [done|done|]. intros q Hq. by apply dirs_to_elem in Hq.
  - by apply outside_insert, prefix_app_r.
  - eapply outside_trans; apply outside_insert; by apply prefix_app_r.
  - by apply outside_insert, prefix_app_r.
Qed.
Lemma inside_fails t o fs fs' : anc t fs -> inside t o -> fails o fs fs' -> outside t fs fs'.
Proof.
  intros Ha Hi Hs. destruct Hs as [p n fs|p fs|ex p fs|p fs|p c fs fs' Hs|src dst fs fs' Hs|dir fs fs' Hs|p fs fs' Hs|dir fs fs' Hs|dir fs fs' Hs|src dst fs];
    simpl in Hi; try apply outside_refl.
  - apply (outside_mkdirs t p); [done|done|]. intros q Hq. apply dirs_to_elem. apply elem_of_list_lookup in Hq as [x Hx].
    apply lookup_take_Some in Hx as [Hx _]. by eapply elem_of_list_lookup_2.
  - eapply same_but_outside, Hs. by intros q ->.
  - eapply same_but_outside, Hs. by intros q ->.
  - eapply same_but_outside, Hs. intros q Hq. by etrans.
  - eapply same_but_outside, Hs. by intros q ->.
  - eapply same_but_outside, Hs. intros q Hq. by etrans.
  - eapply same_but_outside, Hs. intros q Hq. by etrans.
Qed.
Lemma insides_ok T t l fs fs' : anc t fs -> Forall (inside t) l -> oks T l fs fs' -> outside t fs fs'.
Proof.
  revert fs. induction l as [|o l IH]; intros fs Ha Hi Hs; simpl in Hs; [subst; apply outside_refl|]. destruct Hs as (f1 & H1 & H2).
  apply Forall_cons in Hi as [Hi Hl]. pose proof (inside_ok _ _ _ _ _ Ha Hi H1) as Ho. eapply outside_trans; [exact Ho|]. apply IH; [|done|done].
  by eapply anc_outside.
Qed.

(** All but the last operation of CompilePackage are. *)
Fixpoint etree_all (P : etree -> Prop) (f : forall n c, P (EFile n c)) (g : forall n ch, Forall P ch -> P (EDir n ch)) (t : etree) : P t :=
  match t with
  | EFile n c => f n c
  | EDir n ch => g n ch ((fix go l : Forall P l := match l with [] => Forall_nil_2 P | x :: l => Forall_cons_2 P x l (etree_all P f g x) (go l) end) ch)
  end.
Lemma populate_inside t dest e : t `prefix_of` dest -> Forall (inside t) (populate_ops dest e).
Proof.
  revert dest. induction e as [n c|n ch IH] using etree_all; intros dest Hd; simpl.
  - destruct (has_suffix _ n); [done|]. repeat constructor; by apply prefix_app_r.
  - apply Forall_cons. split; [by apply prefix_app_r|]. induction IH as [|e ch H _ IH']; simpl; [done|].
    apply Forall_app. split; [apply H; by apply prefix_app_r|done].
Qed.
Definition prework (T : tools) (tmpdir pkgdir : path) (d : driver) : list op :=
  populateFabDir_ops tmpdir (t_embeds T) ++
  (let subpkgdir := tmpdir ++ ["pkg"; d_subpkg d] in
   OMkdirAll subpkgdir :: OReadDir pkgdir :: concat ((fun f => copyFile_ops pkgdir f subpkgdir) <$> (d_files d).*1)) ++
  [OCreate false (tmpdir ++ ["driver.go"]); OFill (tmpdir ++ ["driver.go"]) (t_render T d);
   OGoInit tmpdir; OEditMod (tmpdir ++ ["go.mod"]); OGoTidy tmpdir].
Lemma body_prework T t pkgdir binfile d : body T t pkgdir binfile d = prework T t pkgdir d ++ [OGoBuild t; ORename (t ++ ["x"]) binfile].
Proof. unfold body, prework. rewrite <-!(assoc_L (++)). done. Qed.
Lemma prework_inside T t pkgdir d : Forall (inside t) (prework T t pkgdir d ++ [OGoBuild t]).
Proof.
  unfold prework, populateFabDir_ops. repeat (first [apply Forall_app; split | apply Forall_cons; split]); simpl; try done; try (by apply prefix_app_r).
  - induction (t_embeds T) as [|e es IH]; simpl; [done|]. apply Forall_app. split; [|done]. apply populate_inside. by apply prefix_app_r.
  - induction ((d_files d).*1) as [|f fs IH]; simpl; [done|]. rewrite !Forall_cons. split_and!; [|done| |done]; simpl; rewrite <-(assoc_L (++)); by apply prefix_app_r.
Qed.
