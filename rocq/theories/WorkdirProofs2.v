(** Proofs for C100: what go build finds. *)
From stdpp Require Import base gmap list strings relations.
From Verif Require Import PathModel CompileModel CompileSpec WorkdirModel WorkdirSpec CompileProofs WorkdirProofs.
Local Open Scope list_scope.

(** The files afterwards: those of [W], and for other paths those from before. *)
Definition over (W : path -> string -> Prop) (fs fs' : fsys) : Prop :=
  forall p c, fs' !! p = Some (FFile c) <-> W p c \/ fs !! p = Some (FFile c) /\ forall c', ~ W p c'.
Lemma over_id fs : over (fun _ _ => False) fs fs.
Proof. intros p c. naive_solver. Qed.
Lemma over_ext (W W' : path -> string -> Prop) fs fs' : (forall p c, W p c <-> W' p c) -> over W fs fs' -> over W' fs fs'.
Proof. intros E H p c. rewrite (H p c), (E p c). split; (intros [?|[? Hn]]; [by left|right]); (split; [done|]); intros c' Hc; apply (Hn c'), E, Hc. Qed.
Lemma over_mkdirs l fs : over (fun _ _ => False) fs (mkdirs l fs).
Proof. intros p c. rewrite mkdirs_file. naive_solver. Qed.
Lemma over_insert p c fs : over (fun q x => q = p /\ x = c) fs (<[p := FFile c]> fs).
Proof.
  intros q x. destruct (decide (q = p)) as [->|Hn].
  - rewrite lookup_insert. split; [intros [= ->]; by left|intros [[_ ->]|[_ Hx]]; [done|]]. exfalso. by apply (Hx c).
  - rewrite lookup_insert_ne by done. split; [intros H; right; split; [done|by intros c' [? ?]]|intros [[? ?]|[? ?]]; done].
Qed.
Lemma over_trans (W1 W2 : path -> string -> Prop) fs fs1 fs2 : (forall p c c', W1 p c -> W2 p c' -> c = c') -> over W1 fs fs1 -> over W2 fs1 fs2 ->
  over (fun p c => W1 p c \/ W2 p c) fs fs2.
Proof.
  intros HF H1 H2 p c. split.
  - intros H. apply H2 in H as [H|[H Hn]]; [left; by right|]. apply H1 in H as [H|[H Hn']]; [left; by left|].
    right. split; [done|]. intros c' [Hc|Hc]; [by apply (Hn' c')|by apply (Hn c')].
  - intros [[H|H]|[H Hn]].
    + assert (Hf : fs1 !! p = Some (FFile c)) by (apply H1; by left).
      destruct (fs2 !! p) as [[|c']|] eqn:E.
      * exfalso. assert (Hno : forall c', ~ W2 p c') by (intros c' Hc; assert (fs2 !! p = Some (FFile c')) as E' by (apply H2; by left); by rewrite E in E').
        assert (fs2 !! p = Some (FFile c)) as E' by (apply H2; by right). by rewrite E in E'.
      * f_equal. f_equal. apply H2 in E as [E|[E _]]; [symmetry; by eapply HF|]. rewrite Hf in E. by injection E.
      * exfalso. assert (Hno : forall c', ~ W2 p c') by (intros c' Hc; assert (fs2 !! p = Some (FFile c')) as E' by (apply H2; by left); by rewrite E in E').
        assert (fs2 !! p = Some (FFile c)) as E' by (apply H2; by right). by rewrite E in E'.
    + apply H2. by left.
    + apply H2. right. split; [apply H1; right; split; [done|intros c' Hc; apply (Hn c'); by left]|intros c' Hc; apply (Hn c'); by right].
Qed.

Lemma over_pair T e p c fs fs' : oks T [OCreate e p; OFill p c] fs fs' -> over (fun q x => q = p /\ x = c) fs fs'.
Proof.
  intros (f1 & H1 & f2 & H2 & ->). inversion H1; subst. inversion H2; subst. rewrite insert_insert. apply over_insert.
Qed.

(** ** The sources of fab. *)
Definition untested (p : path) : Prop := forall b, last p = Some b -> ~ ends_in "_test.go" b.
Definition grove (dest : path) (ts : list etree) (q : path) (c : string) : Prop :=
  exists t p, t ∈ ts /\ in_tree t p c /\ untested p /\ q = dest ++ p.
Lemma distinct_tail t ts : distinct_names (t :: ts) -> distinct_names ts.
Proof. intros H. inversion H as [? Hnd Hd]; subst. apply NoDup_cons in Hnd as [_ Hnd]. constructor; [done|]. intros n ch Hi. eapply Hd. by right. Qed.
Lemma in_tree_root t p c : in_tree t p c -> head p = Some (root_name t).
Proof. by destruct 1. Qed.
Lemma root_unique ts t t' : NoDup (root_name <$> ts) -> t ∈ ts -> t' ∈ ts -> root_name t = root_name t' -> t = t'.
Proof.
  induction ts as [|x ts IH]; intros Hn H1 H2 E; [by apply elem_of_nil in H1|]. apply NoDup_cons in Hn as [Hx Hn].
  apply elem_of_cons in H1 as [->|H1], H2 as [->|H2]; [done| | |by apply IH].
  - exfalso. apply Hx. rewrite E. by apply elem_of_list_fmap_1.
  - exfalso. apply Hx. rewrite <-E. by apply elem_of_list_fmap_1.
Qed.
Lemma in_tree_unique t p c : in_tree t p c -> forall ts t' c', distinct_names ts -> t ∈ ts -> t' ∈ ts -> in_tree t' p c' -> c = c'.
Proof.
  induction 1 as [n c|n ch t p c Ht H IH]; intros ts t' c' Hd Hi Hi' H'.
  - inversion Hd as [? Hnd _]; subst. assert (EFile n c = t') as <-.
    { eapply root_unique; [exact Hnd|done|done|]. apply in_tree_root in H'. simpl in H'. by injection H'. }
    by inversion H'.
  - inversion Hd as [? Hnd Hc]; subst. assert (EDir n ch = t') as <-.
    { eapply root_unique; [exact Hnd|done|done|]. apply in_tree_root in H'. simpl in H'. by injection H'. }
    inversion H' as [|? ? t2 ? ? Ht2 H2]; subst. eapply (IH ch); [by eapply Hc|done|exact Ht2|done].
Qed.
Lemma populate_forest T dest ts fs fs' :
  Forall (fun t => forall dest fs fs', (forall n ch, t = EDir n ch -> distinct_names ch) -> oks T (populate_ops dest t) fs fs' -> over (grove dest [t]) fs fs') ts ->
  distinct_names ts -> oks T (concat (populate_ops dest <$> ts)) fs fs' -> over (grove dest ts) fs fs'.
Proof.
  intros HF. revert fs. induction HF as [|t ts Ht HF IH]; intros fs Hd Hs; simpl in Hs.
  - subst. eapply over_ext; [|apply over_id]. intros p c. split; [done|]. intros (t & ? & Ht%elem_of_nil & _). done.
  - apply oks_app in Hs as (f1 & H1 & H2). apply Ht in H1; [|intros n ch ->; inversion Hd as [? _ Hc]; subst; eapply Hc; by left].
    apply IH in H2; [|by eapply distinct_tail]. eapply over_ext; [|eapply over_trans; [|exact H1|exact H2]].
    + intros p c. unfold grove. split.
      * intros [(x & q & ->%elem_of_list_singleton & ?)|(x & q & Hx & ?)]; exists x || exists t; exists q; (split; [by (left || right)|done]).
      * intros (x & q & [->|Hx]%elem_of_cons & ?); [left; exists t, q; split; [by left|done]|right; by exists x, q].
    + intros p c c' (x & q & ->%elem_of_list_singleton & Hx & _ & ->) (y & q' & Hy & Hy' & _ & E). apply (inj _) in E as <-.
      eapply (in_tree_unique _ _ _ Hx); [exact Hd|by left|by right|exact Hy'].
Qed.
Lemma populate_over T t : forall dest fs fs', (forall n ch, t = EDir n ch -> distinct_names ch) -> oks T (populate_ops dest t) fs fs' -> over (grove dest [t]) fs fs'.
Proof.
  induction t as [n c|n ch IH] using etree_all; intros dest fs fs' Hd Hs; simpl in Hs.
  - destruct (has_suffix "_test.go" n) eqn:E.
    + simpl in Hs. subst. eapply over_ext; [|apply over_id]. intros p x. split; [done|]. intros (t & q & ->%elem_of_list_singleton & Ht & Hu & ->).
      inversion Ht; subst. apply (Hu n); [done|]. by apply has_suffix_spec.
    + eapply over_ext; [|eapply over_pair, Hs]. intros p x. split.
      * intros [-> ->]. exists (EFile n c), [n]. split; [by left|]. split; [constructor|]. split; [|done]. intros b [= <-] Hx%has_suffix_spec. congruence.
      * intros (t & q & ->%elem_of_list_singleton & Ht & _ & ->). by inversion Ht.
  - destruct Hs as (f1 & H1 & H2). inversion H1; subst. eapply over_ext; [|eapply over_trans; [|apply over_mkdirs|eapply populate_forest; [exact IH|by eapply Hd|exact H2]]]; [|done].
    intros p c. split.
    + intros [[]|(t & q & Ht & Hi & Hu & ->)]. exists (EDir n ch), (n :: q). split; [by left|]. split; [by econstructor|]. split; [|by rewrite <-(assoc_L (++))].
      intros b Hb. apply Hu. destruct q as [|y q]; [by inversion Hi|done].
    + intros (t & q & ->%elem_of_list_singleton & Hi & Hu & ->). right. inversion Hi as [|? ? t2 q2 ? Ht2 Hi2]; subst. exists t2, q2. split; [done|].
      split; [done|]. split; [|by rewrite <-(assoc_L (++))]. intros b Hb. apply Hu. destruct q2 as [|y q2]; [by inversion Hi2|done].
Qed.
Lemma fabdir_over T tmp ts fs fs' : distinct_names ts -> oks T (populateFabDir_ops tmp ts) fs fs' -> over (grove (tmp ++ ["fab"]) ts) fs fs'.
Proof.
  intros Hd (f1 & H1 & H2). inversion H1; subst. eapply over_ext; [|eapply over_trans; [|apply over_mkdirs|eapply populate_forest; [|exact Hd|exact H2]]]; [|done|].
  - intros p c. naive_solver.
  - apply Forall_forall. intros t _. apply populate_over.
Qed.

(** ** The Go files of the package. *)
Lemma copy_inv T src dst fs fs' : succeeds T (OCopy src dst) fs fs' -> exists c, fs !! src = Some (FFile c) /\ fs' = <[dst := FFile c]> fs.
Proof. inversion 1; subst. by eexists. Qed.
Lemma copies_over T tmp pkgdir sub (L : list (string * string)) fs fs' : tmp `prefix_of` sub ->
  (forall n c, (n, c) ∈ L -> fs !! (pkgdir ++ [n]) = Some (FFile c) /\ ~ tmp `prefix_of` (pkgdir ++ [n])) ->
  oks T (concat ((fun f => copyFile_ops pkgdir f sub) <$> L.*1)) fs fs' ->
  over (fun q c => exists n, (n, c) ∈ L /\ q = sub ++ [n]) fs fs'.
Proof.
  intros Hsub. revert fs. induction L as [|[n c] L IH]; intros fs HL Hs.
  - simpl in Hs. subst. eapply over_ext; [|apply over_id]. intros p c. split; [done|]. intros (n & Hn%elem_of_nil & _). done.
  - destruct Hs as (f1 & H1 & f2 & H2 & f3 & H3 & Hs). inversion H1; subst. inversion H2; subst. apply copy_inv in H3 as (c1 & Hc1 & ->).
    assert (Hne : forall m x, (m, x) ∈ (n, c) :: L -> sub ++ [n] <> pkgdir ++ [m]).
    { intros m x Hm E. destruct (HL m x Hm) as [_ Hno]. apply Hno. rewrite <-E. by apply prefix_app_r. }
    rewrite lookup_insert_ne in Hc1 by (apply (Hne n c); by left). cbn [fst] in Hc1, Hs.
    assert (Some (FFile c1) = Some (FFile c)) as [= ->] by (etrans; [symmetry; exact Hc1|apply HL; by left]).
    rewrite insert_insert in Hs. apply IH in Hs.
    + eapply over_ext; [|eapply over_trans; [|apply over_insert|exact Hs]].
      * intros p x. split.
        -- intros [[-> ->]|(m & Hm & ->)]; [exists n; split; [by left|done]|exists m; split; [by right|done]].
        -- intros (m & [Hm|Hm]%elem_of_cons & ->); [injection Hm as -> ->; by left|right; by exists m].
      * intros p x x' [-> ->] (m & Hm & E). apply (inj _) in E. injection E as <-.
        assert (Some (FFile x') = Some (FFile c)) as [= ->]; [|done]. etrans; [symmetry; apply HL; by right|apply HL; by left].
    + intros m x Hm. rewrite lookup_insert_ne by (apply (Hne m x); by right). apply HL. by right.
Qed.
