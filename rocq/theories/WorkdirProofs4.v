(** Proofs for C100: nothing is in the way. *)
From stdpp Require Import base gmap list strings relations.
From Verif Require Import PathModel CompileModel CompileSpec WorkdirModel WorkdirSpec WorkdirProofs WorkdirProofs2 WorkdirProofs3.
Local Open Scope list_scope.

Definition solid (fs : fsys) (p : path) : Prop := forall q, q `prefix_of` p -> q <> [] -> fs !! q = Some FDir.
Definition void (fs : fsys) (p : path) : Prop := forall q, p `prefix_of` q -> fs !! q = None.
Lemma solid_dir fs p : solid fs p -> is_dir fs p.
Proof. intros H. destruct p; [by left|]. right. by apply H. Qed.
Lemma snoc_prefix (p k : path) x : ~ (p ++ x :: k) `prefix_of` p.
Proof. intros [j E]. apply (f_equal length) in E. rewrite !app_length in E. simpl in E. lia. Qed.
Lemma snoc_prefix_q (base q k : path) x : q `prefix_of` base -> ~ (base ++ x :: k) `prefix_of` q.
Proof. intros H1 H2. eapply (snoc_prefix base k x). by etrans. Qed.
Lemma two_below (base q : path) x y : (base ++ [x]) `prefix_of` q -> (base ++ [y]) `prefix_of` q -> x = y.
Proof. intros [j ->] [k E]. rewrite <-!(assoc_L (++)) in E. apply (inj _) in E. by injection E. Qed.
Lemma solid_keep fs fs' base (P : path -> Prop) : solid fs base -> (forall q, ~ P q -> fs' !! q = fs !! q) -> (forall q, q `prefix_of` base -> ~ P q) -> solid fs' base.
Proof. intros Hs H HP q Hq Hn. rewrite H; [by apply Hs|by apply HP]. Qed.
Lemma parent_snoc (p : path) x : parent (p ++ [x]) = p.
Proof. apply removelast_last. Qed.

Lemma mkdir_can T fs base x k : solid fs base -> void fs (base ++ [x]) -> exists fs', succeeds T (OMkdirAll (base ++ x :: k)) fs fs' /\
  solid fs' (base ++ x :: k) /\ (forall q, ~ (base ++ [x]) `prefix_of` q -> fs' !! q = fs !! q) /\ (forall q, ~ q `prefix_of` (base ++ x :: k) -> fs' !! q = fs !! q).
Proof.
  intros Hs Hv.
  assert (Hcase : forall q, q `prefix_of` (base ++ x :: k) -> q <> [] -> fs !! q = Some FDir \/ (base ++ [x]) `prefix_of` q /\ fs !! q = None).
  { intros q Hq Hn. assert ((base ++ [x]) `prefix_of` (base ++ x :: k)) as Hb by (exists k; by rewrite <-(assoc_L (++))).
    destruct (prefix_weak_total q (base ++ [x]) _ Hq Hb) as [H|H].
    - destruct (decide (q = base ++ [x])) as [->|Hne]; [right; split; [done|by apply Hv]|]. left. apply Hs; [|done].
      destruct H as [j E]. destruct j as [|y j _] using rev_ind; [by rewrite app_nil_r in E|]. rewrite (assoc_L (++)) in E.
      apply app_inj_tail in E as [-> _]. by exists j.
    - right. split; [done|by apply Hv]. }
  exists (mkdirs (dirs_to (base ++ x :: k)) fs). split_and!.
  - constructor. apply Forall_forall. intros q [Hn Hq]%dirs_to_elem c E. destruct (Hcase q Hq Hn) as [E'|[_ E']]; pose proof (eq_trans (eq_sym E) E'); done.
  - intros q Hq Hn. destruct (Hcase q Hq Hn) as [E|[_ E]]; [by apply mkdirs_some|].
    assert (Hi : q ∈ dirs_to (base ++ x :: k)) by by apply dirs_to_elem. revert Hi E. generalize (dirs_to (base ++ x :: k)) as l. clear. intros l.
    revert fs. unfold mkdirs. induction l as [|y l IH]; intros fs Hi E; [by apply elem_of_nil in Hi|]. simpl. apply elem_of_cons in Hi as [->|Hi].
    + rewrite E. apply mkdirs_some. by rewrite lookup_insert.
    + destruct (decide (y = q)) as [->|Hn]; [rewrite E; apply mkdirs_some; by rewrite lookup_insert|]. apply IH; [done|].
      destruct (fs !! y); [done|]. by rewrite lookup_insert_ne.
  - intros q Hq. destruct (decide (q ∈ dirs_to (base ++ x :: k))) as [Hi|Hi]; [|by apply mkdirs_not]. apply dirs_to_elem in Hi as [Hn Hi].
    destruct (Hcase q Hi Hn) as [E|[? _]]; [|done]. rewrite E. by apply mkdirs_some.
  - intros q Hq. apply mkdirs_not. intros [_ H]%dirs_to_elem. done.
Qed.

Lemma write_can T excl fs dest n c : solid fs dest -> fs !! (dest ++ [n]) = None ->
  oks T [OCreate excl (dest ++ [n]); OFill (dest ++ [n]) c] fs (<[dest ++ [n] := FFile c]> fs).
Proof.
  intros Hs Hn. exists (<[dest ++ [n] := FFile ""]> fs). split.
  - constructor; [rewrite parent_snoc; by apply solid_dir|by destruct dest|by rewrite Hn|done].
  - exists (<[dest ++ [n] := FFile c]> fs). split; [|done]. rewrite <-(insert_insert fs (dest ++ [n]) (FFile c) (FFile "")). econstructor. by rewrite lookup_insert.
Qed.

Definition under (dest : path) (ts : list etree) (p : path) : Prop := exists t, t ∈ ts /\ (dest ++ [root_name t]) `prefix_of` p.
Lemma under_not dest ts q : q `prefix_of` dest -> ~ under dest ts q.
Proof. intros Hq (t & _ & H). exact (snoc_prefix_q dest q [] _ Hq H). Qed.
Lemma forest_can T dest ts fs :
  Forall (fun t => forall dest fs, (forall n ch, t = EDir n ch -> distinct_names ch) -> solid fs dest -> void fs (dest ++ [root_name t]) ->
     exists fs', oks T (populate_ops dest t) fs fs' /\ forall p, ~ under dest [t] p -> fs' !! p = fs !! p) ts ->
  distinct_names ts -> solid fs dest -> (forall t, t ∈ ts -> void fs (dest ++ [root_name t])) ->
  exists fs', oks T (concat (populate_ops dest <$> ts)) fs fs' /\ forall p, ~ under dest ts p -> fs' !! p = fs !! p.
Proof.
  intros HF. revert fs. induction HF as [|t ts Ht HF IH]; intros fs Hd Hs Hv; [by exists fs|].
  destruct (Ht dest fs) as (f1 & H1 & E1); [|done|apply Hv; by left|].
  { intros n ch ->. inversion Hd as [? _ Hc]; subst. eapply Hc. by left. }
  destruct (IH f1) as (f2 & H2 & E2).
  - by eapply distinct_tail.
  - eapply (solid_keep fs f1 dest (under dest [t])); [done|done|]. intros q. apply under_not.
  - intros t' Ht' q Hq. rewrite E1; [apply (Hv t'); [by right|done]|]. intros (x & ->%elem_of_list_singleton & Hx).
    pose proof (two_below _ _ _ _ Hq Hx) as E. inversion Hd as [? Hnd _]; subst. apply NoDup_cons in Hnd as [Hnd _]. apply Hnd. rewrite <-E. by apply elem_of_list_fmap_1.
  - exists f2. split; [simpl; apply oks_app; by exists f1|]. intros p Hp. rewrite E2 by (intros (x & Hx & ?); apply Hp; exists x; split; [by right|done]).
    apply E1. intros (x & ->%elem_of_list_singleton & ?). apply Hp. exists t. split; [by left|done].
Qed.
Lemma populate_can T t : forall dest fs, (forall n ch, t = EDir n ch -> distinct_names ch) -> solid fs dest -> void fs (dest ++ [root_name t]) ->
  exists fs', oks T (populate_ops dest t) fs fs' /\ forall p, ~ under dest [t] p -> fs' !! p = fs !! p.
Proof.
  induction t as [n c|n ch IH] using etree_all; intros dest fs Hd Hs Hv; simpl in Hv.
  - simpl. destruct (has_suffix _ n); [by exists fs|]. eexists. split; [apply write_can; [done|by apply Hv]|].
    intros p Hp. rewrite lookup_insert_ne; [done|]. intros <-. apply Hp. exists (EFile n c). split; [by left|done].
  - destruct (mkdir_can T fs dest n [] Hs Hv) as (f1 & H1 & S1 & O1 & N1).
    destruct (forest_can T (dest ++ [n]) ch f1 IH) as (f2 & H2 & E2); [by eapply Hd|done| |].
    + intros t Ht q Hq. rewrite N1; [|intros Hx; exact (snoc_prefix_q (dest ++ [n]) q [] _ Hx Hq)]. apply Hv. etrans; [|exact Hq]. by apply prefix_app_r.
    + exists f2. split; [by exists f1|]. intros p Hp. assert (Hno : ~ (dest ++ [n]) `prefix_of` p).
      { intros Hx. apply Hp. exists (EDir n ch). split; [by left|done]. }
      rewrite E2; [by apply O1|]. intros (t & _ & Hx). apply Hno. etrans; [|exact Hx]. by apply prefix_app_r.
Qed.

Lemma copies_can T pkgdir sub (L : list (string * string)) fs : solid fs sub -> NoDup L.*1 ->
  (forall n c, (n, c) ∈ L -> fs !! (sub ++ [n]) = None /\ fs !! (pkgdir ++ [n]) = Some (FFile c)) ->
  exists fs', oks T (concat ((fun f => copyFile_ops pkgdir f sub) <$> L.*1)) fs fs' /\ forall p, ~ sub `prefix_of` p \/ p = sub -> fs' !! p = fs !! p.
Proof.
  revert fs. induction L as [|[n c] L IH]; intros fs Hs Hn HL; [by exists fs|].
  assert (E1 : fs !! (sub ++ [n]) = None) by (apply (HL n c); by left). assert (E2 : fs !! (pkgdir ++ [n]) = Some (FFile c)) by (apply (HL n c); by left).
  assert (Hne : forall m x, (m, x) ∈ (n, c) :: L -> sub ++ [n] <> pkgdir ++ [m]) by (intros m x Hm E; destruct (HL m x Hm) as [_ Hx]; by rewrite <-E, E1 in Hx).
  simpl in Hn. apply NoDup_cons in Hn as [Hni Hn].
  destruct (IH (<[sub ++ [n] := FFile c]> fs)) as (f2 & H2 & O2).
  - eapply (solid_keep fs _ sub (fun q => q = sub ++ [n])); [done| |].
    + intros q Hq. by rewrite lookup_insert_ne.
    + intros q Hq ->. by eapply snoc_prefix.
  - done.
  - intros m x Hm. rewrite lookup_insert_ne; [rewrite lookup_insert_ne; [apply HL; by right|by apply (Hne m x); right]|].
    intros E. apply (inj _) in E. injection E as <-. apply Hni. change n with ((n, x).1). by apply elem_of_list_fmap_1.
  - exists f2. split.
    + exists (<[sub ++ [n] := FFile ""]> fs). split; [constructor; [rewrite parent_snoc; by apply solid_dir|by destruct sub|by rewrite E1|done]|].
      exists (<[sub ++ [n] := FFile ""]> fs). split; [econstructor; rewrite lookup_insert_ne; [exact E2|apply (Hne n c); by left]|].
      exists (<[sub ++ [n] := FFile c]> fs). split; [|exact H2]. rewrite <-(insert_insert fs (sub ++ [n]) (FFile c) (FFile "")).
      econstructor; [rewrite lookup_insert_ne; [exact E2|apply (Hne n c); by left]|by rewrite lookup_insert].
    + intros p Hp. rewrite O2 by done. rewrite lookup_insert_ne; [done|]. intros <-. destruct Hp as [Hp|Hp]; [apply Hp; by apply prefix_app_r|].
      apply (f_equal length) in Hp. rewrite app_length in Hp. simpl in Hp. lia.
Qed.
