From stdpp Require Import base gmap list strings.
From Coq Require Import Ascii Lia.
From Verif Require Import PathModel CompileModel CompileSpec CompileProofs.
Local Open Scope list_scope.

(** ** Quote *)
Lemma nat_lt_256 c : nat_of_ascii c < 256. Proof. apply nat_ascii_bounded. Qed.
Lemma ascii_inj_n c n : n < 256 -> nat_of_ascii c = n -> c = ascii_of_nat n.
Proof. intros _ <-. by rewrite ascii_nat_embedding. Qed.
Lemma quote_char_lit c t v : lit_body t v -> lit_body (quote_char c +:+ t) (String c v).
Proof.
  intros H. unfold quote_char. set (n := nat_of_ascii c). assert (Hn : n < 256) by apply nat_lt_256.
  assert (Hc : ascii_of_nat n = c) by apply ascii_nat_embedding.
  destruct (decide (c = dquote)) as [E|H1].
  { rewrite E. rewrite !app_cons. simpl. apply (lit_simple dquote 34); [|done]. set_solver. }
  destruct (decide (c = backslash)) as [E|H2].
  { rewrite E. rewrite !app_cons. simpl. apply (lit_simple backslash 92); [|done]. set_solver. }
  destruct (bool_decide (32 <= n < 127 \/ 128 <= n)) eqn:Eb.
  { apply bool_decide_eq_true_1 in Eb. rewrite app_cons. simpl. apply lit_plain; [done|done| |done]. intros E. subst n. rewrite E in Eb. change (32 <= 10 < 127 \/ 128 <= 10) in Eb. lia. }
  Local Ltac simple_case Hc := rewrite !app_cons; simpl; rewrite <- Hc; apply lit_simple; [set_solver|done].
  destruct (decide (n = 7)) as [E|]; [rewrite E in Hc; simple_case Hc|].
  destruct (decide (n = 8)) as [E|]; [rewrite E in Hc; simple_case Hc|].
  destruct (decide (n = 12)) as [E|]; [rewrite E in Hc; simple_case Hc|].
  destruct (decide (n = 10)) as [E|]; [rewrite E in Hc; simple_case Hc|].
  destruct (decide (n = 13)) as [E|]; [rewrite E in Hc; simple_case Hc|].
  destruct (decide (n = 9)) as [E|]; [rewrite E in Hc; simple_case Hc|].
  destruct (decide (n = 11)) as [E|]; [rewrite E in Hc; simple_case Hc|].
  rewrite !app_cons. replace c with (ascii_of_nat (16 * (n / 16) + n mod 16)).
  - apply lit_hex; [|apply Nat.mod_upper_bound; lia|done]. apply Nat.div_lt_upper_bound; lia.
  - rewrite <- Nat.div_mod by lia. done.
Qed.
Lemma quote_literal s : literal (Quote s) s.
Proof.
  exists (quote_body s). split; [done|]. induction s as [|c s IH]; simpl; [constructor|]. by apply quote_char_lit.
Qed.
Lemma empty_not_literal v : ~ literal "" v. Proof. intros (b & ? & _). done. Qed.

Lemma hexdigit_inj a b : a < 16 -> b < 16 -> hexdigit a = hexdigit b -> a = b.
Proof.
  intros Ha Hb H. unfold hexdigit in H. destruct (bool_decide (a < 10)) eqn:E1, (bool_decide (b < 10)) eqn:E2;
    rewrite ?bool_decide_eq_true, ?bool_decide_eq_false in *; apply (f_equal nat_of_ascii) in H; rewrite !nat_ascii_embedding in H by lia; lia.
Qed.
Lemma lit_body_fun t v : lit_body t v -> forall w, lit_body t w -> v = w.
Proof.
  induction 1 as [|c t v H1 H2 H3 H IH|x n t v Hx H IH|a b t v Ha Hb H IH]; intros w Hw; inversion Hw; subst; try done.
  - f_equal. by apply IH.
  - f_equal; [|by apply IH]. f_equal. repeat match goal with H : _ ∈ _ :: _ |- _ => apply elem_of_cons in H as [?|?] | H : _ ∈ [] |- _ => by apply elem_of_nil in H end; by simplify_eq.
  - exfalso. repeat match goal with H : _ ∈ _ :: _ |- _ => apply elem_of_cons in H as [?|?] | H : _ ∈ [] |- _ => by apply elem_of_nil in H end; by simplify_eq.
  - exfalso. repeat match goal with H : _ ∈ _ :: _ |- _ => apply elem_of_cons in H as [?|?] | H : _ ∈ [] |- _ => by apply elem_of_nil in H end; by simplify_eq.
  - f_equal; [|by apply IH]. f_equal. f_equal; [f_equal|]; by apply hexdigit_inj.
Qed.
Lemma app_inj_tail_s a b c : a +:+ c = b +:+ c -> a = b.
Proof.
  revert b. induction a as [|x a IH]; intros b E.
  - destruct b as [|y b]; [done|]. exfalso. apply (f_equal String.length) in E. rewrite !len_app in E. simpl in E. lia.
  - destruct b as [|y b]; [exfalso; apply (f_equal String.length) in E; rewrite !len_app in E; simpl in E; lia|]. rewrite !app_cons in E. injection E as -> E. f_equal. by apply IH.
Qed.
Lemma literal_fun t v w : literal t v -> literal t w -> v = w.
Proof. intros (b & -> & H) (b' & E & H'). injection E as E. apply app_inj_tail_s in E as <-. by eapply lit_body_fun. Qed.
(** ** trim_crlf *)
Lemma trim_trimmed s : trimmed s (trim_crlf s).
Proof.
  induction s as [|c s (t & E & Ht & Hl)]; simpl.
  - exists "". split_and!; [done|constructor|]. intros [|] ? ?; done.
  - destruct (trim_crlf s) as [|c' s'] eqn:Es.
    + simpl in E. subst s. destruct (decide _) as [Hc|Hc].
      * exists (String c t). split_and!; [done|constructor; [tauto|done]|]. intros [|] ? ?; done.
      * exists t. split_and!; [done|done|]. intros [|x u] y Hy; simpl in Hy; [|destruct u; by simplify_eq]. injection Hy as <-. split; intros ->; apply Hc; auto.
    + exists t. split_and!; [by rewrite app_cons, <- E|done|]. intros [|x u] y Hy; simpl in Hy; [done|]. rewrite app_cons in Hy. injection Hy as -> Hy. by apply (Hl u).
Qed.
Lemma trimmed_functional s v w : trimmed s v -> trimmed s w -> v = w.
Proof.
  intros (t & E & Ht & Hv) (t' & E' & Ht' & Hw). rewrite E in E'. clear E s. revert w t' Ht' Hw E'. induction v as [|c v IH]; intros w t' Ht' Hw E.
  - destruct w as [|c w]; [done|]. exfalso. change (t = String c w +:+ t') in E. subst t.
    assert (exists u y, String c w = u +:+ String y "") as (u & y & Eu).
    { clear. revert c. induction w as [|d w IH]; intros c; [by exists "", c|]. destruct (IH d) as (u & y & ->). exists (String c u), y. done. }
    destruct (Hw u y Eu) as [H1 H2]. rewrite Eu in Ht. clear -Ht H1 H2. induction u as [|d u IH].
    + inversion Ht; subst. tauto.
    + inversion Ht; subst. by apply IH.
  - destruct w as [|d w].
    + exfalso. change (String c v +:+ t = t') in E. subst t'.
      assert (exists u y, String c v = u +:+ String y "") as (u & y & Eu).
      { clear. revert c. induction v as [|d v IH]; intros c; [by exists "", c|]. destruct (IH d) as (u & y & ->). exists (String c u), y. done. }
      destruct (Hv u y Eu) as [H1 H2]. rewrite Eu in Ht'. clear -Ht' H1 H2. induction u as [|d u IH].
      * inversion Ht'; subst. tauto.
      * inversion Ht'; subst. by apply IH.
    + rewrite !app_cons in E. injection E as -> E. f_equal. eapply (IH ltac:(intros u y ->; by apply (Hv (String d u))) w t'); [done| |done].
      intros u y ->. by apply (Hw (String d u)).
Qed.

(** ** The whole *)
Section whole.
  Context (E : cenv) (Hord : forall l, c_order E l ≡ₚ l).
  Definition final (es : list entry) : gmap string string :=
    set_docs E (doc_vars (concat (e_decls <$> filter (fun e => is_go e = true) es))) (select_targets E es).
  Lemma compile_inv name errors es d : CompilePackage E name errors es = Some d ->
    d_calls d ≡ₚ map_to_list (final es) /\ d_files d = copied es /\ d_subpkg d = name /\
    d_import d = (if decide (d_calls d = []) then "_" else "subpkg") /\ errors = 0 /\ c_tools E = true /\
    (exists e, e ∈ es /\ go_file e /\ ~ test_file e /\ e_active e = true) /\
    (forall e, e ∈ es -> go_file e -> e_pkg e = name).
  Proof.
    unfold CompilePackage. destruct (decide (errors <> 0)) as [|He]; [done|]. destruct (decide (filter _ es = [])) as [|Hb]; [done|].
    destruct (decide (length _ <> 1)) as [|Hl]; [done|]. destruct (decide (name ∉ _)) as [|Hn]; [done|]. cbv zeta. fold (final es).
    destruct (c_tools E) eqn:Et; [|done]. intros [= <-]. simpl. split_and!; try done; [lia| |].
    - destruct (filter (fun e => in_build e = true) es) as [|e l] eqn:Ef; [done|]. assert (e ∈ filter (fun e => in_build e = true) es) as H by (rewrite Ef; left).
      apply elem_of_list_filter in H as [H ?]. apply in_build_spec in H as (? & ? & ?). by exists e.
    - intros e Hin Hg. apply dec_stable in Hn. assert (e_pkg e ∈ parsed_packages es) as H.
      { unfold parsed_packages. apply elem_of_remove_dups, elem_of_list_fmap. exists e. split; [done|]. apply elem_of_list_filter. split; [|done]. by apply is_go_spec. }
      destruct (parsed_packages es) as [|x [|]]; simpl in Hl; [lia| |lia]. apply elem_of_list_singleton in H, Hn. congruence.
  Qed.
  Lemma call_iff name errors es d n t : CompilePackage E name errors es = Some d -> ((n, t) ∈ d_calls d <-> final es !! n = Some t).
  Proof. intros H. destruct (compile_inv _ _ _ _ H) as [Hp _]. rewrite Hp. apply elem_of_map_to_list. Qed.
  Lemma final_dom es n : is_Some (final es !! n) <-> is_target E es n.
  Proof.
    unfold final. destruct (set_docs_lookup E (doc_vars (concat (e_decls <$> filter (fun e => is_go e = true) es))) (select_targets E es) n) as [[-> _]|(doc & names & _ & _ & ->)].
    - split; [intros [x [_ ?]%select_lookup]; done|]. intros H. exists "". by apply select_lookup.
    - rewrite fmap_is_Some. split; [intros [x [_ ?]%select_lookup]; done|]. intros H. exists "". by apply select_lookup.
  Qed.
  Lemma final_val es n t : final es !! n = Some t -> (t = "" /\ forall dc doc, in_dir es dc -> ~ documents dc n doc) \/
    exists dc doc, in_dir es dc /\ documents dc n doc /\ t = Quote (trim_crlf (c_text E doc)).
  Proof.
    unfold final. set (ds := concat (e_decls <$> filter (fun e => is_go e = true) es)).
    destruct (set_docs_lookup E (doc_vars ds) (select_targets E es) n) as [[-> Hno]|(doc & names & Hin & Hn & ->)]; intros Ht.
    - left. apply select_lookup in Ht as [-> _]. split; [done|]. intros dc doc Hd Hdoc. apply in_dir_spec in Hd.
      destruct (doc_vars_complete ds dc n doc Hd Hdoc) as (names & Hin & Hn). by apply (Hno doc names).
    - right. destruct (doc_vars_spec ds doc names Hin n Hn) as (dc & Hd & Hdoc). exists dc, doc. split_and!; [by apply in_dir_spec|done|].
      destruct (select_targets E es !! n); by simplify_eq/=.
  Qed.

  Lemma registers_lem name errors es d : CompilePackage E name errors es = Some d ->
    NoDup (d_calls d).*1 /\ forall n, n ∈ (d_calls d).*1 <-> is_target E es n.
  Proof.
    intros H. destruct (compile_inv _ _ _ _ H) as [Hp _]. split.
    - rewrite Hp. apply NoDup_fst_map_to_list.
    - intros n. rewrite <- final_dom. split.
      + intros ([n' t] & -> & Hin)%elem_of_list_fmap. simpl. exists t. by eapply call_iff.
      + intros [t Ht]. apply elem_of_list_fmap. exists (n, t). split; [done|]. by eapply call_iff.
  Qed.
  Lemma well_formed_lem name errors es d : CompilePackage E name errors es = Some d ->
    (well_formed es d <-> forall n, is_target E es n ->
      (exists dc k, in_package es dc /\ declares dc n k /\ k <> OType) /\ exists dc doc, in_dir es dc /\ documents dc n doc).
  Proof.
    intros H. destruct (compile_inv _ _ _ _ H) as (_ & _ & _ & Hi & _). unfold well_formed. split.
    - intros [Hw _] n [t Ht]%final_dom. assert ((n, t) ∈ d_calls d) as Hin by (by eapply call_iff). destruct (Hw n t Hin) as [[v Hv] Hd]. split; [done|].
      destruct (final_val es n t Ht) as [[-> _]|(dc & doc & ? & ? & _)]; [by apply empty_not_literal in Hv|eauto].
    - intros Hall. split.
      + intros n t Hin. eapply call_iff in Hin as Ht; [|done]. assert (is_target E es n) as Hn by (apply final_dom; eauto). destruct (Hall n Hn) as [Hk (dc & doc & Hd & Hdoc)].
        split; [|done]. destruct (final_val es n t Ht) as [[-> Hno]|(? & doc' & ? & ? & ->)]; [by destruct (Hno dc doc)|]. eexists. apply quote_literal.
      + rewrite Hi. case_decide; split; intros; done.
  Qed.
  Lemma docs_lem name errors es d n t v dc doc : CompilePackage E name errors es = Some d -> (n, t) ∈ d_calls d ->
    in_dir es dc -> documents dc n doc -> (forall dc' k, in_dir es dc' -> declares dc' n k -> dc' = dc) -> (literal t v <-> trimmed (c_text E doc) v).
  Proof.
    intros H Hin Hd Hdoc Huniq. eapply call_iff in Hin as Ht; [|done]. destruct (final_val es n t Ht) as [[-> Hno]|(dc' & doc' & Hd' & Hdoc' & ->)]; [by destruct (Hno dc doc)|].
    assert (dc' = dc) as ->. { destruct Hdoc' as (specs & ? & ? & _). by eapply Huniq. } assert (doc' = doc) as ->. { destruct Hdoc as (? & -> & _), Hdoc' as (? & ? & _). by simplify_eq. }
    split.
    - intros Hl. rewrite (literal_fun _ _ _ Hl (quote_literal _)). apply trim_trimmed.
    - intros Hl. rewrite (trimmed_functional _ _ _ Hl (trim_trimmed _)). apply quote_literal.
  Qed.
  (** A comment of one variable of a group has no effect. *)
  Definition erase_spec (v : valuespec) : valuespec := {| v_names := v_names v; v_type := v_type v; v_doc := "" |}.
  Definition erase_decl (d : decl) : decl := match d with DVar doc specs => DVar doc (erase_spec <$> specs) | DConst specs => DConst (erase_spec <$> specs) | d => d end.
  Definition erase (e : entry) : entry :=
    {| e_name := e_name e; e_isdir := e_isdir e; e_content := e_content e; e_pkg := e_pkg e; e_active := e_active e; e_decls := erase_decl <$> e_decls e |}.
  Lemma filter_erase (P : entry -> Prop) `{!forall e, Decision (P e)} (es : list entry) : (forall e, P (erase e) <-> P e) -> filter P (erase <$> es) = erase <$> filter P es.
  Proof. intros HP. induction es as [|e es IH]; [done|]. cbn [fmap list_fmap]. rewrite !filter_cons. change (list_fmap _ _ erase es) with (erase <$> es). rewrite IH. specialize (HP e). destruct (decide (P (erase e))), (decide (P e)); try (exfalso; tauto); done. Qed.
  Lemma names_erase (specs : list valuespec) : concat (v_names <$> (erase_spec <$> specs)) = concat (v_names <$> specs).
  Proof. rewrite <- list_fmap_compose. done. Qed.
  Lemma objs_erase d : decl_objs (erase_decl d) = decl_objs d.
  Proof. destruct d; simpl; by rewrite ?names_erase. Qed.
  Lemma concat_erase (l : list entry) : concat (e_decls <$> (erase <$> l)) = erase_decl <$> concat (e_decls <$> l).
  Proof. induction l as [|e l IH]; [done|]. cbn [fmap list_fmap concat]. rewrite fmap_app. simpl. by f_equal. Qed.
  Lemma fs_erase (specs : list valuespec) : filter_specs (erase_spec <$> specs) = erase_spec <$> filter_specs specs.
  Proof.
    unfold filter_specs. induction specs as [|v specs IH]; [done|]. cbn [fmap list_fmap]. rewrite !filter_cons. simpl.
    change (list_fmap _ _ filter_spec (list_fmap _ _ erase_spec specs)) with (filter_spec <$> (erase_spec <$> specs)). rewrite IH.
    change (list_fmap _ _ filter_spec specs) with (filter_spec <$> specs). case_decide; done.
  Qed.
  Lemma dom_erase (specs : list valuespec) : forall a b, dominant (erase_spec <$> specs) a b = dominant specs a b.
  Proof. induction specs as [|v specs IH]; intros a b; [done|]. simpl. destruct (v_type v) as [[n []]|]; rewrite ?IH; done. Qed.
  Lemma omap_same {A B} (f : A -> option B) (g : A -> A) (l : list A) : (forall x, f (g x) = f x) -> omap f (g <$> l) = omap f l.
  Proof. intros H. induction l as [|x l IH]; [done|]. simpl. unfold omap in IH. rewrite H. destruct (f x); [f_equal|]; apply IH. Qed.
  Lemma vars_erase (ds : list decl) : doc_vars (erase_decl <$> ds) = doc_vars ds.
  Proof.
    unfold doc_vars. apply omap_same. intros [doc specs| | |]; [|done|done|done]. cbn [erase_decl]. cbv zeta. rewrite fs_erase.
    destruct (filter_specs specs) as [|v l] eqn:E2; [done|]. rewrite decide_False by done. rewrite decide_False by done.
    unfold associated. rewrite dom_erase, fmap_length, names_erase. done.
  Qed.
  Lemma erase_lem name errors (es : list entry) : CompilePackage E name errors (erase <$> es) = CompilePackage E name errors es.
  Proof.
    unfold CompilePackage, parsed_packages, copied, select_targets, scope.
    rewrite !filter_erase by done. rewrite !concat_erase, vars_erase. rewrite <- !list_fmap_compose.
    replace (decl_objs ∘ erase_decl <$> concat (e_decls <$> filter (fun e => in_build e = true) es)) with (decl_objs <$> concat (e_decls <$> filter (fun e => in_build e = true) es)).
    2: { apply list_fmap_ext. intros i x _. simpl. by rewrite objs_erase. }
    destruct (decide (filter (fun e => in_build e = true) es = [])) as [E0|E0].
    { rewrite E0. simpl. done. }
    rewrite (decide_False (P := erase <$> filter (fun e => in_build e = true) es = [])) by (by intros ?%fmap_nil_inv). done.
  Qed.
  Lemma copies_lem name errors es d : CompilePackage E name errors es = Some d ->
    forall n c, (n, c) ∈ d_files d <-> exists e, e ∈ es /\ e_name e = n /\ e_content e = c /\ go_file e /\ ~ test_file e.
  Proof.
    intros H n c. destruct (compile_inv _ _ _ _ H) as (_ & -> & _). unfold copied. rewrite elem_of_list_fmap. unfold is_test. split.
    - intros (e & ? & [(Hd & Ht' & Hs) Hin]%elem_of_list_filter). simplify_eq. exists e. apply has_suffix_spec in Hs. apply has_suffix_false in Ht'. done.
    - intros (e & ? & <- & <- & [? ?] & Ht). exists e. split; [done|]. apply elem_of_list_filter. split; [|done]. rewrite has_suffix_spec, has_suffix_false. done.
  Qed.
  Lemma one_package_lem name errors es e : e ∈ es -> go_file e -> e_pkg e <> name -> CompilePackage E name errors es = None.
  Proof. intros He Hg Hp. destruct (CompilePackage E name errors es) as [d|] eqn:H; [|done]. destruct (compile_inv _ _ _ _ H) as (_ & _ & _ & _ & _ & _ & _ & Hall). destruct Hp. eauto. Qed.
  Lemma type_lem name errors es d n : CompilePackage E name errors es = Some d -> is_target E es n -> (forall dc k, in_package es dc -> declares dc n k -> k = OType) -> ~ well_formed es d.
  Proof. intros H Ht Hk Hw. eapply well_formed_lem in Hw; [|done|done]. destruct Hw as [(dc & k & ? & ? & ?) _]. eauto. Qed.
  Lemma typed_var_lem name errors es d n T : CompilePackage E name errors es = Some d -> is_target E es n -> exported T ->
    (forall dc k, in_dir es dc -> declares dc n k -> exists doc v, dc = DVar doc [v] /\ v_names v = [n] /\ v_type v = Some (T, false)) -> ~ well_formed es d.
  Proof.
    intros H Ht HT Hk Hw. eapply well_formed_lem in Hw; [|done|done]. destruct Hw as [_ (dc & doc & Hd & specs & -> & Hdc & He & Hno)].
    destruct (Hk _ _ Hd Hdc) as (doc' & v & Ev & Hn & Htv). simplify_eq. apply Hno. exists T.
    assert (visible v) as Hv by (exists n; rewrite Hn; split; [left|done]). split_and!; [done| |].
    - intros v' T' ->%elem_of_list_singleton _ E1 _. congruence.
    - exists 1. rewrite !filter_cons, !decide_True by done. simpl. split_and!; lia.
  Qed.
End whole.

(** ** populateFabDir *)
Fixpoint tree_ind (P : etree -> Prop) (Hf : forall n c, P (EFile n c)) (Hd : forall n ch, Forall P ch -> P (EDir n ch)) (t : etree) : P t :=
  match t with
  | EFile n c => Hf n c
  | EDir n ch => Hd n ch ((fix go l : Forall P l := match l with [] => Forall_nil_2 _ | t :: l => Forall_cons_2 _ _ _ (tree_ind P Hf Hd t) (go l) end) ch)
  end.
Lemma populate_lem t : forall dest f c, (f, c) ∈ populate dest t <->
  exists p, in_tree t p c /\ f = foldl (fun d n => Join [d; n]) dest p /\ (forall b, last p = Some b -> ~ ends_in "_test.go" b).
Proof.
  induction t as [n c0|n ch IH] using tree_ind; intros dest f c; simpl.
  - destruct (has_suffix "_test.go" n) eqn:Eh.
    + split; [by intros ?%elem_of_nil|]. intros (p & Hp & _ & Hb). inversion Hp; subst. apply has_suffix_spec in Eh. by apply (Hb n) in Eh.
    + rewrite elem_of_list_singleton. split.
      * intros E. injection E as -> ->. exists [n]. split_and!; [constructor|done|]. intros b [= <-]. by apply has_suffix_false.
      * intros (p & Hp & -> & _). inversion Hp; subst. done.
  - rewrite elem_of_concat. split.
    + intros (l & (t & -> & Ht)%elem_of_list_fmap & Hin). rewrite Forall_forall in IH. apply (IH t Ht) in Hin as (p & Hp & -> & Hb). exists (n :: p).
      split_and!; [by eapply in_sub|done|]. intros b Hl. apply Hb. destruct p; [inversion Hp|done].
    + intros (p & Hp & -> & Hb). inversion Hp as [|? ? t p' ? Ht Hp']; subst. exists (populate (Join [dest; n]) t). split; [by apply elem_of_list_fmap_1|].
      rewrite Forall_forall in IH. apply (IH t Ht). exists p'. split_and!; [done|done|]. intros b Hl. apply Hb. destruct p'; done.
Qed.
Lemma populate_all tmpdir ts f c : (f, c) ∈ populateFabDir tmpdir ts <->
  exists t p, t ∈ ts /\ in_tree t p c /\ f = foldl (fun d n => Join [d; n]) (Join [tmpdir; "fab"]) p /\ (forall b, last p = Some b -> ~ ends_in "_test.go" b).
Proof.
  unfold populateFabDir. rewrite elem_of_concat. split.
  - intros (l & (t & -> & Ht)%elem_of_list_fmap & Hin). apply populate_lem in Hin as (p & ? & ? & ?). eauto 10.
  - intros (t & p & Ht & ? & ? & ?). exists (populate (Join [tmpdir; "fab"]) t). split; [by apply elem_of_list_fmap_1|]. apply populate_lem. eauto.
Qed.
