From stdpp Require Import base gmap list strings.
From Coq Require Import Ascii Lia.
From Verif Require Import PathModel CompileModel CompileSpec.
Local Open Scope list_scope.

(** ** Suffixes *)
Lemma app_cons (c : ascii) s t : String c s +:+ t = String c (s +:+ t). Proof. done. Qed.
Lemma app_assoc_s (a b c : string) : (a +:+ b) +:+ c = a +:+ (b +:+ c).
Proof. induction a as [|x a IH]; [done|]. by rewrite !app_cons, IH. Qed.
Lemma app_empty_r (a : string) : a +:+ "" = a.
Proof. induction a as [|x a IH]; [done|]. by rewrite !app_cons, IH. Qed.
Lemma len_app a b : String.length (a +:+ b) = String.length a + String.length b.
Proof. induction a as [|x a IH]; [done|]. rewrite app_cons. simpl. by rewrite IH. Qed.
Lemma sub_whole s n : String.length s <= n -> substring 0 n s = s.
Proof. revert n. induction s as [|c s IH]; intros [|n] H; simpl in *; try done; [lia|]. f_equal. apply IH. lia. Qed.
Lemma sub_drop p s n : substring (String.length p) n (p +:+ s) = substring 0 n s.
Proof. induction p as [|c p IH]; [done|]. rewrite app_cons. simpl. done. Qed.
Lemma sub_split s k : k <= String.length s -> exists p, s = p +:+ substring k (String.length s - k) s /\ String.length p = k.
Proof.
  revert s. induction k as [|k IH]; intros s H.
  - exists "". split; [|done]. rewrite sub_whole by lia. done.
  - destruct s as [|c s]; simpl in H; [lia|]. destruct (IH s) as (p & E & Hl); [lia|]. exists (String c p). simpl. split; [|lia]. by rewrite app_cons, <- E.
Qed.
Lemma has_suffix_spec suf s : has_suffix suf s = true <-> ends_in suf s.
Proof.
  unfold has_suffix. rewrite bool_decide_eq_true. split.
  - intros [Hl E]. destruct (sub_split s (String.length s - String.length suf)) as (p & Es & _); [lia|]. exists p.
    replace (String.length s - (String.length s - String.length suf)) with (String.length suf) in Es by lia. congruence.
  - intros [p ->]. rewrite len_app. split; [lia|]. replace (String.length p + String.length suf - String.length suf) with (String.length p) by lia.
    rewrite sub_drop. apply sub_whole. lia.
Qed.
Lemma has_suffix_false suf s : has_suffix suf s = false <-> ~ ends_in suf s.
Proof. rewrite <- has_suffix_spec. by rewrite not_true_iff_false. Qed.
Lemma is_go_spec e : is_go e = true <-> go_file e.
Proof. unfold is_go, go_file. rewrite andb_true_iff, negb_true_iff, has_suffix_spec. done. Qed.
Lemma in_build_spec e : in_build e = true <-> go_file e /\ ~ test_file e /\ e_active e = true.
Proof. unfold in_build, is_test, test_file. rewrite !andb_true_iff, negb_true_iff, is_go_spec, has_suffix_false. tauto. Qed.

(** ** Lists *)
Lemma elem_of_concat {A} (x : A) ls : x ∈ concat ls <-> exists l, l ∈ ls /\ x ∈ l.
Proof.
  induction ls as [|l ls IH]; simpl.
  - split; [by intros ?%elem_of_nil|]. intros (? & ?%elem_of_nil & _). done.
  - rewrite elem_of_app, IH. split.
    + intros [H|(l' & ? & ?)]; [exists l|exists l']; (split; [|done]); [left|by right].
    + intros (l' & [->|H]%elem_of_cons & Hx); [by left|right; eauto].
Qed.
Lemma decl_objs_spec d n k : (n, k) ∈ decl_objs d <-> declares d n k.
Proof.
  destruct d as [doc specs|specs|names|f]; simpl; rewrite ?elem_of_list_fmap.
  - setoid_rewrite elem_of_concat. split.
    + intros (x & E & l & (v & -> & Hv)%elem_of_list_fmap & Hx). simplify_eq. eauto.
    + intros (-> & v & Hv & Hn). exists n. split; [done|]. exists (v_names v). split; [|done]. apply elem_of_list_fmap. eauto.
  - setoid_rewrite elem_of_concat. split.
    + intros (x & E & l & (v & -> & Hv)%elem_of_list_fmap & Hx). simplify_eq. eauto.
    + intros (-> & v & Hv & Hn). exists n. split; [done|]. exists (v_names v). split; [|done]. apply elem_of_list_fmap. eauto.
  - split; [intros (? & ? & ?); by simplify_eq|]. intros [-> ?]. eauto.
  - rewrite elem_of_list_singleton. split; [intros; by simplify_eq|]. by intros [-> ->].
Qed.
Lemma decls_spec (P : entry -> Prop) `{!forall e, Decision (P e)} es d : d ∈ concat (e_decls <$> filter P es) <-> exists e, e ∈ es /\ P e /\ d ∈ e_decls e.
Proof.
  rewrite elem_of_concat. split.
  - intros (l & (e & -> & [HP He]%elem_of_list_filter)%elem_of_list_fmap & Hd). eauto.
  - intros (e & He & HP & Hd). exists (e_decls e). split; [|done]. apply elem_of_list_fmap. exists e. split; [done|]. by apply elem_of_list_filter.
Qed.
Lemma scope_spec es n k : (n, k) ∈ scope es <-> n <> "_" /\ n <> "init" /\ exists d, in_package es d /\ declares d n k.
Proof.
  unfold scope. rewrite elem_of_list_filter, elem_of_concat. simpl. split.
  - intros ([? ?] & l & (d & -> & Hd)%elem_of_list_fmap & Hn). split_and!; try done. exists d. split; [|by apply decl_objs_spec].
    apply decls_spec in Hd as (e & He & Hb%in_build_spec & Hd). destruct Hb as (? & ? & ?). exists e. split_and!; done.
  - intros (? & ? & d & (e & He & ? & ? & ? & Hd) & Hn). split; [done|]. exists (decl_objs d). split; [|by apply decl_objs_spec].
    apply elem_of_list_fmap. exists d. split; [done|]. apply decls_spec. exists e. split_and!; try done. by apply in_build_spec.
Qed.
Lemma in_dir_spec es d : d ∈ concat (e_decls <$> filter (fun e => is_go e = true) es) <-> in_dir es d.
Proof.
  rewrite decls_spec. unfold in_dir. split; intros (e & ? & H & ?); exists e; (split_and!; [done| |done]); by apply is_go_spec.
Qed.
Lemma exported_names n : exported n -> n <> "_" /\ n <> "init".
Proof.
  intros (c & s & -> & H). split; intros E; injection E as -> _.
  - change (65 <= 95 <= 90) in H. lia.
  - change (65 <= 105 <= 90) in H. lia.
Qed.

(** ** Selection *)
Lemma select_lookup E es n d : select_targets E es !! n = Some d <-> d = "" /\ is_target E es n.
Proof.
  assert (HT : is_target E es n <-> exists k, (n, k) ∈ scope es /\ IsExported n && c_impl E n = true).
  { split.
    - intros (He & Hi & d' & k & ? & ?). destruct (exported_names n He). exists k. split; [apply scope_spec; eauto 10|]. apply exported_alt in He. by rewrite He, Hi.
    - intros (k & (? & ? & d' & ? & ?)%scope_spec & [He Hi]%andb_true_iff). apply exported_alt in He. split_and!; eauto. }
  rewrite HT. clear HT. unfold select_targets.
  set (f := fun m o => if IsExported o.1 && c_impl E o.1 then <[o.1 := ""]> m else m).
  assert (H : forall l m, foldl f m l !! n = Some d <-> (m !! n = Some d /\ ~ (exists k, (n, k) ∈ l /\ IsExported n && c_impl E n = true)) \/ (d = "" /\ exists k, (n, k) ∈ l /\ IsExported n && c_impl E n = true)).
  { induction l as [|[x k] l IH]; intros m; simpl.
    - split; [intros H; left; split; [done|]; by intros (? & ?%elem_of_nil & _)|]. intros [[? _]|(_ & ? & ?%elem_of_nil & _)]; done.
    - rewrite IH. unfold f. simpl. destruct (IsExported x && c_impl E x) eqn:Ex.
      + destruct (decide (x = n)) as [->|Hne].
        * rewrite lookup_insert. split.
          -- intros [[? _]|(-> & k' & ? & ?)]; right; simplify_eq; (split; [done|]); eauto using elem_of_list_here.
          -- intros [[_ Hn]|(-> & k' & _ & _)]; [destruct Hn; eauto using elem_of_list_here|].
             destruct (decide (Exists (fun o => o.1 = n) l)) as [Hx|Hx].
             ++ right. split; [done|]. apply Exists_exists in Hx as ([n' k''] & Hin & Hn). simpl in Hn. subst n'. eauto.
             ++ left. split; [done|]. intros (k'' & Hin & _). apply Hx. apply Exists_exists. by exists (n, k'').
        * rewrite lookup_insert_ne by done. split.
          -- intros [[? Hn]|(-> & k' & ? & ?)]; [left|right; eauto 6 using elem_of_list_further]. split; [done|].
             intros (k' & [?|?]%elem_of_cons & ?); [by simplify_eq|]. apply Hn. eauto.
          -- intros [[? Hn]|(-> & k' & [?|?]%elem_of_cons & ?)]; [left|by simplify_eq|right; eauto]. split; [done|].
             intros (k' & ? & ?). apply Hn. eauto using elem_of_list_further.
      + split.
        * intros [[? Hn]|(-> & k' & ? & ?)]; [left|right; eauto 6 using elem_of_list_further]. split; [done|].
          intros (k' & [?|?]%elem_of_cons & ?); [simplify_eq; congruence|]. apply Hn. eauto.
        * intros [[? Hn]|(-> & k' & [?|?]%elem_of_cons & ?)]; [left|simplify_eq; congruence|right; eauto]. split; [done|].
          intros (k' & ? & ?). apply Hn. eauto using elem_of_list_further. }
  rewrite H, lookup_empty. split.
  - intros [[? _]|[-> (k & ? & ?)]]; [done|]. eauto.
  - intros [-> ?]. by right.
Qed.

(** ** Docs *)
Definition docq (E : cenv) (doc : string) : string := Quote (trim_crlf (c_text E doc)).
Lemma set_doc_dom E doc m x n : is_Some (set_doc E doc m x !! n) <-> is_Some (m !! n).
Proof.
  unfold set_doc. destruct (m !! x) eqn:Ex; [|done]. destruct (decide (x = n)) as [->|].
  - rewrite lookup_insert, Ex. split; eauto.
  - by rewrite lookup_insert_ne.
Qed.
Lemma set_names_lookup E doc names : forall m n, foldl (set_doc E doc) m names !! n = if decide (n ∈ names) then (fun _ => docq E doc) <$> m !! n else m !! n.
Proof.
  induction names as [|x names IH]; intros m n; cbn [foldl].
  - rewrite decide_False; [done|]. apply not_elem_of_nil.
  - rewrite IH. unfold set_doc. destruct (m !! x) eqn:Ex.
    + destruct (decide (n = x)) as [->|Hne].
      * rewrite lookup_insert, Ex. simpl. rewrite (decide_True (P := x ∈ x :: names)) by left. by case_decide.
      * rewrite lookup_insert_ne by done. destruct (decide (n ∈ names)) as [Hn|Hn].
        -- rewrite decide_True; [done|]. by right.
        -- rewrite decide_False; [done|]. by intros [?|?]%elem_of_cons.
    + destruct (decide (n ∈ names)) as [Hn|Hn].
      * rewrite decide_True; [done|]. by right.
      * destruct (decide (n ∈ x :: names)) as [[->|?]%elem_of_cons|]; [|done|done]. by rewrite Ex.
Qed.
Lemma set_docs_lookup E vars : forall m n,
  (set_docs E vars m !! n = m !! n /\ forall doc names, (doc, names) ∈ vars -> n ∉ names) \/
  (exists doc names, (doc, names) ∈ vars /\ n ∈ names /\ set_docs E vars m !! n = (fun _ => docq E doc) <$> m !! n).
Proof.
  unfold set_docs. induction vars as [|[doc names] vars IH]; intros m n; simpl.
  - left. split; [done|]. by intros ? ? ?%elem_of_nil.
  - destruct (IH (foldl (set_doc E doc) m names) n) as [[-> Hno]|(doc' & names' & Hin & Hn & ->)].
    + rewrite set_names_lookup. destruct (decide (n ∈ names)) as [Hn|Hn].
      * right. exists doc, names. split_and!; [left|done|done].
      * left. split; [done|]. intros ? ? [?|?]%elem_of_cons; [by simplify_eq|eauto].
    + right. exists doc', names'. split_and!; [by right|done|]. rewrite set_names_lookup. case_decide; [|done]. by destruct (m !! n).
Qed.

(** ** go/doc *)
Definition counted (T : string) (l : list valuespec) : nat := length (filter (fun v => v_type v = Some (T, false)) l).
Lemma counted_cons T v l : counted T (v :: l) = (if decide (v_type v = Some (T, false)) then 1 else 0) + counted T l.
Proof. unfold counted. rewrite filter_cons. case_decide; done. Qed.
Lemma dominant_sound l : forall dn df n f, dominant l dn df = (n, f) -> n <> "" ->
  (forall v T', v ∈ l -> v_type v = Some (T', false) -> T' <> "" -> T' = n) /\ (dn = "" \/ dn = n) /\ f = df + counted n l /\ (dn <> "" \/ counted n l > 0).
Proof.
  induction l as [|v l IH]; intros dn df n f H Hne; simpl in H.
  - injection H as <- <-. split_and!; [by intros ? ? ?%elem_of_nil|by right|unfold counted; simpl; lia|by left].
  - assert (Hskip : (forall T', v_type v = Some (T', false) -> T' = "") -> dominant l dn df = (n, f) ->
      (forall v0 T', v0 ∈ v :: l -> v_type v0 = Some (T', false) -> T' <> "" -> T' = n) /\ (dn = "" \/ dn = n) /\ f = df + counted n (v :: l) /\ (dn <> "" \/ counted n (v :: l) > 0)).
    { intros Hv H'. destruct (IH _ _ _ _ H' Hne) as (Ha & Hb & Hc & Hd). rewrite counted_cons.
      rewrite decide_False by (intros E; by apply Hv in E). split_and!; try done.
      intros v0 T' [->|Hin]%elem_of_cons E HT'; [|eauto]. destruct HT'. eauto. }
    destruct (v_type v) as [[name imp]|] eqn:Ev; [|by apply Hskip]. destruct imp; [apply Hskip; [by intros; simplify_eq|done]|].
    destruct (decide (name = "")) as [->|Hname]; [apply Hskip; [by intros; simplify_eq|done]|].
    destruct (decide (dn <> "" /\ dn <> name)); [by simplify_eq|].
    destruct (IH _ _ _ _ H Hne) as (Ha & Hb & Hc & Hd). assert (name = n) as -> by naive_solver. rewrite counted_cons, decide_True by done.
    split_and!.
    + intros v0 T' [->|Hin]%elem_of_cons E HT'; [by simplify_eq|eauto].
    + destruct (decide (dn = "")); [by left|]. destruct (decide (dn = n)); [by right|]. naive_solver.
    + lia.
    + right. lia.
Qed.
Lemma dominant_complete T l : T <> "" -> forall dn df, (forall v T', v ∈ l -> v_type v = Some (T', false) -> T' <> "" -> T' = T) ->
  dn = T \/ (dn = "" /\ counted T l > 0) -> dominant l dn df = (T, df + counted T l).
Proof.
  intros HT. induction l as [|v l IH]; intros dn df Hall Hdn; simpl.
  - destruct Hdn as [->|[_ H]]; [unfold counted; simpl; f_equal; lia|unfold counted in H; simpl in H; lia].
  - rewrite counted_cons in *.
    assert (Htl : forall v T', v ∈ l -> v_type v = Some (T', false) -> T' <> "" -> T' = T). { intros; eapply Hall; eauto using elem_of_list_further. }
    assert (Hhd : forall T', v_type v = Some (T', false) -> T' <> "" -> T' = T). { intros; eapply Hall; eauto using elem_of_list_here. }
    destruct (v_type v) as [[name imp]|] eqn:Ev.
    2: { rewrite decide_False in * by done. by apply IH. }
    destruct imp. { rewrite decide_False in * by done. by apply IH. }
    destruct (decide (name = "")) as [->|Hname]. { rewrite decide_False in * by congruence. by apply IH. }
    assert (name = T) as -> by auto. rewrite decide_False by naive_solver. rewrite decide_True in * by done.
    rewrite IH; [f_equal; lia|done|by left].
Qed.
Lemma visible_filter (l : list valuespec) : filter (fun v => v_names v <> []) (filter_spec <$> l) = filter_spec <$> filter visible l.
Proof.
  induction l as [|v l IH]; [done|]. cbn [fmap list_fmap]. rewrite !filter_cons.
  assert (Hv : v_names (filter_spec v) <> [] <-> visible v).
  { unfold visible, filter_spec. simpl. split.
    - intros H. destruct (filter _ (v_names v)) as [|n ns] eqn:E; [done|]. exists n. rewrite exported_alt.
      assert (n ∈ filter (fun n => IsExported n = true) (v_names v)) as [? ?]%elem_of_list_filter by (rewrite E; left). done.
    - intros (n & Hn & He) E. assert (n ∈ filter (fun n => IsExported n = true) (v_names v)) as H. { apply elem_of_list_filter. by rewrite <- exported_alt. }
      rewrite E in H. by apply elem_of_nil in H. }
  case_decide as H1; case_decide as H2; [|tauto|tauto|done]. rewrite IH. done.
Qed.
Lemma counted_fmap T (l : list valuespec) : counted T (filter_spec <$> l) = counted T l.
Proof.
  induction l as [|v l IH]; [done|]. cbn [fmap list_fmap]. rewrite !counted_cons. simpl. change (list_fmap _ _ filter_spec l) with (filter_spec <$> l). by rewrite IH.
Qed.
Lemma counted_filter T l : counted T (filter visible l) = length (filter (fun v => visible v /\ v_type v = Some (T, false)) l).
Proof.
  induction l as [|v l IH]; [done|]. rewrite !filter_cons. case_decide as H1.
  - rewrite counted_cons, IH. case_decide as H2.
    + rewrite decide_True by done. done.
    + rewrite decide_False by tauto. done.
  - rewrite decide_False by tauto. done.
Qed.
Lemma associated_spec specs : associated (filter_specs specs) = true <-> exists T, belongs_to specs T.
Proof.
  unfold associated, filter_specs. rewrite visible_filter. set (l := filter visible specs).
  assert (Hty : forall T, (forall v T', v ∈ filter_spec <$> l -> v_type v = Some (T', false) -> T' <> "" -> T' = T) <->
    (forall v T', v ∈ specs -> visible v -> v_type v = Some (T', false) -> T' <> "" -> T' = T)).
  { intros T. subst l. split.
    - intros H v T' Hv Hvis Ht. apply (H (filter_spec v)); [|done]. apply elem_of_list_fmap. exists v. split; [done|]. by apply elem_of_list_filter.
    - intros H v T' (v' & -> & [? ?]%elem_of_list_filter)%elem_of_list_fmap Ht. by apply (H v'). }
  destruct (dominant (filter_spec <$> l) "" 0) as [n f] eqn:E. rewrite bool_decide_eq_true, fmap_length. split.
  - intros (Hn & He & Hf). destruct (dominant_sound _ _ _ _ _ E Hn) as (Ha & _ & Hc & Hd). exists n. split; [by apply exported_alt|]. split; [by apply Hty|].
    rewrite counted_fmap in *. exists f. subst l. rewrite counted_filter in *. destruct Hd as [?|?]; [done|]. split_and!; lia.
  - intros (T & He & Ha & k & Hk & -> & Hf). assert (T <> "") as HT by (intros ->; destruct He as (? & ? & ? & _); done).
    rewrite (dominant_complete T) in E; [|done|by apply Hty|]; rewrite ?counted_fmap in *; subst l; rewrite ?counted_filter in *; [|by right].
    injection E as <- <-. split_and!; [done|by apply exported_alt|done].
Qed.
Lemma doc_vars_spec ds doc names : (doc, names) ∈ doc_vars ds -> forall n, n ∈ names -> exists d, d ∈ ds /\ documents d n doc.
Proof.
  unfold doc_vars. intros (d & Hd & H)%elem_of_list_omap n Hn. destruct d as [doc' specs| | |]; try done. cbv zeta in H.
  destruct (decide (filter_specs specs = [])); [done|]. destruct (associated (filter_specs specs)) eqn:Ea; [done|]. simplify_eq. exists (DVar doc specs). split; [done|].
  exists specs. split_and!; [done| | |].
  - simpl. split; [done|]. apply elem_of_concat in Hn as (l & (v & -> & Hv)%elem_of_list_fmap & Hn). unfold filter_specs in Hv.
    apply elem_of_list_filter in Hv as [_ (v' & -> & Hv')%elem_of_list_fmap]. exists v'. split; [done|]. simpl in Hn. by apply elem_of_list_filter in Hn as [_ ?].
  - apply elem_of_concat in Hn as (l & (v & -> & Hv)%elem_of_list_fmap & Hn). unfold filter_specs in Hv.
    apply elem_of_list_filter in Hv as [_ (v' & -> & Hv')%elem_of_list_fmap]. simpl in Hn. apply elem_of_list_filter in Hn as [? _]. by apply exported_alt.
  - rewrite <- associated_spec, Ea. done.
Qed.
Lemma doc_vars_complete ds d n doc : d ∈ ds -> documents d n doc -> exists names, (doc, names) ∈ doc_vars ds /\ n ∈ names.
Proof.
  intros Hd (specs & -> & [_ (v & Hv & Hn)] & He & Hb). rewrite <- associated_spec, not_true_iff_false in Hb.
  assert (Hin : filter_spec v ∈ filter_specs specs).
  { unfold filter_specs. rewrite visible_filter. apply elem_of_list_fmap. exists v. split; [done|]. apply elem_of_list_filter. split; [|done]. by exists n. }
  exists (concat (v_names <$> filter_specs specs)). split.
  - unfold doc_vars. apply elem_of_list_omap. exists (DVar doc specs). split; [done|]. cbv zeta. rewrite decide_False by (intros E; rewrite E in Hin; by apply elem_of_nil in Hin). by rewrite Hb.
  - apply elem_of_concat. exists (v_names (filter_spec v)). split; [by apply elem_of_list_fmap_1|]. simpl. apply elem_of_list_filter. by rewrite <- exported_alt.
Qed.
