From stdpp Require Import base gmap list strings sorting.
From Coq Require Import Ascii.
From Verif Require Import StrOrd RegistryModel RegistrySpec.
Local Open Scope list_scope.

Section proofs.
  Context (addr : nat -> nat) (desc : target -> string).
  Implicit Types (h : history) (r : registry).

  Lemma after_snoc h n d t : after addr (h ++ [(n, d, t)]) = (RegisterTarget addr n d t (after addr h)).1.
  Proof. unfold after. by rewrite fold_left_app. Qed.

  Lemma last_with_nil P x : ~ last_with P [] x.
  Proof. intros (b & a & E & _). by destruct b. Qed.
  Lemma last_with_snoc_yes (P : string * string * target -> Prop) h y x : P y -> last_with P (h ++ [y]) x <-> x = y.
  Proof.
    intros Hy. split.
    - intros (b & a & E & Hx & Ha). destruct (decide (a = [])) as [->|Hne].
      + by apply app_inj_tail in E as [_ ->].
      + destruct (exists_last Hne) as (a' & z & ->). rewrite app_comm_cons, app_assoc in E.
        apply app_inj_tail in E as [_ ->]. exfalso. apply (Ha z); [|done]. set_solver.
    - intros ->. exists h, []. split; [done|]. split; [done|]. set_solver.
  Qed.
  Lemma last_with_snoc_no (P : string * string * target -> Prop) h y x : ~ P y -> last_with P (h ++ [y]) x <-> last_with P h x.
  Proof.
    intros Hy. split.
    - intros (b & a & E & Hx & Ha). destruct (decide (a = [])) as [->|Hne].
      + apply app_inj_tail in E as [_ ->]. done.
      + destruct (exists_last Hne) as (a' & z & ->). rewrite app_comm_cons, app_assoc in E.
        apply app_inj_tail in E as [-> ->]. exists b, a'. split; [done|]. split; [done|]. set_solver.
    - intros (b & a & -> & Hx & Ha). exists b, (a ++ [y]). split; [by rewrite <-app_assoc|]. split; [done|].
      intros z. rewrite elem_of_app, elem_of_list_singleton. intros [?| ->]; [by apply Ha|done].
  Qed.

  Lemma by_name_lem h n tu :
    by_name (after addr h) !! n = Some tu <->
    last_with (names_it n) h (n, t_doc tu, t_target tu) /\ t_name tu = n.
  Proof.
    revert tu. induction h as [|[[n' d] t] h IH] using rev_ind; intros tu.
    - split; [done|]. intros [H _]. by apply last_with_nil in H.
    - rewrite after_snoc. unfold RegisterTarget. destruct t as [o|k]; simpl.
      + destruct (decide (n' = n)) as [->|Hne].
        * rewrite lookup_insert, last_with_snoc_yes by (split; [done|by exists o]). split.
          -- intros [= <-]. done.
          -- intros [E En]. destruct tu; simpl in *; simplify_eq. done.
        * rewrite lookup_insert_ne by done. rewrite IH, last_with_snoc_no; [done|]. intros [? _]. done.
      + rewrite IH, last_with_snoc_no; [done|]. intros [_ [o ?]]. done.
  Qed.
  Lemma by_addr_lem h a tu :
    by_addr (after addr h) !! a = Some tu <->
    last_with (of_addr addr a) h (t_name tu, t_doc tu, t_target tu).
  Proof.
    revert tu. induction h as [|[[n' d] t] h IH] using rev_ind; intros tu.
    - split; [done|]. intros H. by apply last_with_nil in H.
    - rewrite after_snoc. unfold RegisterTarget. destruct t as [o|k]; simpl.
      + destruct (decide (addr o = a)) as [<-|Hne].
        * rewrite lookup_insert, last_with_snoc_yes by (by exists o). split.
          -- intros [= <-]. done.
          -- intros E. destruct tu; simpl in *; simplify_eq. done.
        * rewrite lookup_insert_ne by done. rewrite IH, last_with_snoc_no; [done|].
          intros (o' & E & ?). simpl in E. simplify_eq.
      + rewrite IH, last_with_snoc_no; [done|]. intros (o & ? & _). done.
  Qed.
  Lemma last_with_dec (P : string * string * target -> Prop) `{!forall x, Decision (P x)} h : (exists x, last_with P h x) \/ (forall x, x ∈ h -> ~ P x).
  Proof.
    induction h as [|y h IH] using rev_ind; [right; set_solver|].
    destruct (decide (P y)).
    - left. exists y. by apply last_with_snoc_yes.
    - destruct IH as [[x Hx]|IH].
      + left. exists x. by apply last_with_snoc_no.
      + right. intros x. rewrite elem_of_app, elem_of_list_singleton. intros [?| ->]; [by apply IH|done].
  Qed.

  Lemma registry_target_lem h n t d :
    RegistryTarget (after addr h) n = Some (t, d) <-> last_with (names_it n) h (n, d, t).
  Proof.
    unfold RegistryTarget. rewrite fmap_Some. split.
    - intros (tu & H & E). apply by_name_lem in H as [H _]. by simplify_eq.
    - intros H. exists {| t_target := t; t_name := n; t_doc := d |}. split; [|done]. by apply by_name_lem.
  Qed.
  Global Instance names_it_dec n x : Decision (names_it n x).
  Proof.
    unfold names_it. destruct x as [[n' d] [o|k]]; simpl.
    - destruct (decide (n' = n)); [left; split; [done|by exists o]|right; by intros []].
    - right. intros [_ [? ?]]. done.
  Defined.
  Global Instance of_addr_dec a x : Decision (of_addr addr a x).
  Proof.
    unfold of_addr. destruct x as [nd [o|k]]; simpl.
    - destruct (decide (addr o = a)); [left; eauto|right; intros (? & ? & ?); by simplify_eq].
    - right. intros (? & ? & _). done.
  Defined.
  Lemma registry_none_lem h n :
    RegistryTarget (after addr h) n = None <-> forall d o, (n, d, TPtr o) ∉ h.
  Proof.
    split.
    - intros H d o Hin. destruct (last_with_dec (names_it n) h) as [[[[n' d'] t'] Hx]|Hno].
      + assert (n' = n) as -> by (by destruct Hx as (? & ? & _ & [? _] & _)).
        apply registry_target_lem in Hx. congruence.
      + eapply Hno; [exact Hin|]. split; [done|by exists o].
    - intros H. destruct (RegistryTarget (after addr h) n) as [[t d]|] eqn:E; [|done].
      apply registry_target_lem in E as (b & a & -> & [_ [o Ho]] & _). simpl in Ho. subst t.
      exfalso. apply (H d o). set_solver.
  Qed.

  Lemma names_lem h n : n ∈ RegistryNames (after addr h) <-> exists d o, (n, d, TPtr o) ∈ h.
  Proof.
    unfold RegistryNames. rewrite ssort_elem, elem_of_list_fmap. split.
    - intros ([n' tu] & -> & Hin). apply elem_of_map_to_list in Hin. simpl.
      apply by_name_lem in Hin as [(b & a & -> & [_ [o Ho]] & _) _]. simpl in Ho.
      exists (t_doc tu), o. rewrite <-Ho. set_solver.
    - intros (d & o & Hin). destruct (by_name (after addr h) !! n) as [tu|] eqn:E.
      + exists (n, tu). split; [done|]. by apply elem_of_map_to_list.
      + exfalso. assert (RegistryTarget (after addr h) n = None) as H by (unfold RegistryTarget; by rewrite E).
        rewrite registry_none_lem in H. by eapply H.
  Qed.
  Lemma names_sorted r : StronglySorted sle (RegistryNames r).
  Proof. apply ssort_sorted. Qed.
  Lemma names_nodup r : NoDup (RegistryNames r).
  Proof. unfold RegistryNames. rewrite ssort_perm. apply NoDup_fst_map_to_list. Qed.

  Lemma describe_lem h t :
    (exists n d t', last_with (fun x => exists a, targetAddr addr t = Some a /\ of_addr addr a x) h (n, d, t') /\
        Describe addr desc (after addr h) t = n) \/
    ((forall n d o', (n, d, TPtr o') ∈ h -> targetAddr addr t <> Some (addr o')) /\
     Describe addr desc (after addr h) t = "unnamed " +:+ desc t).
  Proof.
    unfold Describe. destruct (targetAddr addr t) as [a|] eqn:Ea.
    - destruct (by_addr (after addr h) !! a) as [tu|] eqn:E.
      + left. apply by_addr_lem in E as (b & l & -> & Hx & Hl). exists (t_name tu), (t_doc tu), (t_target tu).
        split; [|done]. exists b, l. split; [done|]. split; [eauto|]. intros y Hy (a' & E & ?). simplify_eq. by eapply Hl.
      + right. split; [|done]. intros n d o' Hin [= ->].
        destruct (last_with_dec (of_addr addr (addr o')) h) as [[[[n' d'] t'] Hx]|Hno].
        * assert (by_addr (after addr h) !! addr o' = Some {| t_target := t'; t_name := n'; t_doc := d' |}) by (by apply by_addr_lem).
          congruence.
        * eapply Hno; [exact Hin|]. by exists o'.
    - right. split; [|done]. done.
  Qed.
End proofs.

(** ** ParseArgs *)
Lemma lookup_all_lem regs args : forall i,
  exists ts, lookup_all regs i args = (ts, unknown_from regs i args) /\
    (unknown_from regs i args = [] -> length ts = length args /\
       forall j a, args !! j = Some a -> exists t d, RegistryTarget (regs (i + j)) a = Some (t, d) /\ ts !! j = Some (Plain t)).
Proof.
  induction args as [|a args IH]; intros i.
  - exists []. done.
  - destruct (IH (S i)) as (ts & E & Hts). simpl. rewrite E.
    destruct (RegistryTarget (regs i) a) as [[t d]|] eqn:Ea; simpl.
    + exists (Plain t :: ts). split; [done|].
      intros Hn. destruct (Hts Hn) as [Hl Hj]. split; [by rewrite <-Hl|].
      intros [|j] b Hb; simpl in *.
      * injection Hb as ->. rewrite Nat.add_0_r. eauto.
      * replace (i + S j) with (S i + j) by lia. by apply Hj.
    + exists ts. split; [done|]. done.
Qed.
Lemma unknown_elem regs args : forall i a, a ∈ unknown_from regs i args <->
  exists j, args !! j = Some a /\ RegistryTarget (regs (i + j)) a = None.
Proof.
  induction args as [|b args IH]; intros i a; cbn [unknown_from].
  - split; [by intros ?%elem_of_nil|]. intros (j & ? & _). done.
  - rewrite elem_of_app, IH. split.
    + intros [H|(j & ? & ?)].
      * destruct (decide (RegistryTarget (regs i) b = None)) as [Hn|Hn]; [|by apply elem_of_nil in H].
        apply elem_of_list_singleton in H as ->. exists 0. by rewrite Nat.add_0_r.
      * exists (S j). replace (i + S j) with (S i + j) by lia. done.
    + intros ([|j] & Hj & Hn); simpl in *.
      * injection Hj as ->. left. rewrite Nat.add_0_r in Hn. rewrite decide_True by done. set_solver.
      * right. exists j. split; [done|]. rewrite <-Hn. do 2 f_equal. lia.
Qed.

Lemma not_flag_cases args : ~ flag_second args -> ~ empty_second args ->
  forall regs, ParseArgs regs args = parse_result (lookup_all regs 0 args).
Proof.
  intros Hf He regs. unfold ParseArgs. destruct args as [|a0 [|[|c s] rest]]; try done.
  - exfalso. apply He. by exists a0, rest.
  - rewrite decide_False; [done|]. intros ->. apply Hf. by exists a0, s, rest.
Qed.
Lemma parse_names_lem regs args : ~ flag_second args -> ~ empty_second args ->
  match unknown_args regs args with
  | [] => exists ts, ParseArgs regs args = POk ts /\ length ts = length args /\
      forall i a, args !! i = Some a -> exists t d, RegistryTarget (regs i) a = Some (t, d) /\ ts !! i = Some (Plain t)
  | [u] => ParseArgs regs args = PErr ("unknown target " +:+ u)
  | us => ParseArgs regs args = PErr ("unknown targets: " +:+ unwords us)
  end.
Proof.
  intros Hf He. rewrite not_flag_cases by done. unfold unknown_args.
  destruct (lookup_all_lem regs args 0) as (ts & -> & Hts).
  destruct (unknown_from regs 0 args) as [|u [|u' us]]; try done.
  destruct (Hts eq_refl) as [Hl Hi]. simpl. eauto.
Qed.
Lemma parse_flag_lem regs a0 s rest :
  ParseArgs regs (a0 :: String "-"%char s :: rest) =
  match RegistryTarget (regs 0) a0 with
  | Some (t, _) => POk [WithArgs t (String "-"%char s :: rest)]
  | None => PErr ("unknown target " +:+ a0)
  end.
Proof. simpl. by destruct (RegistryTarget (regs 0) a0) as [[t d]|]. Qed.
Lemma parse_panic_lem regs args : ParseArgs regs args = PPanic <-> empty_second args.
Proof.
  split.
  - destruct args as [|a0 [|[|c s] rest]]; simpl.
    + done.
    + by destruct (RegistryTarget (regs 0) a0) as [[]|].
    + intros _. by exists a0, rest.
    + case_decide; [by destruct (RegistryTarget (regs 0) a0) as [[]|]|].
      assert (forall p, parse_result p <> PPanic) as H' by (by intros [ts [|u [|u' us]]]). intros ?. exfalso. by eapply H'.
  - intros (a0 & rest & ->). done.
Qed.

(** ** ListTargets *)
Lemma slen_app a b : String.length (a +:+ b) = String.length a + String.length b.
Proof. induction a as [|c a IH]; [done|]. change (String c a +:+ b) with (String c (a +:+ b)). cbn [String.length]. by rewrite IH. Qed.
Lemma indent_rest_len s : String.length s <= String.length (indent_rest s) /\
  (multiline s = true -> String.length s < String.length (indent_rest s)) /\ (multiline s = false -> indent_rest s = s).
Proof.
  induction s as [|c s (IH1 & IH2 & IH3)]; [done|].
  cbn [indent_rest multiline]. destruct (decide (c = "010"%char)) as [->|Hc].
  - destruct (decide (s = "")) as [->|Hs]; [done|].
    rewrite bool_decide_eq_true_2 by done. cbn [orb String.length].
    change (String.length ("    " +:+ indent_rest s)) with (4 + String.length (indent_rest s)).
    split; [lia|]. split; [lia|]. done.
  - rewrite bool_decide_eq_false_2 by (by intros []). cbn [orb String.length].
    split; [lia|]. split; [intros; specialize (IH2 ltac:(done)); lia|]. intros. by rewrite IH3.
Qed.
Lemma indent_lines_single d : multiline d = false -> d <> "" -> indent_lines d = bol_replace d.
Proof. intros Hm Hd. unfold indent_lines. rewrite decide_False by done. destruct (indent_rest_len d) as (_ & _ & H). by rewrite H. Qed.

Definition doc_at (regs : nat -> registry) (i : nat) (n : string) : string :=
  match RegistryTarget (regs i) n with Some (_, d) => d | None => "" end.
Fixpoint entries_from (regs : nat -> registry) (i : nat) (names : list string) : list (string * string) :=
  match names with [] => [] | n :: names => (n, doc_at regs i n) :: entries_from regs (S i) names end.

Lemma concat_cons s l : String.concat "" (s :: l) = s +:+ String.concat "" l.
Proof.
  destruct l; [|done]. cbn [String.concat]. induction s as [|x s IH]; [done|].
  change (String x s +:+ "") with (String x (s +:+ "")). by rewrite <-IH.
Qed.
Lemma sapp_assoc a b c : (a +:+ b) +:+ c = a +:+ b +:+ c.
Proof. induction a as [|x a IH]; [done|]. change ((String x a +:+ b) +:+ c) with (String x ((a +:+ b) +:+ c)). by rewrite IH. Qed.

Definition listing1 (e : string * string) : string :=
  e.1 +:+ nl +:+ (if decide (e.2 = "") then "" else indent_lines e.2 +:+ nl).
Lemma listing_cons e es : listing (e :: es) = listing1 e +:+ listing es.
Proof. unfold listing. rewrite fmap_cons, concat_cons. destruct e. done. Qed.
Definition shown1 (e : string * string) : string :=
  e.1 +:+ nl +:+ (if decide (e.2 = "") then "" else bol_replace e.2 +:+ nl).
Lemma list_loop_cons regs i n names :
  list_loop regs i (n :: names) = shown1 (n, doc_at regs i n) +:+ list_loop regs (S i) names.
Proof. unfold shown1. cbn [list_loop fst snd]. unfold doc_at. by rewrite !sapp_assoc. Qed.
Lemma shown1_len e : String.length (shown1 e) <= String.length (listing1 e) /\
  (multiline e.2 = true -> String.length (shown1 e) < String.length (listing1 e)) /\ (multiline e.2 = false -> shown1 e = listing1 e).
Proof.
  unfold shown1, listing1. destruct (decide (e.2 = "")) as [->|Hd]; [done|].
  destruct (indent_rest_len e.2) as (H1 & H2 & H3). unfold indent_lines. rewrite decide_False by done. unfold bol_replace.
  rewrite !slen_app. split; [lia|]. split; [intros Hm; specialize (H2 Hm); lia|]. intros Hm. by rewrite H3.
Qed.
Lemma list_loop_len regs names : forall i,
  String.length (list_loop regs i names) <= String.length (listing (entries_from regs i names)) /\
  ((exists e, e ∈ entries_from regs i names /\ multiline e.2 = true) ->
    String.length (list_loop regs i names) < String.length (listing (entries_from regs i names))) /\
  ((forall e, e ∈ entries_from regs i names -> multiline e.2 = false) ->
    list_loop regs i names = listing (entries_from regs i names)).
Proof.
  induction names as [|n names IH]; intros i.
  - split; [simpl; lia|]. split; [|done]. intros (e & He%elem_of_nil & _). done.
  - destruct (IH (S i)) as (H1 & H2 & H3). destruct (shown1_len (n, doc_at regs i n)) as (S1 & S2 & S3).
    rewrite list_loop_cons. cbn [entries_from]. rewrite listing_cons, !slen_app. split; [lia|]. split.
    + intros (e & [->|He]%elem_of_cons & Hm).
      * specialize (S2 Hm). lia.
      * assert (Hx : exists e, e ∈ entries_from regs (S i) names /\ multiline e.2 = true) by eauto. specialize (H2 Hx). lia.
    + intros Ha. rewrite H3 by (intros; apply Ha; by right). rewrite S3; [done|]. apply Ha. by left.
Qed.
Lemma list_targets_lem regs :
  ListTargets regs = listing (entries_from regs 1 (RegistryNames (regs 0))) <->
  forall e, e ∈ entries_from regs 1 (RegistryNames (regs 0)) -> multiline e.2 = false.
Proof.
  destruct (list_loop_len regs (RegistryNames (regs 0)) 1) as (_ & H2 & H3). unfold ListTargets. split; [|done].
  intros E e He. destruct (multiline e.2) eqn:Hm; [|done]. exfalso.
  assert (Hx : exists e, e ∈ entries_from regs 1 (RegistryNames (regs 0)) /\ multiline e.2 = true) by eauto.
  specialize (H2 Hx). rewrite E in H2. lia.
Qed.
Lemma entries_from_const r names i : entries_from (fun _ => r) i names = (fun n => (n, doc_at (fun _ => r) 0 n)) <$> names.
Proof. revert i. induction names as [|n names IH]; intros i; [done|]. simpl. by rewrite IH. Qed.
Lemma list_shown_lem regs names : forall i, list_loop regs i names = String.concat "" (shown1 <$> entries_from regs i names).
Proof. induction names as [|n names IH]; intros i; [done|]. rewrite list_loop_cons, IH. cbn [entries_from]. by rewrite fmap_cons, concat_cons. Qed.

Lemma entries_lookup regs names : forall i j e, entries_from regs i names !! j = Some e ->
  exists n, names !! j = Some n /\ e = (n, doc_at regs (i + j) n).
Proof.
  induction names as [|n names IH]; intros i [|j] e H; simpl in *; try done.
  - injection H as <-. exists n. by rewrite Nat.add_0_r.
  - destruct (IH _ _ _ H) as (m & ? & ->). exists m. by replace (i + S j) with (S i + j) by lia.
Qed.
Lemma entries_fst regs names : forall i, (entries_from regs i names).*1 = names.
Proof. induction names as [|n names IH]; intros i; [done|]. simpl. by rewrite IH. Qed.

Lemma prefix_names addr h1 h2 n : h1 `prefix_of` h2 ->
  n ∈ RegistryNames (after addr h1) -> n ∈ RegistryNames (after addr h2).
Proof. intros [h ->]. rewrite !names_lem. intros (d & o & ?). exists d, o. set_solver. Qed.

Lemma list_lem addr hs : growing hs -> exists entries,
  entries.*1 = RegistryNames (after addr (hs 0)) /\
  (forall i n d, entries !! i = Some (n, d) -> exists t, last_with (names_it n) (hs (S i)) (n, d, t)) /\
  ListTargets (fun i => after addr (hs i)) =
    String.concat "" ((fun '(n, d) => n +:+ nl +:+ (if decide (d = "") then "" else "    " +:+ d +:+ nl)) <$> entries) /\
  (ListTargets (fun i => after addr (hs i)) = listing entries <-> forall n d, (n, d) ∈ entries -> multiline d = false).
Proof.
  intros Hg. set (regs := fun i => after addr (hs i)).
  exists (entries_from regs 1 (RegistryNames (regs 0))). split; [apply entries_fst|]. split; [|split].
  - intros i n d (n' & Hn & [= <- ->])%entries_lookup. simpl. unfold doc_at.
    destruct (RegistryTarget (regs (S i)) n) as [[t d]|] eqn:E.
    + exists t. by apply registry_target_lem in E.
    + exfalso. apply elem_of_list_lookup_2 in Hn. eapply (prefix_names addr (hs 0) (hs (S i))) in Hn; [|apply Hg; lia].
      apply names_lem in Hn as (d & o & Hin). unfold regs in E. rewrite registry_none_lem in E. by eapply E.
  - unfold ListTargets. rewrite list_shown_lem. f_equal. apply list_fmap_ext. intros i [n d] _.
    unfold shown1, bol_replace. cbn [fst snd]. by destruct (decide (d = "")).
  - rewrite list_targets_lem. split.
    + intros H n d Hin. exact (H (n, d) Hin).
    + intros H [n d] Hin. exact (H n d Hin).
Qed.
Lemma describe_ptr_lem addr desc h o :
  (exists n d t, last_with (of_addr addr (addr o)) h (n, d, t) /\ Describe addr desc (after addr h) (TPtr o) = n) \/
  ((forall n d o', (n, d, TPtr o') ∈ h -> addr o' <> addr o) /\
   Describe addr desc (after addr h) (TPtr o) = "unnamed " +:+ desc (TPtr o)).
Proof.
  destruct (describe_lem addr desc h (TPtr o)) as [(n & d & t & (b & l & -> & Hx & Hl) & E)|[H E]]; simpl in *.
  - left. exists n, d, t. split; [|done]. exists b, l. split; [done|]. split.
    + destruct Hx as (a & [= <-] & ?). done.
    + intros y Hy ?. eapply Hl; eauto.
  - right. split; [|done]. intros n d o' Hin E'. eapply H; [done|]. by rewrite E'.
Qed.
Lemma non_pointer_lem addr desc name doc k r :
  RegisterTarget addr name doc (TNonPtr k) r = (r, None) /\
  Describe addr desc r (TNonPtr k) = "unnamed " +:+ desc (TNonPtr k).
Proof. done. Qed.
