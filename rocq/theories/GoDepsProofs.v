From stdpp Require Import base gmap fin_sets list strings sorting.
From Verif Require Import StrOrd GoDepsModel GoDepsSpec.
Local Open Scope list_scope.

Section proofs.
  Context (pkgs : nat -> package) (glob : string -> option (list string)).

  Definition file_of (p : nat) (x : string) : Prop :=
    own_file pkgs p x \/ exists pat ms, pat ∈ p_patterns (pkgs p) /\ glob pat = Some ms /\ x ∈ ms.
  Definition bad_pattern (p : nat) : Prop := exists pat, pat ∈ p_patterns (pkgs p) /\ glob pat = None.

  Lemma patterns_ok ps : forall files r, add_patterns glob ps files = GOk r ->
    (forall x, x ∈ r <-> x ∈ files \/ exists pat ms, pat ∈ ps /\ glob pat = Some ms /\ x ∈ ms) /\
    (forall pat, pat ∈ ps -> is_Some (glob pat)).
  Proof.
    induction ps as [|p ps IH]; intros files r; cbn [add_patterns].
    - intros [= <-]. split; [|intros ? H; by apply elem_of_nil in H].
      intros x. split; [auto|]. intros [?|(? & ? & H & _)]; [done|by apply elem_of_nil in H].
    - destruct (glob p) as [ms|] eqn:E; [|done]. intros H. apply IH in H as [H1 H2]. split.
      + intros x. rewrite H1, elem_of_union, elem_of_list_to_set. split.
        * intros [[?|?]|(pat & ms' & ? & ? & ?)]; [by left| |].
          -- right. exists p, ms. split; [by left|done].
          -- right. exists pat, ms'. split; [by right|done].
        * intros [?|(pat & ms' & [->|Hp]%elem_of_cons & ? & ?)]; [by do 2 left| |].
          -- left. right. congruence.
          -- right. eauto 10.
      + intros pat [->|Hp]%elem_of_cons; [by rewrite E|by apply H2].
  Qed.
  Lemma patterns_kinds ps : forall files, (exists r, add_patterns glob ps files = GOk r) \/
    (add_patterns glob ps files = GErr /\ exists pat, pat ∈ ps /\ glob pat = None).
  Proof.
    induction ps as [|p ps IH]; intros files; cbn [add_patterns]; [eauto|].
    destruct (glob p) as [ms|] eqn:E.
    - destruct (IH (files ∪ list_to_set ms)) as [?|[? (pat & ? & ?)]]; [by left|]. right. split; [done|].
      exists pat. split; [by right|done].
    - right. split; [done|]. exists p. split; [by left|done].
  Qed.

  Lemma within_inv m p q : within pkgs m p q -> p_module (pkgs p) = Some m.
  Proof. by induction 1. Qed.
  Lemma within_trans m p i q : p_module (pkgs p) = Some m -> i ∈ p_imports (pkgs p) -> within pkgs m i q -> within pkgs m p q.
  Proof.
    intros Hp Hi H. induction H as [Hm|q' j H IH Hj Hm]; [|by eapply within_import].
    eapply within_import; [by apply within_self|done|done].
  Qed.
  Lemma within_cases m p q : within pkgs m p q -> q = p \/ exists i, i ∈ p_imports (pkgs p) /\ within pkgs m i q.
  Proof.
    induction 1 as [Hm|q' j H IH Hj Hm]; [by left|]. destruct IH as [->|(i & Hi & Hw)].
    - right. exists j. split; [done|by apply within_self].
    - right. exists i. split; [done|]. by eapply within_import.
  Qed.

  (** A good [add]: exactly the files of the packages within. *)
  Definition exact_add (m : string) (add : nat -> gset string -> gres) (i : nat) : Prop :=
    forall files r, add i files = GOk r ->
      (forall x, x ∈ r <-> x ∈ files \/ exists q, within pkgs m i q /\ file_of q x) /\
      (forall q, within pkgs m i q -> ~ bad_pattern q).
  Lemma imports_exact m add is : (forall i, i ∈ is -> exact_add m add i) ->
    forall files r, add_imports add is files = GOk r ->
      (forall x, x ∈ r <-> x ∈ files \/ exists i q, i ∈ is /\ within pkgs m i q /\ file_of q x) /\
      (forall i q, i ∈ is -> within pkgs m i q -> ~ bad_pattern q).
  Proof.
    induction is as [|i is IH]; intros Ha files r; cbn [add_imports].
    - intros [= <-]. split; [|intros ? ? H; by apply elem_of_nil in H].
      intros x. split; [auto|]. intros [?|(? & ? & H & _)]; [done|by apply elem_of_nil in H].
    - destruct (add i files) as [f1| | |] eqn:E; try done. intros H.
      apply IH in H as [H1 H2]; [|intros; apply Ha; by right].
      apply Ha in E as [E1 E2]; [|by left]. split.
      + intros x. rewrite H1, E1. split.
        * intros [[?|(q & ? & ?)]|(j & q & ? & ? & ?)]; [by left| |].
          -- right. exists i, q. split; [by left|done].
          -- right. exists j, q. split; [by right|done].
        * intros [?|(j & q & [->|Hj]%elem_of_cons & ? & ?)]; [by do 2 left|left; right; eauto|right; eauto 10].
      + intros j q [->|Hj]%elem_of_cons Hw; [by apply E2|by eapply H2].
  Qed.
  Lemma add_exact fuel m : forall p, exact_add m (gopkgAdd pkgs glob fuel m) p.
  Proof.
    induction fuel as [|fuel IH]; intros p files r; cbn [gopkgAdd]; [done|].
    destruct (p_module (pkgs p)) as [m'|] eqn:Em.
    2:{ intros [= <-]. split.
        - intros x. split; [auto|]. intros [?|(q & Hw%within_inv & _)]; [done|congruence].
        - intros q Hw%within_inv. congruence. }
    destruct (decide (m' = m)) as [->|Hne].
    2:{ intros [= <-]. split.
        - intros x. split; [auto|]. intros [?|(q & Hw%within_inv & _)]; [done|congruence].
        - intros q Hw%within_inv. congruence. }
    destruct (add_patterns glob (p_patterns (pkgs p)) _) as [f1| | |] eqn:Ep; try done. intros H.
    apply patterns_ok in Ep as [P1 P2]. apply (imports_exact m) in H as [H1 H2]; [|intros; apply IH]. split.
    - intros x. rewrite H1, P1, !elem_of_union, !elem_of_list_to_set. unfold file_of at 2. unfold own_file. split.
      + intros [[[[[[?|?]|?]|?]|?]|?]|(i & q & Hi & Hw & Hf)]; [by left|..].
        1-4: right; exists p; split; [by apply within_self|]; left; tauto.
        * right. exists p. split; [by apply within_self|by right].
        * right. exists q. split; [by eapply within_trans|done].
      + intros [?|(q & Hw & Hf)]; [left; left; tauto|]. apply within_cases in Hw as [->|(i & Hi & Hw)].
        * left. destruct Hf as [Hf|Hf]; [left; tauto|by right].
        * right. exists i, q. split; [done|]. split; [done|]. exact Hf.
    - intros q Hw. apply within_cases in Hw as [->|(i & Hi & Hw)]; [|by eapply H2].
      intros (pat & Hp & Hn). apply P2 in Hp as [? ?]. congruence.
  Qed.

  (** Errors, panics, fuel. *)
  Lemma imports_not add is files (P : gres -> Prop) : (forall r, ~ P (GOk r)) ->
    (forall i files, i ∈ is -> ~ P (add i files)) -> ~ P (add_imports add is files).
  Proof.
    intros H0. revert files. induction is as [|i is IH]; intros files Ha; cbn [add_imports]; [apply H0|].
    pose proof (Ha i files ltac:(by left)) as Hi.
    destruct (add i files) as [f1| | |]; [|done..]. apply IH. intros j f Hj. apply Ha. by right.
  Qed.
  Lemma add_no_panic fuel m : forall p files, gopkgAdd pkgs glob fuel m p files <> GPanic.
  Proof.
    induction fuel as [|fuel IH]; intros p files; cbn [gopkgAdd]; [done|].
    destruct (p_module (pkgs p)) as [m'|]; [|done]. destruct (decide (m' = m)); [|done].
    match goal with |- context [add_patterns glob ?a ?b] => destruct (patterns_kinds a b) as [[r ->]|[-> _]] end; [|done].
    apply (imports_not _ _ _ (fun x => x = GPanic)); [done|]. intros. apply IH.
  Qed.
  Lemma add_terminates rank fuel m : acyclic pkgs rank -> forall p files, rank p < fuel -> gopkgAdd pkgs glob fuel m p files <> GOutOfFuel.
  Proof.
    intros Ha. induction fuel as [|fuel IH]; intros p files Hf; cbn [gopkgAdd]; [lia|].
    destruct (p_module (pkgs p)) as [m'|]; [|done]. destruct (decide (m' = m)); [|done].
    match goal with |- context [add_patterns glob ?a ?b] => destruct (patterns_kinds a b) as [[r ->]|[-> _]] end; [|done].
    apply (imports_not _ _ _ (fun x => x = GOutOfFuel)); [done|]. intros i f Hi. apply IH. specialize (Ha p i Hi). lia.
  Qed.
  Lemma imports_err m add is : (forall i files, i ∈ is -> add i files = GErr -> exists q, within pkgs m i q /\ bad_pattern q) ->
    forall files, add_imports add is files = GErr -> exists i q, i ∈ is /\ within pkgs m i q /\ bad_pattern q.
  Proof.
    induction is as [|i is IH]; intros Ha files; cbn [add_imports]; [done|].
    destruct (add i files) as [f1| | |] eqn:E; try done.
    - intros H. apply IH in H as (j & q & ? & ? & ?); [|intros j f Hj; apply Ha; by right].
      exists j, q. split; [by right|done].
    - intros _. apply Ha in E as (q & ? & ?); [|by left]. exists i, q. split; [by left|done].
  Qed.
  Lemma add_err fuel m : forall p files, gopkgAdd pkgs glob fuel m p files = GErr -> exists q, within pkgs m p q /\ bad_pattern q.
  Proof.
    induction fuel as [|fuel IH]; intros p files; cbn [gopkgAdd]; [done|].
    destruct (p_module (pkgs p)) as [m'|] eqn:Em; [|done]. destruct (decide (m' = m)) as [->|]; [|done].
    match goal with |- context [add_patterns glob ?a ?b] => destruct (patterns_kinds a b) as [[r ->]|[-> Hb]] end.
    - intros H. apply (imports_err m) in H as (i & q & Hi & Hw & Hb); [|intros; by eapply IH].
      exists q. split; [by eapply within_trans|done].
    - intros _. exists p. split; [by apply within_self|]. done.
  Qed.

  Lemma roots_ok fuel roots : forall files r, add_roots pkgs glob fuel roots files = GOk r ->
    (forall x, x ∈ r <-> x ∈ files \/ exists q, involved pkgs roots q /\ file_of q x) /\
    (forall p, p ∈ roots -> is_Some (p_module (pkgs p))) /\
    (forall q, involved pkgs roots q -> ~ bad_pattern q).
  Proof.
    induction roots as [|p roots IH]; intros files r; cbn [add_roots].
    - intros [= <-]. split; [|split; [intros ? H; by apply elem_of_nil in H|intros q (? & ? & H & _); by apply elem_of_nil in H]].
      intros x. split; [auto|]. intros [?|(? & (? & ? & H & _) & _)]; [done|by apply elem_of_nil in H].
    - destruct (p_module (pkgs p)) as [m|] eqn:Em; [|done].
      destruct (gopkgAdd pkgs glob fuel m p files) as [f1| | |] eqn:E; try done. intros H.
      apply IH in H as (H1 & H2 & H3). apply add_exact in E as [E1 E2]. split; [|split].
      + intros x. rewrite H1, E1. split.
        * intros [[?|(q & ? & ?)]|(q & (r0 & m0 & ? & ?) & ?)]; [by left| |].
          -- right. exists q. split; [|done]. exists p, m. split; [by left|done].
          -- right. exists q. split; [|done]. exists r0, m0. split; [by right|done].
        * intros [?|(q & (r0 & m0 & [->|Hr]%elem_of_cons & Hw) & ?)]; [by do 2 left| |].
          -- left. right. exists q. split; [|done]. apply within_inv in Hw as Hm. rewrite Em in Hm. injection Hm as ->. done.
          -- right. exists q. split; [|done]. exists r0, m0. done.
      + intros q [->|Hq]%elem_of_cons; [by rewrite Em|by apply H2].
      + intros q (r0 & m0 & [->|Hr]%elem_of_cons & Hw).
        * apply E2. apply within_inv in Hw as Hm. rewrite Em in Hm. injection Hm as ->. done.
        * apply H3. exists r0, m0. done.
  Qed.
  Lemma roots_terminates rank fuel roots : acyclic pkgs rank -> (forall p, p ∈ roots -> rank p < fuel) ->
    forall files, add_roots pkgs glob fuel roots files <> GOutOfFuel.
  Proof.
    intros Ha. induction roots as [|p roots IH]; intros Hf files; cbn [add_roots]; [done|].
    destruct (p_module (pkgs p)) as [m|]; [|done].
    pose proof (add_terminates rank fuel m Ha p files (Hf p ltac:(by left))) as Ht.
    destruct (gopkgAdd pkgs glob fuel m p files); [|done..]. apply IH. intros q Hq. apply Hf. by right.
  Qed.
  Lemma roots_panic fuel roots : forall files, add_roots pkgs glob fuel roots files = GPanic -> exists p, p ∈ roots /\ p_module (pkgs p) = None.
  Proof.
    induction roots as [|p roots IH]; intros files; cbn [add_roots]; [done|].
    destruct (p_module (pkgs p)) as [m|] eqn:Em; [|intros _; exists p; split; [by left|done]].
    destruct (gopkgAdd pkgs glob fuel m p files) eqn:E; try done.
    - intros H. apply IH in H as (q & ? & ?). exists q. split; [by right|done].
    - by apply add_no_panic in E.
  Qed.
  Lemma roots_err fuel roots : forall files, add_roots pkgs glob fuel roots files = GErr -> exists q, involved pkgs roots q /\ bad_pattern q.
  Proof.
    induction roots as [|p roots IH]; intros files; cbn [add_roots]; [done|].
    destruct (p_module (pkgs p)) as [m|] eqn:Em; [|done].
    destruct (gopkgAdd pkgs glob fuel m p files) eqn:E; try done.
    - intros H. apply IH in H as (q & (r0 & m0 & ? & ?) & ?). exists q. split; [|done]. exists r0, m0. split; [by right|done].
    - intros _. apply add_err in E as (q & ? & ?). exists q. split; [|done]. exists p, m. split; [by left|done].
  Qed.

  Lemma deps_terminates_lem rank fuel load : acyclic pkgs rank ->
    (forall roots p, load = Some roots -> p ∈ roots -> rank p < fuel) -> Deps pkgs glob fuel load <> DepsOutOfFuel.
  Proof.
    intros Ha Hf. unfold Deps. destruct load as [roots|]; [|done]. destruct (decide _); [done|].
    pose proof (roots_terminates rank fuel roots Ha (fun p => Hf roots p eq_refl) ∅) as H.
    by destruct (add_roots pkgs glob fuel roots ∅).
  Qed.
  Lemma deps_ok_lem fuel load l : Deps pkgs glob fuel load = DepsOk l ->
    exists roots, load = Some roots /\ (forall r, r ∈ roots -> p_errors (pkgs r) = 0 /\ is_Some (p_module (pkgs r))) /\
      StronglySorted sle l /\ NoDup l /\
      (forall x, x ∈ l <-> exists q, involved pkgs roots q /\ file_of q x) /\
      (forall q, involved pkgs roots q -> ~ bad_pattern q).
  Proof.
    unfold Deps. destruct load as [roots|]; [|done]. destruct (decide _) as [?|Hn]; [done|].
    destruct (add_roots pkgs glob fuel roots ∅) as [r| | |] eqn:E; try done. intros [= <-].
    apply roots_ok in E as (H1 & H2 & H3). exists roots. split; [done|]. split; [|split; [|split; [|split]]].
    - intros p Hp. split; [|by apply H2]. destruct (decide (p_errors (pkgs p) = 0)) as [?|He]; [done|].
      destruct Hn. apply Exists_exists. eauto.
    - apply ssort_sorted.
    - rewrite ssort_perm. apply NoDup_elements.
    - intros x. rewrite ssort_elem, elem_of_elements, H1. split; [|eauto]. intros [H|?]; [by apply elem_of_empty in H|done].
    - done.
  Qed.
  Lemma deps_err_lem fuel load : Deps pkgs glob fuel load = DepsErr ->
    load = None \/ exists roots, load = Some roots /\
      ((exists r, r ∈ roots /\ p_errors (pkgs r) <> 0) \/ exists q, involved pkgs roots q /\ bad_pattern q).
  Proof.
    unfold Deps. destruct load as [roots|]; [|by left]. destruct (decide _) as [He|Hn].
    { intros _. right. exists roots. split; [done|]. left. by apply Exists_exists. }
    destruct (add_roots pkgs glob fuel roots ∅) as [r| | |] eqn:E; try done. intros _. right. exists roots. split; [done|].
    right. by eapply roots_err.
  Qed.
  Lemma deps_panic_lem fuel load : Deps pkgs glob fuel load = DepsPanic ->
    exists roots r, load = Some roots /\ r ∈ roots /\ p_module (pkgs r) = None.
  Proof.
    unfold Deps. destruct load as [roots|]; [|done]. destruct (decide _); [done|].
    destruct (add_roots pkgs glob fuel roots ∅) as [r| | |] eqn:E; try done. intros _.
    apply roots_panic in E as (p & ? & ?). eauto.
  Qed.
End proofs.
