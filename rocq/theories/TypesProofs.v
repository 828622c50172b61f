From stdpp Require Import base gmap fin_sets list strings.
From Verif Require Import TypesModel TypesSpec.
Local Open Scope list_scope.

Section proofs.
  Context (T : tgraph) (R : rgraph).
  Implicit Types (seen : gset (nat * nat)) (S : nat -> nat -> Prop).
  Notation fn_t := (gset (nat * nat) -> nat -> nat -> res).

  Lemma sig_agrees_mono S S' s fn k : (forall t r, S t r -> S' t r) -> sig_agrees R S s fn k -> sig_agrees R S' s fn k.
  Proof.
    intros H (ins & outs & E & recv & ins' & -> & Hl & H1 & H2). exists (recv ++ ins'), outs. split; [done|].
    exists recv, ins'. split; [done|]. split; [done|]. split; eapply Forall2_impl; eauto.
  Qed.
  Lemma struct_agrees_mono S S' t r : (forall t r, S t r -> S' t r) -> struct_agrees R S t r -> struct_agrees R S' t r.
  Proof.
    intros H. destruct t as [n e|[k|]|d e|ms|k e|nm u|e|s|e|fs|], r; simpl; try done; try (intuition; fail).
    - intros [Hl Hm]. split; [done|]. intros n s Hin. destruct (Hm n s Hin) as (fn & ? & ?). exists fn. split; [done|].
      by eapply sig_agrees_mono.
    - intros Hf. eapply Forall2_impl; [done|]. intros v g (? & ? & ?). split; [done|]. split; [done|]. auto.
  Qed.
  Lemma agrees_mono S S' t r : (forall t r, S t r -> S' t r) -> agrees T R S t r -> agrees T R S' t r.
  Proof.
    intros H. unfold agrees. destruct (tnode T t); eauto using struct_agrees_mono, sig_agrees_mono.
    intros [? ?]. auto.
  Qed.

  (** ** Soundness. *)
  Definition inn seen : nat -> nat -> Prop := fun t r => (t, r) ∈ seen.
  Definition grows seen seen' : Prop :=
    seen ⊆ seen' /\ forall t r, (t, r) ∈ seen' -> (t, r) ∉ seen -> agrees T R (inn seen') t r.
  Lemma grows_refl seen : grows seen seen.
  Proof. split; [done|]. intros. done. Qed.
  Lemma grows_trans s1 s2 s3 : grows s1 s2 -> grows s2 s3 -> grows s1 s3.
  Proof.
    intros [H1 A1] [H2 A2]. split; [set_solver|]. intros t r Hin Hn.
    destruct (decide ((t, r) ∈ s2)) as [H|H]; [|by apply A2].
    eapply agrees_mono; [|by apply A1]. intros t' r' ?. unfold inn in *. set_solver.
  Qed.
  Definition sound (f : fn_t) : Prop :=
    forall seen t r seen', f seen t r = Ok seen' -> grows seen seen' /\ (t, r) ∈ seen'.

  Lemma check_list_sound f l : sound f -> forall seen seen', check_list f l seen = Ok seen' ->
    grows seen seen' /\ forall t r, (t, r) ∈ l -> (t, r) ∈ seen'.
  Proof.
    intros Hf. induction l as [|[t r] l IH]; intros seen seen' H; simpl in H.
    - injection H as ->. split; [apply grows_refl|]. intros t r ?%elem_of_nil. done.
    - destruct (f seen t r) as [s1| |] eqn:E; try done. apply Hf in E as [G1 Hin].
      apply IH in H as [G2 Hl]. split; [by eapply grows_trans|].
      intros t' r' [[= -> ->]|?]%elem_of_cons; [|by apply Hl]. destruct G2 as [? _]. set_solver.
  Qed.
  Lemma zip_forall2 (l k : list nat) S : length l = length k ->
    (forall x y, (x, y) ∈ zip l k -> S x y) -> Forall2 S l k.
  Proof.
    revert k. induction l as [|x l IH]; intros [|y k] Hl H; try done.
    constructor; [apply H; by left|]. apply IH; [by simpl in Hl; lia|]. intros. apply H. by right.
  Qed.
  Lemma sig_sound f seen s fn skip seen' : sound f -> checkSignaturesMatch f R seen s fn skip = Ok seen' ->
    grows seen seen' /\ sig_agrees R (inn seen') s fn (if skip && s_recv s then 1 else 0).
  Proof.
    intros Hf H. unfold checkSignaturesMatch in H.
    destruct (r_kind (rnode R fn)) as [| | | |v ins outs| | | | |] eqn:Ek; try done.
    destruct (bool_decide (s_variadic s = v)) eqn:Ev; [|done]. apply bool_decide_eq_true in Ev. subst v. simpl in H.
    destruct (bool_decide ((if skip && s_recv s then Datatypes.S (length (s_params s)) else length (s_params s)) = length ins)) eqn:Ei; [|done].
    apply bool_decide_eq_true in Ei. simpl in H.
    destruct (bool_decide (length (s_results s) = length outs)) eqn:Eo; [|done]. apply bool_decide_eq_true in Eo. simpl in H.
    destruct (check_list f (zip (s_params s) (if skip && s_recv s then drop 1 ins else ins)) seen) as [s1| |] eqn:E1; try done.
    apply check_list_sound in E1 as [G1 H1]; [|done]. apply check_list_sound in H as [G2 H2]; [|done].
    split; [by eapply grows_trans|]. exists ins, outs. split; [done|].
    assert (Hsub : s1 ⊆ seen') by apply G2.
    destruct (skip && s_recv s).
    - destruct ins as [|i ins]; [done|]. exists [i], ins. split; [done|]. split; [done|]. simpl in Ei.
      split; apply zip_forall2; try lia.
      + intros x y Hxy. unfold inn. apply Hsub, H1. done.
      + intros x y Hxy. by apply H2.
    - exists [], ins. split; [done|]. split; [done|]. split; apply zip_forall2; try lia.
      + intros x y Hxy. unfold inn. apply Hsub, H1. done.
      + intros x y Hxy. by apply H2.
  Qed.
  Lemma method_by_name_in n ms fn : method_by_name n ms = Some fn -> (n, fn) ∈ ms.
  Proof.
    induction ms as [|[m t] ms IH]; simpl; [done|]. case_decide as Hd; [|intros ?; right; auto].
    intros [= ->]. subst. by left.
  Qed.
  Lemma methods_sound f ms rms : sound f -> forall seen seen', check_methods f R ms rms seen = Ok seen' ->
    grows seen seen' /\ forall n s, (n, s) ∈ ms -> exists fn, (n, fn) ∈ rms /\ sig_agrees R (inn seen') s fn 0.
  Proof.
    intros Hf. induction ms as [|[n s] ms IH]; intros seen seen' H; simpl in H.
    - injection H as ->. split; [apply grows_refl|]. intros ? ? ?%elem_of_nil. done.
    - destruct (method_by_name n rms) as [fn|] eqn:En; [|done].
      destruct (checkSignaturesMatch f R seen s fn false) as [s1| |] eqn:E; try done.
      apply sig_sound in E as [G1 H1]; [|done]. apply IH in H as [G2 H2]. split; [by eapply grows_trans|].
      intros n' s' [[= -> ->]|?]%elem_of_cons; [|by apply H2]. exists fn. split; [by apply method_by_name_in|].
      eapply sig_agrees_mono; [|exact H1]. intros t r. apply G2.
  Qed.
  Lemma fields_sound f ts : sound f -> forall rs seen seen', length ts = length rs -> check_fields f ts rs seen = Ok seen' ->
    grows seen seen' /\ Forall2 (field_agrees (inn seen')) ts rs.
  Proof.
    intros Hf. induction ts as [|v ts IH]; intros [|g rs] seen seen' Hl H; simpl in H; try done.
    - injection H as ->. split; [apply grows_refl|]. constructor.
    - destruct (bool_decide (f_name v = f_name g)) eqn:En; [|done]. destruct (bool_decide (f_tag v = f_tag g)) eqn:Et; [|done].
      simpl in H. apply bool_decide_eq_true in En, Et.
      destruct (f seen (f_type v) (f_type g)) as [s1| |] eqn:E; try done. apply Hf in E as [G1 H1].
      apply IH in H as [G2 H2]; [|by simpl in Hl; lia]. split; [by eapply grows_trans|].
      constructor; [|done]. split; [done|]. split; [done|]. apply G2. done.
  Qed.
  Lemma basic_matches_eq k r : basic_matches k r = true <-> r = RBasic k.
  Proof. split; [by destruct k, r as [|[]| | | | | | | |]|]. intros ->. by destruct k. Qed.
  Lemma dir_matches_eq d r : dir_matches d r = true <-> d = r.
  Proof. by destruct d, r. Qed.

  Lemma grows_add seen t r seen' : grows ({[(t, r)]} ∪ seen) seen' -> agrees T R (inn seen') t r ->
    grows seen seen' /\ (t, r) ∈ seen'.
  Proof.
    intros [Hs Ha] Ht. split; [|set_solver]. split; [set_solver|]. intros t' r' Hin Hn.
    destruct (decide ((t', r') = (t, r))) as [[= -> ->]|Hne]; [done|]. apply Ha; [done|]. set_solver.
  Qed.
  Lemma check_sound fuel : sound (checkTypesMatch fuel T R).
  Proof.
    induction fuel as [|fuel IH]; intros seen t r seen' H; simpl in H; [done|].
    destruct (decide ((t, r) ∈ seen)) as [Hin|Hin].
    { injection H as <-. split; [apply grows_refl|done]. }
    set (f := checkTypesMatch fuel T R) in *.
    apply grows_add; unfold agrees;
      destruct (tnode T t) as [n e|[k|]|d e|ms|k e|nm u|e|s|e|fs|]; try done;
      try (destruct (r_kind (rnode R r)) as [|k'|n' e'|d' e'|v ins outs|rms|k' e'|e'|e'|gs] eqn:Ek; try done).
    all: try (destruct (bool_decide (n = n')) eqn:En; [|done]; apply bool_decide_eq_true in En; apply IH in H as [G Hi]; try done).
    all: try (destruct (basic_matches k _) eqn:Eb; [|done]; injection H as <-; try apply grows_refl).
    all: try (apply basic_matches_eq in Eb; simplify_eq; done).
    all: try (destruct (dir_matches d d') eqn:Ed; [|done]; apply dir_matches_eq in Ed; apply IH in H as [G Hi]; try done).
    all: try (destruct (bool_decide (length ms = length rms)) eqn:El; [|done]; apply bool_decide_eq_true in El;
              apply methods_sound in H as [G Hm]; [|done]; try done).
    all: try (destruct (f _ k k') as [s1| |] eqn:E1; try done; apply IH in E1 as [G1 Hi1]; apply IH in H as [G2 Hi2];
              try (by eapply grows_trans); try (split; [by apply G2|done])).
    all: try (destruct (bool_decide (nm = r_name (rnode R r))) eqn:En; [|done]; apply bool_decide_eq_true in En;
              apply IH in H as [G Hi]; try done).
    all: try (apply IH in H as [G Hi]; done).
    all: try (eapply sig_sound in H as [G Hs]; [|done]; try done).
    all: try (destruct (bool_decide (length fs = length gs)) eqn:El; [|done]; apply bool_decide_eq_true in El;
              apply fields_sound in H as [G Hs]; done).
  Qed.

  (** ** Completeness. *)
  Definition never_err S (f : fn_t) : Prop := forall seen t r, S t r -> f seen t r <> Err.
  Lemma check_list_complete S f l : never_err S f -> (forall t r, (t, r) ∈ l -> S t r) ->
    forall seen, check_list f l seen <> Err.
  Proof.
    intros Hf. induction l as [|[t r] l IH]; intros Hl seen; simpl; [done|].
    pose proof (Hf seen t r ltac:(apply Hl; by left)). destruct (f seen t r); [|done|done].
    apply IH. intros. apply Hl. by right.
  Qed.
  Lemma forall2_zip (l k : list nat) S x y : Forall2 S l k -> (x, y) ∈ zip l k -> S x y.
  Proof.
    induction 1 as [|a b l k Hab H IH]; simpl; [by intros ?%elem_of_nil|].
    intros [[= -> ->]|?]%elem_of_cons; auto.
  Qed.
  Lemma sig_complete S f seen s fn skip : never_err S f -> sig_agrees R S s fn (if skip && s_recv s then 1 else 0) ->
    checkSignaturesMatch f R seen s fn skip <> Err.
  Proof.
    intros Hf (ins & outs & E & recv & ins' & -> & Hl & H1 & H2). unfold checkSignaturesMatch. rewrite E.
    rewrite bool_decide_eq_true_2 by done. cbn [negb].
    assert (Hlen : (if skip && s_recv s then Datatypes.S (length (s_params s)) else length (s_params s)) = length (recv ++ ins')).
    { rewrite app_length, Hl. apply Forall2_length in H1. destruct (skip && s_recv s); lia. }
    rewrite bool_decide_eq_true_2 by done. cbn [negb]. rewrite bool_decide_eq_true_2 by (by eapply Forall2_length). cbn [negb].
    assert (Hd : (if skip && s_recv s then drop 1 (recv ++ ins') else recv ++ ins') = ins').
    { destruct (skip && s_recv s); destruct recv as [|a [|? ?]]; done. }
    rewrite Hd.
    pose proof (check_list_complete S f (zip (s_params s) ins') Hf (fun t r => forall2_zip _ _ _ _ _ H1) seen) as C1.
    destruct (check_list f (zip (s_params s) ins') seen) as [s1| |]; [|done|done].
    apply (check_list_complete S); [done|]. intros t r. by apply forall2_zip.
  Qed.
  Lemma method_by_name_nodup n ms fn : NoDup ms.*1 -> (n, fn) ∈ ms -> method_by_name n ms = Some fn.
  Proof.
    induction ms as [|[m t] ms IH]; simpl; [by intros _ ?%elem_of_nil|]. intros [Hni Hnd]%NoDup_cons.
    intros [[= -> ->]|Hin]%elem_of_cons; [by rewrite decide_True|].
    rewrite decide_False; [by apply IH|]. intros ->. apply Hni. apply elem_of_list_fmap. by exists (n, fn).
  Qed.
  Lemma methods_complete S f ms rms : never_err S f -> NoDup rms.*1 ->
    (forall n s, (n, s) ∈ ms -> exists fn, (n, fn) ∈ rms /\ sig_agrees R S s fn 0) ->
    forall seen, check_methods f R ms rms seen <> Err.
  Proof.
    intros Hf Hnd. induction ms as [|[n s] ms IH]; intros Hm seen; simpl; [done|].
    destruct (Hm n s ltac:(by left)) as (fn & Hin & Hs). rewrite (method_by_name_nodup n rms fn) by done.
    pose proof (sig_complete S f seen s fn false Hf Hs). destruct (checkSignaturesMatch f R seen s fn false); [|done|done].
    apply IH. intros. apply Hm. by right.
  Qed.
  Lemma fields_complete S f fs gs : never_err S f -> Forall2 (field_agrees S) fs gs -> forall seen, check_fields f fs gs seen <> Err.
  Proof.
    intros Hf. induction 1 as [|v g fs gs (En & Et & Hvg) H IH]; intros seen; simpl; [done|].
    rewrite !bool_decide_eq_true_2 by done. cbn [negb].
    pose proof (Hf seen _ _ Hvg). destruct (f seen (f_type v) (f_type g)); [|done|done]. apply IH.
  Qed.
  Lemma check_complete S fuel : distinct_methods R -> matching T R S -> never_err S (checkTypesMatch fuel T R).
  Proof.
    intros Hnd HS. induction fuel as [|fuel IH]; intros seen t r HSt; simpl; [done|].
    destruct (decide ((t, r) ∈ seen)) as [Hin|Hin]; [done|]. set (f := checkTypesMatch fuel T R) in *.
    specialize (HS t r HSt). unfold agrees in HS.
    destruct (tnode T t) as [n e|[k|]|d e|ms|k e|nm u|e|s|e|fs|]; simpl in HS; try done.
    - destruct (r_kind (rnode R r)); try done. destruct HS as [-> ?]. rewrite bool_decide_eq_true_2 by done. by apply IH.
    - destruct (r_kind (rnode R r)) as [|k'| | | | | | | |]; try done. subst k'. by destruct k.
    - destruct (r_kind (rnode R r)); try done. destruct HS as [-> ?].
      assert (E : forall d, dir_matches d d = true) by (by intros []). rewrite E. by apply IH.
    - destruct (r_kind (rnode R r)) as [| | | | |rms| | | |] eqn:Ek; try done. destruct HS as [Hl Hm].
      rewrite bool_decide_eq_true_2 by done. eapply methods_complete; [exact IH|by eapply Hnd|done].
    - destruct (r_kind (rnode R r)); try done. destruct HS as [H1 H2]. pose proof (IH ({[(t, r)]} ∪ seen) _ _ H1) as C.
      destruct (f ({[(t, r)]} ∪ seen) k key) as [s1| |]; [|done|done]. by apply IH.
    - destruct HS as [En ?]. rewrite bool_decide_eq_true_2 by done. by apply IH.
    - destruct (r_kind (rnode R r)); try done. by apply IH.
    - eapply sig_complete; [exact IH|]. done.
    - destruct (r_kind (rnode R r)); try done. by apply IH.
    - destruct (r_kind (rnode R r)); try done. rewrite bool_decide_eq_true_2 by (by eapply Forall2_length).
      by eapply fields_complete.
  Qed.

  (** ** Termination. *)
  Definition all_pairs : gset (nat * nat) :=
    list_to_set (list_prod (seq 0 (length T)) (seq 0 (length R))).
  Lemma elem_all_pairs t r : (t, r) ∈ all_pairs <-> t < length T /\ r < length R.
  Proof.
    unfold all_pairs. rewrite elem_of_list_to_set, elem_of_list_In, in_prod_iff, <-!elem_of_list_In, !elem_of_seq. lia.
  Qed.
  Definition todo seen : nat := size (all_pairs ∖ seen).
  Lemma todo_mono s1 s2 : s1 ⊆ s2 -> todo s2 <= todo s1.
  Proof. intros H. unfold todo. apply subseteq_size. set_solver. Qed.
  Lemma todo_add seen t r : t < length T -> r < length R -> (t, r) ∉ seen -> todo ({[(t, r)]} ∪ seen) < todo seen.
  Proof.
    intros Ht Hr Hn. unfold todo. apply subset_size. assert (H : (t, r) ∈ all_pairs) by (by apply elem_all_pairs). set_solver.
  Qed.
  Definition terminates (n : nat) (f : fn_t) : Prop :=
    forall seen t r, t < length T -> r < length R -> todo seen < n -> f seen t r <> OutOfFuel.
  Lemma check_list_terminates n f l : sound f -> terminates n f ->
    (forall t r, (t, r) ∈ l -> t < length T /\ r < length R) ->
    forall seen, todo seen < n -> check_list f l seen <> OutOfFuel.
  Proof.
    intros Hs Hf. induction l as [|[t r] l IH]; intros Hl seen Hn; simpl; [done|].
    destruct (Hl t r ltac:(by left)) as [Ht Hr]. pose proof (Hf seen t r Ht Hr Hn).
    destruct (f seen t r) as [s1| |] eqn:E; [|done|done]. apply Hs in E as [[G _] _]. apply todo_mono in G.
    apply IH; [|lia]. intros. apply Hl. by right.
  Qed.
  Lemma zip_elem (l k : list nat) x y : (x, y) ∈ zip l k -> x ∈ l /\ y ∈ k.
  Proof. intros H. split; [by eapply elem_of_zip_l|by eapply elem_of_zip_r]. Qed.
  Lemma sig_terminates n f seen s fn skip : closed T R -> sound f -> terminates n f ->
    (forall u, u ∈ s_params s ++ s_results s -> u < length T) -> todo seen < n ->
    checkSignaturesMatch f R seen s fn skip <> OutOfFuel.
  Proof.
    intros [_ Hc] Hs Hf Hu Hn. unfold checkSignaturesMatch.
    destruct (r_kind (rnode R fn)) as [| | | |v ins outs| | | | |] eqn:Ek; try done.
    destruct (bool_decide (s_variadic s = v)); [|done]. cbn [negb].
    destruct (bool_decide (_ = length ins)); [|done]. cbn [negb]. destruct (bool_decide (_ = length outs)); [|done]. cbn [negb].
    assert (Hr : forall u, u ∈ ins ++ outs -> u < length R).
    { intros u Hin. apply (Hc fn). unfold r_refs. by rewrite Ek. }
    assert (Hd : forall u, u ∈ (if skip && s_recv s then drop 1 ins else ins) -> u < length R).
    { intros u Hin. apply Hr. apply elem_of_app. left. destruct (skip && s_recv s); [|done].
      by eapply elem_of_submseteq; [exact Hin|apply sublist_submseteq, sublist_drop]. }
    pose proof (check_list_terminates n f (zip (s_params s) (if skip && s_recv s then drop 1 ins else ins)) Hs Hf) as C1.
    destruct (check_list f _ seen) as [s1| |] eqn:E1.
    - apply check_list_sound in E1 as [[G _] _]; [|done]. apply todo_mono in G.
      apply (check_list_terminates n); [done|done| |lia]. intros t r [H1 H2]%zip_elem. split; [apply Hu|apply Hr]; set_solver.
    - done.
    - exfalso. eapply C1; [|exact Hn|exact E1]. intros t r [H1 H2]%zip_elem. split; [apply Hu; set_solver|by apply Hd].
  Qed.
  Lemma methods_terminate n f ms rms : closed T R -> sound f -> terminates n f ->
    (forall m u, m ∈ ms -> u ∈ s_params m.2 ++ s_results m.2 -> u < length T) ->
    forall seen, todo seen < n -> check_methods f R ms rms seen <> OutOfFuel.
  Proof.
    intros Hc Hs Hf. induction ms as [|[nm s] ms IH]; intros Hm seen Hn; simpl; [done|].
    destruct (method_by_name nm rms) as [fn|]; [|done].
    pose proof (sig_terminates n f seen s fn false Hc Hs Hf (fun u => Hm (nm, s) u ltac:(by left)) Hn) as C.
    destruct (checkSignaturesMatch f R seen s fn false) as [s1| |] eqn:E; [|done|done].
    apply sig_sound in E as [[G _] _]; [|done]. apply todo_mono in G. apply IH; [|lia]. intros m u ? ?. apply (Hm m); [by right|done].
  Qed.
  Lemma fields_terminate n f fs gs : sound f -> terminates n f ->
    (forall v, v ∈ fs -> f_type v < length T) -> (forall v, v ∈ gs -> f_type v < length R) ->
    forall seen, todo seen < n -> check_fields f fs gs seen <> OutOfFuel.
  Proof.
    intros Hs Hf. revert gs. induction fs as [|v fs IH]; intros [|g gs] Ht Hr seen Hn; simpl; try done.
    destruct (bool_decide (f_name v = f_name g)); [|done]. destruct (bool_decide (f_tag v = f_tag g)); [|done]. cbn [negb].
    pose proof (Hf seen (f_type v) (f_type g) ltac:(apply Ht; by left) ltac:(apply Hr; by left) Hn) as C.
    destruct (f seen (f_type v) (f_type g)) as [s1| |] eqn:E; [|done|done].
    apply Hs in E as [[G _] _]. apply todo_mono in G. apply IH; [| |lia]; intros; [apply Ht|apply Hr]; by right.
  Qed.
  Lemma check_terminates : closed T R -> forall fuel, terminates fuel (checkTypesMatch fuel T R).
  Proof.
    intros Hc. induction fuel as [|fuel IH]; intros seen t r Ht Hr Hn; [lia|]. cbn [checkTypesMatch].
    destruct (decide ((t, r) ∈ seen)) as [|Hin]; [done|]. pose proof (todo_add seen t r Ht Hr Hin) as Hlt.
    assert (Hn' : todo ({[(t, r)]} ∪ seen) < fuel) by lia. clear Hn Hlt.
    pose proof (check_sound fuel) as Hs. set (f := checkTypesMatch fuel T R) in *.
    pose proof (proj1 Hc t) as HT. pose proof (proj2 Hc r) as HR. unfold r_refs in HR.
    destruct (tnode T t) as [n e|[k|]|d e|ms|k e|nm u|e|s|e|fs|] eqn:Et; try done; cbn [t_refs] in HT.
    - destruct (r_kind (rnode R r)); try done. destruct (bool_decide _); [|done]. apply IH; [apply HT|apply HR|done]; set_solver.
    - by destruct (basic_matches _ _).
    - destruct (r_kind (rnode R r)); try done. destruct (dir_matches _ _); [|done]. apply IH; [apply HT|apply HR|done]; set_solver.
    - destruct (r_kind (rnode R r)); try done. destruct (bool_decide _); [|done].
      apply (methods_terminate fuel); [done..| |done]. intros m u Hm Hu. apply HT. apply elem_of_list_In, in_concat.
      exists (s_params m.2 ++ s_results m.2). rewrite <-!elem_of_list_In. split; [|done]. apply elem_of_list_fmap. eauto.
    - destruct (r_kind (rnode R r)); try done.
      pose proof (IH ({[(t, r)]} ∪ seen) k key ltac:(apply HT; set_solver) ltac:(apply HR; set_solver) Hn') as C.
      destruct (f ({[(t, r)]} ∪ seen) k key) as [s1| |] eqn:E; [|done|done].
      apply Hs in E as [[G _] _]. apply todo_mono in G. apply IH; [apply HT; set_solver|apply HR; set_solver|lia].
    - destruct (bool_decide _); [|done]. apply IH; [apply HT; set_solver|done|done].
    - destruct (r_kind (rnode R r)); try done. apply IH; [apply HT|apply HR|done]; set_solver.
    - apply (sig_terminates fuel); done.
    - destruct (r_kind (rnode R r)); try done. apply IH; [apply HT|apply HR|done]; set_solver.
    - destruct (r_kind (rnode R r)) as [| | | | | | | | |gs]; try done. destruct (bool_decide _); [|done].
      apply (fields_terminate fuel); [done|done| | |done]; intros v Hv; [apply HT|apply HR]; apply elem_of_list_fmap; eauto.
  Qed.
End proofs.

(** ** Together. *)
Lemma size_list_to_set_le (l : list (nat * nat)) : size (list_to_set l : gset (nat * nat)) <= length l.
Proof.
  induction l as [|x l IH]; [done|]. cbn [list_to_set length].
  change (size ({[x]} ∪ list_to_set l : gset (nat * nat)) <= S (length l)).
  rewrite size_union_alt, size_singleton.
  assert (size ((list_to_set l : gset (nat * nat)) ∖ {[x]}) <= size (list_to_set l : gset (nat * nat))) by (apply subseteq_size; set_solver). lia.
Qed.
Lemma todo_bound T R seen : todo T R seen <= length T * length R.
Proof.
  unfold todo. assert (size (all_pairs T R ∖ seen) <= size (all_pairs T R)) by (apply subseteq_size; set_solver).
  pose proof (size_list_to_set_le (list_prod (seq 0 (length T)) (seq 0 (length R)))) as H1.
  rewrite prod_length, !seq_length in H1. unfold all_pairs in *. lia.
Qed.

Lemma terminates_lem T R t r fuel : closed T R -> t < length T -> r < length R ->
  length T * length R < fuel -> checkTypesMatch fuel T R ∅ t r <> OutOfFuel.
Proof. intros Hc Ht Hr Hf. apply check_terminates; try done. pose proof (todo_bound T R ∅). lia. Qed.

Lemma sound_matching T R fuel t r seen : checkTypesMatch fuel T R ∅ t r = Ok seen -> matching T R (inn seen) /\ inn seen t r.
Proof. intros H. apply check_sound in H as [[_ G] Hin]. split; [|done]. intros t' r' H'. apply G; [done|set_solver]. Qed.

Lemma accepts_lem T R t r fuel : closed T R -> distinct_methods R -> t < length T -> r < length R ->
  length T * length R < fuel ->
  (same_structure T R t r -> exists seen, checkTypesMatch fuel T R ∅ t r = Ok seen) /\
  (~ same_structure T R t r -> checkTypesMatch fuel T R ∅ t r = Err).
Proof.
  intros Hc Hd Ht Hr Hf. pose proof (terminates_lem T R t r fuel Hc Ht Hr Hf) as Hterm. split.
  - intros (S & HS & Hst). pose proof (check_complete T R S fuel Hd HS ∅ t r Hst).
    destruct (checkTypesMatch fuel T R ∅ t r); [eauto|done|done].
  - intros Hn. destruct (checkTypesMatch fuel T R ∅ t r) as [seen| |] eqn:E; [|done|done].
    exfalso. apply Hn. apply sound_matching in E as [? ?]. by exists (inn seen).
Qed.
Lemma ok_iff T R t r fuel : closed T R -> distinct_methods R -> t < length T -> r < length R ->
  length T * length R < fuel ->
  ((exists seen, checkTypesMatch fuel T R ∅ t r = Ok seen) <-> same_structure T R t r).
Proof.
  intros Hc Hd Ht Hr Hf. split; [|by apply accepts_lem].
  intros (seen & H). apply sound_matching in H as [? ?]. by exists (inn seen).
Qed.

Lemma identical_same T R t r : identical T R t r -> same_structure T R t r.
Proof.
  intros (S & HS & Hst).
  set (S' := fun t r => S t r \/ exists t0 name, tnode T t0 = TNamed name t /\ S t0 r).
  assert (HSS : forall t r, S t r -> S' t r) by (intros; by left).
  exists S'. split; [|by left]. intros t1 r1 [H1|(t0 & name & En & H0)].
  - specialize (HS t1 r1 H1). unfold agrees.
    destruct (tnode T t1) as [n e|[k|]|d e|ms|k e|nm u|e|s|e|fs|] eqn:Et;
      try (destruct HS as [_ HS]; by eapply struct_agrees_mono).
    + destruct HS as [-> _]. done.
    + destruct HS as [-> HS]. split; [done|]. right. eauto.
    + destruct HS as (_ & -> & HS). by eapply sig_agrees_mono.
  - specialize (HS t0 r1 H0). rewrite En in HS. destruct HS as [_ HS]. unfold agrees.
    destruct (tnode T t1) as [n e|[k|]|d e|ms|k e|nm u|e|s|e|fs|] eqn:Et; try (by eapply struct_agrees_mono).
    + done.
    + destruct HS as [HS ->]. by eapply sig_agrees_mono.
Qed.

Lemma implements_lem T R methods lookup fuel : closed T R -> distinct_methods R ->
  (forall n s u, lookup n = Some (MFunc s) -> u ∈ s_params s ++ s_results s -> u < length T) ->
  length T * length R < fuel ->
  ((forall name fn, (name, fn) ∈ methods -> exists s S, lookup name = Some (MFunc s) /\
      matching T R S /\ sig_agrees R S s fn (if s_recv s then 1 else 0)) ->
    checkImplementsTarget fuel T R methods lookup = Some true) /\
  (~ (forall name fn, (name, fn) ∈ methods -> exists s S, lookup name = Some (MFunc s) /\
      matching T R S /\ sig_agrees R S s fn (if s_recv s then 1 else 0)) ->
    checkImplementsTarget fuel T R methods lookup = Some false).
Proof.
  intros Hc Hd Hu Hf. induction methods as [|[name fn] ms [IH1 IH2]]; simpl.
  - split; [done|]. intros H. exfalso. apply H. intros ? ? ?%elem_of_nil. done.
  - destruct (lookup name) as [[s|]|] eqn:El.
    + assert (Ht : checkSignaturesMatch (checkTypesMatch fuel T R) R ∅ s fn true <> OutOfFuel).
      { apply (sig_terminates T R fuel); [done|apply check_sound|by apply check_terminates|intros u; by apply (Hu name s u)|].
        pose proof (todo_bound T R ∅). lia. }
      destruct (checkSignaturesMatch (checkTypesMatch fuel T R) R ∅ s fn true) as [seen| |] eqn:E; [| |done].
      * eapply sig_sound in E as [[_ G] Hs]; [|apply check_sound].
        assert (HM : matching T R (inn seen)) by (intros t' r' H'; apply G; [done|set_solver]). split.
        -- intros H. apply IH1. intros. apply H. by right.
        -- intros H. apply IH2. intros H'. apply H. intros n' f' [[= -> ->]|Hin]%elem_of_cons; [|by apply H'].
           exists s, (inn seen). done.
      * split; [|done]. intros H. exfalso. destruct (H name fn ltac:(by left)) as (s' & S & E' & HM & Hs).
        rewrite El in E'. injection E' as <-.
        eapply (sig_complete R S (checkTypesMatch fuel T R) ∅ s fn true); [by apply check_complete|done|exact E].
    + split; [|done]. intros H. exfalso. destruct (H name fn ltac:(by left)) as (s' & S & E' & _). congruence.
    + split; [|done]. intros H. exfalso. destruct (H name fn ltac:(by left)) as (s' & S & E' & _). congruence.
Qed.

Lemma identical_lem T R t r fuel :
  closed T R -> distinct_methods R -> t < length T -> r < length R -> length T * length R < fuel ->
  identical T R t r -> exists seen, checkTypesMatch fuel T R ∅ t r = Ok seen.
Proof. intros ? ? ? ? ? ?. apply ok_iff; [done..|]. by apply identical_same. Qed.
