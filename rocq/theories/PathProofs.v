From stdpp Require Import base list strings.
From Verif Require Import PathModel PathSpec.
Local Open Scope list_scope.

(** ** Splitting and joining. *)
Lemma split_ne s : exists x xs, split s = x :: xs.
Proof. destruct s as [|c s]; simpl; [eauto|]. case_decide; [eauto|]. destruct (split s); eauto. Qed.

Lemma join_cons x y l : join (x :: y :: l) = x +:+ "/" +:+ join (y :: l).
Proof. done. Qed.

Lemma join_split s : join (split s) = s.
Proof.
  induction s as [|c s IH]; [done|]. simpl. destruct (split_ne s) as (x & xs & E). rewrite E in *.
  case_decide as Hc.
  - rewrite join_cons, IH. by subst.
  - destruct xs as [|y ys]; [simpl in *; by rewrite IH|].
    change (join (String c x :: y :: ys)) with (String c (join (x :: y :: ys))). by rewrite IH.
Qed.

(** No slash in a component. *)
Definition flat (c : string) : Prop := split c = [c].

Lemma flat_cons c s : flat (String c s) <-> c <> slash /\ flat s.
Proof.
  unfold flat. simpl. case_decide as Hc.
  - split; [|naive_solver]. intros H. destruct (split_ne s) as (x & xs & E). rewrite E in H. done.
  - destruct (split_ne s) as (x & xs & E). rewrite E. split; intros H; naive_solver.
Qed.
Lemma flat_nil : flat "". Proof. done. Qed.

Lemma split_flat s : Forall flat (split s).
Proof.
  induction s as [|c s IH]; simpl; [by repeat constructor|].
  case_decide; [by constructor|]. destruct (split s) as [|x xs]; [constructor; [by apply flat_cons|constructor]|].
  inversion IH as [|?? Hx Hxs]; subst. constructor; [|done]. by apply flat_cons.
Qed.

Lemma split_app_slash x s : flat x -> split (x +:+ "/" +:+ s) = x :: split s.
Proof.
  induction x as [|c x IH]; intros Hx.
  - done.
  - apply flat_cons in Hx as [Hc Hx].
    change (String c x +:+ "/" +:+ s) with (String c (x +:+ "/" +:+ s)). cbn [split].
    rewrite decide_False by done. by rewrite IH.
Qed.
Lemma split_join l : l <> [] -> Forall flat l -> split (join l) = l.
Proof.
  induction l as [|x l IH]; intros Hne Hf; [done|]. inversion Hf as [|?? Hx Hl]; subst.
  destruct l as [|y l]; [done|]. rewrite join_cons, split_app_slash by done. f_equal. by apply IH.
Qed.
Lemma split_mid a b : split (a +:+ "/" +:+ b) = split a ++ split b.
Proof.
  induction a as [|c a IH]; [done|]. change (String c a +:+ "/" +:+ b) with (String c (a +:+ "/" +:+ b)).
  cbn [split]. rewrite IH. case_decide; [done|].
  destruct (split_ne a) as (x & xs & ->). done.
Qed.
Lemma IsAbs_split s : IsAbs s = true <-> exists x xs, split s = "" :: x :: xs.
Proof.
  destruct s as [|c s]; simpl; [naive_solver|]. rewrite bool_decide_eq_true. split.
  - intros ->. rewrite decide_True by done. destruct (split_ne s) as (x & xs & ->). eauto.
  - intros (x & xs & E). case_decide as Hc; [done|]. by destruct (split s).
Qed.
Lemma IsAbs_app a b : a <> "" -> IsAbs (a +:+ b) = IsAbs a.
Proof. by destruct a. Qed.

(** ** Walks. *)
Definition skip (c : string) : Prop := c = "" \/ c = ".".
Lemma enter_skip l c : skip c -> enter l c = l.
Proof. intros H. unfold enter. by rewrite decide_True. Qed.
Lemma enter_filter cs l :
  fold_left enter (filter (fun c => c <> "" /\ c <> ".") cs) l = fold_left enter cs l.
Proof.
  revert l. induction cs as [|c cs IH]; intros l; [done|]. rewrite filter_cons. simpl.
  case_decide as Hc; simpl; [apply IH|]. rewrite enter_skip; [apply IH|].
  unfold skip. destruct (decide (c = "")); [by left|]. destruct (decide (c = ".")); [by right|]. naive_solver.
Qed.
Lemma cd_comps l p : cd l p = fold_left enter (comps p) (if IsAbs p then [] else l).
Proof. unfold cd, comps. by rewrite enter_filter. Qed.

(** Stacks built by [push]: names above a (relative paths only) run of "..". *)
Definition plain (c : string) : Prop := c <> "" /\ c <> "." /\ flat c.
Inductive stack_ok (rooted : bool) : list string -> Prop :=
  | stack_dots n : (rooted = true -> n = 0) -> stack_ok rooted (replicate n "..")
  | stack_name c st : plain c -> c <> ".." -> stack_ok rooted st -> stack_ok rooted (c :: st).

Lemma stack_ok_plain rooted st : stack_ok rooted st -> Forall plain st.
Proof.
  induction 1 as [n|c st Hc _ _ IH]; [|by constructor].
  apply Forall_forall. intros c Hc. apply elem_of_replicate in Hc as [-> _]. done.
Qed.
Lemma push_ok rooted st c : plain c -> stack_ok rooted st -> stack_ok rooted (push rooted st c).
Proof.
  intros Hc Hst. unfold push. case_decide as Hdd; [|by constructor]. subst.
  inversion Hst as [n Hn|x st' Hx Hx' Hst' E]; subst.
  - destruct n as [|n]; simpl.
    + destruct rooted; [apply (stack_dots true 0); done|]. by apply (stack_dots false 1).
    + apply (stack_dots rooted (S (S n))). intros H. specialize (Hn H). lia.
  - by rewrite decide_False.
Qed.
Lemma fold_push_ok rooted cs : forall st, Forall plain cs -> stack_ok rooted st ->
  stack_ok rooted (fold_left (push rooted) cs st).
Proof.
  induction cs as [|c cs IH]; intros st Hcs Hst; [done|]. inversion Hcs; subst. simpl.
  apply IH; [done|]. by apply push_ok.
Qed.
Lemma comps_plain s : Forall plain (comps s).
Proof.
  apply Forall_forall. intros c Hc. apply elem_of_list_filter in Hc as [[? ?] Hin].
  split; [done|]. split; [done|]. pose proof (split_flat s) as Hf. rewrite Forall_forall in Hf. by apply Hf.
Qed.
Lemma clean_stack_ok s : stack_ok (IsAbs s) (fold_left (push (IsAbs s)) (comps s) []).
Proof. apply fold_push_ok; [apply comps_plain|]. by apply (stack_dots _ 0). Qed.

(** Pushing a component and walking agree. *)
Definition walk (l : loc) (cs : list string) : loc := fold_left enter cs l.
Lemma walk_app l a b : walk l (a ++ b) = walk (walk l a) b.
Proof. apply fold_left_app. Qed.
Lemma enter_plain l c : plain c -> c <> ".." -> enter l c = c :: l.
Proof. intros (? & ? & _) ?. unfold enter. rewrite decide_False by naive_solver. by rewrite decide_False. Qed.
Lemma enter_dots l : enter l ".." = tail l.
Proof. done. Qed.

Lemma walk_push rooted l st c : plain c -> stack_ok rooted st -> (rooted = true -> l = []) ->
  walk l (reverse (push rooted st c)) = enter (walk l (reverse st)) c.
Proof.
  intros Hc Hst Hl. unfold push. case_decide as Hdd.
  - subst. inversion Hst as [n Hn|x st' Hx Hx' Hst' E]; subst.
    + destruct n as [|n]; simpl.
      * destruct rooted; [|done]. rewrite Hl by done. done.
      * rewrite reverse_cons, walk_app. done.
    + rewrite decide_False by done. rewrite reverse_cons, walk_app, enter_dots.
      unfold walk at 2. cbn [fold_left]. rewrite enter_plain by done. done.
  - rewrite reverse_cons, walk_app. done.
Qed.
Lemma walk_fold_push rooted l cs : (rooted = true -> l = []) -> forall st, Forall plain cs -> stack_ok rooted st ->
  walk l (reverse (fold_left (push rooted) cs st)) = walk (walk l (reverse st)) cs.
Proof.
  intros Hl. induction cs as [|c cs IH]; intros st Hcs Hst; [done|]. inversion Hcs; subst. simpl.
  rewrite IH; [|done|by apply push_ok]. by rewrite (walk_push rooted).
Qed.
Lemma walk_clean l s : (IsAbs s = true -> l = []) -> walk l (clean_comps s) = walk l (comps s).
Proof.
  intros Hl. unfold clean_comps. rewrite walk_fold_push; [done|done|apply comps_plain|].
  by apply (stack_dots _ 0).
Qed.

(** ** The cleaned string. *)
Lemma clean_comps_plain s : Forall plain (clean_comps s).
Proof. unfold clean_comps. apply Forall_reverse, (stack_ok_plain (IsAbs s)), clean_stack_ok. Qed.
Lemma plain_flat cs : Forall plain cs -> Forall flat cs.
Proof. intros H. eapply Forall_impl; [exact H|]. by intros c (_ & _ & ?). Qed.
Lemma filter_plain cs : Forall plain cs -> filter (fun c => c <> "" /\ c <> ".") cs = cs.
Proof.
  induction 1 as [|c cs (? & ? & _) _ IH]; [done|]. rewrite filter_cons. rewrite decide_True by done. by rewrite IH.
Qed.
Lemma comps_join cs : Forall plain cs -> comps (join cs) = cs.
Proof.
  intros H. unfold comps. destruct (decide (cs = [])) as [->|Hne]; [done|].
  rewrite split_join by (by try apply plain_flat). by apply filter_plain.
Qed.
Lemma IsAbs_join cs : Forall plain cs -> IsAbs (join cs) = false.
Proof.
  intros H. destruct (IsAbs (join cs)) eqn:E; [|done]. apply IsAbs_split in E as (x & xs & E).
  destruct (decide (cs = [])) as [->|Hne]; [done|]. rewrite split_join in E by (by try apply plain_flat).
  subst. inversion H as [|?? (? & _) _]. done.
Qed.
Lemma split_rooted s : split ("/" +:+ s) = "" :: split s.
Proof. done. Qed.
Lemma comps_rooted s : comps ("/" +:+ s) = comps s.
Proof. unfold comps. rewrite split_rooted, filter_cons. rewrite decide_False; [done|]. naive_solver. Qed.

Lemma IsAbs_Clean s : IsAbs (Clean s) = IsAbs s.
Proof.
  unfold Clean. destruct (IsAbs s) eqn:E; [done|]. case_decide; [done|]. apply IsAbs_join, clean_comps_plain.
Qed.
Lemma comps_Clean s : comps (Clean s) = clean_comps s.
Proof.
  unfold Clean. pose proof (clean_comps_plain s) as Hp. destruct (IsAbs s).
  - rewrite comps_rooted. by apply comps_join.
  - case_decide as Hc; [by rewrite Hc|]. by apply comps_join.
Qed.

(** A stack in normal form is left alone. *)
Lemma fold_push_stack rooted st : stack_ok rooted st -> fold_left (push rooted) (reverse st) [] = st.
Proof.
  induction 1 as [n Hn|c st Hc Hdd Hst IH].
  - rewrite reverse_replicate. destruct rooted; [by rewrite Hn|]. clear.
    assert (H : forall m, fold_left (push false) (replicate n "..") (replicate m "..") = replicate (n + m) "..").
    { induction n as [|n IH]; intros m; [done|]. simpl.
      assert (push false (replicate m "..") ".." = replicate (S m) "..") as -> by (by destruct m).
      rewrite IH. replace (n + S m) with (S (n + m)) by lia. done. }
    specialize (H 0). by rewrite Nat.add_0_r in H.
  - rewrite reverse_cons, fold_left_app, IH. simpl. unfold push. by rewrite decide_False.
Qed.
Lemma clean_comps_Clean s : clean_comps (Clean s) = clean_comps s.
Proof.
  unfold clean_comps at 1. rewrite comps_Clean, IsAbs_Clean. unfold clean_comps.
  f_equal. apply fold_push_stack, clean_stack_ok.
Qed.
Lemma Clean_idem s : Clean (Clean s) = Clean s.
Proof. unfold Clean at 1. rewrite clean_comps_Clean, IsAbs_Clean. done. Qed.

Lemma cd_Clean l s : cd l (Clean s) = cd l s.
Proof.
  rewrite !cd_comps, IsAbs_Clean, comps_Clean. destruct (IsAbs s) eqn:E.
  - by apply (walk_clean []).
  - apply (walk_clean l). by rewrite E.
Qed.

(** ** Join. *)
Lemma join_nonempty e elts : e <> "" -> join (e :: elts) = e +:+ (match elts with [] => "" | _ => "/" +:+ join elts end).
Proof. intros He. destruct elts; [|done]. clear. change (e = e +:+ ""). induction e as [|c e IH]; [done|].
  change (String c e = String c (e +:+ "")). by rewrite <-IH. Qed.

Lemma walk_split_join es l : walk l (split (join es)) = fold_left (fun l e => walk l (split e)) es l.
Proof.
  revert l. induction es as [|e es IH]; intros l; [done|]. destruct es as [|e' es]; [done|].
  rewrite join_cons, split_mid, walk_app, IH. done.
Qed.
Lemma walk_rel es l : Forall (fun e => IsAbs e = false) es ->
  fold_left (fun l e => walk l (split e)) es l = fold_left cd es l.
Proof.
  revert l. induction es as [|e es IH]; intros l H; [done|]. inversion H as [|?? He Hes]; subst. simpl.
  rewrite IH by done. f_equal. unfold cd. by rewrite He.
Qed.

Lemma Join_empty es : Join ("" :: es) = Join es.
Proof. done. Qed.
Lemma Join_ne e es : e <> "" -> Join (e :: es) = Clean (join (e :: es)).
Proof. intros He. cbn [Join]. by rewrite decide_False. Qed.
Lemma IsAbs_join_ne e es : e <> "" -> IsAbs (join (e :: es)) = IsAbs e.
Proof. intros He. rewrite join_nonempty by done. by rewrite IsAbs_app. Qed.

(** Join of any element followed by relative ones. *)
Lemma cd_Join_ne l e es : e <> "" -> Forall (fun e => IsAbs e = false) es ->
  cd l (Join (e :: es)) = fold_left cd es (cd l e).
Proof.
  intros He Hes. rewrite Join_ne, cd_Clean by done. unfold cd at 1. rewrite IsAbs_join_ne by done.
  pose proof (walk_split_join (e :: es) (if IsAbs e then [] else l)) as H. unfold walk at 1 in H. rewrite H.
  cbn [fold_left]. rewrite walk_rel by done. done.
Qed.
Lemma cd_Join l e es : Forall (fun e => IsAbs e = false) es ->
  cd l (Join (e :: es)) = fold_left cd es (cd l e).
Proof.
  intros Hes. destruct (decide (e = "")) as [->|He]; [|by apply cd_Join_ne].
  change (cd l "") with l. rewrite Join_empty. revert Hes. induction es as [|e es IH]; intros H; [done|].
  inversion H as [|?? He Hes]; subst. cbn [fold_left]. destruct (decide (e = "")) as [->|Hd].
  - rewrite Join_empty. by apply IH.
  - by apply cd_Join_ne.
Qed.

Lemma last_abs_spec elts :
  match last_abs elts with
  | Some l => exists es e es', elts = es ++ e :: es' /\ l = e :: es' /\ IsAbs e = true /\ Forall (fun e => IsAbs e = false) es'
  | None => Forall (fun e => IsAbs e = false) elts
  end.
Proof.
  induction elts as [|e elts IH]; simpl; [constructor|].
  destruct (last_abs elts) as [l|].
  - destruct IH as (es & e' & es' & -> & -> & ? & ?). by exists (e :: es), e', es'.
  - destruct (IsAbs e) eqn:E; [by exists [], e, elts|]. by constructor.
Qed.

Lemma cd_abs l l' e : IsAbs e = true -> cd l e = cd l' e.
Proof. intros H. unfold cd. by rewrite H. Qed.

Lemma joinpath_lem l top elts : cd l (JoinPath top elts) = fold_left cd elts (cd l top).
Proof.
  unfold JoinPath. pose proof (last_abs_spec elts) as H. destruct (last_abs elts) as [l0|].
  - destruct H as (es & e & es' & -> & -> & He & Hes). rewrite cd_Join by done.
    rewrite fold_left_app. simpl. f_equal. by apply cd_abs.
  - by rewrite cd_Join.
Qed.

Lemma Join_clean es : Join es = "" \/ clean (Join es).
Proof. induction es as [|e es IH]; simpl; [by left|]. case_decide; [done|]. right. apply Clean_idem. Qed.
Lemma Clean_ne s : Clean s <> "".
Proof.
  intros H. unfold Clean in H. destruct (IsAbs _); [done|]. case_decide as Hc; [done|].
  pose proof (clean_comps_plain s) as Hp. destruct (clean_comps s) as [|c cs]; [done|].
  inversion Hp as [|?? (Hc0 & _) _]; subst. destruct c; [done|]. by destruct cs.
Qed.
Lemma Join_nil es : Join es = "" <-> Forall (fun e => e = "") es.
Proof.
  induction es as [|e es IH]; [by split|]. destruct (decide (e = "")) as [->|He].
  - rewrite Join_empty, IH, Forall_cons. naive_solver.
  - rewrite Join_ne, Forall_cons by done. split; [|naive_solver]. intros H. by apply Clean_ne in H.
Qed.
Lemma Join_abs e es : IsAbs (Join (e :: es)) = if decide (e = "") then IsAbs (Join es) else IsAbs e.
Proof. case_decide; [by subst|]. by rewrite Join_ne, IsAbs_Clean, IsAbs_join_ne by done. Qed.
Lemma joinpath_clean top elts : JoinPath top elts = "" \/ clean (JoinPath top elts).
Proof. unfold JoinPath. destruct (last_abs elts); apply Join_clean. Qed.
Lemma joinpath_abs top elts :
  IsAbs (JoinPath top elts) = true <-> IsAbs top = true \/ exists e, e ∈ elts /\ IsAbs e = true.
Proof.
  unfold JoinPath. pose proof (last_abs_spec elts) as H. destruct (last_abs elts) as [l0|].
  - destruct H as (es & e & es' & -> & -> & He & Hes). rewrite Join_abs. rewrite decide_False by (by intros ->).
    split; [|done]. intros _. right. exists e. split; [|done]. apply elem_of_app. right. by left.
  - assert (Hj : IsAbs (Join elts) = false).
    { clear top. induction H as [|e es He Hes IH]; [done|]. rewrite Join_abs. by case_decide. }
    rewrite Join_abs. rewrite Forall_forall in H. split.
    + case_decide; [congruence|]. intros ?. by left.
    + intros [Ht|(e & He & Ha)].
      * by rewrite decide_False by (by intros ->).
      * rewrite H in Ha by done. done.
Qed.
