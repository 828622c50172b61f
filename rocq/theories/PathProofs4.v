From stdpp Require Import base list strings.
From Verif Require Import PathModel PathSpec PathProofs PathProofs2 PathProofs3.
Local Open Scope list_scope.

Lemma walk_up (b : list string) : forall x l, length x = length b -> walk (x ++ l) ((fun _ => "..") <$> b) = l.
Proof.
  induction b as [|c b IH]; intros [|d x] l H; try done. cbn [fmap list_fmap app]. unfold walk in *. cbn [fold_left].
  apply (IH x). by injection H.
Qed.
Lemma walk_up_names (b : list string) l : walk (reverse b ++ l) ((fun _ => "..") <$> b) = l.
Proof. apply walk_up, reverse_length. Qed.
Lemma rel_comps_walk base : forall targ l, Forall name base ->
  exists r, rel_comps base targ = Some r /\ walk (reverse base ++ l) r = walk l targ /\
    (Forall flat targ -> Forall flat r) /\ (Forall (fun c => c <> "") targ -> Forall (fun c => c <> "") r) /\ (r = [] -> base = targ).
Proof.
  induction base as [|b base IH]; intros targ l Hb.
  - exists targ. by destruct targ.
  - inversion Hb as [|?? Hn Hb']; subst. destruct targ as [|t targ]; cbn [rel_comps].
    + eexists. split; [reflexivity|]. split; [apply walk_up_names|]. split; [|split; [|done]]; intros _.
      * apply Forall_fmap, Forall_true. done.
      * apply Forall_fmap, Forall_true. done.
    + destruct (decide (b = t)) as [->|Hne].
      * destruct (IH targ (t :: l) Hb') as (r & H1 & H2 & H3 & H4 & H5). exists r. split; [done|]. split; [|split; [|split]].
        -- rewrite reverse_cons, <-app_assoc. cbn [app]. rewrite H2. unfold walk. cbn [fold_left].
           apply name_plain in Hn as [? ?]. by rewrite enter_plain.
        -- intros Hf. inversion Hf; auto.
        -- intros Hf. inversion Hf; auto.
        -- intros Hr. f_equal. auto.
      * rewrite decide_False by (by apply name_plain in Hn as [_ ?]). eexists. split; [reflexivity|].
        split; [rewrite walk_app; by rewrite walk_up_names|]. split; [|split; [|done]]; intros Hf; apply Forall_app; (split; [|done]).
        -- apply Forall_fmap, Forall_true. done.
        -- apply Forall_fmap, Forall_true. done.
Qed.
Lemma cd_join_flat l r : r <> [] -> Forall flat r -> Forall (fun c => c <> "") r -> IsAbs (join r) = false /\ cd l (join r) = walk l r.
Proof.
  intros Hne Hf Hn. assert (Ha : IsAbs (join r) = false).
  { destruct r as [|x [|y r]]; [done| |].
    - simpl. inversion Hn; subst. inversion Hf; subst. destruct x as [|c x]; [done|]. simpl.
      apply bool_decide_eq_false. by apply flat_cons in H3 as [? _].
    - rewrite IsAbs_join_flat by done. apply bool_decide_eq_false. by inversion Hn. }
  split; [done|]. unfold cd. rewrite Ha, split_join by done. done.
Qed.

(** Where the relative path leads. *)
Lemma Rel_leads l base targ : Forall name (clean_comps base) -> IsAbs base = IsAbs targ ->
  exists r, Rel base targ = Some r /\ IsAbs r = false /\ cd (cd l base) r = cd l targ.
Proof.
  intros Hb Ha. unfold Rel. destruct (decide (Clean targ = Clean base)) as [E|Hne].
  { exists ".". split; [done|]. split; [done|]. rewrite <-(cd_Clean l targ), E, cd_Clean. done. }
  rewrite bool_decide_eq_false_2 by (rewrite !IsAbs_Clean; intros H; by apply H).
  set (tc := if IsAbs (Clean targ) then clean_comps targ
             else if decide (Clean targ = ".") then ["."] else clean_comps targ).
  assert (Htf : Forall flat tc /\ Forall (fun c => c <> "") tc).
  { assert (H : Forall flat (clean_comps targ) /\ Forall (fun c => c <> "") (clean_comps targ)).
    { pose proof (clean_comps_plain targ) as H. split; [by apply plain_flat|]. eapply Forall_impl; [exact H|]. by intros c (? & _). }
    unfold tc. destruct (IsAbs (Clean targ)); [done|]. destruct (decide _); [|done].
    split; apply Forall_singleton; done. }
  set (l0 := if IsAbs targ then [] else l).
  assert (Hw : walk l0 tc = cd l targ).
  { transitivity (walk l0 (comps targ)); [|symmetry; apply cd_comps].
    rewrite <-(walk_clean l0 targ) by (unfold l0; by intros ->). unfold tc.
    destruct (IsAbs (Clean targ)); [done|]. destruct (decide _) as [E|]; [|done].
    apply (f_equal comps) in E. rewrite comps_Clean in E. by rewrite E. }
  assert (Hcb : cd l base = reverse (clean_comps base) ++ l0).
  { rewrite <-walk_names by done. rewrite (walk_clean l0 base) by (rewrite Ha; unfold l0; by intros ->).
    rewrite cd_comps, Ha. reflexivity. }
  destruct (rel_comps_walk (clean_comps base) tc l0 Hb) as (r & Hr & Hwr & Hf & Hn & Hnil).
  destruct Htf as [Hf1 Hn1]. exists (join r). rewrite Hr. split; [done|].
  assert (Hrn : r <> []).
  { intros ->. apply Hne. specialize (Hnil eq_refl). apply Clean_eq; [done|]. unfold tc in Hnil.
    destruct (IsAbs (Clean targ)) eqn:Et; [done|]. destruct (decide _) as [E|]; [|done].
    exfalso. rewrite Hnil in Hb. inversion Hb as [|?? Hdot _]; subst. by destruct (proj1 (proj2 Hdot)).   }
  destruct (cd_join_flat (cd l base) r Hrn (Hf Hf1) (Hn Hn1)) as [H1 H2]. split; [done|].
  rewrite H2, Hcb, Hwr. done.
Qed.
Lemma inside_clean_names p l' : inside [] (split p) = Some l' -> IsAbs p = false -> Forall name (clean_comps p).
Proof.
  intros Hi Ha. destruct (push_inside (IsAbs p) [] (split p) [] l') as [H1 H2]; [constructor|apply split_flat|done|].
  unfold clean_comps, comps. cbn [app] in H1. rewrite H1, app_nil_r. by apply names_rev.
Qed.
Lemma relpath_lem l top p : IsAbs top = IsAbs p -> (IsAbs top = true \/ is_Some (inside [] (split top))) ->
  exists r, RelPath top p = Some r /\ IsAbs r = false /\ cd (cd l top) r = cd l p.
Proof.
  intros Ha H. apply Rel_leads; [|done]. destruct (IsAbs top) eqn:E.
  - destruct (clean_comps_abs top E) as [-> Hn]. by apply names_rev.
  - destruct H as [?|[l' ?]]; [done|]. by eapply inside_clean_names.
Qed.
