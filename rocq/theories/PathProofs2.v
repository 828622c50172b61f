From stdpp Require Import base list strings.
From Verif Require Import PathModel PathSpec PathProofs.
Local Open Scope list_scope.

Lemma name_plain c : name c -> plain c /\ c <> "..".
Proof. intros (? & ? & ? & ?). done. Qed.
Lemma names_plain cs : Forall name cs -> Forall plain cs.
Proof. intros H. eapply Forall_impl; [exact H|]. intros c Hc. by apply name_plain. Qed.
Lemma names_rev cs : Forall name cs -> Forall name (reverse cs).
Proof. apply Forall_reverse. Qed.

(** ** Joined lists of components. *)
Lemma comps_join_flat L : Forall flat L -> comps (join L) = filter (fun c => c <> "" /\ c <> ".") L.
Proof.
  intros H. unfold comps. destruct (decide (L = [])) as [->|Hne]; [done|]. by rewrite split_join.
Qed.
Lemma IsAbs_join_flat x y L : Forall flat (x :: y :: L) -> IsAbs (join (x :: y :: L)) = bool_decide (x = "").
Proof.
  intros H. apply eq_bool_prop_intro. rewrite !Is_true_true, bool_decide_eq_true, IsAbs_split.
  rewrite split_join by done. naive_solver.
Qed.

(** Pushing names. *)
Lemma fold_push_names b ds st : Forall name ds -> fold_left (push b) ds st = reverse ds ++ st.
Proof.
  intros H. revert st. induction H as [|c ds Hc _ IH]; intros st; [done|]. simpl.
  rewrite IH, reverse_cons, <-app_assoc. f_equal. unfold push. rewrite decide_False; [done|].
  by apply name_plain in Hc as [_ ?].
Qed.

(** An inside walk, pushed onto any stack. *)
Lemma push_inside b st cs : forall l l', Forall name l -> Forall flat cs -> inside l cs = Some l' ->
  fold_left (push b) (filter (fun c => c <> "" /\ c <> ".") cs) (l ++ st) = l' ++ st /\ Forall name l'.
Proof.
  induction cs as [|c cs IH]; intros l l' Hl Hcs Hin; [by simplify_eq/=|].
  inversion Hcs as [|?? Hc Hcs']; subst. rewrite filter_cons. cbn [inside] in Hin.
  destruct (decide (c = "" \/ c = ".")) as [Hsk|Hsk].
  - rewrite decide_False by naive_solver. by apply IH.
  - rewrite decide_True by naive_solver. cbn [fold_left]. unfold push at 2.
    destruct (decide (c = "..")) as [->|Hdd].
    + destruct l as [|x l]; [done|]. inversion Hl as [|?? Hx Hl']; subst. cbn [app].
      rewrite decide_False by (by apply name_plain in Hx as [_ ?]). by apply IH.
    + apply (IH (c :: l)); [|done|done]. constructor; [|done]. repeat split; naive_solver.
Qed.

(** ** Absolute paths are determined by their location. *)
Lemma stack_true_names st : stack_ok true st -> Forall name st.
Proof.
  induction 1 as [n Hn|c st Hc Hdd _ IH]; [rewrite Hn by done; constructor|]. constructor; [|done].
  destruct Hc as (? & ? & ?). done.
Qed.
Lemma walk_names ds l : Forall name ds -> walk l ds = reverse ds ++ l.
Proof.
  intros H. revert l. induction H as [|c ds Hc _ IH]; intros l; [done|]. unfold walk in *. simpl.
  rewrite IH, reverse_cons, <-app_assoc. f_equal. apply name_plain in Hc as [? ?]. by rewrite enter_plain.
Qed.
Lemma clean_comps_abs s : IsAbs s = true -> clean_comps s = reverse (cd [] s) /\ Forall name (cd [] s).
Proof.
  intros Ha. pose proof (clean_stack_ok s) as Hok. rewrite Ha in Hok. apply stack_true_names in Hok.
  assert (Hc : clean_comps s = reverse (fold_left (push true) (comps s) [])).
  { unfold clean_comps. by rewrite Ha. }
  rewrite cd_comps, Ha. change (fold_left enter (comps s) []) with (walk [] (comps s)).
  rewrite <-(walk_clean [] s) by done. rewrite Hc.
  rewrite walk_names by (by apply names_rev). rewrite app_nil_r, !reverse_involutive. done.
Qed.
Lemma Clean_abs s : IsAbs s = true -> Clean s = abs_path (cd [] s).
Proof. intros H. unfold Clean. rewrite H. destruct (clean_comps_abs s H) as [-> _]. done. Qed.

Lemma cd_names l ds : Forall name ds -> cd l (join ds) = reverse ds ++ l.
Proof.
  intros H. rewrite cd_comps, comps_join by (by apply names_plain).
  rewrite IsAbs_join by (by apply names_plain). by apply walk_names.
Qed.
Lemma cd_abs_path l l0 : Forall name l -> cd l0 (abs_path l) = l.
Proof.
  intros H. unfold abs_path. rewrite cd_comps, comps_rooted, comps_join by (by apply names_plain, names_rev).
  change (IsAbs ("/" +:+ join (reverse l))) with true. cbv iota.
  change (fold_left enter (reverse l) []) with (walk [] (reverse l)).
  rewrite walk_names by (by apply names_rev). by rewrite reverse_involutive, app_nil_r.
Qed.
Lemma IsAbs_abs_path l : IsAbs (abs_path l) = true. Proof. done. Qed.
Lemma abs_path_inj l l' : Forall name l -> Forall name l' -> abs_path l = abs_path l' -> l = l'.
Proof. intros H H' E. rewrite <-(cd_abs_path l []), <-(cd_abs_path l' []) by done. by rewrite E. Qed.
Lemma abs_path_clean l : Forall name l -> clean (abs_path l).
Proof. intros H. unfold clean. rewrite Clean_abs by done. by rewrite cd_abs_path. Qed.

(** ** Relative paths of names. *)
Lemma Clean_names ds : Forall name ds -> ds <> [] -> Clean (join ds) = join ds.
Proof.
  intros H Hne. unfold Clean. rewrite IsAbs_join by (by apply names_plain).
  assert (Hc : clean_comps (join ds) = ds).
  { unfold clean_comps. rewrite comps_join by (by apply names_plain).
    rewrite fold_push_names by done. by rewrite app_nil_r, reverse_involutive. }
  rewrite Hc. by rewrite decide_False.
Qed.
Lemma join_snoc ds c : ds <> [] -> join (ds ++ [c]) = join ds +:+ "/" +:+ c.
Proof.
  intros Hne. induction ds as [|d ds IH]; [done|]. destruct ds as [|d' ds]; [done|].
  change ((d :: d' :: ds) ++ [c]) with (d :: d' :: (ds ++ [c])). rewrite !join_cons.
  change (d' :: ds ++ [c]) with ((d' :: ds) ++ [c]). rewrite IH by done.
  generalize (join (d' :: ds)). intros r. clear. induction d as [|a d IH].
  - done.
  - change (String a (d +:+ "/" +:+ r +:+ "/" +:+ c) = String a ((d +:+ "/" +:+ r) +:+ "/" +:+ c)). by rewrite IH.
Qed.
Lemma join_names_ne ds : Forall name ds -> ds <> [] -> join ds <> "".
Proof.
  intros H Hne E. apply (f_equal comps) in E. rewrite comps_join in E by (by apply names_plain). done.
Qed.
Lemma reg_name_names ds T : Forall name ds -> name T -> reg_name (join ds) T = join (ds ++ [T]).
Proof.
  intros Hds HT. unfold reg_name. destruct (decide (ds = [])) as [->|Hne].
  - change (Join [join []; T]) with (Join [T]). rewrite Join_ne by (by destruct HT).
    change (join [T]) with (join ([] ++ [T])). apply Clean_names; [by constructor|done].
  - rewrite Join_ne by (by apply join_names_ne). change (join [join ds; T]) with (join ds +:+ "/" +:+ T).
    rewrite <-join_snoc by done. apply Clean_names; [|by destruct ds]. apply Forall_app. split; [done|]. by constructor.
Qed.
Lemma Dir_names ds T : Forall name ds -> name T ->
  Dir (join (ds ++ [T])) = if decide (ds = []) then "." else join ds.
Proof.
  intros Hds HT. assert (Hall : Forall name (ds ++ [T])) by (apply Forall_app; split; [done|by constructor]).
  unfold Dir. rewrite split_join; [|by destruct ds|by apply plain_flat, names_plain].
  rewrite removelast_last. case_decide as Hd; [by subst|].
  assert (Hf : Forall flat (ds ++ [""])).
  { apply Forall_app; split; [by apply plain_flat, names_plain|by repeat constructor]. }
  assert (Hc : comps (join (ds ++ [""])) = ds).
  { rewrite comps_join_flat by done. rewrite filter_app, filter_plain by (by apply names_plain).
    rewrite filter_cons, decide_False by naive_solver. by rewrite filter_nil, app_nil_r. }
  assert (Ha : IsAbs (join (ds ++ [""])) = false).
  { destruct ds as [|d ds]; [done|]. destruct ds as [|d' ds]; cbn [app] in *;
      rewrite IsAbs_join_flat by done; apply bool_decide_eq_false; inversion Hds as [|?? Hn]; by destruct Hn. }
  unfold Clean. rewrite Ha. assert (Hcc : clean_comps (join (ds ++ [""])) = ds).
  { unfold clean_comps. rewrite Hc, fold_push_names by done. by rewrite app_nil_r, reverse_involutive. }
  rewrite Hcc. by rewrite decide_False.
Qed.

(** ** Rel below the base. *)
Lemma rel_comps_below b x : rel_comps b (b ++ x) = Some x.
Proof. induction b as [|c b IH]; [done|]. simpl. by rewrite decide_True. Qed.
Lemma Rel_below base targ x : IsAbs base = IsAbs targ -> x <> [] ->
  clean_comps targ = clean_comps base ++ x -> Rel base targ = Some (join x).
Proof.
  intros Ha Hx Hc. unfold Rel. rewrite decide_False.
  2:{ intros E. apply (f_equal comps) in E. rewrite !comps_Clean, Hc in E.
      apply (f_equal length) in E. rewrite app_length in E. destruct x; [done|]. simpl in E. lia. }
  rewrite bool_decide_eq_false_2 by (rewrite !IsAbs_Clean; intros H; by apply H).
  assert (Htc : (if IsAbs (Clean targ) then clean_comps targ
          else if decide (Clean targ = ".") then ["."] else clean_comps targ) = clean_comps targ).
  { destruct (IsAbs (Clean targ)); [reflexivity|]. rewrite decide_False; [reflexivity|]. intros E.
    apply (f_equal comps) in E. rewrite comps_Clean, Hc in E. destruct (clean_comps base); [|done]. by destruct x. }
  rewrite Htc, Hc, rel_comps_below. done.
Qed.

(** ** The components of a Join. *)
Lemma Join_as_join es : (Forall (fun e => e = "") es) \/
  exists es0 e es', es = es0 ++ e :: es' /\ Forall (fun e => e = "") es0 /\ e <> "" /\ Join es = Clean (join (e :: es')).
Proof.
  induction es as [|e es IH]; [by left|]. destruct (decide (e = "")) as [->|He].
  - destruct IH as [IH|(es0 & e & es' & -> & H0 & He & E)]; [left; by constructor|]. right.
    exists ("" :: es0), e, es'. split; [done|]. split; [by constructor|]. split; [done|].
    rewrite Join_empty. done.
  - right. exists [], e, es. split; [done|]. split; [by constructor|]. split; [done|]. by apply Join_ne.
Qed.
Lemma comps_concat es : comps (join es) = concat (comps <$> es).
Proof.
  destruct es as [|e es]; [done|]. revert e. induction es as [|e' es IH]; intros e.
  - simpl. by rewrite app_nil_r.
  - rewrite join_cons. unfold comps at 1. rewrite split_mid, filter_app. cbn [fmap list_fmap concat].
    f_equal. apply (IH e').
Qed.
Lemma clean_comps_Join es : clean_comps (Join es) =
  reverse (fold_left (push (IsAbs (Join es))) (concat (comps <$> es)) []).
Proof.
  destruct (Join_as_join es) as [H|(es0 & e & es' & -> & H0 & He & E)].
  - assert (E : Join es = "") by (by apply Join_nil). rewrite E. unfold clean_comps. simpl.
    assert (Hc : concat (comps <$> es) = []) by (clear E; induction H as [|? ? -> _ IH]; [done|]; rewrite fmap_cons; cbn [concat]; by rewrite IH).
    by rewrite Hc.
  - rewrite E, clean_comps_Clean, IsAbs_Clean. unfold clean_comps. f_equal. f_equal.
    rewrite comps_concat, fmap_app, concat_app. clear E.
    induction H0 as [|? ? -> _ IH]; [done|]. exact IH.
Qed.
