From stdpp Require Import base list strings.
From Verif Require Import PathModel PathSpec PathProofs PathProofs2 PathProofs3 TopDirModel TopDirSpec.
Local Open Scope list_scope.

Lemma names_stack l : Forall name l -> stack_ok true l.
Proof.
  induction 1 as [|c l Hc _ IH]; [by apply (stack_dots true 0)|]. apply name_plain in Hc as [? ?]. by constructor.
Qed.
Lemma abs_path_of l : abs_path l = path_of true (reverse l). Proof. done. Qed.
Lemma Dir_abs c l : Forall name (c :: l) -> Dir (abs_path (c :: l)) = abs_path l.
Proof. intros H. rewrite !abs_path_of. apply Dir_path_of. by apply names_stack. Qed.
Lemma Dir_root : Dir (abs_path []) = abs_path []. Proof. done. Qed.
Lemma filter_ne cs : Forall plain cs -> filter (fun c : string => c <> "") cs = cs.
Proof. induction 1 as [|c cs (? & _) _ IH]; [done|]. rewrite filter_cons, decide_True by done. by rewrite IH. Qed.
Lemma Base_abs c l : Forall name (c :: l) -> Base (abs_path (c :: l)) = c.
Proof.
  intros H. unfold Base. rewrite decide_False by done. rewrite abs_path_of.
  assert (Hp : Forall plain (reverse (c :: l))) by (by apply names_plain, names_rev).
  rewrite split_path_of; [|done|by rewrite reverse_cons; destruct (reverse l)].
  cbn [app]. rewrite filter_cons, decide_False by naive_solver. rewrite filter_ne by done.
  by rewrite reverse_cons, last_snoc.
Qed.
Lemma Join_abs_name l n : Forall name l -> name n -> Join [abs_path l; n] = abs_path (n :: l).
Proof.
  intros Hl Hn. rewrite Join_ne by done.
  assert (Ha : IsAbs (join [abs_path l; n]) = true) by done.
  rewrite Clean_abs by done. f_equal. rewrite <-cd_Clean, <-Join_ne by done.
  assert (IsAbs n = false).
  { destruct Hn as (? & ? & ? & Hs). destruct (IsAbs n) eqn:E; [|done]. apply IsAbs_split in E as (x & xs & E). congruence. }
  rewrite cd_Join by (by repeat constructor). cbn [fold_left]. rewrite cd_abs_path by done.
  pose proof (cd_names l [n]) as E. cbn [join] in E. rewrite E; [done|]. by constructor.
Qed.
Lemma name_fab : name "_fab". Proof. by repeat split. Qed.
Lemma name_yaml : name "fab.yaml". Proof. by repeat split. Qed.
Lemma name_yml : name "fab.yml". Proof. by repeat split. Qed.

Lemma clean_abs_form p : IsAbs p = true -> clean p -> p = abs_path (cd [] p) /\ Forall name (cd [] p).
Proof. intros Ha Hc. split; [by rewrite <-Clean_abs|]. by apply clean_comps_abs. Qed.
Lemma Abs_lem cwd dir p : (forall w, cwd = Some w -> IsAbs w = true) -> Abs cwd dir = Some p ->
  p = abs_path (cd [] p) /\ Forall name (cd [] p) /\
  forall w, cwd = Some w -> cd [] p = cd (cd [] w) dir.
Proof.
  intros Hw HA. unfold Abs in HA. destruct (IsAbs dir) eqn:E.
  - simplify_eq. destruct (clean_abs_form (Clean dir)) as [H1 H2]; [by rewrite IsAbs_Clean|apply Clean_idem|].
    split; [done|]. split; [done|]. intros w ->. rewrite cd_Clean. by apply cd_abs.
  - destruct cwd as [w|]; [|done]. change (Some (Join [w; dir]) = Some p) in HA. assert (p = Join [w; dir]) as -> by congruence. clear HA. specialize (Hw w eq_refl).
    assert (Hj : Join [w; dir] = Clean (join [w; dir])). { apply Join_ne. by intros ->. }
    assert (Ha : IsAbs (Join [w; dir]) = true). { rewrite Join_abs. rewrite decide_False; [done|]. by intros ->. }
    destruct (clean_abs_form (Join [w; dir])) as [H1 H2]; [done|unfold clean; rewrite Hj; apply Clean_idem|].
    split; [done|]. split; [done|]. intros w' [= <-]. rewrite cd_Join by (by repeat constructor). done.
Qed.

(** ** The _dir loop. *)
Lemma decl_loop_fuel od or : forall fuel decl dir,
  length (split dir) < fuel \/ ((dir = "." \/ dir = "/") /\ 1 <= fuel) ->
  decl_loop fuel od or decl dir <> OutOfFuel.
Proof.
  induction fuel as [|fuel IH]; intros decl dir H; [lia|]. cbn [decl_loop].
  case_decide; [done|]. case_decide as Hd; [done|]. case_decide; [done|]. apply IH.
  destruct H as [H|[[-> | ->] _]]; [|done|done].
  destruct (split_ne dir) as (x & xs & E). rewrite E in H. simpl in H.
  destruct (Dir_shorter dir) as [Hx|[Hx|Hx]].
  - right. split; [by left|lia].
  - right. split; [by right|lia].
  - left. rewrite E in Hx. simpl in Hx. lia.
Qed.

Lemma last_split_snoc p x : last (split p) = Some x -> exists pre, split p = pre ++ [x].
Proof. apply last_Some. Qed.
Lemma Dir_rel_spec decl pre c : IsAbs decl = false -> split decl = pre ++ [c] ->
  IsAbs (Dir decl) = false /\ (forall t, cd t (Dir decl) = walk t pre).
Proof.
  intros Ha Hs. unfold Dir. rewrite Hs, removelast_snoc.
  assert (Hf : Forall flat (pre ++ [""])).
  { pose proof (split_flat decl) as H. rewrite Hs in H. apply Forall_app in H as [? _].
    apply Forall_app; split; [done|by repeat constructor]. }
  assert (Hna : IsAbs (join (pre ++ [""])) = false).
  { destruct pre as [|x pre]; [done|]. destruct (IsAbs (join _)) eqn:E; [|done].
    apply IsAbs_split in E as (y & ys & E). rewrite split_join in E by done. simplify_eq/=.
    assert (IsAbs decl = true); [|congruence]. apply IsAbs_split. rewrite Hs. destruct pre; simpl; eauto. }
  split; [by rewrite IsAbs_Clean|]. intros t. rewrite cd_Clean. unfold cd. rewrite Hna, split_join by (by destruct pre).
  change (fold_left enter (pre ++ [""]) t) with (walk t (pre ++ [""])). rewrite walk_app. done.
Qed.
Lemma Clean_no_trailing s : IsAbs s = false -> no_trailing_slash (Clean s).
Proof.
  intros Ha. unfold no_trailing_slash. rewrite Clean_path_of, Ha.
  destruct (decide (clean_comps s = [])) as [->|Hne]; [done|].
  pose proof (clean_comps_plain s) as Hp. rewrite split_path_of by done. cbn [app].
  intros E. apply last_Some in E as (l' & E). rewrite E in Hp. apply Forall_app in Hp as [_ Hp].
  inversion Hp as [|?? (? & _)]. done.
Qed.
Lemma Base_no_trailing decl c pre : split decl = pre ++ [c] -> c <> "" -> Base decl = c.
Proof.
  intros Hs Hc. unfold Base. rewrite decide_False.
  - rewrite Hs, filter_app, (filter_cons _ c []), decide_True, filter_nil, last_snoc by done. done.
  - intros ->. change (split "") with ([] ++ [""]) in Hs. apply app_inj_tail in Hs as [_ <-]. done.
Qed.

Lemma decl_loop_sound od or : forall fuel decl l r, Forall name l -> IsAbs decl = false ->
  no_trailing_slash decl -> decl_loop fuel od or decl (abs_path l) = Ok r ->
  exists x t, x <> [] /\ l = x ++ t /\ r = abs_path t /\ cd t decl = l.
Proof.
  induction fuel as [|fuel IH]; intros decl l r Hl Ha Hnt H; [done|]. cbn [decl_loop] in H.
  case_decide as Hb; [done|]. case_decide as Hd; [done|].
  destruct l as [|c l]; [done|]. inversion Hl as [|?? Hc Hl']; subst.
  rewrite Base_abs in Hb by done. rewrite Dir_abs in H by done.
  assert (Hbase : Base decl = c) by (destruct (decide (Base decl = c)); [done|by exfalso]). clear Hb.
  assert (Hls : exists y, last (split decl) = Some y).
  { destruct (split_ne decl) as (y & ys & ->). destruct (last (y :: ys)) eqn:E; [eauto|]. by apply last_None in E. }
  destruct Hls as (y & Hy). apply last_split_snoc in Hy as Hs. destruct Hs as (pre & Hs).
  assert (Hy0 : y <> "") by (intros ->; by apply Hnt).
  assert (y = c) as -> by (rewrite <-Hbase; symmetry; by eapply Base_no_trailing). clear Hbase.
  destruct (Dir_rel_spec decl pre c Ha Hs) as [HDa HDc].
  assert (Hstep : forall t, walk t pre = l -> cd t decl = c :: l).
  { intros t Ht. unfold cd. rewrite Ha, Hs.
    change (fold_left enter (pre ++ [c]) t) with (walk t (pre ++ [c])). rewrite walk_app, Ht.
    unfold walk. cbn [fold_left]. apply name_plain in Hc as [? ?]. by apply enter_plain. }
  case_decide as Hdot.
  - simplify_eq. exists [c], l. split; [done|]. split; [done|]. split; [done|]. apply Hstep.
    rewrite <-HDc, Hdot. done.
  - apply IH in H as (x & t & Hx & -> & -> & Hcd); [|done|done|].
    + exists (c :: x), t. split; [done|]. split; [done|]. split; [done|]. apply Hstep. by rewrite <-HDc.
    + unfold Dir. apply Clean_no_trailing. unfold Dir in HDa. by rewrite IsAbs_Clean in HDa.
Qed.

Lemma decl_loop_complete od or t : forall rds fuel, Forall name rds -> Forall name t -> rds <> [] ->
  length rds <= fuel -> decl_loop fuel od or (join (reverse rds)) (abs_path (rds ++ t)) = Ok (abs_path t).
Proof.
  intros rds. induction rds as [|c rds IH]; intros fuel Hr Ht Hne Hf; [done|].
  destruct fuel as [|fuel]; [simpl in Hf; lia|]. cbn [decl_loop app].
  inversion Hr as [|?? Hc Hr']; subst.
  assert (Hall : Forall name (c :: rds ++ t)) by (constructor; [done|]; by apply Forall_app).
  rewrite Base_abs, Dir_abs by done. rewrite reverse_cons.
  assert (Hb : Base (join (reverse rds ++ [c])) = c).
  { eapply (Base_no_trailing _ _ (reverse rds)); [|by destruct Hc]. apply split_join; [by destruct (reverse rds)|].
    apply Forall_app; split; [by apply plain_flat, names_plain, names_rev|]. constructor; [|done]. by destruct Hc as (_ & _ & _ & ?). }
  rewrite Hb, decide_False by (intros H; by apply H).
  rewrite decide_False.
  2:{ intros E. apply abs_path_inj in E; [|by inversion Hall|done]. apply (f_equal length) in E. simpl in E. lia. }
  rewrite Dir_names by (done || by apply names_rev).
  destruct (decide (rds = [])) as [->|Hne'].
  - done.
  - assert (Hrne : reverse rds <> []).
    { intros E. apply (f_equal reverse) in E. by rewrite reverse_involutive in E. }
    rewrite (decide_False (P := reverse rds = [])) by done.
    rewrite decide_False.
    + apply IH; [done|done|done|]. simpl in Hf. lia.
    + intros E. apply (f_equal comps) in E. rewrite comps_join in E by (by apply names_plain, names_rev). done.
Qed.

(** ** The search. *)
Lemma top_loop_fuel decode fs : forall fuel dir,
  length (split dir) < fuel \/ ((dir = "." \/ dir = "/") /\ 1 <= fuel) ->
  top_loop fuel decode fs dir <> OutOfFuel.
Proof.
  induction fuel as [|fuel IH]; intros dir H; [lia|]. cbn [top_loop].
  assert (Hc : match topDirHelper decode fs dir with
        | Some r => r
        | None => if decide (Dir dir = dir) then ErrNotFound else top_loop fuel decode fs (Dir dir)
        end <> OutOfFuel).
  { destruct (topDirHelper decode fs dir) as [r|] eqn:E.
    - unfold topDirHelper in E. destruct (openFabYAML fs dir) as [[| | |c]| |]; simplify_eq; try done.
      destruct (decode c) as [[decl|]|]; try done. destruct (IsAbs decl); [done|].
      apply decl_loop_fuel. left. lia.
    - case_decide as Hd; [done|]. apply IH. destruct H as [H|[[-> | ->] _]]; [|done|done].
      destruct (split_ne dir) as (x & xs & Es). rewrite Es in H. simpl in H.
      destruct (Dir_shorter dir) as [Hx|[Hx|Hx]].
      + right. split; [by left|lia].
      + right. split; [by right|lia].
      + left. rewrite Es in Hx. simpl in Hx. lia. }
  by destruct (fs (Join [dir; "_fab"])).
Qed.
Lemma TopDir_terminates decode fs cwd dir : TopDir decode fs cwd dir <> OutOfFuel.
Proof. unfold TopDir. destruct (Abs cwd dir); [|done]. apply top_loop_fuel. left. lia. Qed.

Lemma open_spec fs l : Forall name l -> openFabYAML fs (abs_path l) =
  match entry_in fs l "fab.yaml" with
  | NotExist => match entry_in fs l "fab.yml" with NotExist => OpenNotExist | IOErr => OpenErr | e => Opened e end
  | IOErr => OpenErr
  | e => Opened e
  end.
Proof.
  intros Hl. unfold openFabYAML, open1, entry_in. rewrite !Join_abs_name by (done || apply name_yaml || apply name_yml).
  by destruct (fs (abs_path ("fab.yaml" :: l))).
Qed.

(** What one directory contributes. *)
Lemma helper_None decode fs l : Forall name l -> topDirHelper decode fs (abs_path l) = None ->
  entry_in fs l "fab.yaml" = NotExist /\ entry_in fs l "fab.yml" = NotExist.
Proof.
  intros Hl. unfold topDirHelper. rewrite open_spec by done.
  destruct (entry_in fs l "fab.yaml"); try done; destruct (entry_in fs l "fab.yml"); done.
Qed.
Lemma helper_Ok decode fs l r : Forall name l -> topDirHelper decode fs (abs_path l) = Some (Ok r) ->
  exists c d, yaml_file fs l c /\ decode c = Some d /\
    match d with
    | None => r = abs_path l
    | Some decl => IsAbs decl = false /\
        decl_loop (S (length (split (abs_path l)))) decl (abs_path l) decl (abs_path l) = Ok r
    end.
Proof.
  intros Hl. unfold topDirHelper. rewrite open_spec by done. unfold yaml_file.
  destruct (entry_in fs l "fab.yaml") as [| | |c] eqn:E1; try done.
  - destruct (entry_in fs l "fab.yml") as [| | |c] eqn:E2; try done.
    intros H. exists c. destruct (decode c) as [d|]; [|done]. exists d. split; [by right|]. split; [done|].
    destruct d as [decl|]; [|by simplify_eq]. destruct (IsAbs decl); [done|]. split; [done|]. congruence.
  - intros H. exists c. destruct (decode c) as [d|]; [|done]. exists d. split; [by left|]. split; [done|].
    destruct d as [decl|]; [|by simplify_eq]. destruct (IsAbs decl); [done|]. split; [done|]. congruence.
Qed.

Definition answer (decode : string -> option (option string)) (fs : fsys) (a : loc) (r : string) : Prop :=
  (has_fab fs a /\ r = abs_path a) \/
  exists c, yaml_file fs a c /\
    ((decode c = Some None /\ r = abs_path a) \/
     exists decl, decode c = Some (Some decl) /\ IsAbs decl = false /\
       (no_trailing_slash decl -> exists x t, x <> [] /\ a = x ++ t /\ r = abs_path t /\ cd t decl = a)).

Lemma top_loop_sound decode fs : forall fuel l r, Forall name l ->
  top_loop fuel decode fs (abs_path l) = Ok r ->
  exists closer a, l = closer ++ a /\
    (forall c1 c2, closer = c1 ++ c2 -> c2 <> [] -> unmarked fs (c2 ++ a)) /\ answer decode fs a r.
Proof.
  induction fuel as [|fuel IH]; intros l r Hl H; [done|]. cbn [top_loop] in H.
  rewrite Join_abs_name in H by (done || apply name_fab). change (fs (abs_path ("_fab" :: l))) with (entry_in fs l "_fab") in H.
  assert (Hcont : match topDirHelper decode fs (abs_path l) with
        | Some r => r
        | None => if decide (Dir (abs_path l) = abs_path l) then ErrNotFound else top_loop fuel decode fs (Dir (abs_path l))
        end = Ok r -> (entry_in fs l "_fab" = NotExist \/ exists c, entry_in fs l "_fab" = IsFile c) ->
     exists closer a, l = closer ++ a /\
    (forall c1 c2, closer = c1 ++ c2 -> c2 <> [] -> unmarked fs (c2 ++ a)) /\ answer decode fs a r).
  { intros H' Hnf. destruct (topDirHelper decode fs (abs_path l)) as [r'|] eqn:Eh.
    - subst r'. exists [], l. split; [done|]. split.
      { intros c1 c2 E. symmetry in E. by apply app_eq_nil in E as [_ ->]. }
      right. apply helper_Ok in Eh as (c & d & Hy & Hd & Hr); [|done]. exists c. split; [done|].
      destruct d as [decl|]; [|by left]. right. destruct Hr as [Ha Hr]. exists decl. split; [done|]. split; [done|].
      intros Hnt. eapply decl_loop_sound; [done|done|done|]. exact Hr.
    - apply helper_None in Eh as [Hy1 Hy2]; [|done]. case_decide as Hd; [done|].
      destruct l as [|c l]; [done|]. inversion Hl as [|?? Hc Hl']; subst.
      rewrite Dir_abs in H' by done. apply IH in H' as (closer & a & -> & Hun & Hans); [|done].
      exists (c :: closer), a. split; [done|]. split; [|done]. intros c1 c2 E Hne.
      destruct c1 as [|c0 c1]; simplify_eq/=; [|by eapply Hun].
      split; [done|]. split; [done|]. done. }
  destruct (entry_in fs l "_fab") as [| | |c] eqn:Ef; try done.
  - apply Hcont; [done|by left].
  - simplify_eq. exists [], l. split; [done|]. split.
    { intros c1 c2 E. symmetry in E. by apply app_eq_nil in E as [_ ->]. }
    left. done.
  - apply Hcont; [done|right; eauto].
Qed.

Lemma topdir_sound decode fs w dir r : IsAbs w = true -> TopDir decode fs (Some w) dir = Ok r ->
  exists closer a, cd (cd [] w) dir = closer ++ a /\
    (forall c1 c2, closer = c1 ++ c2 -> c2 <> [] -> unmarked fs (c2 ++ a)) /\ answer decode fs a r.
Proof.
  intros Hw H. unfold TopDir in H. destruct (Abs (Some w) dir) as [p|] eqn:E; [|done].
  apply Abs_lem in E as (Hp & Hn & Hcd); [|by intros ? [= <-]]. rewrite <-(Hcd w) by done.
  rewrite Hp in H. by apply top_loop_sound in H.
Qed.

Lemma names_len l : Forall name l -> length (split (abs_path l)) = S (max 1 (length l)).
Proof.
  intros H. destruct l as [|c l]; [done|]. rewrite abs_path_of, split_path_of.
  - rewrite app_length, reverse_length. simpl. lia.
  - by apply names_plain, names_rev.
  - rewrite reverse_cons. by destruct (reverse l).
Qed.
Lemma top_loop_skip decode fs : forall closer fuel a, Forall name (closer ++ a) ->
  (forall c1 c2, closer = c1 ++ c2 -> c2 <> [] -> unmarked fs (c2 ++ a)) ->
  top_loop (length closer + fuel) decode fs (abs_path (closer ++ a)) = top_loop fuel decode fs (abs_path a).
Proof.
  induction closer as [|c closer IH]; intros fuel a Hl Hun; [done|].
  cbn [app length Nat.add top_loop]. inversion Hl as [|?? Hc Hl']; subst.
  destruct (Hun [] (c :: closer)) as (H1 & H2 & H3); [done|done|].
  rewrite Join_abs_name by (done || apply name_fab).
  assert (Hh : topDirHelper decode fs (abs_path (c :: closer ++ a)) = None).
  { unfold topDirHelper. rewrite open_spec by done. cbn [app] in H1, H2. by rewrite H1, H2. }
  rewrite Hh, Dir_abs by done. rewrite decide_False.
  2:{ intros E. apply abs_path_inj in E; [|done|done]. apply (f_equal length) in E. simpl in E. lia. }
  rewrite IH; [|done|].
  - cbn [app] in H3. unfold entry_in in H3. destruct H3 as [-> | [? ->]]; done.
  - intros c1 c2 -> Hne. apply (Hun (c :: c1) c2); done.
Qed.

Lemma topdir_complete decode fs w dir closer a :
  IsAbs w = true -> cd (cd [] w) dir = closer ++ a ->
  (forall c1 c2, closer = c1 ++ c2 -> c2 <> [] -> unmarked fs (c2 ++ a)) ->
  (has_fab fs a -> TopDir decode fs (Some w) dir = Ok (abs_path a)) /\
  (forall c, (entry_in fs a "_fab" = NotExist \/ exists c, entry_in fs a "_fab" = IsFile c) -> yaml_file fs a c ->
     (decode c = Some None -> TopDir decode fs (Some w) dir = Ok (abs_path a)) /\
     (forall ds t, decode c = Some (Some (join ds)) -> Forall name ds -> ds <> [] -> a = reverse ds ++ t ->
        TopDir decode fs (Some w) dir = Ok (abs_path t))).
Proof.
  intros Hw Hcd Hun.
  assert (Hp : exists p, Abs (Some w) dir = Some p).
  { unfold Abs. destruct (IsAbs dir); simpl; eauto. }
  destruct Hp as (p & Hp). pose proof Hp as Hp'. apply Abs_lem in Hp' as (E & Hn & Hc); [|by intros ? [= <-]].
  rewrite (Hc w) in E, Hn by done. rewrite Hcd in E, Hn. clear Hc.
  pose proof Hn as Hna. apply Forall_app in Hna as [_ Hna].
  assert (HT : exists n, TopDir decode fs (Some w) dir = top_loop (S n) decode fs (abs_path a)).
  { unfold TopDir. rewrite Hp, E. rewrite names_len by done.
    exists (S (max 1 (length (closer ++ a))) - length closer).
    replace (S (S (max 1 (length (closer ++ a))))) with
      (length closer + S (S (max 1 (length (closer ++ a))) - length closer)) by (rewrite app_length; lia).
    by apply top_loop_skip. }
  destruct HT as (n & ->). cbn [top_loop]. rewrite Join_abs_name by (done || apply name_fab).
  change (fs (abs_path ("_fab" :: a))) with (entry_in fs a "_fab").
  split; [by intros ->|]. intros c Hnf Hy.
  assert (Hh : topDirHelper decode fs (abs_path a) = Some
    match decode c with
           | None => ErrYAML (abs_path a)
           | Some None => Ok (abs_path a)
           | Some (Some decl) =>
               if IsAbs decl then ErrAbsDecl decl (abs_path a)
               else decl_loop (S (length (split (abs_path a)))) decl (abs_path a) decl (abs_path a)
           end).
  { unfold topDirHelper. rewrite open_spec by done. destruct Hy as [-> | [-> ->]]; done. }
  rewrite Hh.
  split.
  - intros ->. by destruct Hnf as [-> | [? ->]].
  - intros ds t -> Hds Hne ->. rewrite IsAbs_join by (by apply names_plain).
    apply Forall_app in Hna as [Hd1 Ht].
    assert (Hl : decl_loop (S (length (split (abs_path (reverse ds ++ t))))) (join ds) (abs_path (reverse ds ++ t))
      (join ds) (abs_path (reverse ds ++ t)) = Ok (abs_path t)).
    { pose proof (decl_loop_complete (join ds) (abs_path (reverse ds ++ t)) t (reverse ds)
        (S (length (split (abs_path (reverse ds ++ t)))))) as Hdl.
      rewrite (reverse_involutive ds) in Hdl. apply Hdl; [done|done| |].
      - intros Er. apply (f_equal reverse) in Er. by rewrite reverse_involutive in Er.
      - rewrite names_len by (by apply Forall_app). rewrite app_length. lia. }
    rewrite Hl. by destruct Hnf as [-> | [? ->]].
Qed.
