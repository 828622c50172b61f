From stdpp Require Import base gmap list strings.
From Verif Require Import PathModel PathSpec PathProofs PathProofs2 FindModel.
Local Open Scope list_scope.

(** ** C29 *)
Lemma Clean_eq a b : IsAbs a = IsAbs b -> clean_comps a = clean_comps b -> Clean a = Clean b.
Proof. intros Ha Hc. unfold Clean. by rewrite Ha, Hc. Qed.

Lemma JoinPath_rel top D r : IsAbs D = false -> IsAbs r = false -> JoinPath top [D; r] = Join [top; D; r].
Proof. intros H1 H2. unfold JoinPath, last_abs. by rewrite H1, H2. Qed.
Lemma Join_abs_rel es : Forall (fun e => IsAbs e = false) es -> IsAbs (Join es) = false.
Proof. induction 1 as [|e es He _ IH]; [done|]. rewrite Join_abs. by case_decide. Qed.
Lemma Join_abs_top top es : Forall (fun e => IsAbs e = false) es -> IsAbs (Join (top :: es)) = IsAbs top.
Proof.
  intros H. rewrite Join_abs. case_decide as E; [|done]. subst. by apply Join_abs_rel.
Qed.

Lemma key_inside top D r ds T : Forall name ds -> name T -> IsAbs D = false -> IsAbs r = false ->
  inside [] (split D ++ split r) = Some (T :: reverse ds) ->
  Rel top (JoinPath top [D; r]) = Some (join (ds ++ [T])).
Proof.
  intros Hds HT HD Hr Hin. rewrite JoinPath_rel by done.
  assert (Ha : IsAbs (Join [top; D; r]) = IsAbs top) by (apply Join_abs_top; by repeat constructor).
  apply Rel_below; [by rewrite Ha|by destruct ds|]. rewrite clean_comps_Join, Ha.
  rewrite !fmap_cons, fmap_nil. cbn [concat]. rewrite app_nil_r, fold_left_app.
  unfold comps at 1 2. rewrite <-filter_app.
  destruct (push_inside (IsAbs top) (fold_left (push (IsAbs top)) (comps top) []) (split D ++ split r) [] (T :: reverse ds))
    as [E _]; [constructor|apply Forall_app; split; apply split_flat|done|].
  cbn [app] in E. rewrite E. unfold clean_comps.
  rewrite app_comm_cons, reverse_app, reverse_cons, reverse_involutive. done.
Qed.

Lemma key_abs top D r ds T : IsAbs top = true -> Forall name ds -> name T ->
  cd (cd (cd [] top) D) r = T :: reverse ds ++ cd [] top ->
  Rel top (JoinPath top [D; r]) = Some (join (ds ++ [T])).
Proof.
  intros Htop Hds HT Hcd.
  assert (Ha : IsAbs (JoinPath top [D; r]) = true) by (apply joinpath_abs; by left).
  apply Rel_below; [by rewrite Ha|by destruct ds|].
  destruct (clean_comps_abs _ Ha) as [-> _]. destruct (clean_comps_abs _ Htop) as [-> _].
  rewrite joinpath_lem. cbn [fold_left]. rewrite Hcd.
  rewrite app_comm_cons, reverse_app, reverse_cons, reverse_involutive. done.
Qed.

Lemma file_dir_names top ds : Forall name ds ->
  file_dir top (if decide (ds = []) then "." else join ds) = Some (join ds).
Proof.
  intros Hds. unfold file_dir. case_decide as Hd.
  - subst. assert (E : Clean (Join [top; "."]) = Clean top).
    { assert (Ha : IsAbs (Join [top; "."]) = IsAbs top) by (apply Join_abs_top; by repeat constructor).
      apply Clean_eq; [done|]. rewrite clean_comps_Join, Ha, !fmap_cons, fmap_nil. cbn [concat].
      change (comps ".") with (@nil string). rewrite !app_nil_r. done. }
    unfold Rel. rewrite E. rewrite decide_True by done. done.
  - assert (Hj : IsAbs (join ds) = false) by (by apply IsAbs_join, names_plain).
    assert (Ha : IsAbs (Join [top; join ds]) = IsAbs top) by (apply Join_abs_top; by repeat constructor).
    rewrite (Rel_below top (Join [top; join ds]) ds); [|by rewrite Ha|done|].
    + rewrite decide_False; [done|]. intros E. apply (f_equal comps) in E.
      rewrite comps_join in E by (by apply names_plain). done.
    + rewrite clean_comps_Join, Ha, !fmap_cons, fmap_nil. cbn [concat].
      rewrite comps_join by (by apply names_plain). rewrite app_nil_r, fold_left_app, fold_push_names by done.
      by rewrite reverse_app, reverse_involutive.
Qed.

Lemma ref_inside_lem top D r ds T : Forall name ds -> name T ->
  has_slash r = true -> IsAbs D = false -> IsAbs r = false ->
  inside [] (split D ++ split r) = Some (T :: reverse ds) ->
  exists key, ref_key top D r = Some key /\
    exists dir, file_dir top (Dir key) = Some dir /\ dir = join ds /\ reg_name dir T = key.
Proof.
  intros Hds HT Hs HD Hr Hin. exists (join (ds ++ [T])). unfold ref_key, RelPath. rewrite Hs.
  split; [by apply key_inside|]. exists (join ds). rewrite Dir_names by done.
  split; [by apply file_dir_names|]. split; [done|]. by apply reg_name_names.
Qed.
Lemma ref_abs_lem top D r ds T : IsAbs top = true -> Forall name ds -> name T ->
  has_slash r = true ->
  cd (cd (cd [] top) D) r = T :: reverse ds ++ cd [] top ->
  exists key, ref_key top D r = Some key /\
    exists dir, file_dir top (Dir key) = Some dir /\ dir = join ds /\ reg_name dir T = key.
Proof.
  intros Htop Hds HT Hs Hin. exists (join (ds ++ [T])). unfold ref_key, RelPath. rewrite Hs.
  split; [by apply key_abs|]. exists (join ds). rewrite Dir_names by done.
  split; [by apply file_dir_names|]. split; [done|]. by apply reg_name_names.
Qed.

(** ** C23: the search. *)
Definition path_of (b : bool) (cs : list string) : string :=
  if b then "/" +:+ join cs else if decide (cs = []) then "." else join cs.
Lemma Clean_path_of s : Clean s = path_of (IsAbs s) (clean_comps s).
Proof. done. Qed.

Lemma comps_Dir_arg s : comps (join (removelast (split s) ++ [""])) =
  filter (fun c => c <> "" /\ c <> ".") (removelast (split s)).
Proof.
  rewrite comps_join_flat.
  - rewrite filter_app, filter_cons, decide_False by naive_solver. by rewrite filter_nil, app_nil_r.
  - apply Forall_app. split; [|by repeat constructor].
    pose proof (split_flat s) as H. destruct (split_ne s) as (x & xs & E).
    rewrite (app_removelast_last "" (l := split s)) in H by (by rewrite E).
    by apply Forall_app in H as [? _].
Qed.
Lemma removelast_length {A} (l : list A) : l <> [] -> length (removelast l) = pred (length l).
Proof.
  intros H. destruct l as [|x l]; [done|]. revert x H. induction l as [|y l IH]; intros x H; [done|].
  change (removelast (x :: y :: l)) with (x :: removelast (y :: l)).
  change (S (length (removelast (y :: l))) = pred (length (x :: y :: l))). rewrite IH by done. done.
Qed.
Lemma push_length b st c : length (push b st c) <= S (length st).
Proof. unfold push. repeat case_decide; destruct st as [|x st]; repeat case_match; simpl; lia. Qed.
Lemma fold_push_length b cs : forall st, length (fold_left (push b) cs st) <= length cs + length st.
Proof.
  induction cs as [|c cs IH]; intros st; simpl; [lia|]. specialize (IH (push b st c)).
  pose proof (push_length b st c). lia.
Qed.
Lemma clean_comps_length s : length (clean_comps s) <= length (comps s).
Proof.
  unfold clean_comps. rewrite reverse_length. pose proof (fold_push_length (IsAbs s) (comps s) []). simpl in *. lia.
Qed.
Lemma split_path_of b cs : Forall plain cs -> cs <> [] ->
  split (path_of b cs) = (if b then [""] else []) ++ cs.
Proof.
  intros H Hne. unfold path_of. destruct b.
  - rewrite split_rooted, split_join; [done|done|by apply plain_flat].
  - rewrite decide_False by done. rewrite split_join; [done|done|by apply plain_flat].
Qed.
Lemma filter_removelast (l : list string) x y : l = x :: y ->
  length (filter (fun c => c <> "" /\ c <> ".") (removelast l)) <= length y.
Proof.
  intros ->. etransitivity; [apply filter_length|]. rewrite removelast_length by done. simpl. lia.
Qed.

(** Going up shortens the path, or the search stops. *)
Lemma Dir_shorter s : Dir s = "." \/ Dir s = "/" \/ length (split (Dir s)) < length (split s).
Proof.
  unfold Dir. set (a := join (removelast (split s) ++ [""])).
  rewrite Clean_path_of. pose proof (clean_comps_length a) as Hl. pose proof (clean_comps_plain a) as Hp.
  destruct (decide (clean_comps a = [])) as [E|Hne].
  { rewrite E. destruct (IsAbs a); [by right; left|by left]. }
  right; right. rewrite split_path_of by done. rewrite app_length.
  assert (Hcs : comps a = filter (fun c => c <> "" /\ c <> ".") (removelast (split s))) by apply comps_Dir_arg.
  destruct (split_ne s) as (x & xs & E).
  destruct (IsAbs a) eqn:Ha.
  - (* rooted: the first component is empty *)
    assert (Hx : exists xs', removelast (split s) = "" :: xs' /\ length xs' < length xs).
    { rewrite E. destruct xs as [|y ys].
      - exfalso. apply IsAbs_split in Ha as (z & zs & Ez). unfold a in Ez. by rewrite E in Ez.
      - change (removelast (x :: y :: ys)) with (x :: removelast (y :: ys)).
        exists (removelast (y :: ys)). split; [|rewrite removelast_length by done; simpl; lia].
        f_equal. apply IsAbs_split in Ha as (z & zs & Ez). unfold a in Ez. rewrite E in Ez.
        change (removelast (x :: y :: ys)) with (x :: removelast (y :: ys)) in Ez.
        rewrite split_join in Ez; [|done|].
        + cbn [app] in Ez. by injection Ez.
        + pose proof (split_flat s) as Hf. rewrite E in Hf. inversion Hf as [|?? Hfx Hf']; subst.
          cbn [app]. constructor; [done|]. apply Forall_app. split; [|by repeat constructor].
          rewrite (app_removelast_last "" (l := y :: ys)) in Hf' by done. by apply Forall_app in Hf' as [? _]. }
    destruct Hx as (xs' & Ex & Hlt). rewrite Ex, filter_cons, decide_False in Hcs by naive_solver.
    rewrite Hcs in Hl. pose proof (filter_length (fun c : string => c <> "" /\ c <> ".") xs') as Hfl.
    rewrite E. simpl. lia.
  - rewrite Hcs in Hl. pose proof (filter_removelast _ _ _ E). rewrite E. simpl. lia.
Qed.
Lemma find_loop_fuel fuel reg name : length (split name) < fuel -> find_loop fuel reg name <> FindOutOfFuel.
Proof.
  revert name. induction fuel as [|fuel IH]; intros name Hlt; [lia|]. simpl.
  destruct (reg !! name); [done|]. case_decide as Hd; [done|]. apply IH.
  destruct (Dir_shorter name) as [E|[E|Hs]]; [naive_solver|naive_solver|lia].
Qed.
Lemma find_terminates reg name : findInFilesRegistry reg name <> FindOutOfFuel.
Proof. apply find_loop_fuel. lia. Qed.

(** For clean paths the search visits exactly the ancestors. *)
Lemma stack_ok_tail b c st : stack_ok b (c :: st) -> stack_ok b st.
Proof.
  intros H. inversion H as [n Hn E|]; subst; [|done]. destruct n as [|n]; [done|]. simpl in E. simplify_eq.
  apply stack_dots. intros Hb. specialize (Hn Hb). lia.
Qed.
Lemma stack_ok_fix b st : stack_ok b st -> fold_left (push b) (reverse st) [] = st.
Proof. apply fold_push_stack. Qed.
Lemma IsAbs_path_of b cs : Forall plain cs -> IsAbs (path_of b cs) = b.
Proof. intros H. unfold path_of. destruct b; [done|]. case_decide; [done|]. by apply IsAbs_join. Qed.

Lemma removelast_snoc {A} (l : list A) x : removelast (l ++ [x]) = l.
Proof. apply removelast_last. Qed.
Lemma IsAbs_plain_snoc cs : Forall plain cs -> IsAbs (join (cs ++ [""])) = false.
Proof.
  intros H. destruct cs as [|c cs]; [done|]. destruct (IsAbs _) eqn:E; [|done]. exfalso.
  apply IsAbs_split in E as (x & xs & E). rewrite split_join in E; [|done|].
  - inversion H as [|?? (Hc & _) _]; subst. by simplify_eq/=.
  - apply Forall_app; split; [by apply plain_flat|by repeat constructor].
Qed.
Lemma Dir_path_of b c st : stack_ok b (c :: st) ->
  Dir (path_of b (reverse (c :: st))) = path_of b (reverse st).
Proof.
  intros Hst. pose proof (stack_ok_tail _ _ _ Hst) as Hst'.
  assert (Hp : Forall plain (reverse (c :: st))) by (by apply Forall_reverse, (stack_ok_plain b)).
  assert (Hp' : Forall plain (reverse st)) by (by apply Forall_reverse, (stack_ok_plain b)).
  unfold Dir. rewrite split_path_of; [|done|by rewrite reverse_cons; destruct (reverse st)].
  rewrite reverse_cons, app_assoc, removelast_snoc, Clean_path_of.
  set (a := join (((if b then [""] else []) ++ reverse st) ++ [""])).
  assert (Hf : Forall flat (((if b then [""] else []) ++ reverse st) ++ [""])).
  { repeat (apply Forall_app; split); [destruct b; by repeat constructor|by apply plain_flat|by repeat constructor]. }
  assert (Ha : IsAbs a = b).
  { unfold a. destruct b; cbn [app].
    - destruct (reverse st ++ [""]) as [|x xs] eqn:E; [by destruct (reverse st)|].
      apply IsAbs_split. exists x, xs. rewrite split_join; [done|done|]. rewrite <-E. done.
    - by apply IsAbs_plain_snoc. }
  assert (Hc : comps a = reverse st).
  { unfold a. rewrite comps_join_flat by done. rewrite !filter_app, (filter_plain (reverse st)) by done.
    rewrite (filter_cons _ "" []), decide_False, filter_nil, app_nil_r by naive_solver.
    destruct b; [|done]. by rewrite (filter_cons _ "" []), decide_False, filter_nil by naive_solver. }
  rewrite Ha. f_equal. unfold clean_comps. rewrite Ha, Hc, stack_ok_fix by done. done.
Qed.

Lemma path_of_inj b cs cs' : Forall plain cs -> Forall plain cs' -> path_of b cs = path_of b cs' -> cs = cs'.
Proof.
  intros H H' E. apply (f_equal comps) in E. revert E. unfold path_of. destruct b.
  - rewrite !comps_rooted, !comps_join by done. done.
  - repeat case_decide; subst; try rewrite !comps_join by done; try done.
Qed.

(** Result of the search from a stack, in terms of its suffixes. *)
Lemma find_loop_stack b reg : forall st fuel, stack_ok b st -> st <> [] ->
  length (split (path_of b (reverse st))) < fuel ->
  match find_loop fuel reg (path_of b (reverse st)) with
  | Found f => exists k, 1 <= k <= length st /\ reg !! path_of b (take k (reverse st)) = Some f /\
      forall j, k < j <= length st -> reg !! path_of b (take j (reverse st)) = None
  | NotFound => forall k, 1 <= k <= length st -> reg !! path_of b (take k (reverse st)) = None
  | FindOutOfFuel => False
  end.
Proof.
  intros st. induction st as [|c st IH]; intros fuel Hst Hne Hlt; [done|].
  destruct fuel as [|fuel]; [lia|]. cbn [find_loop].
  pose proof (stack_ok_tail _ _ _ Hst) as Hst'.
  assert (Hp : Forall plain (reverse (c :: st))) by (by apply Forall_reverse, (stack_ok_plain b)).
  assert (Hp' : Forall plain (reverse st)) by (by apply Forall_reverse, (stack_ok_plain b)).
  assert (Hfull : take (length (c :: st)) (reverse (c :: st)) = reverse (c :: st)).
  { apply take_ge. by rewrite reverse_length. }
  assert (Htk : forall k, k <= length st -> take k (reverse (c :: st)) = take k (reverse st)).
  { intros k Hk. rewrite reverse_cons. apply take_app_le. by rewrite reverse_length. }
  destruct (reg !! path_of b (reverse (c :: st))) as [f|] eqn:Hreg.
  { exists (length (c :: st)). rewrite Hfull. split; [simpl; lia|]. split; [done|]. intros j Hj. lia. }
  rewrite Dir_path_of by done. destruct (decide (st = [])) as [->|Hne'].
  - rewrite decide_True by (destruct b; [right; right; left|right; left]; done).
    intros k Hk. simpl in Hk. assert (k = 1) as -> by lia.
    change (take 1 (reverse [c])) with (reverse [c]). done.
  - rewrite decide_False.
    2:{ intros Hd. assert (Hc0 : comps (path_of b (reverse st)) = reverse st).
        { unfold path_of. destruct b; [by rewrite comps_rooted, comps_join|].
          rewrite decide_False; [by rewrite comps_join|]. intros E. apply (f_equal reverse) in E. by rewrite reverse_involutive in E. }
        assert (Hnr : reverse st <> []).
        { intros E. apply (f_equal reverse) in E. by rewrite reverse_involutive in E. }
        destruct Hd as [E|[E|[E|E]]].
        - rewrite E in Hc0. by rewrite <-Hc0 in Hnr.
        - rewrite E in Hc0. by rewrite <-Hc0 in Hnr.
        - rewrite E in Hc0. by rewrite <-Hc0 in Hnr.
        - apply path_of_inj in E; [|done|done]. apply (f_equal length) in E. rewrite !reverse_length in E. simpl in E. lia. }
    assert (Hlt' : length (split (path_of b (reverse st))) < fuel).
    { rewrite split_path_of in Hlt; [|done|by rewrite reverse_cons; destruct (reverse st)].
      rewrite split_path_of; [|done|].
      - rewrite app_length, reverse_length in *. simpl in Hlt. lia.
      - intros E. apply (f_equal reverse) in E. by rewrite reverse_involutive in E. }
    specialize (IH fuel Hst' Hne' Hlt').
    destruct (find_loop fuel reg (path_of b (reverse st))) as [f| |]; [|  |done].
    + destruct IH as (k & Hk & Hf & Hj). exists k. rewrite Htk by lia. split; [simpl; lia|]. split; [done|].
      intros j Hjk. destruct (decide (j = length (c :: st))) as [->|]; [by rewrite Hfull|].
      simpl in *. rewrite Htk by lia. apply Hj. lia.
    + intros k Hk. destruct (decide (k = length (c :: st))) as [->|]; [by rewrite Hfull|].
      simpl in *. rewrite Htk by lia. apply IH. lia.
Qed.

Lemma find_spec reg p : clean p -> p <> "." -> p <> "/" ->
  match findInFilesRegistry reg p with
  | Found f => exists k, 1 <= k <= length (comps p) /\ reg !! ancestor p k = Some f /\
      forall j, k < j <= length (comps p) -> reg !! ancestor p j = None
  | NotFound => forall k, 1 <= k <= length (comps p) -> reg !! ancestor p k = None
  | FindOutOfFuel => False
  end.
Proof.
  intros Hp Hd Hs. unfold findInFilesRegistry.
  set (st := fold_left (push (IsAbs p)) (comps p) []). assert (Hst : stack_ok (IsAbs p) st) by apply clean_stack_ok.
  assert (Hcc : clean_comps p = reverse st) by done.
  assert (Hc : comps p = reverse st). { rewrite <-Hcc, <-comps_Clean. by rewrite Hp. }
  assert (Hpp : p = path_of (IsAbs p) (reverse st)). { rewrite <-Hcc. by rewrite <-Clean_path_of. }
  assert (Hne : st <> []).
  { intros E. rewrite E in Hpp. unfold path_of in Hpp. destruct (IsAbs p); [by apply Hs|]. by apply Hd. }
  assert (Hanc : forall k, 1 <= k -> ancestor p k = path_of (IsAbs p) (take k (reverse st))).
  { intros k Hk. unfold ancestor, path_of. rewrite Hc. destruct (IsAbs p); [done|].
    rewrite decide_False; [done|]. destruct (reverse st) eqn:E.
    - apply (f_equal reverse) in E. by rewrite reverse_involutive in E.
    - destruct k; [lia|]. done. }
  assert (Hlen : length (comps p) = length st) by (by rewrite Hc, reverse_length).
  rewrite Hlen. pose proof (find_loop_stack (IsAbs p) reg st (S (length (split p))) Hst Hne) as H.
  rewrite <-Hpp in H. specialize (H (Nat.lt_succ_diag_r _)).
  destruct (find_loop _ _ _) as [f| |]; [| |done].
  - destruct H as (k & Hk & Hf & Hj). exists k. rewrite Hanc by lia. split; [done|]. split; [done|].
    intros j Hjk. rewrite Hanc by lia. by apply Hj.
  - intros k Hk. rewrite Hanc by lia. by apply H.
Qed.

(** ** The registry after a sequence of declarations. *)
Lemma declare_lookup reg f n : declare reg f !! n = if decide (n ∈ f_out f) then Some f else reg !! n.
Proof.
  unfold declare. generalize (f_out f) as outs. intros outs. revert reg. induction outs as [|o outs IH]; intros reg.
  - cbn [fold_left]. rewrite decide_False; [done|]. apply not_elem_of_nil.
  - cbn [fold_left]. rewrite IH. unfold reg_add. destruct (decide (n ∈ outs)) as [Hin|Hin].
    + rewrite decide_True; [done|]. by right.
    + destruct (decide (n = o)) as [->|Hno].
      * rewrite lookup_insert, decide_True; [done|]. by left.
      * rewrite lookup_insert_ne by done. rewrite decide_False; [done|].
        intros Hc. apply elem_of_cons in Hc as [|]; done.
Qed.
Lemma declare_all_lem fs n f : declare_all fs !! n = Some f <->
  exists before after, fs = before ++ f :: after /\ n ∈ f_out f /\ forall f', f' ∈ after -> n ∉ f_out f'.
Proof.
  unfold declare_all. induction fs as [|g fs IH] using rev_ind.
  - split; [done|]. intros (b & a & E & _). by destruct b.
  - rewrite fold_left_app. simpl. rewrite declare_lookup. case_decide as Hin.
    + split.
      * intros [= ->]. exists fs, []. split; [done|]. split; [done|]. intros f' Hf'. by apply elem_of_nil in Hf'.
      * intros (b & a & E & Hn & Ha). destruct (decide (a = [])) as [->|Hne].
        -- apply app_inj_tail in E as [_ ->]. done.
        -- exfalso. destruct (exists_last Hne) as (a' & x & ->).
           rewrite app_comm_cons, app_assoc in E. apply app_inj_tail in E as [_ ->].
           apply (Ha x); [|done]. apply elem_of_app. right. by left.
    + rewrite IH. split.
      * intros (b & a & -> & Hn & Ha). exists b, (a ++ [g]). split; [by rewrite <-app_assoc|]. split; [done|].
        intros f' Hf'. apply elem_of_app in Hf' as [Hf'|Hf']; [by apply Ha|]. apply elem_of_list_singleton in Hf' as ->. done.
      * intros (b & a & E & Hn & Ha). destruct (decide (a = [])) as [->|Hne].
        -- apply app_inj_tail in E as [_ <-]. done.
        -- destruct (exists_last Hne) as (a' & x & ->).
           rewrite app_comm_cons, app_assoc in E. apply app_inj_tail in E as [-> ->].
           exists b, a'. split; [done|]. split; [done|]. intros f' Hf'. apply Ha. apply elem_of_app. by left.
Qed.
