From stdpp Require Import base gmap list strings relations.
From Verif Require Import ContextModel RunnerModel RunnerSteps RunnerSpec RunnerInv RunnerInv2 RunnerInv3 RunnerInv4 RunnerInv5 RunnerProofs RaceModel RaceSpec RaceProofs RaceProofs3 RaceProps RaceModel2 RaceSpec2.
Local Open Scope list_scope.

Notation trc2 := (list (thread * act2)).
(** ** The actions of RaceModel.v in an execution. *)
Definition unbase (x : thread * act2) : option (thread * act) := match x.2 with Base a => Some (x.1, a) | _ => None end.
Definition based (T : trc2) : list (thread * act) := omap unbase T.
Lemma based_app T1 T2 : based (T1 ++ T2) = based T1 ++ based T2.
Proof. apply omap_app. Qed.
Lemma based_base t l : based (pair t <$> (Base <$> l)) = pair t <$> l.
Proof. unfold based. induction l as [|a l IH]; [done|]. simpl. f_equal. exact IH. Qed.
Lemma based_none t l : (forall a, Base a ∉ l) -> based (pair t <$> l) = [].
Proof.
  unfold based. induction l as [|a l IH]; intros H; [done|]. simpl. destruct a; simpl; try (apply IH; intros b Hb; apply (H b); by right).
  exfalso. eapply H. left.
Qed.
Lemma hash_no_base sh s ch a : Base a ∉ hash_acts sh s ch.
Proof.
  unfold hash_acts. destruct ch as [| | | |g r]; try (intros H; by apply elem_of_nil in H). destruct (s_gors s !! g) as [gr|]; [|intros H; by apply elem_of_nil in H].
  destruct (g_st gr) as [| |p| | | |]; try (intros H; by apply elem_of_nil in H). destruct p as [| | |l k]; try (intros H; by apply elem_of_nil in H).
  destruct l; try (intros H; by apply elem_of_nil in H). intros (d & E & _)%elem_of_list_fmap. discriminate E.
Qed.
Ltac nobase := let H := fresh in intros ? H; repeat (apply elem_of_cons in H as [H|H]; [discriminate H|]); by apply elem_of_nil in H.
Lemma shared_no_base l : shared_acts l -> forall a, Base a ∉ l.
Proof. intros []; nobase. Qed.
Lemma clean_no_base c : forall a, Base a ∉ clean_acts c.
Proof. unfold clean_acts. destruct (cl_autoclean c), (cl_sorts c); simpl; nobase. Qed.
Lemma based_execution w sh s T : execution2 w sh s T -> execution w s (based T).
Proof.
  induction 1 as [|s T ch s' _ IH Hs|s T t l _ IH Hu Hl|s T t l _ IH Hu Hl|s T g gr p c _ IH Hg Hst Hc]; [constructor| | | |].
  - rewrite based_app, fmap_app, based_app, based_base, (based_none _ (hash_acts sh s ch)), app_nil_r by apply hash_no_base. by eapply ex_step.
  - rewrite based_app, based_base. by eapply ex_use.
  - by rewrite based_app, (based_none _ l), app_nil_r by by apply shared_no_base.
  - by rewrite based_app, (based_none _ (clean_acts c)), app_nil_r by apply clean_no_base.
Qed.

(** Positions. *)
Definition at2 (T : trc2) (i k : nat) : Prop := exists t a, T !! i = Some (t, Base a) /\ k = length (based (take i T)).
Lemma based_lookup T i t a : T !! i = Some (t, Base a) -> based T !! length (based (take i T)) = Some (t, a).
Proof.
  intros E. assert (H : based T = based (take i T) ++ based ((t, Base a) :: drop (S i) T)) by (rewrite <-based_app; f_equal; by rewrite take_drop_middle).
  rewrite H. rewrite lookup_app_r by lia. rewrite Nat.sub_diag. done.
Qed.
Lemma based_pos T i j t a : i < j -> T !! i = Some (t, Base a) -> length (based (take i T)) < length (based (take j T)).
Proof.
  intros Hlt E. assert (H : take j T = take i T ++ (t, Base a) :: drop (S i) (take j T)).
  { pose proof (take_drop_middle (take j T) i (t, Base a)) as H. rewrite lookup_take in H by done. specialize (H E). rewrite take_take, Nat.min_l in H by lia. by rewrite H. }
  rewrite H, based_app, app_length. simpl. lia.
Qed.
Lemma at_mono T i k i' k' : at2 T i k -> at2 T i' k' -> k < k' -> i < i'.
Proof.
  intros (t & a & E & ->) (t' & a' & E' & ->) Hlt. destruct (decide (i < i')) as [|Hn]; [done|]. exfalso.
  destruct (decide (i = i')) as [->|Hne]; [lia|]. pose proof (based_pos T i' i t' a' ltac:(lia) E'). lia.
Qed.
Lemma at_inj T i i' k : at2 T i k -> at2 T i' k -> i = i'.
Proof.
  intros (t & a & E & ->) (t' & a' & E' & Heq). destruct (decide (i = i')) as [|Hne]; [done|]. exfalso.
  destruct (decide (i < i')) as [Hl|Hl]; [pose proof (based_pos T i i' t a Hl E); lia|pose proof (based_pos T i' i t' a' ltac:(lia) E'); lia].
Qed.
Lemma at_surj T k t a : based T !! k = Some (t, a) -> exists i, T !! i = Some (t, Base a) /\ at2 T i k.
Proof.
  intros E. assert (H : forall T k, based T !! k = Some (t, a) -> exists i, T !! i = Some (t, Base a) /\ k = length (based (take i T))).
  { clear. intros T. induction T as [|x T IH]; intros k E; [done|]. destruct x as [u b]. destruct b as [b|d|v|v|m|m].
    - destruct k as [|k].
      + injection E as -> ->. by exists 0.
      + destruct (IH k E) as (i & H1 & H2). exists (S i). split; [done|]. simpl. by rewrite H2.
    - destruct (IH k E) as (i & H1 & H2). by exists (S i).
    - destruct (IH k E) as (i & H1 & H2). by exists (S i).
    - destruct (IH k E) as (i & H1 & H2). by exists (S i).
    - destruct (IH k E) as (i & H1 & H2). by exists (S i).
    - destruct (IH k E) as (i & H1 & H2). by exists (S i). }
  destruct (H T k E) as (i & H1 & H2). exists i. split; [done|]. by exists t, a.
Qed.
Lemma edge_up T k k' i i' : edge (based T) k k' -> at2 T i k -> at2 T i' k' -> edge2 T i i'.
Proof.
  intros (Hl & [t a] & [u b] & E & E' & Hs) Hi Hi'. split; [by eapply at_mono|].
  destruct Hi as (t0 & a0 & H & ->). destruct Hi' as (u0 & b0 & H' & ->). rewrite (based_lookup _ _ _ _ H) in E. rewrite (based_lookup _ _ _ _ H') in E'.
  injection E as -> ->. injection E' as -> ->. exists (t, Base a), (u, Base b). split; [done|]. split; [done|]. destruct Hs as [Hs|Hs]; [by left|right; by constructor].
Qed.
Lemma hb_up T k k' : happens_before (based T) k k' -> forall i i', at2 T i k -> at2 T i' k' -> happens_before2 T i i'.
Proof.
  induction 1 as [k k' He|k m k' He _ IH]; intros i i' Hi Hi'; [apply tc_once; by eapply edge_up|].
  destruct He as (Hl & x & [u b] & E & E' & Hs). destruct (at_surj T m u b E') as (n & Hn & Hat).
  eapply tc_l; [eapply (edge_up T k m); [split; [done|]; by exists x, (u, b)|done|done]|]. by apply IH.
Qed.
Lemma po2 (T : trc2) i j t a b : i < j -> T !! i = Some (t, a) -> T !! j = Some (t, b) -> happens_before2 T i j.
Proof. intros Hl Hi Hj. apply tc_once. split; [done|]. exists (t, a), (t, b). split; [done|]. split; [done|by left]. Qed.

(** ** Variables with a mutex. *)
Global Instance thread_eq_dec : EqDecision thread.
Proof. solve_decision. Defined.
Definition mutex_of (v : var) : option mutex2 :=
  match v with VFilesReg => Some MFilesReg | VAuto => Some MAuto | VTags b => Some (MTags b) | VArray _ => None end.
Definition guarded (T : trc2) : Prop := forall v m i t a, mutex_of v = Some m -> T !! i = Some (t, a) -> touches_var v a ->
  exists k u, k < i /\ i < u /\ T !! k = Some (t, LockV m) /\ T !! u = Some (t, UnlockV m) /\ forall n x, k <= n -> n <= u -> T !! n = Some x -> x.1 = t.
Definition block_ok (l : list act2) : Prop := forall v m l1 a l2, mutex_of v = Some m -> l = l1 ++ a :: l2 -> touches_var v a -> LockV m ∈ l1 /\ UnlockV m ∈ l2.
Lemma guarded_add T t l : guarded T -> block_ok l -> guarded (T ++ (pair t <$> l)).
Proof.
  intros Hg Hb v m i u a Hv Hi Ht. destruct (decide (i < length T)) as [Hl|Hl].
  - rewrite lookup_app_l in Hi by done. destruct (Hg v m i u a Hv Hi Ht) as (k & n & H1 & H2 & H3 & H4 & H5). exists k, n.
    assert (Hn : n < length T) by by eapply lookup_lt_Some. split; [done|]. split; [done|]. split; [by apply lookup_app_l_Some|]. split; [by apply lookup_app_l_Some|].
    intros p x Hp Hp' E. apply (H5 p x Hp Hp'). by rewrite lookup_app_l in E by lia.
  - rewrite lookup_app_r in Hi by lia. rewrite list_lookup_fmap in Hi. destruct (l !! (i - length T)) as [a'|] eqn:E; [|done]. injection Hi as <- <-.
    apply elem_of_list_split_length in E as (l1 & l2 & -> & Hlen). destruct (Hb v m l1 a' l2 Hv eq_refl Ht) as [H1 H2].
    apply elem_of_list_split in H1 as (p1 & p2 & ->). apply elem_of_list_split in H2 as (q1 & q2 & ->).
    rewrite app_length in Hlen. simpl in Hlen.
    exists (length T + length p1), (i + S (length q1)). split; [lia|]. split; [lia|].
    assert (Hx : forall l1 (x : act2) l2, (T ++ (pair t <$> l1 ++ x :: l2)) !! (length T + length l1) = Some (t, x)).
    { intros r1 x r2. rewrite lookup_app_r by lia. replace (length T + length r1 - length T) with (length r1) by lia.
      rewrite list_lookup_fmap. rewrite lookup_app_r by lia. by rewrite Nat.sub_diag. }
    split; [rewrite <-app_assoc; apply Hx|]. split.
    + replace (i + S (length q1)) with (length T + length ((p1 ++ LockV m :: p2) ++ a' :: q1)) by (repeat (rewrite app_length; simpl); lia).
      replace ((p1 ++ LockV m :: p2) ++ a' :: q1 ++ UnlockV m :: q2) with (((p1 ++ LockV m :: p2) ++ a' :: q1) ++ UnlockV m :: q2) by (rewrite <-!app_assoc; done). apply Hx.
    + intros n x Hn _ E. rewrite lookup_app_r in E by lia. rewrite list_lookup_fmap in E. destruct (_ !! _); [|done]. by injection E as <-.
Qed.
Lemma block_base l : block_ok (Base <$> l).
Proof. intros v m l1 a l2 _ E Ht. assert (Hi : a ∈ Base <$> l) by (rewrite E; set_solver). apply elem_of_list_fmap in Hi as (b & -> & _). destruct Ht as [Ht|Ht]; discriminate Ht. Qed.
Lemma block_app l1 l2 : block_ok l1 -> block_ok l2 -> block_ok (l1 ++ l2).
Proof.
  intros H1 H2 v m k1 a k2 Hv E Ht. apply app_eq_app in E as (k & [[-> E]|[-> E]]).
  - destruct k as [|b k].
    + simpl in E. subst l2. destruct (H2 v m [] a k2 Hv eq_refl Ht) as [[]%elem_of_nil _].
    + injection E as <- ->. destruct (H1 v m k1 a k Hv eq_refl Ht). split; [done|]. apply elem_of_app. by left.
  - destruct (H2 v m k a k2 Hv E Ht). split; [|done]. apply elem_of_app. by right.
Qed.
Lemma block_hash sh s ch : block_ok (hash_acts sh s ch).
Proof.
  intros v m l1 a l2 _ E Ht. assert (Hi : a ∈ hash_acts sh s ch) by (rewrite E; apply elem_of_app; right; left). clear E. unfold hash_acts in Hi.
  destruct ch as [| | | |g r]; try (by apply elem_of_nil in Hi). destruct (s_gors s !! g) as [gr|]; [|by apply elem_of_nil in Hi].
  destruct (g_st gr) as [| |p| | | |]; try (by apply elem_of_nil in Hi). destruct p as [| | |l k]; try (by apply elem_of_nil in Hi).
  destruct l; try (by apply elem_of_nil in Hi). apply elem_of_list_fmap in Hi as (d & -> & _). destruct Ht as [Ht|Ht]; discriminate Ht.
Qed.
Ltac blocks := intros v m l1 a l2 Hv E Ht;
  repeat (destruct l1 as [|? l1]; [simpl in E; injection E; intros; subst; destruct Ht as [Ht|Ht]; first [discriminate Ht|injection Ht as <-; simpl in Hv; simplify_eq; set_solver]|simpl in E; injection E as <- E]);
  try (destruct l1; discriminate E).
Lemma block_shared l : shared_acts l -> block_ok l.
Proof. intros []; blocks. Qed.
Lemma block_clean c : block_ok (clean_acts c).
Proof. unfold clean_acts. apply block_app; [destruct (cl_autoclean c)|destruct (cl_sorts c)]; blocks. Qed.
Lemma all_guarded w sh s T : execution2 w sh s T -> guarded T.
Proof.
  induction 1 as [|s T ch s' _ IH Hs|s T t l _ IH Hu Hl|s T t l _ IH Hu Hl|s T g gr p c _ IH Hg Hst Hc].
  - intros v m i t a _ Hi. done.
  - apply guarded_add; [done|]. apply block_app; [apply block_base|apply block_hash].
  - apply guarded_add; [done|]. apply block_base.
  - apply guarded_add; [done|]. by apply block_shared.
  - apply guarded_add; [done|]. apply block_clean.
Qed.
Lemma guarded_ordered (T : trc2) v m i j t u a b : guarded T -> mutex_of v = Some m -> i < j -> T !! i = Some (t, a) -> T !! j = Some (u, b) ->
  touches_var v a -> touches_var v b -> happens_before2 T i j.
Proof.
  intros Hg Hv Hl Hi Hj Ha Hb. destruct (decide (t = u)) as [->|Hne]; [by eapply po2|].
  destruct (Hg v m i t a Hv Hi Ha) as (k1 & u1 & A1 & A2 & A3 & A4 & A5). destruct (Hg v m j u b Hv Hj Hb) as (k2 & u2 & B1 & B2 & B3 & B4 & B5).
  assert (H1 : u1 < j).
  { destruct (decide (u1 < j)) as [|Hn]; [done|]. exfalso. apply Hne. symmetry. exact (A5 j (u, b) ltac:(lia) ltac:(lia) Hj). }
  assert (H2 : u1 < k2).
  { destruct (decide (u1 < k2)) as [|Hn]; [done|]. exfalso. apply Hne. exact (B5 u1 (t, UnlockV m) ltac:(lia) ltac:(lia) A4). }
  eapply tc_transitive; [by eapply po2|]. eapply tc_transitive; [|by eapply (po2 T k2 j)]. apply tc_once. split; [done|].
  exists (t, UnlockV m), (u, LockV m). split; [done|]. split; [done|]. right. constructor.
Qed.

Lemma no_race2 w sh s T : execution2 w sh s T -> own_references T -> own_lists T -> race_free2 T.
Proof.
  intros He Hr Hl i j t u a b Hlt Hi Hj Hc.
  pose proof (elem_of_list_lookup_2 _ _ _ Hi) as Hi'. pose proof (elem_of_list_lookup_2 _ _ _ Hj) as Hj'.
  destruct Hc as [(l & Ha & Hb & Hw)|(v & Ha & Hb & Hw)].
  - destruct a as [a|d| | | |]; try done; destruct b as [b|d'| | | |]; try done.
    + apply (hb_up T (length (based (take i T))) (length (based (take j T)))); [|by exists t, a|by exists u, b].
      eapply (C89_no_data_race w s (based T)); [by eapply based_execution|by eapply based_pos|by apply based_lookup|by apply based_lookup|exact Ha|exact Hb|].
      destruct Hw as [Hw|Hw]; injection Hw as ->; [by left|by right].
    + simpl in Hb. subst l. destruct Hw as [Hw|Hw]; [|done]. injection Hw as ->. assert (t = u) as -> by by eapply Hr. by eapply po2.
    + simpl in Ha. subst l. destruct Hw as [Hw|Hw]; [done|]. injection Hw as ->. assert (u = t) as -> by by eapply Hr. by eapply po2.
    + destruct Hw as [Hw|Hw]; discriminate Hw.
  - destruct (mutex_of v) as [m|] eqn:Hv; [by eapply guarded_ordered; [by eapply all_guarded|..]|]. destruct v as [| | |n]; try done.
    destruct Hw as [-> | ->]; [assert (t = u) as -> by by eapply Hl|assert (u = t) as -> by by eapply Hl]; by eapply po2.
Qed.

(** ** Programs without name references in which no two targets share a list that is sorted. *)
Definition array_log (sh : shapes) (s : state) (T : trc2) : Prop := forall t n a, (t, a) ∈ T -> touches_var (VArray n) a ->
  exists g k o cx c, t = TGo g /\ EvStart g k o cx ∈ s_log s /\ sh_clean sh o = Some c /\ cl_array c = n.
Lemma array_log_keep sh s s' T t l : array_log sh s T -> (forall ev, ev ∈ s_log s -> ev ∈ s_log s') ->
  (forall n a, a ∈ l -> ~ touches_var (VArray n) a) -> array_log sh s' (T ++ (pair t <$> l)).
Proof.
  intros H Hl Hn u n a Hi Ht. apply elem_of_app in Hi as [Hi|Hi].
  - destruct (H u n a Hi Ht) as (g & k & o & cx & c & -> & H1 & H2). exists g, k, o, cx, c. split; [done|]. split; [by apply Hl|done].
  - apply elem_of_list_fmap in Hi as (b & E & Hb). injection E as -> ->. by destruct (Hn n b Hb).
Qed.
Lemma reachable2 w sh s T : execution2 w sh s T -> reachable w s.
Proof. intros H. exact (proj1 (no_data_race w s _ (based_execution _ _ _ _ H))). Qed.
Lemma shared_no_array l : shared_acts l -> forall n a, a ∈ l -> ~ touches_var (VArray n) a.
Proof. intros [] n a Hi [-> | ->]; repeat (apply elem_of_cons in Hi as [Hi|Hi]; [discriminate Hi|]); by apply elem_of_nil in Hi. Qed.
Lemma base_no_array (l : list act) n a : a ∈ (Base <$> l) -> ~ touches_var (VArray n) a.
Proof. intros (b & -> & _)%elem_of_list_fmap [H|H]; discriminate H. Qed.
Lemma hash_no_array sh s ch n a : a ∈ hash_acts sh s ch -> ~ touches_var (VArray n) a.
Proof.
  unfold hash_acts. intros Hi. destruct ch as [| | | |g r]; try (by apply elem_of_nil in Hi). destruct (s_gors s !! g) as [gr|]; [|by apply elem_of_nil in Hi].
  destruct (g_st gr) as [| |p| | | |]; try (by apply elem_of_nil in Hi). destruct p as [| | |l k]; try (by apply elem_of_nil in Hi).
  destruct l; try (by apply elem_of_nil in Hi). apply elem_of_list_fmap in Hi as (d & -> & _). intros [Ht|Ht]; discriminate Ht.
Qed.
Lemma array_logged w sh s T : execution2 w sh s T -> array_log sh s T.
Proof.
  intros Hx. induction Hx as [|s T ch s' Hx IH Hs|s T t l Hx IH Hu Hl|s T t l Hx IH Hu Hl|s T g gr p c Hx IH Hg Hst Hc].
  - intros t n a Hi. by apply elem_of_nil in Hi.
  - apply array_log_keep with s; [done| |].
    + intros ev Hev. destruct (log_step _ _ _ _ (step_tstep _ _ _ _ Hs)) as [-> |(e & ->)]; [done|]. apply elem_of_app. by left.
    + intros n a Hi. apply elem_of_app in Hi as [Hi|Hi]; [by eapply base_no_array|by eapply hash_no_array].
  - apply array_log_keep with s; [done|done|]. intros n a. apply base_no_array.
  - apply array_log_keep with s; [done|done|]. by apply shared_no_array.
  - intros t n a Hi Ht. apply elem_of_app in Hi as [Hi|Hi]; [by apply (IH t n a)|].
    apply elem_of_list_fmap in Hi as (b & E & Hb). injection E as -> ->. exists g, (g_key gr), (g_obj gr), (g_cx gr), c. split; [done|].
    destruct (inv_start_holds _ _ (reachable2 _ _ _ _ Hx)) as (_ & H & _). split; [apply (H g gr Hg); unfold is_owner; by rewrite Hst|]. split; [done|].
    unfold clean_acts in Hb. apply elem_of_app in Hb as [Hb|Hb].
    + destruct (cl_autoclean c); [|by apply elem_of_nil in Hb]. destruct Ht as [-> | ->]; repeat (apply elem_of_cons in Hb as [Hb|Hb]; [discriminate Hb|]); by apply elem_of_nil in Hb.
    + destruct Ht as [-> | ->]; apply elem_of_cons in Hb as [Hb|Hb]; try discriminate Hb; try (by injection Hb).
      * destruct (cl_sorts c); [apply elem_of_list_singleton in Hb; discriminate Hb|by apply elem_of_nil in Hb].
      * destruct (cl_sorts c); [apply elem_of_list_singleton in Hb; by injection Hb|by apply elem_of_nil in Hb].
Qed.
Lemma clean_shown w sh s T : execution2 w sh s T -> forall t d, (t, RdD d) ∈ T -> exists f, d ∈ sh_shown sh f.
Proof.
  intros Hx. induction Hx as [|s T ch s' Hx IH Hs|s T t l Hx IH Hu Hl|s T t l Hx IH Hu Hl|s T g gr p c Hx IH Hg Hst Hc]; intros u d Hi;
    [by apply elem_of_nil in Hi| | | |]; (apply elem_of_app in Hi as [Hi|Hi]; [by eapply IH|]); apply elem_of_list_fmap in Hi as (b & E & Hi); injection E as -> <-.
  - apply elem_of_app in Hi as [Hi|Hi]; [apply elem_of_list_fmap in Hi as (b & E & _); discriminate E|].
    unfold hash_acts in Hi. destruct ch as [| | | |g r]; try (by apply elem_of_nil in Hi). destruct (s_gors s !! g) as [gr|]; [|by apply elem_of_nil in Hi].
    destruct (g_st gr) as [| |p| | | |]; try (by apply elem_of_nil in Hi). destruct p as [| | |l k]; try (by apply elem_of_nil in Hi).
    destruct l; try (by apply elem_of_nil in Hi). apply elem_of_list_fmap in Hi as (d' & E & H). injection E as ->. by eexists.
  - apply elem_of_list_fmap in Hi as (b & E & _). discriminate E.
  - destruct Hl; repeat (apply elem_of_cons in Hi as [Hi|Hi]; [discriminate Hi|]); by apply elem_of_nil in Hi.
  - unfold clean_acts in Hi. apply elem_of_app in Hi as [Hi|Hi].
    + destruct (cl_autoclean c); repeat (apply elem_of_cons in Hi as [Hi|Hi]; [discriminate Hi|]); by apply elem_of_nil in Hi.
    + destruct (cl_sorts c); repeat (apply elem_of_cons in Hi as [Hi|Hi]; [discriminate Hi|]); by apply elem_of_nil in Hi.
Qed.
Lemma plain_key w s g k o cx : (forall o, w_deferred w o = None) -> reachable w s -> EvStart g k o cx ∈ s_log s -> k = w_addr w o.
Proof.
  intros Hd Hr Hi. destruct (inv_start_holds _ _ Hr) as (H & _). destruct (H _ _ _ _ Hi) as (gr & Hg & <- & <- & _).
  destruct (inv_link_holds _ _ Hr _ _ Hg) as (cl & o' & _ & _ & -> & Ho & _). by rewrite (Ho (Hd _)).
Qed.
Lemma plain_race_free w sh s T : execution2 w sh s T -> (forall o, w_deferred w o = None) ->
  (forall f d, d ∈ sh_shown sh f -> w_deferred w d <> None) ->
  (forall o o' c c', sh_clean sh o = Some c -> sh_clean sh o' = Some c' -> cl_array c = cl_array c' -> w_addr w o = w_addr w o') -> race_free2 T.
Proof.
  intros Hx Hd Hs Hp. apply (no_race2 w sh s T Hx).
  - intros t u d _ Hi. destruct (clean_shown _ _ _ _ Hx _ _ Hi) as (f & Hf). by destruct (Hs f d Hf).
  - intros t u n a Hi Hj Ht. pose proof (reachable2 _ _ _ _ Hx) as Hr.
    destruct (array_logged _ _ _ _ Hx t n _ Hi ltac:(by right)) as (g & k & o & cx & c & -> & Hg & Hc & Hn).
    destruct (array_logged _ _ _ _ Hx u n a Hj Ht) as (g' & k' & o' & cx' & c' & -> & Hg' & Hc' & Hn').
    pose proof (plain_key _ _ _ _ _ _ Hd Hr Hg) as Hk. pose proof (plain_key _ _ _ _ _ _ Hd Hr Hg') as Hk'. subst k k'.
    rewrite (Hp o o' c c' Hc Hc' ltac:(congruence)) in Hg. apply elem_of_list_lookup in Hg as (i & Hi'). apply elem_of_list_lookup in Hg' as (j & Hj').
    assert (i = j) as -> by (eapply start_unique; [by apply reachable_trace|exact Hi'|exact Hj']). rewrite Hi' in Hj'. by injection Hj' as ->.
Qed.

(** ** Accesses that are not ordered. *)
Lemma not_before (T : trc2) i j t a : T !! i = Some (t, a) ->
  (forall k b, i < k -> T !! k = Some (t, b) -> False) -> (forall u b, ~ synchronizes2 (t, a) (u, b)) -> ~ happens_before2 T i j.
Proof.
  intros Hi Hn Hs H. assert (He : exists k, edge2 T i k) by (destruct H; by eexists). destruct He as (k & Hl & x & [u b] & Hx & Hy & Hor).
  rewrite Hi in Hx. injection Hx as <-. destruct Hor as [E|E]; [|by eapply Hs]. simpl in E. subst u. by eapply Hn.
Qed.
