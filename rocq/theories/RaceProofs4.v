(** What a step does not touch, it neither reads nor writes. *)
From stdpp Require Import base gmap list strings.
From Verif Require Import ContextModel RunnerModel RunnerSteps RunnerInv RunnerInv2 RunnerInv3 RunnerInv4 RaceModel RaceSpec.
Local Open Scope list_scope.

Definition quiet_on (w : world) (s : state) (ch : choice) (l : loc) : Prop := forall a, a ∈ actions w s ch -> ~ touches l a.
Lemma quiet_rd w s ch l : quiet_on w s ch l -> Rd l ∉ actions w s ch.
Proof. intros H Hi. apply (H _ Hi). by left. Qed.
Lemma quiet_wr w s ch l : quiet_on w s ch l -> Wr l ∉ actions w s ch.
Proof. intros H Hi. apply (H _ Hi). by right. Qed.
Ltac absurd_by H := exfalso; apply H; repeat first [apply elem_of_list_here | apply elem_of_list_further].

Lemma begin_empty ts s w ch l : actions w s ch = begin_acts (length (s_calls s)) ts -> quiet_on w s ch l -> l = LDepth -> ts = [].
Proof.
  intros E H ->. destruct (decide (ts = [])) as [|Hn]; [done|]. exfalso. apply (quiet_rd _ _ _ _ H). rewrite E. unfold begin_acts. rewrite decide_False by done.
  simpl. right. by left.
Qed.

(** ** depth *)
Lemma frame_depth w s ch f : quiet_on w s ch LDepth -> step w (set_depth f s) ch = set_depth f <$> step w s ch.
Proof.
  intros H. destruct ch as [cx ts|name o|c|c|g r]; simpl.
  - assert (ts = []) as -> by (by eapply (begin_empty ts s w (ChRun cx ts) _ eq_refl H)). reflexivity.
  - reflexivity.
  - unfold step_loop. simpl. destruct (s_calls s !! c) as [cl|]; [|done]. simpl. destruct (c_st cl) as [i [|t todo]| |]; try reflexivity.
    simpl. f_equal. unfold loop_iter. destruct t as [o|]; [|reflexivity]. destruct (w_deferred w o) as [nm|]; [|reflexivity].
    unfold resolve. simpl. destruct (s_cache s !! o); [reflexivity|]. destruct (w_deferred w o); [|reflexivity]. destruct (s_reg s !! _); reflexivity.
  - unfold step_return. simpl. destruct (s_calls s !! c) as [cl|] eqn:Ec; [|done]. simpl. destruct (c_st cl); try reflexivity. destruct (c_wg cl); try reflexivity.
    destruct (decide (c_targets cl = [])) as [He|He].
    + destruct (c_parent cl) as [g|]; [|reflexivity]. simpl. destruct (s_gors s !! g) as [gr|]; [|reflexivity]. simpl. destruct (g_st gr); try reflexivity. destruct (decide _); reflexivity.
    + exfalso. apply (quiet_rd _ _ _ _ H). simpl. rewrite Ec. unfold return_acts. rewrite decide_False by done.
      right. apply elem_of_app. right. simpl. right. by left.
  - unfold step_go. simpl. destruct (s_gors s !! g) as [gr|] eqn:Eg; [|done]. simpl. destruct (g_st gr) as [| |p| | | |] eqn:Est; try reflexivity.
    + destruct (s_ran s !! g_key gr); reflexivity.
    + destruct (s_ran s !! g_key gr) as [o|]; [|reflexivity]. destruct (o_open o); reflexivity.
    + destruct p as [e|cx ts k|d k|l k]; try reflexivity.
      * assert (ts = []) as ->. { eapply (begin_empty ts s w (ChGo g r)); [|exact H|done]. simpl. unfold go_acts. by rewrite Eg, Est. }
        reflexivity.
      * unfold resolve. simpl. destruct (s_cache s !! d); [reflexivity|]. destruct (w_deferred w d); [|reflexivity]. destruct (s_reg s !! _); reflexivity.
Qed.

(** ** the registry *)
Lemma resolve_reg w d f s : Rd LReg ∉ resolve_acts w s d -> resolve w d (set_reg f s) = (set_reg f (resolve w d s).1, (resolve w d s).2).
Proof.
  unfold resolve_acts, resolve. simpl. destruct (s_cache s !! d); [done|]. intros H. exfalso. apply H. simpl. right. right. right. by left.
Qed.
Lemma frame_reg w s ch f : quiet_on w s ch LReg -> step w (set_reg f s) ch = set_reg f <$> step w s ch.
Proof.
  intros H. destruct ch as [cx ts|name o|c|c|g r]; simpl.
  - unfold begin_call. by destruct (decide (ts = [])).
  - exfalso. apply (quiet_wr _ _ _ _ H). right. by left.
  - pose proof (quiet_rd _ _ _ _ H) as Hq. simpl in Hq. unfold step_loop. simpl. destruct (s_calls s !! c) as [cl|]; [|done]. simpl. destruct (c_st cl) as [i [|t todo]| |]; try reflexivity.
    simpl. f_equal. unfold loop_iter. destruct t as [o|]; [|reflexivity]. unfold loop_acts in Hq. destruct (w_deferred w o) as [nm|] eqn:Ed; [|reflexivity].
    assert (Hr : Rd LReg ∉ resolve_acts w s o) by (intros Hi; apply Hq; apply elem_of_app; by left). clear Hq.
    revert Hr. unfold resolve_acts, resolve. simpl. destruct (s_cache s !! o); [reflexivity|]. intros Hr. exfalso. apply Hr. simpl. right. right. right. by left.
  - unfold step_return. simpl. destruct (s_calls s !! c) as [cl|] eqn:Ec; [|done]. simpl. destruct (c_st cl); try reflexivity. destruct (c_wg cl); try reflexivity.
    destruct (decide (c_targets cl = [])) as [He|He];
      (destruct (c_parent cl) as [g|]; [|reflexivity]; simpl; destruct (s_gors s !! g) as [gr|]; [|reflexivity]; simpl; destruct (g_st gr); try reflexivity; destruct (decide _); reflexivity).
  - pose proof (quiet_rd _ _ _ _ H) as Hq. simpl in Hq. unfold go_acts in Hq. unfold step_go. simpl. destruct (s_gors s !! g) as [gr|] eqn:Eg; [|done]. simpl. destruct (g_st gr) as [| |p| | | |] eqn:Est; try reflexivity.
    + destruct (s_ran s !! g_key gr); reflexivity.
    + destruct (s_ran s !! g_key gr) as [o|]; [|reflexivity]. destruct (o_open o); reflexivity.
    + destruct p as [e|cx ts k|d k|l k]; try reflexivity.
      * unfold begin_call. by destruct (decide (ts = [])).
      * rewrite (resolve_reg w d f s Hq). by destruct (resolve w d s).
Qed.

(** ** the references *)
Lemma frame_target w s ch d f : quiet_on w s ch (LTarget d) -> step w (set_cache (partial_alter f d) s) ch = set_cache (partial_alter f d) <$> step w s ch.
Proof.
  intros H.
  assert (Hres : forall d', d' <> d -> resolve w d' (set_cache (partial_alter f d) s) = (set_cache (partial_alter f d) (resolve w d' s).1, (resolve w d' s).2)).
  { intros d' Hn. unfold resolve. simpl. rewrite lookup_partial_alter_ne by done. destruct (s_cache s !! d'); [done|]. destruct (w_deferred w d'); [|done].
    destruct (s_reg s !! _); [|done]. simpl. f_equal. unfold set_cache. simpl. f_equal. unfold insert, map_insert. by apply partial_alter_commute. }
  destruct ch as [cx ts|name o|c|c|g r]; simpl.
  - unfold begin_call. by destruct (decide (ts = [])).
  - reflexivity.
  - pose proof (quiet_rd _ _ _ _ H) as Hq. simpl in Hq. unfold step_loop. simpl. destruct (s_calls s !! c) as [cl|]; [|done]. simpl. destruct (c_st cl) as [i [|t todo]| |]; try reflexivity.
    simpl. f_equal. unfold loop_iter. destruct t as [o|]; [|reflexivity]. unfold loop_acts in Hq. destruct (w_deferred w o) as [nm|] eqn:Ed; [|reflexivity].
    assert (Hn : o <> d). { intros ->. apply Hq. apply elem_of_app. left. unfold resolve_acts. right. by left. }
    unfold resolve. simpl. rewrite lookup_partial_alter_ne by done. destruct (s_cache s !! o); [reflexivity|]. rewrite Ed. destruct (s_reg s !! nm); [|reflexivity].
    unfold spawn, upd_call, set_gors, set_calls, emit, set_cache. simpl. f_equal. unfold insert, map_insert. by apply partial_alter_commute.
  - unfold step_return. simpl. destruct (s_calls s !! c) as [cl|] eqn:Ec; [|done]. simpl. destruct (c_st cl); try reflexivity. destruct (c_wg cl); try reflexivity.
    destruct (decide (c_targets cl = [])) as [He|He];
      (destruct (c_parent cl) as [g|]; [|reflexivity]; simpl; destruct (s_gors s !! g) as [gr|]; [|reflexivity]; simpl; destruct (g_st gr); try reflexivity; destruct (decide _); reflexivity).
  - pose proof (quiet_rd _ _ _ _ H) as Hq. simpl in Hq. unfold go_acts in Hq. unfold step_go. simpl. destruct (s_gors s !! g) as [gr|] eqn:Eg; [|done]. simpl. destruct (g_st gr) as [| |p| | | |] eqn:Est; try reflexivity.
    + destruct (s_ran s !! g_key gr); reflexivity.
    + destruct (s_ran s !! g_key gr) as [o|]; [|reflexivity]. destruct (o_open o); reflexivity.
    + destruct p as [e|cx ts k|d' k|l k]; try reflexivity.
      * unfold begin_call. by destruct (decide (ts = [])).
      * assert (Hn : d' <> d). { intros ->. apply Hq. unfold resolve_acts. right. by left. }
        rewrite (Hres d' Hn). by destruct (resolve w d' s).
Qed.

(** ** the outcomes: [f] changes what is at [a], if anything is *)
Lemma frame_ran w s ch a (f : outcome -> outcome) :
  (forall g r gr, ch = ChGo g r -> s_gors s !! g = Some gr -> g_key gr = a ->
     match g_st gr with
     | GStart => exists o, s_ran s !! a = Some o
     | GWait => forall o, s_ran s !! a = Some o -> o_open (f o) = o_open o /\ (o_open o = true -> o_err (f o) = o_err o)
     | GBody (Ret e) => forall o e', f {| o_open := o_open o; o_err := e' |} = {| o_open := o_open (f o); o_err := e' |}
     | GOpen => forall o, f {| o_open := true; o_err := o_err o |} = {| o_open := true; o_err := o_err (f o) |}
     | _ => True
     end) ->
  step w (set_ran (alter f a) s) ch = set_ran (alter f a) <$> step w s ch.
Proof.
  intros H. destruct ch as [cx ts|name o|c|c|g r]; simpl.
  - unfold begin_call. by destruct (decide (ts = [])).
  - reflexivity.
  - unfold step_loop. simpl. destruct (s_calls s !! c) as [cl|]; [|done]. simpl. destruct (c_st cl) as [i [|t todo]| |]; try reflexivity.
    simpl. f_equal. unfold loop_iter. destruct t as [o|]; [|reflexivity]. destruct (w_deferred w o) as [nm|]; [|reflexivity].
    unfold resolve. simpl. destruct (s_cache s !! o); [reflexivity|]. destruct (w_deferred w o); [|reflexivity]. destruct (s_reg s !! _); reflexivity.
  - unfold step_return. simpl. destruct (s_calls s !! c) as [cl|] eqn:Ec; [|done]. simpl. destruct (c_st cl); try reflexivity. destruct (c_wg cl); try reflexivity.
    destruct (decide (c_targets cl = [])) as [He|He];
      (destruct (c_parent cl) as [g|]; [|reflexivity]; simpl; destruct (s_gors s !! g) as [gr|]; [|reflexivity]; simpl; destruct (g_st gr); try reflexivity; destruct (decide _); reflexivity).
  - specialize (H g r). unfold step_go. simpl. destruct (s_gors s !! g) as [gr|] eqn:Eg; [|done]. specialize (H gr eq_refl eq_refl). simpl.
    destruct (g_st gr) as [| |p| | | |] eqn:Est; try reflexivity.
    + destruct (decide (g_key gr = a)) as [<-|Hn].
      * destruct (H eq_refl) as [o Ho]. rewrite lookup_alter, Ho. reflexivity.
      * rewrite lookup_alter_ne by done. destruct (s_ran s !! g_key gr) eqn:Er; [reflexivity|]. simpl. f_equal.
        unfold upd_gor, set_gors, set_ran, emit. simpl. f_equal. unfold insert, map_insert, alter, map_alter. by apply partial_alter_commute.
    + destruct (decide (g_key gr = a)) as [<-|Hn].
      * rewrite lookup_alter. destruct (s_ran s !! g_key gr) as [o|] eqn:Er; [|reflexivity]. simpl. destruct (H eq_refl o eq_refl) as [H1 H2]. rewrite H1.
        destruct (o_open o) eqn:Eo; [|reflexivity]. rewrite H2 by done. reflexivity.
      * rewrite lookup_alter_ne by done. destruct (s_ran s !! g_key gr) as [o|]; [|reflexivity]. destruct (o_open o); reflexivity.
    + destruct p as [e|cx ts k|d k|l k]; try reflexivity.
      * simpl. f_equal. unfold upd_gor, set_gors, upd_call, set_calls, set_ran, emit. simpl. f_equal.
        destruct (decide (g_key gr = a)) as [<-|Hn]; [|by apply alter_commute]. rewrite <- !alter_compose. apply alter_ext. intros o _. simpl. by rewrite H.
      * unfold begin_call. by destruct (decide (ts = [])).
      * unfold resolve. simpl. destruct (s_cache s !! d); [reflexivity|]. destruct (w_deferred w d); [|reflexivity]. destruct (s_reg s !! _); reflexivity.
    + simpl. f_equal. unfold upd_gor, set_gors, upd_call, set_calls, set_ran, emit. simpl. f_equal.
      destruct (decide (g_key gr = a)) as [<-|Hn]; [|by apply alter_commute]. rewrite <- !alter_compose. apply alter_ext. intros o _. simpl. by rewrite H.
Qed.

(** ** the errors of a call *)
Lemma upd_comm c0 i0 e c f s : c <> c0 \/ (forall x, f (set_err i0 e x) = set_err i0 e (f x)) ->
  upd_call c f (upd_call c0 (set_err i0 e) s) = upd_call c0 (set_err i0 e) (upd_call c f s).
Proof.
  intros H. unfold upd_call, set_calls. simpl. f_equal. destruct (decide (c = c0)) as [->|Hn]; [|by apply list_alter_commute].
  destruct H as [H|H]; [done|]. rewrite <- !list_alter_compose. apply list_alter_ext; [|done]. intros x _. simpl. by rewrite H.
Qed.
Lemma upd_lookup c0 i0 e s c : s_calls (upd_call c0 (set_err i0 e) s) !! c = (fun x => if decide (c = c0) then set_err i0 e x else x) <$> s_calls s !! c.
Proof.
  unfold upd_call, set_calls. simpl. destruct (decide (c = c0)) as [->|Hn]; [by rewrite list_lookup_alter|].
  rewrite list_lookup_alter_ne by done. by destruct (s_calls s !! c).
Qed.
Lemma err_comm i0 e i x' cl : i <> i0 -> set_err i x' (set_err i0 e cl) = set_err i0 e (set_err i x' cl).
Proof. intros H. unfold set_err. simpl. f_equal. by apply list_insert_commute. Qed.
Lemma begin_comm c0 i0 e p cx ts s : (forall a, a ∈ begin_acts (length (s_calls s)) ts -> ~ touches (LErrs c0 i0) a) ->
  begin_call p cx ts (upd_call c0 (set_err i0 e) s) = upd_call c0 (set_err i0 e) (begin_call p cx ts s).
Proof.
  intros H. unfold begin_call. 
  assert (E : alter (set_err i0 e) c0 (s_calls s) ++ [{| c_parent := p; c_cx := cx; c_targets := ts; c_errs := replicate (length ts) None; c_wg := 0; c_st := CLoop 0 ts |}]
    = alter (set_err i0 e) c0 (s_calls s ++ [{| c_parent := p; c_cx := cx; c_targets := ts; c_errs := replicate (length ts) None; c_wg := 0; c_st := CLoop 0 ts |}])).
  { destruct (decide (c0 < length (s_calls s))) as [Hl|Hl]; [symmetry; by apply alter_app_l|].
    rewrite alter_app_r_alt by lia. f_equal.
    { apply list_eq. intros i. destruct (decide (i = c0)) as [->|]; [|by rewrite list_lookup_alter_ne]. rewrite list_lookup_alter. by rewrite (lookup_ge_None_2 _ c0) by lia. }
    destruct (c0 - length (s_calls s)) as [|k] eqn:Ek; [|by destruct k]. simpl. f_equal. unfold set_err. simpl. f_equal.
    rewrite list_insert_ge; [done|]. rewrite replicate_length. destruct (decide (length ts <= i0)) as [?|Hi]; [done|]. exfalso.
    assert (c0 = length (s_calls s)) as -> by lia. apply (H (Wr (LErrs (length (s_calls s)) i0))); [|by right].
    unfold begin_acts. destruct (decide (ts = [])) as [->|]; [simpl in Hi; lia|]. apply elem_of_app. right. right.
    apply (elem_of_list_fmap_1 (fun i => Wr (LErrs (length (s_calls s)) i))). apply elem_of_seq. lia. }
  unfold upd_call, set_calls, emit, inc_depth, set_depth. simpl. rewrite alter_length. destruct (decide (ts = [])); simpl; by rewrite E.
Qed.
Lemma frame_errs w s ch c0 i0 e : reachable w s -> quiet_on w s ch (LErrs c0 i0) ->
  step w (upd_call c0 (set_err i0 e) s) ch = upd_call c0 (set_err i0 e) <$> step w s ch.
Proof.
  intros Hre H. pose proof (inv_shape_holds w s Hre) as Hsh. destruct ch as [cx ts|name o|c|c|g r].
  - unfold step. rewrite begin_comm; [done|exact H].
  - reflexivity.
  - unfold step, step_loop. rewrite upd_lookup. pose proof (quiet_wr _ _ _ _ H) as Hq. simpl in Hq.
    destruct (s_calls s !! c) as [cl|]; [|done]. cbn [fmap option_fmap option_map mbind option_bind].
    assert (Est : c_st (if decide (c = c0) then set_err i0 e cl else cl) = c_st cl) by (by destruct (decide _)). 
    assert (Ecx : c_cx (if decide (c = c0) then set_err i0 e cl else cl) = c_cx cl) by (by destruct (decide _)).
    rewrite Est, Ecx. destruct (c_st cl) as [i [|t todo]| |]; try reflexivity.
    + rewrite upd_comm; [done|]. right. done.
    + cbn [fmap option_fmap option_map]. f_equal. rewrite upd_comm by (by right). set (s1 := upd_call c (set_cst (CLoop (S i) todo)) s).
      assert (Hrej : forall x, Wr (LErrs c i) ∉ [Wr (LErrs c0 i0)] -> reject c i x (upd_call c0 (set_err i0 e) s1) = upd_call c0 (set_err i0 e) (reject c i x s1)).
      { intros x Hn. unfold reject. change (emit ?v (upd_call c0 ?f s1)) with (upd_call c0 f (emit v s1)). apply upd_comm.
        destruct (decide (c = c0)) as [->|]; [|by left]. right. intros y. apply err_comm. intros ->. apply Hn. by left. }
      assert (Hsp : forall k o2 cx2 s2, spawn c i k o2 cx2 (upd_call c0 (set_err i0 e) s2) = upd_call c0 (set_err i0 e) (spawn c i k o2 cx2 s2)).
      { intros k o2 cx2 s2. unfold spawn. change (emit ?v (upd_call c0 ?f s2)) with (upd_call c0 f (emit v s2)). rewrite upd_comm by (by right). reflexivity. }
      unfold loop_iter. destruct t as [o|].
      * unfold loop_acts in Hq. destruct (w_deferred w o) as [nm|] eqn:Ed; [|apply Hsp].
        unfold resolve in *. change (s_cache (upd_call c0 (set_err i0 e) s1)) with (s_cache s). change (s_cache s1) with (s_cache s).
        change (s_reg (upd_call c0 (set_err i0 e) s1)) with (s_reg s). change (s_reg s1) with (s_reg s).
        destruct (s_cache s !! o); [apply Hsp|]. rewrite Ed in *. destruct (s_reg s !! nm).
        { change (set_cache ?f (upd_call c0 ?g s1)) with (upd_call c0 g (set_cache f s1)). apply Hsp. }
        apply Hrej. intros Hi. apply elem_of_list_singleton in Hi. injection Hi as -> ->. apply Hq. apply elem_of_app. right. by left.
      * apply Hrej. intros Hi. apply elem_of_list_singleton in Hi. injection Hi as -> ->. apply Hq. by left.
  - unfold step, step_return. rewrite upd_lookup. destruct (s_calls s !! c) as [cl|] eqn:Ec; [|done]. cbn [fmap option_fmap option_map mbind option_bind].
    destruct (decide (c = c0)) as [->|Hn].
    + assert (E : set_err i0 e cl = cl).
      { destruct (Hsh _ _ Ec) as [Hl _]. destruct cl as [p cx ts es wg st]. unfold set_err. simpl in *. f_equal. apply list_insert_ge. rewrite Hl.
        destruct (decide (length ts <= i0)) as [?|Hi]; [done|]. exfalso. apply (quiet_rd _ _ _ _ H). simpl. rewrite Ec. unfold return_acts. simpl.
        rewrite decide_False by (intros ->; simpl in Hi; lia). right. apply elem_of_app. left. apply (elem_of_list_fmap_1 (fun i => Rd (LErrs c0 i))). apply elem_of_seq. lia. }
      rewrite E. destruct (c_st cl); try reflexivity. destruct (c_wg cl); try reflexivity.
      change (emit ?v (upd_call c0 ?f s)) with (upd_call c0 f (emit v s)). rewrite upd_comm by (by right).
      destruct (decide (c_targets cl = [])) as [He|He];
        (destruct (c_parent cl) as [g|]; [|reflexivity]; simpl; destruct (s_gors s !! g) as [gr|]; [|reflexivity]; simpl; destruct (g_st gr); try reflexivity; destruct (decide _); reflexivity).
    + destruct (c_st cl); try reflexivity. destruct (c_wg cl); try reflexivity.
      change (emit ?v (upd_call c0 ?f s)) with (upd_call c0 f (emit v s)). rewrite upd_comm by (by left).
      destruct (decide (c_targets cl = [])) as [He|He];
        (destruct (c_parent cl) as [g|]; [|reflexivity]; simpl; destruct (s_gors s !! g) as [gr|]; [|reflexivity]; simpl; destruct (g_st gr); try reflexivity; destruct (decide _); reflexivity).
  - pose proof (quiet_wr _ _ _ _ H) as Hq. simpl in Hq. unfold go_acts in Hq. unfold step, step_go. change (s_gors (upd_call c0 ?f s)) with (s_gors s).
    destruct (s_gors s !! g) as [gr|] eqn:Eg; [|done]. cbn [fmap option_fmap option_map mbind option_bind].
    assert (Hw : (g_call gr = c0 -> g_idx gr <> i0) -> forall x s2, upd_call (g_call gr) (set_err (g_idx gr) x) (upd_call c0 (set_err i0 e) s2) = upd_call c0 (set_err i0 e) (upd_call (g_call gr) (set_err (g_idx gr) x) s2)).
    { intros Hn x s2. apply upd_comm. destruct (decide (g_call gr = c0)) as [Hc|]; [|by left]. right. intros y. apply err_comm. by apply Hn. }
    destruct (g_st gr) as [| |p| | | |] eqn:Est; try reflexivity.
    + change (s_ran (upd_call c0 ?f s)) with (s_ran s). destruct (s_ran s !! g_key gr); reflexivity.
    + change (s_ran (upd_call c0 ?f s)) with (s_ran s). destruct (s_ran s !! g_key gr) as [o|]; [|reflexivity]. destruct (o_open o); [|reflexivity].
      rewrite Hw; [reflexivity|]. intros <- <-. apply Hq. repeat (first [apply elem_of_list_here|apply elem_of_list_further]).
    + destruct p as [e1|cx ts k|d k|l k]; try reflexivity.
      * change (emit ?v (upd_call c0 ?f s)) with (upd_call c0 f (emit v s)). rewrite Hw; [reflexivity|]. intros <- <-. apply Hq. apply elem_of_app. right. right. by left.
      * rewrite begin_comm; [|intros a Ha; apply H; simpl; unfold go_acts; by rewrite Eg, Est]. unfold upd_call at 1. unfold set_calls at 1. simpl. by rewrite alter_length.
      * unfold resolve. change (s_cache (upd_call c0 ?f s)) with (s_cache s). change (s_reg (upd_call c0 ?f s)) with (s_reg s).
        destruct (s_cache s !! d); [reflexivity|]. destruct (w_deferred w d); [|reflexivity]. destruct (s_reg s !! _); reflexivity.
    + change (upd_call (g_call gr) (set_wg pred) (upd_call c0 (set_err i0 e) s)) with (upd_call (g_call gr) (set_wg pred) (upd_call c0 (set_err i0 e) s)).
      rewrite upd_comm by (by right). reflexivity.
Qed.

Lemma frame_all w s ch l u : reachable w s -> changes l u -> quiet_on w s ch l -> step w (u s) ch = u <$> step w s ch.
Proof.
  intros Hre Hc H. destruct Hc as [f|f|d f|a e|a b|c i e]; [by apply frame_depth|by apply frame_reg|by apply frame_target| | |by apply frame_errs].
  - apply frame_ran. intros g r gr -> Hg Ha. pose proof (quiet_wr _ _ _ _ H) as Hw. pose proof (quiet_rd _ _ _ _ H) as Hr. simpl in Hw, Hr. unfold go_acts in Hw, Hr.
    rewrite Hg, Ha in Hw, Hr. destruct (g_st gr) as [| |p| | | |]; try done.
    + destruct (s_ran s !! a) as [o|]; [by exists o|]. exfalso. apply Hw. apply elem_of_app. right. by left.
    + exfalso. apply Hr. repeat (first [apply elem_of_list_here|apply elem_of_list_further]).
    + destruct p; try done. exfalso. apply Hw. apply elem_of_app. right. right. right. by left.
  - apply frame_ran. intros g r gr -> Hg Ha. pose proof (quiet_wr _ _ _ _ H) as Hw. pose proof (quiet_rd _ _ _ _ H) as Hr. simpl in Hw, Hr. unfold go_acts in Hw, Hr.
    rewrite Hg, Ha in Hw, Hr. destruct (g_st gr) as [| |p| | | |]; try done.
    + destruct (s_ran s !! a) as [o|]; [by exists o|]. exfalso. apply Hw. apply elem_of_app. right. right. by left.
    + exfalso. apply Hr. right. by left.
    + by destruct p.
    + exfalso. apply Hw. right. right. by left.
Qed.

(** ** synchronisation *)
Lemma in_begin c ts x : x ∈ begin_acts c ts -> (forall g, x <> Spawn g) /\ (forall d, x <> Done d) /\ (forall d, x <> Waited d).
Proof.
  unfold begin_acts, depth_acts. destruct (decide _); [by intros ?%elem_of_nil|]. rewrite elem_of_app, !elem_of_cons, elem_of_list_fmap, elem_of_nil.
  intros [[-> | [-> | [-> | [-> | []]]]]|[-> |(i & -> & _)]]; done.
Qed.
Lemma in_resolve w s d x : x ∈ resolve_acts w s d -> (forall g, x <> Spawn g) /\ (forall d, x <> Done d) /\ (forall d, x <> Waited d).
Proof.
  unfold resolve_acts. destruct (s_cache s !! d).
  - simpl. rewrite !elem_of_cons, elem_of_nil. intros [-> | [-> | [-> | [-> | []]]]]; done.
  - destruct (resolve w d s) as [? [?|?]]; simpl; rewrite !elem_of_cons, elem_of_nil; intuition subst; done.
Qed.
Lemma resolve_gors w d s : s_gors (resolve w d s).1 = s_gors s /\ s_calls (resolve w d s).1 = s_calls s.
Proof. unfold resolve. destruct (s_cache s !! d); [done|]. destruct (w_deferred w d); [|done]. by destruct (s_reg s !! s0). Qed.

(** Goroutines that appear: by a go statement that is shown, of nobody but them. *)
Lemma spawn_shown w s ch s' g : step w s ch = Some s' -> Spawn g ∈ actions w s ch <-> s_gors s !! g = None /\ is_Some (s_gors s' !! g).
Proof.
  intros Hs.
  assert (Hlen : forall (l l' : list gor), length l' = length l -> l !! g = None /\ is_Some (l' !! g) -> False).
  { intros l l' E [H1 [x H2]]. apply lookup_ge_None_1 in H1. apply lookup_lt_Some in H2. lia. }
  assert (Hsp : forall c i k o cx s1, s' = spawn c i k o cx s1 -> s_gors s1 = s_gors s -> s_gors s !! g = None /\ is_Some (s_gors s' !! g) <-> g = length (s_gors s)).
  { intros c i k o cx s1 -> E. unfold spawn, upd_call, set_gors, set_calls, emit. simpl. rewrite E. split.
    - intros [H1 [x H2]]. apply lookup_ge_None_1 in H1. apply lookup_lt_Some in H2. rewrite app_length in H2. simpl in H2. lia.
    - intros ->. rewrite lookup_ge_None_2 by lia. split; [done|]. rewrite lookup_app_r by lia. by rewrite Nat.sub_diag. }
  destruct ch as [cx ts|name o|c|c|g0 r]; simpl in Hs.
  - injection Hs as <-. split; [intros H; by apply in_begin in H as (H & _); destruct (H g)|].
    intros H. exfalso. apply (Hlen _ _ eq_refl) with (1 := H) || (revert H; unfold begin_call; destruct (decide _); apply Hlen; reflexivity).
  - injection Hs as <-. split; [simpl; rewrite !elem_of_cons, elem_of_nil; intuition discriminate|]. intros H. exfalso. revert H. by apply Hlen.
  - unfold step_loop in Hs. simpl. destruct (s_calls s !! c) as [cl|]; [|done]. simpl in Hs. destruct (c_st cl) as [i [|t todo]| |]; try done.
    + injection Hs as <-. split; [by intros ?%elem_of_nil|]. intros H. exfalso. revert H. by apply Hlen.
    + injection Hs as Hs. symmetry in Hs. unfold loop_iter in Hs. destruct t as [o|].
      2:{ split; [simpl; rewrite elem_of_list_singleton; discriminate|]. intros H. exfalso. revert H. subst s'. by apply Hlen. }
      unfold loop_acts. destruct (w_deferred w o) as [nm|] eqn:Ed.
      * unfold resolve in Hs |- *. change (s_cache (upd_call c ?f s)) with (s_cache s) in Hs. change (s_reg (upd_call c ?f s)) with (s_reg s) in Hs. rewrite Ed in *.
        rewrite elem_of_app. assert (Hno : Spawn g ∉ resolve_acts w s o) by (intros H; apply in_resolve in H as (H & _); by destruct (H g)).
        destruct (s_cache s !! o) as [o'|]; [|destruct (s_reg s !! nm) as [o'|]].
        -- rewrite (Hsp _ _ _ _ _ _ Hs eq_refl), !elem_of_cons, elem_of_nil. split; [intros [H|[H|[H|H]]]; [done|discriminate|by injection H|done]|intros ->; auto].
        -- rewrite (Hsp _ _ _ _ _ _ Hs eq_refl), !elem_of_cons, elem_of_nil. split; [intros [H|[H|[H|H]]]; [done|discriminate|by injection H|done]|intros ->; auto].
        -- split; [intros [H|H]; [done|apply elem_of_list_singleton in H; discriminate]|]. intros H. exfalso. revert H. subst s'. by apply Hlen.
      * rewrite (Hsp _ _ _ _ _ _ Hs eq_refl), !elem_of_cons, elem_of_nil. split; [intros [H|[H|H]]; [discriminate|by injection H|done]|intros ->; auto].
  - unfold step_return in Hs. simpl. destruct (s_calls s !! c) as [cl|]; [|done]. simpl in Hs. destruct (c_st cl); try done. destruct (c_wg cl); [|done].
    split.
    { unfold return_acts, depth_acts. destruct (decide _); [by intros ?%elem_of_nil|]. rewrite elem_of_cons, elem_of_app, elem_of_list_fmap, !elem_of_cons, elem_of_nil.
      intros [H|[(i & H & _)|H]]; [done|done|]. destruct H as [H|[H|[H|[H|[]]]]]; done. }
    intros H. exfalso. revert H. apply Hlen. destruct (c_parent cl) as [p|]; simpl in Hs.
    + destruct (decide (c_targets cl = [])); simpl in Hs; (destruct (s_gors s !! p) as [gr|]; [|done]; simpl in Hs; destruct (g_st gr); try done; destruct (decide _); [|done]; injection Hs as <-; simpl; by rewrite alter_length).
    + injection Hs as <-. by destruct (decide _).
  - unfold step_go in Hs. simpl. unfold go_acts. destruct (s_gors s !! g0) as [gr|] eqn:Eg; [|done]. simpl in Hs.
    assert (Hal : forall st s1, s' = upd_gor g0 st s1 -> s_gors s1 = s_gors s -> ~ (s_gors s !! g = None /\ is_Some (s_gors s' !! g))).
    { intros st s1 -> E H. refine (Hlen (s_gors s) _ _ H). simpl. by rewrite alter_length, E. }
    destruct (g_st gr) as [| |p| | | |] eqn:Est; try done.
    + destruct (s_ran s !! g_key gr); injection Hs as Hs; symmetry in Hs; (split; [simpl; rewrite !elem_of_cons, elem_of_nil; intuition discriminate|]; intros H; exfalso; exact (Hal _ _ Hs eq_refl H)).
    + destruct (s_ran s !! g_key gr) as [o|]; [|done]. destruct (o_open o); [|done]. injection Hs as Hs. symmetry in Hs.
      split; [simpl; rewrite !elem_of_cons, elem_of_nil; intuition discriminate|]; intros H; exfalso; exact (Hal _ _ Hs eq_refl H).
    + destruct p as [e1|cx ts k|d k|l k]; injection Hs as Hs || (destruct (resolve w d s) as [s1 res] eqn:Er; injection Hs as Hs); symmetry in Hs.
      * split; [|intros H; exfalso; exact (Hal _ _ Hs eq_refl H)]. rewrite elem_of_app, !elem_of_cons, elem_of_nil. destruct e1; unfold describe_acts; rewrite ?elem_of_cons, ?elem_of_nil; intuition discriminate.
      * split; [intros H; by apply in_begin in H as (H & _); destruct (H g)|]. intros H. exfalso. refine (Hal _ _ Hs _ H). unfold begin_call. by destruct (decide _).
      * split; [intros H; by apply in_resolve in H as (H & _); destruct (H g)|]. intros H. exfalso. refine (Hal _ _ Hs _ H).
        pose proof (proj1 (resolve_gors w d s)) as E. by rewrite Er in E.
      * split; [by intros ?%elem_of_nil|]. intros H. exfalso. exact (Hal _ _ Hs eq_refl H).
    + injection Hs as Hs. symmetry in Hs. split; [simpl; rewrite !elem_of_cons, elem_of_nil; intuition discriminate|]; intros H; exfalso; exact (Hal _ _ Hs eq_refl H).
    + injection Hs as Hs. symmetry in Hs. split; [simpl; rewrite !elem_of_cons, elem_of_nil; intuition discriminate|]; intros H; exfalso; exact (Hal _ _ Hs eq_refl H).
Qed.

(** The wait group: who is done, and who passes it. *)
Lemma done_shown w s ch s' c : step w s ch = Some s' -> Done c ∈ actions w s ch -> s' = upd_gor (match ch with ChGo g _ => g | _ => 0 end) GDone (upd_call c (set_wg pred) s).
Proof.
  intros Hs H. destruct ch as [cx ts|name o|d|d|g r]; simpl in H.
  - apply in_begin in H as (_ & H & _). by destruct (H c).
  - rewrite !elem_of_cons, elem_of_nil in H. intuition discriminate.
  - exfalso. destruct (s_calls s !! d) as [cl|]; [|by apply elem_of_nil in H]. destruct (c_st cl) as [i [|t todo]| |]; try (by apply elem_of_nil in H).
    unfold loop_acts in H. destruct t as [o|]; [|apply elem_of_list_singleton in H; discriminate]. destruct (w_deferred w o).
    + apply elem_of_app in H as [H|H]; [apply in_resolve in H as (_ & H & _); by destruct (H c)|].
      destruct (resolve w o s) as [? [?|?]]; rewrite !elem_of_cons, elem_of_nil in H; intuition discriminate.
    + rewrite !elem_of_cons, elem_of_nil in H; intuition discriminate.
  - exfalso. destruct (s_calls s !! d) as [cl|]; [|by apply elem_of_nil in H]. revert H. unfold return_acts, depth_acts. destruct (decide _); [by intros ?%elem_of_nil|].
    rewrite elem_of_cons, elem_of_app, elem_of_list_fmap, !elem_of_cons, elem_of_nil. intros [H|[(i & H & _)|H]]; [done|done|]. destruct H as [H|[H|[H|[H|[]]]]]; done.
  - unfold go_acts in H. simpl in Hs. unfold step_go in Hs. destruct (s_gors s !! g) as [gr|]; [|by apply elem_of_nil in H]. simpl in Hs.
    destruct (g_st gr) as [| |p| | | |]; try done.
    + exfalso. destruct (s_ran s !! g_key gr); simpl in H; rewrite !elem_of_cons, elem_of_nil in H; intuition discriminate.
    + exfalso. rewrite !elem_of_cons, elem_of_nil in H; intuition discriminate.
    + exfalso. destruct p as [e|cx ts k|d k|l k].
      * destruct e; simpl in H; rewrite !elem_of_cons, elem_of_nil in H; intuition discriminate.
      * apply in_begin in H as (_ & H & _). by destruct (H c).
      * apply in_resolve in H as (_ & H & _). by destruct (H c).
      * by apply elem_of_nil in H.
    + exfalso. rewrite !elem_of_cons, elem_of_nil in H; intuition discriminate.
    + apply elem_of_list_singleton in H. injection H as ->. by injection Hs as <-.
Qed.
Lemma waited_shown w s ch s' c : step w s ch = Some s' ->
  Waited c ∈ actions w s ch <-> ch = ChReturn c /\ exists cl, s_calls s !! c = Some cl /\ c_targets cl <> [].
Proof.
  intros Hs. destruct ch as [cx ts|name o|d|d|g r]; simpl.
  - split; [intros H; apply in_begin in H as (_ & _ & H); by destruct (H c)|intros [? _]; done].
  - split; [rewrite !elem_of_cons, elem_of_nil; intuition discriminate|intros [? _]; done].
  - split; [|intros [? _]; done]. intros H. exfalso. destruct (s_calls s !! d) as [cl|]; [|by apply elem_of_nil in H]. destruct (c_st cl) as [i [|t todo]| |]; try (by apply elem_of_nil in H).
    unfold loop_acts in H. destruct t as [o|]; [|apply elem_of_list_singleton in H; discriminate]. destruct (w_deferred w o).
    + apply elem_of_app in H as [H|H]; [apply in_resolve in H as (_ & _ & H); by destruct (H c)|].
      destruct (resolve w o s) as [? [?|?]]; rewrite !elem_of_cons, elem_of_nil in H; intuition discriminate.
    + rewrite !elem_of_cons, elem_of_nil in H; intuition discriminate.
  - split.
    + destruct (s_calls s !! d) as [cl|] eqn:Ec; [|by intros ?%elem_of_nil]. unfold return_acts, depth_acts. destruct (decide _) as [|Hn]; [by intros ?%elem_of_nil|].
      rewrite elem_of_cons, elem_of_app, elem_of_list_fmap, !elem_of_cons, elem_of_nil. intros [H|[(i & H & _)|H]]; [|done|destruct H as [H|[H|[H|[H|[]]]]]; done].
      injection H as ->. split; [done|]. by exists cl.
    + intros ([= ->] & cl & -> & Hn). unfold return_acts. rewrite decide_False by done. left.
  - split; [|intros [? _]; done]. intros H. exfalso. unfold go_acts in H. destruct (s_gors s !! g) as [gr|]; [|by apply elem_of_nil in H].
    destruct (g_st gr) as [| |p| | | |]; try (by apply elem_of_nil in H).
    + destruct (s_ran s !! g_key gr); simpl in H; rewrite !elem_of_cons, elem_of_nil in H; intuition discriminate.
    + rewrite !elem_of_cons, elem_of_nil in H; intuition discriminate.
    + destruct p as [e|cx ts k|d k|l k].
      * destruct e; simpl in H; rewrite !elem_of_cons, elem_of_nil in H; intuition discriminate.
      * apply in_begin in H as (_ & _ & H). by destruct (H c).
      * apply in_resolve in H as (_ & _ & H). by destruct (H c).
      * by apply elem_of_nil in H.
    + rewrite !elem_of_cons, elem_of_nil in H; intuition discriminate.
    + apply elem_of_list_singleton in H. discriminate.
Qed.

(** The mutexes. *)
Lemma paired_skip held (l l2 : list act) : (forall x, x ∈ l -> (forall m, x <> Lock m) /\ (forall m, x <> Unlock m)) -> paired held (l ++ l2) <-> paired held l2.
Proof.
  induction l as [|x l IH]; intros H; [done|]. destruct (H x) as [H1 H2]; [left|]. rewrite <- IH by (intros y Hy; apply H; by right).
  destruct x; try done; [by destruct (H1 m)|by destruct (H2 m)].
Qed.
Lemma paired_depth l2 : paired [] (depth_acts ++ l2) <-> paired [] l2.
Proof. simpl. split; [intros (_ & h & E & H); by injection E as <-|]. intros H. split; [by left|]. by exists []. Qed.
Lemma paired_begin c ts : paired [] (begin_acts c ts).
Proof.
  unfold begin_acts. destruct (decide _); [done|]. apply paired_depth. change (paired [] (((fun i => Wr (LErrs c i)) <$> seq 0 (length ts)))).
  rewrite <- (app_nil_r (_ <$> _)). apply paired_skip; [|done]. intros x (i & -> & _)%elem_of_list_fmap. done.
Qed.
Lemma paired_resolve w s d l2 : paired [] l2 -> paired [] (resolve_acts w s d ++ l2).
Proof.
  intros H. unfold resolve_acts. destruct (s_cache s !! d); [|destruct (resolve w d s) as [? [?|?]]]; simpl.
  - split; [by left|]. by exists [].
  - split; [by left|]. split; [right; by exists d|]. exists [MDef d]. split; [done|]. by exists [].
  - split; [by left|]. split; [right; by exists d|]. exists [MDef d]. split; [done|]. by exists [].
Qed.
Lemma all_paired w s ch : paired [] (actions w s ch).
Proof.
  destruct ch as [cx ts|name o|d|d|g r]; simpl.
  - apply paired_begin.
  - split; [by left|]. by exists [].
  - destruct (s_calls s !! d) as [cl|]; [|done]. destruct (c_st cl) as [i [|t todo]| |]; try done. unfold loop_acts. destruct t as [o|]; [|done].
    destruct (w_deferred w o); [|done]. apply paired_resolve. by destruct (resolve w o s) as [? [?|?]].
  - destruct (s_calls s !! d) as [cl|]; [|done]. unfold return_acts. destruct (decide _); [done|].
    change (paired [] (((fun i => Rd (LErrs d i)) <$> seq 0 (length (c_targets cl))) ++ depth_acts)). apply paired_skip; [|by apply (paired_depth [])].
    intros x (i & -> & _)%elem_of_list_fmap. done.
  - unfold go_acts. destruct (s_gors s !! g) as [gr|]; [|done]. destruct (g_st gr) as [| |p| | | |]; try done.
    + destruct (s_ran s !! g_key gr); simpl; (split; [by left|]; by exists []).
    + simpl. split; [by left|]. by exists [].
    + destruct p as [e|cx ts k|d k|l k]; [destruct e; simpl; [split; [by left|]; by exists []|done]|apply paired_begin|rewrite <- (app_nil_r (resolve_acts _ _ _)); by apply paired_resolve|done].
    + simpl. split; [by left|]. by exists [].
Qed.
