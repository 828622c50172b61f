(** Invariants of the runner machine. *)
From stdpp Require Import base gmap list strings.
From Verif Require Import ContextModel RunnerModel RunnerSteps.

Lemma begin_call_gors p cx ts s : s_gors (begin_call p cx ts s) = s_gors s.
Proof. unfold begin_call. by destruct (decide (ts = [])). Qed.
Lemma begin_call_ran p cx ts s : s_ran (begin_call p cx ts s) = s_ran s.
Proof. unfold begin_call. by destruct (decide (ts = [])). Qed.
Lemma begin_call_reg p cx ts s : s_reg (begin_call p cx ts s) = s_reg s.
Proof. unfold begin_call. by destruct (decide (ts = [])). Qed.
Lemma begin_call_cache p cx ts s : s_cache (begin_call p cx ts s) = s_cache s.
Proof. unfold begin_call. by destruct (decide (ts = [])). Qed.
Lemma begin_call_log p cx ts s :
  s_log (begin_call p cx ts s) = s_log s ++ [EvCall (length (s_calls s)) p cx ts].
Proof. unfold begin_call. by destruct (decide (ts = [])). Qed.
Lemma begin_call_calls p cx ts s :
  s_calls (begin_call p cx ts s) =
  s_calls s ++ [{| c_parent := p; c_cx := cx; c_targets := ts;
              c_errs := replicate (length ts) None; c_wg := 0; c_st := CLoop 0 ts |}].
Proof. unfold begin_call. by destruct (decide (ts = [])). Qed.
Lemma begin_call_depth p cx ts s :
  s_depth (begin_call p cx ts s) = (s_depth s + (if decide (ts = []) then 0 else 1))%Z.
Proof. unfold begin_call. destruct (decide (ts = [])); simpl; lia. Qed.

Lemma maybe_dec_gors ts s :
  s_gors ((if decide (ts = ([] : list tref)) then id else dec_depth) s) = s_gors s.
Proof. by destruct (decide (ts = [])). Qed.
Lemma maybe_dec_ran ts s :
  s_ran ((if decide (ts = ([] : list tref)) then id else dec_depth) s) = s_ran s.
Proof. by destruct (decide (ts = [])). Qed.
Lemma maybe_dec_reg ts s :
  s_reg ((if decide (ts = ([] : list tref)) then id else dec_depth) s) = s_reg s.
Proof. by destruct (decide (ts = [])). Qed.
Lemma maybe_dec_cache ts s :
  s_cache ((if decide (ts = ([] : list tref)) then id else dec_depth) s) = s_cache s.
Proof. by destruct (decide (ts = [])). Qed.
Lemma maybe_dec_calls ts s :
  s_calls ((if decide (ts = ([] : list tref)) then id else dec_depth) s) = s_calls s.
Proof. by destruct (decide (ts = [])). Qed.
Lemma maybe_dec_log ts s :
  s_log ((if decide (ts = ([] : list tref)) then id else dec_depth) s) = s_log s.
Proof. by destruct (decide (ts = [])). Qed.

(** Reduce projections of the updated states. *)
Ltac proj :=
  rewrite <-?list_alter_compose in *;
  cbn [s_ran s_depth s_reg s_cache s_calls s_gors s_log
       set_ran set_depth set_reg set_cache set_calls set_gors emit
       upd_gor upd_call compose spawn reject with_cache inc_depth
       g_call g_idx g_key g_obj g_cx g_st set_gst
       c_parent c_cx c_targets c_errs c_wg c_st set_cst set_err set_wg] in *;
  rewrite <-?list_alter_compose, ?begin_call_gors, ?begin_call_ran, ?begin_call_reg, ?begin_call_cache,
    ?begin_call_log, ?begin_call_calls,
    ?maybe_dec_gors, ?maybe_dec_ran, ?maybe_dec_reg, ?maybe_dec_cache,
    ?maybe_dec_calls, ?maybe_dec_log in *;
  cbn [s_ran s_depth s_reg s_cache s_calls s_gors s_log
       set_ran set_depth set_reg set_cache set_calls set_gors emit
       upd_gor upd_call compose spawn reject with_cache inc_depth
       g_call g_idx g_key g_obj g_cx g_st set_gst
       c_parent c_cx c_targets c_errs c_wg c_st set_cst set_err set_wg] in *.

(** Invert lookups in updated lists and maps found in the context. *)
Ltac inv_lookups :=
  repeat match goal with
  | H : alter _ _ _ !! _ = Some _ |- _ =>
      first [apply list_alter_inv in H as [(?Heq & ? & ? & ->)|(? & H)]
            |apply map_alter_inv in H as [(?Heq & ? & ? & ->)|(? & H)]]; simplify_eq; proj
  | H : <[_:=_]> _ !! _ = Some _ |- _ =>
      apply lookup_insert_Some in H as [(?Heq & ?Heq2)|(? & H)]; simplify_eq; proj
  | H : (_ ++ [_]) !! _ = Some _ |- _ =>
      apply list_snoc_inv in H as [(?Heq & ->)|(? & H)]; simplify_eq; proj
  end; simplify_eq.

(** Index of the first argument of a call that the loop has not reached. *)
Definition cpos (cl : call) : nat :=
  match c_st cl with CLoop i _ => i | _ => length (c_targets cl) end.

(** ** Structure: goroutines and the slots of calls *)

Lemma drop_cons_inv {A} i (l : list A) x l' :
  drop i l = x :: l' -> drop (S i) l = l' /\ S i <= length l /\ l !! i = Some x.
Proof.
  intros H. assert (Hl : l !! i = Some x).
  { rewrite <-(Nat.add_0_r i), <-lookup_drop, H. done. }
  pose proof (lookup_lt_Some _ _ _ Hl). split_and!; [|lia|done].
  rewrite (drop_S _ x) in H by done. by injection H.
Qed.

Definition inv_shape (s : state) : Prop :=
  forall c cl, s_calls s !! c = Some cl ->
  length (c_errs cl) = length (c_targets cl) /\
  forall i todo, c_st cl = CLoop i todo -> drop i (c_targets cl) = todo /\ i <= length (c_targets cl).

Lemma cpos_le s c cl : inv_shape s -> s_calls s !! c = Some cl -> cpos cl <= length (c_targets cl).
Proof.
  intros Hs Hc. unfold cpos. destruct (c_st cl) as [i todo| |] eqn:E; [|lia|lia].
  apply (proj2 (Hs _ _ Hc)) in E. lia.
Qed.

Lemma inv_shape_holds w s : reachable w s -> inv_shape s.
Proof.
  revert s. apply reachable_ind.
  { intros c cl H. done. }
  intros s ch s' _ IH Hstep. unfold inv_shape in *.
  destruct Hstep; intros c0 cl0 Hc0; proj; inv_lookups;
    try (match goal with Hx : s_calls s !! _ = Some ?x |- _ => pose proof (IH _ _ Hx) as [Hl Hd]; clear IH end);
    rewrite ?insert_length, ?replicate_length;
    (split; [done|]); try done; intros i0 todo0 [= <- <-]; (split; [try done|try lia]);
    match goal with Hx : c_st _ = CLoop _ _ |- _ => apply Hd in Hx as [Hx1 Hx2] end;
    apply drop_cons_inv in Hx1; naive_solver.
Qed.

(** The next argument of a call in its loop. *)
Lemma shape_next s c cl i t todo :
  inv_shape s -> s_calls s !! c = Some cl -> c_st cl = CLoop i (t :: todo) ->
  c_targets cl !! i = Some t /\ cpos cl = i /\ i < length (c_targets cl) /\ i < length (c_errs cl).
Proof.
  intros Hs Hc Est. destruct (Hs _ _ Hc) as [Hl Hd]. pose proof (Hd _ _ Est) as [H1 H2].
  apply drop_cons_inv in H1 as (_ & H3 & H4). unfold cpos. rewrite Est.
  split_and!; [done|done|lia|lia].
Qed.

Lemma shape_end s c cl i :
  inv_shape s -> s_calls s !! c = Some cl -> c_st cl = CLoop i [] -> cpos cl = length (c_targets cl).
Proof.
  intros Hs Hc Est. destruct (Hs _ _ Hc) as [Hl Hd]. pose proof (Hd _ _ Est) as [H1 H2].
  unfold cpos. rewrite Est. assert (length (drop i (c_targets cl)) = 0) by (by rewrite H1).
  rewrite drop_length in *. lia.
Qed.

(** How a step changes an existing call. *)
Lemma call_step w s ch s' c cl :
  inv_shape s -> tstep w s ch s' -> s_calls s !! c = Some cl ->
  exists cl', s_calls s' !! c = Some cl' /\ c_parent cl' = c_parent cl /\ c_cx cl' = c_cx cl /\
    c_targets cl' = c_targets cl /\ length (c_errs cl') = length (c_errs cl) /\
    cpos cl <= cpos cl'.
Proof.
  intros Hsh Hstep Hc.
  destruct Hstep; proj;
    lazymatch goal with
    | |- exists _, alter ?f ?c' _ !! _ = _ /\ _ =>
        destruct (decide (c = c')) as [->|Hne];
        [rewrite list_lookup_alter, Hc; eexists; split; [done|]
        |rewrite list_lookup_alter_ne by done; eauto 10]
    | |- exists _, (_ ++ _) !! _ = _ /\ _ =>
        exists cl; rewrite lookup_app_l by (by eapply lookup_lt_Some); done
    | _ => eauto 10
    end; simplify_eq; proj; unfold cpos; proj; rewrite ?insert_length; split_and!; try done.
  - pose proof (shape_end _ _ _ _ Hsh H H0) as Hx. unfold cpos in Hx. lia.
  - rewrite H0. lia.
  - rewrite H0. lia.
  - by rewrite H0.
  - by rewrite H0.
Qed.

(** How a step changes an existing goroutine. *)
Lemma gor_step_fwd w s ch s' g gr :
  tstep w s ch s' -> s_gors s !! g = Some gr ->
  exists st, s_gors s' !! g = Some (set_gst st gr).
Proof.
  intros Hstep Hg.
  assert (Hid : gr = set_gst (g_st gr) gr) by (by destruct gr).
  destruct Hstep; proj;
    lazymatch goal with
    | |- exists _, alter ?f ?g' _ !! _ = _ =>
        destruct (decide (g = g')) as [->|Hne];
        [rewrite list_lookup_alter, Hg; eexists; simpl; done
        |rewrite list_lookup_alter_ne by done; exists (g_st gr); by rewrite <-Hid]
    | |- exists _, (_ ++ _) !! _ = _ =>
        exists (g_st gr); rewrite lookup_app_l by (by eapply lookup_lt_Some); by rewrite <-Hid
    | _ => exists (g_st gr); by rewrite <-Hid
    end.
Qed.

(** Every goroutine of the new state is an old one, or was just spawned. *)
Lemma gor_step_inv w s ch s' g gr' :
  tstep w s ch s' -> s_gors s' !! g = Some gr' ->
  (exists gr, s_gors s !! g = Some gr /\ gr' = set_gst (g_st gr') gr) \/
  (exists c cl i o todo ca,
     g = length (s_gors s) /\ ch = ChLoop c /\ s_calls s !! c = Some cl /\
     c_st cl = CLoop i (TPtr o :: todo) /\ accepts w s o ca (g_obj gr') /\ s_cache s' = ca /\
     s_calls s' = alter (fun cl => set_wg S (set_cst (CLoop (S i) todo) cl)) c (s_calls s) /\
     gr' = {| g_call := c; g_idx := i; g_key := w_addr w o; g_obj := g_obj gr';
              g_cx := c_cx cl; g_st := GStart |}).
Proof.
  intros Hstep Hg.
  assert (Hid : forall gr, gr = set_gst (g_st gr) gr) by (by intros []).
  destruct Hstep; proj; inv_lookups; eauto.
  right. exists c, cl, i, o, todo, ca. split_and!; done.
Qed.

Lemma resolves_cache w s d ca res d' o' :
  resolves w s d ca res -> s_cache s !! d' = Some o' -> ca !! d' = Some o'.
Proof.
  intros Hr H. destruct Hr; simplify_eq; try done.
  rewrite lookup_insert_ne; [done|]. intros ->. congruence.
Qed.

Lemma accepts_cache w s d ca o d' o' :
  accepts w s d ca o -> s_cache s !! d' = Some o' -> ca !! d' = Some o'.
Proof. intros Hr H. destruct Hr; [done|]. by eapply resolves_cache. Qed.

Lemma cache_step w s ch s' d o :
  tstep w s ch s' -> s_cache s !! d = Some o -> s_cache s' !! d = Some o.
Proof.
  intros Hstep H. destruct Hstep; proj; try done.
  - by eapply accepts_cache.
  - by eapply resolves_cache.
Qed.

Lemma accepts_spec w s o ca o' :
  accepts w s o ca o' ->
  (w_deferred w o = None -> o' = o) /\
  (forall name, w_deferred w o = Some name -> ca !! o = Some o').
Proof.
  intros H. destruct H as [H|name ca o' H Hr]; [naive_solver|].
  split; [naive_solver|]. intros name' _. inversion Hr; subst; simplify_eq; try done.
  apply lookup_insert.
Qed.

Definition inv_link (w : world) (s : state) : Prop :=
  forall g gr, s_gors s !! g = Some gr ->
  exists cl o, s_calls s !! g_call gr = Some cl /\
    c_targets cl !! g_idx gr = Some (TPtr o) /\ g_key gr = w_addr w o /\
    (w_deferred w o = None -> g_obj gr = o) /\
    (forall name, w_deferred w o = Some name -> s_cache s !! o = Some (g_obj gr)) /\
    g_idx gr < cpos cl /\ g_cx gr = c_cx cl.

Lemma inv_link_holds w s : reachable w s -> inv_link w s.
Proof.
  revert s. apply reachable_ind; [done|].
  intros s ch s' Hre IH Hstep g gr' Hg.
  apply inv_shape_holds in Hre as Hsh.
  pose proof (gor_step_inv _ _ _ _ _ _ Hstep Hg)
    as [(gr & Hgr & ->)|(c & cl & i & o & todo & ca & -> & -> & Hc & Est & Hacc & Hca & Hcs & Hgr')].
  - destruct (IH _ _ Hgr) as (cl & o & Hc & Ht & Hk & Ho & Hd & Hi & Hcx).
    destruct (call_step _ _ _ _ _ _ Hsh Hstep Hc) as (cl' & Hc' & _ & Hcx' & Ht' & _ & Hp).
    exists cl', o. proj. rewrite Ht', Hcx'. split_and!; try done; [|lia].
    intros name Hn. eapply cache_step; eauto.
  - destruct (shape_next _ _ _ _ _ _ Hsh Hc Est) as (Ht & Hp & _).
    apply accepts_spec in Hacc as [Hacc1 Hacc2]. subst ca.
    exists (set_wg S (set_cst (CLoop (S i) todo) cl)), o. rewrite Hgr'. proj.
    rewrite Hcs, list_lookup_alter, Hc. simpl. split_and!; try done.
    unfold cpos; simpl. lia.
Qed.

Definition inv_uniq (s : state) : Prop :=
  forall g1 g2 gr1 gr2, s_gors s !! g1 = Some gr1 -> s_gors s !! g2 = Some gr2 ->
  g_call gr1 = g_call gr2 -> g_idx gr1 = g_idx gr2 -> g1 = g2.

Lemma inv_uniq_holds w s : reachable w s -> inv_uniq s.
Proof.
  revert s. apply reachable_ind; [done|].
  intros s ch s' Hre IH Hstep g1 g2 gr1 gr2 H1 H2 Hcc Hii.
  apply inv_shape_holds in Hre as Hsh. apply inv_link_holds in Hre as Hli.
  pose proof (gor_step_inv _ _ _ _ _ _ Hstep H1)
    as [(gr1' & Hgr1 & E1)|(c & cl & i & o & todo & ca & -> & -> & Hc & Est & _ & _ & _ & E1)];
  pose proof (gor_step_inv _ _ _ _ _ _ Hstep H2)
    as [(gr2' & Hgr2 & E2)|(c2 & cl2 & i2 & o2 & todo2 & ca2 & -> & Hch & Hc2 & Est2 & _ & _ & _ & E2)];
    try done; rewrite E1, E2 in Hcc, Hii; proj; simplify_eq.
  - eauto.
  - destruct (Hli _ _ Hgr1) as (cl & o & Hc & _ & _ & _ & _ & Hp & _).
    destruct (shape_next _ _ _ _ _ _ Hsh Hc2 Est2) as (_ & Hp' & _). simplify_eq. lia.
  - destruct (Hli _ _ Hgr2) as (cl2 & o2 & Hc2 & _ & _ & _ & _ & Hp & _).
    destruct (shape_next _ _ _ _ _ _ Hsh Hc Est) as (_ & Hp' & _). simplify_eq. lia.
Qed.
