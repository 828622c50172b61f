(** All the targets of one call can be in progress at the same time (C09). *)
From stdpp Require Import base gmap list strings.
From Verif Require Import ContextModel RunnerModel RunnerSteps RunnerSpec.
From Verif Require Import RunnerInv RunnerInv2 RunnerInv3 RunnerInv4 RunnerInv5 RunnerInv6 RunnerProofs RunnerProofs2.

Definition not_end (ev : event) : Prop := match ev with EvEnd _ _ _ _ => False | _ => True end.

Lemma loops_run w c os : forall i s cl,
  s_calls s !! c = Some cl -> c_st cl = CLoop i (TPtr <$> os) ->
  (forall o, o ∈ os -> w_deferred w o = None) ->
  exists s' new, run w s (replicate (length os) (ChLoop c)) = Some s' /\
    s_ran s' = s_ran s /\ s_log s' = s_log s ++ new /\ Forall not_end new /\
    exists grs, s_gors s' = s_gors s ++ grs /\ length grs = length os /\
      forall j o, os !! j = Some o -> exists gr, grs !! j = Some gr /\ g_st gr = GStart /\
        g_key gr = w_addr w o /\ g_obj gr = o /\ g_cx gr = c_cx cl.
Proof.
  induction os as [|o os IH]; intros i s cl Hc Hst Hd; simpl.
  - exists s, []. split_and!; try done; [by rewrite app_nil_r|].
    exists []. split_and!; try done. by rewrite app_nil_r.
  - unfold step_loop. rewrite Hc. simpl. rewrite Hst. simpl.
    rewrite Hd by set_solver. simpl.
    set (s1 := spawn c i (w_addr w o) o (c_cx cl) (upd_call c (set_cst (CLoop (S i) (TPtr <$> os))) s)).
    set (cl1 := set_wg S (set_cst (CLoop (S i) (TPtr <$> os)) cl)).
    destruct (IH (S i) s1 cl1) as (s' & new & Hrun & Hran & Hlog & Hne & grs & Hgs & Hlen & Hall).
    + unfold s1, spawn, upd_call. simpl. rewrite <-list_alter_compose, list_lookup_alter, Hc. done.
    + done.
    + intros o' Ho'. apply Hd. set_solver.
    + exists s', (EvReq c i (w_addr w o) o :: new). split_and!; try done.
      * rewrite Hlog. simpl. by rewrite <-app_assoc.
      * constructor; done.
      * eexists (_ :: grs). rewrite Hgs. unfold s1. simpl. rewrite <-app_assoc. split_and!; [done|simpl; lia|].
        intros [|j] o' Hj; simpl in *; simplify_eq.
        -- eexists. split_and!; done.
        -- by apply Hall.
Qed.

Lemma starts_run w os : forall base s cx,
  (forall j o, os !! j = Some o -> exists gr, s_gors s !! (base + j) = Some gr /\ g_st gr = GStart /\
     g_key gr = w_addr w o /\ g_obj gr = o /\ g_cx gr = cx) ->
  NoDup (w_addr w <$> os) ->
  (forall o, o ∈ os -> s_ran s !! w_addr w o = None) ->
  exists sched s' new, run w s sched = Some s' /\
    s_log s' = s_log s ++ new /\ Forall not_end new /\
    forall o, o ∈ os -> exists g, EvStart g (w_addr w o) o cx ∈ new.
Proof.
  induction os as [|o os IH]; intros base s cx Hg Hnd Hran.
  - exists [], s, []. split_and!; try done; [by rewrite app_nil_r|]. intros o Ho. by apply elem_of_nil in Ho.
  - destruct (Hg 0 o eq_refl) as (gr & Hgr & Hst & Hk & Ho & Hcx). rewrite Nat.add_0_r in Hgr.
    simpl in Hnd. apply NoDup_cons in Hnd as [Hnin Hnd].
    set (s1 := upd_gor base (GBody (body w (g_obj gr) (g_cx gr)))
          (set_ran <[g_key gr := {| o_open := false; o_err := None |}]>
            (emit (EvStart base (g_key gr) (g_obj gr) (g_cx gr)) s))).
    assert (Hstep : step w s (ChGo base 0) = Some s1).
    { simpl. unfold step_go. rewrite Hgr. simpl. rewrite Hst, Hk, Hran by set_solver. by rewrite <-Hk. }
    destruct (IH (S base) s1 cx) as (sched & s' & new & Hrun & Hlog & Hne & Hall).
    + intros j o' Hj. destruct (Hg (S j) o' Hj) as (gr' & Hgr' & Hx). exists gr'. split; [|done].
      unfold s1. simpl. rewrite list_lookup_alter_ne by lia.
      by rewrite <-plus_n_Sm in Hgr'.
    + done.
    + intros o' Ho'. unfold s1. simpl. rewrite Hk, lookup_insert_ne.
      * apply Hran. set_solver.
      * intros Heq. apply Hnin. rewrite Heq. by apply elem_of_list_fmap_1.
    + exists (ChGo base 0 :: sched), s', (EvStart base (w_addr w o) o cx :: new). split_and!.
      * cbn [run]. rewrite Hstep. simpl. done.
      * rewrite Hlog. unfold s1. simpl. rewrite <-app_assoc, Hk, Ho, Hcx. done.
      * constructor; done.
      * intros o' [->|Ho']%elem_of_cons; [exists base; set_solver|].
        destruct (Hall _ Ho') as [g Hin]. exists g. set_solver.
Qed.

Lemma all_parallel_lem w s os cx :
  reachable w s -> (forall o, o ∈ os -> w_deferred w o = None) ->
  NoDup (w_addr w <$> os) ->
  (forall o g o' cx', o ∈ os -> EvStart g (w_addr w o) o' cx' ∉ s_log s) ->
  exists sched s', run w s (ChRun cx (TPtr <$> os) :: sched) = Some s' /\
    forall o, o ∈ os ->
      (exists g, EvStart g (w_addr w o) o cx ∈ s_log s') /\
      (forall g o' e, EvEnd g (w_addr w o) o' e ∉ s_log s').
Proof.
  intros Hre Hd Hnd Hfresh.
  set (s0 := begin_call None cx (TPtr <$> os) s).
  set (c := length (s_calls s)).
  destruct (loops_run w c os 0 s0
    {| c_parent := None; c_cx := cx; c_targets := TPtr <$> os;
       c_errs := replicate (length (TPtr <$> os)) None; c_wg := 0; c_st := CLoop 0 (TPtr <$> os) |})
    as (s1 & new1 & Hrun1 & Hran1 & Hlog1 & Hne1 & grs & Hgs & Hlen & Hall); [|done|done|].
  { unfold s0, c. rewrite begin_call_calls, list_lookup_middle by done. done. }
  destruct (starts_run w os (length (s_gors s0)) s1 cx) as (sched & s2 & new2 & Hrun2 & Hlog2 & Hne2 & Hall2).
  { intros j o Hj. destruct (Hall j o Hj) as (gr & Hgr & Hx). exists gr. split; [|done].
    rewrite Hgs, lookup_app_r by lia. by replace (_ + j - _) with j by lia. }
  { done. }
  { intros o Ho. rewrite Hran1. unfold s0. rewrite begin_call_ran.
    pose proof (proj2 (proj2 (inv_start_holds _ _ Hre)) (w_addr w o)) as Hcnt.
    destruct (s_ran s !! w_addr w o) eqn:E; [|done]. exfalso.
    destruct (countb_pos (is_start (w_addr w o)) (s_log s)) as (i & ev & Hi & Hev); [lia|].
    destruct ev; try done. apply bool_decide_eq_true_1 in Hev as ->.
    eapply Hfresh; [exact Ho|by eapply elem_of_list_lookup_2]. }
  exists (replicate (length os) (ChLoop c) ++ sched), s2. split.
  - cbn [run step]. simpl. fold s0. rewrite run_app, Hrun1. simpl. done.
  - intros o Ho. rewrite Hlog2, Hlog1. unfold s0. rewrite begin_call_log. split.
    + destruct (Hall2 _ Ho) as [g Hin]. exists g. set_solver.
    + intros g o' e Hin.
      rewrite !elem_of_app in Hin. destruct Hin as [[[Hin|Hin]|Hin]|Hin].
      * destruct (end_started w (s_log s) _ _ _ _ (reachable_trace _ _ Hre) Hin) as [cx' Hs].
        by eapply Hfresh.
      * by apply elem_of_list_singleton in Hin.
      * rewrite Forall_forall in Hne1. by apply Hne1 in Hin.
      * rewrite Forall_forall in Hne2. by apply Hne2 in Hin.
Qed.
