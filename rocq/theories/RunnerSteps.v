(** Relational characterisation of [RunnerModel.step], used by the proofs. *)
From stdpp Require Import base gmap list strings.
From Verif Require Import ContextModel RunnerModel.

Inductive rejects (w : world) (s : state) : tref -> err -> Prop :=
  | rej_nonptr : rejects w s TNonPtr ENotPointer
  | rej_unres d name :
      w_deferred w d = Some name -> s_cache s !! d = None -> s_reg s !! name = None ->
      rejects w s (TPtr d) (EUnresolved name).

(** Outcome of resolving [d]: the new cache and the result. *)
Inductive resolves (w : world) (s : state) (d : obj) : gmap obj obj -> err + obj -> Prop :=
  | res_cached o : s_cache s !! d = Some o -> resolves w s d (s_cache s) (inr o)
  | res_self : s_cache s !! d = None -> w_deferred w d = None -> resolves w s d (s_cache s) (inr d)
  | res_fail name :
      s_cache s !! d = None -> w_deferred w d = Some name -> s_reg s !! name = None ->
      resolves w s d (s_cache s) (inl (EUnresolved name))
  | res_found name o :
      s_cache s !! d = None -> w_deferred w d = Some name -> s_reg s !! name = Some o ->
      resolves w s d (<[d:=o]> (s_cache s)) (inr o).

Inductive accepts (w : world) (s : state) (o : obj) : gmap obj obj -> obj -> Prop :=
  | acc_plain : w_deferred w o = None -> accepts w s o (s_cache s) o
  | acc_deferred name ca o' :
      w_deferred w o = Some name -> resolves w s o ca (inr o') -> accepts w s o ca o'.

Definition with_cache (ca : gmap obj obj) : state -> state := set_cache (fun _ => ca).

Inductive tstep (w : world) (s : state) : choice -> state -> Prop :=
  | T_run cx ts : tstep w s (ChRun cx ts) (begin_call None cx ts s)
  | T_reg name o :
      tstep w s (ChRegister name o) (set_reg <[name:=o]> (emit (EvRegister name o) s))
  | T_loop_end c cl i :
      s_calls s !! c = Some cl -> c_st cl = CLoop i [] ->
      tstep w s (ChLoop c) (upd_call c (set_cst CWaiting) s)
  | T_loop_rej c cl i t todo e :
      s_calls s !! c = Some cl -> c_st cl = CLoop i (t :: todo) -> rejects w s t e ->
      tstep w s (ChLoop c) (reject c i e (upd_call c (set_cst (CLoop (S i) todo)) s))
  | T_loop_spawn c cl i o todo ca o' :
      s_calls s !! c = Some cl -> c_st cl = CLoop i (TPtr o :: todo) -> accepts w s o ca o' ->
      tstep w s (ChLoop c)
        (spawn c i (w_addr w o) o' (c_cx cl)
           (with_cache ca (upd_call c (set_cst (CLoop (S i) todo)) s)))
  | T_ret_root c cl :
      s_calls s !! c = Some cl -> c_st cl = CWaiting -> c_wg cl = 0 -> c_parent cl = None ->
      tstep w s (ChReturn c)
        ((if decide (c_targets cl = []) then id else dec_depth)
           (upd_call c (set_cst (CReturned (join (c_errs cl))))
              (emit (EvRet c (c_parent cl) (join (c_errs cl))) s)))
  | T_ret_parent c cl g gr k :
      s_calls s !! c = Some cl -> c_st cl = CWaiting -> c_wg cl = 0 -> c_parent cl = Some g ->
      s_gors s !! g = Some gr -> g_st gr = GCalling c k ->
      tstep w s (ChReturn c)
        (upd_gor g (GBody (k (join (c_errs cl))))
          ((if decide (c_targets cl = []) then id else dec_depth)
           (upd_call c (set_cst (CReturned (join (c_errs cl))))
              (emit (EvRet c (c_parent cl) (join (c_errs cl))) s))))
  | T_go_own g r gr :
      s_gors s !! g = Some gr -> g_st gr = GStart -> s_ran s !! g_key gr = None ->
      tstep w s (ChGo g r)
        (upd_gor g (GBody (body w (g_obj gr) (g_cx gr)))
          (set_ran <[g_key gr := {| o_open := false; o_err := None |}]>
            (emit (EvStart g (g_key gr) (g_obj gr) (g_cx gr)) s)))
  | T_go_wait g r gr oc :
      s_gors s !! g = Some gr -> g_st gr = GStart -> s_ran s !! g_key gr = Some oc ->
      tstep w s (ChGo g r) (upd_gor g GWait s)
  | T_go_woke g r gr oc :
      s_gors s !! g = Some gr -> g_st gr = GWait -> s_ran s !! g_key gr = Some oc ->
      o_open oc = true ->
      tstep w s (ChGo g r)
        (upd_gor g GExit (upd_call (g_call gr) (set_err (g_idx gr) (o_err oc)) s))
  | T_go_ret g r gr e :
      s_gors s !! g = Some gr -> g_st gr = GBody (Ret e) ->
      tstep w s (ChGo g r)
        (upd_gor g GOpen
          (set_ran (alter (fun o => {| o_open := o_open o; o_err := wrap (g_obj gr) e |}) (g_key gr))
            (upd_call (g_call gr) (set_err (g_idx gr) (wrap (g_obj gr) e))
              (emit (EvEnd g (g_key gr) (g_obj gr) e) s))))
  | T_go_eff g r gr l k :
      s_gors s !! g = Some gr -> g_st gr = GBody (Eff l k) ->
      tstep w s (ChGo g r) (upd_gor g (GBody (k r)) (emit (EvEff g l r) s))
  | T_go_res g r gr d k ca res :
      s_gors s !! g = Some gr -> g_st gr = GBody (Resolve d k) -> resolves w s d ca res ->
      tstep w s (ChGo g r) (upd_gor g (GBody (k res)) (emit (EvResolve g d res) (with_cache ca s)))
  | T_go_call g r gr cx ts k :
      s_gors s !! g = Some gr -> g_st gr = GBody (Call cx ts k) ->
      tstep w s (ChGo g r)
        (upd_gor g (GCalling (length (s_calls s)) k) (begin_call (Some g) cx ts s))
  | T_go_open g r gr :
      s_gors s !! g = Some gr -> g_st gr = GOpen ->
      tstep w s (ChGo g r)
        (upd_gor g GExit
          (set_ran (alter (fun o => {| o_open := true; o_err := o_err o |}) (g_key gr)) s))
  | T_go_exit g r gr :
      s_gors s !! g = Some gr -> g_st gr = GExit ->
      tstep w s (ChGo g r) (upd_gor g GDone (upd_call (g_call gr) (set_wg pred) s)).

Lemma resolve_resolves w d s s' res :
  resolve w d s = (s', res) ->
  exists ca, resolves w s d ca res /\ s' = with_cache ca s.
Proof.
  unfold resolve. intros H.
  destruct (s_cache s !! d) as [o|] eqn:Ec.
  - injection H as <- <-. exists (s_cache s). split; [constructor; done|]. by destruct s.
  - destruct (w_deferred w d) as [name|] eqn:Ed.
    + destruct (s_reg s !! name) as [o|] eqn:Er; injection H as <- <-.
      * exists (<[d:=o]> (s_cache s)). split; [by econstructor|]. by destruct s.
      * exists (s_cache s). split; [by econstructor|]. by destruct s.
    + injection H as <- <-. exists (s_cache s). split; [by constructor|]. by destruct s.
Qed.

Lemma resolves_upd_call w s d c f ca res :
  resolves w (upd_call c f s) d ca res -> resolves w s d ca res.
Proof.
  intros H; destruct H as [o H1|H1 H2|name H1 H2 H3|name o H1 H2 H3].
  - exact (res_cached w s d o H1).
  - exact (res_self w s d H1 H2).
  - exact (res_fail w s d name H1 H2 H3).
  - exact (res_found w s d name o H1 H2 H3).
Qed.

Lemma step_tstep w s ch s' : step w s ch = Some s' -> tstep w s ch s'.
Proof.
  destruct ch as [cx ts|name o|c|c|g r]; simpl; intros H.
  - injection H as <-. constructor.
  - injection H as <-. constructor.
  - unfold step_loop in H. apply bind_Some in H as (cl & Hc & H).
    destruct (c_st cl) as [i todo| |e] eqn:Est; [|done|done].
    destruct todo as [|t todo].
    { injection H as <-. econstructor; eauto. }
    injection H as <-. destruct t as [o|]; simpl.
    + destruct (w_deferred w o) as [name|] eqn:Ed.
      * destruct (resolve w o (upd_call c (set_cst (CLoop (S i) todo)) s)) as [s1 [e|o']] eqn:Er.
        -- apply resolve_resolves in Er as (ca & Hr & ->).
           apply resolves_upd_call in Hr. inversion Hr; subst.
           assert (Heq : with_cache (s_cache s) (upd_call c (set_cst (CLoop (S i) todo)) s)
                   = upd_call c (set_cst (CLoop (S i) todo)) s) by (by destruct s).
           rewrite Heq.
           eapply T_loop_rej; eauto. econstructor; eauto.
        -- apply resolve_resolves in Er as (ca & Hr & ->).
           apply resolves_upd_call in Hr.
           eapply T_loop_spawn; eauto. by eapply acc_deferred.
      * assert (Heq : upd_call c (set_cst (CLoop (S i) todo)) s
                = with_cache (s_cache s) (upd_call c (set_cst (CLoop (S i) todo)) s)) by (by destruct s).
        rewrite Heq.
        eapply T_loop_spawn; eauto. by constructor.
    + eapply T_loop_rej; eauto. constructor.
  - unfold step_return in H. apply bind_Some in H as (cl & Hc & H).
    destruct (c_st cl) as [i todo| |e] eqn:Est; [done| |done].
    destruct (c_wg cl) eqn:Ewg; [|done].
    destruct (c_parent cl) as [g|] eqn:Ep.
    + apply bind_Some in H as (gr & Hg & H).
      assert (Hg' : s_gors s !! g = Some gr).
      { revert Hg. by destruct (decide (c_targets cl = [])). }
      destruct (g_st gr) as [| | |c' k| | |] eqn:Eg; try done.
      destruct (decide (c' = c)) as [->|]; [|done].
      injection H as <-. rewrite <-Ep.
      pose proof (T_ret_parent w s c cl g gr k Hc Est Ewg Ep Hg' Eg) as HT.
      destruct (decide (c_targets cl = [])); exact HT.
    + injection H as <-. rewrite <-Ep.
      pose proof (T_ret_root w s c cl Hc Est Ewg Ep) as HT.
      destruct (decide (c_targets cl = [])); exact HT.
  - unfold step_go in H. apply bind_Some in H as (gr & Hg & H).
    destruct (g_st gr) as [| |p|c' k| | |] eqn:Eg; try done.
    + destruct (s_ran s !! g_key gr) as [oc|] eqn:Er; injection H as <-.
      * by eapply T_go_wait.
      * by eapply T_go_own.
    + destruct (s_ran s !! g_key gr) as [oc|] eqn:Er; [|done].
      destruct (o_open oc) eqn:Eo; [|done]. injection H as <-. by eapply T_go_woke.
    + destruct p as [e|cx ts k|d k|l k].
      * injection H as <-. by eapply T_go_ret.
      * injection H as <-. by eapply T_go_call.
      * destruct (resolve w d s) as [s1 res] eqn:Er. injection H as <-.
        apply resolve_resolves in Er as (ca & Hr & ->). by eapply T_go_res.
      * injection H as <-. by eapply T_go_eff.
    + injection H as <-. by eapply T_go_open.
    + injection H as <-. by eapply T_go_exit.
Qed.

(** States reached from [init] by some schedule. *)
Definition reachable (w : world) (s : state) : Prop :=
  exists sched, run w init sched = Some s.

Lemma run_app w s l1 l2 : run w s (l1 ++ l2) = s' ← run w s l1; run w s' l2.
Proof.
  revert s. induction l1 as [|ch l1 IH]; intros s; simpl; [done|].
  destruct (step w s ch); simpl; auto.
Qed.

Lemma reachable_ind (w : world) (P : state -> Prop) :
  P init ->
  (forall s ch s', reachable w s -> P s -> tstep w s ch s' -> P s') ->
  forall s, reachable w s -> P s.
Proof.
  intros H0 Hs s [sched Hrun]. revert s Hrun.
  induction sched as [|ch sched IH] using rev_ind; intros s Hrun; simpl in *.
  - injection Hrun as <-; done.
  - rewrite run_app in Hrun. apply bind_Some in Hrun as (s1 & H1 & H2). simpl in H2.
    apply bind_Some in H2 as (s2 & H2 & H3). injection H3 as <-.
    eapply Hs; [by exists sched|by apply IH|by apply step_tstep].
Qed.

Lemma reachable_step w s ch s' : reachable w s -> step w s ch = Some s' -> reachable w s'.
Proof.
  intros [l Hl] H. exists (l ++ [ch]). rewrite run_app, Hl. simpl. by rewrite H.
Qed.

Lemma list_alter_inv {A} (f : A -> A) (i j : nat) (l : list A) y :
  alter f i l !! j = Some y ->
  (j = i /\ exists x, l !! i = Some x /\ y = f x) \/ (j <> i /\ l !! j = Some y).
Proof.
  destruct (decide (j = i)) as [->|Hne].
  - rewrite list_lookup_alter. destruct (l !! i) as [x|]; simpl; [|done].
    intros [= <-]. left. eauto.
  - rewrite list_lookup_alter_ne by done. auto.
Qed.

Lemma map_alter_inv {A} (f : A -> A) (i j : addr) (m : gmap addr A) y :
  alter f i m !! j = Some y ->
  (j = i /\ exists x, m !! i = Some x /\ y = f x) \/ (j <> i /\ m !! j = Some y).
Proof.
  destruct (decide (j = i)) as [->|Hne].
  - rewrite lookup_alter. destruct (m !! i) as [x|]; simpl; [|done].
    intros [= <-]. left. eauto.
  - rewrite lookup_alter_ne by done. auto.
Qed.

Lemma list_snoc_inv {A} (l : list A) x j y :
  (l ++ [x]) !! j = Some y ->
  (j = length l /\ y = x) \/ (j < length l /\ l !! j = Some y).
Proof.
  intros H. destruct (decide (j < length l)) as [Hlt|Hge].
  - rewrite lookup_app_l in H by done. auto.
  - rewrite lookup_app_r in H by lia.
    destruct (j - length l) as [|n] eqn:E; simpl in H; [|by rewrite lookup_nil in H].
    injection H as <-. left. split; [lia|done].
Qed.
