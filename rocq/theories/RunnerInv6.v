(** Invariants: registry, list of calls in the log, and the history of each goroutine as a
    path through the body of its target. *)
From stdpp Require Import base gmap list strings.
From Verif Require Import ContextModel RunnerModel RunnerSteps RunnerInv RunnerInv2 RunnerInv3 RunnerInv4 RunnerInv5.

(** ** Registry and cache *)
Definition inv_reg (w : world) (s : state) : Prop :=
  (forall name o, s_reg s !! name = Some o -> EvRegister name o ∈ s_log s) /\
  (forall name o, EvRegister name o ∈ s_log s -> is_Some (s_reg s !! name)) /\
  (forall d o, s_cache s !! d = Some o ->
     exists name, w_deferred w d = Some name /\ EvRegister name o ∈ s_log s).

Lemma resolves_cache_inv w s d ca res d' o' :
  resolves w s d ca res -> ca !! d' = Some o' ->
  s_cache s !! d' = Some o' \/ exists name, w_deferred w d' = Some name /\ s_reg s !! name = Some o'.
Proof.
  intros Hr H. destruct Hr; try (by left).
  apply lookup_insert_Some in H as [[-> ->]|[_ H]]; eauto.
Qed.

Lemma inv_reg_holds w s : reachable w s -> inv_reg w s.
Proof.
  revert s. apply reachable_ind.
  { split_and!; [done| |done]. intros name o H. by apply elem_of_nil in H. }
  intros s ch s' Hre (IH1 & IH2 & IH3) Hstep. split_and!.
  - intros name o Hn.
    assert (Hold : s_reg s !! name = Some o -> EvRegister name o ∈ s_log s').
    { intros. eapply log_mono; eauto. }
    destruct Hstep; proj; try (by apply Hold).
    apply lookup_insert_Some in Hn as [[-> ->]|[_ Hn]]; [|by apply Hold].
    apply elem_of_snoc; by right.
  - intros name o Hin.
    assert (Hold : EvRegister name o ∈ s_log s -> is_Some (s_reg s' !! name)).
    { intros Hi. apply IH2 in Hi. destruct Hstep; proj; try done.
      destruct (decide (name = name0)) as [->|]; [rewrite lookup_insert; eauto|by rewrite lookup_insert_ne]. }
    destruct Hstep; proj; try (by apply Hold);
      try (apply elem_of_snoc in Hin as [Hin|Hin]; [by apply Hold|]; simplify_eq).
    rewrite lookup_insert; eauto.
  - intros d o Hd.
    assert (Hold : s_cache s !! d = Some o -> exists name, w_deferred w d = Some name /\
                EvRegister name o ∈ s_log s').
    { intros Hi. apply IH3 in Hi as (name & ? & ?). exists name. split; [done|]. by eapply log_mono. }
    assert (Hold2 : (exists name, w_deferred w d = Some name /\ s_reg s !! name = Some o) ->
               exists name, w_deferred w d = Some name /\ EvRegister name o ∈ s_log s').
    { intros (name & ? & Hi). exists name. split; [done|]. eapply log_mono; eauto. }
    destruct Hstep; proj; try (by apply Hold).
    + match goal with Hx : accepts _ _ _ _ _ |- _ => inversion Hx; subst; [by apply Hold|] end.
      match goal with Hx : resolves _ _ _ _ _ |- _ => eapply resolves_cache_inv in Hx; eauto end.
      naive_solver.
    + match goal with Hx : resolves _ _ _ _ _ |- _ => eapply resolves_cache_inv in Hx; eauto end.
      naive_solver.
Qed.

Lemma unresolved_unregistered w s ch s' c i name :
  reachable w s -> tstep w s ch s' -> s_log s' = s_log s ++ [EvRej c i (EUnresolved name)] ->
  s_reg s !! name = None.
Proof.
  intros Hre Hstep Hl.
  destruct Hstep; proj;
    try (assert (Hlen : length (s_log s) = length (s_log s ++ [EvRej c i (EUnresolved name)])) by (by rewrite <-Hl);
         rewrite app_length in Hlen; simpl in Hlen; lia);
    apply app_inj_tail in Hl as [_ Hl]; simplify_eq.
  match goal with Hx : rejects _ _ _ _ |- _ => inversion Hx; by subst end.
Qed.

(** ** The calls in the log *)
Definition ev_call (ev : event) : option (nat * option nat * ctx * list tref) :=
  match ev with EvCall c p cx ts => Some (c, p, cx, ts) | _ => None end.
Definition call_info (c : nat) (cl : call) : nat * option nat * ctx * list tref :=
  (c, c_parent cl, c_cx cl, c_targets cl).

Lemma imap_alter {A B} (f : nat -> A -> B) (h : A -> A) i (l : list A) :
  (forall j x, f j (h x) = f j x) -> imap f (alter h i l) = imap f l.
Proof.
  intros Hf. apply list_eq. intros j. rewrite !list_lookup_imap.
  destruct (decide (i = j)) as [->|].
  - rewrite list_lookup_alter. destruct (l !! j); simpl; [by rewrite Hf|done].
  - by rewrite list_lookup_alter_ne.
Qed.

Lemma inv_call_list w s : reachable w s -> omap ev_call (s_log s) = imap call_info (s_calls s).
Proof.
  revert s. apply reachable_ind; [done|].
  intros s ch s' Hre IH Hstep.
  destruct Hstep; proj; rewrite ?omap_app, ?imap_app, ?imap_alter by done; simpl;
    rewrite ?app_nil_r, ?Nat.add_0_r, ?IH; done.
Qed.

(** ** Histories *)
Definition concerns (g : nat) (ev : event) : Prop :=
  match ev with
  | EvCall _ (Some g') _ _ => g' = g
  | EvRet _ (Some g') _ => g' = g
  | EvEff g' _ _ => g' = g
  | EvResolve g' _ _ => g' = g
  | EvEnd g' _ _ _ => g' = g
  | _ => False
  end.
Global Instance concerns_dec g ev : Decision (concerns g ev).
Proof. destruct ev as [|c [g'|] cx ts| | | | | | |c [g'|] e]; simpl; apply _. Defined.

Inductive stage := At (p : prog) | In (c : nat) (k : option err -> prog) | Fin (e : option err).

(** [runs g a o p h st]: the interactions [h] of goroutine [g], running [p] on behalf of
    address [a] and target [o], are a path of [p] leading to [st]. *)
Inductive runs (g : nat) (a : addr) (o : obj) : prog -> list event -> stage -> Prop :=
  | runs_here p : runs g a o p [] (At p)
  | runs_ret e : runs g a o (Ret e) [EvEnd g a o e] (Fin e)
  | runs_eff l k r h st :
      runs g a o (k r) h st -> runs g a o (Eff l k) (EvEff g l r :: h) st
  | runs_res d k r h st :
      runs g a o (k r) h st -> runs g a o (Resolve d k) (EvResolve g d r :: h) st
  | runs_calling cx ts k c :
      runs g a o (Call cx ts k) [EvCall c (Some g) cx ts] (In c k)
  | runs_call cx ts k c e h st :
      runs g a o (k e) h st ->
      runs g a o (Call cx ts k) (EvCall c (Some g) cx ts :: EvRet c (Some g) e :: h) st.

(** One interaction at the end of a history. *)
Inductive extends (g : nat) (a : addr) (o : obj) : stage -> event -> stage -> Prop :=
  | ext_ret e : extends g a o (At (Ret e)) (EvEnd g a o e) (Fin e)
  | ext_eff l k r : extends g a o (At (Eff l k)) (EvEff g l r) (At (k r))
  | ext_res d k r : extends g a o (At (Resolve d k)) (EvResolve g d r) (At (k r))
  | ext_call cx ts k c : extends g a o (At (Call cx ts k)) (EvCall c (Some g) cx ts) (In c k)
  | ext_back c k e : extends g a o (In c k) (EvRet c (Some g) e) (At (k e)).

Lemma runs_snoc g a o p h st ev st' :
  runs g a o p h st -> extends g a o st ev st' -> runs g a o p (h ++ [ev]) st'.
Proof.
  induction 1 as [p|e|l k r h st H IH|d k r h st H IH|cx ts k c|cx ts k c e h st H IH]; intros He; simpl.
  - inversion He; subst; repeat constructor.
  - inversion He.
  - constructor; auto.
  - constructor; auto.
  - inversion He; subst. repeat constructor.
  - constructor; auto.
Qed.

Definition hist (g : nat) (s : state) : list event := filter (concerns g) (s_log s).

Definition hist_ok (w : world) (s : state) (g : nat) (gr : gor) : Prop :=
  let R := runs g (g_key gr) (g_obj gr) (body w (g_obj gr) (g_cx gr)) (hist g s) in
  match g_st gr with
  | GStart | GWait => hist g s = []
  | GBody p => R (At p)
  | GCalling c k => R (In c k)
  | GOpen => exists e, R (Fin e)
  | GExit | GDone => hist g s = [] \/ exists e, R (Fin e)
  end.

Definition inv_hist (w : world) (s : state) : Prop :=
  (forall g gr, s_gors s !! g = Some gr -> hist_ok w s g gr) /\
  (forall g, length (s_gors s) <= g -> hist g s = []).

Lemma hist_app_yes g l ev : concerns g ev -> filter (concerns g) (l ++ [ev]) = filter (concerns g) l ++ [ev].
Proof. intros H. rewrite filter_app, filter_cons_True by done. done. Qed.
Lemma hist_app_no g l ev : ~ concerns g ev -> filter (concerns g) (l ++ [ev]) = filter (concerns g) l.
Proof. intros H. rewrite filter_app, filter_cons_False by done. by rewrite app_nil_r. Qed.

(** Only goroutine [g] and the return of its nested call extend its history. *)
Lemma hist_other w s ch s' g :
  reachable w s -> tstep w s ch s' ->
  (forall r, ch <> ChGo g r) ->
  (forall c cl, ch = ChReturn c -> s_calls s !! c = Some cl -> c_parent cl <> Some g) ->
  hist g s' = hist g s.
Proof.
  intros Hre Hstep H1 H2. unfold hist.
  destruct Hstep; proj; try done; apply hist_app_no; simpl; try (by intros []);
    try (intros ->; by eapply H1).
  - match goal with Hx : c_parent cl = None |- _ => rewrite Hx end. intros [].
  - destruct (c_parent cl) eqn:Ep; [|by intros []]. intros ->. by eapply H2.
Qed.

Lemma inv_hist_holds w s : reachable w s -> inv_hist w s.
Proof.
  revert s. apply reachable_ind; [done|].
  intros s ch s' Hre (IH1 & IH2) Hstep.
  pose proof (inv_parent_holds _ _ Hre) as (P1 & P2).
  assert (Hpar : forall c cl g, s_calls s !! c = Some cl -> c_parent cl = Some g ->
     c_st cl = CWaiting -> exists gr k, s_gors s !! g = Some gr /\ g_st gr = GCalling c k).
  { intros c cl g Hc Hp Hw. eapply P1; eauto. by rewrite Hw. }
  split.
  - intros g gr' Hg'.
    destruct (gor_step_inv _ _ _ _ _ _ Hstep Hg')
      as [(gr & Hgr & E)|(c & cl & i & o & todo & ca & -> & -> & _ & _ & _ & _ & _ & E)].
    + pose proof (IH1 _ _ Hgr) as Hok. unfold hist_ok in *.
      destruct (choice_go_dec ch g) as [[r ->]|Hch].
      * inversion Hstep; subst; simplify_eq; proj;
          rewrite list_lookup_alter, Hgr in Hg'; simpl in Hg'; simplify_eq; unfold hist in *; proj;
          match goal with Hx : g_st gr = _ |- _ => rewrite Hx in Hok end;
          try (rewrite hist_app_yes by done); try done; eauto;
          try (eexists; eapply runs_snoc; [done|constructor]; fail);
          try (eapply runs_snoc; [done|constructor]; fail).
        rewrite hist_app_no by (simpl; tauto). rewrite Hok. constructor.
      * destruct (gor_other _ _ _ _ _ _ Hstep Hgr Hch)
          as [Hx|(c & k & cl & -> & Hst & Hc & Hp & Hw & _ & Hx)]; rewrite Hx in Hg'.
        -- injection Hg' as <-.
           assert (Hh : hist g s' = hist g s).
           { eapply hist_other; eauto. intros c cl -> Hc Hp.
             inversion Hstep; subst; simplify_eq.
             proj. rewrite list_lookup_alter, Hgr in Hx. simpl in Hx.
             injection Hx as Hx. rewrite <-Hx in *. done. }
           by rewrite Hh.
        -- injection Hg' as <-. simpl. rewrite Hst in Hok.
           assert (Hh : hist g s' = hist g s ++ [EvRet c (Some g) (join (c_errs cl))]).
           { unfold hist. inversion Hstep; subst; simplify_eq; proj.
             rewrite Hp. by rewrite hist_app_yes. }
           rewrite Hh. eapply runs_snoc; [done|constructor].
    + rewrite E. unfold hist_ok; simpl.
      assert (hist (length (s_gors s)) s' = hist (length (s_gors s)) s) as ->.
      { eapply hist_other; eauto; done. }
      by apply IH2.
  - intros g Hg.
    assert (Hlen : length (s_gors s) <= length (s_gors s')).
    { destruct Hstep; proj; rewrite ?alter_length, ?app_length; simpl; lia. }
    rewrite (hist_other w s ch s'); [apply IH2; lia|done|done| |].
    + intros r ->. inversion Hstep; subst;
        match goal with Hx : s_gors s !! g = Some _ |- _ => apply lookup_lt_Some in Hx; lia end.
    + intros c cl -> Hc Hp.
      assert (Hw : c_st cl = CWaiting) by (inversion Hstep; subst; by simplify_eq).
      destruct (Hpar _ _ _ Hc Hp Hw) as (gr & k & Hgr & _). apply lookup_lt_Some in Hgr. lia.
Qed.

Lemma hist_runs w s g a o cx :
  reachable w s -> EvStart g a o cx ∈ s_log s ->
  exists st, runs g a o (body w o cx) (hist g s) st.
Proof.
  intros Hre Hin. pose proof (inv_start_holds _ _ Hre) as (S1 & _).
  destruct (S1 _ _ _ _ Hin) as (gr & Hg & <- & <- & <- & Hst & _).
  pose proof (proj1 (inv_hist_holds _ _ Hre) _ _ Hg) as Hok. unfold hist_ok, started in *.
  destruct (g_st gr); try done; eauto.
  - destruct Hok as [e Hok]. eauto.
  - destruct Hok as [->|[e Hok]]; eauto using runs_here.
  - destruct Hok as [->|[e Hok]]; eauto using runs_here.
Qed.

(** Interactions happen only while the body of the goroutine is running. *)
Lemma hist_started w s g :
  reachable w s -> hist g s <> [] -> exists a o cx, EvStart g a o cx ∈ s_log s.
Proof.
  intros Hre. revert s Hre. refine (reachable_ind w _ _ _); [done|].
  intros s ch s' Hre IH Hstep Hh.
  assert (Hold : hist g s <> [] -> exists a o cx, EvStart g a o cx ∈ s_log s').
  { intros H. destruct (IH H) as (a & o & cx & Hin). exists a, o, cx. by eapply log_mono. }
  destruct (decide (hist g s = [])) as [Hnil|]; [|by apply Hold].
  pose proof (inv_hist_holds _ _ Hre) as [H1 _].
  pose proof (inv_start_holds _ _ Hre) as (_ & S2 & _).
  destruct (choice_go_dec ch g) as [[r ->]|Hch].
  - assert (exists gr, s_gors s !! g = Some gr /\ is_owner gr = true) as (gr & Hg & Ho).
    { unfold hist in *. inversion Hstep; subst; proj; try congruence;
        try (eexists; split; [done|]; unfold is_owner;
             match goal with Hx : g_st _ = _ |- _ => by rewrite Hx end).
      exfalso. rewrite hist_app_no in Hh by (simpl; tauto). done. }
    exists (g_key gr), (g_obj gr), (g_cx gr). eapply log_mono; eauto.
  - assert (exists c cl, ch = ChReturn c /\ s_calls s !! c = Some cl /\ c_parent cl = Some g) as (c & cl & -> & Hc & Hp).
    { destruct ch as [| |c|c|g' r]; try (exfalso; apply Hh; erewrite hist_other; eauto; done).
      exists c. destruct (s_calls s !! c) as [cl|] eqn:Hc.
      - exists cl. split_and!; try done. destruct (decide (c_parent cl = Some g)); [done|].
        exfalso; apply Hh; erewrite hist_other; eauto. intros c' cl' [= <-] Hc'. congruence.
      - inversion Hstep; subst; congruence. }
    assert (Hw : c_st cl = CWaiting) by (inversion Hstep; subst; by simplify_eq).
    destruct (proj1 (inv_parent_holds _ _ Hre) c cl g) as (gr & k & Hg & Hk); try done.
    { by rewrite Hw. }
    exists (g_key gr), (g_obj gr), (g_cx gr). eapply log_mono; eauto. apply S2; [done|].
    unfold is_owner. by rewrite Hk.
Qed.
