From stdpp Require Import base gmap list strings relations.
From Verif Require Import ContextModel RunnerModel RunnerSteps RunnerInv RunnerInv2 RunnerInv3 RunnerInv4 RaceModel RaceSpec RaceProofs.
Local Open Scope list_scope.

Lemma split_app {A} (x y l1 l2 : list A) a : x ++ y = l1 ++ a :: l2 ->
  (exists k, x = l1 ++ a :: k /\ l2 = k ++ y) \/ (exists k, l1 = x ++ k /\ y = k ++ a :: l2).
Proof.
  revert l1. induction x as [|z x IH]; intros l1 E; simpl in E; [right; by exists l1|].
  destruct l1 as [|z' l1]; simpl in E; injection E as <- E; [left; subst; by exists x|].
  destruct (IH _ E) as [(k & -> & ->)|(k & -> & ->)]; [left|right]; by exists k.
Qed.
Lemma split_map {A} (f : nat -> A) n l1 a l2 : f <$> seq 0 n = l1 ++ a :: l2 -> exists i, a = f i /\ i < n.
Proof.
  intros E. assert (Hin : a ∈ f <$> seq 0 n) by (rewrite E; apply elem_of_app; right; left).
  apply elem_of_list_fmap in Hin as (i & -> & Hi). exists i. split; [done|]. apply elem_of_seq in Hi. lia.
Qed.
Ltac in_list := repeat first [rewrite elem_of_cons|rewrite elem_of_app]; tauto.
Ltac split_acts := repeat match goal with
  | H : [] = ?l1 ++ _ :: _ |- _ => exfalso; destruct l1; discriminate H
  | H : _ :: _ = ?l1 ++ _ :: _ |- _ => destruct l1 as [|? l1]; cbn [app] in H; [injection H as ? ?; subst|injection H as ? H; subst]
  | H : _ ++ _ = ?l1 ++ _ :: _ |- _ => apply split_app in H as [(? & H & ?)|(? & ? & H)]; subst
  | H : _ <$> seq 0 _ = ?l1 ++ _ :: _ |- _ => apply split_map in H as (? & ? & ?); subst
  end.

Definition mutex_of (x : loc) : option mutex :=
  match x with LDepth | LRan | LReg => Some MCon | LTarget d => Some (MDef d) | _ => None end.

Ltac open_acts H :=
  unfold actions, go_acts, loop_acts, return_acts, begin_acts, resolve_acts, depth_acts, describe_acts in H;
  repeat match type of H with
  | context [match ?x with _ => _ end] => destruct x eqn:?; try (exfalso; destruct H; fail)
  end.
Ltac touched := repeat match goal with
  | H : touches _ _ |- _ => destruct H as [H|H]; try discriminate H; try (injection H as H; subst)
  end.

Lemma actions_guarded w s ch l1 a l2 x m : actions w s ch = l1 ++ a :: l2 -> touches x a -> mutex_of x = Some m -> Lock m ∈ l1 /\ Unlock m ∈ l2.
Proof.
  intros E Ht Hg. open_acts E; split_acts; touched; simpl in Hg; simplify_eq; split; in_list.
Qed.

Definition begins (s : state) (ch : choice) : Prop :=
  (exists cx ts, ch = ChRun cx ts) \/ exists g r gr cx ts k, ch = ChGo g r /\ s_gors s !! g = Some gr /\ g_st gr = GBody (Call cx ts k).

Ltac solve_touch := first [done|in_list|by eauto 12].

Lemma touch_err w s ch l1 a l2 ad : actions w s ch = l1 ++ a :: l2 -> touches (LErr ad) a ->
  exists g r gr, ch = ChGo g r /\ s_gors s !! g = Some gr /\ g_key gr = ad /\
    ((g_st gr = GStart /\ s_ran s !! ad = None /\ a = Wr (LErr ad) /\ Unlock MCon ∈ l2) \/
     (g_st gr = GWait /\ a = Rd (LErr ad) /\ Lock (MGate ad) ∈ l1) \/
     (exists e, g_st gr = GBody (Ret e) /\ a = Wr (LErr ad))).
Proof.
  intros E Ht. open_acts E; split_acts; touched.
  all: try (eexists _, _, _; split; [reflexivity|]; split; [eassumption|]; split; [reflexivity|]).
  all: first [left; split_and!; [assumption|assumption|reflexivity|in_list]|right; left; split_and!; [assumption|reflexivity|in_list]|right; right; eexists; split; [eassumption|reflexivity]].
Qed.
Lemma touch_open w s ch l1 a l2 ad : actions w s ch = l1 ++ a :: l2 -> touches (LOpen ad) a ->
  exists g r gr, ch = ChGo g r /\ s_gors s !! g = Some gr /\ g_key gr = ad /\
    ((g_st gr = GStart /\ s_ran s !! ad = None /\ Unlock MCon ∈ l2) \/
     (g_st gr <> GStart /\ Lock (MGate ad) ∈ l1 /\ Unlock (MGate ad) ∈ l2)).
Proof.
  intros E Ht. open_acts E; split_acts; touched.
  all: eexists _, _, _; split; [reflexivity|]; split; [eassumption|]; split; [reflexivity|].
  all: first [left; split_and!; [assumption|assumption|in_list]|right; split_and!; [congruence|in_list|in_list]].
Qed.
Lemma touch_errs w s ch l1 a l2 c i : actions w s ch = l1 ++ a :: l2 -> touches (LErrs c i) a ->
  (c = length (s_calls s) /\ begins s ch) \/
  (exists cl t todo, ch = ChLoop c /\ s_calls s !! c = Some cl /\ c_st cl = CLoop i (t :: todo) /\ forall g, Spawn g ∉ actions w s ch) \/
  (exists cl, ch = ChReturn c /\ s_calls s !! c = Some cl /\ Waited c ∈ l1) \/
  (exists g r gr, ch = ChGo g r /\ s_gors s !! g = Some gr /\ g_call gr = c /\ g_idx gr = i /\ (g_st gr = GWait \/ exists e, g_st gr = GBody (Ret e))).
Proof.
  intros E Ht. pose proof E as E0. open_acts E; split_acts; touched.
  all: first
    [ left; split; [reflexivity|]; first [left; eexists _, _; reflexivity|right; eexists _, _, _, _, _, _; split; [reflexivity|]; split; eassumption]
    | right; left; eexists _, _, _; split; [reflexivity|]; split; [eassumption|]; split; [eassumption|]; intros g; rewrite E0; rewrite ?elem_of_app, ?elem_of_cons, elem_of_nil; naive_solver
    | right; right; left; eexists; split; [reflexivity|]; split; [eassumption|in_list]
    | right; right; right; eexists _, _, _; split; [reflexivity|]; split; [eassumption|]; split; [reflexivity|]; split; [reflexivity|]; first [left; assumption|right; eexists; eassumption] ].
Qed.
Lemma touch_args w s ch l1 a l2 g : actions w s ch = l1 ++ a :: l2 -> touches (LArgs g) a ->
  (exists r gr, ch = ChGo g r /\ s_gors s !! g = Some gr /\ a = Rd (LArgs g)) \/
  (exists c, ch = ChLoop c /\ g = length (s_gors s) /\ Spawn g ∈ l2).
Proof.
  intros E Ht. open_acts E; split_acts; touched.
  all: first [left; eexists _, _; split; [reflexivity|]; split; [eassumption|reflexivity]|right; eexists; split; [reflexivity|]; split; [reflexivity|in_list]].
Qed.
Lemma touch_vars w s ch l1 a l2 c : actions w s ch = l1 ++ a :: l2 -> touches (LVars c) a ->
  (c = length (s_calls s) /\ begins s ch) \/ (exists g r gr, ch = ChGo g r /\ s_gors s !! g = Some gr /\ g_call gr = c /\ a = Rd (LVars c)).
Proof.
  intros E Ht. open_acts E; split_acts; touched.
  all: first
    [ left; split; [reflexivity|]; first [left; eexists _, _; reflexivity|right; eexists _, _, _, _, _, _; split; [reflexivity|]; split; eassumption]
    | right; eexists _, _, _; split; [reflexivity|]; split; [eassumption|]; split; [reflexivity|reflexivity] ].
Qed.
