From stdpp Require Import base sets strings numbers list.
From Verif Require Import SqliteModel SqliteSpec.
Local Open Scope Z_scope.

(** ** The history. *)
Lemma holds_snoc h t l ev :
  holds h t (l ++ [ev]) <->
  accessed h t ev \/
  (holds h t l /\ (forall t', ~ accessed h t' ev) /\ (forall k now, ev = EvDelete k now -> spares k now t)).
Proof.
  split.
  - intros (l1 & e & l2 & Hl & Ha & Hn & Hs). destruct l2 as [|x l2 _] using rev_ind.
    + apply app_inj_tail in Hl as [-> ->]. by left.
    + rewrite app_comm_cons, app_assoc in Hl. apply app_inj_tail in Hl as [-> ->]. right. split_and!.
      * exists l1, e, l2. split_and!; [done|done|intros; eapply Hn|intros; eapply Hs]; apply elem_of_app; by left.
      * intros t'. eapply Hn. apply elem_of_app. right. by left.
      * intros k now ->. eapply Hs. apply elem_of_app. right. by left.
  - intros [Ha|((l1 & e & l2 & -> & Ha & Hn & Hs) & Hn' & Hs')].
    + exists l, ev, []. split_and!; [done|done|by intros ??[]%elem_of_nil|by intros ??[]%elem_of_nil].
    + exists l1, e, (l2 ++ [ev]). split_and!; [by rewrite <-app_assoc|done| |].
      * intros ev' t' [?|?%elem_of_list_singleton]%elem_of_app; [by eapply Hn|subst; apply Hn'].
      * intros k now [?|?%elem_of_list_singleton]%elem_of_app; [by eapply Hs|by eapply Hs'].
Qed.

Lemma holds_last h t l : holds h t l -> last_access h t l.
Proof. intros (l1 & ev & l2 & ? & ? & ? & ?). by exists l1, ev, l2. Qed.

Lemma last_access_snoc h t l ev :
  last_access h t (l ++ [ev]) <->
  accessed h t ev \/ (last_access h t l /\ (forall t', ~ accessed h t' ev)).
Proof.
  split.
  - intros (l1 & e & l2 & Hl & Ha & Hn). destruct l2 as [|x l2 _] using rev_ind.
    + apply app_inj_tail in Hl as [-> ->]. by left.
    + rewrite app_comm_cons, app_assoc in Hl. apply app_inj_tail in Hl as [-> ->]. right. split.
      * exists l1, e, l2. split_and!; [done|done|intros; eapply Hn]; apply elem_of_app; by left.
      * intros t'. eapply Hn. apply elem_of_app. right. by left.
  - intros [Ha|((l1 & e & l2 & -> & Ha & Hn) & Hn')].
    + exists l, ev, []. split_and!; [done|done|by intros ??[]%elem_of_nil].
    + exists l1, e, (l2 ++ [ev]). split_and!; [by rewrite <-app_assoc|done|].
      intros ev' t' [?|?%elem_of_list_singleton]%elem_of_app; [by eapply Hn|subst; apply Hn'].
Qed.
Lemma accessed_inj h t t' ev : accessed h t ev -> accessed h t' ev -> t = t'.
Proof. intros [->| ->] [?|?]; congruence. Qed.
Lemma last_access_inj h t t' l : last_access h t l -> last_access h t' l -> t = t'.
Proof.
  revert t t'. induction l as [|ev l IH] using rev_ind; intros t t'.
  - intros (l1 & e & l2 & Hl & _). by destruct l1.
  - intros [H|[H Hn]]%last_access_snoc [H'|[H' Hn']]%last_access_snoc.
    + by eapply accessed_inj.
    + by destruct (Hn' t).
    + by destruct (Hn t').
    + by eapply IH.
Qed.

(** ** The table. *)
Lemma sql_count_pos h tb : (0 < sql_count h tb)%nat <-> exists s, (h, s) ∈ tb.
Proof.
  unfold sql_count. split.
  - intros H. destruct (filter (fun r => r.1 = h) tb) as [|[h' s] l] eqn:E; simpl in H; [lia|].
    assert (Hin : (h', s) ∈ filter (fun r => r.1 = h) tb) by (rewrite E; left).
    apply elem_of_list_filter in Hin as [? ?]. simpl in *. subst. eauto.
  - intros [s Hin].
    assert (Hf : (h, s) ∈ filter (fun r => r.1 = h) tb) by (by apply elem_of_list_filter).
    destruct (filter (fun r => r.1 = h) tb); simpl; [by apply elem_of_nil in Hf|lia].
Qed.
Lemma elem_of_update secs h tb h' s :
  (h', s) ∈ sql_update secs h tb <->
  (h' = h /\ s = secs /\ (exists s0, (h, s0) ∈ tb)) \/ (h' <> h /\ (h', s) ∈ tb).
Proof.
  unfold sql_update. rewrite elem_of_list_fmap. split.
  - intros ([h0 s0] & Heq & Hin). case_decide; simplify_eq; eauto.
  - intros [(-> & -> & s0 & Hin)|[Hne Hin]].
    + exists (h, s0). by rewrite decide_True.
    + exists (h', s). by rewrite decide_False.
Qed.
Lemma update_fst secs h tb : fst <$> sql_update secs h tb = fst <$> tb.
Proof.
  unfold sql_update. rewrite <-list_fmap_compose. apply list_fmap_ext. intros i [h' s] _. simpl.
  by case_decide.
Qed.
Lemma elem_of_upsert h secs tb h' s :
  (h', s) ∈ sql_upsert h secs tb <-> (h' = h /\ s = secs) \/ (h' <> h /\ (h', s) ∈ tb).
Proof.
  unfold sql_upsert. case_decide as Hc.
  - assert (Hn : forall s0, (h, s0) ∉ tb).
    { intros s0 Hin. assert (0 < sql_count h tb)%nat by (apply sql_count_pos; eauto). lia. }
    rewrite elem_of_app, elem_of_list_singleton. split.
    + intros [Hin|[= -> ->]]; [|by left]. right. split; [|done]. intros ->. by eapply Hn.
    + intros [[-> ->]|[? ?]]; auto.
  - assert (exists s0, (h, s0) ∈ tb) by (apply sql_count_pos; lia).
    rewrite elem_of_update. naive_solver.
Qed.
Lemma upsert_nodup h secs tb : NoDup (fst <$> tb) -> NoDup (fst <$> sql_upsert h secs tb).
Proof.
  intros Hn. unfold sql_upsert. case_decide as Hc; [|by rewrite update_fst].
  rewrite fmap_app. apply NoDup_app. split; [done|]. split; [|by apply NoDup_singleton].
  intros h' Hin. simpl. rewrite elem_of_list_singleton. intros ->.
  apply elem_of_list_fmap in Hin as ([h' s] & Heq & Hin). simpl in Heq. subst h'.
  assert (0 < sql_count h tb)%nat by (apply sql_count_pos; eauto). lia.
Qed.
Lemma elem_of_delete secs tb h s : (h, s) ∈ sql_delete secs tb <-> (secs <= s /\ (h, s) ∈ tb).
Proof. unfold sql_delete. rewrite elem_of_list_filter. simpl. split; intros [? ?]; split; try done; lia. Qed.
Lemma delete_nodup secs tb : NoDup (fst <$> tb) -> NoDup (fst <$> sql_delete secs tb).
Proof.
  unfold sql_delete. induction tb as [|r tb IH]; intros Hn; [done|].
  rewrite fmap_cons in Hn. apply NoDup_cons in Hn as [Hr Hn]. rewrite filter_cons. case_decide; [|auto].
  rewrite fmap_cons. apply NoDup_cons. split; [|auto].
  intros Hin. apply Hr. apply elem_of_list_fmap in Hin as (r' & -> & Hin).
  apply elem_of_list_filter in Hin as [_ Hin]. apply elem_of_list_fmap. eauto.
Qed.

(** ** The invariant. *)
Record inv (s : state) : Prop := {
  i_nodup : NoDup (fst <$> s_table s);
  i_rows : forall h secs, (h, secs) ∈ s_table s <-> exists t, holds h t (s_log s) /\ secs = unix t;
}.
Lemma init_inv : inv init.
Proof.
  split; [constructor|]. simpl. intros h secs. split; [by intros ?%elem_of_nil|].
  intros (t & (l1 & ? & ? & Hl & _) & _). by destruct l1.
Qed.

Lemma present_iff s h : inv s -> (0 < sql_count h (s_table s))%nat <-> exists t, holds h t (s_log s).
Proof.
  intros I. rewrite sql_count_pos. split.
  - intros [secs Hin]. apply (i_rows s I) in Hin as (t & ? & _). eauto.
  - intros [t Ht]. exists (unix t). apply (i_rows s I). eauto.
Qed.

Ltac no_access := let H := fresh in intros ? [H|H]; congruence.

Lemma exec_has_inv s h now : inv s ->
  inv (exec (sql_update (unix now) h (s_table s))
         (EvHas h (Some now) (bool_decide (0 < sql_count h (s_table s))%nat)) s).
Proof.
  intros I. split; simpl; [rewrite update_fst; apply I|]. intros h' secs. rewrite elem_of_update.
  pose proof (present_iff s h I) as Hp. setoid_rewrite holds_snoc.
  destruct (decide (h' = h)) as [->|Hne].
  - split.
    + intros [(_ & -> & Hex)|[? _]]; [|done]. exists now. split; [|done]. left. right. f_equal.
      apply bool_decide_eq_true, sql_count_pos. done.
    + intros (t & [[H|H]|(Hh & Hn & _)] & ->); [done| |].
      * injection H as -> Hb. apply bool_decide_eq_true, sql_count_pos in Hb. left. done.
      * exfalso. apply (Hn now). right. f_equal. apply bool_decide_eq_true, Hp. eauto.
  - split.
    + intros [(-> & _)|[_ Hin]]; [done|]. apply (i_rows s I) in Hin as (t & Ht & ->).
      exists t. split; [|done]. right. split_and!; [done|no_access|done].
    + intros (t & [[H|H]|(Hh & _)] & ->); [congruence|congruence|].
      right. split; [done|]. apply (i_rows s I). eauto.
Qed.
Lemma exec_count_inv s h b : inv s -> inv (exec (s_table s) (EvHas h None b) s).
Proof.
  intros I. split; simpl; [apply I|]. intros h' secs. rewrite (i_rows s I). setoid_rewrite holds_snoc.
  split; intros (t & H & ->); exists t; (split; [|done]).
  - right. split_and!; [done|no_access|done].
  - destruct H as [[H|H]|[H _]]; done.
Qed.
Lemma exec_add_inv s h now : inv s -> inv (exec (sql_upsert h (unix now) (s_table s)) (EvAdd h now) s).
Proof.
  intros I. split; simpl; [apply upsert_nodup, I|]. intros h' secs. rewrite elem_of_upsert.
  setoid_rewrite holds_snoc. destruct (decide (h' = h)) as [->|Hne].
  - split.
    + intros [[_ ->]|[? _]]; [|done]. exists now. split; [|done]. left. by left.
    + intros (t & [[H|H]|(_ & Hn & _)] & ->); [|done|].
      * left. by simplify_eq.
      * exfalso. apply (Hn now). by left.
  - split.
    + intros [[-> _]|[_ Hin]]; [done|]. apply (i_rows s I) in Hin as (t & Ht & ->).
      exists t. split; [|done]. right. split_and!; [done|no_access|done].
    + intros (t & [[H|H]|(Hh & _)] & ->); [congruence|congruence|].
      right. split; [done|]. apply (i_rows s I). eauto.
Qed.
Lemma exec_delete_inv s k now : inv s ->
  inv (exec (sql_delete (unix (now - k)) (s_table s)) (EvDelete k now) s).
Proof.
  intros I. split; simpl; [apply delete_nodup, I|]. intros h secs. rewrite elem_of_delete.
  setoid_rewrite holds_snoc. rewrite (i_rows s I). split.
  - intros (Hle & t & Ht & ->). exists t. split; [|done]. right.
    split_and!; [done|no_access|]. intros k' now' [= <- <-]. done.
  - intros (t & [[H|H]|(Ht & _ & Hs)] & ->); [done|done|]. split; [by apply Hs|]. eauto.
Qed.
Lemma at_inv i c s : inv s -> inv (at_call i c s).
Proof. intros [? ?]. by split. Qed.

Lemma go_inv i t s s' : inv s -> go i t s = Some s' -> inv s'.
Proof.
  intros I H. unfold go in H. destruct (s_calls s !! i) as [c|]; simpl in H; [|done].
  destruct c; simpl in H; simplify_eq.
  - destruct (updateOnAccess o); simplify_eq; [by apply at_inv|]. by apply at_inv, exec_count_inv.
  - by apply at_inv, exec_has_inv.
  - by apply at_inv.
  - by apply at_inv, exec_add_inv.
  - by apply at_inv, exec_delete_inv.
Qed.
Lemma step_inv s c s' : inv s -> step s c = Some s' -> inv s'.
Proof.
  intros I H. destruct c; simpl in H; simplify_eq.
  - destruct I. by split.
  - destruct I. by split.
  - by eapply go_inv.
  - destruct I. by split.
Qed.
Lemma run_inv cs : forall s s', inv s -> run s cs = Some s' -> inv s'.
Proof.
  induction cs as [|c cs IH]; simpl; intros s s' I H; [by simplify_eq|].
  destruct (step s c) as [s1|] eqn:E; simpl in H; [|done]. eapply IH; [|done]. by eapply step_inv.
Qed.
Lemma reachable_inv s : reachable s -> inv s.
Proof. intros [cs H]. eapply run_inv; [apply init_inv|done]. Qed.

(** ** Consequences. *)
Lemma one_row s h s1 s2 : reachable s -> (h, s1) ∈ s_table s -> (h, s2) ∈ s_table s -> s1 = s2.
Proof.
  intros Hr%reachable_inv H1 H2. apply (i_rows s Hr) in H1 as (t1 & H1 & ->), H2 as (t2 & H2 & ->).
  f_equal. eapply last_access_inj; by apply holds_last.
Qed.

Lemma has_answer_step s c s' h u b : inv s -> step s c = Some s' ->
  s_log s' = s_log s ++ [EvHas h u b] -> b = true <-> exists t, holds h t (s_log s).
Proof.
  intros I H Hl. rewrite <-(present_iff s h I).
  assert (Hno : s_log s = s_log s ++ [EvHas h u b] -> False).
  { intros E. apply (f_equal length) in E. rewrite app_length in E. simpl in E. lia. }
  destruct c; simpl in H; try (injection H as <-; simpl in Hl; by destruct (Hno Hl)).
  unfold go in H. destruct (s_calls s !! i) as [c|]; simpl in H; [|done].
  destruct c; simpl in H; try done; try (injection H as <-; simpl in Hl; try by destruct (Hno Hl)).
  - destruct (updateOnAccess o); injection H as <-; simpl in Hl; [by destruct (Hno Hl)|].
    apply app_inj_tail in Hl as [_ Hl]. simplify_eq. by rewrite bool_decide_eq_true.
  - apply app_inj_tail in Hl as [_ Hl]. simplify_eq. by rewrite bool_decide_eq_true.
  - apply app_inj_tail in Hl as [_ Hl]. done.
  - apply app_inj_tail in Hl as [_ Hl]. done.
Qed.

Lemma step_log s c s' : step s c = Some s' -> s_log s' = s_log s \/ exists ev, s_log s' = s_log s ++ [ev].
Proof.
  intros H. destruct c; simpl in H; simplify_eq; simpl; eauto.
  unfold go in H. destruct (s_calls s !! i) as [c|]; simpl in H; [|done].
  destruct c; simpl in H; simplify_eq; simpl; eauto.
  destruct (updateOnAccess o); simplify_eq; simpl; eauto.
Qed.

Lemma has_answer_run cs : forall s s' h u b l2, inv s -> run s cs = Some s' ->
  forall l1, s_log s' = l1 ++ EvHas h u b :: l2 -> (length (s_log s) <= length l1)%nat ->
  b = true <-> exists t, holds h t l1.
Proof.
  induction cs as [|c cs IH]; simpl; intros s s' h u b l2 I H l1 Hl Hlen.
  - simplify_eq. rewrite Hl, app_length in Hlen. simpl in Hlen. lia.
  - destruct (step s c) as [s1|] eqn:E; simpl in H; [|done].
    destruct (step_log _ _ _ E) as [Hlog|[ev Hlog]].
    + eapply IH; [by eapply step_inv|done|done|by rewrite Hlog].
    + destruct (decide (length (s_log s1) <= length l1)%nat) as [|Hgt].
      { eapply IH; [by eapply step_inv|done|done|done]. }
      assert (Heq : length l1 = length (s_log s)) by (rewrite Hlog, app_length in Hgt; simpl in Hgt; lia).
      assert (Hpre : exists l3, s_log s' = s_log s1 ++ l3).
      { clear -H. revert s1 H. induction cs as [|c cs IH]; simpl; intros s1 H.
        - simplify_eq. exists []. by rewrite app_nil_r.
        - destruct (step s1 c) as [s2|] eqn:E; simpl in H; [|done]. destruct (IH _ H) as [l3 ->].
          destruct (step_log _ _ _ E) as [->|[ev ->]]; [eauto|]. exists (ev :: l3). by rewrite <-app_assoc. }
      destruct Hpre as [l3 Hpre]. rewrite Hpre, Hlog, <-app_assoc in Hl. simpl in Hl.
      apply app_inj_1 in Hl as [<- Hl]; [|done]. injection Hl as -> _.
      by eapply has_answer_step.
Qed.
Lemma has_answer_lem s l1 h u b l2 : reachable s -> s_log s = l1 ++ EvHas h u b :: l2 ->
  b = true <-> exists t, holds h t l1.
Proof.
  intros [cs Hr] Hl. eapply (has_answer_run cs init s); [apply init_inv|done|done|simpl; lia].
Qed.

(** Eviction. *)
Lemma unix_lt a b : unix a < unix b -> a < b.
Proof. unfold unix. intros H. destruct (Z.lt_ge_cases a b); [done|]. pose proof (Z.div_le_mono b a 1000000000). lia. Qed.

(** Only a delete statement removes, and its keep period is positive. *)
Definition del_ok (s : state) : Prop :=
  (forall i o h now, s_calls s !! i = Some (AddDelete o h now) -> 0 < keep o) /\
  (forall k now, EvDelete k now ∈ s_log s -> 0 < k).
Lemma go_del i t s s' : del_ok s -> go i t s = Some s' -> del_ok s'.
Proof.
  intros [D1 D2] H. unfold go in H. destruct (s_calls s !! i) as [c|] eqn:Ei; simpl in H; [|done].
  assert (Hat : forall c0 s0, s_calls s0 = s_calls s -> (forall o h now, c0 = AddDelete o h now -> 0 < keep o) ->
            forall j o h now, s_calls (at_call i c0 s0) !! j = Some (AddDelete o h now) -> 0 < keep o).
  { intros c0 s0 Es Hc j o h now Hj. simpl in Hj. rewrite Es in Hj.
    destruct (decide (j = i)) as [->|]; [|rewrite list_lookup_insert_ne in Hj by done; eauto].
    rewrite list_lookup_insert in Hj by (by eapply lookup_lt_Some). simplify_eq. eauto. }
  destruct c; simpl in H; simplify_eq.
  - destruct (updateOnAccess o); simplify_eq; (split; [by apply Hat|]); [done|].
    simpl. intros k now [?|?%elem_of_list_singleton]%elem_of_app; [eauto|done].
  - split; [by apply Hat|]. simpl. intros k now' [?|?%elem_of_list_singleton]%elem_of_app; [eauto|done].
  - split; [by apply Hat|]. done.
  - split.
    + apply Hat; [done|]. intros o' h' now' Hc. case_bool_decide; simplify_eq. done.
    + simpl. intros k now' [?|?%elem_of_list_singleton]%elem_of_app; [eauto|done].
  - split; [by apply Hat|]. simpl. intros k now' [?|Heq%elem_of_list_singleton]%elem_of_app; [eauto|].
    simplify_eq. by eapply D1.
Qed.
Lemma reachable_del s : reachable s -> del_ok s.
Proof.
  intros [cs H]. assert (D : del_ok init) by (split; [done|by intros ??[]%elem_of_nil]).
  revert H D. generalize init. induction cs as [|c cs IH]; simpl; intros s0 H D; [by simplify_eq|].
  destruct (step s0 c) as [s1|] eqn:E; simpl in H; [|done]. eapply IH; [done|].
  destruct D as [D1 D2]. destruct c; simpl in E; simplify_eq.
  - split; [|done]. simpl. intros i o' h' now [?|[_ Hi]]%lookup_app_Some; [eauto|].
    by apply list_lookup_singleton_Some in Hi as [_ ?].
  - split; [|done]. simpl. intros i o' h' now [?|[_ Hi]]%lookup_app_Some; [eauto|].
    by apply list_lookup_singleton_Some in Hi as [_ ?].
  - by eapply go_del.
  - split; [|done]. done.
Qed.

Lemma evict_lem s c s' h t : reachable s -> step s c = Some s' ->
  holds h t (s_log s) -> (forall t', ~ holds h t' (s_log s')) ->
  exists k now, s_log s' = s_log s ++ [EvDelete k now] /\ 0 < k /\ k < now - t.
Proof.
  intros Hr Hs Hh Hn. assert (Hr' : reachable s').
  { destruct Hr as [cs Hr]. exists (cs ++ [c]). clear -Hr Hs. revert Hr. generalize init.
    induction cs as [|c' cs IH]; simpl; intros s0 H; [simplify_eq; by rewrite Hs|].
    destruct (step s0 c'); simpl in *; [by apply IH|done]. }
  destruct (step_log _ _ _ Hs) as [E|[ev E]].
  { rewrite E in Hn. by destruct (Hn t). }
  assert (Hacc : forall ev, (exists t', accessed h t' ev) \/ forall t', ~ accessed h t' ev).
  { intros [h' t'|h' [t'|] []|]; try (right; no_access);
      (destruct (decide (h' = h)) as [->|]; [left; exists t'; by (left + right)|right; no_access]). }
  destruct (Hacc ev) as [[t' Ha]|Hna].
  { exfalso. apply (Hn t'). rewrite E. apply holds_snoc. by left. }
  destruct ev as [| |k now].
  - exfalso. apply (Hn t). rewrite E. apply holds_snoc. right. by split_and!.
  - exfalso. apply (Hn t). rewrite E. apply holds_snoc. right. by split_and!.
  - exists k, now. split; [done|]. split.
    + eapply reachable_del; [exact Hr'|]. rewrite E. apply elem_of_app. right. by left.
    + destruct (decide (unix (now - k) <= unix t)) as [Hsp|Hsp].
      * destruct (Hn t). rewrite E. apply holds_snoc. right. split_and!; [done|done|].
        intros k' now' [= <- <-]. done.
      * assert (unix t < unix (now - k)) as ?%unix_lt by lia. lia.
Qed.

(** Conversely, an eviction leaves nothing that is out of date by a second or more. *)
Lemma evict_all_lem l k now h t :
  holds h t (l ++ [EvDelete k now]) -> now - t < k + 1000000000.
Proof.
  intros [[H|H]|(_ & _ & Hs)]%holds_snoc; [done|done|]. specialize (Hs k now eq_refl).
  unfold spares, unix in Hs.
  pose proof (Z.mod_pos_bound t 1000000000). pose proof (Z.mod_pos_bound (now - k) 1000000000).
  pose proof (Z.div_mod t 1000000000). pose proof (Z.div_mod (now - k) 1000000000). lia.
Qed.

Lemma add_has_lem o o' now now' h tb : (Has o' now' h (Add o now h tb)).2 = true.
Proof.
  assert (Hb : bool_decide (0 < sql_count h (Add o now h tb))%nat = true).
  { apply bool_decide_eq_true, sql_count_pos. exists (unix now). unfold Add.
    assert ((h, unix now) ∈ sql_upsert h (unix now) tb) by (apply elem_of_upsert; by left).
    case_bool_decide; [|done]. apply elem_of_delete. split; [|done].
    unfold unix. apply Z.div_le_mono; lia. }
  unfold Has. by destruct (updateOnAccess o').
Qed.

Lemma has_frame_lem o now h tb h' : (exists s, (h', s) ∈ (Has o now h tb).1) <-> (exists s, (h', s) ∈ tb).
Proof.
  unfold Has. destruct (updateOnAccess o); simpl; [|done]. setoid_rewrite elem_of_update.
  destruct (decide (h' = h)) as [->|Hne]; [naive_solver|]. naive_solver.
Qed.
Lemma has_other_lem o now h tb h' s : h' <> h ->
  (h', s) ∈ (Has o now h tb).1 <-> (h', s) ∈ tb.
Proof.
  intros Hne. unfold Has. destruct (updateOnAccess o); simpl; [|done]. rewrite elem_of_update. naive_solver.
Qed.
Lemma add_other_lem o now h tb h' s : h' <> h ->
  (h', s) ∈ Add o now h tb <-> (h', s) ∈ tb /\ ~ (0 < keep o /\ s < unix (now - keep o)).
Proof.
  intros Hne. unfold Add. case_bool_decide.
  - rewrite elem_of_delete, elem_of_upsert. split; [intros (? & [?|[_ ?]])|intros [? ?]]; [naive_solver|split; [done|lia]|].
    split; [lia|]. by right.
  - rewrite elem_of_upsert. split; [intros [?|[_ ?]]|intros [? ?]]; [naive_solver|split; [done|lia]|by right].
Qed.

(** The methods are what the machine does when a call runs by itself. *)
Lemma begin_lookup c s : s_calls (begin c s) !! length (s_calls s) = Some c.
Proof. simpl. rewrite lookup_app_r by lia. by rewrite Nat.sub_diag. Qed.
Lemma at_lookup c c0 s0 i : s_calls s0 !! i = Some c0 -> s_calls (at_call i c s0) !! i = Some c.
Proof. intros H. simpl. apply list_lookup_insert. by eapply lookup_lt_Some. Qed.

Lemma run_cons s c cs s1 : step s c = Some s1 -> run s (c :: cs) = run s1 cs.
Proof. simpl. by intros ->. Qed.
Lemma has_alone o now h s :
  let i := length (s_calls s) in
  exists cs s', run s (CallHas o h :: cs) = Some s' /\ (forall c, c ∈ cs -> c = Go i now) /\
    s_table s' = (Has o now h (s_table s)).1 /\ s_calls s' !! i = Some (HasDone h (Has o now h (s_table s)).2).
Proof.
  intros i. pose proof (begin_lookup (HasNow o h) s) as Hb. fold i in Hb. clearbody i. unfold Has.
  destruct (updateOnAccess o) eqn:Eu.
  - set (s1 := at_call i (HasUpdate o h now) (begin (HasNow o h) s)).
    assert (Hb2 : s_calls s1 !! i = Some (HasUpdate o h now)) by (eapply at_lookup; exact Hb).
    exists [Go i now; Go i now]. eexists. rewrite (run_cons _ _ _ (begin (HasNow o h) s)) by done.
    rewrite (run_cons _ _ _ s1) by (simpl; unfold go; rewrite Hb; simpl; by rewrite Eu).
    split; [erewrite run_cons by (simpl; unfold go; by rewrite Hb2); reflexivity|].
    split; [set_solver|]. split; [done|]. eapply at_lookup. exact Hb2.
  - exists [Go i now]. eexists. rewrite (run_cons _ _ _ (begin (HasNow o h) s)) by done.
    split; [erewrite run_cons by (simpl; unfold go; rewrite Hb; simpl; by rewrite Eu); reflexivity|].
    split; [set_solver|]. split; [done|]. eapply at_lookup. exact Hb.
Qed.
Lemma add_alone o now h s :
  let i := length (s_calls s) in
  exists cs s', run s (CallAdd o h :: cs) = Some s' /\ (forall c, c ∈ cs -> c = Go i now) /\
    s_table s' = Add o now h (s_table s) /\ s_calls s' !! i = Some (AddDone h).
Proof.
  intros i. pose proof (begin_lookup (AddNow o h) s) as Hb. fold i in Hb. clearbody i. unfold Add.
  set (s1 := at_call i (AddUpsert o h now) (begin (AddNow o h) s)).
  assert (Hb2 : s_calls s1 !! i = Some (AddUpsert o h now)) by (eapply at_lookup; exact Hb).
  destruct (bool_decide (0 < keep o)) eqn:Ek.
  - set (s2 := at_call i (AddDelete o h now) (exec (sql_upsert h (unix now) (s_table s1)) (EvAdd h now) s1)).
    assert (Hb3 : s_calls s2 !! i = Some (AddDelete o h now)) by (eapply at_lookup; exact Hb2).
    exists [Go i now; Go i now; Go i now]. eexists. rewrite (run_cons _ _ _ (begin (AddNow o h) s)) by done.
    rewrite (run_cons _ _ _ s1) by (simpl; unfold go; by rewrite Hb).
    rewrite (run_cons _ _ _ s2) by (simpl; unfold go; rewrite Hb2; simpl; by rewrite Ek).
    split; [erewrite run_cons by (simpl; unfold go; by rewrite Hb3); reflexivity|].
    split; [set_solver|]. split; [done|]. eapply at_lookup. exact Hb3.
  - exists [Go i now; Go i now]. eexists. rewrite (run_cons _ _ _ (begin (AddNow o h) s)) by done.
    rewrite (run_cons _ _ _ s1) by (simpl; unfold go; by rewrite Hb).
    split; [erewrite run_cons by (simpl; unfold go; rewrite Hb2; simpl; by rewrite Ek); reflexivity|].
    split; [set_solver|]. split; [done|]. eapply at_lookup. exact Hb2.
Qed.
Lemma has_noupdate_lem o now h tb : updateOnAccess o = false -> (Has o now h tb).1 = tb.
Proof. unfold Has. by intros ->. Qed.
