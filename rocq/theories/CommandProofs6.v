(** What a call of Run closes. *)
From stdpp Require Import base gmap list strings.
From Coq Require Import Ascii.
From Verif Require Import PathModel YamlModel CommandModel CommandSpec CommandProofs CommandProofs2 CommandProofs3 CommandProofs4.
Local Open Scope list_scope.
Lemma close_cases c e w w' r evs x : Run c e w = (w', r) -> events w w' evs -> EvClose x ∈ evs ->
  (exists h, x = CHandle h) \/ (exists st f wr, field_fn c st = Some f /\ e_fn e f = Some (wr, true) /\ x = CWriter wr st) \/ (c_stdinFile c <> "" /\ x = CStdin (c_stdinFile c)).
Proof.
  intros Hr Hev Hx. unfold events in Hev.
  assert (Hsimple : forall evs0, w' = emits evs0 w -> (forall ev, ev ∈ evs0 -> ev = EvPrint \/ exists f, ev = EvOpenFailed f) -> False).
  { intros evs0 -> H. simpl in Hev. apply (inj (app (w_trace w))) in Hev. subst evs. by destruct (H _ Hx) as [?|[? ?]]. }
  destruct (e_dryrun e) eqn:Hd.
  { destruct (dry_lem c e w Hd) as (evs0 & H & Hp). rewrite H in Hr. simplify_eq. exfalso. eapply Hsimple; [done|]. intros ev ?. left. by apply Hp. }
  destruct (run_cases c e w Hd) as [(_ & _ & H)|[_ H]].
  { rewrite H in Hr. simplify_eq. exfalso. apply (Hsimple []); [by rewrite emits_nil|by intros ev ?%elem_of_nil]. }
  destruct H as [(f & a & _ & _ & H)|[(f & a & _ & _ & _ & H)|[(f1 & a1 & f & a & _ & _ & _ & _ & H)|(so & se & ds & evs1 & w1 & Hp & H)]]].
  - rewrite H in Hr. simplify_eq. exfalso. eapply Hsimple; [done|]. intros ev ->%elem_of_list_singleton. eauto.
  - rewrite H in Hr. simplify_eq. exfalso. eapply Hsimple; [done|]. intros ev ->%elem_of_list_singleton. eauto.
  - rewrite H in Hr. simplify_eq. simpl in Hev. rewrite <- (assoc_L (++)) in Hev. apply (inj (app (w_trace w))) in Hev. subst evs.
    left. repeat (apply elem_of_cons in Hx as [Hx|Hx]; [first [discriminate Hx|injection Hx as ->; by eexists]|]). by apply elem_of_nil in Hx.
  - rewrite H, run_rest_eq in Hr. cbv zeta in Hr.
    pose proof (prep_facts _ _ _ _ _ _ _ _ Hp) as (Ht & _). destruct (prep_events _ _ _ _ _ _ _ _ Hp) as (He1 & Hnd & Hhd).
    pose proof (prep_handles _ _ _ _ _ _ _ _ Hp) as Hh.
    assert (Hrb : EvClose x ∉ rest_before c e so se).
    { unfold rest_before. rewrite !elem_of_app, !fn_events_in. intros [(? & f & ? & ?)|[(? & f & ? & ?)|Hy]]; [done|done|].
      destruct (e_verbose e); [by apply elem_of_list_singleton in Hy|by apply elem_of_nil in Hy]. }
    assert (Hrc : x ∈ rest_closers c e so se ds -> (exists h, x = CHandle h) \/ exists st f wr, field_fn c st = Some f /\ e_fn e f = Some (wr, true) /\ x = CWriter wr st).
    { unfold rest_closers. rewrite !elem_of_app, !fn_closers_in.
      intros [(? & f & wr & ? & ? & ->)|[(? & f & wr & ? & ? & ->)|Hy]]; [right; by exists Err, f, wr|right; by exists Out, f, wr|left; by apply Hh]. }
    assert (Hfm : forall l, EvClose x ∈ (EvClose <$> l) -> x ∈ l) by (intros l (y & E & Hy)%elem_of_list_fmap; by injection E as ->).
    destruct (decide _) as [Hin|Hin]; injection Hr as <- _.
    + simpl in Hev. rewrite Ht in Hev. rewrite <- !(assoc_L (++)) in Hev. apply (inj (app (w_trace w))) in Hev. subst evs.
      rewrite !elem_of_app, elem_of_cons in Hx. destruct Hx as [Hx|[Hx|[Hx|Hx]]]; [by destruct (He1 _ Hx) as (? & ? & ? & ?)|done|done|].
      destruct (Hrc (Hfm _ Hx)); auto.
    + set (i := the_inv c e so se) in *. simpl in Hev. rewrite (proj2 (deliver_sent _ _ _)) in Hev. simpl in Hev. rewrite Ht in Hev.
      rewrite <- !(assoc_L (++)) in Hev. apply (inj (app (w_trace w))) in Hev. subst evs.
      rewrite !elem_of_app in Hx. destruct Hx as [Hx|[Hx|[Hx|Hx]]]; [by destruct (He1 _ Hx) as (? & ? & ? & ?)|done| |destruct Hx as [Hx|Hx]; [by apply elem_of_list_singleton in Hx|]].
      { unfold stdin_events in Hx. destruct (decide _); [by apply elem_of_list_singleton in Hx|by apply elem_of_nil in Hx]. }
      apply Hfm in Hx. apply elem_of_app in Hx as [Hx|Hx]; [|destruct (Hrc Hx); auto].
      unfold stdin_closers in Hx. destruct (decide _); [|by apply elem_of_nil in Hx]. apply elem_of_list_singleton in Hx as ->. right. by right.
Qed.
Lemma out_fn top dir s fi fv fa w f n : out_field top dir s fi fv fa = (w, Some f, n) -> f = fi \/ f = fv.
Proof. unfold out_field. repeat (destruct (decide _); [intros H; by simplify_eq; auto|]). intros H. by simplify_eq. Qed.
Lemma yaml_closes top y shell dir args env fa e w w' r evs x : let c := toTarget top y shell dir args env fa in
  yaml_fns e -> Run c e w = (w', r) -> events w w' evs -> EvClose x ∈ evs -> exists h, x = CHandle h.
Proof.
  intros c (F0 & F1 & F2 & F3) Hr Hev Hx. destruct (close_cases c e w w' r evs x Hr Hev Hx) as [H|[(st & f & wr & Hf & He & _)|[H _]]]; [done| |].
  - exfalso. assert (Hn : f = fn_indent_out \/ f = fn_indent_err \/ f = fn_verbose_out \/ f = fn_verbose_err).
    { revert Hf. unfold c, toTarget. destruct (out_field top dir (y_stdout y) fn_indent_out fn_verbose_out fa) as [[? o1] ?] eqn:E1.
      destruct (out_field top dir (y_stderr y) fn_indent_err fn_verbose_err fa) as [[? o2] ?] eqn:E2.
      destruct st; simpl; intros ->; [apply out_fn in E1|apply out_fn in E2]; tauto. }
    destruct Hn as [-> | [-> | [-> | ->]]]; rewrite ?F0, ?F1, ?F2, ?F3 in He; unfold deferredIndent, maybeIndent in He; try (injection He as _ E; discriminate E);
      (destruct (e_verbose e); [injection He as _ E; discriminate E|discriminate He]).
  - exfalso. revert H. unfold c, toTarget. destruct (out_field top dir (y_stdout y) fn_indent_out fn_verbose_out fa) as [[? ?] ?].
    by destruct (out_field top dir (y_stderr y) fn_indent_err fn_verbose_err fa) as [[? ?] ?].
Qed.
