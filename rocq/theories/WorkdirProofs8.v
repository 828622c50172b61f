(** Proofs for C100: others change the package. *)
From stdpp Require Import base gmap list strings relations.
From Verif Require Import PathModel CompileModel CompileSpec WorkdirModel WorkdirSpec WorkdirSpec2 WorkdirSpec4 WorkdirProofs WorkdirProofs2 WorkdirProofs3 WorkdirProofs4 WorkdirProofs5 WorkdirProofs6.
Local Open Scope list_scope.

Section hectic.
  Context (T : tools) (pkgdir binfile : path) (es : list entry) (fs0 : fsys) (Ht0 : temp_ok T fs0).
  Context (d : option driver) (Hr : forall d', d = Some d' -> right_files es d').
  Local Notation ren t := [ORename (t ++ ["x"]) binfile].

  Definition hseen (c : fsys * phase) : Prop :=
    match c.2 with
    | Started => c.1 = fs0
    | Working t [] | Cleaning t _ => started T fs0 t
    | Working t todo => exists d' dn, d = Some d' /\ started T fs0 t /\ body T t pkgdir binfile d' = dn ++ todo /\ anc t c.1 /\
        (todo = ren t -> exists exe, build_output T exe /\ c.1 !! (t ++ ["x"]) = Some (FFile exe))
    | Finished _ => True
    end.
  Lemma hseen_step c c' : hseen c -> hectic_step T pkgdir binfile d c c' -> hseen c'.
  Proof.
    intros Hg [Hs|[E Ho]].
    - destruct Hs as [fs Hn|fs|fs d' t Hd Hdir Hf|fs fs' t o todo Ho|fs fs' t o todo Ho|fs t|fs fs' t ok Hx]; unfold hseen in *; cbn [fst snd] in *; try done.
      + subst fs. destruct (body T t pkgdir binfile d') as [|o todo] eqn:E; [done|]. exists d', []. split; [done|]. split; [done|]. split; [done|].
        split; [by apply (anc_start T fs0 Ht0)|]. intros Ex. rewrite Ex in E. rewrite body_prework in E. apply (f_equal length) in E. rewrite app_length in E. simpl in E. lia.
      + destruct Hg as (d' & dn & Hd & Hst & E & Ha & _). destruct todo as [|o' todo]; [done|].
        destruct (split_body T pkgdir binfile es d' t _ _ _ (Hr d' Hd) E) as [[_ Hl]|(_ & ? & _)]; [|done].
        exists d', (dn ++ [o]). split; [done|]. split; [done|]. split; [by rewrite <-(assoc_L (++))|].
        split; [eapply anc_outside; [done|]; eapply inside_ok; [done| |exact Ho]; by eapply local_inside|].
        intros Ex. rewrite Ex in E. rewrite body_prework in E. change [OGoBuild t; ORename (t ++ ["x"]) binfile] with ([OGoBuild t] ++ ren t) in E.
        change (o :: ren t) with ([o] ++ ren t) in E. rewrite !(assoc_L (++)) in E. apply app_inj_tail in E as [E _]. apply app_inj_tail in E as [_ <-].
        inversion Ho as [| | | | | | | | |? ? tree exe Htree Hexe Hx|]; subst. exists exe. split; [by exists tree|]. by rewrite lookup_insert.
      + destruct Hg as (d' & dn & Hd & Hst & _). done.
    - destruct c as [fs ph], c' as [fs' ph']. cbn [fst snd] in *. subst ph'. unfold hseen in *. cbn [fst snd] in *.
      destruct ph as [|t todo|t ok|ok]; try done; [by rewrite Ho|]. destruct todo as [|o todo]; [done|]. destruct Hg as (d' & dn & Hd & Hst & E & Ha & Hx).
      exists d', dn. split_and!; try done; [intros q Hq Hn Hqt; rewrite Ho; [by apply Ha|by right]|]. intros Ex. destruct (Hx Ex) as (exe & ? & ?). exists exe. split; [done|].
      rewrite Ho; [done|]. left. by apply prefix_app_r.
  Qed.
  Lemma hseen_run c : rtc (hectic_step T pkgdir binfile d) (fs0, Started) c -> hseen c.
  Proof.
    intros H. assert (hseen (fs0, Started)) as H0 by done. revert H0. generalize (fs0, Started) H. clear H. intros c1 H.
    induction H as [c|c1 c2 c3 H1 H2 IH]; [done|]. intros H0. by eapply IH, hseen_step.
  Qed.

  Lemma hectic_touches fs ph fs' ph' : rtc (hectic_step T pkgdir binfile d) (fs0, Started) (fs, ph) -> cstep T pkgdir binfile d (fs, ph) (fs', ph') ->
    fs' = fs \/ exists t, fresh T fs0 t /\ (outside t fs fs' \/ exists exe, build_output T exe /\ outside t (<[binfile := FFile exe]> fs) fs').
  Proof.
    intros H Hs. apply hseen_run in H. inversion Hs as [? Hn|?|? d' t Hd Hdir Hf|? ? t o todo Ho|? ? t o todo Ho|? t|? ? t ok Hx]; subst; unfold hseen in H; cbn [fst snd] in H.
    - by left.
    - by left.
    - subst fs. right. exists t. split; [done|]. left. by apply start_outside.
    - right. exists t. destruct H as (d' & dn & Hd & Hst & E & Ha & Hx). split; [apply Hst|].
      destruct (split_body T pkgdir binfile es d' t _ _ _ (Hr d' Hd) E) as [[_ Hl]|(-> & -> & _)].
      + left. eapply inside_ok; [done| |exact Ho]. by eapply local_inside.
      + right. destruct (Hx eq_refl) as (exe & Hb & Ex). exists exe. split; [done|].
        inversion Ho as [| | | | | | | | | |? ? c ? Hc Hpar Hne Hnd Hdev]; subst. rewrite Ex in Hc. injection Hc as <-.
        intros p Hp. destruct (decide (p = binfile)) as [->|Hn]; [by rewrite !lookup_insert|].
        rewrite !(lookup_insert_ne _ binfile) by done. rewrite lookup_delete_ne; [done|]. intros <-. apply Hp. by apply prefix_app_r.
    - right. exists t. destruct H as (d' & dn & Hd & Hst & E & Ha & Hx). split; [apply Hst|]. left.
      destruct (split_body T pkgdir binfile es d' t _ _ _ (Hr d' Hd) E) as [[_ Hl]|(-> & _)]; [|by inversion Ho; subst].
      eapply inside_fails; [done| |exact Ho]. by eapply local_inside.
    - by left.
    - right. exists t. split; [apply H|]. left. intros p Hp. destruct (Hx p) as [?|[? _]]; done.
  Qed.
End hectic.
