From stdpp Require Import base gmap list sorting strings.
From Verif Require Import FileHashModel FileHashSpec FileHashProofs FilesModel FilesSpec.
Local Open Scope list_scope.

(** ** One run on its own. *)
Inductive estep : rstate -> event -> rstate -> Prop :=
  | es_ret i r : estep (Idle (FRet r)) (LRet i r) Finished
  | es_pre i k e : estep (Idle (FPrereqs k)) (LPrereqs i e) (Idle (k e))
  | es_hash i m k fs r res : res <> HOutOfFuel -> estep (Idle (FHash m k)) (LHash i m fs r res) (Idle (k res))
  | es_has i h k res : estep (Idle (FHas h k)) (LHas i h res) (Idle (k res))
  | es_subs i k : estep (Idle (FSub k)) (LSubStart i) (InSub k)
  | es_sube i k e : estep (InSub k) (LSubEnd i e) (Idle (k e))
  | es_add i h k ap ok : (ok = true -> ap = true) -> estep (Idle (FAdd h k)) (LAdd i h ap ok) (Idle (k ok)).
Inductive replay : rstate -> list event -> rstate -> Prop :=
  | rp_nil st : replay st [] st
  | rp_cons st ev st1 evs st2 : estep st ev st1 -> replay st1 evs st2 -> replay st (ev :: evs) st2.
Lemma replay_snoc st evs st1 ev st2 : replay st evs st1 -> estep st1 ev st2 -> replay st (evs ++ [ev]) st2.
Proof. induction 1; intros He; simpl; econstructor; eauto using replay. Qed.

Lemma replay_inv st evs st' : replay st evs st' ->
  match evs with
  | [] => st' = st
  | ev :: evs' => exists st1, estep st ev st1 /\ replay st1 evs' st'
  end.
Proof. destruct 1; eauto. Qed.
Lemma estep_ret r ev st : estep (Idle (FRet r)) ev st -> exists i, ev = LRet i r /\ st = Finished.
Proof. inversion 1; eauto. Qed.
Lemma estep_pre k ev st : estep (Idle (FPrereqs k)) ev st -> exists i e, ev = LPrereqs i e /\ st = Idle (k e).
Proof. inversion 1; eauto. Qed.
Lemma estep_hash m k ev st : estep (Idle (FHash m k)) ev st ->
  exists i fs r res, ev = LHash i m fs r res /\ st = Idle (k res) /\ res <> HOutOfFuel.
Proof. inversion 1; subst; eauto 10. Qed.
Lemma estep_has h k ev st : estep (Idle (FHas h k)) ev st -> exists i res, ev = LHas i h res /\ st = Idle (k res).
Proof. inversion 1; eauto. Qed.
Lemma estep_subs k ev st : estep (Idle (FSub k)) ev st -> exists i, ev = LSubStart i /\ st = InSub k.
Proof. inversion 1; eauto. Qed.
Lemma estep_sube k ev st : estep (InSub k) ev st -> exists i e, ev = LSubEnd i e /\ st = Idle (k e).
Proof. inversion 1; eauto. Qed.
Lemma estep_add h k ev st : estep (Idle (FAdd h k)) ev st ->
  exists i ap ok, ev = LAdd i h ap ok /\ st = Idle (k ok) /\ (ok = true -> ap = true).
Proof. inversion 1; subst; eauto 10. Qed.
Lemma estep_fin ev st : ~ estep Finished ev st.
Proof. inversion 1. Qed.

Ltac next Hr :=
  apply replay_inv in Hr;
  match type of Hr with
  | match ?evs with [] => _ | _ => _ end =>
      let ev := fresh "ev" in let evs' := fresh "evs" in
      destruct evs as [|ev evs'];
      [| let Hs := fresh "Hs" in destruct Hr as (? & Hs & Hr) ]
  end.

Lemma replay_ret r evs st : replay (Idle (FRet r)) evs st ->
  (evs = [] /\ st = Idle (FRet r)) \/ (exists i, evs = [LRet i r] /\ st = Finished).
Proof.
  intros Hr. next Hr; [by left|]. apply estep_ret in Hs as (i & -> & ->). right.
  next Hr; [eauto|]. by apply estep_fin in Hs.
Qed.
(** The possible event sequences from each point of the program. *)
Lemma replay_finish fl evs st : replay (Idle (files_finish fl)) evs st ->
  evs = [] \/
  ((fl_db fl = false \/ fl_dry fl = true) /\ exists i, evs = [LRet i RNil]) \/
  (fl_db fl = true /\ fl_dry fl = false /\ exists i fs r,
    ((exists it, evs = [LHash i After fs r (HErr it)] \/ exists i', evs = [LHash i After fs r (HErr it); LRet i' (RErr (EHash After it))]) \/
     (evs = [LHash i After fs r HPanic] \/ exists i', evs = [LHash i After fs r HPanic; LRet i' RPanic]) \/
     (exists h, evs = [LHash i After fs r (HOk h)] \/
        exists i' ap ok, (ok = true -> ap = true) /\
          (evs = [LHash i After fs r (HOk h); LAdd i' h ap ok] \/
           exists i'' , evs = [LHash i After fs r (HOk h); LAdd i' h ap ok; LRet i'' (if ok then RNil else RErr EAdd)])))).
Proof.
  intros Hr. unfold files_finish in Hr. destruct (negb (fl_db fl) || fl_dry fl) eqn:E.
  - apply replay_ret in Hr as [[-> _]|(i & -> & _)]; [by left|]. right. left.
    split; [|eauto]. destruct (fl_db fl), (fl_dry fl); auto.
  - assert (Hf : fl_db fl = true /\ fl_dry fl = false) by (by destruct (fl_db fl), (fl_dry fl)).
    next Hr; [by left|]. right. right. split; [apply Hf|]. split; [apply Hf|].
    apply estep_hash in Hs as (i & fs & r & res & -> & -> & Hne). exists i, fs, r.
    destruct res as [h|it| |]; [| | |done].
    + right. right. exists h. next Hr; [by left|]. right.
      apply estep_add in Hs as (i' & ap & ok & -> & -> & Hok). exists i', ap, ok. split; [done|].
      destruct ok; apply replay_ret in Hr as [[-> _]|(i'' & -> & _)]; eauto.
    + left. exists it. apply replay_ret in Hr as [[-> _]|(i'' & -> & _)]; eauto.
    + right. left. apply replay_ret in Hr as [[-> _]|(i'' & -> & _)]; eauto.
Qed.
Lemma replay_sub fl evs st : replay (Idle (files_sub fl)) evs st ->
  evs = [] \/ exists i, evs = [LSubStart i] \/
    exists i' e, (evs = [LSubStart i; LSubEnd i' (Some e)] \/ exists i'', evs = [LSubStart i; LSubEnd i' (Some e); LRet i'' (RErr (ESub e))]) \/
      exists evs' st', evs = [LSubStart i; LSubEnd i' None] ++ evs' /\ replay (Idle (files_finish fl)) evs' st'.
Proof.
  intros Hr. unfold files_sub in Hr. next Hr; [by left|]. right. apply estep_subs in Hs as (i & -> & ->). exists i.
  next Hr; [by left|]. right. apply estep_sube in Hs as (i' & e & -> & ->). exists i'.
  destruct e as [e|].
  - exists e. left. apply replay_ret in Hr as [[-> _]|(i'' & -> & _)]; eauto.
  - exists 0. right. eauto.
Qed.
Lemma replay_check fl evs st : replay (Idle (files_check fl)) evs st ->
  (fl_db fl && negb (fl_force fl) && negb (fl_dry fl) = false /\ replay (Idle (files_sub fl)) evs st) \/
  (fl_db fl = true /\ fl_force fl = false /\ fl_dry fl = false /\
   (evs = [] \/ exists i fs r,
    ((exists it, evs = [LHash i Before fs r (HErr it)] \/ exists i', evs = [LHash i Before fs r (HErr it); LRet i' (RErr (EHash Before it))]) \/
     (evs = [LHash i Before fs r HPanic] \/ exists i', evs = [LHash i Before fs r HPanic; LRet i' RPanic]) \/
     (exists h, evs = [LHash i Before fs r (HOk h)] \/ exists i',
        ((evs = [LHash i Before fs r (HOk h); LHas i' h None] \/ exists i'', evs = [LHash i Before fs r (HOk h); LHas i' h None; LRet i'' (RErr EHas)]) \/
         (evs = [LHash i Before fs r (HOk h); LHas i' h (Some true)] \/ exists i'', evs = [LHash i Before fs r (HOk h); LHas i' h (Some true); LRet i'' RNil]) \/
         (exists evs' st', evs = [LHash i Before fs r (HOk h); LHas i' h (Some false)] ++ evs' /\ replay (Idle (files_sub fl)) evs' st')))))).
Proof.
  intros Hr. unfold files_check in Hr. destruct (fl_db fl && negb (fl_force fl) && negb (fl_dry fl)) eqn:E; [|by left].
  right. split; [by destruct (fl_db fl)|]. split; [by destruct (fl_db fl), (fl_force fl)|].
  split; [by destruct (fl_db fl), (fl_force fl), (fl_dry fl)|].
  next Hr; [by left|]. right. apply estep_hash in Hs as (i & fs & r & res & -> & -> & Hne). exists i, fs, r.
  destruct res as [h|it| |]; [| | |done].
  - right. right. exists h. next Hr; [by left|]. right. apply estep_has in Hs as (i' & res & -> & ->). exists i'.
    destruct res as [[]|].
    + right. left. apply replay_ret in Hr as [[-> _]|(i'' & -> & _)]; eauto.
    + right. right. eauto.
    + left. apply replay_ret in Hr as [[-> _]|(i'' & -> & _)]; eauto.
  - left. exists it. apply replay_ret in Hr as [[-> _]|(i'' & -> & _)]; eauto.
  - right. left. apply replay_ret in Hr as [[-> _]|(i'' & -> & _)]; eauto.
Qed.
Lemma replay_run fl evs st : replay (Idle (files_run fl)) evs st ->
  evs = [] \/ exists i,
    (exists e, evs = [LPrereqs i (Some e)] \/ exists i', evs = [LPrereqs i (Some e); LRet i' (RErr (EPrereq e))]) \/
    (exists evs' st', evs = LPrereqs i None :: evs' /\ replay (Idle (files_check fl)) evs' st').
Proof.
  intros Hr. unfold files_run in Hr. next Hr; [by left|]. right. apply estep_pre in Hs as (i & e & -> & ->). exists i.
  destruct e as [e|].
  - left. exists e. apply replay_ret in Hr as [[-> _]|(i'' & -> & _)]; eauto.
  - right. eauto.
Qed.

(** Enumerate the sequences. *)
Ltac open_all :=
  repeat match goal with
  | H : replay (Idle (files_run _)) _ _ |- _ => apply replay_run in H
  | H : replay (Idle (files_check _)) _ _ |- _ => apply replay_check in H
  | H : replay (Idle (files_sub _)) _ _ |- _ => apply replay_sub in H
  | H : replay (Idle (files_finish _)) _ _ |- _ => apply replay_finish in H
  | H : _ \/ _ |- _ => destruct H as [H|H]
  | H : exists _, _ |- _ => destruct H as [? H]
  | H : _ /\ _ |- _ => destruct H as [? H]
  end; subst; cbn [app] in *.
Ltac elems :=
  repeat match goal with
  | H : _ ∈ [] |- _ => by apply elem_of_nil in H
  | H : _ ∈ _ :: _ |- _ => apply elem_of_cons in H as [H|H]; [try discriminate H; try (injection H as; subst)|]
  end.
