From stdpp Require Import base gmap list sorting strings.
From Verif Require Import PathModel FileHashModel FileHashSpec FileHashProofs FilesModel FilesSpec FilesProofs FilesProofs2 FilesProofs3 FilesProofs4 FilesProofs5 FilesProofs6 FilesProofs7.
Local Open Scope list_scope.

(** ** C19 and prerequisites, within one run. *)
Ltac here := rewrite ?elem_of_cons, ?elem_of_nil; eauto 12.
Lemma c19_add fl evs st l1 i h ap ok l2 : replay (Idle (files_run fl)) evs st -> evs = l1 ++ LAdd i h ap ok :: l2 ->
  exists j, LSubEnd j None ∈ l1.
Proof. intros Hr He. open_all; splits He; eexists; here. Qed.
Lemma c19_sub_fails fl evs st i e : replay (Idle (files_run fl)) evs st -> LSubEnd i (Some e) ∈ evs ->
  (forall j h ap ok, LAdd j h ap ok ∉ evs) /\ (forall j x, LRet j x ∈ evs -> x = RErr (ESub e)).
Proof. intros Hr Hi. open_all; elems; (split; [intros jj hh aa oo Hj; elems|intros jj xx Hj; elems; done]). Qed.
Lemma c19_pre_fails fl evs st i e : replay (Idle (files_run fl)) evs st -> LPrereqs i (Some e) ∈ evs ->
  forall ev, ev ∈ evs -> (exists j, ev = LPrereqs j (Some e)) \/ (exists j, ev = LRet j (RErr (EPrereq e))).
Proof. intros Hr Hi ev Hev. open_all; elems; eauto. Qed.
Lemma c19_dry fl evs st : replay (Idle (files_run fl)) evs st -> fl_dry fl = true ->
  (forall ev, ev ∈ evs -> (exists j e, ev = LPrereqs j e) \/ (exists j, ev = LSubStart j) \/ (exists j e, ev = LSubEnd j e) \/ (exists j x, ev = LRet j x)) /\
  (forall j, LRet j RNil ∈ evs -> exists j, LSubEnd j None ∈ evs).
Proof.
  intros Hr Hd. open_all; try congruence; (split; [intros ev Hev; elems; eauto 10|intros jj Hj; elems; eexists; here]).
Qed.
Lemma c19_force fl evs st : replay (Idle (files_run fl)) evs st -> fl_force fl = true -> fl_dry fl = false ->
  (forall j h b, LHas j h b ∉ evs) /\
  (forall j, LRet j RNil ∈ evs -> (exists j, LSubEnd j None ∈ evs) /\ (fl_db fl = true -> exists j h, LAdd j h true true ∈ evs)).
Proof.
  intros Hr Hf Hd. open_all; try congruence; (split; [intros jj hh bb Hj; elems|]);
    intros jj Hj; elems; (split; [eexists; here|]); intros Hdb; try congruence.
  all: try match goal with H : context [if ?ok then RNil else RErr EAdd] |- _ => destruct ok; try discriminate H end.
  all: try match goal with H : true = true -> _ = true |- _ => rewrite (H eq_refl) in * end.
  all: try (do 2 eexists; here; fail).
Qed.
Lemma c19_nodb fl evs st : replay (Idle (files_run fl)) evs st -> fl_db fl = false ->
  (forall j m fs r res, LHash j m fs r res ∉ evs) /\ (forall j h b, LHas j h b ∉ evs) /\ (forall j h ap ok, LAdd j h ap ok ∉ evs) /\
  (forall j, LRet j RNil ∈ evs -> exists j, LSubEnd j None ∈ evs).
Proof.
  intros Hr Hd. open_all; try congruence;
  (split; [intros jj mm ff rr ee Hj; elems|split; [intros jj hh bb Hj; elems|split; [intros jj hh aa oo Hj; elems|intros jj Hj; elems; eexists; here]]]).
Qed.
Lemma c19_success fl evs st : replay (Idle (files_run fl)) evs st -> fl_db fl = true -> fl_dry fl = false ->
  forall i j, LRet i RNil ∈ evs -> LSubStart j ∈ evs -> exists j h, LAdd j h true true ∈ evs.
Proof.
  intros Hr Hdb Hd i j Hi Hj. open_all; try congruence; elems.
  all: try match goal with H : context [if ?ok then RNil else RErr EAdd] |- _ => destruct ok; try discriminate H end.
  all: try match goal with H : true = true -> _ = true |- _ => rewrite (H eq_refl) in * end.
  all: try (do 2 eexists; here; fail).
Qed.
Lemma pre_first fl evs st l1 ev l2 : replay (Idle (files_run fl)) evs st -> evs = l1 ++ ev :: l2 ->
  match ev with LHash _ _ _ _ _ | LHas _ _ _ | LSubStart _ | LSubEnd _ _ | LAdd _ _ _ _ => exists j, LPrereqs j None ∈ l1 | _ => True end.
Proof. intros Hr He. open_all; splits He; try done; eexists; here. Qed.
