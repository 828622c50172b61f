(** C97: errors of Files targets.  Vocabulary: FilesSpec.v, FilesSpec2.v. *)
From stdpp Require Import base gmap list strings.
From Verif Require Import PathModel FileHashModel FileHashSpec FileHashProofs FilesModel FilesSpec FilesSpec2 FilesProofs FilesProofs2 FilesProofs3 FilesProofs4 FilesProofs5 FilesProofs6 FilesProofs7 FilesProofs8 FilesProofs9 FilesProofs12 FilesProps.
Local Open Scope list_scope.

Section c97.
  Context (hashf : string -> string) (H : json -> hash) (R : string -> option tgt) (fs0 : files_state).
  Notation history := (history hashf H R fs0).
  Ltac tofilter H := eapply in_filter in H; [|eapply of_run_true; reflexivity].

  (** Which hash computations fail: those where something covered cannot be looked at, and those
      of targets that have no JSON encoding.  An error says what it is about; a panic comes of a
      missing target or of something that cannot even be looked at. *)
  Lemma hash_results tr i m fs r res : history tr -> LHash i m fs r res ∈ tr ->
    match res with
    | HOk _ => readable fs r /\ r_tgt r <> TNil /\ encodable (r_tgt r)
    | HErr x => (covered fs (r_in r) x \/ covered fs (r_out r) x) /\ (fs x = FDir None \/ fs x = FFile None) \/
                x = "in JSON marshaling" /\ readable fs r /\ r_tgt r <> TNil /\ ~ encodable (r_tgt r)
    | HPanic => (exists q, (covered fs (r_in r) q \/ covered fs (r_out r) q) /\ fs q = FStatErr) \/ r_tgt r = TNil /\ readable fs r
    | HOutOfFuel => False
    end.
  Proof.
    intros (chs & s & Hc0 & <-) (a & b & Hab)%elem_of_list_split. assert (Hs : reach hashf H R fs0 s) by (exists chs; exact Hc0). destruct (ev_hash _ _ _ _ _ _ _ _ _ _ _ _ Hs Hab) as (_ & [fuel Hc] & Hne & _).
    pose proof (hash_cases hashf H fuel fs r) as Hk. rewrite Hc in Hk. by destruct res.
  Qed.
  Lemma hash_ok_iff tr i m fs r res : history tr -> LHash i m fs r res ∈ tr ->
    (exists h, res = HOk h) <-> readable fs r /\ r_tgt r <> TNil /\ encodable (r_tgt r).
  Proof.
    intros Ht Hi. pose proof (hash_results _ _ _ _ _ _ Ht Hi) as Hk. split; [intros [h ->]; exact Hk|]. intros (H1 & H2 & H3).
    destruct res as [h|x| |]; [by exists h| | |done].
    - destruct Hk as [[Hc Hx] | (_ & _ & _ & Hx)]; [|done]. exfalso. apply (H1 x Hc). right. exact Hx.
    - destruct Hk as [(q & Hc & Hx) | [Hx _]]; [|done]. exfalso. apply (H1 q Hc). by left.
  Qed.

  Lemma hash_error_stops tr i m fs r x : history tr -> LHash i m fs r (HErr x) ∈ tr ->
    (forall y, LRet i y ∈ tr -> y = RErr (EHash m x)) /\ (forall h ap ok, LAdd i h ap ok ∉ tr) /\ (m = Before -> LSubStart i ∉ tr).
  Proof.
    intros Ht He. destruct (ex_run _ _ _ _ tr i _ Ht He ltac:(by apply of_run_true)) as (r1 & fl & st & _ & Hrep). tofilter He.
    destruct (r_hash _ _ _ _ _ _ _ _ Hrep He) as (H1 & H2 & H3). split; [|split].
    - intros y Hy. tofilter Hy. by eapply H1.
    - intros h ap ok Hy. tofilter Hy. by eapply H2.
    - intros E Hy. tofilter Hy. by eapply H3.
  Qed.
  Lemma lookup_error_stops tr i h : history tr -> LHas i h None ∈ tr ->
    (forall y, LRet i y ∈ tr -> y = RErr EHas) /\ (forall h ap ok, LAdd i h ap ok ∉ tr) /\ LSubStart i ∉ tr.
  Proof.
    intros Ht He. destruct (ex_run _ _ _ _ tr i _ Ht He ltac:(by apply of_run_true)) as (r1 & fl & st & _ & Hrep). tofilter He.
    destruct (r_has _ _ _ _ _ Hrep He) as (H1 & H2 & H3). split; [|split].
    - intros y Hy. tofilter Hy. by eapply H1.
    - intros h' ap ok Hy. tofilter Hy. by eapply H2.
    - intros Hy. tofilter Hy. by eapply H3.
  Qed.
  Lemma failed_record tr i h ap : history tr -> LAdd i h ap false ∈ tr -> forall y, LRet i y ∈ tr -> y = RErr EAdd.
  Proof.
    intros Ht He. destruct (ex_run _ _ _ _ tr i _ Ht He ltac:(by apply of_run_true)) as (r1 & fl & st & _ & Hrep). tofilter He.
    intros y Hy. tofilter Hy. by eapply (r_add _ _ _ _ _ _ Hrep He).
  Qed.
  Lemma error_has_cause tr i e : history tr -> LRet i (RErr e) ∈ tr -> exists ev, ev ∈ tr /\ reports i e ev.
  Proof.
    intros Ht He. destruct (ex_run _ _ _ _ tr i _ Ht He ltac:(by apply of_run_true)) as (r1 & fl & st & _ & Hrep). tofilter He.
    destruct (r_ret _ _ _ _ _ Hrep He) as (j & ev & Hev & Hr). apply filter_in in Hev as [Hev Ho]. exists ev. split; [done|].
    destruct e; simpl in Hr |- *; [subst ev|destruct Hr as (fs & r & ->)|destruct Hr as [h ->]|subst ev|destruct Hr as (h & ap & ->)]; apply of_run_i in Ho as <-; eauto.
  Qed.
  Lemma panic_has_cause tr i : history tr -> LRet i RPanic ∈ tr -> exists m fs r, LHash i m fs r HPanic ∈ tr.
  Proof.
    intros Ht He. destruct (ex_run _ _ _ _ tr i _ Ht He ltac:(by apply of_run_true)) as (r1 & fl & st & _ & Hrep). tofilter He.
    destruct (r_panic _ _ _ _ Hrep He) as (j & m & fs & r & Hev). apply filter_in in Hev as [Hev Ho]. apply of_run_i in Ho as <-. eauto.
  Qed.
End c97.

(** An error in taking the hash: it is what the Run returns, nothing is recorded, and if it came
    before the subtarget, the subtarget is not run. *)
Theorem C97_hash_error_stops hashf H R fs0 tr i m fs r x : history hashf H R fs0 tr -> LHash i m fs r (HErr x) ∈ tr ->
  (forall y, LRet i y ∈ tr -> y = RErr (EHash m x)) /\ (forall h ap ok, LAdd i h ap ok ∉ tr) /\ (m = Before -> LSubStart i ∉ tr).
Proof. exact (hash_error_stops hashf H R fs0 tr i m fs r x). Qed.
Print Assumptions C97_hash_error_stops.
(** An error of the database when looking up: the same. *)
Theorem C97_lookup_error_stops hashf H R fs0 tr i h : history hashf H R fs0 tr -> LHas i h None ∈ tr ->
  (forall y, LRet i y ∈ tr -> y = RErr EHas) /\ (forall h ap ok, LAdd i h ap ok ∉ tr) /\ LSubStart i ∉ tr.
Proof. exact (lookup_error_stops hashf H R fs0 tr i h). Qed.
Print Assumptions C97_lookup_error_stops.
(** An error when recording is reported (though the subtarget has succeeded). *)
Theorem C97_failed_record_is_an_error hashf H R fs0 tr i h ap : history hashf H R fs0 tr -> LAdd i h ap false ∈ tr ->
  forall y, LRet i y ∈ tr -> y = RErr EAdd.
Proof. exact (failed_record hashf H R fs0 tr i h ap). Qed.
Print Assumptions C97_failed_record_is_an_error.
(** There are no other errors. *)
Theorem C97_every_error_has_a_cause hashf H R fs0 tr i e : history hashf H R fs0 tr -> LRet i (RErr e) ∈ tr ->
  exists ev, ev ∈ tr /\ reports i e ev.
Proof. exact (error_has_cause hashf H R fs0 tr i e). Qed.
Print Assumptions C97_every_error_has_a_cause.
(** Taking the hash succeeds exactly if everything covered can be looked at and the subtarget
    can be encoded; an error is about one of those. *)
Theorem C97_what_cannot_be_hashed hashf H R fs0 tr i m fs r res : history hashf H R fs0 tr -> LHash i m fs r res ∈ tr ->
  ((exists h, res = HOk h) <-> readable fs r /\ r_tgt r <> TNil /\ encodable (r_tgt r)) /\
  (forall x, res = HErr x -> (covered fs (r_in r) x \/ covered fs (r_out r) x) /\ (fs x = FDir None \/ fs x = FFile None) \/
    x = "in JSON marshaling" /\ readable fs r /\ r_tgt r <> TNil /\ ~ encodable (r_tgt r)).
Proof.
  intros Ht Hi. split; [exact (hash_ok_iff _ _ _ _ _ _ _ _ _ _ Ht Hi)|]. intros x ->. exact (hash_results _ _ _ _ _ _ _ _ _ _ Ht Hi).
Qed.
Print Assumptions C97_what_cannot_be_hashed.
(** The Run panics only if there is no subtarget, or an input or output cannot even be looked at. *)
Theorem C97_panics_partial hashf H R fs0 tr i : history hashf H R fs0 tr -> LRet i RPanic ∈ tr ->
  exists m fs r, LHash i m fs r HPanic ∈ tr /\
    ((exists q, (covered fs (r_in r) q \/ covered fs (r_out r) q) /\ fs q = FStatErr) \/ r_tgt r = TNil /\ readable fs r).
Proof.
  intros Ht Hi. destruct (panic_has_cause _ _ _ _ _ _ Ht Hi) as (m & fs & r & Hh). exists m, fs, r. split; [done|].
  exact (hash_results _ _ _ _ _ _ _ _ _ _ Ht Hh).
Qed.
Print Assumptions C97_panics_partial.

(** "Such a thing is reported as an error too" is false: a Files target whose input cannot be
    looked at (permission denied, say) panics. *)
Lemma one_hash hashf H R fs t res y : computeHash hashf H 1 fs (ex_rule t) = res -> res <> HOutOfFuel ->
  match res with HErr i => y = RErr (EHash Before i) | HPanic => y = RPanic | _ => False end ->
  history hashf H R fs [LStart 0 (ex_rule t) normal; LPrereqs 0 None; LHash 0 Before fs (ex_rule t) res; LRet 0 y].
Proof.
  intros Hc Hne Hy. destruct (ra_start hashf H R fs fs ∅ 0 [] _ (ex_rule t) normal (ra_init hashf H R fs)) as (s1 & R1 & A1 & _).
  destruct (ra_pre hashf H R fs _ _ _ _ _ _ _ _ _ None R1 A1) as (s2 & R2 & A2).
  destruct (ra_hash hashf H R fs _ _ _ _ _ _ _ _ _ _ 1 res R2 A2 Hc Hne) as (s3 & R3 & A3).
  assert (A4 : at_ 0 (ex_rule t) normal (Idle (FRet y)) s3) by (destruct res; try done; by subst y).
  destruct (ra_ret hashf H R fs _ _ _ _ _ _ _ _ _ R3 A4) as (s4 & R4 & _). eapply ra_history. exact R4.
Qed.
Definition bad_input (f : fentry) : files_state := fun p => if decide (p = "in") then f else FMissing.
Theorem C97_unreachable_input_refuted hashf H R : exists tr r fs, history hashf H R fs tr /\ LStart 0 r normal ∈ tr /\
  (exists q, fs q = FStatErr /\ covered fs (r_in r) q) /\ encodable (r_tgt r) /\ LRet 0 RPanic ∈ tr /\ forall e, LRet 0 (RErr e) ∉ tr.
Proof.
  eexists _, (ex_rule (TCmd (sh "cc in"))), (bad_input FStatErr). split; [eapply (one_hash hashf H R _ _ HPanic RPanic); [reflexivity|done|done]|].
  split; [left|]. split; [exists "in"; split; [reflexivity|]; exists "in"; split; [left|constructor]|]. split; [constructor|]. split; [repeat first [left|right]|].
  intros e He. elems.
Qed.
Print Assumptions C97_unreachable_input_refuted.

(** Cases: an input without read permission; a subtarget of a type that has no encoding. *)
Example C97_ex_unreadable hashf H R : exists tr, history hashf H R (bad_input (FFile None)) tr /\
  LHash 0 Before (bad_input (FFile None)) (ex_rule (TCmd (sh "cc in"))) (HErr "in") ∈ tr /\ LRet 0 (RErr (EHash Before "in")) ∈ tr.
Proof.
  eexists. split; [eapply (one_hash hashf H R _ _ (HErr "in")); [reflexivity|done|reflexivity]|]. split; by repeat first [left|right].
Qed.
Example C97_ex_no_encoding hashf H R : exists tr, history hashf H R (ex_fs "1" None) tr /\
  LHash 0 Before (ex_fs "1" None) (ex_rule (TAll [TUser "main.T" None])) (HErr "in JSON marshaling") ∈ tr /\ ~ encodable (TAll [TUser "main.T" None]).
Proof.
  eexists. split; [eapply (one_hash hashf H R _ (TAll [TUser "main.T" None]) (HErr "in JSON marshaling")); [reflexivity|done|reflexivity]|]. split; [by repeat first [left|right]|].
  intros Hx. inversion Hx as [| |ts Hy| | | | | | | |]; subst. specialize (Hy (TUser "main.T" None) ltac:(left)). inversion Hy.
Qed.
