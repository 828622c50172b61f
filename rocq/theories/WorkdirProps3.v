(** C100 when CompilePackage is called many times at once (several runs of fab on one machine,
    with the same binfile or not).  Vocabulary: WorkdirSpec3.v ([many_step]: one of the calls makes
    a step; any of them may stop for ever, as its process is killed, at any moment). *)
From stdpp Require Import base gmap list strings relations.
From Verif Require Import PathModel CompileModel CompileSpec CompileProofs2 WorkdirModel WorkdirSpec WorkdirSpec3
  WorkdirProofs WorkdirProofs2 WorkdirProofs3 WorkdirProofs4 WorkdirProofs5 WorkdirProofs6 WorkdirProofs7 WorkdirProps.
Local Open Scope list_scope.

Section props.
  Context (T : tools) (calls : nat -> call) (fs0 : fsys) (R : ready T calls fs0).
  Context (phs0 : nat -> phase) (Hstart : forall i, phs0 i = Started).

  (** At every moment each path outside of the new temporary directories is as it was before, or
      it is the binfile of one of the calls, and all of its driver is there. *)
Theorem C100_many_whole fs phs p : rtc (many_step T calls) (fs0, phs0) (fs, phs) ->
    fs !! p = fs0 !! p \/ (exists t, fresh T fs0 t /\ t `prefix_of` p) \/ new_binary T calls fs p.
  Proof. intros H. apply (Inv_run T calls fs0 R phs0 fs phs Hstart H). Qed.

  (** Once a call has returned nil its binfile is the driver that it, or another call with this
      binfile, built: never a mixture, and never gone again. *)
Theorem C100_many_success fs phs i : rtc (many_step T calls) (fs0, phs0) (fs, phs) -> phs i = Finished true ->
    new_binary T calls fs (k_binfile (calls i)).
  Proof. intros H E. destruct (Inv_run T calls fs0 R phs0 fs phs Hstart H) as (_ & _ & _ & H4 & _). apply H4. by rewrite E. Qed.

  (** If all calls that have this binfile returned errors (or did not begin), it is as it was. *)
Theorem C100_many_failure fs phs p : rtc (many_step T calls) (fs0, phs0) (fs, phs) -> (forall t, fresh T fs0 t -> ~ t `prefix_of` p) ->
    (forall i, k_binfile (calls i) = p -> phs i = Finished false \/ phs i = Started) -> fs !! p = fs0 !! p.
  Proof.
    intros H Hp Hn. destruct (Inv_run T calls fs0 R phs0 fs phs Hstart H) as (_ & _ & _ & _ & H5). apply H5; [done|].
    intros i Hi He. destruct (Hn i Hi) as [E|E]; by rewrite E in He.
  Qed.
End props.
Print Assumptions C100_many_whole.
Print Assumptions C100_many_success.
Print Assumptions C100_many_failure.

(** The case of WorkdirProps.v, compiled by any number of calls: all that is assumed holds. *)
Definition w_call : call := {| k_env := w_env; k_name := "_fab"; k_errors := 0; k_es := w_es; k_pkgdir := ["p"]; k_binfile := ["home"; "fab.bin"] |}.
Lemma w_ready : ready (w_tools (fun _ => 0)) (fun _ => w_call) w_fs.
Proof.
  constructor.
  - exact w_proper.
  - right. vm_compute. reflexivity.
  - apply w_distinct.
  - intros _ l. exact (Permutation_refl l).
  - intros _. exact w_package.
  - intros _. right. vm_compute. reflexivity.
  - intros _ E. vm_compute in E. discriminate E.
  - intros _ E. discriminate E.
  - intros _ E. vm_compute in E. discriminate E.
  - intros _ _ e He Hd E. simpl in E. injection E as E _. discriminate E.
Qed.
(** One of them succeeds. *)
Example C100_many_case : exists phs0 fs phs, (forall i, phs0 i = Started) /\ rtc (many_step (w_tools (fun _ => 0)) (fun _ => w_call)) (w_fs, phs0) (fs, phs) /\ phs 7 = Finished true /\
  new_binary (w_tools (fun _ => 0)) (fun _ => w_call) fs ["home"; "fab.bin"].
Proof.
  destruct C100_case as (d & exe & _ & _ & Hr). set (f := <[["home"; "fab.bin"] := FFile exe]> w_fs) in Hr.
  assert (H : forall c c' : fsys * phase, rtc (cstep (w_tools (fun _ => 0)) ["p"] ["home"; "fab.bin"] (CompilePackage w_env "_fab" 0 w_es)) c c' ->
    rtc (many_step (w_tools (fun _ => 0)) (fun _ => w_call)) (c.1, fun i => if decide (i = 7) then c.2 else Started) (c'.1, fun i => if decide (i = 7) then c'.2 else Started)).
  { intros c c' H. induction H as [c|[x1 x2] [y1 y2] c H1 _ IH]; [constructor|]. eapply rtc_l; [|exact IH]. exists 7. cbn [fst snd]. split; [exact H1|].
    split; [intros j Hj; by rewrite !decide_False by done|]. intros j t Hj _. by rewrite decide_False by done. }
  apply H in Hr. cbn [fst snd] in Hr.
  assert (H0 : forall i, (if decide (i = 7) then Started else Started) = Started) by (intros i; by destruct (decide (i = 7))).
  exists (fun i => if decide (i = 7) then Started else Started), f, (fun i => if decide (i = 7) then Finished true else Started).
  split; [exact H0|]. split; [exact Hr|]. split; [reflexivity|].
  exact (C100_many_success (w_tools (fun _ => 0)) (fun _ => w_call) w_fs w_ready _ H0 _ _ 7 Hr eq_refl).
Qed.
