(** Proofs for C78, C86: when a request has succeeded, everything that was run has ended without
    error. *)
From stdpp Require Import base gmap list strings relations.
From Coq Require Import Wellfounded.
From Verif Require Import PathModel FindModel ContextModel RunnerModel RunnerSpec RunnerSpec2 RunnerInv6 RunnerInv4 RunnerProofs RunnerProofs2 RunnerProofs3 RunnerProgress RunnerDet.
From Verif Require Import ChainModel ChainProofs ChainProofs2 YamlModel YamlSpec BuildModel BuildProofs2 MakeModel ProjModel ProjSpec ProjProofs ProjProofs2.
Local Open Scope list_scope.

(** A failing call makes the body fail. *)
Lemma runs_strict b g a o p h st c pg cx ts : runs g a o p h st -> honest b p -> st = Fin None -> EvCall c pg cx ts ∈ h -> EvRet c pg None ∈ h.
Proof.
  induction 1 as [p|e'|l k r h st Hr IH|d k r h st Hr IH|cx' ts' k c'|cx' ts' k c' e' h st Hr IH]; intros Hh Est Hin; try done.
  - by apply elem_of_list_singleton in Hin.
  - apply elem_of_cons in Hin as [Hin|Hin]; [done|]. inversion Hh as [| | |? ? Hk]; subst. right. by eapply IH.
  - inversion Hh.
  - inversion Hh as [| |? ? ? Hk Hs|]; subst. destruct e' as [e'|].
    + rewrite Hs in Hr. inversion Hr.
    + apply elem_of_cons in Hin as [Hin|Hin]; [injection Hin as -> -> -> ->; right; by left|].
      apply elem_of_cons in Hin as [Hin|Hin]; [done|]. right; right. by apply IH.
Qed.
Lemma runs_strict_deferred g a o d cx0 h c pg cx ts : runs g a o (deferred_prog d cx0) h (Fin None) -> EvCall c pg cx ts ∈ h -> EvRet c pg None ∈ h.
Proof.
  unfold deferred_prog. intros Hr Hin. inversion Hr as [| | |? ? x h' ? Hr' E1 E2| |]; subst.
  apply elem_of_cons in Hin as [Hin|Hin]; [done|]. right. destruct x as [e|o'].
  - inversion Hr'.
  - eapply (runs_strict true); [exact Hr'| |done|exact Hin]. apply hon_call; [constructor|done].
Qed.

Lemma runs_call_own g a o p h st c pg cx ts : runs g a o p h st -> EvCall c pg cx ts ∈ h -> pg = Some g.
Proof.
  induction 1 as [p|e'|l k r h st Hr IH|d k r h st Hr IH|cx' ts' k c'|cx' ts' k c' e' h st Hr IH]; intros Hin.
  - by apply elem_of_nil in Hin.
  - by apply elem_of_list_singleton in Hin.
  - apply elem_of_cons in Hin as [Hin|Hin]; [done|auto].
  - apply elem_of_cons in Hin as [Hin|Hin]; [done|auto].
  - apply elem_of_list_singleton in Hin. congruence.
  - apply elem_of_cons in Hin as [Hin|Hin]; [congruence|]. apply elem_of_cons in Hin as [Hin|Hin]; [done|auto].
Qed.

Section exec.
  Context (addr : nat -> nat) (objs : list shape) (leafp : nat -> ctx -> prog) (reg : gmap string obj).
  Notation w := (project_world addr objs leafp).
  Context (Hinj : forall o1 o2, addr o1 = addr o2 -> o1 = o2).
  Context (Hquiet : forall o cx ts, ~ may_call (leafp o cx) ts).

  Lemma body_strict g a (o : nat) cx0 h c pg cx ts : runs g a o (body w o cx0) h (Fin None) -> EvCall c pg cx ts ∈ h -> EvRet c pg None ∈ h.
  Proof.
    intros Hr Hin. destruct (is_ref_dec addr objs leafp o) as [[n Hn]|Hn].
    - rewrite (body_ref _ _ _ _ _ _ Hn) in Hr. by eapply runs_strict_deferred.
    - rewrite (body_own _ _ _ _ _ Hn) in Hr. unfold target_prog in Hr.
      assert (Hl : runs g a o (leafp o cx0) h (Fin None) -> EvRet c pg None ∈ h).
      { intros Hr'. exfalso. rewrite (runs_call_own _ _ _ _ _ _ _ _ _ _ Hr' Hin) in Hin. eapply Hquiet. by eapply runs_may_call. }
      destruct (objs !! o) as [[n|us|us|t args|t ins outs ac|tag nd dir]|]; [by apply Hl| | | | |by apply Hl|by apply Hl].
      + eapply runs_strict; [exact Hr|apply (all_honest true)|done|done].
      + eapply runs_strict; [exact Hr|apply (seq_honest true)|done|done].
      + eapply runs_strict; [exact Hr|apply (all_honest true)|done|done].
      + eapply runs_strict; [exact Hr|apply files_prog_honest|done|done].
  Qed.

  Lemma all_well tr : executes w reg tr -> (forall c cx ts, EvCall c None cx ts ∈ tr -> EvRet c None None ∈ tr) ->
    forall l, part_of addr objs leafp reg tr l -> forall g a (o : nat) cx, EvStart g a o cx ∈ l -> EvEnd g a o None ∈ tr.
  Proof.
    intros Hx Hcl. pose proof (proj1 Hx) as Htr. intros l.
    induction l as [l IH] using (induction_ltof1 _ (@length event)); unfold ltof in IH. intros Hp g a o cx Hin.
    assert (Hin' : EvStart g a o cx ∈ tr) by (destruct Hp as [_ [l2 ->]]; apply elem_of_app; by left).
    apply elem_of_list_split in Hin as (l1 & l2 & ->).
    destruct (start_call _ _ _ _ _ _ _ _ _ _ _ Hp) as (c & p & cx' & ts & d & Hc & Hd & -> & Hres).
    assert (Hret : EvCall c p cx' ts ∈ tr /\ EvRet c p None ∈ tr).
    { assert (Hc' : EvCall c p cx' ts ∈ tr) by (destruct Hp as [_ [l3 ->]]; apply elem_of_app; left; apply elem_of_app; by left).
      split; [done|]. destruct p as [g'|]; [|by eapply Hcl].
      apply elem_of_list_split in Hc as (m1 & m2 & ->). rewrite <-app_assoc in *. cbn [app] in *.
      pose proof (part_trace _ _ _ _ _ _ Hp) as Ht.
      destruct (concerns_started w m1 _ _ g' Ht) as (a' & o' & cx0 & Hs); [done|].
      assert (Hend : EvEnd g' a' o' None ∈ tr).
      { eapply (IH m1); [rewrite app_length; simpl; lia|by eapply part_prefix|exact Hs]. }
      assert (Hs' : EvStart g' a' o' cx0 ∈ tr) by (destruct Hp as [_ [l3 ->]]; rewrite <-app_assoc; apply elem_of_app; by left).
      clear IH Hp Hin' Hres Hs. apply elem_of_list_split in Hend as (k1 & k2 & E). assert (Ht2 := Htr). rewrite E in Ht2.
      assert (Hs2 := Hs'). rewrite E in Hs2.
      destruct (path_at w k1 _ k2 g' a' o' cx0 Ht2 eq_refl Hs2) as (_ & st & Hr).
      assert (st = Fin None) as ->.
      { clear -Hr. remember (filter (concerns g') k1 ++ [EvEnd g' a' o' None]) as h eqn:Eh. revert Eh. generalize (filter (concerns g') k1) as h0.
        induction Hr as [p|e'|l k r h st Hr IH|d k r h st Hr IH|cx' ts' k c'|cx' ts' k c' e' h st Hr IH]; intros h0 Eh.
        - by destruct h0.
        - destruct h0 as [|? h0]; [by injection Eh as ->|]. by destruct h0.
        - destruct h0 as [|? h0]; [done|]. injection Eh as <- Eh. by eapply IH.
        - destruct h0 as [|? h0]; [done|]. injection Eh as <- Eh. by eapply IH.
        - destruct h0 as [|? h0]; [done|]. by destruct h0.
        - destruct h0 as [|? h0]; [done|]. injection Eh as <- Eh. destruct h0 as [|? h0]; [done|]. injection Eh as <- Eh. by eapply IH. }
      assert (Hno : filter (concerns g') k2 = []).
      { eapply (after_end {| p_world := w; p_rules := []; p_sub := fun _ => 0; p_desc := fun _ => FilesModel.TNil; p_cmd := fun _ _ _ _ fs => fs; p_other := fun _ _ _ fs => fs; p_db := fun _ _ _ db => db; p_possible := fun _ => True |} g' a' o' None (k1 ++ [EvEnd g' a' o' None]) k2); [|apply elem_of_snoc; by right].
        rewrite <-app_assoc. exact Ht2. }
      assert (Hck : EvCall c (Some g') cx' ts ∈ filter (concerns g') k1 ++ [EvEnd g' a' o' None]).
      { rewrite E in Hc'. apply elem_of_app in Hc' as [Hc'|Hc']; [apply elem_of_app; left; by apply elem_of_list_filter|].
        apply elem_of_cons in Hc' as [Hc'|Hc']; [done|]. exfalso.
        assert (Hf : EvCall c (Some g') cx' ts ∈ filter (concerns g') k2) by (by apply elem_of_list_filter). rewrite Hno in Hf. by apply elem_of_nil in Hf. }
      pose proof (body_strict _ _ _ _ _ _ _ _ _ Hr Hck) as Hrt. rewrite E.
      apply elem_of_snoc in Hrt as [Hrt|?]; [|done]. apply elem_of_list_filter in Hrt as [_ Hrt]. apply elem_of_app. by left. }
    destruct Hret as [Hc2 Hr2].
    destruct (ret_none_all _ _ _ _ _ _ _ Htr Hc2 Hr2 Hd) as (d' & g2 & o2 & [= <-] & He). simpl in He.
    destruct (end_started _ _ _ _ _ _ Htr He) as (cx2 & Hs2).
    apply elem_of_list_lookup in Hs2 as [i Hi]. apply elem_of_list_lookup in Hin' as [j Hj].
    pose proof (start_unique _ _ _ _ _ _ _ _ _ _ _ Htr Hi Hj) as ->. rewrite Hi in Hj. injection Hj as -> -> ->. done.
  Qed.
End exec.
