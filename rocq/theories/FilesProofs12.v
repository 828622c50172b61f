(** Errors of Files targets. *)
From stdpp Require Import base gmap list strings.
From Verif Require Import FileHashModel FileHashSpec FileHashProofs FileHashProps FilesModel FilesSpec FilesSpec2 FilesProofs FilesProofs2 FilesProofs3 FilesProofs4 FilesProofs5 FilesProofs6 FilesProofs7 FilesProofs8.
Local Open Scope list_scope.

Lemma enc_encodable t : encodable t <-> enc t <> None.
Proof.
  induction t as [|c|ts IH|ts IH|t a IH|n|t i o IH|l b|n|n t IH|s j] using tgt_ind'; try (split; [done|constructor]).
  - set (go := fix go ts := match ts with [] => Some [] | t :: ts => j ← enc t; js ← go ts; Some (j :: js) end).
    change (enc (TAll ts)) with ((fun js => JObj [("Targets", JArr js)]) <$> go ts).
    assert (H : go ts <> None <-> forall t, t ∈ ts -> encodable t).
    { clear - IH. induction ts as [|t ts IHts]; [split; [by intros _ t ?%elem_of_nil|intros _; unfold go; discriminate]|]. apply Forall_cons in IH as [H1 H2]. specialize (IHts H2). simpl.
      destruct (enc t) as [j|]; simpl.
      - destruct (go ts) as [js|]; simpl.
        + split; [|done]. intros _ t' [->|Ht]%elem_of_cons; [by apply H1|]. by apply IHts.
        + split; [done|]. intros H. exfalso. apply (proj2 IHts); [|done]. intros t' Ht. apply H. by right.
      - split; [done|]. intros H. exfalso. assert (Hx : encodable t) by (apply H; left). by apply H1 in Hx. }
    split; [intros Hx; inversion Hx as [| |ts' Hy| | | | | | | |]; subst; apply H in Hy; by destruct (go ts)|]. intros Hx. constructor. apply H. by destruct (go ts).
  - simpl. split; [intros Hx; inversion Hx; subst; apply IH in H0; by destruct (enc t)|]. intros Hx. constructor. apply IH. by destruct (enc t).
  - simpl. split; [intros Hx; inversion Hx; subst; apply IH in H0; by destruct (enc t)|]. intros Hx. constructor. apply IH. by destruct (enc t).
  - simpl. split; [intros Hx; inversion Hx; subst; apply IH in H0; by destruct (enc t)|]. intros Hx. constructor. apply IH. by destruct (enc t).
  - simpl. destruct j; [split; [done|constructor]|]. split; [intros Hx; inversion Hx|done].
Qed.
Lemma type_nil t : type_string t = None <-> t = TNil.
Proof. by destruct t. Qed.

Section errors.
  Context (hashf : string -> string) (H : json -> hash) (R : string -> option tgt) (fs0 : files_state).
  Notation history := (history hashf H R fs0).

  (** What computing a hash gives. *)
  Lemma hash_cases fuel fs r :
    match computeHash hashf H fuel fs r with
    | HOk _ => readable fs r /\ r_tgt r <> TNil /\ encodable (r_tgt r)
    | HErr x => (covered fs (r_in r) x \/ covered fs (r_out r) x) /\ (fs x = FDir None \/ fs x = FFile None) \/
                x = "in JSON marshaling" /\ readable fs r /\ r_tgt r <> TNil /\ ~ encodable (r_tgt r)
    | HPanic => (exists q, (covered fs (r_in r) q \/ covered fs (r_out r) q) /\ fs q = FStatErr) \/ r_tgt r = TNil /\ readable fs r
    | HOutOfFuel => True
    end.
  Proof.
    unfold computeHash.
    assert (Hk : forall items l, fileHashes hashf fuel fs items = HOk l -> forall q, covered fs items q -> ~ unreadable fs q).
    { intros items l E. assert (Hl : hashes_to hashf fs items (HOk l)) by (split; [done|by exists fuel]). by apply fileHashes_ok in Hl as [_ ?]. }
    destruct (fileHashes hashf fuel fs (r_in r)) as [ins|x| |] eqn:E1; [| |left|done].
    2:{ left. destruct (C22_errors_are_about_unreadable_files_partial hashf fs (r_in r) (HErr x)) as [K1 K2]; [split; [done|by exists fuel]|]. split; [by left|done]. }
    2:{ destruct (C22_errors_are_about_unreadable_files_partial hashf fs (r_in r) HPanic) as [q [K1 K2]]; [split; [done|by exists fuel]|]. exists q. split; [by left|done]. }
    destruct (fileHashes hashf fuel fs (r_out r)) as [outs|x| |] eqn:E2; [| |left|done].
    2:{ left. destruct (C22_errors_are_about_unreadable_files_partial hashf fs (r_out r) (HErr x)) as [K1 K2]; [split; [done|by exists fuel]|]. split; [by right|done]. }
    2:{ destruct (C22_errors_are_about_unreadable_files_partial hashf fs (r_out r) HPanic) as [q [K1 K2]]; [split; [done|by exists fuel]|]. exists q. split; [by right|done]. }
    assert (Hr : readable fs r) by (intros q [Hq|Hq]; [exact (Hk _ _ E1 q Hq)|exact (Hk _ _ E2 q Hq)]).
    destruct (type_string (r_tgt r)) as [ty|] eqn:Et; [|right; split; [by apply type_nil|done]].
    assert (Hn : r_tgt r <> TNil) by (intros E; by rewrite E in Et).
    destruct (enc (r_tgt r)) as [j|] eqn:Ee.
    - split; [done|]. split; [done|]. apply enc_encodable. by rewrite Ee.
    - right. split; [done|]. split; [done|]. split; [done|]. intros Hx%enc_encodable. done.
  Qed.

  Lemma r_hash fl evs st i m fs r x : replay (Idle (files_run fl)) evs st -> LHash i m fs r (HErr x) ∈ evs ->
    (forall j y, LRet j y ∈ evs -> y = RErr (EHash m x)) /\ (forall j h ap ok, LAdd j h ap ok ∉ evs) /\ (m = Before -> forall j, LSubStart j ∉ evs).
  Proof.
    intros Hr Hi. open_all; elems; (split; [intros jj yy Hj; elems; done|split; [intros jj hh aa oo Hj; elems|intros E jj Hj; elems; try discriminate E]]).
  Qed.
  Lemma r_has fl evs st i h : replay (Idle (files_run fl)) evs st -> LHas i h None ∈ evs ->
    (forall j y, LRet j y ∈ evs -> y = RErr EHas) /\ (forall j h ap ok, LAdd j h ap ok ∉ evs) /\ (forall j, LSubStart j ∉ evs).
  Proof.
    intros Hr Hi. open_all; elems; (split; [intros jj yy Hj; elems; done|split; [intros jj hh aa oo Hj; elems|intros jj Hj; elems]]).
  Qed.
  Lemma r_add fl evs st i h ap : replay (Idle (files_run fl)) evs st -> LAdd i h ap false ∈ evs -> forall j y, LRet j y ∈ evs -> y = RErr EAdd.
  Proof. intros Hr Hi. open_all; elems; intros jj yy Hj; elems; done. Qed.
  Lemma r_ret fl evs st i e : replay (Idle (files_run fl)) evs st -> LRet i (RErr e) ∈ evs -> exists j ev, ev ∈ evs /\ reports j e ev.
  Proof.
    intros Hr Hi. open_all; elems.
    all: try (match goal with H : _ = (if ?b then _ else _) |- _ => destruct b; try discriminate H; injection H as -> end).
    all: do 2 eexists; (split; [|first [reflexivity|eexists; reflexivity|eexists; eexists; reflexivity]]); by repeat first [left|right].
  Qed.
  Lemma r_panic fl evs st i : replay (Idle (files_run fl)) evs st -> LRet i RPanic ∈ evs -> exists j m fs r, LHash j m fs r HPanic ∈ evs.
  Proof.
    intros Hr Hi. open_all; elems.
    all: try (match goal with H : context [if ?b then _ else _] |- _ => destruct b; try discriminate H end).
    all: do 4 eexists; repeat first [apply elem_of_list_here|apply elem_of_list_further].
  Qed.
End errors.
