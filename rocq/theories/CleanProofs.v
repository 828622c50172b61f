From stdpp Require Import base gmap fin_sets list strings sorting.
From Verif Require Import StrOrd CleanModel CleanSpec.
Local Open Scope list_scope.

Lemma array_write h a i xs : array (write h a i xs) a = take i (array h a) ++ xs ++ drop (i + length xs) (array h a).
Proof. unfold write. set (x := _ ++ _). clearbody x. unfold array. by rewrite lookup_insert. Qed.
Lemma array_write_ne h a b i xs : a <> b -> array (write h a i xs) b = array h b.
Proof. intros H. unfold write. set (x := _ ++ _). clearbody x. unfold array. by rewrite lookup_insert_ne. Qed.

Lemma contents_sort h s : slice_ok h s -> contents (sort h s) s = ssort (contents h s).
Proof.
  intros [H1 H2]. unfold sort. set (c := ssort (contents h s)).
  assert (Hl : length c = s_len s).
  { unfold c. rewrite (Permutation_length (ssort_perm _)). unfold contents. rewrite take_length, drop_length. lia. }
  unfold contents at 1. rewrite array_write. rewrite drop_app_alt by (rewrite take_length; lia).
  rewrite take_app_alt by lia. done.
Qed.

Lemma append_spec h s xs extra : slice_ok h s ->
  let '(h', s') := append h s xs extra in slice_ok h' s' /\ contents h' s' = contents h s ++ xs.
Proof.
  intros [H1 H2]. unfold append.
  assert (Hl : length (contents h s) = s_len s) by (unfold contents; rewrite take_length, drop_length; lia).
  destruct (decide _) as [Hc|Hc].
  - split.
    + split; simpl; [lia|]. rewrite array_write, !app_length, take_length, drop_length. lia.
    + unfold contents at 1. simpl. rewrite array_write.
      rewrite drop_app_le by (rewrite take_length; lia).
      rewrite <-(take_drop (s_len s) (array h (s_arr s))) at 1.
      rewrite skipn_firstn_comm. replace (s_off s + s_len s - s_off s) with (s_len s) by lia.
      rewrite take_drop. fold (contents h s).
      rewrite app_assoc, take_app_alt; [done|]. rewrite app_length. lia.
  - set (a := fresh (dom h)).
    assert (Ha : forall x, array (<[a := x]> h) a = x) by (intros; unfold array; by rewrite lookup_insert).
    split.
    + split; simpl; [lia|]. rewrite Ha, !app_length. lia.
    + unfold contents at 1. simpl. rewrite Ha, drop_0, app_assoc, take_app_alt; [done|]. rewrite app_length. lia.
Qed.

Section fs.
  Context (loc : string -> nat) (parent : nat -> option nat) (stuck : nat -> bool).
  Notation Remove := (Remove loc parent stuck).
  Notation remove_loop := (remove_loop loc parent stuck).

  (** After an error on [f]: those before it are gone, nothing else changed, and [f] cannot be removed. *)
  Lemma loop_spec files : forall fs fs' e, remove_loop fs files = (fs', e) ->
    match e with
    | None => without loc files fs fs'
    | Some f => exists before after, files = before ++ f :: after /\ without loc before fs fs' /\ Remove fs' f = RmErr
    end.
  Proof.
    induction files as [|f files IH]; intros fs fs' e; cbn [CleanModel.remove_loop].
    { intros [= <- <-]. intros l. rewrite decide_False; [done|]. apply not_elem_of_nil. }
    destruct (Remove fs f) as [fs1| |] eqn:E.
    - unfold CleanModel.Remove in E. destruct (fs !! loc f) eqn:Ef; [|done].
      destruct (stuck (loc f)); [done|]. destruct (decide _); [done|]. injection E as <-.
      intros H. apply IH in H. destruct e as [g|].
      + destruct H as (b & a & -> & Hw & Hr). exists (f :: b), a. split; [done|]. split; [|done].
        intros l. rewrite Hw. cbn [map]. destruct (decide (l = loc f)) as [->|Hn].
        * rewrite lookup_delete. rewrite (decide_True None (fs !! loc f)) by (by left). by destruct (decide _).
        * rewrite lookup_delete_ne by done. destruct (decide (l ∈ map loc b)) as [Hd|Hd].
          -- by rewrite decide_True by (by right).
          -- rewrite decide_False; [done|]. by intros [?|?]%elem_of_cons.
      + intros l. rewrite H. cbn [map]. destruct (decide (l = loc f)) as [->|Hn].
        * rewrite lookup_delete. rewrite (decide_True None (fs !! loc f)) by (by left). by destruct (decide _).
        * rewrite lookup_delete_ne by done. destruct (decide (l ∈ map loc files)) as [Hd|Hd].
          -- by rewrite decide_True by (by right).
          -- rewrite decide_False; [done|]. by intros [?|?]%elem_of_cons.
    - assert (Ef : fs !! loc f = None).
      { unfold CleanModel.Remove in E. destruct (fs !! loc f); [|done]. destruct (stuck (loc f)); [done|]. by destruct (decide _). }
      intros H. apply IH in H. destruct e as [g|].
      + destruct H as (b & a & -> & Hw & Hr). exists (f :: b), a. split; [done|]. split; [|done].
        intros l. rewrite Hw. cbn [map]. destruct (decide (l ∈ map loc b)) as [Hd|Hd].
        * by rewrite decide_True by (by right).
        * destruct (decide (l = loc f)) as [->|Hn]; [rewrite decide_True by (by left); done|].
          rewrite decide_False; [done|]. by intros [?|?]%elem_of_cons.
      + intros l. rewrite H. cbn [map]. destruct (decide (l ∈ map loc files)) as [Hd|Hd].
        * by rewrite decide_True by (by right).
        * destruct (decide (l = loc f)) as [->|Hn]; [rewrite decide_True by (by left); done|].
          rewrite decide_False; [done|]. by intros [?|?]%elem_of_cons.
    - intros [= <- <-]. exists [], files. split; [done|]. split; [|done].
      intros l. rewrite decide_False; [done|]. apply not_elem_of_nil.
  Qed.
  Lemma remove_err fs f : Remove fs f = RmErr <-> is_Some (fs !! loc f) /\
    (stuck (loc f) = true \/ (fs !! loc f = Some Dir /\ exists c, is_Some (fs !! c) /\ parent c = Some (loc f))).
  Proof.
    unfold CleanModel.Remove. destruct (fs !! loc f) as [e|] eqn:E.
    2:{ split; [done|]. intros [[? ?] _]. done. }
    destruct (stuck (loc f)) eqn:Es.
    { split; [intros _; split; [eauto|by left]|done]. }
    destruct (decide (e = Dir /\ has_children parent fs (loc f))) as [[-> Hc]|Hn].
    - split; [intros _|done]. split; [eauto|]. right. split; [done|]. apply Exists_exists in Hc as (c & Hc & Hp).
      exists c. split; [|done]. by apply elem_of_dom, elem_of_elements.
    - split; [done|]. intros [_ [?|[[= ->] (c & Hc & Hp)]]]; [done|]. destruct Hn. split; [done|].
      apply Exists_exists. exists c. split; [|done]. by apply elem_of_elements, elem_of_dom.
  Qed.

  Lemma run_unfold h s ac dry reg extra fs h' fs' e : slice_ok h s ->
    Run loc parent stuck h s ac dry reg extra fs = (h', fs', e) ->
    (fs', e) = if dry then (fs, None) else remove_loop fs (ssort (listed h s ac reg)).
  Proof.
    intros Hok. unfold Run, listed.
    assert (Hx : forall h1 s1, slice_ok h1 s1 -> 
      (if decide (length (contents (sort h1 s1) s1) = 0) then (sort h1 s1, fs, None)
       else if dry then (sort h1 s1, fs, None)
       else let '(fs, e) := remove_loop fs (contents (sort h1 s1) s1) in (sort h1 s1, fs, e)) = (h', fs', e) ->
      (fs', e) = if dry then (fs, None) else remove_loop fs (ssort (contents h1 s1))).
    { intros h1 s1 Hok1. rewrite contents_sort by done.
      destruct (decide (length (ssort (contents h1 s1)) = 0)) as [H0|H0].
      - apply nil_length_inv in H0. rewrite H0. intros [= <- <- <-]. by destruct dry.
      - destruct dry; [by intros [= <- <- <-]|]. destruct (remove_loop fs (ssort (contents h1 s1))) as [f1 e1].
        by intros [= <- <- <-]. }
    destruct ac.
    - pose proof (append_spec h s reg extra Hok) as Ha. destruct (append h s reg extra) as [h1 s1].
      destruct Ha as [Hok1 Hc]. rewrite <-Hc. by apply Hx.
    - rewrite app_nil_r. by apply Hx.
  Qed.
End fs.
