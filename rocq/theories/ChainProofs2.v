From stdpp Require Import base gmap list strings relations.
From Verif Require Import PathModel FindModel PathProofs3 ContextModel RunnerModel RunnerSteps RunnerSpec RunnerSpec2.
From Verif Require Import RunnerProofs RunnerProgress RunnerTerm RunnerFair ChainModel ChainSpec ChainProofs.
Local Open Scope list_scope.

Lemma declare_in reg f name f' : declare reg f !! name = Some f' -> f' = f \/ reg !! name = Some f'.
Proof.
  unfold declare. generalize (f_out f). intros outs. revert reg. induction outs as [|o outs IH]; intros reg H; simpl in *; [by right|].
  apply IH in H as [->|H]; [by left|]. unfold reg_add in H.
  destruct (decide (o = name)) as [->|Hne]; [rewrite lookup_insert in H; left; congruence|].
  rewrite lookup_insert_ne in H by done. by right.
Qed.
Lemma declare_all_in fs name f : declare_all fs !! name = Some f -> f ∈ fs.
Proof.
  unfold declare_all.
  assert (H : forall reg, fold_left declare fs reg !! name = Some f -> f ∈ fs \/ reg !! name = Some f).
  { induction fs as [|f0 fs IH]; intros reg Hr; simpl in *; [by right|].
    apply IH in Hr as [Hr|Hr]; [left; by right|]. apply declare_in in Hr as [->|Hr]; [left; left|by right]. }
  intros Hr. apply H in Hr as [?|Hr]; [done|]. by rewrite lookup_empty in Hr.
Qed.
Lemma found_in fs i f : findInFilesRegistry (declare_all fs) i = Found f -> f ∈ fs.
Proof.
  unfold findInFilesRegistry. generalize (S (length (split i))). intros n. revert i.
  induction n as [|n IH]; intros i H; simpl in H; [done|].
  destruct (declare_all fs !! i) as [f'|] eqn:E; [simplify_eq; by eapply declare_all_in|].
  destruct (decide _); [done|]. by eapply IH.
Qed.

Lemma files_end_finite f cx : finite (files_end f cx).
Proof.
  unfold files_end. destruct (decide _); [constructor|]. destruct (GetDryRun cx); [constructor|].
  constructor. intros [|r]; constructor. intros [|r']; constructor.
Qed.
Lemma files_sub_finite f sub cx : finite (files_sub f sub cx).
Proof. unfold files_sub. constructor. intros [e|]; [constructor|apply files_end_finite]. Qed.
Lemma files_rest_finite f sub cx : finite (files_rest f sub cx).
Proof.
  unfold files_rest. destruct (decide _); [apply files_sub_finite|].
  destruct (GetForce cx || GetDryRun cx); [apply files_sub_finite|].
  constructor. intros [|r]; constructor. intros [|[|r']]; [apply files_sub_finite|constructor|constructor].
Qed.
Lemma files_prog_finite reg f sub cx : finite (files_prog reg f sub cx).
Proof.
  unfold files_prog. destruct (prereqs reg (f_in f)); [apply files_rest_finite|].
  constructor. intros [e|]; [constructor|apply files_rest_finite].
Qed.

Lemma may_ret e ts : ~ may_call (Ret e) ts.
Proof. intros H. inversion H. Qed.
Lemma files_end_calls f cx ts : ~ may_call (files_end f cx) ts.
Proof.
  unfold files_end. intros H. destruct (decide _); [by apply may_ret in H|].
  destruct (GetDryRun cx); [by apply may_ret in H|].
  inversion H as [| | |? ? r ? H1]; subst. destruct r; [by apply may_ret in H1|].
  inversion H1 as [| | |? ? r' ? H2]; subst. destruct r'; by apply may_ret in H2.
Qed.
Lemma files_sub_calls f sub cx ts : may_call (files_sub f sub cx) ts -> ts = [sub].
Proof.
  unfold files_sub. intros H. inversion H as [|? ? ? e ? H1| |]; subst; [done|].
  destruct e; [by apply may_ret in H1|by apply files_end_calls in H1].
Qed.
Lemma files_rest_calls f sub cx ts : may_call (files_rest f sub cx) ts -> ts = [sub].
Proof.
  unfold files_rest. intros H. destruct (decide _); [by eapply files_sub_calls|].
  destruct (GetForce cx || GetDryRun cx); [by eapply files_sub_calls|].
  inversion H as [| | |? ? r ? H1]; subst. destruct r; [by apply may_ret in H1|].
  inversion H1 as [| | |? ? r' ? H2]; subst. destruct r' as [|[|r']];
    [by eapply files_sub_calls|by apply may_ret in H2|by apply may_ret in H2].
Qed.
Lemma files_prog_calls reg f sub cx ts : may_call (files_prog reg f sub cx) ts ->
  ts = [sub] \/ ts = (fun p => TPtr (f_id p)) <$> prereqs reg (f_in f).
Proof.
  unfold files_prog. intros H. destruct (prereqs reg (f_in f)) as [|p ps]; [left; by eapply files_rest_calls|].
  inversion H as [|? ? ? e ? H1| |]; subst; [by right|].
  destruct e; [by apply may_ret in H1|]. left. by eapply files_rest_calls.
Qed.

Lemma acyclic_chain_lem w fs (h : nat -> state) chs n c p cx ts :
  execution w h chs -> fair w h chs -> addr_injective w ->
  (forall f, f ∈ fs -> w_deferred w (f_id f) = None /\ exists sub,
     (forall cx, w_body w (f_id f) cx = files_prog (declare_all fs) f sub cx) /\
     forall o, sub = TPtr o -> safe w (fun a b => exists n, depends w (s_log (h n)) a b) (w_addr w o)) ->
  (forall f, ~ tc (produced_by fs) f f) ->
  EvCall c p cx ts ∈ s_log (h n) -> (forall t, t ∈ ts -> exists f, f ∈ fs /\ t = TPtr (f_id f)) ->
  exists m e, n <= m /\ EvRet c p e ∈ s_log (h m).
Proof.
  intros He Hf Hinj Hfs Hac Hin Hts.
  eapply (fair_returns_safe_lem w h chs He Hf); [|exact Hin].
  intros o Ho. destruct (Hts _ Ho) as (f & Hff & [= ->]). clear Ho Hin Hts.
  assert (Hwf : well_founded (fun f' f => produced_by fs f f' /\ f ∈ fs)).
  { apply (acyclic_wf (fun f f' => produced_by fs f f' /\ f ∈ fs) fs); [|by intros ? ? [_ ?]].
    assert (Hm : forall a b, tc (fun f f' => produced_by fs f f' /\ f ∈ fs) a b -> tc (produced_by fs) a b).
    { clear. intros a b Hx. induction Hx as [a b [H _]|a b c [H _] _ IH]; [by apply tc_once|by eapply tc_l]. }
    intros x Hx. by apply (Hac x), Hm. }
  induction (Hwf f) as [f _ IH]. destruct (Hfs f Hff) as (Hd & sub & Hb & Hsub). constructor.
  - intros o cx' Ho _. apply Hinj in Ho as ->. rewrite Hb. apply files_prog_finite.
  - intros b [m Hdep]. inversion Hdep as [o cx' us o' _ Hm Hin Ho Hb'|d name o Hd' _ Ho Hb'].
    + apply Hinj in Ho as ->. rewrite Hb in Hm. apply files_prog_calls in Hm as [-> | ->].
      * apply elem_of_list_singleton in Hin. by apply Hsub.
      * apply elem_of_list_fmap in Hin as (q & [= ->] & Hq). apply prereqs_inv in Hq as (i & Hi & Hfi).
        apply IH; [split; [by exists i|done]|by eapply found_in].
    + apply Hinj in Ho as ->. congruence.
Qed.
