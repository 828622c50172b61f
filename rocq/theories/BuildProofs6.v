From stdpp Require Import base gmap list strings.
From Verif Require Import PathModel FindModel FileHashModel FileHashSpec FilesModel FilesSpec FilesProofs4 PathProofs3.
From Verif Require Import ContextModel RunnerModel RunnerSteps RunnerSpec RunnerInv RunnerInv2 RunnerInv3 RunnerInv4 RunnerInv5 RunnerInv6.
From Verif Require Import RunnerSpec2 RunnerProgress RunnerProofs RunnerProofs2 RunnerProofs3 ChainModel ChainProofs BuildModel BuildSpec BuildProofs BuildProofs2 BuildProofs3 BuildProofs4 BuildProofs5.
Local Open Scope list_scope.

(** ** What targets do is limited by what they are. *)
Lemma runs_allowed asks does g a o p h st : runs g a o p h st -> allowed asks does p ->
  (forall c g' cx ts x, EvCall c g' cx ts ∈ h -> TPtr x ∈ ts -> asks x) /\ (forall g' l r, EvEff g' l r ∈ h -> does l).
Proof.
  intros Hr. induction Hr as [p|e|l k r h st H IH|d k r h st H IH|cx1 ts1 k c1|cx1 ts1 k c1 e h st H IH]; intros Ha.
  - split; intros *; intros Hin; by apply elem_of_nil in Hin.
  - split; intros *; intros Hin; by apply elem_of_list_singleton in Hin.
  - inversion Ha as [| |l' k' Hl Hk]; subst. destruct (IH (Hk r)) as [I1 I2].
    split; intros *; intros [Hin|Hin]%elem_of_cons; [done|by eapply I1|by simplify_eq|by eapply I2].
  - inversion Ha.
  - inversion Ha as [|cx' ts' k' Ht Hk|]; subst.
    split; intros *; intros Hin%elem_of_list_singleton; [|done]. simplify_eq. by apply Ht.
  - inversion Ha as [|cx' ts' k' Ht Hk|]; subst. destruct (IH (Hk e)) as [I1 I2].
    split; intros *; intros [Hin|[Hin|Hin]%elem_of_cons]%elem_of_cons; try done; [simplify_eq; by apply Ht|by eapply I1|by eapply I2].
Qed.

Lemma files_prog_allowed (asks : obj -> Prop) reg f sub cx : (forall q, q ∈ prereqs reg (f_in f) -> asks (f_id q)) -> (forall x, sub = TPtr x -> asks x) ->
  allowed asks (fun l => forall o n, l <> OpCmd o n) (files_prog reg f sub cx).
Proof.
  intros Hq Hs.
  assert (He : allowed asks (fun l => forall o n, l <> OpCmd o n) (files_end f cx)).
  { unfold files_end. case_decide; [constructor|]. destruct (GetDryRun cx); [constructor|].
    constructor; [done|]. intros [|h]; [constructor|]. constructor; [done|]. intros [|n]; constructor. }
  assert (Hsub : allowed asks (fun l => forall o n, l <> OpCmd o n) (files_sub f sub cx)).
  { constructor; [intros x Hx%elem_of_list_singleton; eauto|]. intros [e|]; [constructor|done]. }
  assert (Hr : allowed asks (fun l => forall o n, l <> OpCmd o n) (files_rest f sub cx)).
  { unfold files_rest. case_decide; [done|]. destruct (_ || _); [done|].
    constructor; [done|]. intros [|h]; [constructor|]. constructor; [done|]. intros [|[|n]]; [done|constructor..]. }
  unfold files_prog. destruct (prereqs reg (f_in f)) as [|q qs] eqn:E; [done|]. rewrite <-E in *.
  constructor; [|intros [e|]; [constructor|done]].
  intros x Hx. apply elem_of_list_fmap in Hx as (q' & [= ->] & Hq'). by apply Hq.
Qed.

Section tidy.
  Context (p : project) (owner : obj -> option obj) (tr : list event).
  Context (Hwf : well_formed p) (Htd : tidy p owner) (Ht : trace (p_world p) tr).
  Context (Hnamed : forall name x i, EvRegister name x ∈ tr -> owner x <> Some i).
  Notation w := (p_world p).

  Lemma tidy_history ev g a o cx : ev ∈ tr -> concerns g ev -> EvStart g a o cx ∈ tr ->
    exists h st, runs g a o (body w o cx) h st /\ ev ∈ h /\ (forall ev', ev' ∈ h -> ev' ∈ tr).
  Proof.
    intros Hev Hc Hs. apply elem_of_list_split in Hev as (l1 & l2 & E). rewrite E in Ht, Hs |- *.
    destruct (path_at w l1 ev l2 g a o cx Ht Hc Hs) as (_ & st & Hr).
    exists (filter (concerns g) l1 ++ [ev]), st. split; [done|]. split; [apply elem_of_snoc; by right|].
    intros ev' [Hin| ->]%elem_of_snoc; apply elem_of_app; [left; by apply elem_hist in Hin|right; left].
  Qed.

  (** What a target does and requests. *)
  Lemma tidy_does g a o cx0 : EvStart g a o cx0 ∈ tr ->
    (forall c cx ts x i, EvCall c (Some g) cx ts ∈ tr -> TPtr x ∈ ts -> owner x = Some i -> o = i \/ owner o = Some i) /\
    (forall i n r, EvEff g (OpCmd i n) r ∈ tr -> owner o = Some i) /\
    (forall h r, EvEff g (OpAdd h) r ∈ tr -> exists f, f ∈ p_rules p /\ f_id f = o).
  Proof.
    intros Hs. destruct (w_deferred w o) as [name|] eqn:Hd.
    { (* a deferred reference *)
      assert (Hb : body w o cx0 = deferred_prog o cx0) by (unfold body; by rewrite Hd).
      assert (Hno : forall l r, EvEff g l r ∈ tr -> False).
      { intros l r Hin. destruct (tidy_history _ g a o cx0 Hin eq_refl Hs) as (h & st & Hr & Hh & _). rewrite Hb in Hr.
        inversion Hr as [p'|e'|l' k r' h' st' H'|d k r' h' st' H'|cx1 ts1 k c1|cx1 ts1 k c1 e' h' st' H']; subst.
        - by apply elem_of_nil in Hh.
        - apply elem_of_cons in Hh as [Hh|Hh]; [done|]. destruct r' as [e|o'].
          + apply runs_ret_inv in H' as [-> | ->]; [by apply elem_of_nil in Hh|by apply elem_of_list_singleton in Hh].
          + apply runs_call_inv in H' as [->|(c & [->|(e & h2 & -> & H2)])].
            * by apply elem_of_nil in Hh.
            * by apply elem_of_list_singleton in Hh.
            * apply elem_of_cons in Hh as [Hh|Hh]; [done|]. apply elem_of_cons in Hh as [Hh|Hh]; [done|].
              apply runs_ret_inv in H2 as [-> | ->]; [by apply elem_of_nil in Hh|by apply elem_of_list_singleton in Hh]. }
      split; [|split].
      - intros c cx ts x i Hin Hx Ho. exfalso.
        destruct (tidy_history _ g a o cx0 Hin eq_refl Hs) as (h & st & Hr & Hh & Hsub). rewrite Hb in Hr.
        destruct (deferred_runs_call _ _ _ _ _ _ _ _ _ _ Hr Hh) as (o' & -> & Hres). apply elem_of_list_singleton in Hx as [= ->].
        apply Hsub in Hres. apply trace_reachable in Ht as (s & Hre & <-).
        eapply Hnamed; [|exact Ho]. by eapply (inv_res_holds w s Hre).
      - intros i n r Hin. exfalso. by eapply Hno.
      - intros h r Hin. exfalso. by eapply Hno. }
    assert (Hb : body w o cx0 = w_body w o cx0) by (unfold body; by rewrite Hd).
    assert (Hall : forall asks does, allowed asks does (w_body w o cx0) ->
      (forall c cx ts x, EvCall c (Some g) cx ts ∈ tr -> TPtr x ∈ ts -> asks x) /\ (forall l r, EvEff g l r ∈ tr -> does l)).
    { intros asks does Ha. split; intros *; intros Hin; destruct (tidy_history _ g a o cx0 Hin eq_refl Hs) as (h & st & Hr & Hh & _);
        rewrite Hb in Hr; destruct (runs_allowed asks does _ _ _ _ _ _ Hr Ha) as [I1 I2]; [by eapply I1|by eapply I2]. }
    destruct (owner o) as [i0|] eqn:Ho.
    { destruct (Hall _ _ (td_owned _ _ Htd o i0 cx0 Ho)) as [I1 I2]. split; [|split].
      - intros c cx ts x i Hin Hx Hxo. right. destruct (I1 _ _ _ _ Hin Hx); congruence.
      - intros i n r Hin. destruct (I2 _ _ Hin) as [(n' & ?)|(n' & ?)]; by simplify_eq.
      - intros h r Hin. destruct (I2 _ _ Hin) as [(n' & ?)|(n' & ?)]; by simplify_eq. }
    destruct (decide (Exists (fun f => f_id f = o) (p_rules p))) as [He|He].
    { apply Exists_exists in He as (f & Hf & Hfo). subst o.
      assert (Ha : allowed (fun y => owner y = None \/ owner y = Some (f_id f)) (fun l => forall o n, l <> OpCmd o n) (w_body w (f_id f) cx0)).
      { rewrite (wf_body _ Hwf) by done. apply files_prog_allowed.
        - intros q Hq. left. apply (td_sub _ _ Htd). by eapply (needs_rules p f q).
        - intros x [= <-]. right. by apply (td_sub _ _ Htd). }
      destruct (Hall _ _ Ha) as [I1 I2]. split; [|split].
      - intros c cx ts x i Hin Hx Hxo. left. destruct (I1 _ _ _ _ Hin Hx); congruence.
      - intros i n r Hin. exfalso. by eapply I2.
      - intros h r Hin. by exists f. }
    assert (Hf : forall f, f ∈ p_rules p -> f_id f <> o).
    { intros f Hf Hfo. apply He, Exists_exists. by exists f. }
    destruct (Hall _ _ (td_free _ _ Htd o cx0 Ho Hf Hd)) as [I1 I2]. split; [|split].
    - intros c cx ts x i Hin Hx Hxo. pose proof (I1 _ _ _ _ Hin Hx). congruence.
    - intros i n r Hin. destruct (I2 _ _ Hin). done.
    - intros h r Hin. destruct (I2 _ _ Hin). done.
  Qed.

  Lemma tidy_is_orderly :
    (forall c cx ts x i, EvCall c None cx ts ∈ tr -> TPtr x ∈ ts -> owner x <> Some i) ->
    (forall g a cx f, f ∈ p_rules p -> EvStart g a (f_id f) cx ∈ tr -> GetDryRun cx = false) ->
    orderly p owner tr.
  Proof.
    intros Hcl Hdry. split.
    - apply (td_sub _ _ Htd).
    - apply (td_rule _ _ Htd).
    - apply Hcl.
    - intros g a o cx0 c cx ts x i Hs Hc. by apply (proj1 (tidy_does g a o cx0 Hs) c cx).
    - apply Hnamed.
    - intros g a o cx i n r Hs. apply (tidy_does g a o cx Hs).
    - intros g a o cx h r Hs. apply (tidy_does g a o cx Hs).
    - apply Hdry.
  Qed.
End tidy.

Section proper.
  Context (p : project) (owner : obj -> option obj) (tr : list event).
  Context (Hwf : well_formed p) (Htd : tidy p owner) (Hpu : proper_use p owner tr) (Ht : trace (p_world p) tr).
  Notation w := (p_world p).

  Lemma tidy_addr g a f cx : f ∈ p_rules p -> EvStart g a (f_id f) cx ∈ tr -> a = w_addr w (f_id f).
  Proof.
    intros Hf Hs. pose proof Ht as Ht'. apply trace_reachable in Ht' as (s & Hre & E). rewrite <-E in Hs.
    destruct (proj1 (inv_start_holds _ _ Hre) _ _ _ _ Hs) as (gr & Hg & Hk & Ho & _).
    destruct (inv_link_holds _ _ Hre _ _ Hg) as (cl & o & Hc & Hti & Hkey & Hd & Hca & _).
    destruct (w_deferred w o) as [name|] eqn:Ed.
    - exfalso. destruct (proj2 (proj2 (inv_reg_holds _ _ Hre)) _ _ (Hca _ eq_refl)) as (name' & Hn & Hr).
      rewrite Ho, E in Hr. eapply (pu_rules _ _ _ Hpu name' f o Hf Hr). congruence.
    - specialize (Hd eq_refl). congruence.
  Qed.

  Lemma tidy_once : once p tr.
  Proof. intros g1 a1 cx1 g2 a2 cx2 f Hf H1 H2. rewrite (tidy_addr _ _ _ _ Hf H1). by rewrite (tidy_addr _ _ _ _ Hf H2). Qed.
  Lemma tidy_orderly : orderly p owner tr.
  Proof. apply tidy_is_orderly; [done..|apply (pu_named _ _ _ Hpu)|apply (pu_client _ _ _ Hpu)|apply (pu_not_dry _ _ _ Hpu)]. Qed.
End proper.
