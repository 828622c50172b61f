(** Proofs for C86: a second run of fab starts nothing but what the first has completed. *)
From stdpp Require Import base gmap list strings relations.
From Coq Require Import Wellfounded.
From Verif Require Import TopDirModel DriverModel RegistryModel.
From Verif Require Import PathModel FindModel FileHashModel FileHashSpec FilesModel FilesSpec.
From Verif Require Import ContextModel RunnerModel RunnerSpec RunnerSpec2 RunnerProofs RunnerProofs2 RunnerProgress ChainModel ChainProofs ChainProofs2 YamlModel YamlSpec.
From Verif Require Import MainModel MainSpec ProjModel ProjSpec EndSpec BuildModel BuildSpec MakeModel MakeSpec.
From Verif Require Import ProjLaid ProjProofs ProjProofs2 ProjProofs3 ProjProofs4 ProjProofs7 MakeProofs2 MakeProofs5 BuildProofs2 PathProofs3.
Local Open Scope list_scope.

Section again.
  Context (top : string) (fns : list_fns) (leaf : string -> option (node -> string -> bool))
    (ybool : node -> option bool) (docs : string -> option node) (ne : notexist) (s : ystate)
    (lf : string -> node -> string -> option (list string * list string)) (objs1 objs2 : list shape).
  Notation objs := (y_objs s).
  Notation L := (length objs).
  Notation reg := (snd <$> y_reg s : gmap string nat).
  Context (Hload : loads top fns leaf ybool docs ne s).
  Context (Hexp1 : expands lf (snd <$> y_reg s) objs objs1) (Hexp2 : expands lf (snd <$> y_reg s) objs objs2).
  Context (addr1 addr2 : nat -> nat) (leafp1 leafp2 : nat -> ctx -> prog).
  Context (Hinj1 : forall o1 o2, addr1 o1 = addr1 o2 -> o1 = o2) (Hinj2 : forall o1 o2, addr2 o1 = addr2 o2 -> o1 = o2).
  Context (Hquiet2 : forall o cx ts, ~ may_call (leafp2 o cx) ts).
  Notation w1 := (project_world addr1 objs1 leafp1).
  Notation w2 := (project_world addr2 objs2 leafp2).
  Context (tr1 tr2 : list event) (Hx1 : executes w1 reg tr1) (Hx2 : executes w2 reg tr2).
  Notation ok1 := (ProjProofs.ok objs1 reg tr1).

  (** What the client asks for was asked for, with success, the first time. *)
  Context (Hcl : forall c cx ts t, EvCall c None cx ts ∈ tr2 -> t ∈ ts -> exists (o : nat), asks_for objs objs2 t o /\ o < L /\ ok1 o).
  (** What was built is not built again. *)
  Context (Hno : forall f t ac c g a cx cx', objs2 !! f_id f = Some (SFiles t (f_in f) (f_out f) ac) -> ended_well (f_id f) tr1 ->
    EvStart g a (f_id f) cx ∈ tr2 -> EvCall c (Some g) cx' [TPtr t] ∉ tr2).

  Definition settled_before (x : nat) : Prop :=
    (x < L /\ ok1 x) \/ (L <= x /\ exists t n d, objs2 !! x = Some (SLeaf t n d)) \/
    (L <= x /\ exists (o : nat) args, objs2 !! x = Some (SArgs o args) /\ o < L /\ ok1 o).

  Lemma same_files_of : files_of objs2 = files_of objs1.
  Proof. by eapply expands_files. Qed.
  Lemma prereq_lt f ins : f ∈ prereqs (declare_all (files_of objs2)) ins -> f_id f < L.
  Proof.
    intros Hf. apply prereqs_inv in Hf as (i & _ & Hi).
    assert (Hin : f ∈ files_of objs2).
    { apply find_found in Hi as (d & Hd). apply declare_all_lem in Hd as (before & after' & -> & _). apply elem_of_app. right. by left. }
    apply files_elem in Hin as (t & ac & E). destruct (decide (f_id f < L)) as [?|Hge]; [done|]. apply Nat.nlt_ge in Hge.
    destruct (proj1 (proj2 (proj2 (proj2 Hexp2))) _ _ Hge E) as [(? & ? & ? & ?)|(? & ? & ? & _ & ?)]; done.
  Qed.
  Lemma before_res (d x : nat) : settled_before d -> resolution w2 reg d = inr x -> settled_before x.
  Proof.
    intros Hd Hres. destruct (is_ref_dec addr2 objs2 leafp2 d) as [[n Hn]|Hn].
    - apply (resolution_ref addr2 objs2 leafp2 reg _ _ _ Hn) in Hres. left.
      destruct (reg_known _ _ _ _ _ _ _ Hload _ _ Hres) as [Hlt _]. split; [done|]. unfold is_ref in Hn.
      destruct Hd as [[Hd Hok]|[(_ & t & m & d' & E)|(_ & o & args & E & _)]]; [|congruence|congruence].
      assert (E : objs1 !! d = Some (SRef n)).
      { destruct (lookup_lt_is_Some_2 objs d Hd) as [sh Hsh]. destruct (leaf_dec sh) as [(t & m & d' & ->)|Hnl].
        - by destruct (leaf_kept _ _ _ Hexp2 _ _ _ _ Hsh n).
        - pose proof (proj1 (proj2 Hexp2) _ _ Hsh Hnl) as E2. rewrite Hn in E2. injection E2 as <-. exact (proj1 (proj2 Hexp1) _ _ Hsh Hnl). }
      destruct Hok as [d Hn' _|d n' o' Hn' Hr' Ho']; [by apply Hn' in E|]. unfold is_ref in Hn'.
      assert (n' = n) as -> by congruence. assert (Some o' = Some x) as [= <-] by (rewrite <-Hr'; exact Hres). done.
    - by apply (resolution_own addr2 objs2 leafp2 reg _ _ Hn) in Hres as ->.
  Qed.

  Lemma started_before l : part_of addr2 objs2 leafp2 reg tr2 l -> forall g a (x : nat) cx, EvStart g a x cx ∈ l -> settled_before x.
  Proof.
    pose proof (exec_part addr1 objs1 leafp1 reg tr1 Hx1) as Hp1.
    induction l as [l IH] using (induction_ltof1 _ (@length event)); unfold ltof in IH. intros Hp g a x cx Hin.
    apply elem_of_list_split in Hin as (l1 & l2 & ->).
    destruct (start_call addr2 objs2 leafp2 reg _ _ _ _ _ _ _ Hp) as (c & p & cx' & ts & d & Hc & Hd & -> & Hres).
    eapply before_res; [|exact Hres]. clear Hres.
    assert (Hc' : EvCall c p cx' ts ∈ tr2) by (destruct Hp as [_ [l3 ->]]; apply elem_of_app; left; apply elem_of_app; by left).
    destruct p as [g'|].
    2:{ destruct (Hcl _ _ _ _ Hc' Hd) as (o & Has & Hlt & Hok). destruct Has as [[= ->]|(x' & args & [= <-] & Hlen & Hx')].
        - left. done.
        - right; right. split; [done|]. by exists o, args. }
    apply elem_of_list_split in Hc as (m1 & m2 & ->). rewrite <-app_assoc in *. cbn [app] in *.
    pose proof (part_trace _ _ _ _ _ _ Hp) as Ht.
    assert (Hst : exists a' (o' : nat) cx0, EvStart g' a' o' cx0 ∈ m1) by (by apply (concerns_started w2 m1 _ _ g' Ht)).
    destruct Hst as (a' & o' & cx0 & Hs).
    assert (Hso : settled_before o') by (eapply (IH m1); [rewrite app_length; simpl; lia|by eapply part_prefix|exact Hs]).
    assert (Hs' : EvStart g' a' o' cx0 ∈ tr2) by (destruct Hp as [_ [l3 ->]]; rewrite <-app_assoc; apply elem_of_app; by left).
    destruct (body_call addr2 objs2 leafp2 reg Hinj2 Hquiet2 _ _ _ _ _ _ _ _ _ _ _ Hp Hs Hd) as (? & [= <-] & Ha).
    destruct Hso as [[Hlt Hok]|[(_ & t & n & dd & E)|(_ & o & args & E & Hlt & Hok)]].
    2:{ unfold asks in Ha. by rewrite E in Ha. }
    2:{ unfold asks in Ha. rewrite E in Ha. subst d. left. done. }
    (* an old target *)
    destruct (lookup_lt_is_Some_2 objs o' Hlt) as [sh Hsh].
    assert (Hold : (forall t n d, sh <> SLeaf t n d) -> objs2 !! o' = objs1 !! o').
    { intros Hnl. exact (eq_trans (proj1 (proj2 Hexp2) _ _ Hsh Hnl) (eq_sym (proj1 (proj2 Hexp1) _ _ Hsh Hnl))). }
    assert (Hchild : d ∈ children objs2 o' -> ok1 d -> settled_before d).
    { intros Hd' Hokd. destruct (child_cases _ _ _ _ _ _ _ _ _ Hload Hexp2 _ _ Hd') as [(H1 & H2 & _)|[(H1 & H2 & H3)|(H1 & _)]]; [left; split; [lia|done]|by right; left|lia]. }
    assert (Hpre : forall f, f ∈ prereqs (declare_all (files_of objs2)) (match objs2 !! o' with Some (SFiles _ ins _ _) => ins | _ => [] end) -> d = f_id f ->
      (exists t t' ins outs ac ac', objs2 !! o' = Some (SFiles t ins outs ac) /\ objs1 !! o' = Some (SFiles t' ins outs ac')) -> settled_before d).
    { intros f Hf -> (t & t' & ins & outs & ac & ac' & E2 & E1). rewrite E2 in Hf. left. split; [by eapply prereq_lt|].
      eapply (ok_insists addr1 objs1 leafp1 reg Hinj1); [exact Hp1|exact Hok|]. unfold insists. rewrite E1. exists f. rewrite <-same_files_of. done. }
    destruct (leaf_dec sh) as [(t & n & dd & ->)|Hnl].
    - destruct (proj1 (proj2 (proj2 Hexp2)) _ _ _ _ Hsh) as [[E _]|[(us & E & _ & Hus & _)|(t' & ins & outs & ac & E & Elf & Ht')]]; unfold asks in Ha; rewrite E in Ha.
      + done.
      + rewrite Forall_forall in Hus. right; left. by apply Hus.
      + destruct Ha as [-> |(f & Hf & Ed)]; [by right; left|]. rewrite E in Hpre. apply (Hpre f Hf Ed).
        destruct (proj1 (proj2 (proj2 Hexp1)) _ _ _ _ Hsh) as [[_ E1]|[(? & _ & E1 & _)|(t1 & i1 & o1 & c1 & E1 & El & _)]]; [congruence|congruence|].
        assert (i1 = ins /\ o1 = outs) as [-> ->] by (split; congruence). eauto 10.
    - specialize (Hold Hnl). assert (E2 := proj1 (proj2 Hexp2) _ _ Hsh Hnl). assert (E1 := proj1 (proj2 Hexp1) _ _ Hsh Hnl).
      assert (Hask1 : insists objs1 reg o' d -> ok1 d) by (intros Hi; eapply (ok_insists addr1 objs1 leafp1 reg Hinj1); [exact Hp1|exact Hok|exact Hi]).
      unfold insists, asks in Hask1. rewrite E1 in Hask1. unfold asks in Ha. unfold children in Hchild. rewrite E2 in *.
      destruct sh as [n|us|us|t args|t ins outs ac|tag nd dir].
      + left. destruct (reg_known _ _ _ _ _ _ _ Hload _ _ Ha) as [Hlt' _]. split; [done|by apply Hask1].
      + apply Hchild; [done|by apply Hask1].
      + apply Hchild; [done|by apply Hask1].
      + apply Hchild; [subst; by left|by apply Hask1].
      + assert (Hpre' : forall f, f ∈ prereqs (declare_all (files_of objs2)) ins -> d = f_id f -> settled_before d) by (intros f Hf Ed; apply (Hpre f Hf Ed); eauto 10).
        destruct (path_at w2 m1 _ _ g' a' o' cx0 Ht) as (_ & st & Hr); [done|apply elem_of_app; by left|].
        assert (Hn : forall n, ~ is_ref objs2 o' n) by (intros n Hn; unfold is_ref in Hn; congruence).
        rewrite (body_own _ _ _ _ _ Hn) in Hr. unfold target_prog in Hr. rewrite E2 in Hr.
        eapply runs_may_call in Hr; [|apply elem_of_app; right; by left]. apply files_prog_calls in Hr as [-> | ->].
        * exfalso. eapply (Hno {| f_id := o'; f_in := ins; f_out := outs |} t ac c g' a' cx0 cx'); [exact E2| |exact Hs'|exact Hc'].
          destruct Hok as [o' _ Hw|o' n' o2 Hn' _ _]; [exact Hw|]. unfold is_ref in Hn'. congruence.
        * apply elem_of_list_fmap in Hd as (f & [= Ed] & Hf). by apply (Hpre' f).
      + by destruct (Hnl tag nd dir).
  Qed.
End again.
