(** What YAML files say and what is executed: the steps of a multi-line command. *)
From stdpp Require Import base gmap list strings relations.
From Verif Require Import PathModel FindModel ContextModel RunnerModel RunnerSpec RunnerSpec2 RunnerProofs RunnerProofs2 RunnerProofs3 RunnerProgress RunnerDet PathProofs3 BuildProofs5 ChainModel ChainProofs ChainProofs2.
From Verif Require Import YamlModel YamlSpec YamlProofs YamlProofs2 ProjModel ProjSpec ProjProofs ProjProofs2 ProjProofs3 ProjProofs4 ProjProofs5 RunnerProps.
Local Open Scope list_scope.

Section steps.
  Context (top : string) (fns : list_fns) (leaf : string -> option (node -> string -> bool))
    (ybool : node -> option bool) (docs : string -> option node) (ne : notexist) (s : ystate)
    (lf : string -> node -> string -> option (list string * list string)) (objs' : list shape).
  Notation objs := (y_objs s).
  Notation reg := (snd <$> y_reg s).
  Notation asks := (asks objs' reg).
  Context (Hload : loads top fns leaf ybool docs ne s) (Hexp : expands lf (snd <$> y_reg s) objs objs').
  Context (addr : nat -> nat) (leafp : nat -> ctx -> prog).
  Notation w := (project_world addr objs' leafp).
  Notation part_of := (part_of addr objs' leafp reg).
  Notation ok := (ok objs' reg).
  Context (Hinj : forall o1 o2, addr o1 = addr o2 -> o1 = o2).

  Lemma reg_lt q doc (o : nat) : y_reg s !! q = Some (doc, o) -> o < length objs.
  Proof.
    intros Hq. destruct (loads_reg _ _ _ _ _ _ _ _ _ _ Hload Hq) as (dir & k & v & _ & Hm). by eapply means_lt.
  Qed.
  Lemma step_new (o : nat) t n d ts (x : nat) : objs !! o = Some (SLeaf t n d) -> objs' !! o = Some (SSeq ts) -> x ∈ ts ->
    NoDup ts /\ length objs <= x /\ exists tag n d, objs' !! x = Some (SLeaf tag n d).
  Proof.
    intros Ho Ho' Hx. destruct (proj1 (proj2 (proj2 Hexp)) _ _ _ _ Ho) as [[H _]|[(us & H & _ & Hts & Hnd)|(t' & ins & outs & ac & H & _)]]; rewrite Ho' in H; try discriminate H.
    injection H as <-. split; [done|]. rewrite Forall_forall in Hts. by apply Hts.
  Qed.
  Lemma start_addr_new tr l1 g a (x : nat) cx l2 : part_of tr (l1 ++ EvStart g a x cx :: l2) -> length objs <= x -> a = addr x.
  Proof.
    intros Hp Hge.
    destruct (start_call addr objs' leafp reg _ _ _ _ _ _ _ Hp) as (c & p' & cx' & ts & d & _ & _ & -> & Hres). f_equal.
    destruct (is_ref_dec addr objs' leafp d) as [[n Hn]|Hn].
    - apply (resolution_ref _ _ _ _ _ _ _ Hn) in Hres. apply lookup_fmap_Some in Hres as ([d' x'] & <- & Hq). apply reg_lt in Hq. simpl in Hge. lia.
    - by apply (resolution_own _ _ _ _ _ _ Hn) in Hres as ->.
  Qed.
  Lemma asks_new (o x : nat) : length objs <= x -> (exists tag n d, objs' !! x = Some (SLeaf tag n d)) -> x ∈ children objs' o ->
    forall p, asks p x -> p = o.
  Proof.
    intros Hge Hl Hx p Ha. assert (Hc : x ∈ children objs' p); [|by eapply (proj2 (proj2 (proj2 (proj2 Hexp))))].
    unfold ProjProofs.asks in Ha. unfold children. destruct (objs' !! p) as [[n|us|us|t' args|t' ins outs ac|tag nd dir]|]; try done.
    - apply lookup_fmap_Some in Ha as ([d' x'] & <- & Hq). apply reg_lt in Hq. simpl in Hge. lia.
    - subst. by left.
    - destruct Ha as [->|(f & Hf & ->)]; [by left|]. exfalso.
      apply prereqs_inv in Hf as (i0 & Hi & Hf). apply found_in in Hf. apply files_elem in Hf as (t2 & ac' & Hf).
      destruct Hl as (? & ? & ? & Hl). congruence.
  Qed.

  Context (Hquiet : forall o cx ts, ~ may_call (leafp o cx) ts).
  Lemma steps_lem tr l1 g a (x : nat) cx l2 (o : nat) t n d ts j : part_of tr (l1 ++ EvStart g a x cx :: l2) -> clients_ask_registered s objs' tr ->
    objs !! o = Some (SLeaf t n d) -> objs' !! o = Some (SSeq ts) -> ts !! j = Some x ->
    forall i y, i < j -> ts !! i = Some y -> ended_well y l1.
  Proof.
    intros Hp Hcl Ho Ho' Hj i y Hij Hy.
    destruct (step_new _ _ _ _ _ x Ho Ho' ltac:(by eapply elem_of_list_lookup_2)) as (Hnd & Hge & Hlx).
    destruct (step_new _ _ _ _ _ y Ho Ho' ltac:(by eapply elem_of_list_lookup_2)) as (_ & _ & tag & ny & dy & Hly).
    pose proof (start_addr_new _ _ _ _ _ _ _ Hp Hge) as ->.
    assert (Hok : ok l1 y).
    { eapply (seq_start addr objs' leafp reg Hinj Hquiet tr l1 g x x cx l2 o ts j Hp Ho' Hj); [|..|exact Hij|exact Hy].
      - apply asks_new; [done..|]. unfold children. rewrite Ho'. by eapply elem_of_list_lookup_2.
      - intros j' Hj'. by eapply NoDup_lookup.
      - intros c cx' us Hc Hin. destruct (Hcl _ _ _ _ Hc Hin) as (q & doc & u & [[= <-]|(x' & args & [= <-] & _ & E)] & Hq).
        + apply reg_lt in Hq. lia.
        + destruct Hlx as (? & ? & ? & ?). congruence. }
    destruct Hok as [y _ H|y m y' Hm _ _]; [done|]. unfold is_ref in Hm. congruence.
  Qed.
  Lemma steps_once tr (o : nat) t n d ts j (x : nat) i1 i2 g1 g2 a1 a2 cx1 cx2 : executes w reg tr ->
    objs !! o = Some (SLeaf t n d) -> objs' !! o = Some (SSeq ts) -> ts !! j = Some x ->
    tr !! i1 = Some (EvStart g1 a1 x cx1) -> tr !! i2 = Some (EvStart g2 a2 x cx2) -> i1 = i2.
  Proof.
    intros Hx Ho Ho' Hj H1 H2.
    destruct (step_new _ _ _ _ _ x Ho Ho' ltac:(by eapply elem_of_list_lookup_2)) as (_ & Hge & _).
    assert (Ha : forall i g a cx, tr !! i = Some (EvStart g a x cx) -> a = addr x).
    { intros i g a cx H. pose proof (take_drop_middle _ _ _ H) as E. eapply (start_addr_new tr); [|exact Hge]. rewrite E. by apply exec_part. }
    pose proof (Ha _ _ _ _ H1) as ->. pose proof (Ha _ _ _ _ H2) as ->. destruct Hx as (Htr & _). by eapply C01_at_most_once.
  Qed.
End steps.
