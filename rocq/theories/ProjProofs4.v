(** What YAML files say and what is executed: success. *)
From stdpp Require Import base gmap list strings relations.
From Verif Require Import PathModel FindModel ContextModel RunnerModel RunnerSpec RunnerSpec2 RunnerProofs RunnerProofs2 RunnerProofs3 RunnerProgress RunnerDet PathProofs3 BuildProofs5 ChainModel ChainProofs ChainProofs2.
From Verif Require Import YamlModel YamlSpec YamlProofs YamlProofs2 ProjModel ProjSpec ProjProofs ProjProofs3.
Local Open Scope list_scope.

Section lift.
  Context (top : string) (fns : list_fns) (leaf : string -> option (node -> string -> bool))
    (ybool : node -> option bool) (docs : string -> option node) (ne : notexist) (s : ystate)
    (lf : string -> node -> string -> option (list string * list string)) (objs' : list shape).
  Notation objs := (y_objs s).
  Notation means := (means top fns leaf ybool docs objs).
  Notation denote := (denote top fns leaf ybool (fun _ _ => False) (defines top docs) objs).
  Notation rule := (rule top fns lf).
  Notation written := (written top docs).
  Notation reg := (snd <$> y_reg s).
  Notation asks := (asks objs' reg).
  Notation insists := (insists objs' reg).
  Context (Hload : loads top fns leaf ybool docs ne s) (Hexp : expands lf (snd <$> y_reg s) objs objs').

  Lemma denote_elem dir ns os c : denote dir ns os -> c ∈ ns -> exists t, t ∈ os /\ means dir c t.
  Proof.
    induction 1 as [|dir n ns o os Hn Hns IH]; [by intros ?%elem_of_nil|]. intros [->|Hc]%elem_of_cons.
    - exists o. split; [by left|done].
    - destruct (IH Hc) as (t & ? & ?). exists t. split; [by right|done].
  Qed.
  Lemma denote_elem_r dir ns os t : denote dir ns os -> t ∈ os -> exists c, c ∈ ns /\ means dir c t.
  Proof.
    induction 1 as [|dir n ns o os Hn Hns IH]; [by intros ?%elem_of_nil|]. intros [->|Hc]%elem_of_cons.
    - exists n. split; [by left|done].
    - destruct (IH Hc) as (c & ? & ?). exists c. split; [by right|done].
  Qed.
  Lemma means_tag dir n o t : means dir n o -> has_tag n t ->
    (t = "All" -> n_kind n = KSequence /\ exists os, denote dir (n_content n) os /\ objs !! o = Some (SAll os)) /\
    (t = "Seq" -> n_kind n = KSequence /\ exists os, denote dir (n_content n) os /\ objs !! o = Some (SSeq os)) /\
    (t = "Deps" -> exists post pre t a os,
      ((n_kind n = KSequence /\ n_content n = post :: pre) \/
        (n_kind n = KMapping /\ exists fs, decode_struct n = Some fs /\ post = field "Post" fs /\ seq_field (field "Pre" fs) = Some pre)) /\
      means dir post t /\ denote dir pre os /\ objs !! a = Some (SAll os) /\ objs !! o = Some (SSeq [a; t])) /\
    (t = "ArgTarget" -> n_kind n = KSequence /\ exists c cs t args, n_content n = c :: cs /\ means dir c t /\
      YAMLStringListFromNodes fns cs dir = LOk args /\ objs !! o = Some (SArgs t args)) /\
    (t = "Files" -> exists fs t ins outs ac, decode_struct n = Some fs /\ means dir (field "Target" fs) t /\
        YAMLFileList fns top (field "In" fs) dir = LOk ins /\ YAMLFileList fns top (field "Out" fs) dir = LOk outs /\
        objs !! o = Some (SFiles t ins outs ac)) /\
    (t ∉ ["All"; "Seq"; "Deps"; "ArgTarget"; "Files"] -> objs !! o = Some (SLeaf t n dir)).
  Proof.
    intros Hm. destruct Hm as [dir n o Hu|dir n o q Hu|dir n o q Hu|dir n o q dir' k v Hu|dir n o os Ht' Hk Hos Ho|dir n o os Ht' Hk Hos Ho
      |dir n o post pre t1 a os Ht' Hk Hp Hos Ha Ho|dir n o c cs t1 args Ht' Hk Hc Hm Hargs Ho|dir n o fs t1 ins outs ac Ht' Hd Hm Hi Hou Hb Ho|dir n o t1 acc Ht' Hnt Hl Hacc Ho]; intros Ht.
    1-4: by destruct (untagged_has _ _ Hu Ht).
    all: pose proof (has_tag_fun _ _ _ Ht Ht') as Etg; subst t.
    all: split_and!; try (intros ?; congruence); try (intros Hn; exfalso; apply Hn; rewrite !elem_of_cons; tauto).
    - intros _. split; [done|]. by eexists.
    - intros _. split; [done|]. by eexists.
    - intros _. eexists _, _, _, _, _. done.
    - intros _. split; [done|]. by eexists _, _, _, _.
    - intros _. by eexists _, _, _, _, _.
    - intros ->. exfalso. apply Hnt. rewrite !elem_of_cons. tauto.
    - intros ->. exfalso. apply Hnt. rewrite !elem_of_cons. tauto.
    - intros ->. exfalso. apply Hnt. rewrite !elem_of_cons. tauto.
    - intros ->. exfalso. apply Hnt. rewrite !elem_of_cons. tauto.
    - intros ->. exfalso. apply Hnt. rewrite !elem_of_cons. tauto.
  Qed.
  Lemma means_ref dir n o q : means dir n o -> reference top dir n q ->
    objs !! o = Some (SRef q) \/ exists dir' k v, defines top docs dir' q k v /\ means dir' v o.
  Proof.
    intros Hm (Hu & Hk & Hq). destruct Hm as [dir n o Hu'|dir n o q' Hu'|dir n o q' Hu' ? ? ? ? []|dir n o q' dir' k v Hu'|dir n o os Ht'|dir n o os Ht'|dir n o post pre t1 a os Ht'|dir n o c cs t1 args Ht'|dir n o fs t1 ins outs ac Ht'|dir n o t1 acc Ht'].
    4-9: by destruct (untagged_has _ _ Hu Ht').
    - left. unfold ref_key in Hq. match goal with H : has_slash _ = false |- _ => rewrite H in Hq end. congruence.
    - left. congruence.
    - right. simplify_eq. eauto.
  Qed.
  Lemma kept (o : nat) sh : objs !! o = Some sh -> (forall t n d, sh <> SLeaf t n d) -> objs' !! o = Some sh.
  Proof. intros. by apply (proj1 (proj2 Hexp)). Qed.
  Lemma leaf_kept (o : nat) t n d : objs !! o = Some (SLeaf t n d) -> forall m, objs' !! o <> Some (SRef m).
  Proof.
    intros H m E. destruct (proj1 (proj2 (proj2 Hexp)) _ _ _ _ H) as [[? _]|[(ts & ? & _)|(t' & ins & outs & ac & ? & _)]]; congruence.
  Qed.

  (** The object of a tagged node is no reference. *)
  Lemma tagged_own dir n o : means dir n o -> tagged n -> forall m, ~ is_ref objs' o m.
  Proof.
    intros Hm [t Ht] m Hr. unfold is_ref in Hr. destruct (means_tag _ _ _ _ Hm Ht) as (H1 & H2 & H3 & H4 & H5 & H6).
    destruct (decide (t = "All")) as [E|N1]; [destruct (H1 E) as (_ & os & _ & H); apply kept in H; [congruence|done]|].
    destruct (decide (t = "Seq")) as [E|N2]; [destruct (H2 E) as (_ & os & _ & H); apply kept in H; [congruence|done]|].
    destruct (decide (t = "Deps")) as [E|N3]; [destruct (H3 E) as (? & ? & ? & ? & ? & _ & _ & _ & _ & H); apply kept in H; [congruence|done]|].
    destruct (decide (t = "ArgTarget")) as [E|N4]; [destruct (H4 E) as (_ & ? & ? & ? & ? & _ & _ & _ & H); apply kept in H; [congruence|done]|].
    destruct (decide (t = "Files")) as [E|N5]; [destruct (H5 E) as (? & ? & ? & ? & ? & _ & _ & _ & _ & H); apply kept in H; [congruence|done]|].
    eapply leaf_kept; [apply H6; rewrite !elem_of_cons, elem_of_nil; tauto|done].
  Qed.
  (** Parts are insisted on, but for the Target of a rule. *)
  Lemma part_child dir n o c : means dir n o -> part n c -> exists t, means dir c t /\ rtc asks o t /\ (~ has_tag n "Files" -> rtc insists o t).
  Proof.
    intros Hm Hp.
    assert (Hall : forall os t, objs !! o = Some (SAll os) \/ objs !! o = Some (SSeq os) -> t ∈ os -> rtc asks o t /\ (~ has_tag n "Files" -> rtc insists o t)).
    { intros os t Ho Ht. assert (H : objs' !! o = Some (SAll os) \/ objs' !! o = Some (SSeq os)) by (destruct Ho; [left|right]; by apply kept).
      unfold ProjProofs.insists, ProjProofs.asks. split; [|intros _]; apply rtc_once; destruct H as [H|H]; rewrite H; done. }
    inversion Hp as [t c0 Ht Hor Hk Hc|c0 cs Ht Hk Hc|fs Ht Hd|fs ns c0 Ht Hd Hs Hc|fs Ht Hd]; subst; destruct (means_tag _ _ _ _ Hm Ht) as (H1 & H2 & H3 & H4 & H5 & H6).
    - destruct Hor as [->|[-> | ->]].
      + destruct (H1 eq_refl) as (_ & os & Hos & Ho). destruct (denote_elem _ _ _ _ Hos Hc) as (t & Hin & Hmt). exists t. split; [done|]. by eapply Hall; [left|].
      + destruct (H2 eq_refl) as (_ & os & Hos & Ho). destruct (denote_elem _ _ _ _ Hos Hc) as (t & Hin & Hmt). exists t. split; [done|]. by eapply Hall; [right|].
      + destruct (H3 eq_refl) as (post & pre & t & a & os & Hshape & Hpost & Hpre & Ha & Ho).
        destruct Hshape as [[_ E]|[? _]]; [|congruence]. rewrite E in Hc. apply elem_of_cons in Hc as [->|Hc].
        * exists t. split; [done|]. eapply Hall; [by right|]. right. by left.
        * destruct (denote_elem _ _ _ _ Hpre Hc) as (t' & Hin & Hmt). exists t'. split; [done|].
          destruct (Hall [a; t] a) as [Ha1 Ha2]; [by right|by left|].
          apply kept in Ha; [|done].
          split; [|intros Hf]; [etrans; [exact Ha1|]|etrans; [exact (Ha2 Hf)|]]; apply rtc_once; unfold ProjProofs.insists, ProjProofs.asks; by rewrite Ha.
    - destruct (H4 eq_refl) as (_ & c' & cs' & t & args & E & Hmt & _ & Ho). rewrite Hc in E. injection E as <- <-.
      exists t. split; [done|]. apply kept in Ho; [|done]. unfold ProjProofs.insists, ProjProofs.asks.
      split; [|intros _]; apply rtc_once; by rewrite Ho.
    - destruct (H3 eq_refl) as (post & pre & t & a & os & Hshape & Hpost & Hpre & Ha & Ho).
      destruct Hshape as [[E _]|(_ & fs' & E & -> & Hs')]; [apply struct_kind in Hd; congruence|]. assert (fs' = fs) as -> by congruence.
      exists t. split; [done|]. eapply Hall; [by right|]. right. by left.
    - destruct (H3 eq_refl) as (post & pre & t & a & os & Hshape & Hpost & Hpre & Ha & Ho).
      destruct Hshape as [[E _]|(_ & fs' & E & -> & Hs')]; [apply struct_kind in Hd; congruence|]. assert (fs' = fs) as -> by congruence.
      assert (pre = ns) as -> by congruence.
      destruct (denote_elem _ _ _ _ Hpre Hc) as (t' & Hin & Hmt). exists t'. split; [done|].
      destruct (Hall [a; t] a) as [Ha1 Ha2]; [by right|by left|].
      apply kept in Ha; [|done].
      split; [|intros Hf]; [etrans; [exact Ha1|]|etrans; [exact (Ha2 Hf)|]]; apply rtc_once; unfold ProjProofs.insists, ProjProofs.asks; by rewrite Ha.
    - destruct (H5 eq_refl) as (fs' & t & ins & outs & ac & E & Hmt & _ & _ & Ho). assert (fs' = fs) as -> by congruence.
      exists t. split; [done|]. apply kept in Ho; [|done]. unfold ProjProofs.asks. split; [|done]. apply rtc_once. rewrite Ho. by left.
  Qed.

  (** Rules and Files targets *)
  Lemma rule_files dir n o ins outs : means dir n o -> rule dir n ins outs -> exists t ac, objs' !! o = Some (SFiles t ins outs ac).
  Proof.
    intros Hm [(fs & Ht & Hd & Hi & Ho)|(t & Ht & Hnt & Hlf)]; destruct (means_tag _ _ _ _ Hm Ht) as (H1 & H2 & H3 & H4 & H5 & H6).
    - destruct (H5 eq_refl) as (fs' & t & ins' & outs' & ac & E & _ & Hi' & Ho' & Hob). assert (fs' = fs) as -> by congruence. exists t, ac. apply kept; [|done]. congruence.
    - specialize (H6 Hnt). destruct (proj1 (proj2 (proj2 Hexp)) _ _ _ _ H6) as [[_ ?]|[(ts & _ & ? & _)|(t' & ins' & outs' & ac & H & E & _)]]; [congruence|congruence|].
      exists t', ac. congruence.
  Qed.
  Lemma files_elem f : f ∈ files_of objs' -> exists t ac, objs' !! f_id f = Some (SFiles t (f_in f) (f_out f) ac).
  Proof.
    unfold files_of. rewrite elem_of_list_omap. intros (x & Hx & E). apply elem_of_lookup_imap in Hx as (o & sh & -> & Ho).
    destruct sh; simpl in E; try done. injection E as <-. simpl. eauto.
  Qed.
  Lemma files_elem_r (o : nat) t ins outs ac : objs' !! o = Some (SFiles t ins outs ac) -> {| f_id := o; f_in := ins; f_out := outs |} ∈ files_of objs'.
  Proof.
    intros H. unfold files_of. apply elem_of_list_omap. exists (as_files o (SFiles t ins outs ac)). split; [|done].
    apply elem_of_lookup_imap. by exists o, (SFiles t ins outs ac).
  Qed.
  (** The definition behind names. *)
  Lemma behind dir n o : means dir n o ->
    (exists dir' n', means dir' n' o /\ tagged n' /\ forall q, written q dir n -> exists q', written q' dir' n') \/
    exists m, objs !! o = Some (SRef m).
  Proof.
    intros Hm. pose proof Hm as Hm0. revert Hm0.
    induction Hm as [dir n o Hu Hk Hs Ho|dir n o q Hu Hk Hs Hq Hf Ho|dir n o q Hu Hk Hs Hq Hf []|dir n o q dir' k v Hu Hk Hs Hq Hf Hd Hv IH|dir n o os Ht'|dir n o os Ht'
      |dir n o post pre t1 a os Ht'|dir n o c cs t1 args Ht'|dir n o fs t1 ins outs ac Ht'|dir n o t1 acc Ht']; intros Hm0; eauto.
    2-7: left; exists dir, n; split; [exact Hm0|split; [by eexists|eauto]].
    specialize (IH Hv).
    destruct IH as [(d & m & H1 & H2 & H3)|?]; [left|by right]. exists d, m. split; [done|]. split; [done|].
    intros _ _. apply (H3 q). exists k, v. split; [done|constructor].
  Qed.
  (** Every Files target stems from a rule. *)
  Lemma files_rule (o : nat) t ins outs ac : objs' !! o = Some (SFiles t ins outs ac) ->
    exists q dir n, written q dir n /\ means dir n o /\ rule dir n ins outs.
  Proof.
    intros Ho. destruct (decide (o < length objs)) as [Hlt|Hge].
    2:{ destruct (proj1 (proj2 (proj2 (proj2 Hexp))) o _ ltac:(lia) Ho) as [(? & ? & ? & ?)|(? & ? & ? & _ & ?)]; done. }
    destruct (loads_made top fns leaf ybool docs ne s o Hload Hlt) as (q & dir & n & Hw & H).
    assert (Hsh : (exists os, objs !! o = Some (SAll os)) -> False).
    { intros [os H']. apply kept in H'; [|done]. congruence. }
    destruct H as [Hm|(o' & t' & Hm & Ht & Ho')].
    2:{ exfalso. apply Hsh. destruct (means_tag _ _ _ _ Hm Ht) as (_ & _ & H3 & _).
        destruct (H3 eq_refl) as (? & ? & ? & a & os & _ & _ & _ & Ha & Ho''). exists os. assert (a = o) as -> by congruence. done. }
    destruct (behind dir n o Hm) as [(dir' & n' & Hm' & [t' Ht'] & Hw')|[m H]].
    2:{ apply kept in H; [congruence|done]. }
    destruct (Hw' q Hw) as [q' Hw2]. exists q', dir', n'. split; [done|]. split; [done|].
    destruct (means_tag _ _ _ _ Hm' Ht') as (H1 & H2 & H3 & H4 & H5 & H6).
    destruct (decide (t' = "All")) as [E|N1]; [destruct (H1 E) as (_ & os & _ & H); apply kept in H; [congruence|done]|].
    destruct (decide (t' = "Seq")) as [E|N2]; [destruct (H2 E) as (_ & os & _ & H); apply kept in H; [congruence|done]|].
    destruct (decide (t' = "Deps")) as [E|N3]; [destruct (H3 E) as (? & ? & ? & ? & ? & _ & _ & _ & _ & H); apply kept in H; [congruence|done]|].
    destruct (decide (t' = "ArgTarget")) as [E|N4]; [destruct (H4 E) as (_ & ? & ? & ? & ? & _ & _ & _ & H); apply kept in H; [congruence|done]|].
    destruct (decide (t' = "Files")) as [->|N5].
    - destruct (H5 eq_refl) as (fs & t2 & ins2 & outs2 & ac2 & Hd & _ & Hi & Hou & H). apply kept in H; [|done]. rewrite Ho in H. injection H as <- <- <- <-.
      left. by exists fs.
    - assert (Hnt : t' ∉ ["All"; "Seq"; "Deps"; "ArgTarget"; "Files"]) by (rewrite !elem_of_cons, elem_of_nil; tauto).
      right. exists t'. split; [done|]. split; [done|].
      destruct (proj1 (proj2 (proj2 Hexp)) _ _ _ _ (H6 Hnt)) as [[? _]|[(ts & ? & _)|(t2 & ins2 & outs2 & ac2 & H & E & _)]]; congruence.
  Qed.

  Lemma inside_child dir n o m : means dir n o -> inside n m -> exists t, means dir m t /\ rtc asks o t.
  Proof.
    intros Hm Hi. revert o Hm. induction Hi as [n|n c m Hp _ IH]; intros o Hm; [by exists o|].
    destruct (part_child _ _ _ _ Hm Hp) as (t & Ht & Ha & _). destruct (IH t Ht) as (t' & ? & ?). exists t'. split; [done|]. by etrans.
  Qed.

  Context (addr : nat -> nat) (leafp : nat -> ctx -> prog).
  Notation w := (project_world addr objs' leafp).
  Notation part_of := (part_of addr objs' leafp reg).
  Notation ok := (ok objs' reg).
  Context (Hinj : forall o1 o2, addr o1 = addr o2 -> o1 = o2) (Honce : defined_once top docs).
  Notation known := (fun q => is_Some (y_reg s !! q)).

  Lemma reg_lookup q o : reg !! q = Some o -> exists dir k v, defines top docs dir q k v /\ means dir v o.
  Proof.
    rewrite lookup_fmap. destruct (y_reg s !! q) as [[d o']|] eqn:E; [|done]. simpl. intros [= <-].
    by eapply loads_reg.
  Qed.
  Lemma insists_rtc tr l o t : part_of tr l -> ok l o -> rtc insists o t -> ok l t.
  Proof. intros Hp Ho. induction 1 as [|x y z Hxy _ IH]; [done|]. apply IH. by eapply (ok_insists addr objs' leafp reg Hinj). Qed.
  Lemma asks_rtc tr l o t : part_of tr l -> (forall g a o cx, EvStart g a o cx ∈ l -> insistent cx) -> ok l o -> rtc asks o t -> ok l t.
  Proof. intros Hp Hcx Ho. induction 1 as [|x y z Hxy _ IH]; [done|]. apply IH. by eapply (ok_asks addr objs' leafp reg Hinj). Qed.
  Context (all : bool).
  Notation eager l := (all = true -> forall g a o cx, EvStart g a o cx ∈ l -> insistent cx).
  Lemma required_closed (P : nat -> Prop) dir n d m : (forall o t, P o -> insists o t -> P t) -> (all = true -> forall o t, P o -> asks o t -> P t) ->
    (forall o x, P o -> objs' !! o = Some (SRef x) -> is_Some (reg !! x)) -> required top fns docs lf all known dir n d m ->
    forall o, means dir n o -> P o -> exists o', means d m o' /\ P o'.
  Proof.
    intros Pi Pa Pr Hr. induction Hr as [dir n|dir n c d m Hpart Hf _ IH|dir n q dir' k v d m Href Hd _ IH|dir n ins outs i q' dir' n' d m Hrule Hi [[doc o1] Hq'] Hw Hmk _ IH]; intros o Hm Ho.
    - by exists o.
    - destruct (part_child _ _ _ _ Hm Hpart) as (t & Ht & Hask & Hins). eapply IH; [done|].
      destruct Hf as [E|Hf]; [clear -Hask Pa Ho E; induction Hask; eauto|specialize (Hins Hf); clear -Hins Pi Ho; induction Hins; eauto].
    - destruct (means_ref _ _ _ _ Hm Href) as [Hs|(dir2 & k2 & v2 & Hd2 & Hm2)].
      + apply kept in Hs; [|done]. destruct (Pr _ _ Ho Hs) as [o' Hreg].
        destruct (reg_lookup _ _ Hreg) as (dir2 & k2 & v2 & Hd2 & Hm2).
        destruct (Honce _ _ _ _ _ _ _ Hd Hd2) as [-> ->]. eapply IH; [done|]. eapply Pi; [exact Ho|]. unfold ProjProofs.insists, ProjProofs.asks. by rewrite Hs.
      + destruct (Honce _ _ _ _ _ _ _ Hd Hd2) as [-> ->]. by eapply IH.
    - destruct (loads_reg _ _ _ _ _ _ _ _ _ _ Hload Hq') as (dir1 & k1 & v1 & Hd1 & Hm1).
      destruct Hw as (k & v & Hd & Hin). destruct (Honce _ _ _ _ _ _ _ Hd Hd1) as [-> ->].
      destruct (inside_child _ _ _ _ Hm1 Hin) as (x & Hmx & _).
      destruct Hmk as [(ins' & outs' & Hrule' & Hio) Honly].
      destruct (rule_files _ _ _ _ _ Hmx Hrule') as (t' & ac' & Hx). apply files_elem_r in Hx.
      destruct (declare_all (files_of objs') !! i) as [f|] eqn:Ef.
      2:{ by eapply (declare_all_none (files_of objs')) in Ef. }
      destruct (rule_files _ _ _ _ _ Hm Hrule) as (t & ac & Ho').
      assert (Hok : P (f_id f)).
      { eapply Pi; [exact Ho|]. unfold ProjProofs.insists. rewrite Ho'.
        exists f. split; [|done]. eapply prereqs_elem; [done|]. by apply find_self. }
      apply declare_all_lem in Ef as (before & after & Ef & Hof & _).
      destruct (files_elem f) as (t2 & ac2 & Hf); [rewrite Ef; set_solver|].
      destruct (files_rule _ _ _ _ _ Hf) as (q2 & dir2 & n2 & Hw2 & Hm2 & Hrule2).
      destruct (Honly _ _ _ _ _ Hw2 Hrule2 Hof) as [-> ->]. by eapply IH.
  Qed.
  Lemma required_done tr l dir n d m : part_of tr l -> eager l -> required top fns docs lf all known dir n d m ->
    forall o, means dir n o -> ok l o -> exists o', means d m o' /\ ok l o'.
  Proof.
    intros Hp Hcx. apply required_closed.
    - intros o t Ho Hi. by eapply (ok_insists addr objs' leafp reg Hinj).
    - intros E o t Ho Hi. eapply (ok_asks addr objs' leafp reg Hinj); [exact Hp|by apply Hcx|done|done].
    - intros o x Ho Hx. destruct Ho as [o Hn _|o n1 o' Hn Hreg Ho']; [by apply Hn in Hx|].
      unfold is_ref in Hn. rewrite Hx in Hn. injection Hn as <-. by exists o'.
  Qed.
  Lemma success_lem l1 c p cx ts l2 t q doc o :
    executes w reg (l1 ++ EvRet c p None :: l2) -> eager l1 -> EvCall c p cx ts ∈ l1 -> t ∈ ts -> asks_for objs objs' t o -> y_reg s !! q = Some (doc, o) ->
    exists dir k v, defines top docs dir q k v /\ forall d m, required top fns docs lf all known dir v d m ->
      (tagged m -> exists x, means d m x /\ ended_well x l1) /\
      (forall q', reference top d m q' -> exists dir' k' v', defines top docs dir' q' k' v').
  Proof.
    intros Hx Hcx Hc Ht Hfor Hq. destruct (loads_reg _ _ _ _ _ _ _ _ _ _ Hload Hq) as (dir & k & v & Hd & Hm).
    exists dir, k, v. split; [done|].
    assert (Hp : part_of (l1 ++ EvRet c p None :: l2) l1) by (split; [done|by eexists]).
    assert (Hoks : forall x, t = TPtr x -> ok l1 x).
    { intros x ->. destruct Hx as (Htr & Hx). eapply (succ_ok addr objs' leafp reg Hinj (l1 ++ EvRet c p None :: l2)); [done|].
      apply elem_of_list_lookup in Ht as [i Hi].
      destruct (ret_completed _ _ _ _ _ _ Htr) as (cx1 & ts1 & rs & Hc1 & _).
      destruct (call_unique w _ c p cx ts p cx1 ts1 (trace_prefix _ _ _ Htr) Hc Hc1) as (_ & -> & ->).
      by eapply (ret_none_succeeded w l1). }
    assert (Hok : ok l1 o).
    { destruct Hfor as [E|(x & args & E & _ & Hx')]; [by apply Hoks|]. eapply (ok_insists addr objs' leafp reg Hinj); [exact Hp|by apply Hoks|].
      unfold ProjProofs.insists, ProjProofs.asks. by rewrite Hx'. }
    intros d m Hr. destruct (required_done _ _ _ _ _ _ Hp Hcx Hr o Hm Hok) as (x & Hmx & Hokx). split.
    - intros Htag. exists x. split; [done|]. destruct Hokx as [x Hn Hw|x n x' Hn Hreg _]; [done|].
      by apply (tagged_own _ _ _ Hmx Htag) in Hn.
    - intros q' Href. destruct (means_ref _ _ _ _ Hmx Href) as [Hs|(dir2 & k2 & v2 & Hd2 & Hm2)]; [|eauto].
      apply kept in Hs; [|done]. destruct Hokx as [x Hn _|x n1 o' Hn Hreg Ho']; [by apply Hn in Hs|].
      unfold is_ref in Hn. rewrite Hs in Hn. injection Hn as <-.
      destruct (reg_lookup _ _ Hreg) as (dir2 & k2 & v2 & Hd2 & Hm2). eauto.
  Qed.
End lift.
