(** What YAML files say and what is executed: what may run, failure, termination. *)
From stdpp Require Import base gmap list strings relations.
From Verif Require Import PathModel FindModel ContextModel RunnerModel RunnerSpec RunnerSpec2 RunnerProofs RunnerProofs2 RunnerProofs3 RunnerProgress RunnerTerm RunnerDet PathProofs3 BuildProofs5 ChainModel ChainProofs ChainProofs2.
From Verif Require Import YamlModel YamlSpec YamlProofs YamlProofs2 ProjModel ProjSpec ProjProofs ProjProofs2 ProjProofs3 ProjProofs4.
Local Open Scope list_scope.

Lemma found_makes fs i f : findInFilesRegistry (declare_all fs) i = Found f -> exists k, Nat.iter k Dir i ∈ f_out f.
Proof.
  unfold findInFilesRegistry. generalize (S (length (split i))). intros n. revert i.
  induction n as [|n IH]; intros i H; simpl in H; [done|].
  destruct (declare_all fs !! i) as [f'|] eqn:E.
  - injection H as ->. exists 0. by apply declare_all_lem in E as (? & ? & _ & ? & _).
  - destruct (decide _); [done|]. destruct (IH _ H) as [k Hk]. exists (S k). by rewrite Nat.iter_succ_r.
Qed.

Section lift.
  Context (top : string) (fns : list_fns) (leaf : string -> option (node -> string -> bool))
    (ybool : node -> option bool) (docs : string -> option node) (ne : notexist) (s : ystate)
    (lf : string -> node -> string -> option (list string * list string)) (objs' : list shape).
  Notation objs := (y_objs s).
  Notation means := (means top fns leaf ybool docs objs).
  Notation denote := (denote top fns leaf ybool (fun _ _ => False) (defines top docs) objs).
  Notation rule := (rule top fns lf).
  Notation written := (written top docs).
  Notation uses := (uses top fns docs lf).
  Notation involved := (involved top fns docs lf).
  Notation belongs := (belongs top fns leaf ybool docs objs objs').
  Notation reg := (snd <$> y_reg s).
  Notation asks := (asks objs' reg).
  Context (Hload : loads top fns leaf ybool docs ne s) (Hexp : expands lf (snd <$> y_reg s) objs objs').

  Definition inner dir n (x : nat) : Prop := exists o t, means dir n o /\ has_tag n "Deps" /\ objs !! o = Some (SSeq [x; t]).
  Definition privateo (dir : string) (n : node) (o x : nat) : Prop :=
    exists t, means dir n o /\ has_tag n t /\ objs !! o = Some (SLeaf t n dir) /\ length objs <= x /\
    ((exists ts, objs' !! o = Some (SSeq ts) /\ x ∈ ts) \/ exists ins outs ac, objs' !! o = Some (SFiles x ins outs ac)).
  Definition private dir n (x : nat) : Prop := exists o, privateo dir n o x.
  Lemma belongs_iff dir n x : belongs dir n x <-> means dir n x \/ inner dir n x \/ private dir n x.
  Proof. done. Qed.
  Lemma involved_trans d1 n1 d2 n2 d3 n3 : involved d1 n1 d2 n2 -> involved d2 n2 d3 n3 -> involved d1 n1 d3 n3.
  Proof. induction 1; [done|]. intros. eapply inv_step; eauto. Qed.
  Lemma involved_once d1 n1 d2 n2 : uses d1 n1 d2 n2 -> involved d1 n1 d2 n2.
  Proof. intros. eapply inv_step; [done|constructor]. Qed.

  Lemma prereq_rule (o : nat) t ins outs ac dir n f : objs' !! o = Some (SFiles t ins outs ac) -> rule dir n ins outs ->
    f ∈ prereqs (declare_all (files_of objs')) ins -> exists dir' n', uses dir n dir' n' /\ means dir' n' (f_id f).
  Proof.
    intros Ho Hr Hf. apply prereqs_inv in Hf as (i & Hi & Hf). pose proof (found_makes _ _ _ Hf) as [k Hk].
    apply found_in in Hf. apply files_elem in Hf as (t' & ac' & Hf).
    destruct (files_rule top fns leaf ybool docs ne s lf objs' Hload Hexp _ _ _ _ _ Hf) as (q' & dir' & n' & Hw & Hm & Hr').
    exists dir', n'. split; [|done]. eapply uses_rule; [done..|]. by exists i, (Nat.iter k Dir i), k.
  Qed.
  Lemma means_asks dir n o : means dir n o -> forall t, asks o t ->
    (exists dir1 n1 dir' n', uses dir n dir1 n1 /\ involved dir1 n1 dir' n' /\ means dir' n' t) \/
    (exists dir' n', involved dir n dir' n' /\ (inner dir' n' t \/ privateo dir' n' o t)).
  Proof.
    intros Hm. pose proof Hm as Hm0. revert Hm0.
    assert (Hone : forall dir n dir' n' o t, uses dir n dir' n' -> means dir' n' t ->
      (exists dir1 n1 dir' n', uses dir n dir1 n1 /\ involved dir1 n1 dir' n' /\ means dir' n' t) \/
      (exists dir' n', involved dir n dir' n' /\ (inner dir' n' t \/ privateo dir' n' o t))).
    { clear. intros dir n dir' n' o t Hu Hm. left. exists dir', n', dir', n'. split; [done|]. split; [constructor|done]. }
    assert (Hself : forall dir n o t, inner dir n t \/ privateo dir n o t ->
      (exists dir1 n1 dir' n', uses dir n dir1 n1 /\ involved dir1 n1 dir' n' /\ means dir' n' t) \/
      (exists dir' n', involved dir n dir' n' /\ (inner dir' n' t \/ privateo dir' n' o t))).
    { clear. intros dir n o t H. right. exists dir, n. split; [constructor|done]. }
    assert (Hreg : forall dir n q t, reference top dir n q -> reg !! q = Some t -> exists dir' n', uses dir n dir' n' /\ means dir' n' t).
    { intros dir1 n1 q t Href Hr. destruct (reg_lookup top fns leaf ybool docs ne s Hload _ _ Hr) as (dir' & k & v & Hd & Hm').
      exists dir', v. split; [|done]. by eapply uses_name. }
    pose proof (kept s lf objs' Hexp) as Hkept.
    induction Hm as [dir n o Hu Hk Hs Ho|dir n o q Hu Hk Hs Hq Hf Ho|dir n o q Hu Hk Hs Hq Hf []|dir n o q dir' k v Hu Hk Hs Hq Hf Hd Hv IH|dir n o os Ht Hk Hos Ho|dir n o os Ht Hk Hos Ho
      |dir n o post pre t1 a os Ht Hk Hp Hpre Hos Ha Ho|dir n o c cs t1 args Ht Hk Hc Hm IH Hargs Ho|dir n o fs t1 ins outs ac Ht Hd Hm IH Hi Hou Hb Ho|dir n o t1 acc Ht Hnt Hl Hacc Ho]; intros Hm0 t Hask.
    - unfold ProjProofs.asks in Hask. rewrite (Hkept _ _ Ho) in Hask by done.
      destruct (Hreg dir n (n_value n) t) as (d & m & H1 & H2); [split; [done|]; split; [done|]; unfold ref_key; by rewrite Hs|done|eauto].
    - unfold ProjProofs.asks in Hask. rewrite (Hkept _ _ Ho) in Hask by done.
      destruct (Hreg dir n q t) as (d & m & H1 & H2); [done|done|eauto].
    - assert (Hu1 : uses dir n dir' v) by (by eapply uses_name).
      destruct (IH Hv t Hask) as [(d1 & n1 & d2 & n2 & H1 & H2 & H3)|(d2 & n2 & H1 & H2)].
      + left. exists dir', v, d2, n2. split; [done|]. split; [|done]. by eapply inv_step.
      + right. exists d2, n2. split; [|done]. by eapply inv_step.
    - unfold ProjProofs.asks in Hask. rewrite (Hkept _ _ Ho) in Hask by done.
      destruct (denote_elem_r _ _ _ _ _ _ _ _ _ _ Hos Hask) as (c & Hc & Hmc). eapply Hone; [|done]. apply uses_part. by eapply part_list; eauto.
    - unfold ProjProofs.asks in Hask. rewrite (Hkept _ _ Ho) in Hask by done.
      destruct (denote_elem_r _ _ _ _ _ _ _ _ _ _ Hos Hask) as (c & Hc & Hmc). eapply Hone; [|done]. apply uses_part. by eapply part_list; eauto.
    - unfold ProjProofs.asks in Hask. rewrite (Hkept _ _ Ho) in Hask by done.
      apply elem_of_cons in Hask as [->|Hask]; [apply Hself; left; by exists o, t1|]. apply elem_of_list_singleton in Hask as ->.
      eapply Hone; [|exact Hp]. apply uses_part. destruct Hk as [[Hk E]|(Hk & fs & E & -> & _)].
      + eapply part_list; [done|auto|done|]. rewrite E. by left.
      + by eapply part_post.
    - unfold ProjProofs.asks in Hask. rewrite (Hkept _ _ Ho) in Hask by done. subst t.
      eapply Hone; [|exact Hm]. apply uses_part. by eapply part_arg.
    - pose proof (Hkept _ _ Ho ltac:(done)) as Ho'. unfold ProjProofs.asks in Hask. rewrite Ho' in Hask. destruct Hask as [->|(f & Hf & ->)].
      + eapply Hone; [|exact Hm]. apply uses_part. by eapply part_files.
      + destruct (prereq_rule _ _ _ _ _ dir n f Ho') as (d & m & H1 & H2); [left; by exists fs|done|]. eauto.
    - unfold ProjProofs.asks in Hask.
      destruct (proj1 (proj2 (proj2 Hexp)) _ _ _ _ Ho) as [[H _]|[(ts & H & _ & Hts)|(t' & ins & outs & ac & H & Hlf & Hlt)]]; rewrite H in Hask; [done| |].
      + apply Hself. right. exists t1. split; [done|]. split; [done|]. split; [done|]. split; [|left; by exists ts].
        destruct Hts as [Hts _]. rewrite Forall_forall in Hts. by destruct (Hts _ Hask).
      + destruct Hask as [->|(f & Hf & ->)].
        * apply Hself. right. exists t1. split; [done|]. split; [done|]. split; [done|]. split; [by destruct Hlt|]. right. by exists ins, outs, ac.
        * destruct (prereq_rule _ _ _ _ _ dir n f H) as (d & m & H1 & H2); [right; by exists t1|done|]. eauto.
  Qed.
  Lemma inner_asks dir n x t : inner dir n x -> asks x t -> exists c, part n c /\ means dir c t.
  Proof.
    intros (o & t0 & Hm & Ht & Ho) Hask.
    destruct (means_tag _ _ _ _ _ _ _ _ _ _ Hm Ht) as (_ & _ & H3 & _).
    destruct (H3 eq_refl) as (post & pre & t1 & a & os & Hshape & Hpost & Hpre & Ha & Ho'). assert (a = x) as -> by congruence.
    unfold ProjProofs.asks in Hask. rewrite (kept s lf objs' Hexp _ _ Ha) in Hask by done.
    destruct (denote_elem_r _ _ _ _ _ _ _ _ _ _ Hpre Hask) as (c & Hc & Hmc). exists c. split; [|done].
    destruct Hshape as [[Hk E]|(Hk & fs & E & _ & Hs)].
    - eapply part_list; [done|auto|done|]. rewrite E. by right.
    - by eapply part_pre.
  Qed.
  Lemma private_asks dir n x t : private dir n x -> ~ asks x t.
  Proof.
    intros (o & t0 & Hm & Ht & Ho & Hlen & Hx) Hask. unfold ProjProofs.asks in Hask.
    assert (Hl : exists tag nd d, objs' !! x = Some (SLeaf tag nd d)).
    { destruct (proj1 (proj2 (proj2 Hexp)) _ _ _ _ Ho) as [[H _]|[(ts & H & _ & Hts & _)|(t' & ins & outs & ac & H & _ & Hn)]];
        destruct Hx as [(ts' & H' & Hx)|(ins' & outs' & ac' & H')]; rewrite H in H'; try discriminate H'; injection H' as ->.
      - rewrite Forall_forall in Hts. by destruct (Hts _ Hx).
      - by destruct Hn. }
    destruct Hl as (tag & nd & d & E). by rewrite E in Hask.
  Qed.
  Lemma belongs_asks dir n o t : belongs dir n o -> asks o t -> exists dir' n', involved dir n dir' n' /\ belongs dir' n' t.
  Proof.
    intros [Hm|[Hi|Hp]]%belongs_iff Hask.
    - destruct (means_asks _ _ _ Hm t Hask) as [(d1 & n1 & d2 & n2 & H1 & H2 & H3)|(d2 & n2 & H1 & H2)]; exists d2, n2.
      + split; [by eapply inv_step|]. apply belongs_iff. by left.
      + split; [done|]. apply belongs_iff. right. destruct H2 as [?|?]; [by left|right; by exists o].
    - destruct (inner_asks _ _ _ _ Hi Hask) as (c & Hc & Hmc). exists dir, c. split; [apply involved_once; by constructor|]. by left.
    - by apply (private_asks _ _ _ _ Hp) in Hask.
  Qed.
  Lemma belongs_rtc dir n o t : belongs dir n o -> rtc asks o t -> exists dir' n', involved dir n dir' n' /\ belongs dir' n' t.
  Proof.
    intros Hb Hr. revert dir n Hb. induction Hr as [x|x y z Hxy _ IH]; intros dir n Hb; [exists dir, n; split; [constructor|done]|].
    destruct (belongs_asks _ _ _ _ Hb Hxy) as (d & m & H1 & H2). destruct (IH _ _ H2) as (d' & m' & H3 & H4).
    exists d', m'. split; [|done]. by eapply involved_trans.
  Qed.

  (** Every target belongs to a node. *)
  Lemma all_belong (o : nat) : o < length objs -> exists dir n, belongs dir n o.
  Proof.
    intros H. destruct (loads_made top fns leaf ybool docs ne s o Hload H) as (q & dir & n & _ & Hm). exists dir, n.
    destruct Hm as [?|?]; [by left|right; by left].
  Qed.
  (** ** Termination *)
  Definition U (b a : string * node) : Prop := uses a.1 a.2 b.1 b.2.
  Lemma private_acc dir n x : private dir n x -> Acc (fun b a => asks a b) x.
  Proof. intros H. constructor. intros y Hy. by apply (private_asks _ _ _ _ H) in Hy. Qed.
  Lemma belongs_acc p : Acc U p -> forall dir n x, involved p.1 p.2 dir n -> belongs dir n x -> Acc (fun b a => asks a b) x.
  Proof.
    induction 1 as [[dir0 n0] _ IH]. cbn [fst snd].
    assert (Hin : forall dir n x, involved dir0 n0 dir n -> inner dir n x -> Acc (fun b a => asks a b) x).
    { intros dir n x Hr Hi. constructor. intros y Hy. destruct (inner_asks _ _ _ _ Hi Hy) as (c & Hc & Hmc).
      assert (Hu : uses dir n dir c) by (by constructor).
      inversion Hr as [|? ? d1 n1 ? ? H1 H2]; subst.
      - apply (IH (dir, c)) with (dir := dir) (n := c); [exact Hu|constructor|by left].
      - apply (IH (d1, n1)) with (dir := dir) (n := c); [exact H1|eapply involved_trans; [exact H2|by apply involved_once]|by left]. }
    intros dir n x Hr [Hm|[Hi|Hp]]%belongs_iff; [|by eapply Hin|by eapply private_acc].
    constructor. intros y Hy. destruct (means_asks _ _ _ Hm y Hy) as [(d1 & n1 & d2 & n2 & H1 & H2 & H3)|(d2 & n2 & H1 & [H2|H2])].
    - inversion Hr as [|? ? d3 n3 ? ? H4 H5]; subst.
      + apply (IH (d1, n1)) with (dir := d2) (n := n2); [exact H1|exact H2|by left].
      + apply (IH (d3, n3)) with (dir := d2) (n := n2); [exact H4| |by left]. eapply involved_trans; [exact H5|]. by eapply inv_step.
    - eapply (Hin d2 n2); [by eapply involved_trans|done].
    - eapply private_acc. by exists x.
  Qed.
  Lemma asks_well_founded : well_founded U -> well_founded (fun b a => asks a b).
  Proof.
    intros Hwf x. destruct (decide (x < length objs)) as [Hlt|Hge].
    - destruct (all_belong x Hlt) as (dir & n & Hb). eapply (belongs_acc (dir, n)); [apply Hwf|constructor|exact Hb].
    - constructor. intros y Hy. unfold ProjProofs.asks in Hy.
      destruct (objs' !! x) as [sh|] eqn:E; [|done].
      destruct (proj1 (proj2 (proj2 (proj2 Hexp))) x sh ltac:(lia) E) as [(? & ? & ? & ->)|(q & u & args & Hq & ->)]; [done|].
      subst y. destruct (reg_lookup top fns leaf ybool docs ne s Hload _ _ Hq) as (dir & k & v & _ & Hm).
      eapply (belongs_acc (dir, v)); [apply Hwf|constructor|by left].
  Qed.

  (** ** Names behind names *)
  Lemma behind_involved dir n o : means dir n o -> exists dir' n', involved dir n dir' n' /\ means dir' n' o /\
    (tagged n' \/ exists q, reference top dir' n' q /\ objs !! o = Some (SRef q)).
  Proof.
    intros Hm. pose proof Hm as Hm0. revert Hm0.
    induction Hm as [dir n o Hu Hk Hs Ho|dir n o q Hu Hk Hs Hq Hf Ho|dir n o q Hu Hk Hs Hq Hf []|dir n o q dir' k v Hu Hk Hs Hq Hf Hd Hv IH|dir n o os Ht'|dir n o os Ht'
      |dir n o post pre t1 a os Ht'|dir n o c cs t1 args Ht'|dir n o fs t1 ins outs ac Ht'|dir n o t1 acc Ht']; intros Hm0.
    4-9: exists dir, n; split; [constructor|]; split; [exact Hm0|left; by eexists].
    - exists dir, n. split; [constructor|]. split; [done|]. right. exists (n_value n). split; [|done]. split; [done|]. split; [done|]. unfold ref_key. by rewrite Hs.
    - exists dir, n. split; [constructor|]. split; [done|]. right. by exists q.
    - destruct (IH Hv) as (d & m & H1 & H2 & H3). exists d, m. split; [|done]. eapply inv_step; [|exact H1]. by eapply uses_name.
  Qed.
  Lemma means_lt dir n o : means dir n o -> o < length objs.
  Proof. induction 1; by eauto using lookup_lt_Some. Qed.
  Lemma inner_lt dir n o : inner dir n o -> exists os, objs !! o = Some (SAll os).
  Proof.
    intros (o' & t & Hm & Ht & Ho). destruct (means_tag _ _ _ _ _ _ _ _ _ _ Hm Ht) as (_ & _ & H3 & _).
    destruct (H3 eq_refl) as (? & ? & ? & a & os & _ & _ & _ & Ha & Ho'). exists os. assert (a = o) as -> by congruence. done.
  Qed.

  Context (addr : nat -> nat) (leafp : nat -> ctx -> prog).
  Notation w := (project_world addr objs' leafp).
  Context (Hinj : forall o1 o2, addr o1 = addr o2 -> o1 = o2) (Hquiet : forall o cx ts, ~ may_call (leafp o cx) ts).

  (** ** What runs *)
  (** What a client's request leads to: the request itself, or what the target asked for does. *)
  Lemma front_rtc (R : nat -> nat -> Prop) (x y o : nat) : (forall a b, R a b -> asks a b) -> asks_for objs objs' (TPtr x) o -> rtc R x y ->
    (y = x /\ x <> o) \/ rtc R o y.
  Proof.
    intros HR [[= ->]|(x' & args & [= <-] & Hlen & Hx)] Hr; [by right|].
    inversion Hr as [|? b ? H1 H2]; subst.
    - destruct (decide (y = o)) as [->|N]; [right; constructor|left; done].
    - right. apply HR in H1. unfold ProjProofs.asks in H1. rewrite Hx in H1. by subst b.
  Qed.
  (** Clients ask for targets with certain names. *)
  Definition clients_ask (P : string -> Prop) (tr : list event) : Prop :=
    forall c cx ts t, EvCall c None cx ts ∈ tr -> t ∈ ts -> exists q doc o, P q /\ asks_for (y_objs s) objs' t o /\ y_reg s !! q = Some (doc, o).
  Lemma clients_ask_true tr : clients_ask_registered s objs' tr -> clients_ask (fun _ => True) tr.
  Proof. intros H c cx ts t Hc Ht. destruct (H _ _ _ _ Hc Ht) as (q & doc & o & ? & ?). by exists q, doc, o. Qed.
  Lemma runs_named P tr g a x cx : executes w reg tr -> clients_ask P tr -> EvStart g a x cx ∈ tr ->
    exists c cx' ts t q doc o dir k v, P q /\ EvCall c None cx' ts ∈ tr /\ t ∈ ts /\ asks_for objs objs' t o /\ y_reg s !! q = Some (doc, o) /\
      defines top docs dir q k v /\ ((t = TPtr x /\ x <> o) \/ exists d m, involved dir v d m /\ belongs d m x).
  Proof.
    intros Hx Hcl Hs. destruct (start_asked addr objs' leafp reg Hinj Hquiet tr tr (exec_part _ _ _ _ _ Hx) _ _ _ _ Hs) as (c & cx' & ts & o & Hc & Ho & Hr).
    destruct (Hcl _ _ _ _ Hc Ho) as (q & doc & u & HP & Hu & Hq).
    destruct (loads_reg _ _ _ _ _ _ _ _ _ _ Hload Hq) as (dir & k & v & Hd & Hm).
    exists c, cx', ts, (TPtr o), q, doc, u, dir, k, v. split_and!; try done.
    destruct (front_rtc asks o x u ltac:(done) Hu Hr) as [[-> N]|Hr']; [by left|right].
    apply (belongs_rtc dir v u x); [by left|done].
  Qed.
  Lemma runs_lem tr g a x cx : executes w reg tr -> clients_ask_registered s objs' tr -> EvStart g a x cx ∈ tr ->
    exists c cx' ts t q doc o dir k v, EvCall c None cx' ts ∈ tr /\ t ∈ ts /\ asks_for objs objs' t o /\ y_reg s !! q = Some (doc, o) /\
      defines top docs dir q k v /\ ((t = TPtr x /\ x <> o) \/ exists d m, involved dir v d m /\ belongs d m x).
  Proof.
    intros Hx Hcl Hs. destruct (runs_named _ _ _ _ _ _ Hx (clients_ask_true _ Hcl) Hs) as (c & cx' & ts & t & q & doc & o & dir & k & v & _ & H).
    by exists c, cx', ts, t, q, doc, o, dir, k, v.
  Qed.

  (** ** Why it fails *)
  Definition cause (tr : list event) (d : string) (m : node) : Prop :=
    (exists q, reference top d m q /\ y_reg s !! q = None) \/
    (exists ins outs x g a k, rule d m ins outs /\ means d m x /\ EvEnd g a x (Some (EBody k)) ∈ tr) \/
    (exists t x, has_tag m t /\ t ∉ ["All"; "Seq"; "Deps"; "ArgTarget"; "Files"] /\ means d m x /\ ended_badly x tr).
  Lemma leaf_node dir n o t n' d : means dir n o -> tagged n -> objs !! o = Some (SLeaf t n' d) ->
    has_tag n t /\ t ∉ ["All"; "Seq"; "Deps"; "ArgTarget"; "Files"] /\ n' = n /\ d = dir.
  Proof.
    intros Hm [t' Ht] Ho. destruct Hm as [dir n o Hu|dir n o q Hu|dir n o q Hu|dir n o q dir' k v Hu| | | | | |dir n o t1 acc Ht1 Hnt Hl Hacc Ho1]; try (by destruct (untagged_has _ _ Hu Ht)); try congruence.
    rewrite Ho1 in Ho. by injection Ho as <- <- <-.
  Qed.
  Lemma failure_named P tr c cx ts e : executes w reg tr -> clients_ask P tr ->
    EvCall c None cx ts ∈ tr -> EvRet c None (Some e) ∈ tr ->
    exists t q doc o dir k v d m, P q /\ t ∈ ts /\ asks_for objs objs' t o /\ y_reg s !! q = Some (doc, o) /\ defines top docs dir q k v /\
      involved dir v d m /\ cause tr d m.
  Proof.
    intros Hx Hcl Hc Hr.
    destruct (ret_culprit addr objs' leafp reg Hinj Hquiet tr c None cx ts e Hx Hc Hr) as [H|(o0 & x & Ho & Hpath & Hcul)].
    { destruct (Hcl _ _ _ _ Hc H) as (? & ? & ? & _ & [?|(? & ? & ? & _)] & _); done. }
    destruct (Hcl _ _ _ _ Hc Ho) as (q & doc & o & HP & Hfor & Hq).
    destruct (loads_reg _ _ _ _ _ _ _ _ _ _ Hload Hq) as (dir & k & v & Hd & Hm).
    exists (TPtr o0), q, doc, o, dir, k, v.
    cut (exists d m, involved dir v d m /\ cause tr d m).
    { intros (d & m & H1 & H2). by exists d, m. }
    clear Hq Hd Hc Hr.
    destruct (front_rtc (bad_step objs' reg tr) o0 x o ltac:(by intros a b [? _]) Hfor Hpath) as [[-> N]|Hpath'].
    { exfalso. destruct Hfor as [[= E]|(x' & args & [= <-] & _ & E)]; [done|]. unfold culprit in Hcul. by rewrite E in Hcul. }
    clear Hpath Hfor Ho o0. rename Hpath' into Hpath.
    assert (Hasks : rtc asks o x).
    { clear -Hpath. induction Hpath as [|a b c [H _] _ IH]; [done|]. by eapply rtc_l. }
    destruct (belongs_rtc dir v o x) as (d & m & Hi & Hb); [by left|done|].
    assert (Hlen : length objs <= length objs') by apply Hexp.
    (* private parts *)
    destruct (decide (length objs <= x)) as [Hge|Hlt].
    { apply rtc_inv_r in Hpath as [<-|(y & Hpath & Hask & Hbad)]; [apply means_lt in Hm; lia|].
      assert (Hy : rtc asks o y).
      { clear -Hpath. induction Hpath as [|a b c [H _] _ IH]; [done|]. by eapply rtc_l. }
      destruct (belongs_rtc dir v o y) as (d1 & m1 & Hi1 & Hb1); [by left|done|].
      apply belongs_iff in Hb1 as [Hm1|[Hin|Hp]].
      - destruct (means_asks _ _ _ Hm1 x Hask) as [(? & ? & d2 & n2 & _ & _ & H3)|(d2 & n2 & H1 & [H2|H2])].
        + apply means_lt in H3. lia.
        + apply inner_lt in H2 as [os H2]. apply lookup_lt_Some in H2. lia.
        + exists d2, n2. split; [by eapply involved_trans|]. right. right.
          destruct H2 as (t & Hmy & Ht & Hleaf & _).
          destruct (leaf_node _ _ _ _ _ _ Hmy ltac:(by exists t) Hleaf) as (_ & Hnt & _).
          exists t, y. split_and!; [done..|]. destruct Hbad as [?|[n Hn]]; [done|].
          exfalso. by eapply (leaf_kept s lf objs' Hexp).
      - destruct (inner_asks _ _ _ _ Hin Hask) as (c0 & _ & Hmc). apply means_lt in Hmc. lia.
      - by apply (private_asks _ _ _ _ Hp) in Hask. }
    assert (Hpub : means d m x \/ exists os, objs !! x = Some (SAll os)).
    { apply belongs_iff in Hb as [?|[Hin|(? & ? & _ & _ & _ & ? & _)]]; [by left| |lia]. right. by eapply inner_lt. }
    destruct Hpub as [Hmx|[os Hos]].
    2:{ exfalso. unfold culprit in Hcul. by rewrite (kept s lf objs' Hexp _ _ Hos) in Hcul. }
    destruct (behind_involved _ _ _ Hmx) as (d2 & m2 & Hi2 & Hm2 & Hcase).
    exists d2, m2. split; [by eapply involved_trans|]. unfold culprit in Hcul.
    destruct (objs !! x) as [sh|] eqn:Esh; [|apply means_lt, lookup_lt_is_Some in Hmx as [? ?]; congruence].
    destruct (objs' !! x) as [sh'|] eqn:Esh'.
    2:{ apply lookup_ge_None in Esh'. apply lookup_lt_Some in Esh. lia. }
    destruct sh' as [n|ts'|ts'|t' args|t' ins outs ac|tag nd dr]; try done.
    - left. assert (sh = SRef n) as ->.
      { destruct sh; try (rewrite (kept s lf objs' Hexp _ _ Esh) in Esh' by done; congruence).
        exfalso. by eapply (leaf_kept s lf objs' Hexp). }
      destruct Hcase as [Htag|(q' & Hq' & E)].
      + exfalso. by apply (tagged_own top fns leaf ybool docs s lf objs' Hexp _ _ _ Hm2 Htag n).
      + injection E as <-. exists n. split; [done|]. clear -Hcul. destruct (y_reg s !! n) as [z|] eqn:Ez; [|done]. exfalso.
        assert (Hz : (snd <$> y_reg s : gmap string obj) !! n = Some z.2) by (rewrite lookup_fmap, Ez; done). pose proof (eq_trans (eq_sym Hz) Hcul) as H. discriminate H.
    - right. left. destruct Hcul as (g & a & k0 & Hend).
      assert (Htag : tagged m2).
      { destruct Hcase as [?|(q' & _ & E)]; [done|]. injection E as ->. by rewrite (kept s lf objs' Hexp _ _ Esh) in Esh'. }
      destruct Htag as [t2 Ht2]. destruct (means_tag _ _ _ _ _ _ _ _ _ _ Hm2 Ht2) as (H1 & H2 & H3 & H4 & H5 & H6).
      exists ins, outs, x, g, a, k0. split; [|done].
      pose proof (kept s lf objs' Hexp) as Hkept.
      destruct (decide (t2 = "All")) as [E|N1]; [destruct (H1 E) as (_ & os & _ & H); apply Hkept in H; [congruence|done]|].
      destruct (decide (t2 = "Seq")) as [E|N2]; [destruct (H2 E) as (_ & os & _ & H); apply Hkept in H; [congruence|done]|].
      destruct (decide (t2 = "Deps")) as [E|N3]; [destruct (H3 E) as (? & ? & ? & ? & ? & _ & _ & _ & _ & H); apply Hkept in H; [congruence|done]|].
      destruct (decide (t2 = "ArgTarget")) as [E|N4]; [destruct (H4 E) as (_ & ? & ? & ? & ? & _ & _ & _ & H); apply Hkept in H; [congruence|done]|].
      destruct (decide (t2 = "Files")) as [->|N5].
      + destruct (H5 eq_refl) as (fs & t3 & ins2 & outs2 & ac2 & Hds & _ & Hii & Hou & H). apply Hkept in H; [|done]. rewrite Esh' in H. injection H as <- <- <- <-.
        left. by exists fs.
      + assert (Hnt : t2 ∉ ["All"; "Seq"; "Deps"; "ArgTarget"; "Files"]) by (rewrite !elem_of_cons, elem_of_nil; tauto).
        right. exists t2. split; [done|]. split; [done|].
        destruct (proj1 (proj2 (proj2 Hexp)) _ _ _ _ (H6 Hnt)) as [[? _]|[(ts2 & ? & _)|(t3 & ins2 & outs2 & ac2 & H & E & _)]]; congruence.
    - right. right.
      assert (Hl : exists t0 n0 d0, sh = SLeaf t0 n0 d0).
      { destruct sh; try (rewrite (kept s lf objs' Hexp _ _ Esh) in Esh' by done; congruence). eauto. }
      destruct Hl as (t0 & n0 & d0 & ->).
      assert (Htag : tagged m2) by (destruct Hcase as [?|(q' & _ & E)]; done).
      destruct (leaf_node _ _ _ _ _ _ Hm2 Htag Esh) as (Ht & Hnt & _). by exists t0, x.
  Qed.
  Lemma failure_lem tr c cx ts e : executes w reg tr -> clients_ask_registered s objs' tr ->
    EvCall c None cx ts ∈ tr -> EvRet c None (Some e) ∈ tr ->
    exists t q doc o dir k v d m, t ∈ ts /\ asks_for objs objs' t o /\ y_reg s !! q = Some (doc, o) /\ defines top docs dir q k v /\
      involved dir v d m /\ cause tr d m.
  Proof.
    intros Hx Hcl Hc Hr. destruct (failure_named _ _ _ _ _ _ Hx (clients_ask_true _ Hcl) Hc Hr) as (t & q & doc & o & dir & k & v & d & m & _ & H).
    by exists t, q, doc, o, dir, k, v, d, m.
  Qed.

  (** ** Termination *)
  Context (Hfin : forall o cx, finite (leafp o cx)).
  Lemma returns_lem sched st : run w init sched = Some st -> (forall n o, EvRegister n o ∈ s_log st -> reg !! n = Some o) ->
    well_founded U -> inevitable w (fun st => all_returned (s_log st)) st.
  Proof.
    intros Hr Hreg Hwf. apply inevitable_lem; [by apply target_finite|by exists sched|].
    apply (asks_wf addr objs' leafp reg Hinj Hquiet); [done|]. by apply asks_well_founded.
  Qed.
  Lemma fair_returns_lem' (h : nat -> state) chs n c p cx ts :
    execution w h chs -> fair w h chs -> (forall n m o, EvRegister m o ∈ s_log (h n) -> reg !! m = Some o) ->
    EvCall c p cx ts ∈ s_log (h n) ->
    (forall t, t ∈ ts -> exists q doc o, asks_for objs objs' t o /\ y_reg s !! q = Some (doc, o) /\ exists dir k v, defines top docs dir q k v /\ Acc U (dir, v)) ->
    defined_once top docs ->
    exists m e, n <= m /\ EvRet c p e ∈ s_log (h m).
  Proof.
    intros He Hf Hreg Hin Hts Honce. eapply (RunnerFair.fair_returns_safe_lem w h chs He Hf); [|exact Hin].
    intros x Ho. destruct (Hts _ Ho) as (q & doc & o & Hfor & Hq & dir & k & v & Hd & Hacc).
    destruct (loads_reg _ _ _ _ _ _ _ _ _ _ Hload Hq) as (dir' & k' & v' & Hd' & Hm).
    destruct (Honce _ _ _ _ _ _ _ Hd Hd') as [-> ->].
    apply (asks_safe addr objs' leafp reg Hinj Hquiet (fun k => s_log (h k))); [done|by intros; eapply Hreg|].
    assert (Ho' : Acc (fun b a => asks a b) o) by (eapply belongs_acc; [exact Hacc|constructor|by left]).
    destruct Hfor as [[= ->]|(x' & args & [= <-] & _ & Hx)]; [done|].
    constructor. intros y Hy. unfold ProjProofs.asks in Hy. rewrite Hx in Hy. by subst y.
  Qed.
End lift.

(** A sufficient condition for the absence of cycles. *)
Section ranked.
  Context (top : string) (fns : list_fns) (docs : string -> option node)
    (lf : string -> node -> string -> option (list string * list string)).
  Notation UR := (fun b a : string * node => uses top fns docs lf a.1 a.2 b.1 b.2).
  Lemma zero_untagged t : ~ has_tag zero_node t.
  Proof. apply untagged_has. by left. Qed.
  Lemma zero_acc dir : Acc UR (dir, zero_node).
  Proof.
    constructor. intros [d m] H. simpl in H. inversion H as [? ? ? Hp|? ? ? ? ? ? (_ & Hk & _)|? ? ? ? ? ? ? ? ? Hr]; subst.
    - apply part_tparts in Hp. vm_compute in Hp. by apply elem_of_nil in Hp.
    - discriminate Hk.
    - destruct Hr as [(? & Ht & _)|(? & Ht & _)]; by apply zero_untagged in Ht.
  Qed.
  Lemma node_acc dir n : (forall m, inside n m ->
      (forall q dir' k v, reference top dir m q -> defines top docs dir' q k v -> Acc UR (dir', v)) /\
      (forall ins outs q' dir' n' ins' outs', rule top fns lf dir m ins outs -> written top docs q' dir' n' ->
         rule top fns lf dir' n' ins' outs' -> makes outs' ins -> Acc UR (dir', n'))) -> Acc UR (dir, n).
  Proof.
    induction n as [n IHn] using (induction_ltof1 _ nsize); unfold ltof in IHn. intros H. constructor. intros [d m] Hu. simpl in Hu.
    inversion Hu as [? ? ? Hp|? ? ? ? ? ? Href Hd|? ? ? ? ? ? ? ? ? Hr Hw Hr' Hm]; subst.
    - destruct (part_size _ _ Hp) as [->|Hs]; [apply zero_acc|]. apply IHn; [done|]. intros m' Hin. apply H. by eapply in_part.
    - destruct (H n (in_self n)) as [H1 _]. by eapply H1.
    - destruct (H n (in_self n)) as [_ H2]. by eapply H2.
  Qed.
  Lemma inside_acc dir n m : inside n m -> Acc UR (dir, n) -> Acc UR (dir, m).
  Proof. induction 1 as [|n c m Hp _ IH]; [done|]. intros Ha. apply IH. apply (Acc_inv Ha). simpl. by constructor. Qed.
  Lemma ranked_wf (rk : string -> nat) :
    (forall q dir k v m, defines top docs dir q k v -> inside v m ->
      (forall q' dir' k' v', reference top dir m q' -> defines top docs dir' q' k' v' -> rk q' < rk q) /\
      (forall ins outs q' dir' n' ins' outs', rule top fns lf dir m ins outs -> written top docs q' dir' n' ->
         rule top fns lf dir' n' ins' outs' -> makes outs' ins -> rk q' < rk q)) -> well_founded UR.
  Proof.
    intros H.
    assert (Hd : forall r q, rk q < r -> forall dir k v, defines top docs dir q k v -> Acc UR (dir, v)).
    { induction r as [|r IH]; [lia|]. intros q Hq dir k v Hd. apply node_acc. intros m Hin.
      destruct (H _ _ _ _ _ Hd Hin) as [H1 H2]. split.
      - intros q' dir' k' v' Href Hd'. eapply IH; [|done]. specialize (H1 _ _ _ _ Href Hd'). lia.
      - intros ins outs q' dir' n' ins' outs' Hr Hw Hr' Hm. pose proof Hw as (k' & v' & Hd' & Hin').
        eapply inside_acc; [done|]. eapply IH; [|done]. specialize (H2 _ _ _ _ _ _ _ Hr Hw Hr' Hm). lia. }
    intros [dir n]. apply node_acc. intros m _. split.
    - intros q dir' k v _ Hdef. eapply (Hd (S (rk q)) q); [lia|done].
    - intros ins outs q' dir' n' ins' outs' _ (k' & v' & Hd' & Hin') _ _. eapply inside_acc; [done|]. eapply (Hd (S (rk q')) q'); [lia|done].
  Qed.
End ranked.
