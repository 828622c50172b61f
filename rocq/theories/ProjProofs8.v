(** Contexts: what a body sees of the settings and the arguments of the request. *)
From stdpp Require Import base gmap list strings relations.
From Verif Require Import PathModel FindModel ContextModel RunnerModel RunnerSpec RunnerSpec2 RunnerInv4 RunnerInv6 RunnerProofs RunnerProofs2 RunnerProofs3 RunnerProgress RunnerTerm RunnerDet PathProofs3 BuildProofs5 ChainModel ChainProofs ChainProofs2.
From Verif Require Import YamlModel YamlSpec YamlProofs YamlProofs2 ProjModel ProjSpec ProjProofs ProjProofs2 ProjProofs3 ProjProofs4 ProjProofs5.
Local Open Scope list_scope.

Lemma same_refl cx : same_settings cx cx. Proof. done. Qed.
Lemma same_trans c1 c2 c3 : same_settings c1 c2 -> same_settings c2 c3 -> same_settings c1 c3.
Proof. intros (A1 & A2 & A3 & A4) (B1 & B2 & B3 & B4). unfold same_settings. by rewrite B1, B2, B3, B4. Qed.

(** A body may make a call with a context. *)
Inductive may_pass : prog -> ctx -> Prop :=
  | mp_here cx ts k : may_pass (Call cx ts k) cx
  | mp_call cx ts k e cx' : may_pass (k e) cx' -> may_pass (Call cx ts k) cx'
  | mp_res d k r cx' : may_pass (k r) cx' -> may_pass (Resolve d k) cx'
  | mp_eff l k r cx' : may_pass (k r) cx' -> may_pass (Eff l k) cx'.
Lemma may_pass_call p cx : may_pass p cx -> exists ts, may_call p ts.
Proof.
  induction 1 as [cx ts k|cx ts k e cx' _ [us H]|d k r cx' _ [us H]|l k r cx' _ [us H]].
  - exists ts. constructor.
  - exists us. by eapply mc_call.
  - exists us. by eapply mc_res.
  - exists us. by eapply mc_eff.
Qed.
Lemma runs_pass g a o p h st c cx ts : runs g a o p h st -> EvCall c (Some g) cx ts ∈ h -> may_pass p cx.
Proof.
  induction 1 as [p|e|l k r h st _ IH|d k r h st _ IH|cx' us k c'|cx' us k c' e h st _ IH]; intros Hin.
  - by apply elem_of_nil in Hin.
  - by apply elem_of_list_singleton in Hin.
  - apply elem_of_cons in Hin as [?|Hin]; [done|]. by eapply mp_eff, IH.
  - apply elem_of_cons in Hin as [?|Hin]; [done|]. by eapply mp_res, IH.
  - apply elem_of_list_singleton in Hin as [= -> -> ->]. constructor.
  - apply elem_of_cons in Hin as [[= -> -> ->]|Hin]; [constructor|]. apply elem_of_cons in Hin as [?|Hin]; [done|]. by eapply mp_call, IH.
Qed.
Lemma pass_ret e cx : ~ may_pass (Ret e) cx. Proof. inversion 1. Qed.
Lemma pass_all ts cx cx' : may_pass (all_prog ts cx) cx' -> cx' = cx.
Proof. unfold all_prog. inversion 1 as [|? ? ? e ? H1| |]; subst; [done|by apply pass_ret in H1]. Qed.
Lemma pass_seq ts cx cx' : may_pass (seq_prog ts cx) cx' -> cx' = cx.
Proof.
  induction ts as [|t ts IH]; simpl; intros H; [by apply pass_ret in H|].
  inversion H as [|? ? ? e ? H1| |]; subst; [done|]. destruct e; [by apply pass_ret in H1|auto].
Qed.
Lemma pass_files freg f sub cx cx' : may_pass (files_prog freg f sub cx) cx' -> cx' = cx.
Proof.
  assert (Hend : forall f, ~ may_pass (files_end f cx) cx').
  { intros f' H. unfold files_end in H. case_decide as Hd; [by apply pass_ret in H|]. destruct (GetDryRun cx); [by apply pass_ret in H|].
    inversion H as [| | |? ? r ? H1]; subst. destruct r; [by apply pass_ret in H1|].
    inversion H1 as [| | |? ? r' ? H2]; subst. destruct r'; by apply pass_ret in H2. }
  assert (Hsub : may_pass (files_sub f sub cx) cx' -> cx' = cx).
  { unfold files_sub. inversion 1 as [|? ? ? e ? H1| |]; subst; [done|]. destruct e; [by apply pass_ret in H1|by apply Hend in H1]. }
  assert (Hrest : may_pass (files_rest f sub cx) cx' -> cx' = cx).
  { unfold files_rest. case_decide as Hd; [done|]. destruct (GetForce cx || GetDryRun cx); [done|]. intros H.
    inversion H as [| | |? ? r ? H1]; subst. destruct r; [by apply pass_ret in H1|].
    inversion H1 as [| | |? ? r' ? H2]; subst. destruct r' as [|[|]]; [auto|by apply pass_ret in H2|by apply pass_ret in H2]. }
  unfold files_prog. destruct (prereqs freg (f_in f)); [done|]. inversion 1 as [|? ? ? e ? H1| |]; subst; [done|].
  destruct e; [by apply pass_ret in H1|auto].
Qed.

(** The arguments that the body of a target passes on. *)
Definition passes (objs : list shape) (o : nat) (a : list string) : list string :=
  match objs !! o with Some (SArgs _ args) => args | _ => a end.
(** Who asks for whom, with which arguments. *)
Inductive chain (objs : list shape) (reg : gmap string obj) : nat -> list string -> nat -> list string -> Prop :=
  | ch_self o a : chain objs reg o a o a
  | ch_step o a t x b : asks objs reg o t -> chain objs reg t (passes objs o a) x b -> chain objs reg o a x b.

Section exec.
  Context (addr : nat -> nat) (objs : list shape) (leafp : nat -> ctx -> prog) (reg : gmap string obj).
  Notation w := (project_world addr objs leafp).
  Notation part_of := (part_of addr objs leafp reg).
  Notation asks := (asks objs reg).
  Notation chain := (chain objs reg).
  Context (Hinj : forall o1 o2, addr o1 = addr o2 -> o1 = o2).
  Context (Hquiet : forall o cx ts, ~ may_call (leafp o cx) ts).

  Lemma chain_trans o1 a1 o2 a2 o3 a3 : chain o1 a1 o2 a2 -> chain o2 a2 o3 a3 -> chain o1 a1 o3 a3.
  Proof. induction 1; [done|]. intros. eapply ch_step; eauto. Qed.

  Lemma body_pass (o : nat) cx cx' : may_pass (body w o cx) cx' -> same_settings cx cx' /\ GetArgs cx' = passes objs o (GetArgs cx).
  Proof.
    unfold passes. destruct (is_ref_dec addr objs leafp o) as [[n Hn]|Hn].
    - rewrite (body_ref _ _ _ _ _ _ Hn). unfold ProjProofs.is_ref in Hn. rewrite Hn. unfold deferred_prog.
      intros H. inversion H as [| |? ? r ? H1|]; subst. destruct r; [by apply pass_ret in H1|].
      inversion H1 as [|? ? ? e ? H2| |]; subst; [done|by apply pass_ret in H2].
    - rewrite (body_own _ _ _ _ _ Hn). unfold target_prog.
      destruct (objs !! o) as [[n|us|us|t' args|t' ins outs ac|tag nd dir]|] eqn:E.
      1,6,7: intros [ts H]%may_pass_call; by apply Hquiet in H.
      + by intros ->%pass_all.
      + by intros ->%pass_seq.
      + unfold arg_prog. intros H. inversion H as [|? ? ? e ? H2| |]; subst; [done|by apply pass_ret in H2].
      + by intros ->%pass_files.
  Qed.
  (** A started body, with the call that started it. *)
  Lemma start_call_ctx tr l1 g a (o : nat) cx l2 : part_of tr (l1 ++ EvStart g a o cx :: l2) ->
    exists c p ts d, EvCall c p cx ts ∈ l1 /\ TPtr d ∈ ts /\ resolution w reg d = inr o.
  Proof.
    intros Hp. assert (Hp1 : part_of tr (l1 ++ [EvStart g a o cx])) by (by eapply part_prefix_cons).
    pose proof (part_trace _ _ _ _ _ _ Hp1) as Ht.
    destruct (start_ctx_lem w _ g a o cx Ht) as (c & i & p & ts & d1 & Hreq & Hc & Hd & _); [apply elem_of_app; right; by left|].
    destruct Hp1 as [Hx [l3 El3]]. rewrite <-(exec_registry _ _ _ _ _ Hx). destruct Hx as (Htr & Hrf & _).
    destruct (call_in_prefix w tr Htr Hrf _ l3 _ _ _ _ El3 Hreq) as (p' & cx' & ts' & d & H1 & H2 & H3 & H4).
    destruct (call_unique w _ c p' cx' ts' p cx ts Ht H1 Hc) as (-> & -> & ->).
    exists c, p, ts, d. split_and!; [|by eapply elem_of_list_lookup_2|done].
    by apply elem_of_snoc in Hc as [?|?].
  Qed.
  Lemma passes_ref d n a : ProjProofs.is_ref objs d n -> passes objs d a = a.
  Proof. intros H. unfold passes. unfold ProjProofs.is_ref in H. by rewrite H. Qed.
  Lemma res_chain (d o : nat) a : resolution w reg d = inr o -> chain d a o a.
  Proof.
    intros Hres. destruct (is_ref_dec addr objs leafp d) as [[n Hn]|Hn].
    - apply (resolution_ref _ _ _ _ _ _ _ Hn) in Hres. eapply (ch_step _ _ _ _ o).
      + unfold ProjProofs.asks. unfold ProjProofs.is_ref in Hn. by rewrite Hn.
      + rewrite (passes_ref _ _ _ Hn). constructor.
    - apply (resolution_own _ _ _ _ _ _ Hn) in Hres as ->. constructor.
  Qed.
  Lemma start_chain tr l : part_of tr l -> forall g a (o : nat) cx, EvStart g a o cx ∈ l ->
    exists c cx0 ts d, EvCall c None cx0 ts ∈ l /\ TPtr d ∈ ts /\ same_settings cx0 cx /\ chain d (GetArgs cx0) o (GetArgs cx).
  Proof.
    induction l as [l IH] using (induction_ltof1 _ (@length event)); unfold ltof in IH. intros Hp g a o cx Hin.
    apply elem_of_list_split in Hin as (l1 & l2 & ->).
    destruct (start_call_ctx _ _ _ _ _ _ _ Hp) as (c & p & ts & d & Hc & Hd & Hres).
    destruct p as [g'|].
    2:{ exists c, cx, ts, d. split; [apply elem_of_app; by left|]. split; [done|]. split; [done|]. by apply res_chain. }
    apply elem_of_list_split in Hc as (m1 & m2 & ->). rewrite <-app_assoc in *. cbn [app] in *.
    pose proof (part_trace _ _ _ _ _ _ Hp) as Ht.
    destruct (concerns_started w m1 _ _ g' Ht) as (a' & o' & cx1 & Hs); [done|].
    destruct (body_call addr objs leafp reg Hinj Hquiet _ _ _ _ _ _ _ _ _ _ _ Hp Hs Hd) as (? & [= <-] & Ha).
    destruct (path_at w m1 _ _ g' a' o' cx1 Ht) as (_ & st & Hr); [done|set_solver|].
    eapply runs_pass in Hr; [|apply elem_of_app; right; by left]. apply body_pass in Hr as [Hsame Hargs].
    destruct (IH m1) with (g := g') (a := a') (o := o') (cx := cx1) as (c0 & cx0 & ts0 & d0 & H1 & H2 & H3 & H4);
      [rewrite app_length; simpl; lia|by eapply part_prefix|done|].
    exists c0, cx0, ts0, d0. split; [apply elem_of_app; by left|]. split; [done|]. split; [by eapply same_trans|].
    eapply chain_trans; [exact H4|]. eapply ch_step; [exact Ha|]. rewrite <-Hargs. by apply res_chain.
  Qed.
  (** The settings do not change on the way. *)
  Lemma start_settings tr g a (o : nat) cx : executes w reg tr -> EvStart g a o cx ∈ tr ->
    exists c cx0 ts, EvCall c None cx0 ts ∈ tr /\ same_settings cx0 cx.
  Proof.
    intros Hx Hs. destruct (start_chain _ _ (exec_part _ _ _ _ _ Hx) _ _ _ _ Hs) as (c & cx0 & ts & d & H1 & _ & H2 & _). eauto.
  Qed.
End exec.

Section lift.
  Context (top : string) (fns : list_fns) (leaf : string -> option (node -> string -> bool))
    (ybool : node -> option bool) (docs : string -> option node) (ne : notexist) (s : ystate)
    (lf : string -> node -> string -> option (list string * list string)) (objs' : list shape).
  Notation objs := (y_objs s).
  Notation means := (means top fns leaf ybool docs objs).
  Notation uses := (uses top fns docs lf).
  Notation involved := (involved top fns docs lf).
  Notation iw := (involved_with top fns docs lf).
  Notation belongs := (belongs top fns leaf ybool docs objs objs').
  Notation reg := (snd <$> y_reg s).
  Notation asks := (asks objs' reg).
  Context (Hload : loads top fns leaf ybool docs ne s) (Hexp : expands lf (snd <$> y_reg s) objs objs').

  Lemma iw_trans d1 n1 a1 d2 n2 a2 d3 n3 a3 : iw d1 n1 a1 d2 n2 a2 -> iw d2 n2 a2 d3 n3 a3 -> iw d1 n1 a1 d3 n3 a3.
  Proof. induction 1; [done|]. intros. eapply iw_step; eauto. Qed.
  Lemma iw_involved d1 n1 a1 d2 n2 a2 : iw d1 n1 a1 d2 n2 a2 -> involved d1 n1 d2 n2.
  Proof. induction 1; [constructor|]. eapply inv_step; eauto. Qed.
  Lemma not_arg n t : has_tag n t -> t <> "ArgTarget" -> ~ has_tag n "ArgTarget".
  Proof. intros H N H'. apply N. by eapply has_tag_fun. Qed.
  Lemma ref_not_arg n : untagged n -> ~ has_tag n "ArgTarget".
  Proof. intros Hu Ht. by eapply untagged_has. Qed.

  (** Like ProjProofs5.means_asks, with the arguments. *)
  Lemma means_asks_with dir n o : means dir n o -> forall t a, asks o t ->
    (exists dir' n', iw dir n a dir' n' (passes objs' o a) /\ belongs dir' n' t).
  Proof.
    intros Hm. pose proof Hm as Hm0. revert Hm0.
    assert (Hone : forall dir n dir' n' o t a, uses dir n dir' n' -> ~ has_tag n "ArgTarget" -> passes objs' o a = a -> means dir' n' t ->
      exists dir' n', iw dir n a dir' n' (passes objs' o a) /\ belongs dir' n' t).
    { clear. intros dir n dir' n' o t a Hu Hn E Hm. exists dir', n'. split; [|by left]. rewrite E. apply (iw_step _ _ _ _ _ _ _ dir' n' a); [exact Hu|left; by split|apply iw_self]. }
    assert (Hself : forall dir n o t a, passes objs' o a = a -> inner top fns leaf ybool docs s dir n t \/ privateo top fns leaf ybool docs s objs' dir n o t ->
      exists dir' n', iw dir n a dir' n' (passes objs' o a) /\ belongs dir' n' t).
    { clear. intros dir n o t a E H. exists dir, n. rewrite E. split; [apply iw_self|]. apply belongs_iff. right.
      destruct H as [?|?]; [by left|right; by exists o]. }
    assert (Hreg : forall dir n q t, reference top dir n q -> reg !! q = Some t -> exists dir' n', uses dir n dir' n' /\ means dir' n' t).
    { intros dir1 n1 q t Href Hr. destruct (reg_lookup top fns leaf ybool docs ne s Hload _ _ Hr) as (dir' & k & v & Hd & Hm').
      exists dir', v. split; [|done]. by eapply uses_name. }
    pose proof (kept s lf objs' Hexp) as Hkept.
    assert (Hp : forall o sh a, objs' !! o = Some sh -> (forall t b, sh <> SArgs t b) -> passes objs' o a = a).
    { clear. intros o sh a E H. unfold passes. rewrite E. destruct sh; try done. by edestruct H. }
    induction Hm as [dir n o Hu Hk Hs Ho|dir n o q Hu Hk Hs Hq Hf Ho|dir n o q Hu Hk Hs Hq Hf []|dir n o q dir' k v Hu Hk Hs Hq Hf Hd Hv IH|dir n o os Ht Hk Hos Ho|dir n o os Ht Hk Hos Ho
      |dir n o post pre t1 a1 os Ht Hk Hpo Hpre Hos Ha Ho|dir n o c cs t1 args Ht Hk Hc Hm IH Hargs Ho|dir n o fs t1 ins outs ac Ht Hd Hm IH Hi Hou Hb Ho|dir n o t1 acc Ht Hnt Hl Hacc Ho]; intros Hm0 t a Hask.
    - unfold ProjProofs.asks in Hask. rewrite (Hkept _ _ Ho) in Hask by done.
      destruct (Hreg dir n (n_value n) t) as (d & m & H1 & H2); [split; [done|]; split; [done|]; unfold ref_key; by rewrite Hs|done|].
      eapply Hone; [done|by apply ref_not_arg|by eapply Hp; [apply (Hkept _ _ Ho)|]|done].
    - unfold ProjProofs.asks in Hask. rewrite (Hkept _ _ Ho) in Hask by done.
      destruct (Hreg dir n q t) as (d & m & H1 & H2); [done|done|].
      eapply Hone; [done|by apply ref_not_arg|by eapply Hp; [apply (Hkept _ _ Ho)|]|done].
    - assert (Hu1 : uses dir n dir' v) by (by eapply uses_name).
      destruct (IH Hv t a Hask) as (d2 & n2 & H1 & H2). exists d2, n2. split; [|done].
      eapply iw_step; [exact Hu1|left; split; [by apply ref_not_arg|done]|exact H1].
    - unfold ProjProofs.asks in Hask. rewrite (Hkept _ _ Ho) in Hask by done.
      destruct (denote_elem_r _ _ _ _ _ _ _ _ _ _ Hos Hask) as (c & Hc & Hmc).
      eapply Hone; [|by eapply not_arg|by eapply Hp; [apply (Hkept _ _ Ho)|]|done]. apply uses_part. by eapply part_list; eauto.
    - unfold ProjProofs.asks in Hask. rewrite (Hkept _ _ Ho) in Hask by done.
      destruct (denote_elem_r _ _ _ _ _ _ _ _ _ _ Hos Hask) as (c & Hc & Hmc).
      eapply Hone; [|by eapply not_arg|by eapply Hp; [apply (Hkept _ _ Ho)|]|done]. apply uses_part. by eapply part_list; eauto.
    - assert (Epass : passes objs' o a = a) by (by eapply Hp; [apply (Hkept _ _ Ho)|]).
      unfold ProjProofs.asks in Hask. rewrite (Hkept _ _ Ho) in Hask by done.
      apply elem_of_cons in Hask as [->|Hask]; [apply Hself; [done|]; left; by exists o, t1|]. apply elem_of_list_singleton in Hask as ->.
      eapply Hone; [|by eapply not_arg|done|exact Hpo]. apply uses_part. destruct Hk as [[Hk E]|(Hk & fs & E & -> & _)].
      + eapply part_list; [done|auto|done|]. rewrite E. by left.
      + by eapply part_post.
    - unfold ProjProofs.asks in Hask. rewrite (Hkept _ _ Ho) in Hask by done. subst t.
      exists dir, c. split; [|by left]. unfold passes. rewrite (Hkept _ _ Ho) by done.
      eapply iw_step; [apply uses_part; by eapply part_arg|right; split; [done|by exists c, cs]|apply iw_self].
    - assert (Epass : passes objs' o a = a) by (by eapply Hp; [apply (Hkept _ _ Ho)|]).
      pose proof (Hkept _ _ Ho ltac:(done)) as Ho'. unfold ProjProofs.asks in Hask. rewrite Ho' in Hask. destruct Hask as [->|(f & Hf & ->)].
      + eapply Hone; [|by eapply not_arg|done|exact Hm]. apply uses_part. by eapply part_files.
      + destruct (prereq_rule top fns leaf ybool docs ne s lf objs' Hload Hexp _ _ _ _ _ dir n f Ho') as (d & m & H1 & H2); [left; by exists fs|done|].
        eapply Hone; [done|by eapply not_arg|done|done].
    - assert (Hna : ~ has_tag n "ArgTarget") by (eapply not_arg; [done|set_solver]). unfold ProjProofs.asks in Hask.
      destruct (proj1 (proj2 (proj2 Hexp)) _ _ _ _ Ho) as [[H _]|[(ts & H & _ & Hts)|(t' & ins & outs & ac & H & Hlf & Hlt)]]; rewrite H in Hask; [done| |].
      + apply Hself; [by eapply Hp|]. right. exists t1. split; [done|]. split; [done|]. split; [done|]. split; [|left; by exists ts].
        destruct Hts as [Hts _]. rewrite Forall_forall in Hts. by destruct (Hts _ Hask).
      + destruct Hask as [->|(f & Hf & ->)].
        * apply Hself; [by eapply Hp|]. right. exists t1. split; [done|]. split; [done|]. split; [done|]. split; [by destruct Hlt|]. right. by exists ins, outs, ac.
        * destruct (prereq_rule top fns leaf ybool docs ne s lf objs' Hload Hexp _ _ _ _ _ dir n f H) as (d & m & H1 & H2); [right; by exists t1|done|].
          eapply Hone; [done|done|by eapply Hp|done].
  Qed.
  Lemma belongs_asks_with dir n o t a : belongs dir n o -> asks o t ->
    exists dir' n', iw dir n a dir' n' (passes objs' o a) /\ belongs dir' n' t.
  Proof.
    intros [Hm|[Hi|Hp]]%belongs_iff Hask.
    - by apply means_asks_with.
    - destruct (inner_asks _ _ _ _ _ _ _ _ Hexp _ _ _ _ Hi Hask) as (c & Hc & Hmc). exists dir, c. split; [|by left].
      destruct (inner_lt _ _ _ _ _ _ _ _ _ Hi) as [os E]. unfold passes. rewrite (kept s lf objs' Hexp _ _ E) by done.
      destruct Hi as (? & ? & _ & Ht & _). eapply iw_step; [by apply uses_part|left; split; [by eapply not_arg|done]|apply iw_self].
    - by apply (private_asks _ _ _ _ _ _ _ _ Hexp _ _ _ _ Hp) in Hask.
  Qed.
  Lemma belongs_chain o a x b : chain objs' reg o a x b -> forall dir n, belongs dir n o ->
    exists dir' n', iw dir n a dir' n' b /\ belongs dir' n' x.
  Proof.
    induction 1 as [o a|o a t x b Hask _ IH]; intros dir n Hb; [exists dir, n; split; [constructor|done]|].
    destruct (belongs_asks_with _ _ _ _ a Hb Hask) as (d & m & H1 & H2). destruct (IH _ _ H2) as (d' & m' & H3 & H4).
    exists d', m'. split; [|done]. by eapply iw_trans.
  Qed.

  Context (addr : nat -> nat) (leafp : nat -> ctx -> prog).
  Notation w := (project_world addr objs' leafp).
  Context (Hinj : forall o1 o2, addr o1 = addr o2 -> o1 = o2) (Hquiet : forall o cx ts, ~ may_call (leafp o cx) ts).
  (** What runs, and what it sees. *)
  Lemma sees_named P tr g a x cx : executes w reg tr -> clients_ask s objs' P tr -> EvStart g a x cx ∈ tr ->
    exists c cx' ts t q doc o dir k v, P q /\ EvCall c None cx' ts ∈ tr /\ t ∈ ts /\ asks_for objs objs' t o /\ y_reg s !! q = Some (doc, o) /\
      defines top docs dir q k v /\ same_settings cx' cx /\
      ((t = TPtr x /\ x <> o /\ GetArgs cx = GetArgs cx') \/
       exists b d m, ((t = TPtr o /\ b = GetArgs cx') \/ exists y : nat, t = TPtr y /\ length objs <= y /\ objs' !! y = Some (SArgs o b)) /\
         iw dir v b d m (GetArgs cx) /\ belongs d m x).
  Proof.
    intros Hx Hcl Hs.
    destruct (start_chain addr objs' leafp reg Hinj Hquiet tr tr (exec_part _ _ _ _ _ Hx) _ _ _ _ Hs) as (c & cx' & ts & o & Hc & Ho & Hsame & Hch).
    destruct (Hcl _ _ _ _ Hc Ho) as (q & doc & u & HP & Hu & Hq).
    destruct (loads_reg _ _ _ _ _ _ _ _ _ _ Hload Hq) as (dir & k & v & Hd & Hm).
    exists c, cx', ts, (TPtr o), q, doc, u, dir, k, v. do 7 (split; [done|]).
    destruct Hu as [[= ->]|(y & args & [= <-] & Hlen & Hy)].
    - right. exists (GetArgs cx'). destruct (belongs_chain _ _ _ _ Hch dir v ltac:(by left)) as (d & m & H1 & H2).
      exists d, m. split; [left; done|done].
    - inversion Hch as [|? ? t ? ? Hask Hch']; subst.
      + left. split; [done|]. split; [|done]. intros ->.
        assert (Hlt : u < length objs) by (by eapply (means_lt top fns leaf ybool docs)). exact (Nat.lt_irrefl _ (Nat.lt_le_trans _ _ _ Hlt Hlen)).
      + right. unfold ProjProofs.asks in Hask. rewrite Hy in Hask. subst t. unfold passes in Hch'. rewrite Hy in Hch'.
        exists args. destruct (belongs_chain _ _ _ _ Hch' dir v ltac:(by left)) as (d & m & H1 & H2). exists d, m.
        split; [right; by exists o|done].
  Qed.
End lift.
