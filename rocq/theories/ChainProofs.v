From stdpp Require Import base gmap list strings.
From Verif Require Import PathModel FindModel PathProofs3 ContextModel RunnerModel RunnerSteps RunnerSpec.
From Verif Require Import RunnerInv RunnerInv2 RunnerInv3 RunnerInv4 RunnerInv5 RunnerInv6 RunnerProofs RunnerProofs2 RunnerProofs3 ChainModel.
Local Open Scope list_scope.

(** ** Bodies that begin with a call. *)
Lemma first_call_runs g a o cx ts k h ev st :
  runs g a o (Call cx ts k) (h ++ [ev]) st ->
  (h = [] /\ exists c, ev = EvCall c (Some g) cx ts) \/
  exists c e h', h ++ [ev] = EvCall c (Some g) cx ts :: EvRet c (Some g) e :: h' /\ runs g a o (k e) h' st.
Proof.
  intros Hr.
  inversion Hr as [? E1 E2|? E1 E2| | |? ? ? ? E1 E2|? ? ? ? e h' ? Hr' E1 E2]; subst.
  - by destruct h.
  - symmetry in E2. apply app_snoc_cons in E2 as [(-> & E2 & _)|(h' & _ & ?)]; [|by destruct h'].
    left. split; [done|]. eauto.
  - right. eauto 10.
Qed.
Lemma first_call_end w l1 g a o r l2 cx cx' ts k :
  trace w (l1 ++ EvEnd g a o r :: l2) -> EvStart g a o cx ∈ l1 -> body w o cx = Call cx' ts k ->
  exists c e, EvCall c (Some g) cx' ts ∈ l1 /\ EvRet c (Some g) e ∈ l1.
Proof.
  intros Ht Hin Hb.
  destruct (path_at w l1 _ l2 g a o cx Ht) as (_ & st & Hr); [done|set_solver|].
  rewrite Hb in Hr. apply first_call_runs in Hr as [(_ & c & ?)|(c & e & h' & Hh & _)]; [done|].
  exists c, e. destruct (filter (concerns g) l1) as [|x [|y h]] eqn:E; simpl in Hh; simplify_eq.
  split; eapply (elem_hist g); rewrite E; set_solver.
Qed.

(** Targets that begin by requesting each other in a circle never return. *)
Lemma first_call_cycle_lem w (S : obj -> Prop) :
  addr_injective w ->
  (forall o, S o -> w_deferred w o = None /\
     forall cx, exists cx' ts k o', w_body w o cx = Call cx' ts k /\ TPtr o' ∈ ts /\ S o') ->
  forall tr c p cx ts o e, trace w tr -> EvCall c p cx ts ∈ tr -> TPtr o ∈ ts -> S o ->
    EvRet c p e ∉ tr.
Proof.
  intros Hinj HS tr c p cx ts o e Ht. remember (length tr) as n eqn:Hn.
  revert tr Hn c p cx ts o e Ht. induction (lt_wf n) as [n _ IH].
  intros tr -> c p cx ts o e Ht Hcall Ho HSo Hret.
  apply elem_of_list_split in Hret as (l1 & l2 & ->).
  pose proof (trace_prefix _ _ _ Ht) as Ht1.
  destruct (HS _ HSo) as (Hd & Hb).
  assert (Hcall1 : EvCall c p cx ts ∈ l1).
  { destruct (ret_completed _ _ _ _ _ _ Ht) as (cx' & ts2 & rs & Hcall' & _).
    destruct (call_unique _ _ _ _ _ _ p cx' ts2 Ht Hcall) as (_ & -> & ->); [|done].
    apply elem_of_app; by left. }
  destruct (own_body_runs_lem _ _ _ _ _ _ _ _ _ Hinj Ht Hcall1 Ho Hd) as (g & cx' & r & Hs & Hend).
  destruct (end_split _ _ _ _ _ _ Ht1 Hend) as (m1 & m2 & cx2 & E & Hs2). subst l1.
  destruct (Hb cx2) as (cx3 & ts' & k & o' & Hbody & Ho' & HSo').
  destruct (first_call_end w m1 g _ o r m2 cx2 cx3 ts' k Ht1 Hs2) as (c' & e' & Hcall3 & Hret').
  { unfold body. by rewrite Hd. }
  eapply (IH (length m1)); [|reflexivity|by eapply trace_prefix|exact Hcall3|exact Ho'|exact HSo'|exact Hret'].
  rewrite !app_length. simpl. lia.
Qed.

Lemma prereqs_elem reg ins i f : i ∈ ins -> findInFilesRegistry reg i = Found f -> f ∈ prereqs reg ins.
Proof. intros Hi Hf. unfold prereqs. apply elem_of_list_omap. exists i. by rewrite Hf. Qed.
Lemma prereqs_inv reg ins f : f ∈ prereqs reg ins -> exists i, i ∈ ins /\ findInFilesRegistry reg i = Found f.
Proof.
  unfold prereqs. intros (i & Hi & He)%elem_of_list_omap. exists i. split; [done|].
  destruct (findInFilesRegistry reg i); by simplify_eq.
Qed.
Lemma files_prog_call reg f sub cx p : p ∈ prereqs reg (f_in f) ->
  exists k, files_prog reg f sub cx = Call cx ((fun p => TPtr (f_id p)) <$> prereqs reg (f_in f)) k /\
    k None = files_rest f sub cx /\ forall e, k (Some e) = Ret (Some e).
Proof.
  intros Hp. unfold files_prog. destruct (prereqs reg (f_in f)); [by apply elem_of_nil in Hp|]. eauto.
Qed.

Lemma self_cycle_lem w reg (F : files -> Prop) :
  addr_injective w ->
  (forall f, F f -> w_deferred w (f_id f) = None /\
     (exists sub, forall cx, w_body w (f_id f) cx = files_prog reg f sub cx) /\
     exists i f', i ∈ f_in f /\ findInFilesRegistry reg i = Found f' /\ F f') ->
  forall tr c p cx ts f e, trace w tr -> EvCall c p cx ts ∈ tr -> F f -> TPtr (f_id f) ∈ ts ->
    EvRet c p e ∉ tr.
Proof.
  intros Hinj HF tr c p cx ts f e Ht Hcall Hf Hin.
  eapply (first_call_cycle_lem w (fun o => exists f, F f /\ f_id f = o) Hinj); [|exact Ht|exact Hcall|exact Hin|eauto].
  intros o (f1 & Hf1 & <-). destruct (HF f1 Hf1) as (Hd & (sub & Hb) & i & f2 & Hi & Hfi & Hf2). split; [done|].
  intros cx'. destruct (files_prog_call reg f1 sub cx' f2) as (k & Hk & _); [by eapply prereqs_elem|].
  exists cx', ((fun p => TPtr (f_id p)) <$> prereqs reg (f_in f1)), k, (f_id f2). rewrite Hb. split; [done|]. split; [|eauto].
  apply elem_of_list_fmap. exists f2. split; [done|]. by eapply prereqs_elem.
Qed.

Lemma find_self reg i f : reg !! i = Some f -> findInFilesRegistry reg i = Found f.
Proof. intros Hr. unfold findInFilesRegistry. cbn [find_loop]. by rewrite Hr. Qed.

(** ** Order. *)
Lemma chain_order_lem w l1 ev l2 g a o cx reg f sub :
  trace w (l1 ++ ev :: l2) -> EvStart g a o cx ∈ l1 -> body w o cx = files_prog reg f sub cx ->
  (exists l r, ev = EvEff g l r) \/ (exists c cx', ev = EvCall c (Some g) cx' [sub] /\ prereqs reg (f_in f) = []) \/
  (exists c cx' ts, ev = EvCall c (Some g) cx' ts /\ calls_by g l1 <> []) \/ ev = EvEnd g a o None ->
  forall p, p ∈ prereqs reg (f_in f) -> succeeded w (TPtr (f_id p)) l1.
Proof.
  intros Ht Hin Hb Hev p Hp.
  assert (Hc : concerns g ev) by (destruct Hev as [(l & r & ->)|[(c & cx' & -> & _)|[(c & cx' & ts & -> & _)| ->]]]; done).
  destruct (path_at w l1 _ l2 g a o cx Ht) as (_ & st & Hr); [done|set_solver|].
  destruct (files_prog_call reg f sub cx p Hp) as (k & Hk & Hk1 & Hk2). rewrite Hb, Hk in Hr.
  apply first_call_runs in Hr as [(Hh & c & ->)|(c & e & h' & Hh & Hr)].
  { exfalso. destruct Hev as [(? & ? & ?)|[(? & ? & _ & Hx)|[(? & ? & ? & _ & Hx)| ?]]]; [done| |by rewrite <-calls_by_filter, Hh in Hx|done].
    rewrite Hx in Hp. by apply elem_of_nil in Hp. }
  assert (HR : filter (concerns g) l1 = EvCall c (Some g) cx ((fun p => TPtr (f_id p)) <$> prereqs reg (f_in f)) :: EvRet c (Some g) e :: removelast h' /\ exists h2, h' = h2 ++ [ev]).
  { destruct (filter (concerns g) l1) as [|x [|y h]] eqn:E; simpl in Hh; simplify_eq.
    - destruct Hev as [(? & ? & ?)|[(? & ? & ? & _)|[(? & ? & ? & ? & _)| ?]]]; done.
    - split; [by rewrite removelast_snoc|eauto]. }
  destruct HR as (HR & h2 & ->).
  assert (e = None) as ->.
  { destruct e as [e|]; [exfalso|done]. rewrite Hk2 in Hr. inversion Hr as [? E1 E2|? E1 E2| | | |]; subst; [by destruct h2|].
    destruct h2 as [|x h2]; simpl in *; simplify_eq; [|by destruct h2].
    destruct Hev as [(? & ? & ?)|[(? & ? & ? & _)|[(? & ? & ? & ? & _)| ?]]]; congruence. }
  assert (Hret : EvRet c (Some g) None ∈ l1) by (eapply (elem_hist g); rewrite HR; set_solver).
  apply elem_of_list_split in Hret as (m1 & m2 & ->). rewrite <-app_assoc in Ht. simpl in Ht.
  apply succeeded_mono.
  assert (Hcall : exists cx2 ts2, EvCall c (Some g) cx2 ts2 ∈ m1).
  { destruct (ret_completed _ _ _ _ _ _ Ht) as (cx' & ts2 & rs & Hcall' & _). eauto. }
  destruct Hcall as (cx2 & ts2 & Hcall).
  assert (Hcall0 : EvCall c (Some g) cx ((fun p => TPtr (f_id p)) <$> prereqs reg (f_in f)) ∈ m1 ++ EvRet c (Some g) None :: m2).
  { eapply (elem_hist g). rewrite HR. set_solver. }
  assert (H1 : EvCall c (Some g) cx2 ts2 ∈ m1 ++ EvRet c (Some g) None :: m2 ++ ev :: l2).
  { apply elem_of_app. left. exact Hcall. }
  assert (H2 : EvCall c (Some g) cx ((fun p => TPtr (f_id p)) <$> prereqs reg (f_in f)) ∈ m1 ++ EvRet c (Some g) None :: m2 ++ ev :: l2).
  { rewrite app_comm_cons, app_assoc, elem_of_app. left. exact Hcall0. }
  pose proof (call_unique w _ c (Some g) cx2 ts2 (Some g) cx _ Ht H1 H2) as (_ & Ecx & Ets).
  subst cx2 ts2. apply elem_of_list_lookup in Hp as [i Hi].
  eapply (ret_none_succeeded w m1 c (Some g) cx _ (m2 ++ ev :: l2) i); [exact Ht|exact Hcall|].
  by rewrite list_lookup_fmap, Hi.
Qed.

Lemma cycle_lem w fs (F : files -> Prop) tr c p cx ts f e :
  addr_injective w ->
  (forall f, F f -> (w_deferred w (f_id f) = None /\
       exists sub, forall cx, w_body w (f_id f) cx = files_prog (declare_all fs) f sub cx) /\
     exists i f', i ∈ f_in f /\ findInFilesRegistry (declare_all fs) i = Found f' /\ F f') ->
  trace w tr -> EvCall c p cx ts ∈ tr -> F f -> TPtr (f_id f) ∈ ts ->
  EvRet c p e ∉ tr.
Proof.
  intros Hinj HF Ht Hc Hf Hin. eapply (self_cycle_lem w (declare_all fs) F Hinj); [|done..].
  intros f1 Hf1. destruct (HF f1 Hf1) as ((? & ?) & ?). done.
Qed.
Lemma self_lem w before f after i tr c p cx ts e :
  addr_injective w -> (w_deferred w (f_id f) = None /\
    exists sub, forall cx, w_body w (f_id f) cx = files_prog (declare_all (before ++ f :: after)) f sub cx) ->
  i ∈ f_in f -> i ∈ f_out f -> (forall f', f' ∈ after -> i ∉ f_out f') ->
  trace w tr -> EvCall c p cx ts ∈ tr -> TPtr (f_id f) ∈ ts ->
  EvRet c p e ∉ tr.
Proof.
  intros Hinj Hf Hi Ho Ha Ht Hc Hin.
  eapply (cycle_lem w (before ++ f :: after) (fun f' => f' = f) tr c p cx ts f e Hinj); [|done..].
  intros f' ->. split; [done|]. exists i, f. split; [done|]. split; [|done].
  apply find_self. apply declare_all_lem. eauto 10.
Qed.
Lemma order_lem w l1 ev l2 g a o cx fs f sub p :
  trace w (l1 ++ ev :: l2) -> EvStart g a o cx ∈ l1 ->
  body w o cx = files_prog (declare_all fs) f sub cx ->
  (exists l r, ev = EvEff g l r) \/
  (exists c cx' ts, ev = EvCall c (Some g) cx' ts /\ calls_by g l1 <> []) \/
  ev = EvEnd g a o None ->
  p ∈ prereqs (declare_all fs) (f_in f) ->
  succeeded w (TPtr (f_id p)) l1.
Proof.
  intros Ht Hs Hb Hev Hp. eapply (chain_order_lem w l1 ev l2 g a o cx); [done..| |done].
  destruct Hev as [?|[?|?]]; eauto.
Qed.

(** The first call that a program can make is a given one. *)
Inductive fcalls (cx : ctx) (ts : list tref) : prog -> Prop :=
  | fc_ret e : fcalls cx ts (Ret e)
  | fc_call k : fcalls cx ts (Call cx ts k)
  | fc_eff l k : (forall r, fcalls cx ts (k r)) -> fcalls cx ts (Eff l k).
Lemma runs_fcalls cx ts g a o p h0 st : runs g a o p h0 st -> fcalls cx ts p ->
  forall h c cx' ts', h0 = h ++ [EvCall c (Some g) cx' ts'] -> calls_by g h = [] -> cx' = cx /\ ts' = ts.
Proof.
  induction 1 as [p|e|l k r h0 st H IH|d k r h0 st H IH|cx1 ts1 k c1|cx1 ts1 k c1 e h0 st H IH];
    intros Hf h c cx' ts' E Hh.
  - by destruct h.
  - destruct h as [|? h]; [done|by destruct h].
  - destruct h as [|x h]; [done|]. simpl in E. injection E as <- E. inversion Hf; subst; try done. eapply IH; eauto.
  - inversion Hf.
  - destruct h as [|? h]; [|by destruct h]. simpl in E. injection E as <- <- <-. inversion Hf; subst; done.
  - destruct h as [|x h].
    + done.
    + simpl in E. injection E as <- E. simpl in Hh. by rewrite decide_True in Hh.
Qed.
Lemma files_sub_fcalls f sub cx : fcalls cx [sub] (files_sub f sub cx).
Proof. constructor. Qed.
Lemma files_rest_fcalls f sub cx : fcalls cx [sub] (files_rest f sub cx).
Proof.
  unfold files_rest. case_decide; [apply files_sub_fcalls|]. destruct (GetForce cx || GetDryRun cx); [apply files_sub_fcalls|].
  constructor. intros [|h]; [constructor|]. constructor. intros [|[|r]]; [apply files_sub_fcalls|constructor..].
Qed.
Lemma files_prog_fcalls reg f sub cx :
  fcalls cx (match prereqs reg (f_in f) with [] => [sub] | ps => (fun p => TPtr (f_id p)) <$> ps end) (files_prog reg f sub cx).
Proof. unfold files_prog. destruct (prereqs reg (f_in f)); [apply files_rest_fcalls|constructor]. Qed.

Lemma first_lem w l1 c cx' ts l2 g a o cx fs f sub :
  trace w (l1 ++ EvCall c (Some g) cx' ts :: l2) -> EvStart g a o cx ∈ l1 ->
  body w o cx = files_prog (declare_all fs) f sub cx -> calls_by g l1 = [] ->
  cx' = cx /\
  (ts = [sub] /\ (forall i f', i ∈ f_in f -> findInFilesRegistry (declare_all fs) i <> Found f') \/
   length ts > 0 /\ forall t, t ∈ ts <->
     exists i f', i ∈ f_in f /\ findInFilesRegistry (declare_all fs) i = Found f' /\ t = TPtr (f_id f')).
Proof.
  intros Ht Hin Hb Hc.
  destruct (path_at w l1 _ l2 g a o cx Ht) as (_ & st & Hr); [done|set_solver|].
  rewrite Hb in Hr. destruct (runs_fcalls _ _ _ _ _ _ _ _ Hr (files_prog_fcalls _ _ _ _) _ _ _ _ eq_refl) as [-> ->].
  { by rewrite calls_by_filter. }
  split; [done|]. destruct (prereqs (declare_all fs) (f_in f)) as [|p ps] eqn:E.
  - left. split; [done|]. intros i f' Hi Hf. eapply prereqs_elem in Hf; [|done]. rewrite E in Hf. by apply elem_of_nil in Hf.
  - right. split; [simpl; lia|]. intros t. rewrite <-E, elem_of_list_fmap. split.
    + intros (q & -> & Hq). apply prereqs_inv in Hq as (i & ? & ?). eauto 10.
    + intros (i & f' & Hi & Hf & ->). exists f'. split; [done|]. by eapply prereqs_elem.
Qed.
