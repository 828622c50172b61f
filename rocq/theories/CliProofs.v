(** The parser of DriverModel.v reads exactly the grammar. *)
From stdpp Require Import base gmap list strings.
From Coq Require Import Ascii.
From Verif Require Import DriverModel CliSpec MainModel.
Local Open Scope list_scope.

Lemma cut_some s : forall n v, cut_eq s = (n, Some v) <-> s = n +:+ "=" +:+ v /\ no_equals n.
Proof.
  unfold no_equals. induction s as [|c s IH]; intros n v; simpl.
  - split; [done|]. intros [H _]. by destruct n.
  - destruct (decide (c = equals)) as [->|Hc].
    + split; [intros [= <- <-]; split; [done|by intros ?%elem_of_nil]|]. intros [H Hn]. destruct n as [|c n]; [simpl in H; by injection H as ->|].
      simpl in H. injection H as <- _. exfalso. apply Hn. left.
    + destruct (cut_eq s) as [n1 v1]. split.
      * intros [= <- ->]. destruct (proj1 (IH n1 v) eq_refl) as [-> H]. split; [done|]. simpl. rewrite elem_of_cons. intros [?|?]; [by subst|done].
      * intros [H Hn]. destruct n as [|c' n]; [simpl in H; injection H as -> _; done|]. simpl in H. injection H as -> H.
        assert (Hx : (n1, v1) = (n, Some v)) by (apply IH; split; [done|]; intros ?; apply Hn; by right). by injection Hx as -> ->.
Qed.
Lemma cut_none s : forall n, cut_eq s = (n, None) <-> s = n /\ no_equals n.
Proof.
  unfold no_equals. induction s as [|c s IH]; intros n; simpl.
  - split; [intros [= <-]; split; [done|by intros ?%elem_of_nil]|]. by intros [<- _].
  - destruct (decide (c = equals)) as [->|Hc].
    + split; [done|]. intros [<- Hn]. exfalso. apply Hn. left.
    + destruct (cut_eq s) as [n1 v1]. split.
      * intros [= <- ->]. destruct (proj1 (IH n1) eq_refl) as [-> H]. split; [done|]. simpl. rewrite elem_of_cons. intros [?|?]; [by subst|done].
      * intros [<- Hn]. assert (Hx : (n1, v1) = (s, None)) by (apply IH; split; [done|]; intros ?; apply Hn; simpl; by right). by injection Hx as -> ->.
Qed.
(** For a body of a flag, looking from the second character on is looking from the first on. *)
Lemma split_cut s : ~ starts "=" s -> split_eq s = cut_eq s.
Proof.
  intros H. destruct s as [|c s]; [done|]. simpl. destruct (decide (c = equals)) as [->|]; [|done]. destruct H. by exists s.
Qed.
Lemma classify_flag s f : classify s = AFlag f <-> dashed s f.
Proof.
  unfold classify, dashed, starts. split.
  - destruct s as [|c [|c2 s]]; try done. destruct (decide (c = minus)) as [->|]; [|done].
    assert (H : forall n, match n with EmptyString => ATerminator | String c3 _ => if decide (c3 = minus \/ c3 = equals) then ABadFlag else AFlag n end = AFlag f ->
      n = f /\ f <> "" /\ ~ (exists s', f = String "-" s') /\ ~ (exists s', f = String "=" s')).
    { intros [|c3 n]; [done|]. destruct (decide _) as [|Hn]; [done|]. intros [= <-]. split; [done|]. split; [done|].
      split; intros [s' [= E]]; apply Hn; [left|right]; by rewrite E. }
    destruct (decide (c2 = minus)) as [->|]; intros E; [destruct (H s E) as [<- H1]; split; [by right|done]|destruct (H (String c2 s) E) as [<- H1]; split; [by left|done]].
  - intros ([-> | ->] & Hne & Hm & He).
    + destruct f as [|c f]; [done|]. assert (H1 : c <> minus) by (intros ->; apply Hm; by exists f). assert (H2 : c <> equals) by (intros ->; apply He; by exists f).
      simpl. destruct (decide (c = minus)); [done|]. by rewrite decide_False by tauto.
    + destruct f as [|c f]; [done|]. assert (H1 : c <> minus) by (intros ->; apply Hm; by exists f). assert (H2 : c <> equals) by (intros ->; apply He; by exists f).
      simpl. by rewrite decide_False by tauto.
Qed.
Lemma classify_stop s : classify s = ANotFlag <-> (forall c s', s <> String "-" (String c s')).
Proof.
  unfold classify. destruct s as [|c [|c2 s]]; [split; [by intros|done]|split; [by intros|done]|]. destruct (decide (c = minus)) as [->|Hn].
  - split; [|intros H; by destruct (H c2 s)]. destruct (if decide (c2 = minus) then s else String c2 s) as [|c3 n]; [done|]. by destruct (decide _).
  - split; [|done]. intros _ c' s' [= -> _ _]. by apply Hn.
Qed.
Lemma classify_term s : classify s = ATerminator <-> s = "--".
Proof.
  unfold classify. destruct s as [|c [|c2 s]]; [done|done|]. destruct (decide (c = minus)) as [->|Hn].
  - destruct (decide (c2 = minus)) as [->|Hn].
    + destruct s as [|c3 n]; [done|]. by destruct (decide _).
    + destruct (decide _); (split; [done|]); intros [= -> _]; by destruct Hn.
  - split; [done|]. intros [= -> _]. by destruct Hn.
Qed.
Lemma truth_parse s b : truth s b <-> ParseBool s = Some b.
Proof.
  unfold ParseBool. split.
  - intros [x H|x H]; [by rewrite decide_True|]. rewrite decide_False; [by rewrite decide_True|].
    intros H'. revert H. repeat (apply elem_of_cons in H' as [->|H']; [apply (bool_decide_unpack (~ _)); vm_compute; exact I|]). by apply elem_of_nil in H'.
  - destruct (decide _); [intros [= <-]; by apply truth_true|]. destruct (decide _); [intros [= <-]; by apply truth_false|done].
Qed.

(** A parse in one step. *)
Inductive parses (flags : gmap string flagkind) : list string -> list one -> list string -> Prop :=
  | ps_tail t args : tail_args t args -> parses flags t [] args
  | ps_item i t is args : is_item flags i -> parses flags t is args -> parses flags (on_args i ++ t) (i :: is) args.
Lemma parses_reads flags argv is args : parses flags argv is args <-> reads flags argv is args.
Proof.
  split.
  - induction 1 as [t args H|i t is args Hi _ [IH1 (t' & -> & IH2)]]; [split; [done|]; by exists t|]. split; [by constructor|]. exists t'. simpl. by rewrite (assoc_L (++)).
  - revert argv. induction is as [|i is IH]; intros argv (Hf & t & -> & Ht); [by constructor|]. apply Forall_cons in Hf as [Hi Hf]. simpl. rewrite <- (assoc_L (++)).
    constructor; [done|]. apply IH. split; [done|]. by exists t.
Qed.
Definition settings (is : list one) (v : gmap string flagval) : gmap string flagval := foldl (fun v i => <[on_name i := on_value i]> v) v is.
Lemma item_parse flags as_ n x t v : item flags as_ n x -> parse flags (as_ ++ t) v = parse flags t (<[n := x]> v).
Proof.
  intros H. inversion H as [s n' Hd Hn Hf|s n' x' b Hd Hn Hf Hb|s n' x' Hd Hn Hf|s n' x' Hd Hn Hf]; subst; simpl; rewrite (proj2 (classify_flag _ _) Hd);
    rewrite split_cut by apply Hd.
  - rewrite (proj2 (cut_none n n) (conj eq_refl Hn)), Hf. done.
  - rewrite (proj2 (cut_some _ n x') (conj eq_refl Hn)), Hf. by rewrite (proj1 (truth_parse _ _) Hb).
  - rewrite (proj2 (cut_some _ n x') (conj eq_refl Hn)), Hf. done.
  - rewrite (proj2 (cut_none n n) (conj eq_refl Hn)), Hf. done.
Qed.
Lemma item_help flags as_ n x t : item flags as_ n x -> asks_help flags (as_ ++ t) = asks_help flags t.
Proof.
  intros H. inversion H as [s n' Hd Hn Hf|s n' x' b Hd Hn Hf Hb|s n' x' Hd Hn Hf|s n' x' Hd Hn Hf]; subst; simpl; rewrite (proj2 (classify_flag _ _) Hd);
    rewrite split_cut by apply Hd.
  - rewrite (proj2 (cut_none n n) (conj eq_refl Hn)), Hf. done.
  - rewrite (proj2 (cut_some _ n x') (conj eq_refl Hn)), Hf. by rewrite (proj1 (truth_parse _ _) Hb).
  - rewrite (proj2 (cut_some _ n x') (conj eq_refl Hn)), Hf. done.
  - rewrite (proj2 (cut_none n n) (conj eq_refl Hn)), Hf. done.
Qed.
Lemma parses_parse flags argv is args : parses flags argv is args -> forall v, parse flags argv v = Some (settings is v, args).
Proof.
  induction 1 as [t args H|i t is args Hi _ IH]; intros v.
  - destruct H as [|s l H|l]; [done| |done]. simpl. by rewrite (proj2 (classify_stop s) H).
  - rewrite (item_parse _ _ _ _ _ _ Hi). apply IH.
Qed.


Ltac strong argv := remember (length argv) as N eqn:EN; assert (HN : length argv <= N) by lia; clear EN; revert argv HN; induction N as [|N IH]; intros argv HN.
Lemma parse_parses flags argv : forall v v' args, parse flags argv v = Some (v', args) -> exists is, parses flags argv is args /\ v' = settings is v.
Proof.
  strong argv; intros v v' args; (destruct argv as [|s rest]; [simpl; intros [= <- <-]; exists []; split; [constructor; constructor|done]|]); [simpl in HN; lia|].
  cbn [parse]. destruct (classify s) as [| | |f] eqn:Ec.
  - intros [= <- <-]. exists []. split; [constructor; apply tail_stop; by apply classify_stop|done].
  - intros [= <- <-]. apply classify_term in Ec as ->. exists []. split; [constructor; apply tail_end|done].
  - done.
  - pose proof (proj1 (classify_flag s f) Ec) as Hd. rewrite (split_cut f) by apply Hd. destruct (cut_eq f) as [name value] eqn:Ecut.
    assert (Hgo : forall a x t, rest = a ++ t -> item flags (s :: a) name x -> parse flags t (<[name := x]> v) = Some (v', args) -> exists is, parses flags (s :: rest) is args /\ v' = settings is v).
    { intros a x t -> Hi Hp. simpl in HN. rewrite app_length in HN. apply IH in Hp as (is & K1 & K2); [|lia].
      exists ({| on_args := s :: a; on_name := name; on_value := x |} :: is). split; [|exact K2].
      exact (ps_item flags {| on_args := s :: a; on_name := name; on_value := x |} t is args Hi K1). }
    destruct (flags !! name) as [[|]|] eqn:Ef; [| |done].
    + destruct value as [x|].
      * apply cut_some in Ecut as [-> Hn]. by apply (Hgo []), item_string.
      * apply cut_none in Ecut as [-> Hn]. destruct rest as [|x rest]; [done|]. by apply (Hgo [x]), item_next.
    + destruct value as [x|].
      * apply cut_some in Ecut as [-> Hn]. destruct (ParseBool x) as [b|] eqn:Eb; [|done]. apply (Hgo []); [done|]. by apply (item_bool _ _ _ x), truth_parse.
      * apply cut_none in Ecut as [-> Hn]. by apply (Hgo []), item_set.
Qed.
Lemma help_asks flags argv : asks_help flags argv = true -> asks flags argv.
Proof.
  strong argv; (destruct argv as [|s rest]; [done|]); [simpl in HN; lia|].
  cbn [asks_help]. destruct (classify s) as [| | |f] eqn:Ec; [done|done|done|].
  pose proof (proj1 (classify_flag s f) Ec) as Hd. rewrite (split_cut f) by apply Hd. destruct (cut_eq f) as [name value] eqn:Ecut.
  assert (Hgo : forall a x t, rest = a ++ t -> item flags (s :: a) name x -> asks_help flags t = true -> asks flags (s :: rest)).
  { intros a x t -> Hi Hp. simpl in HN. rewrite app_length in HN. apply IH in Hp as (is & s' & n & r & K1 & -> & K2); [|lia].
    exists ({| on_args := s :: a; on_name := name; on_value := x |} :: is), s', n, r. split; [by constructor|]. split; [|done]. simpl. by rewrite (assoc_L (++)). }
  destruct (flags !! name) as [[|]|] eqn:Ef.
  + destruct value as [x|].
    * apply cut_some in Ecut as [-> Hn]. by eapply (Hgo []), item_string.
    * apply cut_none in Ecut as [-> Hn]. destruct rest as [|x rest]; [done|]. by eapply (Hgo [x]), item_next.
  + destruct value as [x|].
    * apply cut_some in Ecut as [-> Hn]. destruct (ParseBool x) as [b|] eqn:Eb; [|done]. eapply (Hgo []); [done|]. by apply (item_bool _ _ _ x), truth_parse.
    * apply cut_none in Ecut as [-> Hn]. by eapply (Hgo []), item_set.
  + intros Hh%bool_decide_eq_true_1. exists [], s, name, rest. split; [done|]. split; [done|]. split; [|done]. destruct value as [x|].
    * apply cut_some in Ecut as [-> Hn]. right. by exists x.
    * apply cut_none in Ecut as [-> Hn]. by left.
Qed.
Lemma asks_help_true flags argv : asks flags argv -> asks_help flags argv = true.
Proof.
  intros (is & s & n & rest & Hf & -> & Hd & Hh & Hn).
  assert (H : asks_help flags (concat (on_args <$> is) ++ s :: rest) = asks_help flags (s :: rest)).
  { induction is as [|i is IH]; [done|]. apply Forall_cons in Hf as [Hi Hf]. simpl. rewrite <- (assoc_L (++)). rewrite (item_help _ _ _ _ _ Hi). by apply IH. }
  rewrite H. clear H. cbn [asks_help].
  assert (Hq : no_equals n) by (destruct Hh as [-> | ->]; apply (bool_decide_unpack (~ _)); vm_compute; exact I).
  destruct Hd as [Hd|[x Hd]]; rewrite (proj2 (classify_flag _ _) Hd), split_cut by apply Hd.
  - rewrite (proj2 (cut_none n n) (conj eq_refl Hq)), Hn. by apply bool_decide_eq_true_2.
  - rewrite (proj2 (cut_some _ n x) (conj eq_refl Hq)), Hn. by apply bool_decide_eq_true_2.
Qed.
Lemma asks_unread flags argv is args : asks flags argv -> ~ reads flags argv is args.
Proof.
  intros (is' & s & n & rest & Hf & -> & Hd & Hh & Hn) Hr0%parses_reads. pose proof (parses_parse _ _ _ _ Hr0 ∅) as Hr. clear Hr0.
  assert (H : forall v, parse flags (concat (on_args <$> is') ++ s :: rest) v = None).
  { clear Hr. induction is' as [|i is' IH]; intros v.
    - cbn [fmap list_fmap concat app parse]. assert (Hq : no_equals n) by (destruct Hh as [-> | ->]; apply (bool_decide_unpack (~ _)); vm_compute; exact I).
      destruct Hd as [Hd|[x Hd]]; rewrite (proj2 (classify_flag _ _) Hd), split_cut by apply Hd.
      + by rewrite (proj2 (cut_none n n) (conj eq_refl Hq)), Hn.
      + by rewrite (proj2 (cut_some _ n x) (conj eq_refl Hq)), Hn.
    - apply Forall_cons in Hf as [Hi Hf]. simpl. rewrite <- (assoc_L (++)). rewrite (item_parse _ _ _ _ _ _ Hi). by apply IH. }
  by rewrite H in Hr.
Qed.

(** Settings. *)
Lemma settings_snoc is i v : settings (is ++ [i]) v = <[on_name i := on_value i]> (settings is v).
Proof. unfold settings. by rewrite foldl_app. Qed.
Lemma settings_set is n x : settings is ∅ !! n = Some x <-> set_to is n x.
Proof.
  revert x. induction is as [|i is IH] using rev_ind; intros x.
  - split; [done|]. intros (b & j & a & E & _). by destruct b.
  - rewrite settings_snoc. destruct (decide (on_name i = n)) as [<-|Hn].
    + rewrite lookup_insert. split.
      * intros [= <-]. exists is, i, []. split; [done|]. split; [done|]. split; [done|]. by intros j ?%elem_of_nil.
      * intros (b & j & a & E & H1 & H2 & H3). destruct a as [|k a _] using rev_ind.
        { apply app_inj_tail in E as [_ ->]. by rewrite H2. }
        rewrite app_comm_cons, (assoc_L (++)) in E. apply app_inj_tail in E as [_ ->]. destruct (H3 k); [|done]. apply elem_of_app. right. left.
    + rewrite lookup_insert_ne by done. rewrite IH. split.
      * intros (b & j & a & -> & H1 & H2 & H3). exists b, j, (a ++ [i]). split; [by rewrite <- (assoc_L (++))|]. split; [done|]. split; [done|].
        intros k [Hk|Hk%elem_of_list_singleton]%elem_of_app; [by apply H3|by subst].
      * intros (b & j & a & E & H1 & H2 & H3). destruct a as [|k a _] using rev_ind.
        { apply app_inj_tail in E as [_ ->]. done. }
        rewrite app_comm_cons, (assoc_L (++)) in E. apply app_inj_tail in E as [-> ->]. exists b, j, a. split; [done|]. split; [done|]. split; [done|].
        intros k' Hk. apply H3. apply elem_of_app. by left.
Qed.
Lemma settings_none is n : settings is ∅ !! n = None <-> not_set is n.
Proof.
  induction is as [|i is IH] using rev_ind; [split; [by intros _ i ?%elem_of_nil|done]|]. rewrite settings_snoc. destruct (decide (on_name i = n)) as [<-|Hn].
  - rewrite lookup_insert. split; [done|]. intros H. destruct (H i); [|done]. apply elem_of_app. right. left.
  - rewrite lookup_insert_ne by done. rewrite IH. unfold not_set. split; intros H j Hj.
    + apply elem_of_app in Hj as [Hj|Hj%elem_of_list_singleton]; [by apply H|by subst].
    + apply H. apply elem_of_app. by left.
Qed.
Lemma value_kind flags is n x : Forall (is_item flags) is -> set_to is n x -> flags !! n = Some (match x with VBool _ => FBool | VString _ => FString end).
Proof.
  intros Hf (b & i & a & -> & <- & <- & _). apply Forall_app in Hf as [_ [Hi _]%Forall_cons]. unfold is_item in Hi. by destruct Hi.
Qed.
Lemma bool_on flags is n b : Forall (is_item flags) is -> flags !! n = Some FBool -> get_bool (settings is ∅) n = b <-> on is n b.
Proof.
  intros Hf Hn. unfold get_bool, on. rewrite <- settings_set, <- settings_none. destruct (settings is ∅ !! n) as [x|] eqn:E.
  - pose proof (value_kind flags is n x Hf (proj1 (settings_set _ _ _) E)) as K. rewrite Hn in K. destruct x as [x|b']; [done|].
    split; [intros ->; by left|]. intros [H|[H _]]; [by injection H|done].
  - split; [intros <-; by right|]. by intros [H|[_ ->]].
Qed.
Lemma string_given flags is n d x : Forall (is_item flags) is -> flags !! n = Some FString -> get_string (settings is ∅) n d = x <-> given is n d x.
Proof.
  intros Hf Hn. unfold get_string, given. rewrite <- settings_set, <- settings_none. destruct (settings is ∅ !! n) as [y|] eqn:E.
  - pose proof (value_kind flags is n y Hf (proj1 (settings_set _ _ _) E)) as K. rewrite Hn in K. destruct y as [y|b']; [|done].
    split; [intros ->; by left|]. intros [H|[H _]]; [by injection H|done].
  - split; [intros <-; by right|]. by intros [H|[_ ->]].
Qed.
