From stdpp Require Import base gmap list strings.
From Coq Require Import Ascii.
From Verif Require Import PathModel DriverModel DriverSpec DriverProofs DriverProofs2.
Local Open Scope list_scope.

(** ** Orderly histories: other versions are harmless *)
Definition says (T : tools) (d : disk) (x : string) : Prop := exists h, d_ver d = Some h /\ t_dec T h = Some x.
Definition ver_of_bin (T : tools) (d : disk) : Prop := (d_bin d = None -> d_ver d = None) /\ forall x b, says T d x -> d_bin d = Some b -> b_fab b = Some x.
Definition bin_of (fab : fabinfo) (d : disk) : Prop := exists b, d_bin d = Some b /\ b_fab b = fab.
Definition will_say (T : tools) (fab info : fabinfo) (d : disk) : Prop := (info <> None /\ info = fab) \/ (info = None /\ forall x, says T d x -> fab = Some x).
Definition pc_orderly (T : tools) (fab : fabinfo) (d : disk) (p : pc) : Prop :=
  match p with
  | PStat | PVersion => ver_of_bin T d
  | PReadHash => ver_of_bin T d /\ bin_of fab d
  | PHash old info => ver_of_bin T d /\ will_say T fab info d /\ (old <> None -> bin_of fab d)
  | PCopy _ info | PRename _ _ info => ver_of_bin T d /\ will_say T fab info d
  | PTruncHash _ info | PWriteHash _ info => bin_of fab d /\ will_say T fab info d
  | PTruncVer i | PWriteVer i => bin_of fab d /\ fab = Some i
  | PReturn => ver_of_bin T d /\ bin_of fab d
  end.
Definition inv_orderly (T : tools) (s : state) : Prop :=
  match s_proc s with None => ver_of_bin T (s_disk s) | Some p => p_force p = false /\ pc_orderly T (p_fab p) (s_disk s) (p_pc p) end.
Lemma vob_same T d fab : bin_of fab d -> (forall x, says T d x -> fab = Some x) -> ver_of_bin T d.
Proof. intros (b & Hb & Hf) H. split; [by rewrite Hb|]. intros x b' Hx Hb'. simplify_eq. by apply H. Qed.
Lemma says_hash T d h x : says T (with_hash h d) x <-> says T d x. Proof. done. Qed.
Lemma orderly_remove T fab d p f : f <> FBin -> pc_orderly T fab d p ->
  pc_orderly T fab (match f with FBin => with_bin None d | FHash => with_hash None d | FVer => with_ver None d end) p.
Proof.
  intros Hf H. destruct f; [done| |].
  - destruct p; exact H.
  - assert (Hs : forall x, ~ says T (with_ver None d) x) by (intros x (h & ? & _); done).
    assert (Hv : ver_of_bin T (with_ver None d)) by (split; [done|]; intros x b Hx; by apply Hs in Hx).
    assert (Hw : forall info, will_say T fab info d -> will_say T fab info (with_ver None d)).
    { intros info [?|[? _]]; [by left|right]. split; [done|]. intros x Hx; by apply Hs in Hx. }
    destruct p; simpl in *; naive_solver.
Qed.
Lemma inv_orderly_step T s a s' evs : enc_ok T -> inv_orderly T s -> step T s a = Some (s', evs) ->
  (forall n, a <> ADie n) -> (forall f, a <> AStart f true) -> a <> ARemove FBin ->
  inv_orderly T s' /\ (forall b, EvDriver (Some b) ∈ evs -> exists p, s_proc s = Some p /\ b_fab b = p_fab p).
Proof.
  intros HT Hi Hs Hnd Hnf Hnr. unfold inv_orderly in *. destruct a as [x|f|fab force| |torn]; cbn [step] in Hs.
  - simplify_eq. split; [|by intros b ?%elem_of_nil]. done.
  - simplify_eq. split; [|by intros b ?%elem_of_nil]. cbn [s_proc set_disk s_disk]. assert (f <> FBin) by congruence. destruct (s_proc s) as [p|].
    + split; [apply Hi|]. apply orderly_remove; [done|apply Hi].
    + exact (orderly_remove T None _ PStat f ltac:(done) Hi).
  - destruct (s_proc s); [done|]. simplify_eq. split; [|by intros b ?%elem_of_nil]. simpl. split; [|done]. destruct force; [|done]. by destruct (Hnf fab).
  - destruct (s_proc s) as [p|] eqn:Ep; [|done]. destruct Hi as [Hforce Hi]. unfold proc_step in Hs. rewrite Hforce in Hs.
    destruct (p_pc p) as [| | |old info|nh info|copied nh info|nh info|nh info|i|i|] eqn:Epc; simpl in Hi.
    + destruct (s_src s) as [S|] eqn:Es; [|simplify_eq; split; [done|by intros b ?%elem_of_list_singleton]].
      destruct (d_bin (s_disk s)) eqn:Eb; simplify_eq; (split; [|by intros ? ?%elem_of_nil]); simpl; [done|]. split; [done|]. split; [done|]. split; [|done].
      right. split; [done|]. intros x (h & Hh & _). destruct Hi as [Hi _]. rewrite (Hi Eb) in Hh. done.
    + unfold checkVersion in Hs. destruct (p_fab p) as [new|] eqn:Ef.
      2: { simplify_eq. split; [|by intros ? ?%elem_of_nil]. simpl. split; [done|]. split; [|split; [right; split; [done|]|done]]. { split; [done|]. intros x b (h & ? & _). done. }
           intros x (h & ? & _). done. }
      destruct (d_ver (s_disk s)) as [h|] eqn:Eh.
      2: { simplify_eq. split; [|by intros ? ?%elem_of_nil]. simpl. split; [done|]. split; [done|]. split; [by left|done]. }
      destruct (t_dec T h) as [old|] eqn:Ed.
      2: { simplify_eq. split; [|by intros ? ?%elem_of_nil]. simpl. split; [done|]. split; [done|]. split; [by left|done]. }
      destruct (decide (new = old)) as [<-|Hne]; simplify_eq; (split; [|by intros ? ?%elem_of_nil]); simpl; (split; [done|]).
      * split; [done|]. destruct Hi as [Hn Hb]. destruct (d_bin (s_disk s)) as [b|] eqn:Eb; [|rewrite Hn in Eh; done]. exists b. split; [done|]. apply Hb; [by exists h|done].
      * split; [done|]. split; [by left|done].
    + simplify_eq. split; [|by intros ? ?%elem_of_nil]. simpl. destruct Hi as [Hv Hb]. split; [done|]. split; [done|]. split; [|done].
      right. split; [done|]. intros x Hx. destruct Hb as (b & Hb & <-). by apply Hv.
    + destruct Hi as (Hv & Hw & Hb). destruct (s_src s) as [S|] eqn:Es; [|simplify_eq; split; [done|by intros b ?%elem_of_list_singleton]].
      destruct old as [old|].
      * injection Hs as <- <-. split; [|by intros ? ?%elem_of_nil]. simpl. split; [done|]. destruct (decide (t_hash T S = old)) as [E|E]; simpl; [|done]. split; [done|]. by apply Hb.
      * simplify_eq. split; [|by intros ? ?%elem_of_nil]. done.
    + destruct Hi as [Hv Hw]. destruct (s_src s) as [S|] eqn:Es; [|simplify_eq; split; [done|by intros b ?%elem_of_list_singleton]].
      simplify_eq. split; [|by intros ? ?%elem_of_nil]. done.
    + destruct Hi as (Hv & Hw). simplify_eq. split; [|by intros b ?%elem_of_list_singleton]. simpl. split; [done|]. split; [|done]. eexists. split; [done|]. done.
    + simplify_eq. split; [|by intros ? ?%elem_of_nil]. done.
    + simplify_eq. split; [|by intros ? ?%elem_of_nil]. simpl. split; [done|]. destruct Hi as [Hb Hw].
      destruct info as [i|]; simpl.
      * split; [done|]. destruct Hw as [[_ <-]|[? _]]; done.
      * split; [|done]. destruct Hw as [[? _]|[_ Hw]]; [done|]. by eapply vob_same.
    + simplify_eq. split; [|by intros ? ?%elem_of_nil]. done.
    + simplify_eq. split; [|by intros ? ?%elem_of_nil]. simpl. destruct Hi as [Hb Hf]. split; [done|]. split; [|done].
      eapply vob_same; [exact Hb|]. intros x (h & [= <-] & Hx). rewrite (proj1 HT) in Hx. congruence.
    + simplify_eq. destruct Hi as [Hv (b0 & Hb & Hf)]. split; [done|]. intros b [= E]%elem_of_list_singleton. exists p. split; [done|]. congruence.
  - by destruct (Hnd torn).
Qed.
Lemma orderly_history T s0 acts : enc_ok T -> nothing_yet s0 -> (forall n, ADie n ∉ acts) -> (forall f, AStart f true ∉ acts) -> ARemove FBin ∉ acts ->
  forall s e, exec T s0 acts = Some (s, e) -> inv_orderly T s.
Proof.
  intros HT (H1 & H2 & H3 & H4). induction acts as [|a acts IH] using rev_ind; intros Hd Hf Hr s e He.
  - simpl in He. simplify_eq. unfold inv_orderly. rewrite H4. split; [done|]. intros x b (h & Hh & _). congruence.
  - apply exec_snoc in He as (s1 & e1 & e2 & He & Hs & ->).
    assert (Hi : inv_orderly T s1). { eapply IH; [| | |exact He]; [intros n Hin; apply (Hd n)|intros f Hin; apply (Hf f)|intros Hin; apply Hr]; apply elem_of_app; by left. }
    assert (Ha : forall x, x ∉ acts ++ [a] -> a <> x). { intros x Hx ->. apply Hx, elem_of_app. right. by left. }
    eapply (inv_orderly_step _ _ _ _ _ HT Hi Hs); intros; apply Ha; auto.
Qed.
Lemma orderly_lem T s0 acts s e s' b : enc_ok T -> nothing_yet s0 -> (forall n, ADie n ∉ acts) -> (forall f, AStart f true ∉ acts) -> ARemove FBin ∉ acts ->
  exec T s0 acts = Some (s, e) -> step T s AStep = Some (s', [EvDriver (Some b)]) -> exists p, s_proc s = Some p /\ b_fab b = p_fab p.
Proof.
  intros HT H0 Hd Hf Hr He Hs. pose proof (orderly_history T s0 acts HT H0 Hd Hf Hr s e He) as Hi.
  destruct (inv_orderly_step _ _ _ _ _ HT Hi Hs) as [_ Hx]; [done|done|done|]. apply Hx. by left.
Qed.
