From stdpp Require Import base gmap list strings.
From Verif Require Import DriverModel DriverSpec FleetModel FleetSpec.
Local Open Scope list_scope.

(** ** Strings *)
Definition pre (x h : string) : Prop := exists t, h = x +:+ t.
Lemma sub_all s : substring 0 (String.length s) s = s.
Proof. induction s as [|c s IH]; [done|]. simpl. f_equal. exact IH. Qed.
Lemma sub_pre x t : substring 0 (String.length x) (x +:+ t) = x.
Proof. induction x as [|c x IH]; [by destruct t|]. simpl. f_equal. exact IH. Qed.
Lemma sub_0 n s : substring n 0 s = "".
Proof. revert n. induction s as [|c s IH]; intros [|n]; [done..|]. simpl. apply IH. Qed.
Lemma sub_nil n m : substring n m "" = "".
Proof. by destruct n, m. Qed.
Lemma sub_is_pre n s : pre (substring 0 n s) s.
Proof.
  revert n. induction s as [|c s IH]; intros [|n]; simpl; [by exists ""|by exists ""|by eexists|]. destruct (IH n) as [t E]. exists t. change (String c s = String c (substring 0 n s +:+ t)). by rewrite <-E.
Qed.
Lemma app_len a b : String.length (a +:+ b) = String.length a + String.length b.
Proof. induction a as [|c a IH]; [done|]. simpl. f_equal. exact IH. Qed.
Lemma sub_skip x z : substring (String.length x) (String.length z) (x +:+ z) = z.
Proof. induction x as [|c x IH]; [apply sub_all|]. exact IH. Qed.
Lemma pre_cmp x y h : pre x h -> pre y h -> pre x y \/ pre y x.
Proof.
  revert y h. induction x as [|c x IH]; intros y h [t E] [u E'].
  - left. by exists y.
  - destruct y as [|d y]; [right; by eexists|]. rewrite E in E'. simpl in E'. injection E' as -> E'.
    destruct (IH y (x +:+ t)) as [[v ->]|[v ->]]; [by eexists|by exists u|left; by exists v|right; by exists v].
Qed.
Lemma pre_nil h : pre "" h. Proof. by exists h. Qed.
Lemma pre_refl h : pre h h.
Proof. exists "". induction h as [|c h IH]; [done|]. change (String c h = String c (h +:+ "")). by rewrite <-IH. Qed.
Lemma app_assoc_s a b c : (a +:+ b) +:+ c = a +:+ (b +:+ c).
Proof. induction a as [|x a IH]; [done|]. change (String x ((a +:+ b) +:+ c) = String x (a +:+ (b +:+ c))). by rewrite IH. Qed.
Lemma pre_trans x y z : pre x y -> pre y z -> pre x z.
Proof. intros [t ->] [u ->]. exists (t +:+ u). apply app_assoc_s. Qed.
Lemma overlay_pre x y h : pre x h -> pre y h -> pre (overlay x y) h.
Proof.
  intros Hx Hy. unfold overlay. destruct (pre_cmp x y h Hx Hy) as [[t ->]|[t ->]].
  - rewrite app_len. replace (String.length x + String.length t - String.length x) with (String.length t) by lia. by rewrite sub_skip.
  - rewrite app_len. replace (String.length y - (String.length y + String.length t)) with 0 by lia. rewrite sub_0.
    destruct Hx as [u ->]. exists u. by rewrite (app_assoc_s (y +:+ t) "" u).
Qed.
Lemma overlay_full h y : pre y h -> overlay h y = h.
Proof.
  intros [t E]. unfold overlay. replace (String.length h) with (String.length y + String.length t) by (rewrite E; by rewrite app_len). replace (String.length y - (String.length y + String.length t)) with 0 by lia.
  rewrite sub_0. destruct (pre_refl h) as [u Eu]. assert (u = "") as ->; [|done].
  apply (f_equal String.length) in Eu. rewrite app_len in Eu. destruct u; [done|simpl in Eu; lia].
Qed.

(** ** Executions *)
Lemma cexec_app T s a1 a2 : cexec T s (a1 ++ a2) = match cexec T s a1 with Some (s1, e1) => match cexec T s1 a2 with Some (s2, e2) => Some (s2, e1 ++ e2) | None => None end | None => None end.
Proof.
  revert s. induction a1 as [|a a1 IH]; intros s; simpl.
  - by destruct (cexec T s a2) as [[? ?]|].
  - destruct (cstep T s a) as [[s1 e1]|]; [|done]. rewrite IH. destruct (cexec T s1 a1) as [[s2 e2]|]; [|done].
    destruct (cexec T s2 a2) as [[s3 e3]|]; [|done]. by rewrite app_assoc.
Qed.
Lemma cexec_snoc T s0 acts a s' e' : cexec T s0 (acts ++ [a]) = Some (s', e') ->
  exists s e e1, cexec T s0 acts = Some (s, e) /\ cstep T s a = Some (s', e1) /\ e' = e ++ e1.
Proof.
  rewrite cexec_app. destruct (cexec T s0 acts) as [[s e]|] eqn:E; [|done]. simpl. destruct (cstep T s a) as [[s1 e1]|] eqn:Ea; [|done].
  intros [= <- <-]. exists s, e, e1. by rewrite app_nil_r.
Qed.
(** An invariant of all executions under conditions on each action. *)
Lemma cinv T s0 (P : fleet -> cact -> Prop) (I : list cact -> fleet -> list (nat * event) -> Prop) :
  I [] s0 [] ->
  (forall acts s e a s' e1, cexec T s0 acts = Some (s, e) -> I acts s e -> P s a -> cstep T s a = Some (s', e1) -> I (acts ++ [a]) s' (e ++ e1)) ->
  forall acts s e, always T s0 acts P -> cexec T s0 acts = Some (s, e) -> I acts s e.
Proof.
  intros H0 Hstep acts. induction acts as [|a acts IH] using rev_ind; intros s e HP Hx.
  - by injection Hx as <- <-.
  - apply cexec_snoc in Hx as (s1 & e1 & e2 & Hx & Ha & ->). eapply Hstep; [exact Hx| | |exact Ha].
    + apply IH; [|done]. intros p b q s2 e3 E. apply (HP p b (q ++ [a])). rewrite E. by rewrite <-app_assoc.
    + by apply (HP acts a [] s1 e1).
Qed.

(** What a step of a process does to the disk. *)
Inductive effect (T : tools) (p : proc) (src : option sources) (d : disk) : disk -> pc -> list event -> Prop :=
  | ef_stat_new : p_pc p = PStat -> src <> None -> p_force p = true \/ d_bin d = None -> effect T p src d d (PHash None None) []
  | ef_stat : p_pc p = PStat -> src <> None -> d_bin d <> None -> effect T p src d d PVersion []
  | ef_ver_ok i x : p_pc p = PVersion -> p_fab p = Some i -> d_ver d = Some x -> t_dec T x = Some i -> effect T p src d d PReadHash []
  | ef_ver_no info (r : bool) : p_pc p = PVersion -> (info = None \/ info = p_fab p) -> effect T p src d (if r then with_ver None d else d) (PHash None info) []
  | ef_read : p_pc p = PReadHash -> effect T p src d d (PHash (d_hash d) None) []
  | ef_same info S : p_pc p = PHash (Some (t_hash T S)) info -> src = Some S -> effect T p src d d PReturn []
  | ef_differs old info S : p_pc p = PHash old info -> src = Some S -> effect T p src d d (PCopy (t_hash T S) info) []
  | ef_copy n info S : p_pc p = PCopy n info -> src = Some S -> effect T p src d d (PRename S n info) []
  | ef_rename c n info : p_pc p = PRename c n info -> effect T p src d (with_bin (Some {| b_src := c; b_fab := p_fab p |}) d) (PTruncHash n info) [EvCompiled {| b_src := c; b_fab := p_fab p |}]
  | ef_trunc n info : p_pc p = PTruncHash n info -> effect T p src d (with_hash (Some "") d) (PWriteHash n info) []
  | ef_write n info (l : bool) : p_pc p = PWriteHash n info -> effect T p src d (if l then d else write_hash n d) (match info with Some i => PTruncVer i | None => PReturn end) []
  | ef_vtrunc i : p_pc p = PTruncVer i -> effect T p src d (with_ver (Some "") d) (PWriteVer i) []
  | ef_vwrite i (l : bool) : p_pc p = PWriteVer i -> effect T p src d (if l then d else write_ver (t_enc T i) d) PReturn [].
Lemma co_effect T p l src d d' pc evs : p_pc p <> PReturn -> co_step T p l src d = Some (d', pc, evs) -> effect T p src d d' pc evs.
Proof.
  intros Hr. unfold co_step, proc_step. destruct (p_pc p) as [| | |old info|n info|c n info|n info|n info|i|i|] eqn:E; [.. |done].
  - destruct src as [S|]; [|done]. destruct (p_force p) eqn:Ef; [intros [= <- <- <-]; by apply ef_stat_new; [| |left]|].
    destruct (d_bin d) as [b|] eqn:Eb; intros [= <- <- <-]; [apply ef_stat; [done..|by rewrite Eb]|by apply ef_stat_new; [| |right]].
  - unfold checkVersion. destruct (p_fab p) as [i|] eqn:Ef.
    + destruct (d_ver d) as [x|] eqn:Ex; [destruct (t_dec T x) as [j|] eqn:Ed; [case_decide as Hd|]|]; destruct src; intros [= <- <- <-];
        try (by apply (ef_ver_no T p _ d _ false); [|rewrite Ef; right]); subst j; by eapply ef_ver_ok.
    + destruct src; intros [= <- <- <-]; apply (ef_ver_no T p _ d _ true); auto.
  - destruct src; intros [= <- <- <-]; by apply ef_read.
  - destruct src as [S|]; [|done]. destruct old as [old|]; [|intros [= <- <- <-]; by eapply ef_differs].
    case_decide as Hd; intros [= <- <- <-]; [subst old; by eapply ef_same|by eapply ef_differs].
  - destruct src as [S|]; [|done]. intros [= <- <- <-]. by apply ef_copy.
  - destruct src; intros [= <- <- <-]; by apply ef_rename.
  - destruct src; intros [= <- <- <-]; by apply ef_trunc.
  - intros [= <- <- <-]. by apply ef_write.
  - destruct src; intros [= <- <- <-]; by apply ef_vtrunc.
  - intros [= <- <- <-]. by apply ef_vwrite.
Qed.
Definition set_pc (p : proc) (c : pc) : proc := {| p_fab := p_fab p; p_force := p_force p; p_pc := c |}.
(** All that can happen. *)
Inductive happens (T : tools) (s : fleet) : cact -> fleet -> list (nat * event) -> Prop :=
  | h_edit x : happens T s (CEdit x) {| c_src := x; c_disk := c_disk s; c_procs := c_procs s |} []
  | h_remove f d : d = match f with FBin => with_bin None (c_disk s) | FHash => with_hash None (c_disk s) | FVer => with_ver None (c_disk s) end ->
      happens T s (CRemove f) {| c_src := c_src s; c_disk := d; c_procs := c_procs s |} []
  | h_start id fab force : c_procs s !! id = None ->
      happens T s (CStart id fab force) {| c_src := c_src s; c_disk := c_disk s; c_procs := <[id := {| p_fab := fab; p_force := force; p_pc := PStat |}]> (c_procs s) |} []
  | h_return id l p : c_procs s !! id = Some p -> p_pc p = PReturn ->
      happens T s (CStep id l) {| c_src := c_src s; c_disk := c_disk s; c_procs := delete id (c_procs s) |} [(id, EvDriver (d_bin (c_disk s)))]
  | h_gone id l p : c_procs s !! id = Some p -> p_pc p <> PReturn -> co_step T p l (c_src s) (c_disk s) = None ->
      happens T s (CStep id l) {| c_src := c_src s; c_disk := c_disk s; c_procs := delete id (c_procs s) |} [(id, EvNoDriver)]
  | h_step id l p d pc evs : c_procs s !! id = Some p -> p_pc p <> PReturn -> effect T p (c_src s) (c_disk s) d pc evs ->
      happens T s (CStep id l) {| c_src := c_src s; c_disk := d; c_procs := <[id := set_pc p pc]> (c_procs s) |} (pair id <$> evs)
  | h_die id torn p d : c_procs s !! id = Some p ->
      d = match p_pc p with
          | PWriteHash new _ => write_hash (substring 0 torn new) (c_disk s)
          | PWriteVer i => write_ver (substring 0 torn (t_enc T i)) (c_disk s)
          | _ => c_disk s
          end ->
      happens T s (CDie id torn) {| c_src := c_src s; c_disk := d; c_procs := delete id (c_procs s) |} [(id, EvDied)].
Lemma cstep_happens T s a s' e : cstep T s a = Some (s', e) -> happens T s a s' e.
Proof.
  destruct a as [x|f|id fab force|id l|id torn]; simpl.
  - intros [= <- <-]. constructor.
  - intros [= <- <-]. by constructor.
  - destruct (c_procs s !! id) eqn:E; [done|]. intros [= <- <-]. by constructor.
  - destruct (c_procs s !! id) as [p|] eqn:E; [|done]. assert (p_pc p = PReturn \/ p_pc p <> PReturn) as [Hr|Hr] by (destruct (p_pc p); auto).
    + rewrite Hr. intros [= <- <-]. by eapply h_return.
    + destruct (co_step T p l (c_src s) (c_disk s)) as [[[d pc] evs]|] eqn:Es.
      * destruct (p_pc p) eqn:Ep; [.. |done]; intros [= <- <-]; (eapply h_step; [exact E|by rewrite Ep|]; eapply co_effect; [by rewrite Ep|exact Es]).
      * destruct (p_pc p) eqn:Ep; [.. |done]; intros [= <- <-]; (eapply h_gone; [exact E|by rewrite Ep|exact Es]).
  - destruct (c_procs s !! id) as [p|] eqn:E; [|done]. intros [= <- <-]. by eapply h_die.
Qed.
