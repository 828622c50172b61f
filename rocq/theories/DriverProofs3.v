From stdpp Require Import base gmap list strings.
From Coq Require Import Ascii.
From Verif Require Import PathModel DriverModel DriverSpec DriverProofs DriverProofs2.
Local Open Scope list_scope.

(** ** What a complete run does. *)
Definition after_version (T : tools) (fab : fabinfo) (force : bool) (d : disk) : disk :=
  if force then d else match d_bin d with None => d | Some _ => if (checkVersion T fab (d_ver d)).2 then with_ver None d else d end.
(** None: no compilation; Some info: compilation, and the version file is written if info is not None. *)
Definition verdict (T : tools) (fab : fabinfo) (force : bool) (S : sources) (d : disk) : option fabinfo :=
  if force then Some None else
  match d_bin d with
  | None => Some None
  | Some _ =>
      let '(compile, info, _) := checkVersion T fab (d_ver d) in
      if compile then Some info else if decide (d_hash d = Some (t_hash T S)) then None else Some None
  end.
Definition after_run (T : tools) (fab : fabinfo) (force : bool) (S : sources) (d : disk) : disk * list event :=
  match verdict T fab force S d with
  | None => (d, [])
  | Some info =>
      let b := {| b_src := S; b_fab := fab |} in
      ({| d_bin := Some b; d_hash := Some (t_hash T S);
          d_ver := match info with Some i => Some (t_enc T i) | None => d_ver (after_version T fab force d) end |}, [EvCompiled b])
  end.
Lemma exec_steps T s n s' e p : s_proc s = Some p -> s_proc s' = None -> exec T s (replicate n AStep) = Some (s', e) ->
  exists m s1 e1 e2, n = S m /\ step T s AStep = Some (s1, e1) /\ exec T s1 (replicate m AStep) = Some (s', e2) /\ e = e1 ++ e2.
Proof.
  intros Hp Hn H. destruct n as [|n]; [simpl in H; by simplify_eq|]. cbn [replicate exec] in H.
  destruct (step T s AStep) as [[s1 e1]|] eqn:E; [|done]. destruct (exec T s1 (replicate n AStep)) as [[s2 e2]|] eqn:E2; [|done].
  simplify_eq. by exists n, s1, e1, e2.
Qed.
Lemma run_done T s n s' e : s_proc s = None -> exec T s (replicate n AStep) = Some (s', e) -> s' = s /\ e = [].
Proof. intros Hp. destruct n; simpl; [by intros; simplify_eq|]. by rewrite Hp. Qed.
Definition at_pc (S : sources) (d : disk) (fab : fabinfo) (force : bool) (p : pc) : state :=
  {| s_src := Some S; s_disk := d; s_proc := Some {| p_fab := fab; p_force := force; p_pc := p |} |}.
Definition idle (S : sources) (d : disk) : state := {| s_src := Some S; s_disk := d; s_proc := None |}.
Lemma run_return T fab force S d n s' e : s_proc s' = None -> exec T (at_pc S d fab force PReturn) (replicate n AStep) = Some (s', e) ->
  s' = idle S d /\ e = [EvDriver (d_bin d)].
Proof.
  intros Hn H. eapply exec_steps in H as (m & s1 & e1 & e2 & _ & Hs & H & ->); [|done|done]. simpl in Hs. simplify_eq.
  apply run_done in H as [-> ->]; [|done]. done.
Qed.
(** From the compilation on. *)
Lemma run_compile T fab force S d n s' e info : s_proc s' = None ->
  exec T (at_pc S d fab force (PCopy (t_hash T S) info)) (replicate n AStep) = Some (s', e) ->
  let b := {| b_src := S; b_fab := fab |} in
  s' = idle S {| d_bin := Some b; d_hash := Some (t_hash T S); d_ver := match info with Some i => Some (t_enc T i) | None => d_ver d end |} /\
  e = [EvCompiled b] ++ [EvDriver (Some b)].
Proof.
  intros Hn H. cbv zeta.
  eapply exec_steps in H as (m1 & s1 & e1 & e1' & _ & Hs & H & ->); [|done|done]. simpl in Hs. injection Hs as <- <-.
  eapply exec_steps in H as (m2 & s2 & e2 & e2' & _ & Hs & H & ->); [|done|done]. simpl in Hs. injection Hs as <- <-.
  eapply exec_steps in H as (m3 & s3 & e3 & e3' & _ & Hs & H & ->); [|done|done]. simpl in Hs. injection Hs as <- <-.
  eapply exec_steps in H as (m4 & s4 & e4 & e4' & _ & Hs & H & ->); [|done|done]. simpl in Hs. injection Hs as <- <-.
  destruct info as [i|].
  - eapply exec_steps in H as (m5 & s5 & e5 & e5' & _ & Hs & H & ->); [|done|done]. simpl in Hs. injection Hs as <- <-.
    eapply exec_steps in H as (m6 & s6 & e6 & e6' & _ & Hs & H & ->); [|done|done]. simpl in Hs. injection Hs as <- <-.
    eapply (run_return T fab force S) in H as [-> ->]; [|done]. done.
  - eapply (run_return T fab force S) in H as [-> ->]; [|done]. done.
Qed.
Lemma run_hash T fab force S d n s' e info : s_proc s' = None ->
  exec T (at_pc S d fab force (PHash None info)) (replicate n AStep) = Some (s', e) ->
  let b := {| b_src := S; b_fab := fab |} in
  s' = idle S {| d_bin := Some b; d_hash := Some (t_hash T S); d_ver := match info with Some i => Some (t_enc T i) | None => d_ver d end |} /\
  e = [EvCompiled b] ++ [EvDriver (Some b)].
Proof.
  intros Hn H. eapply exec_steps in H as (m1 & s1 & e1 & e1' & _ & Hs & H & ->); [|done|done]. simpl in Hs. injection Hs as <- <-.
  by eapply run_compile in H.
Qed.
Lemma full_run_eq T fab force s s' evs b S : full_run T fab force s s' evs b -> s_src s = Some S ->
  let r := after_run T fab force S (s_disk s) in
  s_proc s = None /\ s' = idle S r.1 /\ evs = r.2 /\ b = d_bin r.1.
Proof.
  intros (n & He & Hn) Hs. destruct s as [src d pr]. simpl in Hs. subst src. cbn [exec] in He. unfold step in He. cbn [s_proc] in He. destruct pr; [done|].
  cbn [s_src s_disk] in *. fold (at_pc S d fab force PStat) in He.
  destruct (exec T (at_pc S d fab force PStat) (replicate n AStep)) as [[s1 e1]|] eqn:E1; [|done]. simpl in He. injection He as -> He.
  split; [done|]. unfold after_run, verdict, after_version.
  eapply exec_steps in E1 as (m1 & s1 & f1 & f1' & _ & Hs & E1 & ->); [|done|done]. simpl in Hs. unfold proc_step in Hs. simpl in Hs.
  destruct force.
  { injection Hs as <- <-. eapply run_hash in E1 as [-> ->]; [|done]. apply app_inj_tail in He as [? ?]. by simplify_eq. }
  destruct (d_bin d) as [b0|] eqn:Eb.
  2: { injection Hs as <- <-. eapply run_hash in E1 as [-> ->]; [|done]. apply app_inj_tail in He as [? ?]. by simplify_eq. }
  injection Hs as <- <-. eapply exec_steps in E1 as (m2 & s2 & f2 & f2' & _ & Hs & E1 & ->); [|done|done]. simpl in Hs. unfold proc_step in Hs. simpl in Hs.
  destruct (checkVersion T fab (d_ver d)) as [[compile info] remove] eqn:Ec. injection Hs as <- <-. destruct compile.
  { eapply (run_hash T fab false S) in E1 as [-> ->]; [|done]. apply app_inj_tail in He as [? ?]. simplify_eq. destruct info, remove; done. }
  assert (remove = false) as ->.
  { unfold checkVersion in Ec. destruct fab; [|by simplify_eq]. destruct (d_ver d); [|by simplify_eq]. destruct (t_dec _ _); [|by simplify_eq]. by destruct (decide _); simplify_eq. }
  eapply exec_steps in E1 as (m3 & s3 & f3 & f3' & _ & Hs & E1 & ->); [|done|done]. simpl in Hs. injection Hs as <- <-.
  destruct (d_hash d) as [h|] eqn:Eh.
  2: { rewrite decide_False by done. eapply run_hash in E1 as [-> ->]; [|done]. apply app_inj_tail in He as [? ?]. by simplify_eq. }
  eapply exec_steps in E1 as (m4 & s4 & f4 & f4' & _ & Hs & E1 & ->); [|done|done]. simpl in Hs. unfold proc_step in Hs. simpl in Hs.
  injection Hs as <- <-. destruct (decide (t_hash T S = h)) as [<-|Hne].
  - rewrite decide_True by done. eapply (run_return T fab false S) in E1 as [-> ->]; [|done]. simpl in He. symmetry in He.
    apply app_eq_unit in He as [[-> He]|[_ ?]]; [|done]. by simplify_eq.
  - rewrite decide_False by congruence. eapply (run_compile T fab false S) in E1 as [-> ->]; [|done]. apply app_inj_tail in He as [? ?]. by simplify_eq.
Qed.
(** Such runs exist. *)
Lemma full_run_ex T fab force S d : exists s' evs b, full_run T fab force (idle S d) s' evs b.
Proof.
  unfold full_run. assert (H : forall k s, (exists s' e b, exec T s (replicate k AStep) = Some (s', e ++ [EvDriver b]) /\ s_proc s' = None) ->
    forall s0 e0, step T s0 AStep = Some (s, e0) -> exists s' e b, exec T s0 (replicate (Datatypes.S k) AStep) = Some (s', e ++ [EvDriver b]) /\ s_proc s' = None).
  { intros k s (s' & e & b & He & Hn) s0 e0 Hs. exists s', (e0 ++ e), b. split; [|done]. cbn [replicate exec]. by rewrite Hs, He, (assoc_L (++)). }
  set (good s := exists k s' e b, exec T s (replicate k AStep) = Some (s', e ++ [EvDriver b]) /\ s_proc s' = None).
  assert (Hg : forall s0 s e0, step T s0 AStep = Some (s, e0) -> good s -> good s0).
  { intros s0 s e0 Hs [k Hk]. exists (Datatypes.S k). by eapply H. }
  assert (Hret : forall d, good (at_pc S d fab force PReturn)).
  { intros d0. exists 1. do 3 eexists. split; [simpl; by rewrite (app_nil_l [EvDriver _])|done]. }
  assert (Hwv : forall d i, good (at_pc S d fab force (PTruncVer i))).
  { intros d0 i. eapply Hg; [reflexivity|]. eapply Hg; [reflexivity|]. apply Hret. }
  assert (Hc : forall d h info, good (at_pc S d fab force (PCopy h info))).
  { intros d0 h info. do 4 (eapply Hg; [reflexivity|]). destruct info; [apply Hwv|apply Hret]. }
  assert (Hh : forall d o info, good (at_pc S d fab force (PHash o info))).
  { intros d0 o info. destruct o as [h|].
    - eapply Hg; [reflexivity|]. destruct (decide _); [apply Hret|apply Hc].
    - eapply Hg; [reflexivity|]. apply Hc. }
  assert (Hall : good (at_pc S d fab force PStat)).
  { destruct force.
    - eapply Hg; [reflexivity|]. apply Hh.
    - destruct (d_bin d) eqn:E.
      + eapply Hg; [simpl; unfold proc_step; simpl; rewrite E; reflexivity|].
        destruct (checkVersion T fab (d_ver d)) as [[c info] rm] eqn:Ec.
        eapply Hg; [simpl; unfold proc_step; simpl; rewrite Ec; reflexivity|]. destruct c; [apply Hh|].
        eapply Hg; [reflexivity|]. apply Hh.
      + eapply Hg; [simpl; unfold proc_step; simpl; rewrite E; reflexivity|]. apply Hh. }
  destruct Hall as (k & s' & e & b & He & Hn). exists s', e, b, k. split; [|done]. cbn [exec]. unfold step at 1. simpl. fold (at_pc S d fab force PStat). by rewrite He.
Qed.

(** ** Recompilation *)
Lemma again_lem T i s s1 evs1 b1 s2 evs2 b2 S : enc_ok T -> s_src s = Some S -> d_bin (s_disk s) <> None ->
  full_run T (Some i) false s s1 evs1 b1 -> full_run T (Some i) false s1 s2 evs2 b2 -> evs2 = [] /\ s2 = s1 /\ b2 = b1.
Proof.
  intros [HT _] Hs Hb H1 H2. apply (full_run_eq _ _ _ _ _ _ _ S) in H1 as (_ & -> & -> & ->); [|done].
  apply (full_run_eq _ _ _ _ _ _ _ S) in H2 as (_ & -> & -> & ->); [|done]. cbn [s_disk idle].
  assert (Hv : verdict T (Some i) false S (after_run T (Some i) false S (s_disk s)).1 = None).
  { destruct (d_bin (s_disk s)) as [b0|] eqn:Eb; [|done]. unfold after_run.
    destruct (verdict T (Some i) false S (s_disk s)) as [info|] eqn:Ev; [|done]. cbv zeta. cbn [fst].
    assert (Hver : match info with Some i => Some (t_enc T i) | None => d_ver (after_version T (Some i) false (s_disk s)) end = Some (t_enc T i) \/
       exists h, match info with Some i => Some (t_enc T i) | None => d_ver (after_version T (Some i) false (s_disk s)) end = Some h /\ t_dec T h = Some i).
    { unfold verdict, after_version in *. simpl in *. rewrite Eb in *. unfold checkVersion in *.
      destruct (d_ver (s_disk s)) as [h|] eqn:Eh; [|simplify_eq; by left].
      destruct (t_dec T h) as [old|] eqn:Ed; [|simplify_eq; by left].
      destruct (decide (i = old)) as [<-|]; [|simplify_eq; by left].
      destruct (decide _); simplify_eq. right. exists h. done. }
    unfold verdict. cbn [d_bin d_ver d_hash]. 
    destruct Hver as [->|(h & -> & Hd)]; simpl; [rewrite HT|rewrite Hd]; by rewrite !decide_True. }
  set (D := (after_run T (Some i) false S (s_disk s)).1) in *.
  assert (after_run T (Some i) false S D = (D, [])) as -> by (unfold after_run; by rewrite Hv). done.
Qed.
Lemma first_lem T i force s s1 evs1 b1 s2 evs2 b2 S : s_src s = Some S -> force = true \/ d_bin (s_disk s) = None ->
  (forall h, d_ver (s_disk s) = Some h -> t_dec T h <> Some i) ->
  full_run T (Some i) force s s1 evs1 b1 -> full_run T (Some i) false s1 s2 evs2 b2 -> compiles evs2.
Proof.
  intros Hs Hb Hv H1 H2. apply (full_run_eq _ _ _ _ _ _ _ S) in H1 as (_ & -> & -> & ->); [|done].
  apply (full_run_eq _ _ _ _ _ _ _ S) in H2 as (_ & -> & -> & ->); [|done]. cbn [s_disk idle].
  assert (Hv1 : verdict T (Some i) force S (s_disk s) = Some None). { unfold verdict. destruct Hb as [-> | ->]; [done|]. by destruct force. }
  assert (Ha : after_version T (Some i) force (s_disk s) = s_disk s). { unfold after_version. destruct Hb as [-> | ->]; [done|]. by destruct force. }
  set (d1 := (after_run T (Some i) force S (s_disk s)).1).
  assert (Hd1 : d_bin d1 <> None /\ d_ver d1 = d_ver (s_disk s)). { unfold d1, after_run. rewrite Hv1. simpl. by rewrite Ha. }
  destruct Hd1 as [Hd1 Hd2]. unfold after_run, compiles.
  assert (exists info, verdict T (Some i) false S d1 = Some info) as [info ->].
  { unfold verdict. destruct (d_bin d1); [|done]. unfold checkVersion. rewrite Hd2. destruct (d_ver (s_disk s)) as [h|]; [|eauto].
    specialize (Hv h eq_refl). destruct (t_dec T h) as [old|]; [|eauto]. rewrite decide_False by congruence. eauto. }
  eexists. simpl. by left.
Qed.
Lemma noinfo_lem T s s' evs b S : s_src s = Some S -> full_run T None false s s' evs b -> compiles evs.
Proof.
  intros Hs H. apply (full_run_eq _ _ _ _ _ _ _ S) in H as (_ & -> & -> & ->); [|done]. unfold after_run, compiles.
  assert (exists info, verdict T None false S (s_disk s) = Some info) as [info ->].
  { unfold verdict. destruct (d_bin (s_disk s)); [|eauto]. simpl. eauto. }
  eexists. simpl. by left.
Qed.

(** ** Stale drivers *)
Definition steps (n : nat) : list action := replicate n AStep.
Definition no_disk : disk := {| d_bin := None; d_hash := None; d_ver := None |}.
(** Twice: the second run writes the version file. *)
Definition warm_up (i : string) : list action := AStart (Some i) false :: steps 7 ++ AStart (Some i) false :: steps 10.
Definition warm (T : tools) (A : sources) (i : string) : disk :=
  {| d_bin := Some {| b_src := A; b_fab := Some i |}; d_hash := Some (t_hash T A); d_ver := Some (t_enc T i) |}.
Lemma exec_cons T s a acts s1 e1 s2 e2 : step T s a = Some (s1, e1) -> exec T s1 acts = Some (s2, e2) -> exec T s (a :: acts) = Some (s2, e1 ++ e2).
Proof. intros H1 H2. cbn [exec]. by rewrite H1, H2. Qed.
Ltac go := eapply exec_cons; [simpl; reflexivity|].
Lemma warm_lem T A i : exists e, exec T (idle A no_disk) (warm_up i) = Some (idle A (warm T A i), e).
Proof. unfold warm_up, steps. cbn [replicate app]. eexists. do 19 go. reflexivity. Qed.
Definition interrupted (i : string) (A B : sources) : list action :=
  AEdit (Some B) :: AStart (Some i) false :: steps 6 ++ [ADie 0; AEdit (Some A); AStart (Some i) false] ++ steps 4.
(** A run that finds the version unchanged. *)
Lemma version_same T S d i force : enc_ok T -> d_ver d = Some (t_enc T i) ->
  step T (at_pc S d (Some i) force PVersion) AStep = Some (at_pc S d (Some i) force PReadHash, []).
Proof. intros [HE _] Hv. simpl. unfold proc_step. simpl. rewrite Hv. simpl. rewrite HE, decide_True by done. done. Qed.
Lemma hash_same T S d fab force info : step T (at_pc S d fab force (PHash (Some (t_hash T S)) info)) AStep = Some (at_pc S d fab force PReturn, []).
Proof. simpl. unfold proc_step. simpl. by rewrite decide_True. Qed.
Lemma hash_differs T S d fab force info h : t_hash T S <> h ->
  step T (at_pc S d fab force (PHash (Some h) info)) AStep = Some (at_pc S d fab force (PCopy (t_hash T S) info), []).
Proof. intros H. simpl. unfold proc_step. simpl. by rewrite decide_False. Qed.
Lemma interrupted_lem T A B i : hash_ok T -> enc_ok T -> A <> B -> exists e,
  exec T (idle A (warm T A i)) (interrupted i A B) =
    Some (at_pc A {| d_bin := Some {| b_src := B; b_fab := Some i |}; d_hash := Some (t_hash T A); d_ver := Some (t_enc T i) |} (Some i) false PReturn, e).
Proof.
  intros HT HE Hne.
  assert (Hd : t_hash T B <> t_hash T A). { intros E. apply Hne. symmetry. apply (HT B A (String.length (t_hash T B))). by rewrite sub_all. }
  unfold interrupted, steps, warm. cbn [replicate app]. eexists. go. go. go.
  eapply exec_cons; [by apply version_same|]; unfold at_pc. go. eapply exec_cons; [by apply hash_differs|]. go. go. go. go. go. go.
  eapply exec_cons; [by apply version_same|]; unfold at_pc. go. eapply exec_cons; [apply hash_same|]. reflexivity.
Qed.
Definition downgrade (i j : string) : list action := AStart (Some j) true :: steps 7 ++ AStart (Some i) false :: steps 4.
Lemma downgrade_lem T A i j : enc_ok T -> exists e,
  exec T (idle A (warm T A i)) (downgrade i j) =
    Some (at_pc A {| d_bin := Some {| b_src := A; b_fab := Some j |}; d_hash := Some (t_hash T A); d_ver := Some (t_enc T i) |} (Some i) false PReturn, e).
Proof.
  intros HE. unfold downgrade, steps, warm. cbn [replicate app]. eexists. do 8 go. go. go.
  eapply exec_cons; [by apply version_same|]; unfold at_pc. go. eapply exec_cons; [apply hash_same|]. reflexivity.
Qed.
Lemma stale_sources T A B i : hash_ok T -> enc_ok T -> A <> B -> exists acts s e s' b, exec T (idle A no_disk) acts = Some (s, e) /\
  step T s AStep = Some (s', [EvDriver (Some b)]) /\ s_src s = Some A /\ b_src b = B /\
  edits acts = [Some B; Some A] /\ (forall f fo, AStart f fo ∈ acts -> f = Some i /\ fo = false).
Proof.
  intros HT HE Hne. destruct (warm_lem T A i) as [e1 H1]. destruct (interrupted_lem T A B i HT HE Hne) as [e2 H2].
  exists (warm_up i ++ interrupted i A B). do 4 eexists. split; [apply exec_app; do 3 eexists; split; [exact H1|]; split; [exact H2|reflexivity]|]. split; [simpl; reflexivity|]. clear H1 H2. split_and!; [reflexivity..|].
  intros f fo Hin. assert (HF : Forall (fun a => match a with AStart f fo => f = Some i /\ fo = false | _ => True end) (warm_up i ++ interrupted i A B)) by (unfold warm_up, interrupted, steps; cbn [replicate app]; clear; repeat (apply Forall_cons_2; [repeat split|]); apply Forall_nil_2).
  rewrite Forall_forall in HF. exact (HF _ Hin).
Qed.
Lemma stale_version T A i j : enc_ok T -> exists acts s e s' b, exec T (idle A no_disk) acts = Some (s, e) /\
  step T s AStep = Some (s', [EvDriver (Some b)]) /\ (exists p, s_proc s = Some p /\ p_fab p = Some i) /\ b_fab b = Some j /\
  edits acts = [] /\ (forall n, ADie n ∉ acts) /\ starts acts = [Some i; Some i; Some j; Some i].
Proof.
  intros HE. destruct (warm_lem T A i) as [e1 H1]. destruct (downgrade_lem T A i j HE) as [e2 H2].
  exists (warm_up i ++ downgrade i j). do 4 eexists. split; [apply exec_app; do 3 eexists; split; [exact H1|]; split; [exact H2|reflexivity]|]. split; [simpl; reflexivity|]. clear H1 H2. split_and!; [eexists; split; reflexivity|reflexivity|reflexivity| |reflexivity].
  intros n Hin. assert (HF : Forall (fun a => match a with ADie _ => False | _ => True end) (warm_up i ++ downgrade i j)) by (unfold warm_up, downgrade, steps; cbn [replicate app]; clear; repeat (apply Forall_cons_2; [repeat split|]); apply Forall_nil_2).
  rewrite Forall_forall in HF. exact (HF _ Hin).
Qed.
Lemma run_ends T fab force S d : exists s' evs b, full_run T fab force (idle S d) s' evs (Some b) /\
  (compiles evs -> b_src b = S /\ b_fab b = fab).
Proof.
  destruct (full_run_ex T fab force S d) as (s' & evs & b & H). destruct (full_run_eq _ _ _ _ _ _ _ S H eq_refl) as (_ & _ & He & Hb).
  cbn [s_disk idle] in *. unfold after_run in *. destruct (verdict T fab force S d) as [info|] eqn:Ev.
  - simpl in *. subst. exists s', [EvCompiled {| b_src := S; b_fab := fab |}], {| b_src := S; b_fab := fab |}. done.
  - simpl in *. unfold verdict in Ev. destruct force; [done|]. destruct (d_bin d) as [b0|] eqn:Eb; [|done]. subst.
    exists s', [], b0. split; [done|]. intros (? & ?%elem_of_nil). done.
Qed.
