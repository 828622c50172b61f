(** C94: fab processes that run at the same time in one project, with one fab directory. *)
From stdpp Require Import base gmap list strings.
From Verif Require Import DriverModel DriverSpec DriverProps FleetModel FleetSpec FleetProofs FleetProofs2 FleetProofs3 FleetProofs4.
Local Open Scope list_scope.

(** Any number of processes, interleaved in any way, killed anywhere except between replacing the
    binary and opening the hash file (or anywhere at all if contents that were replaced do not come
    back), any files of the directory removed at any time: if the sources are edited only while no
    process is at it, each process executes a driver made from the sources as they are. *)
Theorem C94_sources_partial (T : tools) s0 acts s e id s' b : hash_ok T -> nothing_there s0 -> cexec T s0 acts = Some (s, e) ->
  always T s0 acts edits_when_idle ->
  always T s0 acts no_death_between \/ no_return (c_src s0 :: cedits acts) ->
  gets T s id s' (Some b) -> c_src s = Some (b_src b).
Proof. intros HT. exact (right_sources T HT s0 acts s e id s' b). Qed.
Print Assumptions C94_sources_partial.

(** If the processes that run at the same time are of one version of fab, and versions that were
    replaced do not come back, each process executes a driver made by its own version. *)
Theorem C94_version_partial (T : tools) s0 acts s e id s' b : enc_ok T -> nothing_there s0 -> cexec T s0 acts = Some (s, e) ->
  always T s0 acts one_version -> no_return (cstarts acts) ->
  gets T s id s' (Some b) -> exists p, c_procs s !! id = Some p /\ b_fab b = p_fab p.
Proof. intros HT. exact (right_version T HT s0 acts s e id s' b). Qed.
Print Assumptions C94_version_partial.

(** In every history: what is executed is one whole binary that one of the processes compiled, from
    contents the sources really had, with a version of fab that was really started. *)
Theorem C94_binary_is_whole (T : tools) s0 acts s e id s' b : nothing_there s0 -> cexec T s0 acts = Some (s, e) -> gets T s id s' (Some b) ->
  (exists id', (id', EvCompiled b) ∈ e) /\ was_source s0 acts (b_src b) /\ b_fab b ∈ cstarts acts.
Proof.
  intros H0 Hx [l Hs]. destruct (made_all T s0 acts s e H0 Hx) as [_ Hb]. apply Hb. apply cstep_happens in Hs.
  inversion Hs as [| | |id' l' p Hid Hr E1 E2 Eb| |id' l' p d pc evs Hid Hr He E1 E2 E3|]; subst; [done|destruct He; discriminate].
Qed.
Print Assumptions C94_binary_is_whole.

(** Unless somebody deletes the binary, there is one to execute whenever getDriver succeeds. *)
Theorem C94_driver_exists (T : tools) s0 acts s e id s' b : nothing_there s0 -> CRemove FBin ∉ acts -> cexec T s0 acts = Some (s, e) ->
  gets T s id s' b -> b <> None.
Proof.
  intros H0 Hnr Hx [l Hs]. pose proof (has_all T s0 acts s e H0 Hnr Hx) as Hp. apply cstep_happens in Hs.
  inversion Hs as [| | |id' l' p Hid Hr E1 E2 Eb| |id' l' p d pc evs Hid Hr He E1 E2 E3|]; subst; [|destruct He; discriminate].
  specialize (Hp _ _ Hid). by rewrite Hr in Hp.
Qed.
Print Assumptions C94_driver_exists.

(** No process ever waits for another, and none needs more than eleven steps, whatever the others do. *)
Theorem C94_never_waits (T : tools) : (forall s id l p, c_procs s !! id = Some p -> exists s' e, cstep T s (CStep id l) = Some (s', e)) /\
  forall s id f fo acts s' e, c_procs s !! id = None -> (forall f' fo', CStart id f' fo' ∉ acts) -> cexec T s (CStart id f fo :: acts) = Some (s', e) ->
    length (own_steps id acts) <= 11.
Proof.
  split; [intros s id l p; exact (can_step T s id l p)|]. intros s id f fo acts s' e Hid Hns Hx. cbn [cexec] in Hx.
  destruct (cstep T s (CStart id f fo)) as [[s1 e1]|] eqn:Es; [|done]. destruct (cexec T s1 acts) as [[s2 e2]|] eqn:Ex; [|done].
  simpl in Es. rewrite Hid in Es. injection Es as <- <-.
  assert (Hp : c_procs {| c_src := c_src s; c_disk := c_disk s; c_procs := <[id:={| p_fab := f; p_force := fo; p_pc := PStat |}]> (c_procs s) |} !! id = Some {| p_fab := f; p_force := fo; p_pc := PStat |}) by (simpl; by rewrite lookup_insert).
  pose proof (steps_bound T acts _ _ _ id _ Hp Hns Ex) as H. exact H.
Qed.
Print Assumptions C94_never_waits.

(** Without the condition on edits the claim is false, and for good: after two runs that overlap
    with an edit (none dies, nothing is removed, one version, no -f, contents do not come back), all
    are finished, and every later run takes the driver of the old contents for up to date. *)
Theorem C94_sources_refuted (T : tools) Z A B i : hash_ok T -> enc_ok T -> A <> B -> A <> Z -> B <> Z ->
  exists acts s e, cexec T {| c_src := Some Z; c_disk := {| d_bin := None; d_hash := None; d_ver := None |}; c_procs := ∅ |} acts = Some (s, e) /\
    cedits acts = [Some A; Some B] /\ (forall id n, CDie id n ∉ acts) /\ (forall fl, CRemove fl ∉ acts) /\ (forall id l, CStep id l ∈ acts -> l = false) /\
    (forall id g fo, CStart id g fo ∈ acts -> g = Some i /\ fo = false) /\
    c_procs s = ∅ /\ c_src s = Some B /\
    forall id, exists s1 e1 b, cexec T s (CStart id (Some i) false :: replicate 4 (CStep id false)) = Some (s1, e1) /\ gets T s1 id s (Some b) /\ b_src b = A.
Proof. exact (overlap_stale T Z A B i). Qed.
Print Assumptions C94_sources_refuted.

(** ** A case: two processes in step, one killed while it writes the hash, the hash file removed, an
    edit, two more processes of which one is killed after its compilation was decided. *)
Fixpoint check (T : tools) (Pb : fleet -> cact -> bool) (s : fleet) (acts : list cact) : bool :=
  match acts with
  | [] => true
  | a :: acts => Pb s a && match cstep T s a with Some (s', _) => check T Pb s' acts | None => true end
  end.
Lemma check_always T (P : fleet -> cact -> Prop) Pb : (forall s a, Pb s a = true -> P s a) -> forall acts s0, check T Pb s0 acts = true -> always T s0 acts P.
Proof.
  intros HP. induction acts as [|a acts IH]; intros s0 H p a' q s e E Hx; [by destruct p|].
  simpl in H. apply andb_prop in H as [H1 H2]. destruct p as [|a0 p].
  - injection E as <- <-. injection Hx as <- <-. by apply HP.
  - injection E as <- E. simpl in Hx. destruct (cstep T s0 a) as [[s1 e1]|] eqn:Es; [|done].
    destruct (cexec T s1 p) as [[s2 e2]|] eqn:Ex; [|done]. injection Hx as <- <-. by apply (IH s1 H2 p a' q s2 e2).
Qed.
Definition idleb (s : fleet) (a : cact) : bool := match a with CEdit _ => Nat.eqb (size (c_procs s)) 0 | _ => true end.
Definition betweenb (s : fleet) (a : cact) : bool :=
  match a with CDie id _ => match c_procs s !! id with Some p => match p_pc p with PTruncHash _ _ => false | _ => true end | None => true end | _ => true end.
Definition versionb (s : fleet) (a : cact) : bool := match a with CStart _ f _ => forallb (fun x => bool_decide (p_fab x.2 = f)) (map_to_list (c_procs s)) | _ => true end.
Lemma idleb_ok s a : idleb s a = true -> edits_when_idle s a.
Proof. intros H x ->. apply map_size_empty_iff. by apply Nat.eqb_eq. Qed.
Lemma betweenb_ok s a : betweenb s a = true -> no_death_between s a.
Proof. intros H id n p h i -> Hi E. simpl in H. by rewrite Hi, E in H. Qed.
Lemma versionb_ok s a : versionb s a = true -> one_version s a.
Proof.
  intros H id f fo id' p -> Hi. simpl in H. rewrite forallb_forall in H.
  specialize (H (id', p)). rewrite <- elem_of_list_In, elem_of_map_to_list in H. by apply bool_decide_eq_true in H.
Qed.
Definition both (n : nat) : list cact := concat (replicate n [CStep 0 false; CStep 1 false]).
Definition ex_fleet : list cact :=
  [CStart 0 (Some "1.0") false; CStart 1 (Some "1.0") true] ++ both 5 ++ [CDie 0 3; CStep 1 false; CRemove FHash; CStep 1 false] ++
  [CEdit (Some src2); CStart 2 (Some "1.1") false; CStart 3 (Some "1.1") false] ++ concat (replicate 3 [CStep 2 false; CStep 3 false]) ++ [CDie 2 0] ++ replicate 6 (CStep 3 false).
Definition start0 : fleet := {| c_src := Some src1; c_disk := {| d_bin := None; d_hash := None; d_ver := None |}; c_procs := ∅ |}.
Definition now (o : option (fleet * list (nat * event))) : option (option proc * option (sources * binary)) :=
  match o with
  | Some (s, _) => Some (c_procs s !! 3, match c_src s, d_bin (c_disk s) with Some x, Some b => Some (x, b) | _, _ => None end)
  | None => None
  end.
Lemma ex_now : now (cexec ex_tools start0 ex_fleet) = Some (Some {| p_fab := Some "1.1"; p_force := false; p_pc := PReturn |}, Some (src2, {| b_src := src2; b_fab := Some "1.1" |})).
Proof. vm_compute. reflexivity. Qed.
Lemma ex_checks : check ex_tools idleb start0 ex_fleet = true /\ check ex_tools betweenb start0 ex_fleet = true /\ check ex_tools versionb start0 ex_fleet = true.
Proof. vm_compute. done. Qed.
Example C94_case : hash_ok ex_tools /\ enc_ok ex_tools /\ nothing_there start0 /\ always ex_tools start0 ex_fleet edits_when_idle /\
  always ex_tools start0 ex_fleet no_death_between /\ always ex_tools start0 ex_fleet one_version /\ no_return (cstarts ex_fleet) /\ no_return (c_src start0 :: cedits ex_fleet) /\
  CRemove FBin ∉ ex_fleet /\
  exists s e s' b, cexec ex_tools start0 ex_fleet = Some (s, e) /\ gets ex_tools s 3 s' (Some b) /\ b = {| b_src := src2; b_fab := Some "1.1" |}.
Proof.
  destruct C44_tools_ok as [H1 H2]. destruct ex_checks as (K1 & K2 & K3). split; [exact H1|]. split; [exact H2|]. split; [split; [reflexivity|split; [reflexivity|split; reflexivity]]|].
  split; [exact (check_always ex_tools edits_when_idle idleb idleb_ok ex_fleet start0 K1)|].
  split; [exact (check_always ex_tools no_death_between betweenb betweenb_ok ex_fleet start0 K2)|].
  split; [exact (check_always ex_tools one_version versionb versionb_ok ex_fleet start0 K3)|].
  clear H1 H2 K1 K2 K3. split; [|split; [|split]].
  - intros i j k x Hij Hjk Hi Hk. change (cstarts ex_fleet) with [Some "1.0"; Some "1.0"; Some "1.1"; Some "1.1"] in *.
    destruct i as [|[|[|[|i]]]], k as [|[|[|[|k]]]], j as [|[|[|[|j]]]]; simpl in *; try lia; try congruence; done.
  - intros i j k x Hij Hjk Hi Hk. change (c_src start0 :: cedits ex_fleet) with [Some src1; Some src2] in *.
    destruct i as [|[|i]], k as [|[|k]], j as [|[|j]]; simpl in *; try lia; try congruence; done.
  - intros H. apply elem_of_list_In in H. simpl in H. repeat (destruct H as [H|H]; [discriminate H|]). exact H.
  - pose proof ex_now as En. destruct (cexec ex_tools start0 ex_fleet) as [[s e]|]; [|discriminate En]. simpl in En. injection En as Ep Es.
    destruct (c_src s) as [x|] eqn:Ec; [|discriminate Es]. destruct (d_bin (c_disk s)) as [b|] eqn:Eb; [|discriminate Es]. injection Es as _ ->.
    eexists s, e, _, _. split; [done|]. split; [|reflexivity]. exists false. simpl. rewrite Ep. simpl. rewrite Eb. reflexivity.
Qed.
(** The refutation is of a case there is: three different contents. *)
Example C94_refuted_case : exists acts s e, cexec ex_tools start0 acts = Some (s, e) /\ c_procs s = ∅ /\
  forall id, exists s1 e1 b, cexec ex_tools s (CStart id (Some "1.0") false :: replicate 4 (CStep id false)) = Some (s1, e1) /\ gets ex_tools s1 id s (Some b) /\ c_src s <> Some (b_src b).
Proof.
  assert (D : forall a b : sources, bool_decide (a = b) = false -> a <> b) by (intros a b H; by apply bool_decide_eq_false in H).
  destruct (C94_sources_refuted ex_tools src1 src2 ∅ "1.0" (proj1 C44_tools_ok) (proj2 C44_tools_ok)) as (acts & s & e & Hx & _ & _ & _ & _ & _ & Hp & Hs & Hl);
    [apply D; vm_compute; reflexivity..|].
  exists acts, s, e. split; [done|]. split; [done|]. intros id. destruct (Hl id) as (s1 & e1 & b & H1 & H2 & H3). exists s1, e1, b. split; [done|]. split; [done|].
  rewrite Hs, H3. discriminate.
Qed.
