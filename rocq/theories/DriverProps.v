(** Properties C44 (the driver is up to date), C45 (no needless compilation), C46 (flags),
    C47 (directory hash).  Vocabulary: DriverSpec.v. *)
From stdpp Require Import base gmap list strings countable.
From Coq Require Import Ascii.
From Verif Require Import PathModel DriverModel DriverSpec DriverProofs DriverProofs2 DriverProofs3 DriverProofs4 DriverProofs5.
Local Open Scope list_scope.

(** ** C44.  A history of edits, deletions, runs of any versions of fab, forced or not, failures
    and crashes ([pre]); then a run of fab, during which the sources may be edited too
    ([post]), returns the driver.  If no contents of the sources ever came back after having
    been replaced, the driver was compiled from sources that were there during this run. *)
Theorem C44_sources_partial T s0 pre fab force post sp e1 s e2 s' b : hash_ok T -> nothing_yet s0 ->
  exec T s0 pre = Some (sp, e1) -> exec T sp (AStart fab force :: post) = Some (s, e2) -> (forall f fo, AStart f fo ∉ post) ->
  step T s AStep = Some (s', [EvDriver (Some b)]) -> no_return (s_src s0 :: edits (pre ++ post)) ->
  s_src sp = Some (b_src b) \/ AEdit (Some (b_src b)) ∈ post.
Proof. exact (sources_lem T s0 pre fab force post sp e1 s e2 s' b). Qed.
Print Assumptions C44_sources_partial.

(** If contents may come back, but no run dies and nobody edits the sources during a run, the
    driver returned was compiled from the current sources. *)
Theorem C44_sources_calm_partial T s0 acts s e s' b : hash_ok T -> nothing_yet s0 -> calm T s0 acts -> exec T s0 acts = Some (s, e) ->
  step T s AStep = Some (s', [EvDriver (Some b)]) -> s_src s = Some (b_src b).
Proof. exact (calm_lem T s0 acts s e s' b). Qed.
Print Assumptions C44_sources_calm_partial.

(** In any history, crashes and edits included, in which no version of fab came back after
    another one was run, the driver was compiled by the version that runs. *)
Theorem C44_version_partial T s0 pre fab force post sp e1 s e2 s' b : enc_ok T -> nothing_yet s0 ->
  exec T s0 pre = Some (sp, e1) -> exec T sp (AStart fab force :: post) = Some (s, e2) -> (forall f fo, AStart f fo ∉ post) ->
  step T s AStep = Some (s', [EvDriver (Some b)]) -> no_return (starts pre ++ [fab]) -> b_fab b = fab.
Proof. exact (version_lem T s0 pre fab force post sp e1 s e2 s' b). Qed.
Print Assumptions C44_version_partial.

(** If versions may come back, fab without build information among them, but no run dies or is
    forced, and nobody deletes the binary, the driver was compiled by the version that runs. *)
Theorem C44_version_orderly_partial T s0 acts s e s' b : enc_ok T -> nothing_yet s0 ->
  (forall n, ADie n ∉ acts) -> (forall f, AStart f true ∉ acts) -> ARemove FBin ∉ acts ->
  exec T s0 acts = Some (s, e) -> step T s AStep = Some (s', [EvDriver (Some b)]) -> exists p, s_proc s = Some p /\ b_fab b = p_fab p.
Proof. exact (orderly_lem T s0 acts s e s' b). Qed.
Print Assumptions C44_version_orderly_partial.

(** Both conditions are needed.  For any two contents A and B of the sources there is a history
    with one crash, in which A is changed to B and back, that ends with fab returning the
    driver compiled from B although the sources are A (one version, nothing forced). *)
Theorem C44_crash_revert_refuted T A B i : hash_ok T -> enc_ok T -> A <> B ->
  exists acts s e s' b, exec T (idle A no_disk) acts = Some (s, e) /\
    step T s AStep = Some (s', [EvDriver (Some b)]) /\ s_src s = Some A /\ b_src b = B /\
    edits acts = [Some B; Some A] /\ (forall f fo, AStart f fo ∈ acts -> f = Some i /\ fo = false).
Proof. exact (stale_sources T A B i). Qed.
Print Assumptions C44_crash_revert_refuted.

(** For any two versions i and j of fab there is a history without edits and crashes that
    ends with fab of version i returning the driver compiled by version j. *)
Theorem C44_downgrade_refuted T A i j : enc_ok T -> exists acts s e s' b, exec T (idle A no_disk) acts = Some (s, e) /\
  step T s AStep = Some (s', [EvDriver (Some b)]) /\ (exists p, s_proc s = Some p /\ p_fab p = Some i) /\ b_fab b = Some j /\
  edits acts = [] /\ (forall n, ADie n ∉ acts) /\ starts acts = [Some i; Some i; Some j; Some i].
Proof. exact (stale_version T A i j). Qed.
Print Assumptions C44_downgrade_refuted.

(** A complete run from whatever is on disk always ends by returning a driver that exists,
    compiled from the current sources if it compiled. *)
Theorem C44_run_ends T fab force S d : exists s' evs b, full_run T fab force (idle S d) s' evs (Some b) /\
  (compiles evs -> b_src b = S /\ b_fab b = fab).
Proof. exact (run_ends T fab force S d). Qed.
Print Assumptions C44_run_ends.

(** ** C45.  If there was a binary at the start of an unforced run, the next unforced one, of the same
    version and with the same sources, does not compile and changes nothing. *)
Theorem C45_again_partial T i s s1 evs1 b1 s2 evs2 b2 S : enc_ok T -> s_src s = Some S -> d_bin (s_disk s) <> None ->
  full_run T (Some i) false s s1 evs1 b1 -> full_run T (Some i) false s1 s2 evs2 b2 -> evs2 = [] /\ s2 = s1 /\ b2 = b1.
Proof. exact (again_lem T i s s1 evs1 b1 s2 evs2 b2 S). Qed.
Print Assumptions C45_again_partial.

(** But after a first run (no binary yet), or a forced one, if the version file was not there
    or is another version's, the next run always compiles again. *)
Theorem C45_first_refuted T i force s s1 evs1 b1 s2 evs2 b2 S : s_src s = Some S -> force = true \/ d_bin (s_disk s) = None ->
  (forall h, d_ver (s_disk s) = Some h -> t_dec T h <> Some i) ->
  full_run T (Some i) force s s1 evs1 b1 -> full_run T (Some i) false s1 s2 evs2 b2 -> compiles evs2.
Proof. exact (first_lem T i force s s1 evs1 b1 s2 evs2 b2 S). Qed.
Print Assumptions C45_first_refuted.

(** And a fab that cannot read its build information compiles every time. *)
Theorem C45_no_info_refuted T s s' evs b S : s_src s = Some S -> full_run T None false s s' evs b -> compiles evs.
Proof. exact (noinfo_lem T s s' evs b S). Qed.
Print Assumptions C45_no_info_refuted.

(** ** C46.  The driver sees the settings and arguments fab was given, if the first argument
    does not look like a flag ... *)
Theorem C46_flags_partial cache m : match m_args m with [] => True | s :: _ => ~ flaglike s end -> driver_main cache (driver_args m) = Some m.
Proof. exact (flags_lem cache m). Qed.
Print Assumptions C46_flags_partial.
(** ... which is so for every command line on which -- does not occur ... *)
Theorem C46_end_to_end_partial cache cache' top argv m : fab_main cache top argv = Some m -> "--" ∉ argv -> driver_main cache' (driver_args m) = Some m.
Proof. exact (end_to_end cache cache' top argv m). Qed.
Print Assumptions C46_end_to_end_partial.
(** ... but not always if it does: fab -- -n hands the driver a flag. *)
Theorem C46_terminator_refuted cache cache' top : exists m m', fab_main cache top ["--"; "-n"] = Some m /\ m_dryrun m = false /\ m_args m = ["-n"] /\
  driver_main cache' (driver_args m) = Some m' /\ m_dryrun m' = true /\ m_args m' = [].
Proof. exact (terminator_lem cache cache' top). Qed.
Print Assumptions C46_terminator_refuted.

(** ** C47.  [files]: names and contents. *)
Theorem C47_order H a b : NoDup ((fun f => Base f.1) <$> a) -> a ≡ₚ b -> dirhash H a = dirhash H b.
Proof. exact (dirhash_order H a b). Qed.
Print Assumptions C47_order.
Theorem C47_detects H a b : NoDup ((fun f => Base f.1) <$> a) -> NoDup ((fun f => Base f.1) <$> b) ->
  (forall x y, sha H x = sha H y -> x = y) -> (forall x y, json H x = json H y -> x = y) -> dirhash H a = dirhash H b ->
  forall n c, (exists f, f ∈ a /\ Base f.1 = n /\ f.2 = c) <-> (exists f, f ∈ b /\ Base f.1 = n /\ f.2 = c).
Proof. exact (dirhash_detects H a b). Qed.
Print Assumptions C47_detects.
(** The hash is a function of the map from base names to contents, and the premise of C44 on
    hashes follows if SHA-224 and the JSON encoding are injective and hashes are of one length. *)
Theorem C47_as_map H files : NoDup ((fun f => Base f.1) <$> files) ->
  dirhash H files = dh_hash H (sha H <$> (list_to_map ((fun f => (Base f.1, f.2)) <$> files) : gmap string string)).
Proof. exact (dirhash_map H files). Qed.
Print Assumptions C47_as_map.
Theorem C47_hash_ok H enc dec : (forall x y, sha H x = sha H y -> x = y) -> (forall x y, json H x = json H y -> x = y) ->
  (forall x y, String.length (sha H x) = String.length (sha H y)) ->
  hash_ok {| t_hash := fun s => dh_hash H (sha H <$> s); t_enc := enc; t_dec := dec |}.
Proof. exact (real_hash_ok H enc dec). Qed.
Print Assumptions C47_hash_ok.

(** ** Concrete cases.  Tools that meet the premises. *)
Fixpoint pos_str (p : positive) : string := match p with xH => "." | xO p => String "0" (pos_str p) | xI p => String "1" (pos_str p) end.
Fixpoint str_pos (s : string) : option positive :=
  match s with
  | String c EmptyString => if decide (c = "."%char) then Some xH else None
  | String c s => match str_pos s with None => None | Some p => if decide (c = "0"%char) then Some (xO p) else if decide (c = "1"%char) then Some (xI p) else None end
  | EmptyString => None
  end.
Definition ex_tools : tools := {| t_hash := fun s => pos_str (encode s); t_enc := fun i => pos_str (encode i);
  t_dec := fun s => match str_pos s with Some p => decode p | None => None end |}.
Lemma pos_str_prefix p : forall q n, substring 0 n (pos_str p) = pos_str q -> p = q.
Proof.
  induction p as [p IH|p IH|]; intros q n H; (destruct n as [|n]; [destruct q; simpl in H; discriminate H|]); destruct q as [q|q|]; simpl in H; try discriminate H.
  - injection H as H. f_equal. by eapply IH.
  - injection H as H. f_equal. by eapply IH.
  - done.
Qed.
Lemma pos_str_ne p : exists c s, pos_str p = String c s. Proof. destruct p; simpl; eauto. Qed.
Lemma str_pos_pos p : str_pos (pos_str p) = Some p.
Proof.
  induction p as [p IH|p IH|]; [| |done]; simpl; destruct (pos_str_ne p) as (c & s & E); rewrite E in *; by rewrite IH.
Qed.
Lemma str_pos_inv s : forall p, str_pos s = Some p -> s = pos_str p.
Proof.
  induction s as [|c s IH]; intros p H; [done|]. destruct s as [|c2 s].
  - simpl in H. destruct (decide (c = "."%char)) as [->|]; [|done]. by simplify_eq.
  - change (match str_pos (String c2 s) with None => None | Some p => if decide (c = "0"%char) then Some (xO p) else if decide (c = "1"%char) then Some (xI p) else None end = Some p) in H.
    destruct (str_pos (String c2 s)) as [q|] eqn:E; [|done]. rewrite (IH q eq_refl). repeat (destruct (decide _) as [->|]; [by simplify_eq|]). done.
Qed.
Example C44_tools_ok : hash_ok ex_tools /\ enc_ok ex_tools.
Proof.
  split; [|split].
  - intros a b n H. apply pos_str_prefix in H. by apply (inj encode) in H.
  - intros i. simpl. by rewrite str_pos_pos, decode_encode.
  - intros i j n H. simpl in H. destruct (str_pos (substring 0 n (pos_str (encode i)))) as [p|] eqn:E; [|done].
    apply str_pos_inv in E. apply pos_str_prefix in E as <-. rewrite decode_encode in H. by simplify_eq.
Qed.
Definition src1 : sources := {["a.go" := "package a"]}.
Definition src2 : sources := {["a.go" := "package a // new"]}.
(** Two runs, an edit, a run that dies after the compilation, another run: it returns the driver of the edited sources. *)
Definition ex_history : list action :=
  warm_up "1.0" ++ AEdit (Some src2) :: AStart (Some "1.0") false :: steps 6 ++ [ADie 0; AStart (Some "1.0") false] ++ steps 4.
Lemma edited_lem T A B i : enc_ok T -> t_hash T B <> t_hash T A ->
  exists s e, exec T (idle A (warm T A i)) (AEdit (Some B) :: AStart (Some i) false :: steps 6 ++ [ADie 0; AStart (Some i) false] ++ steps 8) =
    Some (at_pc B s (Some i) false PReturn, e) /\ d_bin s = Some {| b_src := B; b_fab := Some i |}.
Proof.
  intros HE Hd. unfold steps, warm. cbn [replicate app]. do 2 eexists. split.
  - go. go. go. eapply exec_cons; [by apply version_same|]; unfold at_pc. go. eapply exec_cons; [by apply hash_differs|]; unfold at_pc. go. go. go. go. go.
    eapply exec_cons; [by apply version_same|]; unfold at_pc. go. eapply exec_cons; [by apply hash_differs|]; unfold at_pc. go. go. go. go. reflexivity.
  - reflexivity.
Qed.
Example C44_ex : exists s e s' b, exec ex_tools (idle src1 no_disk) (ex_history ++ steps 4) = Some (s, e) /\ step ex_tools s AStep = Some (s', [EvDriver (Some b)]) /\ b_src b = src2.
Proof.
  destruct (warm_lem ex_tools src1 "1.0") as [e1 H1].
  assert (Hd : t_hash ex_tools src2 <> t_hash ex_tools src1).
  { intros E. assert (src2 = src1) as E2. { apply (proj1 C44_tools_ok src2 src1 (String.length (t_hash ex_tools src2))). by rewrite sub_all. }
    apply (f_equal (fun m => m !! "a.go")) in E2. vm_compute in E2. discriminate E2. }
  destruct (edited_lem ex_tools src1 src2 "1.0" (proj2 C44_tools_ok) Hd) as (d & e & H2 & Hb). do 4 eexists. split; [|split].
  - unfold ex_history. rewrite <- (assoc_L (++)). apply exec_app. do 3 eexists. split; [exact H1|]. split; [exact H2|reflexivity].
  - unfold at_pc. cbn [step s_proc p_pc s_disk]. rewrite Hb. reflexivity.
  - reflexivity.
Qed.
