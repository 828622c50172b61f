(** C100: what CompilePackage does to the file system (compile.go:79-251), whatever fails and
    whenever the process is killed.  Vocabulary: WorkdirSpec.v.  [es]: the package, which is in
    [pkgdir]; an execution: [cstep] from [Started]; every state of it is one in which the process
    may be killed. *)
From stdpp Require Import base gmap list strings relations.
From Verif Require Import PathModel CompileModel CompileSpec CompileProofs2 WorkdirModel WorkdirSpec
  WorkdirProofs WorkdirProofs2 WorkdirProofs3 WorkdirProofs4 WorkdirProofs5.
Local Open Scope list_scope.

Section props.
  Context (T : tools) (E : cenv) (name : string) (errors : nat) (es : list entry) (pkgdir binfile : path) (fs0 : fsys).
  Context (HE : forall l, c_order E l ≡ₚ l).
  Context (Hproper : proper fs0) (Hpkg : package_there fs0 pkgdir es) (Hemb : distinct_names (t_embeds T)) (Hbin : is_dir fs0 (parent binfile)).
  Local Notation d := (CompilePackage E name errors es).

  Lemma right_lem d' : d = Some d' -> right_files es d'.
  Proof. intros H. exact (copies_lem E HE name errors es d' H). Qed.
  Lemma good_lem c : rtc (cstep T pkgdir binfile d) (fs0, Started) c -> good T pkgdir binfile es fs0 d c.
  Proof. apply good_run; try done; [exact (proper_temp T fs0 Hproper)|exact right_lem]. Qed.

  (** At every moment nothing has changed outside of one new temporary directory, but for
      binfile, which is as it was or is all of the new driver: what go build makes of exactly
      the right files. *)
Theorem C100_binary_whole fs ph : rtc (cstep T pkgdir binfile d) (fs0, Started) (fs, ph) ->
    fs = fs0 \/ exists t, fresh T fs0 t /\
      (outside t fs0 fs \/ exists d' exe, d = Some d' /\ built_from T es d' exe /\ outside t (<[binfile := FFile exe]> fs0) fs).
  Proof.
    intros H. apply good_lem in H. unfold good in H. cbn [fst snd] in H. destruct ph as [|t todo|t ok|ok].
    - by left.
    - right. destruct H as (d' & Hd & Hst & dn & Eb & Hok). exists t. split; [apply Hst|]. destruct todo as [|o todo].
      + right. rewrite app_nil_r in Eb. subst dn. destruct (whole_body T pkgdir binfile es fs0 (proper_temp T fs0 Hproper) Hpkg Hemb d' t fs (right_lem d' Hd) Hst Hok) as (exe & ? & ? & _).
        by exists d', exe.
      + left. eapply outside_trans; [apply start_outside|]. eapply insides_ok; [by apply (anc_start T fs0 (proper_temp T fs0 Hproper) t); destruct Hst|by eapply before_end|done].
    - right. exists t. destruct ok; [|by destruct H as [[_ ?] ?]; split; [|left]]. destruct H as (d' & Hd & Hst & exe & ? & ? & _).
      split; [apply Hst|]. right. by exists d', exe.
    - destruct ok; [|destruct H as [?|(t & [_ ?] & ?)]; [by left|right; exists t; by split; [|left]]]. destruct H as (d' & t & Hd & Hst & exe & ? & ? & _).
      right. exists t. split; [apply Hst|]. right. by exists d', exe.
  Qed.

  (** If it returns nil, the new driver is there ... *)
Theorem C100_success fs : rtc (cstep T pkgdir binfile d) (fs0, Started) (fs, Finished true) ->
    exists t d' exe, fresh T fs0 t /\ d = Some d' /\ built_from T es d' exe /\ outside t (<[binfile := FFile exe]> fs0) fs.
  Proof. intros H. apply good_lem in H. destruct H as (d' & t & Hd & Hst & exe & ? & ? & _). exists t, d', exe. split; [apply Hst|done]. Qed.

  (** ... and if it returns an error, binfile, the package and everything else are as they were;
      once the temporary directory is gone nothing is left of the call. *)
Theorem C100_failure_harmless fs : rtc (cstep T pkgdir binfile d) (fs0, Started) (fs, Finished false) ->
    fs = fs0 \/ exists t, fresh T fs0 t /\ outside t fs0 fs /\ ((forall p, t `prefix_of` p -> fs !! p = None) -> fs = fs0).
  Proof.
    intros H. apply good_lem in H. destruct H as [?|(t & [_ Hf] & Ho)]; [by left|]. right. exists t. split; [done|]. split; [done|].
    intros Hn. apply map_eq. intros p. destruct (decide (t `prefix_of` p)) as [Hp|Hp]; [|by apply Ho]. rewrite Hn by done. symmetry. by apply Hf.
  Qed.

  (** Nothing of what it writes is in the way of anything else it writes: it can succeed whenever
      the go commands do, binfile is not a directory, and the temporary directory is on the file
      system of binfile.  Then only binfile changes. *)
Theorem C100_can_succeed t d' m m' : d = Some d' -> is_dir fs0 (t_tempdir T) -> fresh T fs0 t ->
    t_addreplace T (t_modinit T) = Some m -> t_tidied T m m' ->
    (forall tree, (forall q c, q <> ["go.mod"] -> q <> ["go.sum"] -> (tree q = Some (FFile c) <-> source T es d' q c)) -> is_Some (t_build T tree)) ->
    binfile <> [] -> binfile <> t -> fs0 !! binfile <> Some FDir -> t_dev T t = t_dev T (parent binfile) ->
    exists exe, built_from T es d' exe /\ rtc (cstep T pkgdir binfile d) (fs0, Started) (<[binfile := FFile exe]> fs0, Finished true).
  Proof.
    intros Hd. intros. rewrite Hd. eapply (run_can T pkgdir binfile es fs0 (proper_temp T fs0 Hproper) Hpkg Hemb Hbin d' t m m'); try done; [|by apply right_lem].
    by destruct (compile_inv E HE name errors es d' Hd) as (_ & ? & _).
  Qed.

  (** On another file system it never does, since os.Rename cannot move files between file
      systems: with TMPDIR or /tmp on a file system of its own fab cannot build any driver. *)
Theorem C100_other_device_refuted fs : (forall s, t_dev T (t_tempdir T ++ [s]) <> t_dev T (parent binfile)) ->
    ~ rtc (cstep T pkgdir binfile d) (fs0, Started) (fs, Finished true).
  Proof.
    intros Hdev H. apply good_lem in H. destruct H as (d' & t & Hd & [_ [(s & ->) _]] & exe & _ & _ & Ex). by eapply Hdev.
  Qed.

End props.
Print Assumptions C100_binary_whole.
Print Assumptions C100_success.
Print Assumptions C100_failure_harmless.
Print Assumptions C100_can_succeed.
Print Assumptions C100_other_device_refuted.

(** ** A case: the package of C55 ... *)
Definition w_es : list entry :=
  [ {| e_name := "a.go"; e_isdir := false; e_content := "package _fab ..."; e_pkg := "_fab"; e_active := true;
       e_decls := [DVar "Build builds."  [{| v_names := ["Build"]; v_type := None; v_doc := "" |}]] |};
    {| e_name := "a_test.go"; e_isdir := false; e_content := "package _fab"; e_pkg := "_fab"; e_active := true; e_decls := [] |};
    {| e_name := "sub"; e_isdir := true; e_content := ""; e_pkg := ""; e_active := false; e_decls := [] |} ].
Definition w_env : cenv := {| c_impl := fun n => bool_decide (n = "Build"); c_text := fun s => s; c_order := fun l => l; c_tools := true |}.
Definition w_tools (dev : path -> nat) : tools :=
  {| t_tempdir := ["tmp"]; t_dev := dev; t_embeds := [EFile "fab.go" "package fab"; EFile "fab_test.go" "x"; EDir "sqlite" [EFile "db.go" "package sqlite"]];
     t_render := fun d => "driver of " +:+ d_subpkg d; t_modinit := "module x"; t_addreplace := fun s => Some (s +:+ " replace"); t_tidied := fun a b => b = a +:+ " require";
     t_build := fun tree => match tree ["driver.go"], tree ["pkg"; "_fab"; "a.go"] with Some (FFile c), Some (FFile c') => Some (c +:+ c') | _, _ => None end |}.
Definition w_fs : fsys :=
  {[ ["tmp"] := FDir; ["p"] := FDir; ["p"; "a.go"] := FFile "package _fab ..."; ["p"; "a_test.go"] := FFile "package _fab"; ["p"; "sub"] := FDir;
     ["home"] := FDir; ["home"; "fab.bin"] := FFile "old" ]}.
Lemma w_proper : proper w_fs.
Proof.
  assert (H : map_Forall (fun p _ => is_dir w_fs (parent p)) w_fs) by (apply (bool_decide_unpack _); vm_compute; exact I).
  intros p nd E. exact (H p nd E).
Qed.
Lemma w_package : package_there w_fs ["p"] w_es.
Proof.
  split; [right; reflexivity|]. split; [apply (bool_decide_unpack _); vm_compute; exact I|].
  intros e He Hd. repeat (apply elem_of_cons in He as [->|He]; [first [reflexivity|discriminate Hd]|]). by apply elem_of_nil in He.
Qed.
Lemma w_distinct dev : distinct_names (t_embeds (w_tools dev)).
Proof.
  constructor; [apply (bool_decide_unpack _); vm_compute; exact I|]. intros n ch H. simpl in H.
  repeat (apply elem_of_cons in H as [H|H]; [first [discriminate H|injection H as -> ->]|]); [|by apply elem_of_nil in H].
  constructor; [apply (bool_decide_unpack _); vm_compute; exact I|]. intros n' ch' H'. apply elem_of_list_singleton in H'. discriminate H'.
Qed.
Lemma w_fresh dev : fresh (w_tools dev) w_fs ["tmp"; "fab123"].
Proof.
  split; [by exists "123"|]. intros p Hp. destruct (w_fs !! p) as [nd|] eqn:E; [exfalso|done].
  assert (H : map_Forall (fun p _ => ~ ["tmp"; "fab123"] `prefix_of` p) w_fs) by (apply (bool_decide_unpack _); vm_compute; exact I).
  exact (H p nd E Hp).
Qed.
(** ... is compiled if everything is on one file system, *)
Example C100_case : exists d exe, CompilePackage w_env "_fab" 0 w_es = Some d /\ built_from (w_tools (fun _ => 0)) w_es d exe /\
  rtc (cstep (w_tools (fun _ => 0)) ["p"] ["home"; "fab.bin"] (CompilePackage w_env "_fab" 0 w_es)) (w_fs, Started)
    (<[["home"; "fab.bin"] := FFile exe]> w_fs, Finished true).
Proof.
  destruct (CompilePackage w_env "_fab" 0 w_es) as [d|] eqn:Hd; [|vm_compute in Hd; discriminate Hd]. exists d.
  pose proof (C100_can_succeed (w_tools (fun _ => 0)) w_env "_fab" 0 w_es ["p"] ["home"; "fab.bin"] w_fs (fun l => Permutation_refl l) w_proper w_package (w_distinct _)
    (or_intror eq_refl) ["tmp"; "fab123"] d "module x replace" "module x replace require" Hd (or_intror eq_refl) (w_fresh _) eq_refl eq_refl) as H.
  rewrite Hd in H. destruct H as (exe & ? & ?); try done; [|by exists exe].
  intros tree Ht. simpl. assert (H1 : tree ["driver.go"] = Some (FFile (t_render (w_tools (fun _ => 0)) d))) by (apply Ht; [done|done|by right; right]).
  assert (d_subpkg d = "_fab") as Es by (vm_compute in Hd; by injection Hd as <-).
  assert (H2 : tree ["pkg"; "_fab"; "a.go"] = Some (FFile "package _fab ...")).
  { apply Ht; [done|done|]. right. left. eexists. split; [left|]. split; [split; [done|by exists "a"]|]. split; [|by rewrite Es].
    intros H%CompileProofs.has_suffix_spec. vm_compute in H. discriminate H. }
  rewrite H1, H2. done.
Qed.
(** and it never is if /tmp is on another file system. *)
Example C100_case_device fs : ~ rtc (cstep (w_tools (fun p => match p with "tmp" :: _ => 1 | _ => 0 end)) ["p"] ["home"; "fab.bin"]
  (CompilePackage w_env "_fab" 0 w_es)) (w_fs, Started) (fs, Finished true).
Proof.
  apply C100_other_device_refuted; first [exact w_proper|exact w_package|apply w_distinct|done].
Qed.
