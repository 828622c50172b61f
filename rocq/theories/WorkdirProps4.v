(** C100 when even the package changes during the call (an editor saves a file).  Vocabulary:
    WorkdirSpec4.v.  What the driver is built from is then not known, but binfile is still never
    anything but whole. *)
From stdpp Require Import base gmap list strings relations.
From Verif Require Import PathModel CompileModel CompileSpec CompileProofs2 WorkdirModel WorkdirSpec WorkdirSpec4
  WorkdirProofs WorkdirProofs2 WorkdirProofs3 WorkdirProofs4 WorkdirProofs5 WorkdirProofs6 WorkdirProofs8 WorkdirProps.
Local Open Scope list_scope.

  (** Each step of the call changes nothing outside of its own new temporary directory, but for
      one that puts at binfile, at once, all that a successful go build made. *)
Theorem C100_hectic_touches T E name errors es pkgdir binfile fs0 fs ph fs' ph' :
    (forall l, c_order E l ≡ₚ l) -> proper fs0 ->
    rtc (hectic_step T pkgdir binfile (CompilePackage E name errors es)) (fs0, Started) (fs, ph) ->
    cstep T pkgdir binfile (CompilePackage E name errors es) (fs, ph) (fs', ph') ->
    fs' = fs \/ exists t, fresh T fs0 t /\ (outside t fs fs' \/ exists exe, build_output T exe /\ outside t (<[binfile := FFile exe]> fs) fs').
Proof.
  intros HE Hp H Hs. exact (hectic_touches T pkgdir binfile es fs0 (proper_temp T fs0 Hp) _ (right_lem E name errors es HE) fs ph fs' ph' H Hs).
Qed.
Print Assumptions C100_hectic_touches.

(** In the case of WorkdirProps.v someone removes the package when the call has begun: that is
    allowed, and what the call then does stays in its directory. *)
Example C100_hectic_case d' : CompilePackage w_env "_fab" 0 w_es = Some d' ->
  let fs := delete ["p"; "a.go"] (<[["tmp"; "fab1"] := FDir]> w_fs) in
  let ph := Working ["tmp"; "fab1"] (body (w_tools (fun _ => 0)) ["tmp"; "fab1"] ["p"] ["home"; "fab.bin"] d') in
  rtc (hectic_step (w_tools (fun _ => 0)) ["p"] ["home"; "fab.bin"] (CompilePackage w_env "_fab" 0 w_es)) (w_fs, Started) (fs, ph) /\
  exists fs' ph', cstep (w_tools (fun _ => 0)) ["p"] ["home"; "fab.bin"] (CompilePackage w_env "_fab" 0 w_es) (fs, ph) (fs', ph') /\ fs' <> fs.
Proof.
  intros Hd fs ph. split.
  - eapply rtc_l; [left; eapply c_temp; [exact Hd|right; vm_compute; reflexivity|]|].
    + split; [by exists "1"|]. intros p Hp. destruct (w_fs !! p) as [nd|] eqn:E; [exfalso|done].
      assert (H : map_Forall (fun p _ => ~ ["tmp"; "fab1"] `prefix_of` p) w_fs) by (apply (bool_decide_unpack _); vm_compute; exact I).
      exact (H p nd E Hp).
    + eapply rtc_l; [right; split|constructor]; [reflexivity|]. cbn [fst snd]. intros p Hp. apply lookup_delete_ne. intros <-.
      destruct Hp as [Hp|Hp]; apply prefix_cons_inv_1 in Hp; discriminate Hp.
  - destruct (body (w_tools (fun _ => 0)) ["tmp"; "fab1"] ["p"] ["home"; "fab.bin"] d') as [|o todo] eqn:E;
      [apply (f_equal length) in E; rewrite body_prework, app_length in E; simpl in E; lia|].
    assert (Ho : o = OMkdirAll ["tmp"; "fab1"; "fab"]) by (unfold body, populateFabDir_ops in E; simpl in E; by injection E as <- _).
    eexists _, _. split; [apply c_ok; rewrite Ho; apply s_mkdir|].
    + change (dirs_to ["tmp"; "fab1"; "fab"]) with [["tmp"]; ["tmp"; "fab1"]; ["tmp"; "fab1"; "fab"]].
      repeat (apply Forall_cons; split); [..|apply Forall_nil; exact I]; intros c Hc; vm_compute in Hc; discriminate Hc.
    + intros Ex. apply (f_equal (fun m : fsys => m !! ["tmp"; "fab1"; "fab"])) in Ex. vm_compute in Ex. discriminate Ex.
Qed.
