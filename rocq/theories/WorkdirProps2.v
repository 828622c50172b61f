(** C100 when others use the file system at the same time: other runs of fab that build other
    drivers or the same one, and whoever runs, replaces or removes binfile meanwhile.  Vocabulary:
    WorkdirSpec2.v ([shared_step]: a step of the call, or a change by others of anything but its
    temporary directory and the package). *)
From stdpp Require Import base gmap list strings relations.
From Verif Require Import PathModel CompileModel CompileSpec CompileProofs2 WorkdirModel WorkdirSpec WorkdirSpec2
  WorkdirProofs WorkdirProofs2 WorkdirProofs3 WorkdirProofs4 WorkdirProofs5 WorkdirProofs6 WorkdirProps.
Local Open Scope list_scope.

Section props.
  Context (T : tools) (E : cenv) (name : string) (errors : nat) (es : list entry) (pkgdir binfile : path) (fs0 : fsys).
  Context (HE : forall l, c_order E l ≡ₚ l).
  Context (Hproper : proper fs0) (Hpkg : package_there fs0 pkgdir es) (Hemb : distinct_names (t_embeds T)).
  Local Notation d := (CompilePackage E name errors es).

  (** Each step of the call changes nothing outside of its own new temporary directory, whatever
      others do in between, but for one that puts at binfile, at once, all of what go build makes
      of exactly the right files. *)
Theorem C100_shared_touches fs ph fs' ph' : rtc (shared_step T pkgdir binfile es d) (fs0, Started) (fs, ph) ->
    cstep T pkgdir binfile d (fs, ph) (fs', ph') ->
    fs' = fs \/ exists t, fresh T fs0 t /\
      (outside t fs fs' \/ exists d' exe, d = Some d' /\ built_from T es d' exe /\ outside t (<[binfile := FFile exe]> fs) fs').
  Proof.
    intros H Hs. destruct (step_touches T pkgdir binfile es fs0 (proper_temp T fs0 Hproper) Hpkg Hemb d fs ph fs' ph' (right_lem E name errors es HE) H Hs) as [?|(t & ? & _ & [?|(d' & exe & ? & ? & _ & _ & ?)])];
      [by left| |]; right; exists t; (split; [done|]); [by left|right; by exists d', exe].
  Qed.

  (** If it returns nil there was such a step, whatever others did. *)
Theorem C100_shared_success fs : rtc (shared_step T pkgdir binfile es d) (fs0, Started) (fs, Finished true) ->
    exists c fs1 fs2 c' t d' exe, rtc (shared_step T pkgdir binfile es d) (fs0, Started) (fs1, c) /\
      cstep T pkgdir binfile d (fs1, c) (fs2, c') /\ rtc (shared_step T pkgdir binfile es d) (fs2, c') (fs, Finished true) /\
      fresh T fs0 t /\ d = Some d' /\ built_from T es d' exe /\ outside t (<[binfile := FFile exe]> fs1) fs2.
  Proof.
    intros H. pose proof (right_lem E name errors es HE) as Hr.
    destruct (success_replaced T pkgdir binfile es fs0 d _ Hr H I) as (t & fs1 & fs2 & H1 & Hs & H2).
    destruct (rename_replaces T pkgdir binfile es fs0 (proper_temp T fs0 Hproper) Hpkg Hemb d t fs1 fs2 Hr H1 Hs) as (Hf & d' & exe & ? & ? & ?).
    by exists (Working t [ORename (t ++ ["x"]) binfile]), fs1, fs2, (Working t []), t, d', exe.
  Qed.
End props.
Print Assumptions C100_shared_touches.
Print Assumptions C100_shared_success.

(** The case of WorkdirProps.v: it succeeds, and someone else puts another file there later. *)
Example C100_shared_case : exists fs, fs !! ["home"; "fab.bin"] = Some (FFile "another") /\
  rtc (shared_step (w_tools (fun _ => 0)) ["p"] ["home"; "fab.bin"] w_es (CompilePackage w_env "_fab" 0 w_es)) (w_fs, Started) (fs, Finished true) /\
  exists fs1 fs2 c c' t d' exe, CompilePackage w_env "_fab" 0 w_es = Some d' /\ built_from (w_tools (fun _ => 0)) w_es d' exe /\
    cstep (w_tools (fun _ => 0)) ["p"] ["home"; "fab.bin"] (CompilePackage w_env "_fab" 0 w_es) (fs1, c) (fs2, c') /\
    fresh (w_tools (fun _ => 0)) w_fs t /\ outside t (<[["home"; "fab.bin"] := FFile exe]> fs1) fs2.
Proof.
  destruct C100_case as (d & exe & Hd & Hb & Hr). exists (<[["home"; "fab.bin"] := FFile "another"]> (<[["home"; "fab.bin"] := FFile exe]> w_fs)).
  rewrite lookup_insert. split; [done|].
  match goal with |- ?P /\ _ => assert (H : P) end.
  { eapply rtc_r; [eapply rtc_subrel; [|exact Hr]; by left|]. right. by split. }
  split; [exact H|].
  destruct (C100_shared_success (w_tools (fun _ => 0)) w_env "_fab" 0 w_es ["p"] ["home"; "fab.bin"] w_fs (fun l => Permutation_refl l) w_proper w_package (w_distinct _) _ H)
    as (c & fs1 & fs2 & c' & t & d' & exe' & _ & Hs & _ & Hf & Hd' & Hb' & Ho).
  by exists fs1, fs2, c, c', t, d', exe'.
Qed.
