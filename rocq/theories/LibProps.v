(** C67-C71: the targets !Clean, !go.Binary, !proto.Proto, !ts.Decls and the lists !go.Deps,
    !proto.Deps.  Vocabulary: LibSpec.v.  [top] is the project's top directory, [dir] the
    directory of the YAML file, [reg] the autoclean registry before; the string-list functions,
    the decoding of scalars, the dependencies of Go packages and the file system are
    arbitrary. *)
From stdpp Require Import base gmap fin_sets list strings sorting.
From Verif Require Import PathModel PathSpec PathProofs PathProofs2 PathProofs3 PathProofs4 StrOrd YamlModel YamlSpec FilesModel FilesSpec LibModel LibSpec LibProofs.
From Verif Require GoDepsModel FilesProofs4 FilesProofs7 FilesProofs9 FilesProps ProtoModel ProtoSpec ProtoProofs ProtoProps YamlProps CleanModel CleanSpec CleanProofs CleanProps.
Local Open Scope list_scope.

(** ** C67.  !go.Binary: the Files target runs go build in the package directory, its inputs
    are the package's files, its only output is the file named by Out, which is also where
    go build is told to put the program, whatever the working directory; and the output is
    registered for cleaning. *)
Theorem C67_decoded top fns ystr godeps n dir reg reg' t :
  IsAbs top = true -> binaryDecoder top fns ystr godeps n dir reg = TOk reg' t ->
  exists flds bDir bOut flags d o r ins,
    decode_struct n = Some flds /\ text ystr flds "Dir" bDir /\ text ystr flds "Out" bOut /\
    YAMLStringList fns (field "Flags" flds) dir = LOk flags /\
    d = abs_path (there [] top dir bDir) /\
    o = abs_path (there [] top dir (if decide (bOut = "") then Base bDir else bOut)) /\
    t = LFiles (SubCmd "go" (["build"; "-C"; d; "-o"; r] ++ flags ++ ["."])) ins [o] /\
    (forall w, cd (cd w d) r = cd w o) /\
    godeps d false false = GoDepsModel.DepsOk ins /\ reg' = reg ∪ {[o]}.
Proof.
  intros Ha H. apply binary_decoder_ok in H; [|done].
  destruct H as (flds & bDir & bOut & flags & d & o & r & ins & H1 & H2 & H3 & H4 & -> & -> & H5 & H6 & -> & ->).
  rewrite !joinpath_eq in * by done. exists flds, bDir, bOut, flags. eexists _, _, r, ins.
  split; [exact H1|]. split; [exact H2|]. split; [exact H3|]. split; [exact H4|]. split; [reflexivity|]. split; [reflexivity|].
  split; [reflexivity|]. split; [|done]. intros w. destruct (binary_rel (abs_path (there [] top dir bDir)) (abs_path (there [] top dir (if decide (bOut = "") then Base bDir else bOut))) w) as (r' & Hr & Hcd); [done|done|].
  rewrite Hr in H5. injection H5 as ->. exact Hcd.
Qed.
Print Assumptions C67_decoded.

(** It fails only if a field is of the wrong kind, the flags are wrong, or the package's
    dependencies cannot be found. *)
Theorem C67_succeeds top fns ystr godeps n dir reg flds bDir bOut flags ins :
  IsAbs top = true -> decode_struct n = Some flds -> text ystr flds "Dir" bDir -> text ystr flds "Out" bOut ->
  YAMLStringList fns (field "Flags" flds) dir = LOk flags ->
  godeps (abs_path (there [] top dir bDir)) false false = GoDepsModel.DepsOk ins ->
  exists reg' t, binaryDecoder top fns ystr godeps n dir reg = TOk reg' t.
Proof.
  intros Ha H1 H2 H3 H4 H5. set (out := if decide (bOut = "") then Base bDir else bOut).
  destruct (binary_rel (JoinPath top [dir; bDir]) (JoinPath top [dir; out]) []) as (r & Hr & _); [by apply joinpath_isabs..|].
  eexists _, _. apply binary_decoder_ok; [done|]. exists flds, bDir, bOut, flags. eexists _, _, r, ins. rewrite !joinpath_eq in * by done.
  split; [exact H1|]. split; [exact H2|]. split; [exact H3|]. split; [exact H4|]. split; [reflexivity|]. split; [reflexivity|]. done.
Qed.
Print Assumptions C67_succeeds.

(** Without Out, the output is in the YAML file's directory and named like the last element
    of Dir. *)
Theorem C67_default_out top fns ystr godeps n dir reg reg' s ins outs flds bDir T :
  IsAbs top = true -> binaryDecoder top fns ystr godeps n dir reg = TOk reg' (LFiles s ins outs) ->
  decode_struct n = Some flds -> text ystr flds "Dir" bDir -> text ystr flds "Out" "" -> last_element bDir T ->
  outs = [abs_path (T :: cd (cd [] top) dir)].
Proof.
  intros Ha H Hd H1 H2 HT. apply binary_decoder_ok in H; [|done].
  destruct H as (flds' & bDir' & bOut & flags & d & o & r & ins' & Hd' & H1' & H2' & _ & _ & -> & _ & _ & [= _ _ ->] & _).
  rewrite Hd in Hd'. injection Hd' as <-. apply str_field_text in H1, H2, H1', H2'.
  rewrite H1 in H1'. rewrite H2 in H2'. injection H1' as <-. injection H2' as <-.
  rewrite joinpath_eq by done. rewrite decide_True by done. rewrite (Base_last _ _ HT). unfold there.
  destruct HT as [HT _]. change T with (join [T]) at 1. rewrite cd_names by (by constructor). done.
Qed.
Print Assumptions C67_default_out.

(** Refuted: that this is a new file.  If Dir is a single name, it is the package's directory
    itself: go build is told -o . and the output of the Files target is the directory. *)
Theorem C67_default_out_is_new_file_refuted top fns ystr godeps n dir reg flds T flags ins :
  IsAbs top = true -> name T -> decode_struct n = Some flds -> text ystr flds "Dir" T -> text ystr flds "Out" "" ->
  YAMLStringList fns (field "Flags" flds) dir = LOk flags ->
  godeps (abs_path (T :: cd (cd [] top) dir)) false false = GoDepsModel.DepsOk ins ->
  let d := abs_path (T :: cd (cd [] top) dir) in
  binaryDecoder top fns ystr godeps n dir reg =
    TOk (reg ∪ {[d]}) (LFiles (SubCmd "go" (["build"; "-C"; d; "-o"; "."] ++ flags ++ ["."])) ins [d]).
Proof.
  intros Ha HT Hd H1 H2 H3 H4 d. apply binary_decoder_ok; [done|]. exists flds, T, "", flags. eexists _, _, ".", ins.
  split; [exact Hd|]. split; [exact H1|]. split; [exact H2|]. split; [exact H3|]. split; [reflexivity|]. split; [reflexivity|].
  rewrite decide_True by done. assert (HB : Base T = T).
  { apply Base_last. split; [done|]. exists [], []. split; [|constructor]. by destruct HT as (_ & _ & _ & ?). }
  rewrite HB, joinpath_eq by done. assert (there [] top dir T = T :: cd (cd [] top) dir) as ->.
  { unfold there. change T with (join [T]) at 1. rewrite cd_names by (by constructor). done. }
  split; [|done]. unfold Rel. by rewrite decide_True.
Qed.
Print Assumptions C67_default_out_is_new_file_refuted.
(** With more elements (all of them names) it is a different place.  Missing: see there. *)
Theorem C67_default_out_is_new_file_partial top fns ystr godeps n dir reg reg' s ins outs flds ds T :
  IsAbs top = true -> binaryDecoder top fns ystr godeps n dir reg = TOk reg' (LFiles s ins outs) ->
  decode_struct n = Some flds -> Forall name ds -> ds <> [] -> name T -> text ystr flds "Dir" (join (ds ++ [T])) -> text ystr flds "Out" "" ->
  exists o, outs = [o] /\ cd [] o = T :: cd (cd [] top) dir /\ cd [] o <> there [] top dir (join (ds ++ [T])).
Proof.
  intros Ha H Hd Hds Hne HT H1 H2. eexists. split; [eapply C67_default_out; try done; by apply last_element_names|].
  assert (Hn : Forall name (T :: cd (cd [] top) dir)).
  { replace (T :: cd (cd [] top) dir) with (there [] top dir T); [by apply there_names|].
    unfold there. change T with (join [T]) at 1. rewrite cd_names by (by constructor). done. }
  rewrite cd_abs_path by done. split; [done|]. unfold there. rewrite cd_names by (apply Forall_app; split; [done|by constructor]).
  rewrite reverse_app. simpl. intros E. injection E as E. apply (f_equal length) in E. rewrite app_length, reverse_length in E.
  destruct ds; [done|]. simpl in E. lia.
Qed.
Print Assumptions C67_default_out_is_new_file_partial.

(** ... and then a Clean target with Autoclean fails, unless everything in that directory is
    itself listed: [d] is the directory, [c] something in it. *)
Theorem C67_clean_then_fails loc parent stuck h files reg extra fs h' fs' e d c :
  CleanSpec.slice_ok h files -> d ∈ reg -> fs !! loc d = Some CleanModel.Dir -> parent c = Some (loc d) -> is_Some (fs !! c) ->
  (forall f, f ∈ CleanModel.contents h files \/ f ∈ reg -> loc f <> c) ->
  CleanModel.Run loc parent stuck h files true false reg extra fs = (h', fs', e) -> e <> None.
Proof.
  intros Hok Hd Hfs Hp Hc Hl H ->. apply CleanProofs.run_unfold in H; [|done]. simpl in H. symmetry in H. revert H.
  apply (remove_loop_child _ _ _ _ _ _ d c).
  - rewrite ssort_elem. unfold CleanSpec.listed. rewrite elem_of_app. by right.
  - done.
  - done.
  - done.
  - intros (f & -> & Hf)%elem_of_list_fmap. rewrite ssort_elem in Hf. unfold CleanSpec.listed in Hf. rewrite elem_of_app in Hf. by apply (Hl f).
Qed.
Print Assumptions C67_clean_then_fails.

(** The function itself, for relative paths as well: go build is told to put the program at
    the given outfile.  MustBinary panics exactly where Binary has an error or panics. *)
Theorem C67_function godeps dir outfile flags reg reg' t :
  outfile <> "" -> (IsAbs dir = true \/ is_Some (inside [] (split dir))) ->
  Binary godeps dir outfile flags reg = TOk reg' t ->
  exists r ins, t = LFiles (SubCmd "go" (["build"; "-C"; dir; "-o"; r] ++ flags ++ ["."])) ins [outfile] /\
    godeps dir false false = GoDepsModel.DepsOk ins /\ reg' = reg ∪ {[outfile]} /\ forall w, cd (cd w dir) r = cd w outfile.
Proof.
  intros Hne Hd H. apply binary_ok in H; [|done]. destruct H as (r & ins & Hr & Hi & -> & ->). exists r, ins.
  split; [done|]. split; [done|]. split; [done|]. intros w.
  assert (Hab : IsAbs dir = IsAbs outfile).
  { revert Hr. unfold Rel. destruct (decide (Clean outfile = Clean dir)) as [E|E].
    - intros _. by rewrite <-(IsAbs_Clean dir), <-E, IsAbs_Clean.
    - destruct (bool_decide (IsAbs (Clean dir) <> IsAbs (Clean outfile))) eqn:Eb; [done|]. intros _. apply bool_decide_eq_false in Eb.
      rewrite !IsAbs_Clean in Eb. destruct (IsAbs dir), (IsAbs outfile); try done; by destruct Eb. }
  destruct (relpath_lem w dir outfile Hab Hd) as (r' & Hr' & _ & Hcd). unfold RelPath in Hr'. rewrite Hr in Hr'. injection Hr' as <-. done.
Qed.
Print Assumptions C67_function.
(** It fails when the outfile has no path relative to the directory, or the files of the
    package cannot be listed; it panics when listing them does; it never panics otherwise. *)
Theorem C67_function_fails godeps dir outfile flags reg :
  (Binary godeps dir outfile flags reg = TErr <->
    Rel dir (if decide (outfile = "") then Base dir else outfile) = None \/ godeps dir false false = GoDepsModel.DepsErr /\
      is_Some (Rel dir (if decide (outfile = "") then Base dir else outfile))) /\
  (Binary godeps dir outfile flags reg = TPanic <->
    godeps dir false false = GoDepsModel.DepsPanic /\ is_Some (Rel dir (if decide (outfile = "") then Base dir else outfile))).
Proof.
  unfold Binary. destruct (Rel dir _) as [r|]; [|split; split; try done; [by left|by intros [_ [? ?]]]].
  destruct (godeps dir false false); split; split; try done; try (by intros [?|[? ?]]); try (by intros [? ?]); try (intros _; try right; by eauto).
Qed.
Print Assumptions C67_function_fails.
Theorem C67_must_panics r : must r = TPanic <-> r = TErr \/ r = TPanic.
Proof. destruct r; simpl; naive_solver. Qed.
Print Assumptions C67_must_panics.

Definition sc (s : string) : node := Node KScalar "!!str" s "" "" [].
Definition sq (l : list node) : node := Node KSequence "!!seq" "" "" "" l.
Definition mp (tag : string) (l : list (string * node)) : node := Node KMapping tag "" "" "" (flat_map (fun p => [sc p.1; p.2]) l).
Definition ystr0 (n : node) : option string := if decide (n_kind n = KScalar) then Some (n_value n) else None.
Definition ystrs0 (n : node) : option (list string) := if decide (n_kind n = KSequence) then Some (n_value <$> n_content n) else None.
Definition ybool0 (n : node) : option bool := if decide (n_value n = "true") then Some true else if decide (n_value n = "false") then Some false else None.
Definition godeps0 (d : string) (_ _ : bool) : GoDepsModel.dres := GoDepsModel.DepsOk [d +:+ "/main.go"].
Definition made (r : tres) : option target := match r with TOk _ t => Some t | _ => None end.
Example C67_case :
  made (binaryDecoder "/p" (fun _ => None) ystr0 godeps0 (mp "!go.Binary" [("Dir", sc "../cmd/fab"); ("Flags", sq [sc "-race"])]) "x" ∅) =
    Some (LFiles (SubCmd "go" ["build"; "-C"; "/p/cmd/fab"; "-o"; "../../x/fab"; "-race"; "."]) ["/p/cmd/fab/main.go"] ["/p/x/fab"]) /\
  made (binaryDecoder "/p" (fun _ => None) ystr0 godeps0 (mp "!go.Binary" [("Dir", sc "fab")]) "x" ∅) =
    Some (LFiles (SubCmd "go" ["build"; "-C"; "/p/x/fab"; "-o"; "."; "."]) ["/p/x/fab/main.go"] ["/p/x/fab"]) /\
  made (binaryDecoder "/p" (fun _ => None) ystr0 godeps0 (mp "!go.Binary" [("Dir", sc "fab"); ("Out", sc "/bin/fab")]) "x" ∅) =
    Some (LFiles (SubCmd "go" ["build"; "-C"; "/p/x/fab"; "-o"; "../../../bin/fab"; "."]) ["/p/x/fab/main.go"] ["/bin/fab"]) /\
  last_element "../cmd/fab" "fab".
Proof.
  split; [vm_compute; reflexivity|]. split; [vm_compute; reflexivity|]. split; [vm_compute; reflexivity|].
  split; [by repeat split|]. exists [".."; "cmd"], []. split; [done|constructor].
Qed.

(** ** C68.  !Clean: the files are the named ones, at their places relative to the directory of
    the YAML file ... *)
Theorem C68_decoded top fns ybool n dir reg reg' t :
  cleanDecoder top fns ybool n dir reg = TOk reg' t ->
  reg' = reg /\ exists files ac ss, t = LClean files ac /\
    ((n_kind n = KSequence /\ ac = false /\ YAMLStringListFromNodes fns (n_content n) dir = LOk ss) \/
     (exists flds, decode_struct n = Some flds /\ truth ybool flds "Autoclean" ac /\ YAMLStringList fns (field "Files" flds) dir = LOk ss)) /\
    Forall2 (fun f s => forall w, cd w f = there w top dir s) files ss.
Proof.
  intros H. apply clean_decoder_ok in H as (ss & ac & -> & -> & H). split; [done|]. eexists _, ac, ss. split; [reflexivity|]. split.
  - destruct H as [(? & ? & ?)|?]; [by left|by right].
  - apply Forall2_fmap_l. apply Forall_Forall2_diag, Forall_true. intros s w. apply joinpath_there.
Qed.
Print Assumptions C68_decoded.
(** ... it fails only if the node is neither a sequence nor a mapping or has wrong elements ... *)
Theorem C68_succeeds top fns ybool n dir reg ss ac :
  (n_kind n = KSequence /\ ac = false /\ YAMLStringListFromNodes fns (n_content n) dir = LOk ss) \/
  (exists flds, decode_struct n = Some flds /\ truth ybool flds "Autoclean" ac /\ YAMLStringList fns (field "Files" flds) dir = LOk ss) ->
  exists files, cleanDecoder top fns ybool n dir reg = TOk reg (LClean files ac).
Proof.
  intros H. eexists. apply clean_decoder_ok. exists ss, ac. split; [done|]. split; [reflexivity|].
  destruct H as [(? & ? & ?)|?]; [by left|by right].
Qed.
Print Assumptions C68_succeeds.
(** ... and when the target has run without an error, in whatever working directory [w], what
    was at those places is gone and everything else but registered outputs is as before.
    [inode] says what is at a place; the decoded list is held by the slice [files] of some
    heap. *)
Theorem C68_removes top fns ybool n dir reg reg' fl ac ss w inode parent stuck h files autoreg extra fs h' fs' :
  cleanDecoder top fns ybool n dir reg = TOk reg' (LClean fl ac) ->
  (n_kind n = KSequence /\ YAMLStringListFromNodes fns (n_content n) dir = LOk ss \/
   exists flds, decode_struct n = Some flds /\ YAMLStringList fns (field "Files" flds) dir = LOk ss) ->
  CleanSpec.slice_ok h files -> CleanModel.contents h files = fl ->
  CleanModel.Run (fun f => inode (cd w f)) parent stuck h files ac false autoreg extra fs = (h', fs', None) ->
  (forall s, s ∈ ss -> fs' !! inode (there w top dir s) = None) /\
  (forall l, (forall s, s ∈ ss -> inode (there w top dir s) <> l) ->
     (ac = true -> forall f, f ∈ autoreg -> inode (cd w f) <> l) -> fs' !! l = fs !! l).
Proof.
  intros Hd Hss Hok Hc Hrun. apply clean_decoder_ok in Hd as (ss' & ac' & -> & [= -> ->] & Hd).
  assert (ss' = ss) as ->.
  { destruct Hd as [(Hk & E & _)|(flds & E1 & _ & E2)], Hss as [(Hk' & E')|(flds' & E1' & E2')].
    - congruence.
    - unfold decode_struct in E1'. by rewrite Hk in E1'.
    - unfold decode_struct in E1. by rewrite Hk' in E1.
    - rewrite E1 in E1'. injection E1' as <-. congruence. }
  apply CleanProps.C52_nil_removes_listed in Hrun as [H1 H2]; [|done]. rewrite Hc in H1, H2. split.
  - intros s Hs. rewrite <-joinpath_there. apply H1. left. apply elem_of_list_fmap. eauto.
  - intros l Hl Ha. apply H2. intros f [(s & -> & Hs)%elem_of_list_fmap|[? ?]]; [|by apply Ha]. rewrite joinpath_there. by apply Hl.
Qed.
Print Assumptions C68_removes.
Example C68_case :
  cleanDecoder "/p" (fun _ => None) ybool0 (Node KSequence "!Clean" "" "" "" [sc "b"; sc "../a"; sc "/c"]) "x" ∅ = TOk ∅ (LClean ["/p/x/b"; "/p/a"; "/c"] false) /\
  cleanDecoder "/p" (fun _ => None) ybool0 (mp "!Clean" [("Files", sq [sc "b"]); ("Autoclean", sc "true")]) "x" ∅ = TOk ∅ (LClean ["/p/x/b"] true) /\
  cleanDecoder "/p" (fun _ => None) ybool0 (sc "b") "x" ∅ = TErr.
Proof. split_and!; vm_compute; reflexivity. Qed.

(** ** C69.  !proto.Proto: inputs, outputs and include directories are relative to the YAML
    file's directory; protoc gets the include directories, the options, the inputs; and the
    inputs of the Files target contain every file needed to compile one of the inputs. *)
Theorem C69_proto_decoded top fns ybool ystrs fs n dir reg reg' t :
  protoDecoder top fns ybool ystrs fs n dir reg = TOk reg' t ->
  exists flds opts ac inputs outputs includes ssi sso ssc ins,
    decode_struct n = Some flds /\ texts ystrs flds "Opts" opts /\ truth ybool flds "Autoclean" ac /\
    YAMLStringList fns (field "Inputs" flds) dir = LOk ssi /\ Forall2 (fun f s => forall w, cd w f = there w top dir s) inputs ssi /\
    YAMLStringList fns (field "Outputs" flds) dir = LOk sso /\ Forall2 (fun f s => forall w, cd w f = there w top dir s) outputs sso /\
    YAMLStringList fns (field "Includes" flds) dir = LOk ssc /\ Forall2 (fun f s => forall w, cd w f = there w top dir s) includes ssc /\
    t = LFiles (SubCmd "protoc" (map (String.append "-I") includes ++ opts ++ inputs)) ins outputs /\
    (forall i x, i ∈ inputs -> ProtoSpec.needed fs includes i x -> x ∈ ins) /\
    (forall x, x ∈ ins -> exists i, i ∈ inputs /\ ProtoSpec.possible fs includes i x) /\
    (forall x, x ∈ reg' <-> x ∈ reg \/ (ac = true /\ x ∈ outputs)).
Proof.
  intros H. apply proto_decoder_ok in H as (flds & opts & ac & ssi & sso & ssc & ins & args & H1 & H2 & H3 & H4 & H5 & H6 & H7 & -> & ->).
  assert (Hpl : forall ss, Forall2 (fun f s => forall w, cd w f = there w top dir s) ((fun s => JoinPath top [dir; s]) <$> ss) ss).
  { intros ss. apply Forall2_fmap_l. apply Forall_Forall2_diag, Forall_true. intros s w. apply joinpath_there. }
  pose proof (ProtoProps.C49_proto_error fs ((fun s => JoinPath top [dir; s]) <$> ssc) (S (size fs)) ((fun s => JoinPath top [dir; s]) <$> ssi) opts) as [He _].
  specialize (He (ex_intro _ _ H7)).
  apply ProtoProps.C49_proto_target in H7 as (_ & _ & Hin & ->).
  exists flds, opts, ac. eexists _, _, _, ssi, sso, ssc, ins.
  split; [done|]. split; [done|]. split; [done|]. split; [done|]. split; [apply Hpl|]. split; [done|]. split; [apply Hpl|]. split; [done|].
  split; [apply Hpl|]. split; [reflexivity|]. split; [|split].
  - intros i x Hi Hn. destruct (He i Hi) as [l Hl]. apply Hin. right. exists i, l. split; [done|]. split; [done|].
    by eapply ProtoProps.C49_contains_needed.
  - intros x Hx. apply Hin in Hx as [Hx|(i & l & Hi & Hl & Hx)].
    + exists x. split; [done|constructor].
    + exists i. split; [done|]. by eapply ProtoProps.C49_only_imported.
  - intros x. destruct ac; [|naive_solver]. rewrite elem_of_union, elem_of_list_to_set. naive_solver.
Qed.
Print Assumptions C69_proto_decoded.
Theorem C69_proto_succeeds top fns ybool ystrs fs n dir reg flds opts ac ssi sso ssc :
  decode_struct n = Some flds -> texts ystrs flds "Opts" opts -> truth ybool flds "Autoclean" ac ->
  YAMLStringList fns (field "Inputs" flds) dir = LOk ssi -> YAMLStringList fns (field "Outputs" flds) dir = LOk sso ->
  YAMLStringList fns (field "Includes" flds) dir = LOk ssc ->
  (forall s, s ∈ ssi -> exists l, ProtoModel.Deps fs (map (fun s => JoinPath top [dir; s]) ssc) (S (size fs)) (JoinPath top [dir; s]) = ProtoModel.DepsRet l true) ->
  exists reg' t, protoDecoder top fns ybool ystrs fs n dir reg = TOk reg' t.
Proof.
  intros H1 H2 H3 H4 H5 H6 H7.
  destruct (proj2 (ProtoProps.C49_proto_error fs ((fun s => JoinPath top [dir; s]) <$> ssc) (S (size fs)) ((fun s => JoinPath top [dir; s]) <$> ssi) opts)) as [[ins args] E].
  { intros i (s & -> & Hs)%elem_of_list_fmap. by apply H7. }
  eexists _, _. apply proto_decoder_ok. exists flds, opts, ac, ssi, sso, ssc, ins, args. repeat (split; [done|]). done.
Qed.
Print Assumptions C69_proto_succeeds.

(** !proto.Deps in a list of files: the file is the one at its place relative to the YAML
    file's directory.  If top and the include directories are absolute, the names in the list are
    exactly those of the files that were found. *)
Theorem C69_deps_partial top fns ystr ystrs fs n dir flds file includes l :
  IsAbs top = true -> n_kind n <> KNone -> has_tag n "proto.Deps" -> fns "proto.Deps" = Some (protodepsDecoder top ystr ystrs fs) ->
  decode_struct n = Some flds -> text ystr flds "File" file -> texts ystrs flds "Includes" includes ->
  Forall (fun i => IsAbs i = true) includes ->
  YAMLFileList fns top n dir = LOk l ->
  let f := abs_path (there [] top dir file) in
  (forall x, ProtoSpec.needed fs includes f x -> x ∈ l) /\
  (forall x, x ∈ l -> ProtoSpec.possible fs includes f x /\ is_Some (fs !! x)).
Proof.
  intros Ha Hk Ht Hfn Hd H1%str_field_text H2%strs_field_texts Hi Hl f.
  apply file_list_lem in Hl as (ss & Hss & ->).
  rewrite (proj1 (proj2 (YamlProps.C37_node fns n dir)) _ _ Hk Ht Hfn) in Hss.
  unfold protodepsDecoder in Hss. rewrite Hd, H1, H2, joinpath_eq in Hss by done. fold f in Hss.
  destruct (ProtoModel.Deps fs includes (S (size fs)) f) as [l0 [|]|] eqn:E; try done. injection Hss as ->.
  assert (Hid : (fun s => JoinPath top [dir; s]) <$> ss = ss).
  { rewrite <-(list_fmap_id ss) at 2. apply list_fmap_ext. intros i x Hx%elem_of_list_lookup_2. destruct (pdeps_absolute fs includes (S (size fs)) f ss x) as [? ?]; try done.
    - apply abs_path_clean, there_names. done.
    - by apply joinpath_abs_elt. }
  rewrite Hid. split.
  - intros x Hx. by eapply ProtoProps.C49_contains_needed.
  - intros x Hx. by eapply ProtoProps.C49_only_imported.
Qed.
Print Assumptions C69_deps_partial.
(** With relative include directories: the list is right if the working directory [w] is the
    YAML file's directory. *)
Theorem C69_deps_in_yaml_dir_partial top fns ystr ystrs fs n dir flds file includes l w :
  n_kind n <> KNone -> has_tag n "proto.Deps" -> fns "proto.Deps" = Some (protodepsDecoder top ystr ystrs fs) ->
  decode_struct n = Some flds -> text ystr flds "File" file -> texts ystrs flds "Includes" includes ->
  YAMLFileList fns top n dir = LOk l -> w = cd (cd w top) dir ->
  exists found, ProtoModel.Deps fs includes (S (size fs)) (JoinPath top [dir; file]) = ProtoModel.DepsRet found true /\
    Forall2 (fun x y => cd w x = cd w y) l found.
Proof.
  intros Hk Ht Hfn Hd H1%str_field_text H2%strs_field_texts Hl Hw.
  apply file_list_lem in Hl as (ss & Hss & ->).
  rewrite (proj1 (proj2 (YamlProps.C37_node fns n dir)) _ _ Hk Ht Hfn) in Hss.
  unfold protodepsDecoder in Hss. rewrite Hd, H1, H2 in Hss.
  destruct (ProtoModel.Deps fs includes (S (size fs)) (JoinPath top [dir; file])) as [l0 [|]|] eqn:E; try done. injection Hss as ->.
  exists ss. split; [done|]. apply Forall2_fmap_l, Forall_Forall2_diag, Forall_true. intros s.
  change (cd w (JoinPath top [dir; s]) = cd w s). rewrite joinpath_there. unfold there. by rewrite <-Hw.
Qed.
Print Assumptions C69_deps_in_yaml_dir_partial.

(** Refuted: that the list has the files found.  With a relative include directory and another
    working directory (here the top directory, the file in sub), the import is found in inc,
    and sub/inc is listed. *)
Definition pfs0 : ProtoModel.fsys := {[
  "/p/sub/a.proto" := ProtoModel.Lines ["import " +:+ ProtoProps.q "b.proto"] true;
  "inc/b.proto" := ProtoModel.Lines [] true ]}.
Definition pfns (top : string) (fs : ProtoModel.fsys) : list_fns :=
  fun t => if decide (t = "proto.Deps") then Some (protodepsDecoder top ystr0 ystrs0 fs) else None.
Theorem C69_deps_relative_includes_refuted :
  exists top fs n dir l, IsAbs top = true /\ YAMLFileList (pfns top fs) top n dir = LOk l /\
    exists flds file, decode_struct n = Some flds /\ text ystr0 flds "File" file /\ texts ystrs0 flds "Includes" ["inc"] /\
      (* needed, though under another name *)
      ProtoSpec.needed fs ["inc"] (abs_path (there [] top dir file)) "inc/b.proto" /\
      (forall x, x ∈ l -> cd (cd [] top) x <> cd (cd [] top) "inc/b.proto") /\
      (exists x, x ∈ l /\ fs !! x = None).
Proof.
  exists "/p", pfs0, (mp "!proto.Deps" [("File", sc "a.proto"); ("Includes", sq [sc "inc"])]), "sub", ["/p/sub/a.proto"; "/p/sub/inc/b.proto"].
  split; [done|]. split; [vm_compute; reflexivity|]. eexists _, "a.proto". split; [reflexivity|].
  split; [by right|]. split; [by right|]. split; [|split].
  - eapply (ProtoSpec.needed_import _ _ _ "/p/sub/a.proto" "b.proto"); [constructor| |].
    + eexists _, _, _. split; [vm_compute; reflexivity|]. split; [left|]. apply ProtoProofs.import_of_spec. vm_compute. reflexivity.
    + exists [], "inc", []. split; [done|]. split; [vm_compute; reflexivity|]. split; [vm_compute; eauto|]. intros ? ?%elem_of_nil. done.
  - intros x Hx. rewrite !elem_of_cons, elem_of_nil in Hx. destruct Hx as [->|[->|[]]]; by vm_compute.
  - exists "/p/sub/inc/b.proto". split; [right; left|]. vm_compute. reflexivity.
Qed.
Print Assumptions C69_deps_relative_includes_refuted.
(** With a relative top directory the directory of the YAML file is applied twice, even to the
    file itself. *)
Theorem C69_deps_relative_top_refuted :
  exists top fs n dir x flds file, YAMLFileList (pfns top fs) top n dir = LOk [x] /\
    decode_struct n = Some flds /\ text ystr0 flds "File" file /\ fs !! x = None /\ forall w, cd w x <> there w top dir file.
Proof.
  exists ".", ({[ "sub/a.proto" := ProtoModel.Lines [] true ]}), (mp "!proto.Deps" [("File", sc "a.proto")]), "sub", "sub/sub/a.proto".
  eexists _, "a.proto". split; [vm_compute; reflexivity|]. split; [reflexivity|]. split; [by right|]. split; [vm_compute; reflexivity|].
  intros w. vm_compute. intros E. apply (f_equal length) in E. simpl in E. lia.
Qed.
Print Assumptions C69_deps_relative_top_refuted.

(** !go.Deps in a list of files: absolute names in normal form are listed as they are; that is
    what package files are.  Missing: matches of embed patterns, which are relative to the
    working directory. *)
Theorem C69_go_deps_partial top fns ybool ystr godeps n dir flds gDir rec tests found l x :
  n_kind n <> KNone -> has_tag n "go.Deps" -> fns "go.Deps" = Some (go_deps_fn top ybool ystr godeps) ->
  decode_struct n = Some flds -> text ystr flds "Dir" gDir -> truth ybool flds "Recursive" rec -> truth ybool flds "Tests" tests ->
  IsAbs top = true -> godeps (abs_path (there [] top dir gDir)) rec tests = GoDepsModel.DepsOk found ->
  YAMLFileList fns top n dir = LOk l -> IsAbs x = true -> clean x -> x ∈ found -> x ∈ l.
Proof.
  intros Hk Ht Hfn Hd H1%str_field_text H2%bool_field_truth H3%bool_field_truth Ha Hg Hl Hx Hc Hin.
  apply file_list_lem in Hl as (ss & Hss & ->).
  rewrite (proj1 (proj2 (YamlProps.C37_node fns n dir)) _ _ Hk Ht Hfn) in Hss.
  unfold go_deps_fn, depsDecoder in Hss. rewrite Hd, H1, H2, H3, joinpath_eq, Hg in Hss by done. injection Hss as <-.
  apply elem_of_list_fmap. exists x. split; [|done]. by rewrite joinpath_abs_elt.
Qed.
Print Assumptions C69_go_deps_partial.
Theorem C69_go_deps_exact_partial top fns ybool ystr godeps n dir flds gDir rec tests found :
  n_kind n <> KNone -> has_tag n "go.Deps" -> fns "go.Deps" = Some (go_deps_fn top ybool ystr godeps) ->
  decode_struct n = Some flds -> text ystr flds "Dir" gDir -> truth ybool flds "Recursive" rec -> truth ybool flds "Tests" tests ->
  IsAbs top = true -> godeps (abs_path (there [] top dir gDir)) rec tests = GoDepsModel.DepsOk found ->
  Forall (fun x => IsAbs x = true /\ clean x) found -> YAMLFileList fns top n dir = LOk found.
Proof.
  intros Hk Ht Hfn Hd H1%str_field_text H2%bool_field_truth H3%bool_field_truth Ha Hg Hc. apply file_list_lem. exists found. split.
  - rewrite (proj1 (proj2 (YamlProps.C37_node fns n dir)) _ _ Hk Ht Hfn). unfold go_deps_fn, depsDecoder.
    by rewrite Hd, H1, H2, H3, joinpath_eq, Hg.
  - rewrite <-(list_fmap_id found) at 1. apply list_fmap_ext. intros i x Hx%elem_of_list_lookup_2. rewrite Forall_forall in Hc.
    destruct (Hc _ Hx). by rewrite joinpath_abs_elt.
Qed.
Print Assumptions C69_go_deps_exact_partial.
Definition pfs1 : ProtoModel.fsys := {[
  "/p/x/a.proto" := ProtoModel.Lines ["import " +:+ ProtoProps.q "b.proto"] true;
  "/p/inc/b.proto" := ProtoModel.Lines [] true ]}.
Example C69_case :
  made (protoDecoder "/p" (fun _ => None) ybool0 ystrs0 pfs1 (mp "!proto.Proto"
    [("Inputs", sq [sc "a.proto"]); ("Outputs", sq [sc "gen/a.pb.go"]); ("Includes", sq [sc "."; sc "../inc"]); ("Opts", sq [sc "--go_out=gen"])]) "x" ∅) =
    Some (LFiles (SubCmd "protoc" ["-I/p/x"; "-I/p/inc"; "--go_out=gen"; "/p/x/a.proto"]) ["/p/inc/b.proto"; "/p/x/a.proto"] ["/p/x/gen/a.pb.go"]) /\
  YAMLFileList (pfns "/p" pfs1) "/p" (mp "!proto.Deps" [("File", sc "a.proto"); ("Includes", sq [sc "/p/inc"])]) "x" = LOk ["/p/inc/b.proto"; "/p/x/a.proto"].
Proof. split; vm_compute; reflexivity. Qed.

(** ** C70.  !ts.Decls: package and output at their places, the inputs are the package's files. *)
Theorem C70_decoded top ybool ystr godeps n dir reg reg' t :
  IsAbs top = true -> declsDecoder top ybool ystr godeps n dir reg = TOk reg' t ->
  exists flds dDir typ prefix out ac d o ins,
    decode_struct n = Some flds /\ text ystr flds "Dir" dDir /\ text ystr flds "Type" typ /\ text ystr flds "Prefix" prefix /\
    text ystr flds "Out" out /\ truth ybool flds "Autoclean" ac /\
    d = abs_path (there [] top dir dDir) /\ o = abs_path (there [] top dir out) /\
    godeps d false false = GoDepsModel.DepsOk ins /\
    t = LFiles (SubDecls d typ prefix o) ins [o] /\ reg' = if ac then reg ∪ {[o]} else reg.
Proof.
  intros Ha H. apply decls_decoder_ok in H as (flds & dDir & typ & prefix & out & ac & ins & H1 & H2 & H3 & H4 & H5 & H6 & H7 & -> & ->).
  rewrite !joinpath_eq in * by done. exists flds, dDir, typ, prefix, out, ac. eexists _, _, ins. do 6 (split; [done|]).
  split; [reflexivity|]. split; [reflexivity|]. done.
Qed.
Print Assumptions C70_decoded.
Theorem C70_succeeds top ybool ystr godeps n dir reg flds dDir typ prefix out ac ins :
  IsAbs top = true -> decode_struct n = Some flds -> text ystr flds "Dir" dDir -> text ystr flds "Type" typ -> text ystr flds "Prefix" prefix ->
  text ystr flds "Out" out -> truth ybool flds "Autoclean" ac ->
  godeps (abs_path (there [] top dir dDir)) false false = GoDepsModel.DepsOk ins ->
  exists reg' t, declsDecoder top ybool ystr godeps n dir reg = TOk reg' t.
Proof.
  intros Ha H1 H2 H3 H4 H5 H6 H7. rewrite <-joinpath_eq in H7 by done. eexists _, _. apply decls_decoder_ok.
  exists flds, dDir, typ, prefix, out, ac, ins. do 7 (split; [done|]). split; reflexivity.
Qed.
Print Assumptions C70_succeeds.
(** Running the subtarget: no file but the output changes; a dry run changes nothing and
    succeeds; success means the output holds what the generator wrote, all of it; a generator's
    failure, as well as the failure to create or close the file, is reported. *)
Theorem C70_run dry create gen close o files files' e :
  decls_run dry create gen close o files = (files', e) ->
  (forall f, f <> o -> files' !! f = files !! f) /\
  (dry = true -> files' = files /\ e = None) /\
  (dry = false -> e = None -> files' !! o = Some gen.1 /\ gen.2 = None /\ create = true /\ close = true) /\
  (dry = false -> create = false -> e = Some ECreate /\ files' = files) /\
  (forall k, dry = false -> create = true -> gen.2 = Some k -> e = Some (EGen k)) /\
  (dry = false -> create = true -> gen.2 = None -> close = true -> e = None).
Proof.
  unfold decls_run. destruct dry; [intros [= <- <-]; naive_solver|].
  destruct create; [|intros [= <- <-]; naive_solver]. cbn zeta.
  destruct gen as [txt [k|]]; simpl.
  - intros [= <- <-]. split; [intros f Hf; by rewrite !lookup_insert_ne|]. naive_solver.
  - destruct close; intros [= <- <-]; (split; [intros f Hf; by rewrite !lookup_insert_ne|]); rewrite lookup_insert; naive_solver.
Qed.
Print Assumptions C70_run.
(** Refuted: that a failed generation leaves the old output. *)
Theorem C70_failure_keeps_output_refuted :
  exists gen o files files' e, files !! o = Some "export type T = string" /\
    decls_run false true gen true o files = (files', Some e) /\ files' !! o = Some "".
Proof. exists ("", Some 0), "t.ts", {[ "t.ts" := "export type T = string" ]}. eexists _, _. split; [done|]. split; [reflexivity|]. vm_compute. reflexivity. Qed.
Print Assumptions C70_failure_keeps_output_refuted.
Example C70_case :
  made (declsDecoder "/p" ybool0 ystr0 godeps0 (mp "!ts.Decls" [("Dir", sc "srv"); ("Type", sc "Server"); ("Prefix", sc "/s"); ("Out", sc "../ts/s.ts")]) "x" ∅) =
    Some (LFiles (SubDecls "/p/x/srv" "Server" "/s" "/p/ts/s.ts") ["/p/x/srv/main.go"] ["/p/ts/s.ts"]) /\
  (decls_run false true ("text", None) true "/p/ts/s.ts" ∅).2 = None.
Proof. split; vm_compute; reflexivity. Qed.

(** ** C71.  Parameters are part of the description: different subtargets have different
    descriptions ... *)
Theorem C71_descriptions_differ s1 s2 : same_description (tgt_of s1) (tgt_of s2) -> s1 = s2.
Proof. exact (tgt_of_inj s1 s2). Qed.
Print Assumptions C71_descriptions_differ.
(** ... so that in every history a run of such a target that returns nil has run its subtarget,
    successfully, unless a success of the very same one - same command line; same directory,
    type, prefix and output - has been recorded. *)
Theorem C71_changed_parameters_rebuild hashf H R fs0 tr a i b r fl s :
  Inj (=) (=) hashf -> (forall c, hashf c <> "") -> Inj (=) (=) H ->
  history hashf H R fs0 tr -> tr = a ++ LRet i RNil :: b ->
  LStart i r fl ∈ a -> r_tgt r = tgt_of s ->
  (forall j fs' r' h, success_recorded R fs0 a j fs' r' h -> genuine (r_tgt r') /\ r_tgt r' <> tgt_of s) ->
  LSubEnd i None ∈ a.
Proof. exact (fun Hh Hne HH => library_changed hashf H R fs0 Hh Hne HH tr a i b r fl s). Qed.
Print Assumptions C71_changed_parameters_rebuild.
(** Two !ts.Decls definitions with the same description say the same: type, prefix, and the
    places of package and output.  (Two !go.Binary: see C71_binary.) *)
Theorem C71_decls top ybool ystr godeps n1 dir1 n2 dir2 reg1 reg2 reg1' reg2' s1 s2 ins1 ins2 outs1 outs2 :
  IsAbs top = true ->
  declsDecoder top ybool ystr godeps n1 dir1 reg1 = TOk reg1' (LFiles s1 ins1 outs1) ->
  declsDecoder top ybool ystr godeps n2 dir2 reg2 = TOk reg2' (LFiles s2 ins2 outs2) ->
  same_description (tgt_of s1) (tgt_of s2) ->
  exists flds1 flds2 d1 d2 typ prefix out1 out2,
    decode_struct n1 = Some flds1 /\ decode_struct n2 = Some flds2 /\
    text ystr flds1 "Type" typ /\ text ystr flds2 "Type" typ /\ text ystr flds1 "Prefix" prefix /\ text ystr flds2 "Prefix" prefix /\
    text ystr flds1 "Dir" d1 /\ text ystr flds2 "Dir" d2 /\ text ystr flds1 "Out" out1 /\ text ystr flds2 "Out" out2 /\
    there [] top dir1 d1 = there [] top dir2 d2 /\ there [] top dir1 out1 = there [] top dir2 out2.
Proof.
  intros Ha H1 H2 Hs%tgt_of_inj. apply C70_decoded in H1, H2; [|done|done].
  destruct H1 as (f1 & d1 & t1 & p1 & o1 & ac1 & D1 & O1 & i1 & A1 & A2 & A3 & A4 & A5 & A6 & -> & -> & A7 & [= -> -> ->] & _).
  destruct H2 as (f2 & d2 & t2 & p2 & o2 & ac2 & D2 & O2 & i2 & B1 & B2 & B3 & B4 & B5 & B6 & -> & -> & B7 & [= -> -> ->] & _).
  assert (E1 : abs_path (there [] top dir1 d1) = abs_path (there [] top dir2 d2)) by congruence.
  assert (E2 : abs_path (there [] top dir1 o1) = abs_path (there [] top dir2 o2)) by congruence.
  assert (t1 = t2) as -> by congruence. assert (p1 = p2) as -> by congruence.
  apply abs_path_inj in E1, E2; try (by apply there_names).
  exists f1, f2, d1, d2, t2, p2, o1, o2. repeat (split; [done|]). done.
Qed.
Print Assumptions C71_decls.
Theorem C71_binary top fns ystr godeps n1 dir1 n2 dir2 reg1 reg2 reg1' reg2' s1 s2 ins1 ins2 outs1 outs2 :
  IsAbs top = true ->
  binaryDecoder top fns ystr godeps n1 dir1 reg1 = TOk reg1' (LFiles s1 ins1 outs1) ->
  binaryDecoder top fns ystr godeps n2 dir2 reg2 = TOk reg2' (LFiles s2 ins2 outs2) ->
  same_description (tgt_of s1) (tgt_of s2) ->
  outs1 = outs2 /\ ins1 = ins2 /\
  exists flds1 flds2 d1 d2 flags, decode_struct n1 = Some flds1 /\ decode_struct n2 = Some flds2 /\
    text ystr flds1 "Dir" d1 /\ text ystr flds2 "Dir" d2 /\ there [] top dir1 d1 = there [] top dir2 d2 /\
    YAMLStringList fns (field "Flags" flds1) dir1 = LOk flags /\ YAMLStringList fns (field "Flags" flds2) dir2 = LOk flags.
Proof.
  intros Ha H1 H2 Hs%tgt_of_inj. apply C67_decoded in H1, H2; [|done|done].
  destruct H1 as (f1 & d1 & o1 & g1 & D1 & O1 & r1 & i1 & A1 & A2 & A3 & A4 & -> & EO1 & [= -> -> ->] & A5 & A6 & _).
  destruct H2 as (f2 & d2 & o2 & g2 & D2 & O2 & r2 & i2 & B1 & B2 & B3 & B4 & -> & EO2 & [= -> -> ->] & B5 & B6 & _).
  assert (E1 : abs_path (there [] top dir1 d1) = abs_path (there [] top dir2 d2)) by congruence.
  assert (r1 = r2) as -> by congruence. assert (E3 : g1 ++ ["."] = g2 ++ ["."]) by congruence.
  apply app_inj_tail in E3 as [-> _]. pose proof E1 as E1'. apply abs_path_inj in E1; try (by apply there_names).
  split; [|split].
  - f_equal. specialize (A5 []). specialize (B5 []). rewrite E1' in A5. rewrite A5 in B5. rewrite EO1, EO2 in *.
    rewrite !cd_abs_path in B5 by (by apply there_names). by rewrite B5.
  - rewrite E1' in A6. congruence.
  - exists f1, f2, d1, d2, g2. repeat (split; [done|]). done.
Qed.
Print Assumptions C71_binary.

(** A !ts.Decls target that is built with one type, then with another one. *)
Example C71_case hashf H R (HH : Inj (=) (=) H) :
  let t1 := tgt_of (SubDecls "/p/x" "Server" "/s" "out") in
  let t2 := tgt_of (SubDecls "/p/x" "Client" "/s" "out") in
  let r1 := FilesProps.ex_rule t1 in let r2 := FilesProps.ex_rule t2 in
  let fs := FilesProps.ex_fs "1" None in let fs' := FilesProps.ex_fs "1" (Some "a") in
  exists h h' k k', history hashf H R fs (building_run 0 r1 r1 fs fs fs' h h' ++ building_run 1 r2 r2 fs' fs' fs' k k').
Proof.
  intros t1 t2 r1 r2 fs fs'.
  assert (E1 := FilesProps.ex_hash hashf H t1 _ _ "1" None eq_refl eq_refl).
  assert (E2 := FilesProps.ex_hash hashf H t1 _ _ "1" (Some "a") eq_refl eq_refl).
  assert (E3 := FilesProps.ex_hash hashf H t2 _ _ "1" (Some "a") eq_refl eq_refl).
  do 4 eexists.
  destruct (FilesProofs9.ra_building hashf H R fs fs ∅ 0 [] _ r1 t1 fs fs' 1 1 _ _ (FilesProofs9.ra_init hashf H R fs) E1 (not_elem_of_empty _) eq_refl E2) as (s1 & Hs1).
  destruct (FilesProps.ra_building' hashf H R fs fs' _ 1 _ _ r2 t2 fs' fs' 1 1 _ _ Hs1 E3 eq_refl E3) as (s2 & Hs2).
  { rewrite elem_of_union, elem_of_singleton. intros [E%HH|E]; [|done]. by apply FilesProofs4.document_inj in E as (? & _). }
  eapply FilesProofs9.ra_history. exact Hs2.
Qed.
