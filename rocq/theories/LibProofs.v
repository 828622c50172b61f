From stdpp Require Import base gmap fin_sets list strings.
From Verif Require Import PathModel PathSpec PathProofs PathProofs2 PathProofs3 PathProofs4 StrOrd YamlModel FilesModel FilesSpec LibModel LibSpec.
From Verif Require GoDepsModel ProtoModel CleanModel ProtoProofs FilesProofs7 FilesProofs3 FilesProofs5.
Local Open Scope list_scope.

(** ** Fields *)
Lemma str_field_text ystr flds key v : str_field ystr (field key flds) = Some v <-> text ystr flds key v.
Proof.
  unfold str_field, text. destruct (decide (n_kind (field key flds) = KNone)) as [E|E]; split.
  - intros [= <-]. by left.
  - intros [[_ ->]|[? _]]; done.
  - intros H. by right.
  - intros [[? _]|[_ ?]]; done.
Qed.
Lemma strs_field_texts ystrs flds key v : strs_field ystrs (field key flds) = Some v <-> texts ystrs flds key v.
Proof.
  unfold strs_field, texts. destruct (decide (n_kind (field key flds) = KNone)) as [E|E]; split.
  - intros [= <-]. by left.
  - intros [[_ ->]|[? _]]; done.
  - intros H. by right.
  - intros [[? _]|[_ ?]]; done.
Qed.
Lemma bool_field_truth ybool flds key v : bool_field ybool (field key flds) = Some v <-> truth ybool flds key v.
Proof.
  unfold bool_field, truth. destruct (decide (n_kind (field key flds) = KNone)) as [E|E]; split.
  - intros [= <-]. by left.
  - intros [[_ ->]|[? _]]; done.
  - intros H. by right.
  - intros [[? _]|[_ ?]]; done.
Qed.

(** ** Paths *)
Lemma joinpath_there w top dir p : cd w (JoinPath top [dir; p]) = there w top dir p.
Proof. rewrite joinpath_lem. done. Qed.
Lemma joinpath_ne top dir p : IsAbs top = true -> JoinPath top [dir; p] <> "".
Proof.
  intros Ha E. assert (H : IsAbs (JoinPath top [dir; p]) = true) by (apply joinpath_abs; by left). by rewrite E in H.
Qed.
Lemma joinpath_isabs top dir p : IsAbs top = true -> IsAbs (JoinPath top [dir; p]) = true.
Proof. intros Ha. apply joinpath_abs. by left. Qed.
Lemma joinpath_abs_elt top dir p : IsAbs p = true -> clean p -> JoinPath top [dir; p] = p.
Proof.
  intros Ha Hc. unfold JoinPath. cbn [last_abs]. rewrite Ha. unfold Join. rewrite decide_False.
  - exact Hc.
  - intros ->. done.
Qed.
(** An absolute path in normal form is the path of the place. *)
Lemma joinpath_eq top dir p : IsAbs top = true -> JoinPath top [dir; p] = abs_path (there [] top dir p).
Proof.
  intros Ha. rewrite <-joinpath_there, <-Clean_abs by (by apply joinpath_isabs).
  destruct (joinpath_clean top [dir; p]) as [E|E]; [by apply joinpath_ne in E|]. symmetry. exact E.
Qed.
Lemma there_names w top dir p : IsAbs top = true -> Forall name (there w top dir p).
Proof.
  intros Ha. rewrite <-joinpath_there. rewrite (cd_abs w []) by (by apply joinpath_isabs).
  by apply clean_comps_abs, joinpath_isabs.
Qed.

Lemma filter_ne_tail (l : list string) : Forall (fun c => c = "") l -> filter (fun c => c <> "") l = [].
Proof. induction 1 as [|x l -> _ IH]; [done|]. rewrite filter_cons_False by (intros H; by apply H). done. Qed.
Lemma Base_last p T : last_element p T -> Base p = T.
Proof.
  intros ((Hn & _ & _) & l1 & l2 & E & Hl). unfold Base. rewrite decide_False.
  - rewrite E, filter_app. rewrite (filter_cons_True (fun c : string => c <> "")) by exact Hn. rewrite (filter_ne_tail l2) by done. by rewrite last_snoc.
  - intros ->. change (split "") with [""] in E. destruct l1 as [|? [|? ?]]; simplify_eq/=.
Qed.
Lemma last_element_names ds T : Forall name ds -> name T -> last_element (join (ds ++ [T])) T.
Proof.
  intros Hd HT. split; [done|]. exists ds, []. split; [|constructor].
  apply split_join; [by destruct ds|]. apply plain_flat, names_plain, Forall_app. split; [done|by constructor].
Qed.

(** ** Lists of files *)
Lemma file_list_lem fns top n dir l : YAMLFileList fns top n dir = LOk l <->
  exists ss, YAMLStringList fns n dir = LOk ss /\ l = (fun s => JoinPath top [dir; s]) <$> ss.
Proof.
  unfold YAMLFileList. destruct (YAMLStringList fns n dir) as [ss|e]; split.
  - intros [= <-]. eauto.
  - intros (? & [= <-] & ->). done.
  - done.
  - intros (? & ? & _). done.
Qed.
Lemma file_list_nodes_lem fns top ns dir l : YAMLFileListFromNodes fns top ns dir = LOk l <->
  exists ss, YAMLStringListFromNodes fns ns dir = LOk ss /\ l = (fun s => JoinPath top [dir; s]) <$> ss.
Proof.
  unfold YAMLFileListFromNodes. destruct (YAMLStringListFromNodes fns ns dir) as [ss|e]; split.
  - intros [= <-]. eauto.
  - intros (? & [= <-] & ->). done.
  - done.
  - intros (? & ? & _). done.
Qed.

Section lib.
  Context (top : string) (fns : list_fns) (ybool : node -> option bool) (ystr : node -> option string)
    (ystrs : node -> option (list string)).
  Context (godeps : string -> bool -> bool -> GoDepsModel.dres) (fs : ProtoModel.fsys).

  (** ** go.Binary *)
  Lemma binary_ok dir outfile flags reg reg' t : outfile <> "" ->
    Binary godeps dir outfile flags reg = TOk reg' t <->
    exists r ins, Rel dir outfile = Some r /\ godeps dir false false = GoDepsModel.DepsOk ins /\
      t = LFiles (SubCmd "go" (["build"; "-C"; dir; "-o"; r] ++ flags ++ ["."])) ins [outfile] /\ reg' = reg ∪ {[outfile]}.
  Proof.
    intros Hne. unfold Binary, Files, CleanModel.Autoclean. rewrite decide_False by done. split.
    - destruct (Rel dir outfile) as [r|]; [|done]. destruct (godeps dir false false) as [ins| | |]; try done.
      cbn zeta. intros [= <- <-]. exists r, ins. split; [done|]. split; [done|]. split; [reflexivity|].
      simpl. set_solver.
    - intros (r & ins & -> & -> & -> & ->). cbn zeta. f_equal. simpl. set_solver.
  Qed.

  Lemma binary_decoder_ok n dir reg reg' t : IsAbs top = true ->
    binaryDecoder top fns ystr godeps n dir reg = TOk reg' t <->
    exists flds bDir bOut flags d o r ins,
      decode_struct n = Some flds /\ text ystr flds "Dir" bDir /\ text ystr flds "Out" bOut /\
      YAMLStringList fns (field "Flags" flds) dir = LOk flags /\
      d = JoinPath top [dir; bDir] /\ o = JoinPath top [dir; if decide (bOut = "") then Base bDir else bOut] /\
      Rel d o = Some r /\ godeps d false false = GoDepsModel.DepsOk ins /\
      t = LFiles (SubCmd "go" (["build"; "-C"; d; "-o"; r] ++ flags ++ ["."])) ins [o] /\ reg' = reg ∪ {[o]}.
  Proof.
    intros Ha. unfold binaryDecoder. split.
    - destruct (decode_struct n) as [flds|]; [|done].
      destruct (str_field ystr (field "Dir" flds)) as [bDir|] eqn:E1; [|done].
      destruct (str_field ystr (field "Out" flds)) as [bOut|] eqn:E2; [|done]. cbn zeta.
      destruct (YAMLStringList fns (field "Flags" flds) dir) as [flags|] eqn:E3; [|done].
      intros H. apply binary_ok in H; [|by apply joinpath_ne]. destruct H as (r & ins & H1 & H2 & H3 & H4).
      exists flds, bDir, bOut, flags. eexists _, _, r, ins. apply str_field_text in E1, E2.
      split; [done|]. split; [done|]. split; [done|]. split; [done|]. split; [reflexivity|]. split; [reflexivity|]. done.
    - intros (flds & bDir & bOut & flags & d & o & r & ins & -> & E1%str_field_text & E2%str_field_text & E3 & -> & -> & H).
      rewrite E1, E2. cbn zeta. rewrite E3. apply binary_ok; [by apply joinpath_ne|]. eauto.
  Qed.
  Lemma binary_rel d o w : IsAbs d = true -> IsAbs o = true -> exists r, Rel d o = Some r /\ cd (cd w d) r = cd w o.
  Proof.
    intros Hd Ho. destruct (Rel_leads w d o) as (r & H1 & _ & H2); [|congruence|eauto].
    destruct (clean_comps_abs d Hd) as [-> Hn]. by apply names_rev.
  Qed.

  (** ** Clean *)
  Lemma clean_decoder_ok n dir reg reg' t : cleanDecoder top fns ybool n dir reg = TOk reg' t <->
    exists ss ac, reg' = reg /\ t = LClean ((fun s => JoinPath top [dir; s]) <$> ss) ac /\
      ((n_kind n = KSequence /\ YAMLStringListFromNodes fns (n_content n) dir = LOk ss /\ ac = false) \/
       exists flds, decode_struct n = Some flds /\ truth ybool flds "Autoclean" ac /\ YAMLStringList fns (field "Files" flds) dir = LOk ss).
  Proof.
    unfold cleanDecoder. split.
    - destruct (n_kind n) eqn:Ek; try done.
      + destruct (YAMLFileListFromNodes fns top (n_content n) dir) as [files|] eqn:E; [|done]. intros [= <- <-].
        apply file_list_nodes_lem in E as (ss & E & ->). exists ss, false. split; [done|]. split; [done|]. by left.
      + destruct (decode_struct n) as [flds|] eqn:Ed; [|done].
        destruct (bool_field ybool (field "Autoclean" flds)) as [ac|] eqn:Ea; [|done].
        destruct (YAMLFileList fns top (field "Files" flds) dir) as [files|] eqn:E; [|done]. intros [= <- <-].
        apply file_list_lem in E as (ss & E & ->). exists ss, ac. split; [done|]. split; [done|]. right. exists flds.
        apply bool_field_truth in Ea. done.
    - intros (ss & ac & -> & -> & [(-> & E & ->)|(flds & Ed & Ea%bool_field_truth & E)]).
      + unfold YAMLFileListFromNodes. by rewrite E.
      + assert (n_kind n = KMapping) as ->. { revert Ed. unfold decode_struct. by destruct (n_kind n). }
        rewrite Ed, Ea. unfold YAMLFileList. by rewrite E.
  Qed.

  (** ** proto.Proto *)
  Lemma proto_decoder_ok n dir reg reg' t : protoDecoder top fns ybool ystrs fs n dir reg = TOk reg' t <->
    exists flds opts ac ssi sso ssc ins args,
      decode_struct n = Some flds /\ texts ystrs flds "Opts" opts /\ truth ybool flds "Autoclean" ac /\
      YAMLStringList fns (field "Inputs" flds) dir = LOk ssi /\ YAMLStringList fns (field "Outputs" flds) dir = LOk sso /\
      YAMLStringList fns (field "Includes" flds) dir = LOk ssc /\
      ProtoModel.Proto fs ((fun s => JoinPath top [dir; s]) <$> ssc) (S (size fs)) ((fun s => JoinPath top [dir; s]) <$> ssi) opts = Some (ins, args) /\
      t = LFiles (SubCmd "protoc" args) ins ((fun s => JoinPath top [dir; s]) <$> sso) /\
      reg' = if ac then reg ∪ list_to_set ((fun s => JoinPath top [dir; s]) <$> sso) else reg.
  Proof.
    unfold protoDecoder, Proto, Files, CleanModel.Autoclean. split.
    - destruct (decode_struct n) as [flds|] eqn:Ed; [|done].
      destruct (strs_field ystrs (field "Opts" flds)) as [opts|] eqn:Eo; [|done].
      destruct (bool_field ybool (field "Autoclean" flds)) as [ac|] eqn:Ea; [|done].
      destruct (YAMLFileList fns top (field "Inputs" flds) dir) as [inputs|] eqn:E1; [|done].
      destruct (YAMLFileList fns top (field "Outputs" flds) dir) as [outputs|] eqn:E2; [|done].
      destruct (YAMLFileList fns top (field "Includes" flds) dir) as [includes|] eqn:E3; [|done].
      destruct (ProtoModel.Proto fs includes (S (size fs)) inputs opts) as [[ins args]|] eqn:E; [|done].
      intros [= <- <-]. apply file_list_lem in E1 as (ssi & E1 & ->), E2 as (sso & E2 & ->), E3 as (ssc & E3 & ->).
      apply strs_field_texts in Eo. apply bool_field_truth in Ea. by exists flds, opts, ac, ssi, sso, ssc, ins, args.
    - intros (flds & opts & ac & ssi & sso & ssc & ins & args & -> & Eo%strs_field_texts & Ea%bool_field_truth & E1 & E2 & E3 & E & -> & ->).
      rewrite Eo, Ea. unfold YAMLFileList. rewrite E1, E2, E3, E. done.
  Qed.

  (** ** ts.Decls *)
  Lemma decls_decoder_ok n dir reg reg' t : declsDecoder top ybool ystr godeps n dir reg = TOk reg' t <->
    exists flds dDir typ prefix out ac ins,
      decode_struct n = Some flds /\ text ystr flds "Dir" dDir /\ text ystr flds "Type" typ /\ text ystr flds "Prefix" prefix /\
      text ystr flds "Out" out /\ truth ybool flds "Autoclean" ac /\
      godeps (JoinPath top [dir; dDir]) false false = GoDepsModel.DepsOk ins /\
      t = LFiles (SubDecls (JoinPath top [dir; dDir]) typ prefix (JoinPath top [dir; out])) ins [JoinPath top [dir; out]] /\
      reg' = if ac then reg ∪ {[JoinPath top [dir; out]]} else reg.
  Proof.
    unfold declsDecoder, Decls, Files, CleanModel.Autoclean. split.
    - destruct (decode_struct n) as [flds|] eqn:Ed; [|done].
      destruct (str_field ystr (field "Dir" flds)) as [dDir|] eqn:E1; [|done].
      destruct (str_field ystr (field "Type" flds)) as [typ|] eqn:E2; [|done].
      destruct (str_field ystr (field "Prefix" flds)) as [prefix|] eqn:E3; [|done].
      destruct (str_field ystr (field "Out" flds)) as [out|] eqn:E4; [|done].
      destruct (bool_field ybool (field "Autoclean" flds)) as [ac|] eqn:Ea; [|done].
      destruct (godeps (JoinPath top [dir; dDir]) false false) as [ins| | |] eqn:Eg; try done.
      intros [= <- <-]. apply str_field_text in E1, E2, E3, E4. apply bool_field_truth in Ea.
      exists flds, dDir, typ, prefix, out, ac, ins. repeat (split; [done|]).
      destruct ac; [|done]. f_equal. cbn [list_to_set]. by rewrite (right_id_L ∅ (∪)).
    - intros (flds & dDir & typ & prefix & out & ac & ins & -> & E1%str_field_text & E2%str_field_text & E3%str_field_text &
        E4%str_field_text & Ea%bool_field_truth & Eg & -> & ->).
      rewrite E1, E2, E3, E4, Ea, Eg. f_equal. destruct ac; [|done]. f_equal. cbn [list_to_set]. by rewrite (right_id_L ∅ (∪)).
  Qed.
End lib.

(** ** The elements proto.Deps finds. *)
Lemma pdeps_absolute fs includes fuel f l x : Forall (fun i => IsAbs i = true) includes -> IsAbs f = true -> clean f ->
  ProtoModel.Deps fs includes fuel f = ProtoModel.DepsRet l true -> x ∈ l -> IsAbs x = true /\ clean x.
Proof.
  intros Hi Hf Hc H Hx. apply (ProtoProofs.deps_possible_lem fs includes fuel f l true) in Hx as [Hx _]; [|done].
  induction Hx as [|g imp full _ _ _ (inc & Hin & -> & _)]; [done|].
  rewrite Forall_forall in Hi. specialize (Hi _ Hin). split.
  - rewrite Join_abs. rewrite decide_False; [done|]. by intros ->.
  - destruct (Join_clean [inc; imp]) as [E|E]; [|done]. apply Join_nil in E. inversion E as [|?? E']. by rewrite E' in Hi.
Qed.

(** ** Clean does not remove a directory with something in it that is not listed. *)
Lemma remove_loop_child loc parent stuck files : forall fs fs' f c, f ∈ files -> fs !! loc f = Some CleanModel.Dir ->
  parent c = Some (loc f) -> is_Some (fs !! c) -> c ∉ map loc files ->
  CleanModel.remove_loop loc parent stuck fs files <> (fs', None).
Proof.
  induction files as [|g files IH]; intros fs fs' f c Hf Hd Hp Hc Hn; [by apply elem_of_nil in Hf|].
  cbn [CleanModel.remove_loop map] in *. apply not_elem_of_cons in Hn as [Hng Hn].
  assert (Hch : CleanModel.has_children parent fs (loc f)).
  { apply Exists_exists. exists c. split; [|done]. apply elem_of_elements, elem_of_dom. done. }
  destruct (decide (loc g = loc f)) as [E|E].
  - unfold CleanModel.Remove. rewrite E, Hd. destruct (stuck (loc f)); [done|]. rewrite decide_True by done. done.
  - assert (f ∈ files) by (apply elem_of_cons in Hf as [->|?]; done).
    unfold CleanModel.Remove. destruct (fs !! loc g) as [e|] eqn:Eg; [|by eapply IH].
    destruct (stuck (loc g)); [done|]. destruct (decide _); [done|]. eapply IH; [done| |done| |done].
    + by rewrite lookup_delete_ne.
    + by rewrite lookup_delete_ne.
Qed.

(** ** Descriptions *)
Lemma tgt_of_inj s1 s2 : same_description (tgt_of s1) (tgt_of s2) -> s1 = s2.
Proof.
  intros [Ht He]. destruct s1 as [c1 a1|d1 t1 p1 o1], s2 as [c2 a2|d2 t2 p2 o2]; try done.
  - assert (H : tgt_of (SubCmd c1 a1) = tgt_of (SubCmd c2 a2)) by (apply FilesProofs7.enc_injective; [constructor|constructor|done]).
    cbn [tgt_of] in H. injection H as -> ->. done.
  - cbn [tgt_of enc] in He. injection He as -> -> -> ->. done.
Qed.
Lemma tgt_of_desc s t : same_description (tgt_of s) t -> genuine t -> t = tgt_of s.
Proof.
  intros Hd Hg. destruct t as [|c| | | | | | | |ty j]; try (destruct s; by destruct Hd).
  - destruct s as [cm a|]; [|by destruct Hd]. symmetry. apply FilesProofs7.enc_injective; [constructor|constructor|apply Hd].
  - destruct (Hg ty j eq_refl) as [H1 H2]. destruct s as [cm a|d typ p o].
    + destruct Hd as [Ht _]. cbn in Ht. by injection Ht as <-.
    + destruct H2 as [s' Hs']; [by destruct Hd as [[= <-] _]|]. rewrite Hs' in Hd |- *. by rewrite (tgt_of_inj _ _ Hd).
Qed.

Section hist.
  Context (hashf : string -> string) (H : json -> hash) (R : string -> option tgt) (fs0 : FileHashModel.files_state).
  Context (Hh : Inj (=) (=) hashf) (Hne : forall c, hashf c <> "") (HH : Inj (=) (=) H).
  Lemma library_changed tr a i b r fl s : history hashf H R fs0 tr -> tr = a ++ LRet i RNil :: b ->
    LStart i r fl ∈ a -> r_tgt r = tgt_of s ->
    (forall j fs' r' h, success_recorded R fs0 a j fs' r' h -> genuine (r_tgt r') /\ r_tgt r' <> tgt_of s) ->
    LSubEnd i None ∈ a.
  Proof.
    intros Ht Htr Hst Hs Hrec. eapply (FilesProofs5.changed_runs hashf H R fs0 Hh Hne HH); [exact Ht|exact Htr|].
    intros a1 r1 h a2 j fs' r' Ha Hsr [Hd _].
    assert (Hha : history hashf H R fs0 a) by (by eapply FilesProofs5.prefix_history).
    destruct (FilesProofs5.hash_unique hashf H R fs0 a i Before (files_after fs0 a1) r1 (FileHashModel.HOk h) Hha) as (l1 & l2 & r0 & fl0 & Hl & _ & _ & _ & Hs0 & -> & _).
    { rewrite Ha, elem_of_app. right. by left. }
    destruct (FilesProofs5.history_reach _ _ _ _ _ Hha) as (st & Hr & Hlog).
    destruct (FilesProofs3.ev_start _ _ _ _ st i r fl r0 fl0 Hr) as [<- _]; [by rewrite Hlog|by rewrite Hlog, Hl, elem_of_app; left|].
    destruct (Hrec _ _ _ _ Hsr) as [Hg Hx]. apply Hx. rewrite Hs in Hd. by apply tgt_of_desc.
  Qed.
End hist.
