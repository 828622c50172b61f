From stdpp Require Import base gmap list strings.
From Coq Require Import Ascii.
From Verif Require Import PathModel DriverModel DriverSpec DriverProofs DriverProofs2 DriverProofs3.
Local Open Scope list_scope.

(** ** dirHasher *)
Definition bases (files : list (string * string)) : list string := (fun f => Base f.1) <$> files.
Lemma fold_lookup H files : forall d, NoDup (bases files) -> (forall n, n ∈ bases files -> d !! n = None) -> forall n h,
  foldl (dh_file H) d files !! n = Some h <-> d !! n = Some h \/ exists f, f ∈ files /\ Base f.1 = n /\ sha H f.2 = h.
Proof.
  induction files as [|f files IH]; intros d Hn Hd n h; simpl.
  - split; [by left|]. intros [?|(? & ?%elem_of_nil & _)]; done.
  - unfold bases in Hn. simpl in Hn. apply NoDup_cons in Hn as [Hf Hn]. rewrite IH; [|done|].
    + unfold dh_file. destruct (decide (Base f.1 = n)) as [<-|Hne].
      * rewrite lookup_insert. split.
        -- intros [[= <-]|(g & Hg & ? & ?)]; [right; exists f; by split; [left|]|right; exists g; by split; [right|]].
        -- intros [H1|(g & Hg & E & <-)].
           ++ rewrite Hd in H1; [done|]. by left.
           ++ apply elem_of_cons in Hg as [->|Hg]; [by left|]. right. by exists g.
      * rewrite lookup_insert_ne by done. split.
        -- intros [?|(g & Hg & ? & ?)]; [by left|right; exists g; by split; [right|]].
        -- intros [H1|(g & Hg & E & <-)]; [by left|]. apply elem_of_cons in Hg as [->|Hg]; [done|]. right. by exists g.
    + intros m Hm. unfold dh_file. rewrite lookup_insert_ne by (intros <-; done). apply Hd. by right.
Qed.
Lemma dirhash_map H files : NoDup (bases files) -> dirhash H files = dh_hash H (sha H <$> (list_to_map ((fun f => (Base f.1, f.2)) <$> files) : gmap string string)).
Proof.
  intros Hn. unfold dirhash. f_equal. apply map_eq. intros n. apply option_eq. intros h.
  rewrite fold_lookup by (try done; intros; apply lookup_empty). rewrite lookup_empty, lookup_fmap, fmap_Some.
  assert (Hn' : NoDup ((fun f => (Base f.1, f.2)) <$> files).*1). { rewrite <- list_fmap_compose. done. }
  split.
  - intros [?|(f & Hf & <- & <-)]; [done|]. exists f.2. split; [|done]. apply elem_of_list_to_map; [done|].
    apply elem_of_list_fmap. by exists f.
  - intros (c & Hc & ->). right. apply elem_of_list_to_map in Hc; [|done]. apply elem_of_list_fmap in Hc as (f & [= -> ->] & Hf). by exists f.
Qed.
Lemma dirhash_order H a b : NoDup (bases a) -> a ≡ₚ b -> dirhash H a = dirhash H b.
Proof.
  intros Hn Hp. assert (Hnb : NoDup (bases b)). { unfold bases. by rewrite <- Hp. }
  rewrite !dirhash_map by done. do 2 f_equal. apply list_to_map_proper; [rewrite <- list_fmap_compose; done|]. by rewrite Hp.
Qed.
Lemma dirhash_detects H a b : NoDup (bases a) -> NoDup (bases b) ->
  (forall x y, sha H x = sha H y -> x = y) -> (forall x y, json H x = json H y -> x = y) -> dirhash H a = dirhash H b ->
  forall n c, (exists f, f ∈ a /\ Base f.1 = n /\ f.2 = c) <-> (exists f, f ∈ b /\ Base f.1 = n /\ f.2 = c).
Proof.
  intros Ha Hb Hs Hj E. unfold dirhash, dh_hash in E. apply Hs, Hj in E.
  assert (Hdir : forall a b, NoDup (bases a) -> NoDup (bases b) -> foldl (dh_file H) ∅ a = foldl (dh_file H) ∅ b -> forall n c,
    (exists f, f ∈ a /\ Base f.1 = n /\ f.2 = c) -> (exists f, f ∈ b /\ Base f.1 = n /\ f.2 = c)).
  { clear -Hs. intros a b Ha Hb E n c (f & Hf & Hn & Hc).
    assert (H1 : foldl (dh_file H) ∅ a !! n = Some (sha H c)). { apply fold_lookup; [done|intros; apply lookup_empty|]. right. exists f. by subst. }
    rewrite E in H1. apply fold_lookup in H1 as [H1|(g & Hg & ? & Hsha)]; [by rewrite lookup_empty in H1| |done|intros; apply lookup_empty].
    exists g. split_and!; [done|done|]. by apply Hs. }
  intros n c. split; by apply Hdir.
Qed.
(** The premise on hashes in C44 follows. *)
Lemma sub_length n : forall s, String.length (substring 0 n s) = String.length s -> substring 0 n s = s.
Proof.
  induction n as [|n IH]; intros s H.
  - rewrite sub_none in *. destruct s; [done|]. simpl in H. discriminate H.
  - destruct s as [|c s]; [done|]. simpl in *. f_equal. apply IH. by injection H.
Qed.
Lemma real_hash_ok H enc dec : (forall x y, sha H x = sha H y -> x = y) -> (forall x y, json H x = json H y -> x = y) ->
  (forall x y, String.length (sha H x) = String.length (sha H y)) ->
  hash_ok {| t_hash := fun s => dh_hash H (sha H <$> s); t_enc := enc; t_dec := dec |}.
Proof.
  intros Hs Hj Hl a b n E. simpl in E. unfold dh_hash in E.
  assert (E2 : sha H (json H (sha H <$> a)) = sha H (json H (sha H <$> b))).
  { rewrite <- E. symmetry. apply sub_length. rewrite E. apply Hl. }
  apply Hs, Hj in E2. apply map_eq. intros k. assert (E3 : (sha H <$> a) !! k = (sha H <$> b) !! k) by (by rewrite E2).
  rewrite !lookup_fmap in E3. destruct (a !! k) as [x|], (b !! k) as [y|]; simpl in E3; try done. injection E3 as E3. by apply Hs in E3 as ->.
Qed.

(** ** Flags *)
Lemma parse_string flags s f name x rest v : classify s = AFlag f -> split_eq f = (name, None) -> flags !! name = Some FString ->
  parse flags (s :: x :: rest) v = parse flags rest (<[name := VString x]> v).
Proof. intros H1 H2 H3. simpl. by rewrite H1, H2, H3. Qed.
Lemma parse_bool flags s f name rest v : classify s = AFlag f -> split_eq f = (name, None) -> flags !! name = Some FBool ->
  parse flags (s :: rest) v = parse flags rest (<[name := VBool true]> v).
Proof. intros H1 H2 H3. simpl. by rewrite H1, H2, H3. Qed.
Lemma classify_not s : classify s = ANotFlag <-> ~ flaglike s.
Proof.
  unfold flaglike, classify. destruct s as [|c [|c2 s]]; [split; [by intros _ (? & ? & ?)|done]|split; [by intros _ (? & ? & ?)|done]|].
  destruct (decide (c = minus)) as [->|Hne].
  - split; [|intros H; exfalso; apply H; by exists c2, s]. destruct (decide (c2 = minus)); [|destruct (decide _); done].
    destruct s; [done|]. by destruct (decide _).
  - split; [|done]. intros _ (? & ? & [= -> _]). done.
Qed.
Definition not_flag_first (args : list string) : Prop := match args with [] => True | s :: _ => ~ flaglike s end.
Lemma parse_stop flags args v : not_flag_first args -> parse flags args v = Some (v, args).
Proof. destruct args as [|s args]; [done|]. intros H%classify_not. simpl. by rewrite H. Qed.
Definition set_bool (n : string) (b : bool) (v : vals) : vals := if b then <[n := VBool true]> v else v.
Lemma parse_bool_if s f name (b : bool) rest v : classify s = AFlag f -> split_eq f = (name, None) -> driver_flags !! name = Some FBool ->
  parse driver_flags ((if b then [s] else []) ++ rest) v = parse driver_flags rest (set_bool name b v).
Proof. intros H1 H2 H3. destruct b; [|done]. by eapply parse_bool. Qed.
Lemma get_string_set n m b v d : n <> m -> get_string (set_bool m b v) n d = get_string v n d.
Proof. intros H. unfold set_bool, get_string. destruct b; [|done]. by rewrite lookup_insert_ne. Qed.
Lemma get_bool_set_ne n m b v : n <> m -> get_bool (set_bool m b v) n = get_bool v n.
Proof. intros H. unfold set_bool, get_bool. destruct b; [|done]. by rewrite lookup_insert_ne. Qed.
Lemma get_bool_set n b v : v !! n = None -> get_bool (set_bool n b v) n = b.
Proof. intros H. unfold set_bool, get_bool. destruct b; [by rewrite lookup_insert|by rewrite H]. Qed.
Lemma flags_lem cache m : not_flag_first (m_args m) -> driver_main cache (driver_args m) = Some m.
Proof.
  intros Hn. destruct m as [fd td vb ls fo dr args]. unfold driver_main, driver_args. simpl m_args in *. cbn [m_fabdir m_topdir m_verbose m_list m_force m_dryrun m_args app].
  rewrite (parse_string _ "-fab" "fab" "fab") by (vm_compute; done). rewrite (parse_string _ "-top" "top" "top") by (vm_compute; done).
  rewrite (parse_bool_if "-v" "v" "v") by (vm_compute; done). rewrite (parse_bool_if "-list" "list" "list") by (vm_compute; done).
  rewrite (parse_bool_if "-f" "f" "f") by (vm_compute; done). rewrite (parse_bool_if "-n" "n" "n") by (vm_compute; done).
  rewrite parse_stop by done. cbv beta iota. f_equal. 
  set (v0 := <["top" := VString td]> (<["fab" := VString fd]> ∅) : vals).
  assert (N : forall n, n <> "top" -> n <> "fab" -> v0 !! n = None) by (intros n ? ?; unfold v0; by rewrite !lookup_insert_ne, lookup_empty by done).
  assert (SN : forall n b m v, n <> m -> v !! n = None -> set_bool m b v !! n = None) by (intros n b m v ? ?; unfold set_bool; destruct b; [by rewrite lookup_insert_ne|done]).
  rewrite !get_string_set by done.
  rewrite (get_bool_set_ne "v" "n"), (get_bool_set_ne "v" "f"), (get_bool_set_ne "v" "list") by done.
  rewrite (get_bool_set_ne "list" "n"), (get_bool_set_ne "list" "f") by done.
  rewrite (get_bool_set_ne "f" "n") by done.
  rewrite !get_bool_set by (repeat apply SN; try done; by apply N).
  f_equal; unfold get_string, v0; by simplify_map_eq.
Qed.
(** What fab's own parsing leaves over. *)
Lemma parse_rest flags : forall args v v' rest, parse flags args v = Some (v', rest) -> "--" ∉ args -> not_flag_first rest.
Proof.
  fix IH 1. intros args v v' rest H Hn. destruct args as [|s args]; [simpl in H; by simplify_eq|]. cbn [parse] in H.
  destruct (classify s) as [| | |f] eqn:Ec; [| |done|].
  - simplify_eq. simpl. by apply classify_not.
  - exfalso. apply Hn. unfold classify in Ec. destruct s as [|c [|c2 s]]; try done. destruct (decide (c = minus)) as [->|]; [|done].
    destruct (decide (c2 = minus)) as [->|]; [|by destruct (decide _)]. destruct s; [by left|]. by destruct (decide _).
  - assert (Hn' : "--" ∉ args) by (intros ?; apply Hn; by right).
    destruct (split_eq f) as [name value]. destruct (flags !! name) as [[|]|]; [| |done].
    + destruct value as [x|]; [by eapply (IH args)|]. destruct args as [|x args]; [done|]. eapply (IH args); [done|]. intros ?. apply Hn'. by right.
    + destruct value as [x|]; [|by eapply (IH args)]. destruct (ParseBool x); [|done]. by eapply (IH args).
Qed.
Lemma end_to_end cache cache' top argv m : fab_main cache top argv = Some m -> "--" ∉ argv -> driver_main cache' (driver_args m) = Some m.
Proof.
  unfold fab_main. destruct (parse fab_flags argv ∅) as [[v args]|] eqn:E; [|done]. intros H Hn. apply flags_lem. simplify_eq. simpl. by eapply parse_rest.
Qed.
Lemma terminator_lem cache cache' top : exists m m', fab_main cache top ["--"; "-n"] = Some m /\ m_dryrun m = false /\ m_args m = ["-n"] /\
  driver_main cache' (driver_args m) = Some m' /\ m_dryrun m' = true /\ m_args m' = [].
Proof.
  eexists. eexists. split; [vm_compute; reflexivity|]. split; [reflexivity|]. split; [reflexivity|].
  split; [|split].
  - unfold driver_main, driver_args. cbn [m_fabdir m_topdir m_verbose m_list m_force m_dryrun m_args app].
    rewrite (parse_string _ "-fab" "fab" "fab") by (vm_compute; done). rewrite (parse_string _ "-top" "top" "top") by (vm_compute; done).
    rewrite (parse_bool _ "-n" "n" "n") by (vm_compute; done). reflexivity.
  - simpl. unfold get_bool. by rewrite lookup_insert.
  - reflexivity.
Qed.
