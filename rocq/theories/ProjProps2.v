(** C75.  The order that YAML definitions ask for is the order of execution.  See ProjProps.v for
    the setting; the vocabulary is in ProjSpec.v. *)
From stdpp Require Import base gmap list strings relations.
From Verif Require Import PathModel FindModel ContextModel RunnerModel RunnerSpec RunnerSpec2 RunnerProofs3 YamlModel YamlSpec ProjModel ProjSpec.
From Verif Require Import ProjProofs ProjProofs2 ProjProofs3 ProjLaid ProjProofs4 ProjProofs6 ProjProofs7 RunnerProps RunnerProps2 YamlProps ProjProps.
Local Open Scope list_scope.

(** ** What is written in place within a !Seq, in its [j]th part at any depth, starts only after
    everything required of the earlier parts has been carried out without error.  (What is there
    only by name, and rules for files, may be run earlier on behalf of others.)  [v]: the
    definition of a registered name [q]; [n]: the !Seq, in place somewhere in [v]; [r], [y] and
    [x]: the targets for [n], for its [j]th part, and for the node [n'] within that. *)
Theorem C75_seq_parts_start_in_order top fns leaf ybool docs ne s lf objs' addr leafp l1 g a x cx l2
    q doc o dir k v n r i j ci cj y n' d m :
  loads top fns leaf ybool docs ne s -> expands lf (snd <$> y_reg s) (y_objs s) objs' ->
  (forall o1 o2, addr o1 = addr o2 -> o1 = o2) -> defined_once top docs -> (forall o cx ts, ~ may_call (leafp o cx) ts) ->
  executes (project_world addr objs' leafp) (snd <$> y_reg s) (l1 ++ EvStart g a x cx :: l2) ->
  clients_ask_registered s objs' (l1 ++ EvStart g a x cx :: l2) ->
  y_reg s !! q = Some (doc, o) -> defines top docs dir q k v -> tagged v ->
  spot (y_objs s) (fun _ => True) v o n r -> has_tag n "Seq" ->
  i < j -> n_content n !! i = Some ci -> n_content n !! j = Some cj -> tagged cj -> slot (y_objs s) r j y ->
  ~ is_rule objs' y -> spot (y_objs s) (fun x => ~ is_rule objs' x) cj y n' x ->
  required top fns docs lf false (fun q => is_Some (y_reg s !! q)) dir ci d m -> tagged m ->
  exists z, means top fns leaf ybool docs (y_objs s) d m z /\ ended_well z l1.
Proof.
  intros Hl He Hi Ho Hq Hx Hcl Hr Hd Ht Hsp. pose proof (def_laid _ _ _ _ _ _ _ Hl Ho _ _ _ _ _ _ Hr Hd Ht) as Hla.
  apply (laid_spot top fns leaf ybool docs s dir) in Hsp; [|exact Hla]. eapply seq_start_lem; try done. by apply exec_part.
Qed.
Print Assumptions C75_seq_parts_start_in_order.

(** ** The same for a !Deps: what is written in place in its main part starts only after everything
    required of its prerequisites has been carried out without error. *)
Theorem C75_deps_before_main_part top fns leaf ybool docs ne s lf objs' addr leafp l1 g a x cx l2
    q doc o dir k v n r post pre c y n' d m :
  loads top fns leaf ybool docs ne s -> expands lf (snd <$> y_reg s) (y_objs s) objs' ->
  (forall o1 o2, addr o1 = addr o2 -> o1 = o2) -> defined_once top docs -> (forall o cx ts, ~ may_call (leafp o cx) ts) ->
  executes (project_world addr objs' leafp) (snd <$> y_reg s) (l1 ++ EvStart g a x cx :: l2) ->
  clients_ask_registered s objs' (l1 ++ EvStart g a x cx :: l2) ->
  y_reg s !! q = Some (doc, o) -> defines top docs dir q k v -> tagged v ->
  spot (y_objs s) (fun _ => True) v o n r -> has_tag n "Deps" ->
  deps_parts n post pre -> c ∈ pre -> tagged post -> slot (y_objs s) r 1 y ->
  ~ is_rule objs' y -> spot (y_objs s) (fun x => ~ is_rule objs' x) post y n' x ->
  required top fns docs lf false (fun q => is_Some (y_reg s !! q)) dir c d m -> tagged m ->
  exists z, means top fns leaf ybool docs (y_objs s) d m z /\ ended_well z l1.
Proof.
  intros Hl He Hi Ho Hq Hx Hcl Hr Hd Ht Hsp. pose proof (def_laid _ _ _ _ _ _ _ Hl Ho _ _ _ _ _ _ Hr Hd Ht) as Hla.
  apply (laid_spot top fns leaf ybool docs s dir) in Hsp; [|exact Hla]. eapply deps_start_lem; try done. by apply exec_part.
Qed.
Print Assumptions C75_deps_before_main_part.

(** ** Parts in general, names and rules included: a running !Seq asks for its parts one at a time,
    each only after everything required of the earlier ones has been carried out without error. *)
Theorem C75_seq_asks_in_order top fns leaf ybool docs ne s lf objs' addr leafp l1 c g cx' ts l2 a o cx dir n :
  loads top fns leaf ybool docs ne s -> expands lf (snd <$> y_reg s) (y_objs s) objs' ->
  (forall o1 o2, addr o1 = addr o2 -> o1 = o2) -> defined_once top docs ->
  executes (project_world addr objs' leafp) (snd <$> y_reg s) (l1 ++ EvCall c (Some g) cx' ts :: l2) ->
  EvStart g a o cx ∈ l1 -> means top fns leaf ybool docs (y_objs s) dir n o -> has_tag n "Seq" ->
  exists j cj t, n_content n !! j = Some cj /\ means top fns leaf ybool docs (y_objs s) dir cj t /\ ts = [TPtr t] /\
    forall i ci d m, i < j -> n_content n !! i = Some ci ->
      required top fns docs lf false (fun q => is_Some (y_reg s !! q)) dir ci d m -> tagged m ->
      exists z, means top fns leaf ybool docs (y_objs s) d m z /\ ended_well z l1.
Proof. intros Hl He Hi Ho Hx. intros. eapply (seq_call_lem top fns leaf ybool docs ne s lf objs'); try done. by apply exec_part. Qed.
Print Assumptions C75_seq_asks_in_order.

(** ... and a running !Deps asks first for the group of its prerequisites, and for its main part
    only after everything required of them has been carried out without error. *)
Theorem C75_deps_asks_in_order top fns leaf ybool docs ne s lf objs' addr leafp l1 c g cx' ts l2 a o cx dir n post pre :
  loads top fns leaf ybool docs ne s -> expands lf (snd <$> y_reg s) (y_objs s) objs' ->
  (forall o1 o2, addr o1 = addr o2 -> o1 = o2) -> defined_once top docs ->
  executes (project_world addr objs' leafp) (snd <$> y_reg s) (l1 ++ EvCall c (Some g) cx' ts :: l2) ->
  EvStart g a o cx ∈ l1 -> means top fns leaf ybool docs (y_objs s) dir n o -> has_tag n "Deps" -> deps_parts n post pre ->
  (exists a0 os, ts = [TPtr a0] /\ y_objs s !! a0 = Some (SAll os) /\ Forall2 (means top fns leaf ybool docs (y_objs s) dir) pre os) \/
  (exists t, ts = [TPtr t] /\ means top fns leaf ybool docs (y_objs s) dir post t /\
    forall ci d m, ci ∈ pre ->
      required top fns docs lf false (fun q => is_Some (y_reg s !! q)) dir ci d m -> tagged m ->
      exists z, means top fns leaf ybool docs (y_objs s) d m z /\ ended_well z l1).
Proof. intros Hl He Hi Ho Hx. intros. eapply (deps_call_lem top fns leaf ybool docs ne s lf objs'); try done. by apply exec_part. Qed.
Print Assumptions C75_deps_asks_in_order.

(** ** What is written in place has a target of its own: no other target has it as a part, and no
    name stands for it.  So it starts only after the target that it is part of. *)
Theorem C75_in_place_is_private top fns leaf ybool docs ne s q doc o dir k v n r c p j x :
  loads top fns leaf ybool docs ne s -> defined_once top docs ->
  y_reg s !! q = Some (doc, o) -> defines top docs dir q k v -> tagged v ->
  spot (y_objs s) (fun _ => True) v o n r -> placed (y_objs s) n r c p j x -> tagged c ->
  (forall p' j', slot (y_objs s) p' j' x -> p' = p /\ j' = j) /\ (forall q' d, y_reg s !! q' <> Some (d, x)).
Proof.
  intros Hl Ho Hr Hd Ht Hsp Hpl Htc. pose proof (def_laid _ _ _ _ _ _ _ Hl Ho _ _ _ _ _ _ Hr Hd Ht) as Hla.
  apply (laid_spot top fns leaf ybool docs s dir) in Hsp; [|exact Hla]. destruct (laid_own _ _ _ _ _ _ _ _ _ _ _ _ _ Hsp Hpl Htc) as (_ & H1 & _ & H2). done.
Qed.
Print Assumptions C75_in_place_is_private.
Theorem C75_in_place_starts_within top fns leaf ybool docs ne s lf objs' addr leafp l1 g a x cx l2
    q doc o dir k v n r n' :
  loads top fns leaf ybool docs ne s -> expands lf (snd <$> y_reg s) (y_objs s) objs' ->
  (forall o1 o2, addr o1 = addr o2 -> o1 = o2) -> defined_once top docs -> (forall o cx ts, ~ may_call (leafp o cx) ts) ->
  executes (project_world addr objs' leafp) (snd <$> y_reg s) (l1 ++ EvStart g a x cx :: l2) ->
  clients_ask_registered s objs' (l1 ++ EvStart g a x cx :: l2) ->
  y_reg s !! q = Some (doc, o) -> defines top docs dir q k v -> tagged v ->
  spot (y_objs s) (fun _ => True) v o n r -> spot (y_objs s) (fun x => ~ is_rule objs' x) n r n' x ->
  x = r \/ exists g' a' cx', EvStart g' a' r cx' ∈ l1.
Proof.
  intros Hl He Hi Ho Hq Hx Hcl Hr Hd Ht Hsp Hin. pose proof (def_laid _ _ _ _ _ _ _ Hl Ho _ _ _ _ _ _ Hr Hd Ht) as Hla.
  apply (laid_spot top fns leaf ybool docs s dir) in Hsp; [|exact Hla].
  apply (spot_in_place top fns leaf ybool docs s lf objs' He dir) in Hin; [|exact Hsp].
  eapply start_inside; try done. by apply exec_part.
Qed.
Print Assumptions C75_in_place_starts_within.

(** The steps [ts] of a multi-line command, target [o]: each starts only when the earlier ones
    have ended without error, and each runs at most once. *)
Theorem C75_steps_in_order top fns leaf ybool docs ne s lf objs' addr leafp l1 g a x cx l2 o t n d ts i j y :
  loads top fns leaf ybool docs ne s -> expands lf (snd <$> y_reg s) (y_objs s) objs' ->
  (forall o1 o2, addr o1 = addr o2 -> o1 = o2) -> (forall o cx ts, ~ may_call (leafp o cx) ts) ->
  executes (project_world addr objs' leafp) (snd <$> y_reg s) (l1 ++ EvStart g a x cx :: l2) ->
  clients_ask_registered s objs' (l1 ++ EvStart g a x cx :: l2) ->
  y_objs s !! o = Some (SLeaf t n d) -> objs' !! o = Some (SSeq ts) -> i < j -> ts !! i = Some y -> ts !! j = Some x ->
  ended_well y l1.
Proof.
  intros Hl He Hi Hq Hx Hcl Ho Ho' Hij Hy Hx'.
  exact (steps_lem _ _ _ _ _ _ _ _ _ Hl He _ _ Hi Hq _ _ _ _ _ _ _ _ _ _ _ _ _ (exec_part _ _ _ _ _ Hx) Hcl Ho Ho' Hx' _ _ Hij Hy).
Qed.
Print Assumptions C75_steps_in_order.
Theorem C77_steps_at_most_once top fns leaf ybool docs ne s lf objs' addr leafp tr o t n d ts j x i1 i2 g1 g2 a1 a2 cx1 cx2 :
  loads top fns leaf ybool docs ne s -> expands lf (snd <$> y_reg s) (y_objs s) objs' ->
  executes (project_world addr objs' leafp) (snd <$> y_reg s) tr ->
  y_objs s !! o = Some (SLeaf t n d) -> objs' !! o = Some (SSeq ts) -> ts !! j = Some x ->
  tr !! i1 = Some (EvStart g1 a1 x cx1) -> tr !! i2 = Some (EvStart g2 a2 x cx2) -> i1 = i2.
Proof. intros Hl He Hx Ho Ho' Hj H1 H2. exact (steps_once _ _ _ _ _ _ _ _ _ Hl He _ _ _ _ _ _ _ _ _ _ _ _ _ _ _ _ _ _ Hx Ho Ho' Hj H1 H2). Qed.
Print Assumptions C77_steps_at_most_once.

(** ** A concrete project. *)
Definition n_checks : node := sq "!All" [cmd "a"; sq "!Seq" [cmd "b"; cmd "c"]].
Definition n_ship : node := sq "!Deps" [cmd "post"; cmd "pre"].
Definition n_all : node := sq "!Seq" [sc "Gen"; n_checks; n_ship].
Definition o_entries : list (node * node) := [ (sc "Main", n_all); (sc "Gen", cmd "gen") ].
Definition odocs (f : string) : option node := if decide (f = "/p") then Some (document o_entries) else None.
Definition oproj : ystate :=
  match ReadYAMLFile "/p" odocs ne0 (YAMLTarget "/p" fns0 leaf0 ybool0 odocs ne0 20) "" s_empty with ROk s _ => s | _ => s_empty end.
Definition oworld : world := project_world (fun o => 100 + o) (y_objs oproj) ok_leaf.
Definition olog : list event := s_log (client 300 oworld init [ChRegister "Main" 10; ChRegister "Gen" 11; ChRun Background [TPtr 10]]).
Lemma oproj_objs : y_objs oproj = [SRef "Gen"; SLeaf "Command" (cmd "a") ""; SLeaf "Command" (cmd "b") ""; SLeaf "Command" (cmd "c") "";
  SSeq [2; 3]; SAll [1; 4]; SLeaf "Command" (cmd "post") ""; SLeaf "Command" (cmd "pre") ""; SAll [7]; SSeq [8; 6]; SSeq [0; 5; 9]; SLeaf "Command" (cmd "gen") ""].
Proof. vm_compute. reflexivity. Qed.

Lemma oproj_loads : loads "/p" fns0 leaf0 ybool0 odocs ne0 oproj.
Proof. exists 20. left. vm_compute. reflexivity. Qed.
Lemma odefines dir q k v : defines "/p" odocs dir q k v -> dir = "" /\ ((q = "Main" /\ v = n_all) \/ (q = "Gen" /\ v = cmd "gen")).
Proof.
  intros (D & doc & ps & Hd & Hdir & Hps & Hin & Hkey & ->). unfold odocs in Hd. unfold file_dir in Hdir.
  destruct (decide (Join ["/p"; D] = "/p")) as [E|E]; [|done].
  rewrite E in Hdir. vm_compute in Hdir. injection Hdir as <-. injection Hd as <-. split; [done|].
  assert (ps = o_entries) as -> by (eapply YamlProofs2.has_entries_fun; [done|by eexists]).
  repeat (apply elem_of_cons in Hin as [[= -> ->]|Hin]); [..|by apply elem_of_nil in Hin]; vm_compute; tauto.
Qed.
Lemma oonce : defined_once "/p" odocs.
Proof. intros q d1 k1 v1 d2 k2 v2 H1 H2. apply odefines in H1, H2. naive_solver. Qed.
Lemma odefs k v : (k, v) ∈ o_entries -> defines "/p" odocs "" (n_value k) k v.
Proof.
  intros H. exists "", (document o_entries), o_entries. split; [vm_compute; reflexivity|]. split; [vm_compute; reflexivity|].
  split; [by eexists|]. split; [done|].
  repeat (apply elem_of_cons in H as [[= -> ->]|H]); [split; [done|vm_compute; reflexivity]..|by apply elem_of_nil in H].
Qed.
Lemma oexecutes : executes oworld (snd <$> y_reg oproj) olog.
Proof.
  split; [apply client_trace|].
  assert (E : olog = [EvRegister "Main" 10; EvRegister "Gen" 11] ++ drop 2 olog) by (vm_compute; reflexivity).
  assert (Hl : forall n x, EvRegister n x ∉ drop 2 olog) by (apply no_reg; vm_compute; reflexivity).
  revert E Hl. generalize (drop 2 olog). generalize olog. intros tr l -> Hl. split.
  - intros i j c p cx ts name x Hi Hj. destruct (decide (j < 2)) as [Hj2|Hj2].
    + destruct (decide (i < 2)) as [Hi2|]; [|lia]. exfalso. destruct i as [|[|i]]; [discriminate Hi|discriminate Hi|lia].
    + rewrite lookup_app_r in Hj by (simpl; lia). exfalso. apply elem_of_list_lookup_2 in Hj. by apply Hl in Hj.
  - intros n x. rewrite elem_of_app, !elem_of_cons, elem_of_nil. split.
    + intros [[[= -> ->]|[[= -> ->]|[]]]|H]; [| |by apply Hl in H]; apply lookup_fmap_Some.
      * exists ("", 10). split; [reflexivity|vm_compute; reflexivity].
      * exists ("", 11). split; [reflexivity|vm_compute; reflexivity].
    + rewrite lookup_fmap, fmap_Some. intros ([doc x'] & Hq & ->). simpl. apply elem_of_map_to_list in Hq.
      match type of Hq with _ ∈ ?l => let v := eval vm_compute in l in change l with v in Hq end.
      left. apply elem_of_cons in Hq as [[= -> <- <-]|Hq]; [by left|]. apply elem_of_cons in Hq as [[= -> <- <-]|Hq]; [right; by left|]. apply elem_of_nil in Hq. destruct Hq.
Qed.
Lemma oclients : clients_ask_registered oproj (y_objs oproj) olog.
Proof.
  assert (H : forallb (fun ev => match ev with EvCall _ None _ [TPtr o'] => bool_decide (o' = 10) | EvCall _ None _ _ => false | _ => true end) olog = true)
    by (vm_compute; reflexivity).
  rewrite forallb_forall in H. intros c cx ts t Hin Ht. apply elem_of_list_In, H in Hin.
  destruct ts as [|[o'|] [|]]; try discriminate Hin. apply bool_decide_eq_true in Hin as ->. apply elem_of_list_singleton in Ht as ->. exists "Main", "", 10. split; [left; reflexivity|vm_compute; reflexivity].
Qed.
Lemma tag_of t l : t <> "" -> ~ begins (Ascii.ascii_of_nat 33) t -> has_tag (sq ("!" +:+ t) l) t.
Proof. intros. split; [done|]. split; [done|]. by right. Qed.
Lemma oall_tag : has_tag n_all "Seq".
Proof. apply tag_of; [done|]. intros [? [=]]. Qed.
Lemma ochecks_tag : has_tag n_checks "All".
Proof. apply tag_of; [done|]. intros [? [=]]. Qed.
Lemma oship_tag : has_tag n_ship "Deps".
Proof. apply tag_of; [done|]. intros [? [=]]. Qed.
Lemma oinner_tag : has_tag (sq "!Seq" [cmd "b"; cmd "c"]) "Seq".
Proof. apply tag_of; [done|]. intros [? [=]]. Qed.
Lemma ocmd_tag x : tagged (cmd x).
Proof. exists "Command". apply tag_of; [done|]. intros [? [=]]. Qed.
Lemma ono_rule x : ~ is_rule (y_objs oproj) x.
Proof.
  intros (t & ins & outs & ac & H). rewrite oproj_objs in H. do 12 (destruct x as [|x]; [discriminate H|]). discriminate H.
Qed.
Notation oreq := (required "/p" fns0 odocs no_rules false (fun q => is_Some (y_reg oproj !! q)) "").
(** Everything in the first two parts of Main is required of them ... *)
Lemma oreq_gen : oreq (sc "Gen") "" (cmd "gen").
Proof.
  eapply (req_name _ _ _ _ _ _ _ _ "Gen" "" (sc "Gen") (cmd "gen")); [|apply (odefs (sc "Gen")); right; by left|constructor].
  split; [right; right; by eexists|]. split; [done|vm_compute; reflexivity].
Qed.
Lemma oreq_b : oreq n_checks "" (cmd "b").
Proof.
  eapply req_part; [|right; intros H|eapply req_part; [|right; intros H|constructor]].
  - eapply part_list; [exact ochecks_tag|by left|done|]. right. by left.
  - by pose proof (YamlProofs.has_tag_fun _ _ _ ochecks_tag H).
  - eapply part_list; [exact oinner_tag|auto|done|]. by left.
  - by pose proof (YamlProofs.has_tag_fun _ _ _ oinner_tag H).
Qed.
Lemma split_at_some {A} (l : list A) i x : l !! i = Some x -> l = take i l ++ x :: drop (S i) l.
Proof. intros. symmetry. by apply take_drop_middle. Qed.
Lemma olog_post : exists l1 g l2, olog = l1 ++ EvStart g 106 6 [] :: l2 /\ length l1 = 48.
Proof. exists (take 48 olog), 10, (drop 49 olog). split; [apply split_at_some; vm_compute; reflexivity|vm_compute; reflexivity]. Qed.
Lemma olog_c : exists l1 g l2, olog = l1 ++ EvStart g 103 3 [] :: l2 /\ length l1 = 26.
Proof. exists (take 26 olog), 6, (drop 27 olog). split; [apply split_at_some; vm_compute; reflexivity|vm_compute; reflexivity]. Qed.
(** ... so it has been carried out when the command post of the third part starts, *)
Example C75_seq_case l1 g l2 : olog = l1 ++ EvStart g 106 6 [] :: l2 ->
  (exists z, means "/p" fns0 leaf0 ybool0 odocs (y_objs oproj) "" (cmd "gen") z /\ ended_well z l1) /\
  (exists z, means "/p" fns0 leaf0 ybool0 odocs (y_objs oproj) "" (cmd "b") z /\ ended_well z l1).
Proof.
  intros E. pose proof oexecutes as Hx. pose proof oclients as Hc. rewrite E in Hx, Hc.
  assert (Hpl : forall i ci m, (i = 0 /\ ci = sc "Gen" /\ m = cmd "gen") \/ (i = 1 /\ ci = n_checks /\ m = cmd "b") ->
    exists z, means "/p" fns0 leaf0 ybool0 odocs (y_objs oproj) "" m z /\ ended_well z l1).
  { intros i ci m Hcase.
    apply (C75_seq_parts_start_in_order "/p" fns0 leaf0 ybool0 odocs ne0 oproj no_rules (y_objs oproj) (fun o => 100 + o) ok_leaf l1 g 106 6 [] l2
      "Main" "" 10 "" (sc "Main") n_all n_all 10 i 2 ci n_ship 9 (cmd "post") "" m).
    - exact oproj_loads.
    - apply expands_self.
    - exact pinj.
    - exact oonce.
    - intros o cx ts. exact (ChainProofs2.may_ret _ _).
    - exact Hx.
    - exact Hc.
    - vm_compute. reflexivity.
    - apply (odefs (sc "Main")). by left.
    - eexists. exact oall_tag.
    - constructor.
    - exact oall_tag.
    - destruct Hcase as [(-> & _)|(-> & _)]; lia.
    - destruct Hcase as [(-> & -> & _)|(-> & -> & _)]; reflexivity.
    - reflexivity.
    - eexists. exact oship_tag.
    - unfold slot. rewrite oproj_objs. reflexivity.
    - apply ono_rule.
    - eapply (spot_step _ _ _ _ (cmd "post") 9 1 6); [|apply ocmd_tag|apply ono_rule|constructor].
      eapply placed_post; [exact oship_tag|left; split; reflexivity|]. unfold slot. rewrite oproj_objs. reflexivity.
    - destruct Hcase as [(_ & -> & ->)|(_ & -> & ->)]; [exact oreq_gen|exact oreq_b].
    - destruct Hcase as [(_ & _ & ->)|(_ & _ & ->)]; apply ocmd_tag. }
  clear E Hx Hc. split; [apply (Hpl 0 (sc "Gen")); left; done|apply (Hpl 1 n_checks); right; done].
Qed.
(** ... and the command pre, too. *)
Example C75_deps_case l1 g l2 : olog = l1 ++ EvStart g 106 6 [] :: l2 ->
  exists z, means "/p" fns0 leaf0 ybool0 odocs (y_objs oproj) "" (cmd "pre") z /\ ended_well z l1.
Proof.
  intros E. pose proof oexecutes as Hx. pose proof oclients as Hc. rewrite E in Hx, Hc.
  apply (C75_deps_before_main_part "/p" fns0 leaf0 ybool0 odocs ne0 oproj no_rules (y_objs oproj) (fun o => 100 + o) ok_leaf l1 g 106 6 [] l2
    "Main" "" 10 "" (sc "Main") n_all n_ship 9 (cmd "post") [cmd "pre"] (cmd "pre") 6 (cmd "post")).
  - exact oproj_loads.
  - apply expands_self.
  - exact pinj.
  - exact oonce.
  - intros o cx ts. exact (ChainProofs2.may_ret _ _).
  - exact Hx.
  - exact Hc.
  - vm_compute. reflexivity.
  - apply (odefs (sc "Main")). by left.
  - eexists. exact oall_tag.
  - eapply (spot_step _ _ _ _ n_ship 10 2 9); [|eexists; exact oship_tag|exact I|constructor].
    eapply placed_list; [right; exact oall_tag|reflexivity|]. unfold slot. rewrite oproj_objs. reflexivity.
  - exact oship_tag.
  - left. split; reflexivity.
  - by left.
  - apply ocmd_tag.
  - unfold slot. rewrite oproj_objs. reflexivity.
  - apply ono_rule.
  - constructor.
  - constructor.
  - apply ocmd_tag.
Qed.
(** The request for the third part of Main. *)
Example C75_asks_case : exists l1 l2, olog = l1 ++ EvCall 6 (Some 0) [] [TPtr 9] :: l2 /\ EvStart 0 110 10 [] ∈ l1 /\
  means "/p" fns0 leaf0 ybool0 odocs (y_objs oproj) "" n_all 10 /\ has_tag n_all "Seq".
Proof.
  exists (take 33 olog), (drop 34 olog). split; [apply split_at_some; vm_compute; reflexivity|]. split; [in_log|]. split; [|exact oall_tag].
  eapply laid_means. eapply (def_laid _ _ _ _ _ _ _ oproj_loads oonce "Main" "" 10 "" (sc "Main")); [vm_compute; reflexivity|apply (odefs (sc "Main")); by left|].
  eexists. exact oall_tag.
Qed.
Example C75_deps_asks_case : exists l1 l2, olog = l1 ++ EvCall 9 (Some 7) [] [TPtr 6] :: l2 /\ EvStart 7 109 9 [] ∈ l1 /\
  means "/p" fns0 leaf0 ybool0 odocs (y_objs oproj) "" n_ship 9 /\ has_tag n_ship "Deps" /\ deps_parts n_ship (cmd "post") [cmd "pre"].
Proof.
  exists (take 46 olog), (drop 47 olog). split; [apply split_at_some; vm_compute; reflexivity|]. split; [in_log|]. split; [|split; [exact oship_tag|left; split; reflexivity]].
  eapply laid_means. eapply (laid_part _ _ _ _ _ _ _ n_all 10 n_ship 10 2); [|eapply placed_list; [right; exact oall_tag|reflexivity|unfold slot; rewrite oproj_objs; reflexivity]|eexists; exact oship_tag].
  eapply (def_laid _ _ _ _ _ _ _ oproj_loads oonce "Main" "" 10 "" (sc "Main")); [vm_compute; reflexivity|apply (odefs (sc "Main")); by left|].
  eexists. exact oall_tag.
Qed.
(** The command c, deep inside the second part, and its place. *)
Example C75_in_place_case :
  (exists l1 g l2, olog = l1 ++ EvStart g 103 3 [] :: l2 /\ length l1 = 26) /\
  spot (y_objs oproj) (fun x => ~ is_rule (y_objs oproj) x) n_all 10 (cmd "c") 3 /\
  placed (y_objs oproj) (sq "!Seq" [cmd "b"; cmd "c"]) 4 (cmd "c") 4 1 3.
Proof.
  split; [exact olog_c|].
  assert (Hc : placed (y_objs oproj) (sq "!Seq" [cmd "b"; cmd "c"]) 4 (cmd "c") 4 1 3).
  { eapply placed_list; [right; exact oinner_tag|reflexivity|unfold slot; rewrite oproj_objs; reflexivity]. }
  split; [|exact Hc].
  eapply (spot_step _ _ _ _ n_checks 10 1 5); [|eexists; exact ochecks_tag|apply ono_rule|].
  { eapply placed_list; [right; exact oall_tag|reflexivity|unfold slot; rewrite oproj_objs; reflexivity]. }
  eapply (spot_step _ _ _ _ (sq "!Seq" [cmd "b"; cmd "c"]) 5 1 4); [|eexists; exact oinner_tag|apply ono_rule|].
  { eapply placed_list; [left; exact ochecks_tag|reflexivity|unfold slot; rewrite oproj_objs; reflexivity]. }
  eapply (spot_step _ _ _ _ (cmd "c") 4 1 3); [exact Hc|apply ocmd_tag|apply ono_rule|constructor].
Qed.

(** ** C77.  What is written in place runs at most once, whoever asks for what contains it, and
    however often. *)
Theorem C77_in_place_at_most_once top fns leaf ybool docs ne s objs' addr leafp tr i1 i2 g1 g2 a1 a2 cx1 cx2
    q doc o dir k v n r c p j x :
  loads top fns leaf ybool docs ne s ->
  (forall o1 o2, addr o1 = addr o2 -> o1 = o2) -> defined_once top docs ->
  executes (project_world addr objs' leafp) (snd <$> y_reg s) tr ->
  y_reg s !! q = Some (doc, o) -> defines top docs dir q k v -> tagged v ->
  spot (y_objs s) (fun _ => True) v o n r -> placed (y_objs s) n r c p j x -> tagged c ->
  tr !! i1 = Some (EvStart g1 a1 x cx1) -> tr !! i2 = Some (EvStart g2 a2 x cx2) -> i1 = i2.
Proof.
  intros Hl Hi Ho Hx Hr Hd Ht Hsp Hpl Htc H1 H2. pose proof (def_laid _ _ _ _ _ _ _ Hl Ho _ _ _ _ _ _ Hr Hd Ht) as Hla.
  apply (laid_spot top fns leaf ybool docs s dir) in Hsp; [|exact Hla]. pose proof (laid_own _ _ _ _ _ _ _ _ _ _ _ _ _ Hsp Hpl Htc) as Honly.
  assert (Ha : forall i g a cx, tr !! i = Some (EvStart g a x cx) -> a = addr x).
  { intros i g a cx H. pose proof (take_drop_middle _ _ _ H) as E. eapply (start_addr s objs' addr leafp tr); [|exact Honly]. rewrite E. by apply exec_part. }
  pose proof (Ha _ _ _ _ H1) as ->. pose proof (Ha _ _ _ _ H2) as ->. destruct Hx as (Htr & _). by eapply C01_at_most_once.
Qed.
Print Assumptions C77_in_place_at_most_once.
(** A target for a definition: at most once for itself and once for every reference to it by name
    that is still a reference when it runs. *)
Theorem C77_once_per_reference s objs' addr leafp tr g a o cx :
  executes (project_world addr objs' leafp) (snd <$> y_reg s) tr -> EvStart g a o cx ∈ tr ->
  exists d, a = addr d /\ (d = o \/ exists q doc, objs' !! d = Some (SRef q) /\ y_reg s !! q = Some (doc, o)) /\
    forall i1 i2 g1 g2 o1 o2 cx1 cx2, tr !! i1 = Some (EvStart g1 (addr d) o1 cx1) -> tr !! i2 = Some (EvStart g2 (addr d) o2 cx2) -> i1 = i2.
Proof.
  intros Hx Hs. apply elem_of_list_split in Hs as (l1 & l2 & ->).
  destruct (start_call addr objs' leafp _ _ _ _ _ _ _ _ (exec_part _ _ _ _ _ Hx)) as (c & p & cx' & ts & d & _ & _ & -> & Hres).
  exists d. split; [done|]. split.
  - destruct (is_ref_dec addr objs' leafp d) as [[n Hn]|Hn].
    + apply (resolution_ref _ _ _ _ _ _ _ Hn) in Hres. apply lookup_fmap_Some in Hres as ([doc o'] & Eo & Hq). simpl in Eo. subst o'.
      right. by exists n, doc.
    + apply (resolution_own _ _ _ _ _ _ Hn) in Hres. by left.
  - destruct Hx as (Htr & _). intros. by eapply C01_at_most_once.
Qed.
Print Assumptions C77_once_per_reference.

(** It is not so that what is written down once, and not in place anywhere, runs at most once: a
    file may be read twice, leaving two targets for each of its definitions.  Here the file of
    directory b leads to that of directory c, and back to b while b is being read. *)
Definition r_main : node := sq "!All" [sc "b/w"; sc "c/k"].
Definition r_top : list (node * node) := [ (sc "M", r_main) ].
Definition r_b : list (node * node) := [ (sc "_dir", sc "b"); (sc "z", cmd "make"); (sc "w", sq "!All" [sc "../c/y"]) ].
Definition r_c : list (node * node) := [ (sc "_dir", sc "c"); (sc "y", sq "!All" [sc "../b/z"]); (sc "k", sq "!All" [sc "../b/w"]) ].
Definition rdocs (f : string) : option node :=
  if decide (f = "/p") then Some (document r_top) else if decide (f = "/p/b") then Some (document r_b)
  else if decide (f = "/p/c") then Some (document r_c) else None.
Definition rproj : ystate :=
  match ReadYAMLFile "/p" rdocs ne0 (YAMLTarget "/p" fns0 leaf0 ybool0 rdocs ne0 30) "" s_empty with ROk s _ => s | _ => s_empty end.
Definition rworld : world := project_world (fun o => 100 + o) (y_objs rproj) ok_leaf.
Definition regs (s : ystate) : list (string * nat) := (fun p => (p.1, p.2.2)) <$> map_to_list (y_reg s).
Lemma regs_spec s n x : (n, x) ∈ regs s <-> (snd <$> y_reg s) !! n = Some x.
Proof.
  unfold regs. rewrite elem_of_list_fmap, lookup_fmap, fmap_Some. split.
  - intros ([n' [d x']] & [= -> ->] & H). apply elem_of_map_to_list in H. by exists (d, x').
  - intros ([d x'] & H & ->). exists (n, (d, x')). split; [done|]. by apply elem_of_map_to_list.
Qed.
Lemma exec_log w s tr l : trace w tr -> tr = ((fun p => EvRegister p.1 p.2) <$> regs s) ++ l -> (forall n x, EvRegister n x ∉ l) ->
  executes w (snd <$> y_reg s) tr.
Proof.
  intros Ht -> Hl. split; [exact Ht|]. split.
  - intros i j c p cx ts name x Hi Hj. destruct (decide (j < length (regs s))) as [Hj2|Hj2].
    + destruct (decide (i < length (regs s))) as [Hi2|]; [|lia]. exfalso.
      rewrite lookup_app_l in Hi by (by rewrite fmap_length). apply list_lookup_fmap_inv in Hi as (? & [=] & _).
    + rewrite lookup_app_r in Hj by (rewrite fmap_length; apply Nat.nlt_ge; exact Hj2). exfalso. apply elem_of_list_lookup_2 in Hj. by apply Hl in Hj.
  - intros n x. rewrite elem_of_app, elem_of_list_fmap, <-regs_spec. split.
    + intros [([n' x'] & [= -> ->] & H)|H]; [done|]. by apply Hl in H.
    + intros H. left. by exists (n, x).
Qed.
(** The command gen has two steps, targets 12 and 13; the client asks for Gen with arguments,
    that is for the ArgTarget 14. *)
Definition gen_objs : list shape := take 11 (y_objs oproj) ++ [SSeq [12; 13]; SLeaf "Command" (cmd "1") ""; SLeaf "Command" (cmd "2") ""; SArgs 11 ["-x"]].
Definition gen_log : list event := s_log (client 300 (project_world (fun o => 100 + o) gen_objs ok_leaf) init (((fun p => ChRegister p.1 p.2) <$> regs oproj) ++ [ChRun Background [TPtr 14]])).
Example C75_steps_case :
  expands no_rules (snd <$> y_reg oproj) (y_objs oproj) gen_objs /\
  y_objs oproj !! 11 = Some (SLeaf "Command" (cmd "gen") "") /\ gen_objs !! 11 = Some (SSeq [12; 13]) /\
  executes (project_world (fun o => 100 + o) gen_objs ok_leaf) (snd <$> y_reg oproj) gen_log /\ clients_ask_registered oproj gen_objs gen_log /\
  omap (fun ev => match ev with EvStart _ _ o cx => Some (o, GetArgs cx) | _ => None end) gen_log = [(14, []); (11, ["-x"]); (12, ["-x"]); (13, ["-x"])].
Proof.
  split.
  { split; [vm_compute; lia|]. split; [|split; [|split]].
    - intros o sh Ho Hn. unfold gen_objs. destruct (decide (o < 11)) as [H|H].
      + rewrite lookup_app_l by (rewrite take_length, oproj_objs; simpl; lia). by rewrite lookup_take by lia.
      + rewrite oproj_objs in Ho. do 11 (destruct o as [|o]; [lia|]). destruct o as [|o]; [|discriminate Ho].
        injection Ho as <-. by destruct (Hn "Command" (cmd "gen") "").
    - intros o t n d Ho. unfold gen_objs. destruct (decide (o < 11)) as [H|H].
      + left. split; [|reflexivity]. rewrite lookup_app_l by (rewrite take_length, oproj_objs; simpl; lia). by rewrite lookup_take by lia.
      + rewrite oproj_objs in Ho |- *. do 11 (destruct o as [|o]; [lia|]). destruct o as [|o]; [|discriminate Ho].
        right. left. exists [12; 13]. split; [reflexivity|]. split; [reflexivity|]. split; [|by apply (bool_decide_unpack _)].
        repeat constructor; simpl; try lia; by eexists _, _, _.
    - unfold gen_objs. rewrite oproj_objs. intros o sh Hle H. simpl in Hle. do 12 (destruct o as [|o]; [lia|]).
      destruct o as [|[|[|o]]]; simpl in H; [injection H as <-; left; by eexists _, _, _..| |discriminate H].
      injection H as <-. right. exists "Gen", 11, ["-x"]. split; [|reflexivity]. apply lookup_fmap_Some. exists ("", 11). split; [reflexivity|vm_compute; reflexivity].
    - unfold gen_objs, children. rewrite oproj_objs. cbn [take app]. intros o1 o2 t [Hle _] H1 H2. simpl in Hle.
      assert (Hone : forall o, t ∈ match [SRef "Gen"; SLeaf "Command" (cmd "a") ""; SLeaf "Command" (cmd "b") ""; SLeaf "Command" (cmd "c") "";
        SSeq [2; 3]; SAll [1; 4]; SLeaf "Command" (cmd "post") ""; SLeaf "Command" (cmd "pre") ""; SAll [7]; SSeq [8; 6]; SSeq [0; 5; 9]; SSeq [12; 13];
        SLeaf "Command" (cmd "1") ""; SLeaf "Command" (cmd "2") ""; SArgs 11 ["-x"]] !! o with Some (SAll ts) | Some (SSeq ts) => ts | Some (SArgs t _) | Some (SFiles t _ _ _) => [t] | _ => [] end -> o = 11).
      { clear -Hle. intros o H. do 15 (destruct o as [|o]; [try reflexivity; simpl in H; rewrite ?elem_of_cons, ?elem_of_nil in H; exfalso; lia|]). by apply elem_of_nil in H. }
      by rewrite (Hone o1 H1), (Hone o2 H2). }
  split; [vm_compute; reflexivity|]. split; [vm_compute; reflexivity|]. split; [|split; [|vm_compute; reflexivity]].
  - eapply (exec_log _ _ _ (drop 2 gen_log)); [apply client_trace|vm_compute; reflexivity|apply no_reg; vm_compute; reflexivity].
  - assert (H : forallb (fun ev => match ev with EvCall _ None _ [TPtr o'] => bool_decide (o' = 14) | EvCall _ None _ _ => false | _ => true end) gen_log = true)
      by (vm_compute; reflexivity).
    rewrite forallb_forall in H. intros c cx ts t Hin Ht. apply elem_of_list_In, H in Hin.
    destruct ts as [|[o'|] [|]]; try discriminate Hin. apply bool_decide_eq_true in Hin as ->. apply elem_of_list_singleton in Ht as ->.
    exists "Gen", "", 11. split; [|vm_compute; reflexivity]. right. exists 14, ["-x"]. split; [reflexivity|]. split; [rewrite oproj_objs; simpl; lia|vm_compute; reflexivity].
Qed.

Definition rlog : list event := s_log (client 400 rworld init (((fun p => ChRegister p.1 p.2) <$> regs rproj) ++ [ChRun Background [TPtr 6; TPtr 2]])).
Theorem C77_definition_runs_twice_refuted :
  exists docs s tr x1 x2, loads "/p" fns0 leaf0 ybool0 docs ne0 s /\ defined_once "/p" docs /\
    executes (project_world (fun o => 100 + o) (y_objs s) ok_leaf) (snd <$> y_reg s) tr /\ clients_ask_registered s (y_objs s) tr /\
    defines "/p" docs "b" "b/z" (sc "z") (cmd "make") /\ x1 <> x2 /\
    means "/p" fns0 leaf0 ybool0 docs (y_objs s) "b" (cmd "make") x1 /\ ended_well x1 tr /\
    means "/p" fns0 leaf0 ybool0 docs (y_objs s) "b" (cmd "make") x2 /\ ended_well x2 tr.
Proof.
  exists rdocs, rproj, rlog, 0, 2.
  assert (Hleaf : forall x, y_objs rproj !! x = Some (SLeaf "Command" (cmd "make") "b") -> means "/p" fns0 leaf0 ybool0 rdocs (y_objs rproj) "b" (cmd "make") x).
  { intros x Hx. eapply (den_leaf _ _ _ _ _ _ _ _ _ _ "Command" (fun _ _ => true)); [apply tag_of; [discriminate|intros [? [=]]]| |reflexivity|reflexivity|exact Hx].
    intros H. apply elem_of_list_In in H. simpl in H. repeat (destruct H as [H|H]; [discriminate H|]). destruct H. }
  split; [exists 30; left; vm_compute; reflexivity|]. split; [|split; [|split; [|split; [|split; [discriminate|split; [apply Hleaf; vm_compute; reflexivity|split; [|split; [apply Hleaf; vm_compute; reflexivity|]]]]]]]].
  - assert (H : forall dir q k v, defines "/p" rdocs dir q k v -> (q, dir, v) ∈ [("M", "", r_main); ("b/z", "b", cmd "make"); ("b/w", "b", sq "!All" [sc "../c/y"]);
      ("c/y", "c", sq "!All" [sc "../b/z"]); ("c/k", "c", sq "!All" [sc "../b/w"])]).
    { intros dir q k v (D & doc & ps & Hd & Hdir & Hps & Hin & Hkey & ->). unfold rdocs in Hd. unfold file_dir in Hdir.
      destruct (decide (Join ["/p"; D] = "/p")) as [E|E]; [|destruct (decide (Join ["/p"; D] = "/p/b")) as [E'|E']; [|destruct (decide (Join ["/p"; D] = "/p/c")) as [E''|E'']; [|discriminate Hd]]].
      - rewrite E in Hdir. vm_compute in Hdir. injection Hdir as <-. injection Hd as <-.
        assert (ps = r_top) as -> by (eapply YamlProofs2.has_entries_fun; [exact Hps|by eexists]).
        apply elem_of_list_In, elem_of_list_In. apply elem_of_list_In in Hin. simpl in Hin.
        destruct Hin as [[= <- <-]|[]]; apply elem_of_list_In; vm_compute; tauto.
      - rewrite E' in Hdir. vm_compute in Hdir. injection Hdir as <-. injection Hd as <-.
        assert (ps = r_b) as -> by (eapply YamlProofs2.has_entries_fun; [exact Hps|by eexists]).
        apply elem_of_list_In in Hin. simpl in Hin.
        destruct Hin as [[= <- <-]|[[= <- <-]|[[= <- <-]|[]]]]; [by destruct Hkey as (_ & ? & _)| |]; apply elem_of_list_In; vm_compute; tauto.
      - rewrite E'' in Hdir. vm_compute in Hdir. injection Hdir as <-. injection Hd as <-.
        assert (ps = r_c) as -> by (eapply YamlProofs2.has_entries_fun; [exact Hps|by eexists]).
        apply elem_of_list_In in Hin. simpl in Hin.
        destruct Hin as [[= <- <-]|[[= <- <-]|[[= <- <-]|[]]]]; [by destruct Hkey as (_ & ? & _)| |]; apply elem_of_list_In; vm_compute; tauto. }
    intros q d1 k1 v1 d2 k2 v2 H1%H H2%H. clear -H1 H2. rewrite !elem_of_cons, elem_of_nil in H1, H2. naive_solver.
  - eapply (exec_log _ _ _ (drop 5 rlog)); [apply client_trace|vm_compute; reflexivity|apply no_reg; vm_compute; reflexivity].
  - assert (H : forallb (fun ev => match ev with EvCall _ None _ [TPtr o1; TPtr o2] => bool_decide (o1 = 6) && bool_decide (o2 = 2) | EvCall _ None _ _ => false | _ => true end) rlog = true)
      by (vm_compute; reflexivity).
    rewrite forallb_forall in H. intros c cx ts t Hin Ht. apply elem_of_list_In, H in Hin.
    destruct ts as [|[o1|] [|[o2|] [|]]]; try discriminate Hin. apply andb_prop in Hin as [H1 H2]. apply bool_decide_eq_true in H1 as ->, H2 as ->.
    apply elem_of_cons in Ht as [->|Ht]; [exists "M", "", 6|apply elem_of_list_singleton in Ht as ->; exists "b/z", "", 2]; (split; [left; reflexivity|vm_compute; reflexivity]).
  - exists "b", (document r_b), r_b. split; [vm_compute; reflexivity|]. split; [vm_compute; reflexivity|].
    split; [by eexists|]. split; [right; by left|]. split; [|vm_compute; reflexivity]. split_and!; [reflexivity|discriminate|reflexivity].
  - set (l := rlog). vm_compute in l. subst l. eexists _, _. apply elem_of_list_In. repeat (first [left; reflexivity | right]).
  - set (l := rlog). vm_compute in l. subst l. eexists _, _. apply elem_of_list_In. repeat (first [left; reflexivity | right]).
Qed.
Print Assumptions C77_definition_runs_twice_refuted.
