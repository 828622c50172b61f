(** A YAML project for the concrete cases of C84-C87: /p/mid is made from /p/src, and /p/out from
    /p/mid. *)
From stdpp Require Import base gmap list strings relations.
From Verif Require Import TopDirModel DriverModel RegistryModel.
From Verif Require Import PathModel PathSpec PathProofs FindModel FileHashModel FileHashSpec FilesModel FilesSpec FilesProofs4 PathProofs3.
From Verif Require Import ContextModel RunnerModel RunnerSteps RunnerSpec RunnerSpec2 RunnerProofs RunnerProofs3 ChainModel YamlModel YamlSpec.
From Verif Require Import MainModel MainSpec ProjModel ProjSpec EndSpec BuildModel BuildSpec MakeModel MakeSpec.
From Verif Require Import BuildProofs BuildProofs2 BuildProofs3 BuildProofs4 BuildProofs5 BuildProofs6 BuildProofs7 BuildExample YamlProps ProjProofs ProjProps MainProps EndProofs EndProps MainProofs MainProofs4 MakeProofs MakeProofs2 MakeProofs3.
Local Open Scope list_scope.

Definition n_mid : node := rule_node (cmd "make mid") "src" "mid".
Definition n_out : node := rule_node (cmd "make out") "mid" "out".
Definition mk_entries : list (node * node) := [ (sc "Mid", n_mid); (sc "Out", n_out) ].
(** fab is called in /p/d. *)
Definition mk_machine : machine :=
  {| k_cwd := "/p/d"; k_cache := Some "/home/.cache/fab"; k_fs := fun p => if decide (p = "/p/fab.yaml") then IsFile "main" else NotExist;
     k_decl := fun _ => Some None;
     k_yaml := fun t => if decide (t = "main") then Some (document mk_entries) else None;
     k_bool := ybool0; k_tags := plain_tags; k_load := fun _ => NoPackage; k_db := fun _ => Some 7;
     k_run := fun r => true |}.
Definition mk_req (argv : list string) : request :=
  match fab mk_machine 20 argv with Some (a, _) => nth 0 (requests a) r_none | None => r_none end.
Definition mk_objs : list shape := [SLeaf "Command" (cmd "make mid") ""; SFiles 0 ["/p/src"] ["/p/mid"] false; SLeaf "Command" (cmd "make out") ""; SFiles 2 ["/p/mid"] ["/p/out"] false].
Definition mk_f1 : files := {| f_id := 1; f_in := ["/p/src"]; f_out := ["/p/mid"] |}.
Definition mk_f2 : files := {| f_id := 3; f_in := ["/p/mid"]; f_out := ["/p/out"] |}.
Definition mk_leaf (o : nat) (cx : ctx) : prog := match o with 0 => ex_command 1 | 2 => ex_command 3 | _ => Ret None end.
Definition mk_U : workings := {|
  u_desc := fun o => match o with 1 => ex_make1 | _ => ex_make2 end;
  u_cmd := fun _ o n r fs =>
    match o, r with
    | 1, 0 => write "/p/mid" ("m" +:+ text fs "/p/src") fs
    | 3, 0 => write "/p/out" ("o" +:+ text fs "/p/mid") fs
    | _, _ => fs
    end;
  u_other := fun _ _ _ fs => fs;
  u_possible := fun fs => forall q, q ∈ ["/p/src"; "/p/mid"; "/p/out"] -> fs q = FMissing \/ exists c, fs q = FFile (Some c);
  u_db := fun _ l r db => match l with OpAdd h => {[h]} ∪ db | _ => db end |}.
Definition mk_addr (o : nat) : nat := 100 + o.
Definition mk_p : project := yaml_build mk_U mk_addr mk_objs mk_leaf.
Definition mk_owner (x : obj) : option obj := match x with 0 => Some 1 | 2 => Some 3 | _ => None end.
Definition mk_right (r : FilesModel.rule) (fs : files_state) : Prop :=
  (same_description (r_tgt r) ex_make1 -> forall c, value fs (r_in r) "/p/src" c ->
    covered fs (r_out r) "/p/mid" /\ fs "/p/mid" = FFile (Some ("m" +:+ c))) /\
  (same_description (r_tgt r) ex_make2 -> forall c, value fs (r_in r) "/p/mid" c ->
    covered fs (r_out r) "/p/out" /\ fs "/p/out" = FFile (Some ("o" +:+ c))).

Lemma mk_rules : ProjModel.files_of mk_objs = [mk_f1; mk_f2].
Proof. vm_compute. reflexivity. Qed.
Lemma mk_rule_cases f : f ∈ p_rules mk_p -> f = mk_f1 \/ f = mk_f2.
Proof. change (p_rules mk_p) with (ProjModel.files_of mk_objs). rewrite mk_rules. intros [->|[->|[]%elem_of_nil]%elem_of_cons]%elem_of_cons; auto. Qed.
Lemma mk_in1 : mk_f1 ∈ p_rules mk_p.
Proof. change (p_rules mk_p) with (ProjModel.files_of mk_objs). rewrite mk_rules. by left. Qed.
Lemma mk_in2 : mk_f2 ∈ p_rules mk_p.
Proof. change (p_rules mk_p) with (ProjModel.files_of mk_objs). rewrite mk_rules. right. by left. Qed.
Lemma mk_wf : well_formed mk_p.
Proof. apply yb_wf. intros o1 o2. unfold mk_addr. lia. Qed.
Lemma mk_cmd_cases t o n r fs : p_cmd mk_p t o n r fs = fs \/ p_cmd mk_p t o n r fs = write "/p/mid" ("m" +:+ text fs "/p/src") fs /\ o = 1 \/
  p_cmd mk_p t o n r fs = write "/p/out" ("o" +:+ text fs "/p/mid") fs /\ o = 3.
Proof. destruct o as [|[|[|[|o]]]]; try (by left); destruct r; auto. Qed.
Lemma mk_sep : separate mk_p.
Proof.
  split.
  - intros t q f n r fs Hp [->| ->]%mk_rule_cases [->| ->]%mk_rule_cases Hn Hq; try done.
    { exfalso. apply Hq. vm_compute. left. }
    destruct (mk_cmd_cases t (f_id mk_f2) n r fs) as [-> |[(_ & ?)|(-> & _)]]; [apply unchanged_refl|done|].
    intros q' (i & Hi & Hu). assert (Hc : covered fs [i] q') by (exists i; split; [by left|done]).
    apply plain_covered in Hc as ->; [|apply Hp; revert Hi; simpl; set_solver].
    apply write_same. revert Hi. simpl. set_solver.
  - intros t f n r fs _ _. apply unchanged_refl.
  - intros fs Hp. split; [|done]. intros t o n r q Hq.
    assert (Hw : forall a c, write a c fs q = FMissing \/ exists c', write a c fs q = FFile (Some c')).
    { intros a c. unfold write. case_decide; [by right; eexists|by apply Hp]. }
    destruct (mk_cmd_cases t o n r fs) as [-> |[(-> & _)|(-> & _)]]; [by apply Hp|apply Hw..].
Qed.
Lemma mk_db : database_sound mk_p.
Proof. split; simpl; [done|]. intros. done. Qed.
Lemma mk_keeps : database_keeps mk_p.
Proof. split; [done|]. split; simpl; set_solver. Qed.
Lemma mk_tidy : tidy mk_p mk_owner.
Proof.
  split.
  - intros f [->| ->]%mk_rule_cases; done.
  - intros x i Hx. destruct x as [|[|[|x]]]; try done; simplify_eq/=.
    + split; [|done]. exists mk_f1. split; [apply mk_in1|done].
    + split; [|done]. exists mk_f2. split; [apply mk_in2|done].
  - intros x i cx Hx. destruct x as [|[|[|x]]]; try done; simplify_eq/=; constructor; eauto; intros; constructor.
  - intros x cx Ho Hf _. destruct x as [|[|[|[|x]]]]; try done; try (by constructor).
    + by destruct (Hf mk_f1 mk_in1).
    + by destruct (Hf mk_f2 mk_in2).
Qed.
Lemma mk_single : single_commands mk_right mk_p mk_owner.
Proof.
  split.
  - intros f x [->| ->]%mk_rule_cases Hx; destruct x as [|[|[|x]]]; done.
  - intros f cx [->| ->]%mk_rule_cases; done.
  - intros t f fs Hp [->| ->]%mk_rule_cases.
    + change (p_cmd mk_p t (f_id mk_f1) 0 0 fs) with (write "/p/mid" ("m" +:+ text fs "/p/src") fs). split; [|by intros [_ ?]].
      intros _ c Hv. assert (Hs : write "/p/mid" ("m" +:+ text fs "/p/src") fs "/p/src" = fs "/p/src") by (by apply write_same).
      apply ex_value in Hv; [|rewrite Hs; apply Hp; left]. unfold text in Hv at 1. rewrite Hs in Hv. fold (text fs "/p/src") in Hv. subst c.
      assert (E : write "/p/mid" ("m" +:+ text fs "/p/src") fs "/p/mid" = FFile (Some ("m" +:+ text fs "/p/src"))) by done.
      split; [|done]. apply plain_covered; [right; by eexists|done].
    + change (p_cmd mk_p t (f_id mk_f2) 0 0 fs) with (write "/p/out" ("o" +:+ text fs "/p/mid") fs). split; [by intros [_ ?]|].
      intros _ c Hv. assert (Hs : write "/p/out" ("o" +:+ text fs "/p/mid") fs "/p/mid" = fs "/p/mid") by (by apply write_same).
      apply ex_value in Hv; [|rewrite Hs; apply Hp; right; left]. unfold text in Hv at 1. rewrite Hs in Hv. fold (text fs "/p/mid") in Hv. subst c.
      assert (E : write "/p/out" ("o" +:+ text fs "/p/mid") fs "/p/out" = FFile (Some ("o" +:+ text fs "/p/mid"))) by done.
      split; [|done]. apply plain_covered; [right; by eexists|done].
Qed.
Lemma mk_covers : hash_covers mk_right.
Proof.
  intros fs1 r1 fs2 r2 ([Hd1 Hd2] & Hi & Ho) [R1 R2]. split.
  - intros [E1 E2] c Hv. apply Ho; [right; by eexists|]. apply R1; [split; congruence|by eapply value_same].
  - intros [E1 E2] c Hv. apply Ho; [right; by eexists|]. apply R2; [split; congruence|by eapply value_same].
Qed.
Lemma mk_makes f o : BuildSpec.makes mk_p f o -> f = mk_f1 /\ o = "/p/mid" \/ f = mk_f2 /\ o = "/p/out".
Proof.
  intros (Hf & [Ho|[(f' & Hf' & Ho) Hm]]).
  - apply mk_rule_cases in Hf as [->| ->]; apply elem_of_list_singleton in Ho as ->; auto.
  - apply mk_rule_cases in Hf' as [->| ->]; apply elem_of_list_singleton in Ho as ->.
    + by vm_compute in Hm.
    + left. split; [|done]. vm_compute in Hm. by injection Hm as <-.
Qed.
Lemma mk_kept : sources_kept mk_p.
Proof.
  intros i ((f & Hf & Hi) & Hn) fs Hp. split; [|intros; apply unchanged_refl].
  assert (i = "/p/src") as ->.
  { apply mk_rule_cases in Hf as [->| ->]; apply elem_of_list_singleton in Hi as ->; [done|].
    destruct (Hn mk_f1). split; [apply mk_in1|]. left. by left. }
  intros t o n r q Hq. apply plain_covered in Hq as ->; [|apply Hp; left].
  destruct (mk_cmd_cases t o n r fs) as [-> |[(-> & _)|(-> & _)]]; [done|by apply write_same..].
Qed.
Lemma mk_determined : determined mk_right mk_p.
Proof.
  intros f fs1 fs2 P1 P2 _ [R11 R12] [R21 R22] Hi o Hm.
  assert (Hx : forall q, q ∈ f_in f -> q ∈ ["/p/src"; "/p/mid"; "/p/out"] -> text fs1 q = text fs2 q).
  { intros q Hq Hq'. specialize (Hi q Hq). apply ex_same in Hi; [|by apply P1|by apply P2]. unfold text. by rewrite Hi. }
  apply mk_makes in Hm as [(-> & ->)|(-> & ->)].
  - destruct (R11 ltac:(done) _ (ex_value2 fs1 "/p/src" (P1 "/p/src" ltac:(left)))) as [_ E1].
    destruct (R21 ltac:(done) _ (ex_value2 fs2 "/p/src" (P2 "/p/src" ltac:(left)))) as [_ E2].
    apply ex_same; [right; by eexists..|]. rewrite E1, E2. rewrite (Hx "/p/src"); [done|left|left].
  - destruct (R12 ltac:(done) _ (ex_value2 fs1 "/p/mid" (P1 "/p/mid" ltac:(right; left)))) as [_ E1].
    destruct (R22 ltac:(done) _ (ex_value2 fs2 "/p/mid" (P2 "/p/mid" ltac:(right; left)))) as [_ E2].
    apply ex_same; [right; by eexists..|]. rewrite E1, E2. rewrite (Hx "/p/mid"); [done|left|right; left].
Qed.

(** ** The project as fab sees it. *)
Lemma mk_docs f doc : IsAbs f = true -> clean f -> k_docs mk_machine "/p/d" f = Some doc -> f = "/p" /\ doc = document mk_entries.
Proof.
  intros Ha Hc H.
  assert (Hin : forall b q l, name b -> IsAbs b = false -> IsAbs q = true -> clean q -> at_wd "/p/d" (Join [f; b]) = l -> cd [] l = b :: cd [] q -> f = q).
  { intros b q l Hb Hb' Hq Hq' E E'. apply abs_clean_inj; try done.
    assert (Hf : f <> "") by (by intros ->).
    unfold at_wd in E. rewrite Join_abs, decide_False, Ha in E by done. rewrite <-E in E'. rewrite cd_Clean, cd_Join in E' by (by repeat constructor).
    cbn [fold_left] in E'. destruct Hb as (B1 & B2 & B3 & B4). unfold cd at 1 in E'. rewrite Hb', B4 in E'. cbn [fold_left] in E'.
    unfold enter in E'. rewrite decide_False in E' by tauto. rewrite decide_False in E' by done. by injection E'. }
  unfold k_docs, openFabYAML, open1 in H. cbn [k_fs mk_machine] in H.
  assert (Hn1 : name "fab.yaml") by (by vm_compute). assert (Hn2 : name "fab.yml") by (by vm_compute).
  destruct (decide (at_wd "/p/d" (Join [f; "fab.yaml"]) = "/p/fab.yaml")) as [E|N1].
  { assert (f = "/p") as -> by (by eapply (Hin "fab.yaml" "/p")). split; [done|]. vm_compute in H. by injection H as <-. }
  destruct (decide (at_wd "/p/d" (Join [f; "fab.yml"]) = "/p/fab.yaml")) as [E|N3].
  { exfalso. assert (Hf : f <> "") by (by intros ->).
    unfold at_wd in E. rewrite Join_abs, decide_False, Ha in E by done. apply (f_equal (cd [])) in E. rewrite cd_Clean, cd_Join in E by (by repeat constructor).
    cbn [fold_left] in E. discriminate E. }
  done.
Qed.
Lemma mk_defines dir q k v : defines "/p" (k_docs mk_machine "/p/d") dir q k v -> dir = "" /\ ((q = "Mid" /\ v = n_mid) \/ (q = "Out" /\ v = n_out)).
Proof.
  intros (D & doc & ps & Hd & Hdir & Hps & Hin & Hkey & ->). unfold file_dir in Hdir.
  apply mk_docs in Hd as [E ->]; [| |].
  - rewrite E in Hdir. vm_compute in Hdir. injection Hdir as <-. split; [done|].
    assert (ps = mk_entries) as -> by (eapply YamlProofs2.has_entries_fun; [done|by eexists]).
    repeat (apply elem_of_cons in Hin as [[= -> ->]|Hin]); [..|by apply elem_of_nil in Hin]; vm_compute; tauto.
  - by rewrite Join_abs, decide_False.
  - destruct (Join_clean ["/p"; D]) as [E|E]; [|done]. apply Join_nil in E. by inversion E.
Qed.
Lemma mk_once : defined_once "/p" (k_docs mk_machine "/p/d").
Proof. intros q d1 k1 v1 d2 k2 v2 [-> H1]%mk_defines [-> H2]%mk_defines. naive_solver. Qed.
Lemma mk_project argv m : fab_main "/home/.cache/fab" "" argv = Some m -> "--" ∉ argv -> yaml_project mk_machine argv m "/p" plain_tags "/p/d".
Proof.
  intros Hm Hn. split; [by exists "/home/.cache/fab"|]. split; [done|]. split; [vm_compute; reflexivity|]. left.
  split; [|done]. left. vm_compute. reflexivity.
Qed.
Lemma mk_written q dir n : written "/p" (k_docs mk_machine "/p/d") q dir n -> dir = "" /\ n ∈ [n_mid; n_out; cmd "make mid"; cmd "make out"].
Proof.
  intros (k & v & [-> Hd]%mk_defines & Hi). split; [done|].
  apply inside_inv in Hi as [-> |(c & Hc & Hi)].
  - destruct Hd as [[_ ->]|[_ ->]]; [by left|right; by left].
  - destruct Hd as [[_ ->]|[_ ->]]; vm_compute in Hc; apply elem_of_list_singleton in Hc as ->;
      (apply inside_inv in Hi as [-> |(c & Hc & _)]; [|by apply elem_of_nil in Hc]); do 2 right; [left|right; left].
Qed.
Lemma mk_targets : targets_in_place "/p" (tag_lists plain_tags) (k_docs mk_machine "/p/d") no_rules.
Proof.
  intros q dir n fs [-> Hn]%mk_written Ht Hd.
  assert (Hc : forall x, tagged (cmd x) /\ forall ins outs, ~ rule "/p" (tag_lists plain_tags) no_rules "" (cmd x) ins outs).
  { intros x. split; [exists "Command"; split; [done|split; [intros [? [=]]|by right]]|]. intros ins outs. apply cmd_no_rule. }
  repeat (apply elem_of_cons in Hn as [-> |Hn]); [| | | |by apply elem_of_nil in Hn].
  - vm_compute in Hd. injection Hd as <-. apply Hc.
  - vm_compute in Hd. injection Hd as <-. apply Hc.
  - destruct Ht as (_ & _ & [Ht|Ht]); discriminate Ht.
  - destruct Ht as (_ & _ & [Ht|Ht]); discriminate Ht.
Qed.

(** fab Out; and fab -v Out. *)
Definition mk_argvs : list (list string) := [["Out"]; ["-v"; "Out"]].
Definition mk_m (argv : list string) : Main := m_of argv.
Definition mk_acts (argv : list string) : list act := match fab mk_machine 20 argv with Some (a, _) => a | None => [] end.
Lemma mk_fab argv : argv ∈ mk_argvs ->
  fab_main "/home/.cache/fab" "" argv = Some (mk_m argv) /\ "--" ∉ argv /\ fab mk_machine 20 argv = Some (mk_acts argv, 0) /\ requests (mk_acts argv) = [mk_req argv] /\
  r_reg (mk_req argv) = {[ "Mid" := ("", 1); "Out" := ("", 3) ]} /\ r_objs (mk_req argv) = mk_objs /\ r_targets (mk_req argv) = [Plain (RegistryModel.TPtr 3)] /\
  m_dryrun (mk_m argv) = false /\ m_force (mk_m argv) = false /\ m_args (mk_m argv) = ["Out"].
Proof.
  intros Hin. repeat (apply elem_of_cons in Hin as [-> |Hin]); [| |by apply elem_of_nil in Hin].
  - split; [vm_compute; reflexivity|]. split; [by apply (bool_decide_unpack _)|]. split; [vm_compute; reflexivity|]. split; [vm_compute; reflexivity|]. split; [apply (bool_decide_unpack _); vm_compute; exact I|]. repeat (split; [vm_compute; reflexivity|]). vm_compute; reflexivity.
  - split; [vm_compute; reflexivity|]. split; [by apply (bool_decide_unpack _)|]. split; [vm_compute; reflexivity|]. split; [vm_compute; reflexivity|]. split; [apply (bool_decide_unpack _); vm_compute; exact I|]. repeat (split; [vm_compute; reflexivity|]). vm_compute; reflexivity.
Qed.
Definition mk_world : world := project_world mk_addr mk_objs mk_leaf.
(** The run, with the given answers. *)
Definition mk_log (argv : list string) (rs : list nat) : list event :=
  match run mk_world RunnerModel.init [ChRegister "Mid" 1; ChRegister "Out" 3; ChRun (r_ctx (mk_req argv)) [RunnerModel.TPtr 3]] with
  | Some s => s_log (sim 100 mk_world s rs)
  | None => []
  end.
Lemma mk_trace argv rs : trace mk_world (mk_log argv rs).
Proof.
  unfold mk_log. destruct (run _ _ _) as [s|] eqn:E; [|apply (reachable_trace _ RunnerModel.init), init_reachable].
  apply reachable_trace, sim_reachable. by eexists.
Qed.
Definition mk_fine (argv : list string) (ev : event) : Prop :=
  match ev with
  | EvCall c None cx ts => c = 0 /\ cx = r_ctx (mk_req argv) /\ ts = [RunnerModel.TPtr 3]
  | EvRegister _ _ => False
  | EvStart _ _ _ cx => cx = r_ctx (mk_req argv)
  | _ => True
  end.
Lemma mk_executes argv l : argv ∈ mk_argvs -> trace mk_world ([EvRegister "Mid" 1; EvRegister "Out" 3] ++ l) -> Forall (mk_fine argv) l ->
  executes mk_world (snd <$> r_reg (mk_req argv)) ([EvRegister "Mid" 1; EvRegister "Out" 3] ++ l).
Proof.
  intros Hin Ht Hf. assert (Hl : forall n x, EvRegister n x ∉ l) by (intros n x Hx; rewrite Forall_forall in Hf; by apply Hf in Hx).
  destruct (mk_fab argv Hin) as (_ & _ & _ & _ & -> & _). split; [exact Ht|]. split.
  - intros i j c p cx ts name x Hi Hj. destruct (decide (j < 2)) as [Hj5|Hj5].
    + destruct (decide (i < 2)) as [Hi5|]; [|lia]. exfalso. do 2 (destruct i as [|i]; [discriminate|]). lia.
    + rewrite lookup_app_r in Hj by (simpl; lia). exfalso. apply elem_of_list_lookup_2 in Hj. by apply Hl in Hj.
  - intros n x. rewrite elem_of_app, !elem_of_cons, !elem_of_nil. rewrite lookup_fmap_Some. split.
    + intros [[[= -> ->]|[[= -> ->]|[]]]|Hx]; [| |by apply Hl in Hx].
      * exists ("", 1). done.
      * exists ("", 3). done.
    + intros ([d y] & <- & Hq). left. simpl. rewrite lookup_insert_Some in Hq. destruct Hq as [[<- [= _ <-]]|[_ [<- [= _ <-]]%lookup_singleton_Some]]; auto.
Qed.
Lemma mk_under_way argv l : argv ∈ mk_argvs -> trace mk_world ([EvRegister "Mid" 1; EvRegister "Out" 3] ++ l) -> Forall (mk_fine argv) l ->
  under_way no_rules (mk_req argv) mk_objs mk_addr mk_leaf ([EvRegister "Mid" 1; EvRegister "Out" 3] ++ l).
Proof.
  intros Hin Ht Hf. destruct (mk_fab argv Hin) as (_ & _ & _ & _ & _ & Eo & Et & _). split.
  - rewrite Eo. apply expands_self.
  - intros o1 o2. unfold mk_addr. lia.
  - intros [|[|[|o]]] cx ts Hm; simpl in Hm; try exact (ChainProofs2.may_ret _ _ Hm); inversion Hm; subst; by eapply ChainProofs2.may_ret.
  - by apply mk_executes.
  - exists 0, [RunnerModel.TPtr 3]. split; [rewrite Et; by repeat constructor|].
    intros c cx ts Hc. rewrite elem_of_app, !elem_of_cons, elem_of_nil in Hc. destruct Hc as [[?|[?|?]]|Hc]; try done.
    rewrite Forall_forall in Hf. by apply Hf in Hc.
Qed.
Lemma mk_parts i x : (i = 1 /\ x = 0) \/ (i = 3 /\ x = 2) -> rule_part {[ "Mid" := 1; "Out" := 3 ]} mk_objs i x.
Proof.
  intros Hix. split; [destruct Hix as [[-> _]|[-> _]]; by eexists _, _, _, _|]. apply tc_once. split; [|split; [|split]].
  - destruct Hix as [[-> ->]|[-> ->]]; by left.
  - intros p' Hp. unfold children, mk_objs in Hp. destruct p' as [|[|[|[|p']]]]; simpl in Hp; rewrite ?elem_of_cons, ?elem_of_nil in Hp; lia.
  - intros (t & ins & outs & ac & E). destruct Hix as [[-> ->]|[-> ->]]; discriminate E.
  - intros q Hq. rewrite lookup_insert_Some, lookup_singleton_Some in Hq. lia.
Qed.
Lemma mk_run hashf H argv σ l : argv ∈ mk_argvs -> trace mk_world ([EvRegister "Mid" 1; EvRegister "Out" 3] ++ l) -> Forall (mk_fine argv) l ->
  u_possible mk_U (e_fs σ) -> valid_all hashf H mk_p σ l ->
  MakeSpec.fab_run hashf H mk_right mk_machine 20 argv (mk_m argv) "/p" plain_tags "/p/d" (mk_acts argv) 0 (mk_req argv) no_rules mk_objs mk_addr mk_leaf mk_U σ ([EvRegister "Mid" 1; EvRegister "Out" 3] ++ l).
Proof.
  intros Hin Ht Hf Hp Hv. destruct (mk_fab argv Hin) as (Em & En & Ef & Er & Eg & Eo & Et & Ed & Efo & Ea).
  pose proof (mk_under_way argv l Hin Ht Hf) as Huw.
  assert (Hs : session hashf H mk_p σ ([EvRegister "Mid" 1; EvRegister "Out" 3] ++ l)) by (by apply valid_all_session).
  rewrite Forall_forall in Hf.
  assert (Hu : proper_use mk_p mk_owner ([EvRegister "Mid" 1; EvRegister "Out" 3] ++ l)).
  { split.
    - intros c cx ts x i Hc Hx. rewrite elem_of_app, !elem_of_cons, elem_of_nil in Hc. destruct Hc as [[?|[?|?]]|Hc]; try done.
      apply Hf in Hc as (_ & _ & ->). apply elem_of_list_singleton in Hx as [= ->]. done.
    - intros n x i Hc. rewrite elem_of_app, !elem_of_cons, elem_of_nil in Hc. destruct Hc as [[[= -> ->]|[[= -> ->]|?]]|Hc]; try done. by apply Hf in Hc.
    - intros n f x _ _ Hx. change (target_name mk_objs x = Some n) in Hx. destruct x as [|[|[|[|x]]]]; discriminate Hx.
    - intros g b cx f _ Hc. rewrite elem_of_app, !elem_of_cons, elem_of_nil in Hc. destruct Hc as [[?|[?|?]]|Hc]; try done.
      apply Hf in Hc. simpl in Hc. subst cx. repeat (apply elem_of_cons in Hin as [-> |Hin]); [vm_compute; reflexivity..|by apply elem_of_nil in Hin]. }
  split.
  - by apply mk_project.
  - exact Ef.
  - rewrite Er. by left.
  - exact Huw.
  - exact Ed.
  - exact mk_targets.
  - intros o cx. rewrite Eg. replace (snd <$> {[ "Mid" := ("", 1); "Out" := ("", 3) ]} : gmap string nat) with ({[ "Mid" := 1; "Out" := 3 ]} : gmap string nat)
      by (rewrite fmap_insert, map_fmap_singleton; done).
    destruct o as [|[|[|o]]]; simpl; try constructor.
    + left. exists 1, 0. split; [apply mk_parts; by left|done].
    + intros r. constructor.
    + left. exists 3, 0. split; [apply mk_parts; by right|done].
    + intros r. constructor.
  - exact mk_sep.
  - exact (sound_honest _ _ _ _ mk_db).
  - exact Hp.
  - exact (proj2 Hs).
  - exact (single_work mk_right mk_covers mk_p mk_owner σ mk_sep Hp mk_single _ Ht (tidy_orderly mk_p mk_owner _ mk_wf mk_tidy Hu Ht)).
  - left. intros x q o Hx. destruct x as [|[|[|[|x]]]]; discriminate Hx.
Qed.
Lemma mk_carried argv l : argv ∈ mk_argvs -> trace mk_world ([EvRegister "Mid" 1; EvRegister "Out" 3] ++ l) -> Forall (mk_fine argv) l ->
  EvCall 0 None (r_ctx (mk_req argv)) [RunnerModel.TPtr 3] ∈ l -> EvRet 0 None None ∈ l ->
  carried_out mk_machine no_rules (mk_req argv) mk_objs mk_addr mk_leaf ([EvRegister "Mid" 1; EvRegister "Out" 3] ++ l) None.
Proof.
  intros Hin Ht Hf Hc Hr. split; [by apply mk_under_way|]. split; [|done]. exists 0, [RunnerModel.TPtr 3]. rewrite !elem_of_app. auto.
Qed.

Section runs.
  Context (hashf : string -> string) (H : FilesModel.json -> hash).
  Definition mk_h (f : files) (fs : files_state) : hash :=
    match computeHash hashf H 3 fs (rule_of mk_p f) with HOk h => h | _ => 0 end.
  (** Only the source exists; nothing has been recorded.  Everything is built. *)
  Definition mk_start (c : string) : files_state := write "/p/src" c (fun _ => FMissing).
  Definition mk_s0 : env := {| e_fs := mk_start "1"; e_db := ∅; e_time := 0 |}.
  Definition mk_tr1 : list event :=
    let fs := e_fs mk_s0 in
    let fs1 := p_cmd mk_p 0 1 0 0 fs in
    let fs2 := p_cmd mk_p 0 3 0 0 fs1 in
    mk_log ["Out"] [S (mk_h mk_f1 fs); 0; 0; S (mk_h mk_f1 fs1); 0; S (mk_h mk_f2 fs1); 0; 0; S (mk_h mk_f2 fs2); 0].
  Definition mk_s1 : env := after mk_p mk_s0 mk_tr1.
  (** Then fab -v Out: nothing needs to be done. *)
  Definition mk_tr2 : list event :=
    mk_log ["-v"; "Out"] [S (mk_h mk_f1 (e_fs mk_s1)); 1; S (mk_h mk_f2 (e_fs mk_s1)); 1].
  (** Or else /p/out is edited, and fab Out is killed when it has run the command. *)
  Definition mk_s3 : env := {| e_fs := write "/p/out" "?" (e_fs mk_s1); e_db := e_db mk_s1; e_time := e_time mk_s1 |}.
  Definition mk_tr3 : list event :=
    let fs := e_fs mk_s3 in
    mk_log ["Out"] [S (mk_h mk_f1 fs); 1; S (mk_h mk_f2 fs); 0; 0].
  (** Then /p/src is edited, and fab Out is called. *)
  Definition mk_s4 : env := let s := after mk_p mk_s3 mk_tr3 in {| e_fs := write "/p/src" "2" (e_fs s); e_db := e_db s; e_time := e_time s |}.
  Definition mk_tr4 : list event :=
    let fs := e_fs mk_s4 in
    let fs1 := p_cmd mk_p 0 1 0 0 fs in
    let fs2 := p_cmd mk_p 0 3 0 0 fs1 in
    mk_log ["Out"] [S (mk_h mk_f1 fs); 0; 0; S (mk_h mk_f1 fs1); 0; S (mk_h mk_f2 fs1); 0; 0; S (mk_h mk_f2 fs2); 0].
  (** A clean build with the same source. *)
  Definition mk_s5 : env := {| e_fs := mk_start "2"; e_db := ∅; e_time := 0 |}.
  Definition mk_tr5 : list event :=
    let fs := e_fs mk_s5 in
    let fs1 := p_cmd mk_p 0 1 0 0 fs in
    let fs2 := p_cmd mk_p 0 3 0 0 fs1 in
    mk_log ["Out"] [S (mk_h mk_f1 fs); 0; 0; S (mk_h mk_f1 fs1); 0; S (mk_h mk_f2 fs1); 0; 0; S (mk_h mk_f2 fs2); 0].

  Context (Hh : Inj (=) (=) hashf) (HH : Inj (=) (=) H).
  Ltac hash_valid := intros f [->| ->]%mk_rule_cases E; vm_compute in E; simplify_eq; exists 3; vm_compute; reflexivity.
  Ltac has_valid :=
    split; intros Er; try discriminate Er; clear Er; cbn [next e_db p_db mk_p yaml_build u_db mk_U mk_s0 mk_s1 mk_s3 mk_s4 mk_s5 after fold_left after_event];
    rewrite ?elem_of_union, ?elem_of_singleton, ?elem_of_empty;
    first [ by auto | intros Hin; repeat destruct Hin as [Hin|Hin]; try done; apply HH in Hin; first [discriminate Hin|injection Hin as Hin; repeat match goal with X : hashf _ = hashf _ |- _ => apply Hh in X end; try done; discriminate] ].
  Ltac all_valid :=
    cbn [valid_all]; repeat match goal with
    | |- _ /\ valid_all _ _ _ _ _ => split
    | |- valid _ _ _ _ _ _ /\ _ => split
    | |- True => exact I
    | |- valid _ _ _ (OpHash _ _) _ _ => cbn [valid]; hash_valid
    | |- valid _ _ _ (OpHas _) _ _ => cbn [valid]; has_valid
    | |- valid _ _ _ _ _ _ => exact I
    end.
  Ltac compute_in l E := let v := eval vm_compute in l in assert (E : l = v) by (vm_compute; reflexivity).
  Lemma mk_possible c : u_possible mk_U (mk_start c).
  Proof. intros q _. unfold mk_start, write. case_decide; eauto. Qed.
  Lemma mk_edited q c fs : u_possible mk_U fs -> u_possible mk_U (write q c fs).
  Proof. intros Hp q' Hq. unfold write. case_decide; [right; by eexists|by apply Hp]. Qed.
  Definition mk_run_of (argv : list string) (σ : env) (tr : list event) : Prop :=
    MakeSpec.fab_run hashf H mk_right mk_machine 20 argv (mk_m argv) "/p" plain_tags "/p/d" (mk_acts argv) 0 (mk_req argv) no_rules mk_objs mk_addr mk_leaf mk_U σ tr.
  Definition mk_done (argv : list string) (tr : list event) : Prop := carried_out mk_machine no_rules (mk_req argv) mk_objs mk_addr mk_leaf tr None.
  Lemma mk_run_log argv rs σ : argv ∈ mk_argvs -> take 2 (mk_log argv rs) = [EvRegister "Mid" 1; EvRegister "Out" 3] ->
    Forall (mk_fine argv) (drop 2 (mk_log argv rs)) -> u_possible mk_U (e_fs σ) -> valid_all hashf H mk_p σ (drop 2 (mk_log argv rs)) ->
    mk_run_of argv σ (mk_log argv rs).
  Proof.
    intros Hin Ht Hf Hp Hv. pose proof (mk_trace argv rs) as Htr. rewrite <-(take_drop 2 (mk_log argv rs)), Ht in Htr.
    unfold mk_run_of. rewrite <-(take_drop 2 (mk_log argv rs)), Ht. by apply mk_run.
  Qed.
  Lemma mk_done_log argv rs : argv ∈ mk_argvs -> take 2 (mk_log argv rs) = [EvRegister "Mid" 1; EvRegister "Out" 3] ->
    Forall (mk_fine argv) (drop 2 (mk_log argv rs)) ->
    EvCall 0 None (r_ctx (mk_req argv)) [RunnerModel.TPtr 3] ∈ drop 2 (mk_log argv rs) -> EvRet 0 None None ∈ drop 2 (mk_log argv rs) ->
    mk_done argv (mk_log argv rs).
  Proof.
    intros Hin Ht Hf Hc Hr. pose proof (mk_trace argv rs) as Htr. rewrite <-(take_drop 2 (mk_log argv rs)), Ht in Htr.
    unfold mk_done. rewrite <-(take_drop 2 (mk_log argv rs)), Ht. by apply mk_carried.
  Qed.
  Ltac fine := vm_compute; repeat constructor.
  Ltac found := vm_compute; repeat first [apply elem_of_list_here | apply elem_of_list_further].
  Lemma mk_run1 : mk_run_of ["Out"] mk_s0 mk_tr1 /\ mk_done ["Out"] mk_tr1.
  Proof.
    split; [apply mk_run_log|apply mk_done_log]; [by left|vm_compute; reflexivity|fine|apply mk_possible| |by left|vm_compute; reflexivity|fine|found|found].
    match goal with |- valid_all _ _ _ _ ?l => let v := eval vm_compute in l in change l with v end. all_valid.
  Qed.
  Lemma mk_possible1 : u_possible mk_U (e_fs mk_s1).
  Proof. exact (possible_after _ mk_sep mk_s0 (mk_possible _) mk_tr1). Qed.
  Lemma mk_possible3 : u_possible mk_U (e_fs mk_s3).
  Proof. apply mk_edited, mk_possible1. Qed.
  Lemma mk_possible4 : u_possible mk_U (e_fs mk_s4).
  Proof. apply mk_edited. exact (possible_after _ mk_sep mk_s3 mk_possible3 mk_tr3). Qed.
  Lemma mk_run2 : mk_run_of ["-v"; "Out"] mk_s1 mk_tr2 /\ mk_done ["-v"; "Out"] mk_tr2.
  Proof.
    split; [apply mk_run_log|apply mk_done_log]; [right; by left|vm_compute; reflexivity|fine|apply mk_possible1| |right; by left|vm_compute; reflexivity|fine|found|found].
    match goal with |- valid_all _ _ _ _ ?l => let v := eval vm_compute in l in change l with v end.
    unfold mk_s1. compute_in mk_tr1 E. rewrite E. clear E. all_valid.
  Qed.
  Lemma mk_run3 : mk_run_of ["Out"] mk_s3 mk_tr3.
  Proof.
    apply mk_run_log; [by left|vm_compute; reflexivity|fine|apply mk_possible3|].
    match goal with |- valid_all _ _ _ _ ?l => let v := eval vm_compute in l in change l with v end.
    unfold mk_s3, mk_s1. compute_in mk_tr1 E. rewrite E. clear E. all_valid.
  Qed.
  Lemma mk_run4 : mk_run_of ["Out"] mk_s4 mk_tr4 /\ mk_done ["Out"] mk_tr4.
  Proof.
    split; [apply mk_run_log|apply mk_done_log]; [by left|vm_compute; reflexivity|fine|apply mk_possible4| |by left|vm_compute; reflexivity|fine|found|found].
    match goal with |- valid_all _ _ _ _ ?l => let v := eval vm_compute in l in change l with v end.
    unfold mk_s4. compute_in mk_tr3 E. rewrite E. clear E. unfold mk_s3, mk_s1. compute_in mk_tr1 E. rewrite E. clear E. all_valid.
  Qed.
  Lemma mk_run5 : mk_run_of ["Out"] mk_s5 mk_tr5 /\ mk_done ["Out"] mk_tr5.
  Proof.
    split; [apply mk_run_log|apply mk_done_log]; [by left|vm_compute; reflexivity|fine|apply mk_possible| |by left|vm_compute; reflexivity|fine|found|found].
    match goal with |- valid_all _ _ _ _ ?l => let v := eval vm_compute in l in change l with v end. all_valid.
  Qed.
  Lemma mk_history1 : fab_history hashf H mk_right mk_s1.
  Proof. unfold mk_s1. eapply fh_run; [constructor|exact (proj1 mk_run1)]. Qed.
  Lemma mk_history3 : fab_history hashf H mk_right mk_s3.
  Proof. eapply (fh_edit _ _ _ mk_s1); [exact mk_history1|intros x Hx; left; exact Hx]. Qed.
  Lemma mk_history4 : fab_history hashf H mk_right mk_s4.
  Proof. eapply (fh_edit _ _ _ (after mk_p mk_s3 mk_tr3)); [|intros x Hx; left; exact Hx]. eapply fh_run; [exact mk_history3|exact mk_run3]. Qed.
  Lemma mk_history5 : fab_history hashf H mk_right mk_s5.
  Proof. constructor. Qed.

  (** C84: after a build, an edit, a build that was killed, and another edit. *)
  Example C84_case : fab_history hashf H mk_right mk_s4 /\ mk_run_of ["Out"] mk_s4 mk_tr4 /\ mk_done ["Out"] mk_tr4 /\
    defined_once "/p" (k_docs mk_machine "/p/d") /\ names_target (m_args (mk_m ["Out"])) "Out" /\
    (forall all, required "/p" (tag_lists plain_tags) (k_docs mk_machine "/p/d") no_rules all (fun q => is_Some (r_reg (mk_req ["Out"]) !! q)) "" n_out "" n_mid) /\
    rule "/p" (tag_lists plain_tags) no_rules "" n_mid ["/p/src"] ["/p/mid"] /\
    e_fs mk_s4 "/p/out" = FFile (Some "om1") /\ e_fs (after mk_p mk_s4 mk_tr4) "/p/out" = FFile (Some "om2").
  Proof.
    assert (Hr : forall i o c, rule "/p" (tag_lists plain_tags) no_rules "" (rule_node (cmd c) i o) (default [] (match YAMLFileList fns0 "/p" (sq "!!seq" [sc i]) "" with LOk l => Some l | _ => None end))
        (default [] (match YAMLFileList fns0 "/p" (sq "!!seq" [sc o]) "" with LOk l => Some l | _ => None end))).
    { intros i o c. left. eexists. split; [split; [done|split; [intros [? [=]]|by right]]|]. split; [reflexivity|]. split; reflexivity. }
    pose proof (Hr "src" "mid" "make mid") as H1. pose proof (Hr "mid" "out" "make out") as H2.
    match type of H1 with rule _ _ _ _ _ ?x ?y => let x' := eval vm_compute in x in let y' := eval vm_compute in y in change x with x' in H1; change y with y' in H1 end.
    match type of H2 with rule _ _ _ _ _ ?x ?y => let x' := eval vm_compute in x in let y' := eval vm_compute in y in change x with x' in H2; change y with y' in H2 end.
    assert (Hw : forall q v, (q = "Mid" /\ v = n_mid) \/ (q = "Out" /\ v = n_out) -> written "/p" (k_docs mk_machine "/p/d") q "" v).
    { intros q v Hq. exists (sc q), v. split; [|constructor]. exists "", (document mk_entries), mk_entries.
      split; [vm_compute; reflexivity|]. split; [vm_compute; reflexivity|]. split; [by eexists|].
      destruct Hq as [[-> ->]|[-> ->]]; (split; [first [by left|right; by left]|]); (split; [done|vm_compute; reflexivity]). }
    split; [exact mk_history4|]. split; [exact (proj1 mk_run4)|]. split; [exact (proj2 mk_run4)|]. split; [exact mk_once|].
    split; [right; split; [intros a s rest [=]|by left]|]. split; [|split; [exact H1|]].
    - intros all. eapply (req_rule _ _ _ _ _ _ _ _ _ _ "/p/mid" "Mid" "" n_mid); [exact H2|by left| |by apply Hw; left| |constructor].
      + vm_compute. by eexists.
      + split; [exists ["/p/src"], ["/p/mid"]; split; [exact H1|by left]|].
        intros q' dir' n' ins' outs' [-> Hn]%mk_written Hr' Hi. split; [done|].
        repeat (apply elem_of_cons in Hn as [-> |Hn]); [done|exfalso|exfalso; by eapply cmd_no_rule|exfalso; by eapply cmd_no_rule|by apply elem_of_nil in Hn].
        destruct Hr' as [(fs & _ & Hd & _ & Ho)|(t & _ & _ & ?)]; [|done]. vm_compute in Hd. injection Hd as <-. vm_compute in Ho. injection Ho as <-.
        by apply elem_of_list_singleton in Hi.
    - split; vm_compute; reflexivity.
  Qed.
  (** C85: the database of the end is not empty. *)
  Example C85_case : fab_history hashf H mk_right (after mk_p mk_s4 mk_tr4) /\
    mk_h mk_f2 (e_fs (after mk_p mk_s4 mk_tr4)) ∈ e_db (after mk_p mk_s4 mk_tr4).
  Proof.
    split; [eapply fh_run; [exact mk_history4|exact (proj1 mk_run4)]|].
    compute_in mk_tr4 E. rewrite E. clear E. cbn [after fold_left after_event next e_db p_db mk_p yaml_build u_db mk_U].
    apply elem_of_union_l, elem_of_singleton. vm_compute. reflexivity.
  Qed.
  Lemma mk_s1_eq : mk_s1 = after mk_p mk_s0 mk_tr1.
  Proof. unfold mk_s1. reflexivity. Qed.
  Lemma mk_tr1_runs : exists g, EvEff g (OpCmd 3 0) 0 ∈ mk_tr1.
  Proof. exists 3. found. Qed.
  Lemma mk_tr2_ends : exists g a, EvEnd g a 3 None ∈ mk_tr2.
  Proof. exists 0, 103. found. Qed.
  (** C86: fab Out; fab -v Out. *)
  Example C86_case : mk_run_of ["Out"] mk_s0 mk_tr1 /\ mk_done ["Out"] mk_tr1 /\ mk_run_of ["-v"; "Out"] (after mk_p mk_s0 mk_tr1) mk_tr2 /\
    same_yaml mk_machine "/p/d" mk_machine "/p/d" /\ database_keeps mk_p /\ m_force (mk_m ["-v"; "Out"]) = false /\
    (forall q, names_target (m_args (mk_m ["-v"; "Out"])) q -> names_target (m_args (mk_m ["Out"])) q) /\
    (exists g, EvEff g (OpCmd 3 0) 0 ∈ mk_tr1) /\ (exists g a, EvEnd g a 3 None ∈ mk_tr2).
  Proof.
    split; [exact (proj1 mk_run1)|]. split; [exact (proj2 mk_run1)|]. split; [rewrite <-mk_s1_eq; exact (proj1 mk_run2)|]. split; [done|]. split; [exact mk_keeps|].
    split; [vm_compute; reflexivity|]. split; [done|]. split; [exact mk_tr1_runs|exact mk_tr2_ends].
  Qed.
  (** C87: that and a clean build. *)
  Example C87_case : fab_history hashf H mk_right mk_s4 /\ fab_history hashf H mk_right mk_s5 /\
    mk_run_of ["Out"] mk_s4 mk_tr4 /\ mk_done ["Out"] mk_tr4 /\ mk_run_of ["Out"] mk_s5 mk_tr5 /\ mk_done ["Out"] mk_tr5 /\
    sources_kept mk_p /\ determined mk_right mk_p /\ (forall i, source mk_p i -> same_files (e_fs mk_s4) [i] (e_fs mk_s5) [i]) /\
    e_fs mk_s4 "/p/mid" <> e_fs mk_s5 "/p/mid".
  Proof.
    split; [exact mk_history4|]. split; [exact mk_history5|]. split; [exact (proj1 mk_run4)|]. split; [exact (proj2 mk_run4)|].
    split; [exact (proj1 mk_run5)|]. split; [exact (proj2 mk_run5)|]. split; [exact mk_kept|]. split; [exact mk_determined|].
    split; [|vm_compute; discriminate].
    intros i ((f & Hf & Hi) & Hn). assert (i = "/p/src") as ->.
    { apply mk_rule_cases in Hf as [->| ->]; apply elem_of_list_singleton in Hi as ->; [done|].
      destruct (Hn mk_f1). split; [apply mk_in1|]. left. by left. }
    apply ex_same; [apply mk_possible4; by left|apply mk_possible; by left|]. vm_compute. reflexivity.
  Qed.
End runs.
