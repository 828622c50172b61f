(** A project of two Files targets, for the concrete cases in BuildProps.v: [mid] is made
    from [src], and [out] from [mid]. *)
From stdpp Require Import base gmap list strings.
From Verif Require Import PathModel FindModel FileHashModel FileHashSpec FilesModel FilesSpec FilesProofs4 PathProofs3.
From Verif Require Import ContextModel RunnerModel RunnerSteps RunnerSpec RunnerProofs RunnerProofs3 ChainModel BuildModel BuildSpec BuildProofs BuildProofs2 BuildProofs3 BuildProofs4 BuildProofs5 BuildProofs6 BuildProofs7.
Local Open Scope list_scope.

Definition ex_f1 : files := {| f_id := 1; f_in := ["src"]; f_out := ["mid"] |}.
Definition ex_f2 : files := {| f_id := 2; f_in := ["mid"]; f_out := ["out"] |}.
Definition ex_rules : list files := [ex_f1; ex_f2].
Definition ex_sub (f : files) : obj := 10 + f_id f.
Definition ex_shell (s : string) : command :=
  {| c_shell := s; c_cmd := ""; c_args := []; c_stdout_file := ""; c_stderr_file := ""; c_stdin_file := ""; c_dir := ""; c_env := [] |}.
Definition ex_make1 : tgt := TCmd (ex_shell "make mid").
Definition ex_make2 : tgt := TCmd (ex_shell "make out").

Definition ex_command (i : obj) : prog := Eff (OpCmd i 0) (fun r => Ret (match r with 0 => None | _ => Some (EBody r) end)).
Definition ex_world : world := {|
  w_addr := fun o => o;
  w_deferred := fun _ => None;
  w_body := fun o cx =>
    match o with
    | 1 => files_prog (declare_all ex_rules) ex_f1 (TPtr 11) cx
    | 2 => files_prog (declare_all ex_rules) ex_f2 (TPtr 12) cx
    | 11 => ex_command 1
    | 12 => ex_command 2
    | _ => Ret None
    end |}.

(** The contents of a file; nothing if there is no such file. *)
Definition text (fs : files_state) (q : string) : string := match fs q with FFile (Some c) => c | _ => "" end.
Definition write (q c : string) (fs : files_state) : files_state := fun q' => if decide (q' = q) then FFile (Some c) else fs q'.
Definition ex_project : project := {|
  p_world := ex_world;
  p_rules := ex_rules;
  p_sub := ex_sub;
  p_desc := fun f => match f_id f with 1 => ex_make1 | _ => ex_make2 end;
  p_cmd := fun _ o n r fs =>
    match o, r with
    | 1, 0 => write "mid" ("m" +:+ text fs "src") fs
    | 2, 0 => write "out" ("o" +:+ text fs "mid") fs
    | _, _ => fs
    end;
  p_other := fun _ _ _ fs => fs;
  p_possible := fun fs => forall q, q ∈ ["src"; "mid"; "out"] -> fs q = FMissing \/ exists c, fs q = FFile (Some c);
  p_db := fun _ l r db => match l with OpAdd h => {[h]} ∪ db | _ => db end |}.
Definition ex_owner (x : obj) : option obj := match x with 11 => Some 1 | 12 => Some 2 | _ => None end.

(** The value of a file that the rule covers. *)
Definition value (fs : files_state) (items : list string) (q c : string) : Prop :=
  (covered fs items q /\ fs q = FFile (Some c)) \/ (c = "" /\ ~ exists c', covered fs items q /\ fs q = FFile (Some c')).
Definition ex_right (r : rule) (fs : files_state) : Prop :=
  (same_description (r_tgt r) ex_make1 -> forall c, value fs (r_in r) "src" c ->
    covered fs (r_out r) "mid" /\ fs "mid" = FFile (Some ("m" +:+ c))) /\
  (same_description (r_tgt r) ex_make2 -> forall c, value fs (r_in r) "mid" c ->
    covered fs (r_out r) "out" /\ fs "out" = FFile (Some ("o" +:+ c))).

(** A scheduler that takes the first enabled step; [rs] are the answers of the environment,
    in order. *)
Fixpoint waiting_eff (gs : list gor) (g : nat) : option nat :=
  match gs with
  | [] => None
  | gr :: gs => match g_st gr with GBody (Eff _ _) => Some g | _ => waiting_eff gs (S g) end
  end.
Fixpoint sim (n : nat) (w : world) (s : state) (rs : list nat) : state :=
  match n with
  | 0 => s
  | S n =>
      match waiting_eff (s_gors s) 0 with
      | Some g =>
          match rs with
          | [] => s
          | r :: rs => match step w s (ChGo g r) with Some s' => sim n w s' rs | None => s end
          end
      | None => match first_step w s (candidates s) with Some s' => sim n w s' rs | None => s end
      end
  end.
Lemma sim_reachable n w s rs : reachable w s -> reachable w (sim n w s rs).
Proof.
  revert s rs. induction n as [|n IH]; intros s rs Hre; cbn [sim]; [exact Hre|].
  destruct (waiting_eff (s_gors s) 0) as [g|].
  - destruct rs as [|r rs]; [exact Hre|]. destruct (step w s (ChGo g r)) as [s'|] eqn:E; [|exact Hre]. apply IH. by eapply reachable_step.
  - destruct (first_step w s (candidates s)) as [s'|] eqn:E; [|exact Hre]. apply IH. by eapply first_step_reachable.
Qed.
Definition ex_cx : ctx := WithHashDB Background (Some 0).
(** Run(ex_f2), with the given answers. *)
Definition ex_log (rs : list nat) : list event :=
  match step ex_world RunnerModel.init (ChRun ex_cx [TPtr 2]) with
  | Some s => s_log (sim 100 ex_world s rs)
  | None => []
  end.
Lemma ex_log_trace rs : trace ex_world (ex_log rs).
Proof.
  unfold ex_log. destruct (step _ _ _) as [s|] eqn:E.
  - apply reachable_trace, sim_reachable. eapply reachable_step; [apply init_reachable|exact E].
  - apply (reachable_trace _ RunnerModel.init), init_reachable.
Qed.


(** ** The project meets the conditions. *)
Lemma ex_rule_cases f : f ∈ ex_rules -> f = ex_f1 \/ f = ex_f2.
Proof. intros [->|[->|[]%elem_of_nil]%elem_of_cons]%elem_of_cons; auto. Qed.
Lemma plain_covered fs q q' : (fs q = FMissing \/ exists c, fs q = FFile (Some c)) -> covered fs [q] q' <-> q' = q.
Proof.
  intros Hp. split.
  - intros (i & ->%elem_of_list_singleton & Hu). inversion Hu as [|? ns n ? Hd]; [done|]. subst. destruct Hp as [Hp|[c Hp]]; congruence.
  - intros ->. exists q. split; [by left|constructor].
Qed.
Lemma ex_wf : well_formed ex_project.
Proof.
  split.
  - by intros ? ? ?.
  - intros f1 f2 [->| ->]%ex_rule_cases [->| ->]%ex_rule_cases; done.
  - done.
  - intros f cx [->| ->]%ex_rule_cases; done.
Qed.
Lemma write_same q c fs q' : q' <> q -> write q c fs q' = fs q'.
Proof. intros Hn. unfold write. by rewrite decide_False. Qed.
Lemma ex_cmd_cases t o n r fs : p_cmd ex_project t o n r fs = fs \/ p_cmd ex_project t o n r fs = write "mid" ("m" +:+ text fs "src") fs /\ o = 1 \/
  p_cmd ex_project t o n r fs = write "out" ("o" +:+ text fs "mid") fs /\ o = 2.
Proof. destruct o as [|[|[|o]]]; try (by left); destruct r; auto. Qed.
Lemma ex_sep : separate ex_project.
Proof.
  split.
  - intros t q f n r fs Hp [->| ->]%ex_rule_cases [->| ->]%ex_rule_cases Hn Hq; try done.
    { exfalso. apply Hq. vm_compute. left. }
    destruct (ex_cmd_cases t (f_id ex_f2) n r fs) as [-> |[(_ & ?)|(-> & _)]]; [apply unchanged_refl|done|].
    intros q' (i & Hi & Hu). assert (Hc : covered fs [i] q') by (exists i; split; [by left|done]).
    apply plain_covered in Hc as ->; [|apply Hp; revert Hi; simpl; set_solver].
    apply write_same. revert Hi. simpl. set_solver.
  - intros t f n r fs _ _. apply unchanged_refl.
  - intros fs Hp. split; [|done]. intros t o n r q Hq.
    assert (Hw : forall a c, write a c fs q = FMissing \/ exists c', write a c fs q = FFile (Some c')).
    { intros a c. unfold write. case_decide; [by right; eexists|by apply Hp]. }
    destruct (ex_cmd_cases t o n r fs) as [-> |[(-> & _)|(-> & _)]]; [by apply Hp|apply Hw..].
Qed.
Lemma ex_db : database_sound ex_project.
Proof. split; simpl; [done|]. intros. done. Qed.
Lemma ex_keeps : database_keeps ex_project.
Proof. split; [done|]. split; simpl; set_solver. Qed.
Lemma ex_tidy : tidy ex_project ex_owner.
Proof.
  split.
  - intros f [->| ->]%ex_rule_cases; done.
  - intros x i Hx. split; [|done]. do 13 (try (destruct x as [|x]); try done); simplify_eq/=.
    + exists ex_f1. split; [left|done].
    + exists ex_f2. split; [right; left|done].
  - intros x i cx Hx. do 13 (try (destruct x as [|x]); try done); simplify_eq/=; constructor; eauto; intros; constructor.
  - intros x cx Ho Hf _. do 13 (try (destruct x as [|x]); try done; try (by constructor)).
    + by destruct (Hf ex_f1 ltac:(left)).
    + by destruct (Hf ex_f2 ltac:(right; left)).
Qed.
Lemma ex_value fs q c : value fs [q] q c -> (fs q = FMissing \/ exists c, fs q = FFile (Some c)) -> c = text fs q.
Proof.
  intros Hv Hp. assert (Hc : covered fs [q] q) by (by apply plain_covered). unfold text. destruct Hv as [[_ ->]|[-> Hn]]; [done|].
  destruct Hp as [E|[c E]]; rewrite E; [done|]. destruct Hn. by exists c.
Qed.
Lemma ex_value2 fs q : (fs q = FMissing \/ exists c, fs q = FFile (Some c)) -> value fs [q] q (text fs q).
Proof.
  intros Hp. assert (Hc : covered fs [q] q) by (by apply plain_covered). unfold text, value. destruct Hp as [E|[c E]]; rewrite E; [|by left].
  right. split; [done|]. intros (c' & _ & ?). done.
Qed.
Lemma ex_single : single_commands ex_right ex_project ex_owner.
Proof.
  split.
  - intros f x [->| ->]%ex_rule_cases Hx; do 13 (try (destruct x as [|x]); try done).
  - intros f cx [->| ->]%ex_rule_cases; done.
  - intros t f fs Hp [->| ->]%ex_rule_cases.
    + change (p_cmd ex_project t (f_id ex_f1) 0 0 fs) with (write "mid" ("m" +:+ text fs "src") fs). split; [|by intros [_ ?]].
      intros _ c Hv. assert (Hs : write "mid" ("m" +:+ text fs "src") fs "src" = fs "src") by (by apply write_same).
      apply ex_value in Hv; [|rewrite Hs; apply Hp; left]. unfold text in Hv at 1. rewrite Hs in Hv. fold (text fs "src") in Hv. subst c.
      assert (E : write "mid" ("m" +:+ text fs "src") fs "mid" = FFile (Some ("m" +:+ text fs "src"))) by done.
      split; [|done]. apply plain_covered; [right; by eexists|done].
    + change (p_cmd ex_project t (f_id ex_f2) 0 0 fs) with (write "out" ("o" +:+ text fs "mid") fs). split; [by intros [_ ?]|].
      intros _ c Hv. assert (Hs : write "out" ("o" +:+ text fs "mid") fs "mid" = fs "mid") by (by apply write_same).
      apply ex_value in Hv; [|rewrite Hs; apply Hp; right; left]. unfold text in Hv at 1. rewrite Hs in Hv. fold (text fs "mid") in Hv. subst c.
      assert (E : write "out" ("o" +:+ text fs "mid") fs "out" = FFile (Some ("o" +:+ text fs "mid"))) by done.
      split; [|done]. apply plain_covered; [right; by eexists|done].
Qed.
Lemma value_same fs1 i1 fs2 i2 q c : same_files fs1 i1 fs2 i2 -> value fs2 i2 q c -> value fs1 i1 q c.
Proof.
  intros Hs [Hv|[-> Hn]].
  - left. apply Hs; [right; by eexists|done].
  - right. split; [done|]. intros (c & Hc). apply Hn. exists c. apply Hs; [right; by eexists|done].
Qed.
Lemma ex_covers : hash_covers ex_right.
Proof.
  intros fs1 r1 fs2 r2 ([Hd1 Hd2] & Hi & Ho) [R1 R2]. split.
  - intros [E1 E2] c Hv. apply Ho; [right; by eexists|]. apply R1; [split; congruence|by eapply value_same].
  - intros [E1 E2] c Hv. apply Ho; [right; by eexists|]. apply R2; [split; congruence|by eapply value_same].
Qed.
Lemma ex_makes f o : makes ex_project f o -> f = ex_f1 /\ o = "mid" \/ f = ex_f2 /\ o = "out".
Proof.
  intros (Hf & [Ho|[(f' & Hf' & Ho) Hm]]).
  - apply ex_rule_cases in Hf as [->| ->]; apply elem_of_list_singleton in Ho as ->; auto.
  - apply ex_rule_cases in Hf' as [->| ->]; apply elem_of_list_singleton in Ho as ->.
    + by vm_compute in Hm.
    + left. split; [|done]. vm_compute in Hm. by injection Hm as <-.
Qed.
Lemma ex_kept : sources_kept ex_project.
Proof.
  intros i ((f & Hf & Hi) & Hn) fs Hp. split; [|intros; apply unchanged_refl].
  assert (i = "src") as ->.
  { apply ex_rule_cases in Hf as [->| ->]; apply elem_of_list_singleton in Hi as ->; [done|].
    destruct (Hn ex_f1). split; [left|]. left. by left. }
  intros t o n r q Hq. apply plain_covered in Hq as ->; [|apply Hp; left].
  destruct (ex_cmd_cases t o n r fs) as [-> |[(-> & _)|(-> & _)]]; [done|by apply write_same..].
Qed.
Lemma ex_same fs1 fs2 q : (fs1 q = FMissing \/ exists c, fs1 q = FFile (Some c)) -> (fs2 q = FMissing \/ exists c, fs2 q = FFile (Some c)) ->
  same_files fs1 [q] fs2 [q] <-> fs1 q = fs2 q.
Proof.
  intros H1 H2. split.
  - intros Hs. destruct (Hs q (fs1 q)) as [Hx _]; [destruct H1 as [->|[c ->]]; [by left|right; by exists c]|].
    symmetry. apply Hx. split; [by apply plain_covered|done].
  - intros E q' e He. rewrite !plain_covered by done. split; intros [-> ?]; (split; [done|congruence]).
Qed.
Lemma ex_determined : determined ex_right ex_project.
Proof.
  intros f fs1 fs2 P1 P2 _ [R11 R12] [R21 R22] Hi o Hm.
  assert (Hx : forall q, q ∈ f_in f -> q ∈ ["src"; "mid"; "out"] -> text fs1 q = text fs2 q).
  { intros q Hq Hq'. specialize (Hi q Hq). apply ex_same in Hi; [|by apply P1|by apply P2]. unfold text. by rewrite Hi. }
  apply ex_makes in Hm as [(-> & ->)|(-> & ->)].
  - destruct (R11 ltac:(done) _ (ex_value2 fs1 "src" (P1 "src" ltac:(left)))) as [_ E1].
    destruct (R21 ltac:(done) _ (ex_value2 fs2 "src" (P2 "src" ltac:(left)))) as [_ E2].
    apply ex_same; [right; by eexists..|]. rewrite E1, E2. rewrite (Hx "src"); [done|left|left].
  - destruct (R12 ltac:(done) _ (ex_value2 fs1 "mid" (P1 "mid" ltac:(right; left)))) as [_ E1].
    destruct (R22 ltac:(done) _ (ex_value2 fs2 "mid" (P2 "mid" ltac:(right; left)))) as [_ E2].
    apply ex_same; [right; by eexists..|]. rewrite E1, E2. rewrite (Hx "mid"); [done|left|right; left].
Qed.

Definition fine (ev : event) : Prop :=
  match ev with
  | EvCall _ None _ ts => ts = [TPtr 2]
  | EvRegister _ _ => False
  | EvStart _ _ _ cx => cx = ex_cx
  | _ => True
  end.
Lemma ex_use tr : Forall fine tr -> proper_use ex_project ex_owner tr.
Proof.
  intros Hf. rewrite Forall_forall in Hf. split.
  - intros c cx ts x i Hin Hx. apply Hf in Hin. simpl in Hin. subst ts. apply elem_of_list_singleton in Hx as [= ->]. done.
  - intros name x i Hin. by apply Hf in Hin.
  - intros name f x _ Hin. by apply Hf in Hin.
  - intros g a cx f _ Hin. apply Hf in Hin. simpl in Hin. by subst cx.
Qed.
Lemma ex_with_db tr : Forall fine tr -> with_database ex_project tr /\ not_forced ex_project tr.
Proof. intros Hf. rewrite Forall_forall in Hf. split; intros f g a cx _ Hin; apply Hf in Hin; simpl in Hin; by subst cx. Qed.

Section ex.
  Context (hashf : string -> string) (H : json -> hash).

  Fixpoint valid_all (p : project) (σ : env) (tr : list event) : Prop :=
    match tr with
    | [] => True
    | EvEff g l r :: tr => valid hashf H p l r σ /\ valid_all p (next p l r σ) tr
    | _ :: tr => valid_all p σ tr
    end.
  Lemma valid_all_session p σ tr : trace (p_world p) tr -> valid_all p σ tr -> session hashf H p σ tr.
  Proof.
    intros Ht Hv. split; [done|]. clear Ht. intros l1. revert σ tr Hv. induction l1 as [|ev l1 IH]; intros σ tr Hv g l r l2 ->.
    - apply Hv.
    - assert (Hx : valid_all p (after_event p σ ev) (l1 ++ EvEff g l r :: l2)) by (by destruct ev; try apply Hv).
      exact (IH _ _ Hx g l r l2 eq_refl).
  Qed.

  Lemma ex_build σ tr : p_possible ex_project (e_fs σ) -> session hashf H ex_project σ tr -> Forall fine tr ->
    build hashf H ex_right ex_project ex_owner σ tr.
  Proof.
    intros Hp Hs Hf. pose proof (proj1 Hs) as Ht.
    assert (Ho : orderly ex_project ex_owner tr) by (exact (tidy_orderly ex_project ex_owner tr ex_wf ex_tidy (ex_use tr Hf) Ht)).
    split; [exact ex_wf|exact ex_sep|exact (sound_honest _ _ _ _ ex_db)|exact Hp|exact Hs|exact Ho| |].
    { exact (once_settled ex_project ex_owner ex_wf tr Ht Ho (tidy_once ex_project ex_owner tr (ex_use tr Hf) Ht)). }
    exact (single_work ex_right ex_covers ex_project ex_owner σ ex_sep Hp ex_single tr Ht Ho).
  Qed.

  Definition ex_h (f : files) (fs : files_state) : hash :=
    match computeHash hashf H 3 fs (rule_of ex_project f) with HOk h => h | _ => 0 end.
  (** Only [src] exists; nothing has been recorded.  Everything is built. *)
  Definition ex_start (c : string) : files_state := write "src" c (fun _ => FMissing).
  Definition ex_s0 : env := {| e_fs := ex_start "1"; e_db := ∅; e_time := 0 |}.
  Definition ex_tr1 : list event :=
    let fs := e_fs ex_s0 in
    let fs1 := p_cmd ex_project 0 1 0 0 fs in
    let fs2 := p_cmd ex_project 0 2 0 0 fs1 in
    ex_log [S (ex_h ex_f1 fs); 0; 0; S (ex_h ex_f1 fs1); 0; S (ex_h ex_f2 fs1); 0; 0; S (ex_h ex_f2 fs2); 0].
  Definition ex_s1 : env := after ex_project ex_s0 ex_tr1.
  (** Then nothing needs to be done. *)
  Definition ex_tr2 : list event :=
    ex_log [S (ex_h ex_f1 (e_fs ex_s1)); 1; S (ex_h ex_f2 (e_fs ex_s1)); 1].
  (** Then [out] is edited.  It is built again. *)
  Definition ex_s3 : env := {| e_fs := write "out" "?" (e_fs ex_s1); e_db := e_db ex_s1; e_time := e_time ex_s1 |}.
  Definition ex_tr3 : list event :=
    let fs := e_fs ex_s3 in
    let fs1 := p_cmd ex_project 0 2 0 0 fs in
    ex_log [S (ex_h ex_f1 fs); 1; S (ex_h ex_f2 fs); 0; 0; S (ex_h ex_f2 fs1); 0].

  Context (Hh : Inj (=) (=) hashf) (HH : Inj (=) (=) H).

  Ltac hash_valid := intros f [->| ->]%ex_rule_cases E; vm_compute in E; simplify_eq; exists 3; vm_compute; reflexivity.
  Ltac has_valid :=
    split; intros Er; try discriminate Er; clear Er; cbn [next e_db p_db ex_project ex_s0 ex_s1 ex_s3 after fold_left after_event];
    rewrite ?elem_of_union, ?elem_of_singleton, ?elem_of_empty;
    first [ by auto | intros Hin; repeat destruct Hin as [Hin|Hin]; try done; apply HH in Hin; first [discriminate Hin|injection Hin as Hin; apply Hh in Hin; discriminate Hin] ].
  Ltac all_valid :=
    cbn [valid_all]; repeat match goal with
    | |- _ /\ valid_all _ _ _ => split
    | |- valid _ _ _ _ _ _ /\ _ => split
    | |- True => exact I
    | |- valid _ _ _ (OpHash _ _) _ _ => cbn [valid]; hash_valid
    | |- valid _ _ _ (OpHas _) _ _ => cbn [valid]; has_valid
    | |- valid _ _ _ _ _ _ => exact I
    end.
  Ltac compute_in l E := let v := eval vm_compute in l in assert (E : l = v) by (vm_compute; reflexivity).

  Lemma ex_possible c : p_possible ex_project (ex_start c).
  Proof. intros q _. unfold ex_start, write. case_decide; eauto. Qed.
  Lemma ex_tr1_fine : Forall fine ex_tr1.
  Proof. compute_in ex_tr1 E. rewrite E. repeat constructor. Qed.
  Lemma ex_build1 : build hashf H ex_right ex_project ex_owner ex_s0 ex_tr1.
  Proof.
    apply ex_build; [apply ex_possible| |apply ex_tr1_fine].
    apply valid_all_session; [apply ex_log_trace|]. compute_in ex_tr1 E. rewrite E. clear E. all_valid.
  Qed.
  Lemma ex_tr2_fine : Forall fine ex_tr2.
  Proof. compute_in ex_tr2 E. rewrite E. repeat constructor. Qed.
  Lemma ex_build2 : build hashf H ex_right ex_project ex_owner ex_s1 ex_tr2.
  Proof.
    apply ex_build; [apply (possible_after _ ex_sep), ex_possible| |apply ex_tr2_fine].
    apply valid_all_session; [apply ex_log_trace|]. compute_in ex_tr2 E. rewrite E. clear E.
    unfold ex_s1. compute_in ex_tr1 E. rewrite E. clear E. all_valid.
  Qed.
  Lemma ex_tr3_fine : Forall fine ex_tr3.
  Proof. compute_in ex_tr3 E. rewrite E. repeat constructor. Qed.
  Lemma ex_build3 : build hashf H ex_right ex_project ex_owner ex_s3 ex_tr3.
  Proof.
    apply ex_build; [| |apply ex_tr3_fine].
    { intros q Hq. assert (Hp : e_fs ex_s1 q = FMissing \/ exists c, e_fs ex_s1 q = FFile (Some c)).
      { unfold ex_s1. exact (possible_after _ ex_sep ex_s0 (ex_possible _) ex_tr1 q Hq). }
      cbn [ex_s3 e_fs]. unfold write. case_decide; [right; by eexists|exact Hp]. }
    apply valid_all_session; [apply ex_log_trace|]. compute_in ex_tr3 E. rewrite E. clear E.
    unfold ex_s3, ex_s1. compute_in ex_tr1 E. rewrite E. clear E. all_valid.
  Qed.
End ex.
