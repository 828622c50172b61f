(** Property C98: data races between built-in targets, and their registries.
    Vocabulary: RaceSpec2.v; the accesses: RaceModel.v, RaceModel2.v. *)
From stdpp Require Import base gmap list strings relations.
From Verif Require Import ContextModel RunnerModel RunnerSteps RunnerSpec RunnerProps RaceModel RaceSpec RaceModel2 RaceSpec2 RaceProofs5.
Local Open Scope list_scope.

(** The lists of Files targets, of files to clean, and of YAML tags: all accesses are ordered, in
    any execution. *)
Theorem C98_registries_race_free w sh s T i j t u a b v :
  execution2 w sh s T -> v = VFilesReg \/ v = VAuto \/ (exists lists, v = VTags lists) ->
  i < j -> T !! i = Some (t, a) -> T !! j = Some (u, b) -> touches_var v a -> touches_var v b -> happens_before2 T i j.
Proof.
  intros Hx Hv. pose proof (all_guarded _ _ _ _ Hx) as Hg.
  destruct Hv as [-> | [-> | [l ->]]]; [exact (guarded_ordered T VFilesReg MFilesReg i j t u a b Hg eq_refl)
    |exact (guarded_ordered T VAuto MAuto i j t u a b Hg eq_refl)|exact (guarded_ordered T (VTags l) (MTags l) i j t u a b Hg eq_refl)].
Qed.
Print Assumptions C98_registries_race_free.

(** Full claim: no data race, in any execution.  Not so in the two cases that the hypotheses
    exclude (see the refutations below): a name reference in the description of a Files target
    that another goroutine resolves; a list that one Clean target sorts and another uses, or
    that one Clean target sorts twice. *)
Theorem C98_no_data_race_partial w sh s T :
  execution2 w sh s T -> own_references T -> own_lists T -> race_free2 T.
Proof. exact (no_race2 w sh s T). Qed.
Print Assumptions C98_no_data_race_partial.

(** Neither occurs in a program without name references whose Clean targets have lists of
    their own. *)
Theorem C98_plain_programs w sh s T :
  execution2 w sh s T -> (forall o, w_deferred w o = None) ->
  (forall f d, d ∈ sh_shown sh f -> w_deferred w d <> None) ->
  (forall o o' c c', sh_clean sh o = Some c -> sh_clean sh o' = Some c' -> cl_array c = cl_array c' -> w_addr w o = w_addr w o') ->
  race_free2 T.
Proof. exact (plain_race_free w sh s T). Qed.
Print Assumptions C98_plain_programs.

(** Every schedule (of the steps of RunnerModel.v) has such an execution. *)
Theorem C98_every_schedule w sh sched s : run w init sched = Some s -> exists T, execution2 w sh s T.
Proof.
  assert (H : forall s0 T0, execution2 w sh s0 T0 -> run w s0 sched = Some s -> exists T, execution2 w sh s T).
  { induction sched as [|ch sched IH]; intros s0 T0 H0 Hr; simpl in Hr; [injection Hr as <-; by eexists|].
    destruct (step w s0 ch) as [s1|] eqn:E; simpl in Hr; [|done]. by eapply IH, Hr; eapply ex2_step. }
  intros Hr. by eapply (H init []), Hr; apply ex2_init.
Qed.
Print Assumptions C98_every_schedule.

(** ** Concrete executions. *)
Inductive item :=
  | IStep (ch : choice)                       (* a step of RunnerModel.v *)
  | IClean (g : nat)                          (* goroutine g is in Clean.Run *)
  | IDeclare (n : nat).                       (* a client calls Files *)
Fixpoint record2 (w : world) (sh : shapes) (s : state) (T : list (thread * act2)) (l : list item) : option (state * list (thread * act2)) :=
  match l with
  | [] => Some (s, T)
  | IStep ch :: l => s' ← step w s ch; record2 w sh s' (T ++ (pair (actor s ch) <$> (Base <$> actions w s ch) ++ hash_acts sh s ch)) l
  | IClean g :: l =>
      match s_gors s !! g with
      | Some gr => match g_st gr, sh_clean sh (g_obj gr) with
                   | GBody _, Some c => record2 w sh s (T ++ (pair (TGo g) <$> clean_acts c)) l
                   | _, _ => None
                   end
      | None => None
      end
  | IDeclare n :: l => record2 w sh s (T ++ (pair (TReg n) <$> [LockV MFilesReg; WrV VFilesReg; UnlockV MFilesReg])) l
  end.
Lemma record2_execution w sh s T l s' T' : execution2 w sh s T -> record2 w sh s T l = Some (s', T') -> execution2 w sh s' T'.
Proof.
  revert s T. induction l as [|i l IH]; intros s T H E; [simpl in E; by simplify_eq|]. destruct i as [ch|g|n]; cbn [record2] in E.
  - destruct (step w s ch) as [s1|] eqn:Es; simpl in E; [|done]. by eapply IH, E; eapply ex2_step.
  - destruct (s_gors s !! g) as [gr|] eqn:Eg; [|done]. destruct (g_st gr) as [| |p| | | |] eqn:Est; try done.
    destruct (sh_clean sh (g_obj gr)) as [c|] eqn:Ec; [|done]. eapply IH; [|exact E]. by eapply ex2_clean.
  - eapply IH; [|exact E]. apply ex2_shared; [done|done|constructor].
Qed.

(** A Clean target [1] whose list is not sorted, registered as x, and two name references
    to x, [2] and [3] (for instance two !All items x): both goroutines run it, and nothing orders
    their accesses to the list.  clean.go:46, runner.go:66. *)
Definition cw : world :=
  {| w_addr := fun o => 100 + o; w_deferred := fun o => match o with 2 | 3 => Some "x"%string | _ => None end;
     w_body := fun o cx => Eff (OpOther 0) (fun _ => Ret None) |}.
Definition csh : shapes :=
  {| sh_shown := fun _ => []; sh_clean := fun o => match o with 1 => Some {| cl_array := 0; cl_autoclean := false; cl_sorts := true |} | _ => None end |}.
Definition citems : list item :=
  [IStep (ChRegister "x" 1); IStep (ChRun Background [TPtr 2; TPtr 3]); IStep (ChLoop 0); IStep (ChLoop 0); IStep (ChGo 0 0); IStep (ChGo 1 0); IClean 0; IClean 1].
Definition ccase : option (state * list (thread * act2)) := record2 cw csh init [] citems.
Lemma ccase_runs s T : ccase = Some (s, T) -> execution2 cw csh s T.
Proof. unfold ccase. intros E. exact (record2_execution cw csh init [] citems s T (ex2_init _ _) E). Qed.
Lemma ccase_end : (p ← ccase; Some (drop (length p.2 - 4) p.2)) =
  Some [(TGo 0, RdV (VArray 0)); (TGo 0, WrV (VArray 0)); (TGo 1, RdV (VArray 0)); (TGo 1, WrV (VArray 0))].
Proof. vm_compute. reflexivity. Qed.
Theorem C98_clean_twice_refuted :
  exists w sh s T, execution2 w sh s T /\ (forall f, sh_shown sh f = []) /\
    (forall o o' c c', sh_clean sh o = Some c -> sh_clean sh o' = Some c' -> cl_array c = cl_array c' -> o = o') /\
    exists i j, i < j /\ T !! i = Some (TGo 0, WrV (VArray 0)) /\ T !! j = Some (TGo 1, RdV (VArray 0)) /\ ~ happens_before2 T i j.
Proof.
  pose proof ccase_runs as Hx. pose proof ccase_end as He. destruct ccase as [[s T]|]; [|discriminate He]. cbn [mbind option_bind snd] in He.
  injection He as He. specialize (Hx s T eq_refl). exists cw, csh, s, T. split; [exact Hx|]. split; [done|]. split.
  { intros [|[|o]] [|[|o']] c c' H H' _; try discriminate H; try discriminate H'; done. }
  set (n := length T - 4) in *. assert (Hl : forall k, T !! (n + k) = drop n T !! k) by (intros k; by rewrite lookup_drop).
  exists (n + 1), (n + 2). split; [lia|]. rewrite !Hl, He. split; [done|]. split; [done|].
  apply (not_before T _ _ (TGo 0) (WrV (VArray 0))); [by rewrite Hl, He| |intros u b H; inversion H].
  intros k b Hk E. replace k with (n + (k - n)) in E by lia. rewrite Hl, He in E. destruct (k - n) as [|[|[|[|m]]]] eqn:Em; try lia; discriminate E.
Qed.
Print Assumptions C98_clean_twice_refuted.

(** A Files target [1] whose target is the name reference [2], and a Files target [6] whose
    target is [1].  The description of [6] shows the reference.  When both are run, nothing
    orders json.Marshal in the goroutine of [6] and the resolution in the goroutine of [1].
    files.go:182, yaml.go:100-113. *)
Definition dw : world :=
  {| w_addr := fun o => 100 + o; w_deferred := fun o => match o with 2 => Some "y"%string | _ => None end;
     w_body := fun o cx => match o with
       | 1 => Eff (OpHash true 1) (fun _ => Call cx [TPtr 2] (fun e => Ret e))
       | 6 => Eff (OpHash true 6) (fun _ => Call cx [TPtr 1] (fun e => Ret e))
       | _ => Ret None
       end |}.
Definition dsh : shapes := {| sh_shown := fun f => match f with 1 | 6 => [2] | _ => [] end; sh_clean := fun _ => None |}.
Definition ditems : list item :=
  IStep <$> [ChRegister "y" 5; ChRun Background [TPtr 1; TPtr 6]; ChLoop 0; ChLoop 0; ChGo 0 0; ChGo 1 0; ChGo 0 0; ChGo 0 0; ChGo 1 0; ChLoop 1].
Definition dcase : option (state * list (thread * act2)) := record2 dw dsh init [] ditems.
Lemma dcase_runs s T : dcase = Some (s, T) -> execution2 dw dsh s T.
Proof. unfold dcase. intros E. exact (record2_execution dw dsh init [] ditems s T (ex2_init _ _) E). Qed.
Lemma dcase_end : (p ← dcase; Some (drop (length p.2 - 11) p.2)) =
  Some ((TGo 1, RdD 2) :: ((pair (TGo 0) <$> (Base <$>
    [Lock (MDef 2); Rd (LTarget 2); Lock MCon; Rd LReg; Unlock MCon; Wr (LTarget 2); Rd (LTarget 2); Unlock (MDef 2); Wr (LArgs 2); Spawn 2]) : list (thread * act2)) : list (thread * act2))).
Proof. vm_compute. reflexivity. Qed.
Theorem C98_description_refuted :
  exists w sh s T, execution2 w sh s T /\ (forall o, sh_clean sh o = None) /\
    exists i j, i < j /\ T !! i = Some (TGo 1, RdD 2) /\ T !! j = Some (TGo 0, Base (Wr (LTarget 2))) /\ ~ happens_before2 T i j.
Proof.
  pose proof dcase_runs as Hx. pose proof dcase_end as He. destruct dcase as [[s T]|]; [|discriminate He]. cbn [mbind option_bind snd] in He.
  injection He as He. specialize (Hx s T eq_refl). exists dw, dsh, s, T. split; [exact Hx|]. split; [done|].
  set (n := length T - 11) in *. assert (Hl : forall k, T !! (n + k) = drop n T !! k) by (intros k; by rewrite lookup_drop).
  exists (n + 0), (n + 6). split; [lia|]. rewrite !Hl, He. split; [done|]. split; [done|].
  apply (not_before T _ _ (TGo 1) (RdD 2)); [by rewrite Hl, He| |intros u b H; inversion H].
  intros k b Hk E. replace k with (n + (k - n)) in E by lia. rewrite Hl, He in E.
  destruct (k - n) as [|[|[|[|[|[|[|[|[|[|[|m]]]]]]]]]]] eqn:Em; try lia; discriminate E.
Qed.
Print Assumptions C98_description_refuted.

(** Two Clean targets with lists of their own, run at the same time, and a call of Files. *)
Definition pw : world := {| w_addr := fun o => 100 + o; w_deferred := fun _ => None; w_body := fun o cx => Eff (OpOther 0) (fun _ => Ret None) |}.
Definition psh : shapes :=
  {| sh_shown := fun _ => [];
     sh_clean := fun o => match o with 1 | 2 => Some {| cl_array := o; cl_autoclean := true; cl_sorts := true |} | _ => None end |}.
Definition pitems : list item :=
  [IStep (ChRun Background [TPtr 1; TPtr 2; TPtr 1]); IStep (ChLoop 0); IStep (ChLoop 0); IStep (ChLoop 0); IStep (ChGo 0 0); IStep (ChGo 1 0); IDeclare 0; IStep (ChGo 2 0);
   IClean 1; IClean 0; IDeclare 1].
Definition pcase : option (state * list (thread * act2)) := record2 pw psh init [] pitems.
Lemma pcase_runs s T : pcase = Some (s, T) -> execution2 pw psh s T.
Proof. unfold pcase. intros E. exact (record2_execution pw psh init [] pitems s T (ex2_init _ _) E). Qed.
Lemma pcase_end : (p ← pcase; Some (drop (length p.2 - 13) p.2)) =
  Some ((pair (TGo 1) <$> [LockV MAuto; RdV VAuto; UnlockV MAuto; RdV (VArray 2); WrV (VArray 2)]) ++
        (pair (TGo 0) <$> [LockV MAuto; RdV VAuto; UnlockV MAuto; RdV (VArray 1); WrV (VArray 1)]) ++
        (pair (TReg 1) <$> [LockV MFilesReg; WrV VFilesReg; UnlockV MFilesReg])).
Proof. vm_compute. reflexivity. Qed.
Example C98_case :
  exists s T i, execution2 pw psh s T /\ race_free2 T /\
    T !! i = Some (TGo 1, RdV VAuto) /\ T !! (i + 3) = Some (TGo 1, WrV (VArray 2)) /\ T !! (i + 8) = Some (TGo 0, WrV (VArray 1)) /\ T !! (i + 10) = Some (TReg 1, WrV VFilesReg).
Proof.
  pose proof pcase_runs as Hx. pose proof pcase_end as He. destruct pcase as [[s T]|]; [|discriminate He]. cbn [mbind option_bind snd] in He.
  injection He as He. specialize (Hx s T eq_refl). set (n := length T - 13) in *.
  assert (Hl : forall k, T !! (n + k) = drop n T !! k) by (intros k; by rewrite lookup_drop).
  exists s, T, (n + 1). split; [exact Hx|]. split.
  - eapply (C98_plain_programs pw psh); [exact Hx|done| |].
    + intros f d Hd. by apply elem_of_nil in Hd.
    + intros [|[|[|o]]] [|[|[|o']]] c c' H H' E; try discriminate H; try discriminate H'; injection H as <-; injection H' as <-; done.
  - rewrite <-!Nat.add_assoc, !Hl, He. done.
Qed.
