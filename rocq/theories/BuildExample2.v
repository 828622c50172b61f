(** The project of BuildExample.v, with a reference to the first Files target by name: so it
    is run twice (see C06). *)
From stdpp Require Import base gmap list strings.
From Verif Require Import PathModel FindModel FileHashModel FileHashSpec FilesModel FilesSpec FilesProofs4 PathProofs3.
From Verif Require Import ContextModel RunnerModel RunnerSteps RunnerSpec RunnerProofs RunnerProofs3 ChainModel BuildModel BuildSpec BuildProofs BuildProofs2 BuildProofs3 BuildProofs4 BuildProofs5 BuildProofs6 BuildProofs7 BuildProofs8 BuildExample.
Local Open Scope list_scope.

Definition ex2_world : world := {|
  w_addr := fun o => o;
  w_deferred := fun o => match o with 20 => Some "Mid" | _ => None end;
  w_body := w_body ex_world |}.
Definition ex2_project : project := {|
  p_world := ex2_world; p_rules := ex_rules; p_sub := ex_sub; p_desc := p_desc ex_project; p_cmd := p_cmd ex_project;
  p_other := p_other ex_project; p_possible := p_possible ex_project; p_db := p_db ex_project |}.

(** Mid is registered; Run(Mid, ex_f2). *)
Definition ex2_log (rs : list nat) : list event :=
  match step ex2_world RunnerModel.init (ChRegister "Mid" 1) with
  | Some s0 => match step ex2_world s0 (ChRun ex_cx [TPtr 20; TPtr 2]) with
               | Some s => s_log (sim 100 ex2_world s rs)
               | None => []
               end
  | None => []
  end.
Lemma ex2_log_trace rs : trace ex2_world (ex2_log rs).
Proof.
  unfold ex2_log. destruct (step ex2_world RunnerModel.init _) as [s0|] eqn:E0.
  2: { apply (reachable_trace _ RunnerModel.init), init_reachable. }
  destruct (step ex2_world s0 _) as [s|] eqn:E.
  - apply reachable_trace, sim_reachable. eapply reachable_step; [|exact E]. eapply reachable_step; [apply init_reachable|exact E0].
  - apply (reachable_trace _ RunnerModel.init), init_reachable.
Qed.

Lemma ex2_wf : well_formed ex2_project.
Proof.
  split.
  - intros o1 o2 E. exact E.
  - exact (wf_ids _ ex_wf).
  - intros f [->| ->]%ex_rule_cases; done.
  - exact (wf_body _ ex_wf).
Qed.
Lemma ex2_sep : separate ex2_project.
Proof. split; [exact (sep_cmd _ ex_sep)|exact (sep_other _ ex_sep)|exact (sep_possible _ ex_sep)]. Qed.
Lemma ex2_db : database_sound ex2_project.
Proof. split; [exact (db_has _ ex_db)|exact (db_add _ ex_db)]. Qed.
Lemma ex2_keeps : database_keeps ex2_project.
Proof. exact ex_keeps. Qed.
Lemma ex2_tidy : tidy ex2_project ex_owner.
Proof.
  split.
  - exact (td_sub _ _ ex_tidy).
  - intros x i Hx. split; [exact (proj1 (td_rule _ _ ex_tidy x i Hx))|].
    cbn [ex2_project p_world ex2_world w_deferred]. do 21 (try (destruct x as [|x]); try done).
  - exact (td_owned _ _ ex_tidy).
  - intros x cx Hx Hf _. apply (td_free _ _ ex_tidy x cx Hx Hf). reflexivity.
Qed.
Lemma ex2_single : single_commands ex_right ex2_project ex_owner.
Proof. split; [exact (sc_only _ _ _ ex_single)|exact (sc_body _ _ _ ex_single)|exact (sc_right _ _ _ ex_single)]. Qed.
Lemma ex2_descriptions : distinct_descriptions ex2_project.
Proof. intros f1 f2 [->| ->]%ex_rule_cases [->| ->]%ex_rule_cases [E1 E2]; vm_compute in E1, E2; try done. Qed.

Definition ex2_fine (ev : event) : Prop :=
  match ev with
  | EvCall _ None _ ts => ts = [TPtr 20; TPtr 2]
  | EvRegister _ x => x = 1
  | EvStart _ _ _ cx => cx = ex_cx
  | _ => True
  end.

Section ex.
  Context (hashf : string -> string) (H : json -> hash).
  Definition ex2_tr : list event :=
    let fs := e_fs ex_s0 in
    let fs1 := p_cmd ex_project 0 1 0 0 fs in
    let fs2 := p_cmd ex_project 0 2 0 0 fs1 in
    ex2_log [S (ex_h hashf H ex_f1 fs); 0; 0; S (ex_h hashf H ex_f1 fs1); 0; S (ex_h hashf H ex_f1 fs1); 0; S (ex_h hashf H ex_f1 fs1); 0;
      S (ex_h hashf H ex_f2 fs1); 0; 0; S (ex_h hashf H ex_f2 fs2); 0].
  Context (Hh : Inj (=) (=) hashf) (HH : Inj (=) (=) H).

  Ltac hash_valid := intros f [->| ->]%ex_rule_cases E; vm_compute in E; simplify_eq; exists 3; vm_compute; reflexivity.
  Ltac has_valid :=
    split; intros Er; try discriminate Er; clear Er; cbn [next e_db p_db ex_project ex2_project ex_s0 after fold_left after_event];
    rewrite ?elem_of_union, ?elem_of_singleton, ?elem_of_empty;
    first [ by auto | intros Hin; repeat destruct Hin as [Hin|Hin]; try done; apply HH in Hin; first [discriminate Hin|injection Hin as Hin; apply Hh in Hin; discriminate Hin] ].
  Ltac all_valid :=
    cbn [valid_all]; repeat match goal with
    | |- _ /\ valid_all _ _ _ _ _ => split
    | |- valid _ _ _ _ _ _ /\ _ => split
    | |- True => exact I
    | |- valid _ _ _ (OpHash _ _) _ _ => cbn [valid]; hash_valid
    | |- valid _ _ _ (OpHas _) _ _ => cbn [valid]; has_valid
    | |- valid _ _ _ _ _ _ => exact I
    end.
  Ltac compute_in l E := let v := eval vm_compute in l in assert (E : l = v) by (vm_compute; reflexivity).

  Lemma ex2_tr_fine : Forall ex2_fine ex2_tr.
  Proof. compute_in ex2_tr E. rewrite E. repeat constructor. Qed.
  Lemma ex2_session : session hashf H ex2_project ex_s0 ex2_tr.
  Proof.
    apply valid_all_session; [apply ex2_log_trace|]. compute_in ex2_tr E. rewrite E. clear E. all_valid.
  Qed.
End ex.
