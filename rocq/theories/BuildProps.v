(** Builds of whole projects (C58-C60). *)
From stdpp Require Import base gmap list strings.
From Verif Require Import PathModel FindModel FileHashModel FileHashSpec FilesModel FilesSpec.
From Verif Require Import ContextModel RunnerModel RunnerSpec ChainModel BuildModel BuildSpec.
From Verif Require Import BuildProofs BuildProofs2 BuildProofs3 BuildProofs4 BuildProofs5 BuildProofs6 BuildProofs7 BuildProofs8 BuildExample BuildExample2.
Local Open Scope list_scope.

(** ** C58: an incremental build is correct.  After any number of builds, of the same or
    changed projects, complete or killed at any point, with any changes of files and losses of
    database entries in between: when a build completes a Files target without error, then at
    the end of that build its outputs are right. *)
Theorem C58_incremental_build_is_correct hashf H right p owner σ tr f :
  Inj (=) (=) hashf -> (forall c, hashf c <> "") -> Inj (=) (=) H -> hash_covers right ->
  builds_from_nothing hashf H right σ -> build hashf H right p owner σ tr ->
  f ∈ p_rules p -> built f tr -> right (rule_of p f) (e_fs (after p σ tr)).
Proof.
  intros Hh Hne HH Hcov Hb B Hf Hbf.
  exact (proj2 (incremental_lem hashf H Hh Hne HH right Hcov p owner σ (b_wf _ _ _ _ _ _ _ B) (b_sep _ _ _ _ _ _ _ B) (b_db _ _ _ _ _ _ _ B)
    (b_possible _ _ _ _ _ _ _ B) tr (b_session _ _ _ _ _ _ _ B) (b_orderly _ _ _ _ _ _ _ B) (b_settled _ _ _ _ _ _ _ B) (b_work _ _ _ _ _ _ _ B)
    (honest_always hashf H right σ Hh Hne HH Hcov Hb)) f Hf Hbf).
Qed.
Print Assumptions C58_incremental_build_is_correct.

(** The database then holds only hashes of right states. *)
Theorem C58_database_holds_only_right_states hashf H right σ :
  Inj (=) (=) hashf -> (forall c, hashf c <> "") -> Inj (=) (=) H -> hash_covers right ->
  builds_from_nothing hashf H right σ -> honest hashf H right (e_db σ).
Proof. exact (honest_always hashf H right σ). Qed.
Print Assumptions C58_database_holds_only_right_states.

(** What these executions assume of the hash of a rule: it answers with the hash of its files,
    or with an error (0) when there is one, and nothing else. *)
Theorem C58_hash_answers hashf H p f b r σ : well_formed p -> f ∈ p_rules p ->
  valid hashf H p (OpHash b (f_id f)) r σ <->
  exists fuel, (exists h, computeHash hashf H fuel (e_fs σ) (rule_of p f) = HOk h /\ r = S h) \/
               (exists e, computeHash hashf H fuel (e_fs σ) (rule_of p f) = HErr e /\ r = 0).
Proof.
  intros Hp Hf. simpl. split.
  - intros Hv. destruct (Hv f Hf eq_refl) as [fuel Hx]. exists fuel.
    destruct (computeHash hashf H fuel (e_fs σ) (rule_of p f)); try done; [left|right]; by eexists.
  - intros [fuel Hx] f' Hf' E. assert (f' = f) as -> by (eapply (wf_ids p Hp); done). exists fuel.
    destruct Hx as [(h & -> & ->)|(e & -> & ->)]; done.
Qed.
Print Assumptions C58_hash_answers.

(** A Files target that is run once is settled. *)
Theorem C58_once_is_settled p owner tr :
  well_formed p -> trace (p_world p) tr -> orderly p owner tr -> once p tr -> settled p tr.
Proof. intros Hwf. exact (once_settled p owner Hwf tr). Qed.
Print Assumptions C58_once_is_settled.

(** The same with conditions on the targets only: when the parts of each Files target belong
    to it alone, and its subtarget is one command that succeeds only if it has made the
    outputs right, then every execution is such a build. *)
Theorem C58_every_execution_is_a_build hashf H right p owner σ tr :
  hash_covers right -> well_formed p -> separate p -> database_honest hashf H right p -> tidy p owner -> single_commands right p owner ->
  p_possible p (e_fs σ) -> session hashf H p σ tr -> proper_use p owner tr ->
  build hashf H right p owner σ tr.
Proof.
  intros Hcov Hwf Hsep Hdb Htd Hsc Hp Hs Hu.
  pose proof (tidy_orderly p owner tr Hwf Htd Hu (proj1 Hs)) as Ho.
  pose proof (once_settled p owner Hwf tr (proj1 Hs) Ho (tidy_once p owner tr Hu (proj1 Hs))) as Hset.
  exact (Build_build hashf H right p owner σ tr Hwf Hsep Hdb Hp Hs Ho Hset (single_work right Hcov p owner σ Hsep Hp Hsc tr (proj1 Hs) Ho)).
Qed.
Print Assumptions C58_every_execution_is_a_build.

(** The same for Files targets that may be run several times, because they are referred to by
    name: when no two have the same description, the database keeps what is added, and the
    flags -f and -n are not given. *)
Theorem C58_named_rules_are_settled hashf H p owner σ tr :
  Inj (=) (=) hashf -> (forall c, hashf c <> "") -> Inj (=) (=) H ->
  well_formed p -> separate p -> database_sound p -> database_keeps p -> distinct_descriptions p -> p_possible p (e_fs σ) ->
  session hashf H p σ tr -> orderly p owner tr -> with_database p tr -> not_forced p tr -> one_step p tr ->
  settled p tr.
Proof. intros Hh Hne HH Hwf Hsep Hdb Hk Hd Hp. exact (named_settled hashf H Hh Hne HH p owner σ Hwf Hsep Hdb Hk Hp Hd tr). Qed.
Print Assumptions C58_named_rules_are_settled.

Theorem C58_every_execution_is_a_build_named hashf H right p owner σ tr :
  Inj (=) (=) hashf -> (forall c, hashf c <> "") -> Inj (=) (=) H -> hash_covers right ->
  well_formed p -> separate p -> database_sound p -> database_keeps p -> distinct_descriptions p -> tidy p owner -> single_commands right p owner ->
  p_possible p (e_fs σ) -> session hashf H p σ tr ->
  (* no part of a Files target is requested by the clients, or registered *)
  (forall c cx ts x i, EvCall c None cx ts ∈ tr -> TPtr x ∈ ts -> owner x <> Some i) ->
  (forall name x i, EvRegister name x ∈ tr -> owner x <> Some i) ->
  (* there is a hash database; neither -f nor -n is given *)
  with_database p tr -> not_forced p tr -> (forall g a cx f, f ∈ p_rules p -> EvStart g a (f_id f) cx ∈ tr -> GetDryRun cx = false) ->
  build hashf H right p owner σ tr.
Proof.
  intros Hh Hne HH Hcov Hwf Hsep Hdb Hk Hd Htd Hsc Hp Hs Hcl Hna Hwd Hnf Hdry.
  pose proof (tidy_is_orderly p owner tr Hwf Htd (proj1 Hs) Hna Hcl Hdry) as Ho.
  pose proof (named_settled hashf H Hh Hne HH p owner σ Hwf Hsep Hdb Hk Hp Hd tr Hs Ho Hwd Hnf (single_one_step right p owner tr Hsc (proj1 Hs) Ho)) as Hset.
  exact (Build_build hashf H right p owner σ tr Hwf Hsep (sound_honest _ _ _ _ Hdb) Hp Hs Ho Hset (single_work right Hcov p owner σ Hsep Hp Hsc tr (proj1 Hs) Ho)).
Qed.
Print Assumptions C58_every_execution_is_a_build_named.

Ltac in_trace := vm_compute; repeat first [apply elem_of_list_here | apply elem_of_list_further].
Ltac not_in_trace := vm_compute; intros Hin; repeat (apply elem_of_cons in Hin as [Hin|Hin]; [discriminate Hin|]); by apply elem_of_nil in Hin.

(** Concrete cases: a first build of the two Files targets of BuildExample.v; and, after one
    output has been edited, a build that runs one of the commands and not the other. *)
Example C58_conditions : hash_covers ex_right /\ well_formed ex_project /\ separate ex_project /\ database_sound ex_project /\
  (forall hashf H, database_honest hashf H ex_right ex_project) /\ tidy ex_project ex_owner /\ single_commands ex_right ex_project ex_owner.
Proof. exact (conj ex_covers (conj ex_wf (conj ex_sep (conj ex_db (conj (fun hashf H => sound_honest hashf H _ _ ex_db) (conj ex_tidy ex_single)))))). Qed.
Example C58_case hashf H (Hh : Inj (=) (=) hashf) (HH : Inj (=) (=) H) :
  builds_from_nothing hashf H ex_right ex_s0 /\ build hashf H ex_right ex_project ex_owner ex_s0 (ex_tr1 hashf H) /\
  built ex_f1 (ex_tr1 hashf H) /\ built ex_f2 (ex_tr1 hashf H) /\ e_fs (ex_s1 hashf H) "out" = FFile (Some "om1").
Proof.
  split; [constructor|]. split; [by apply ex_build1|].
  split; [exists 1, 1; in_trace|]. split; [exists 0, 2; in_trace|].
  vm_compute. reflexivity.
Qed.
Lemma ex_s1_from_nothing hashf H (Hh : Inj (=) (=) hashf) (HH : Inj (=) (=) H) : builds_from_nothing hashf H ex_right (ex_s1 hashf H).
Proof.
  eapply (bfn_build hashf H ex_right ex_project ex_owner); [|exact (ex_build1 hashf H HH)]. constructor.
Qed.
Example C58_case2 hashf H (Hh : Inj (=) (=) hashf) (HH : Inj (=) (=) H) :
  builds_from_nothing hashf H ex_right (ex_s3 hashf H) /\ build hashf H ex_right ex_project ex_owner (ex_s3 hashf H) (ex_tr3 hashf H) /\
  built ex_f1 (ex_tr3 hashf H) /\ built ex_f2 (ex_tr3 hashf H) /\
  (forall g n r, EvEff g (OpCmd 1 n) r ∉ ex_tr3 hashf H) /\ (exists g, EvEff g (OpCmd 2 0) 0 ∈ ex_tr3 hashf H) /\
  e_fs (ex_s3 hashf H) "out" = FFile (Some "?") /\ e_fs (after ex_project (ex_s3 hashf H) (ex_tr3 hashf H)) "out" = FFile (Some "om1").
Proof.
  split; [eapply (bfn_edit hashf H ex_right (ex_s1 hashf H)); [by apply ex_s1_from_nothing|by left]|].
  split; [by apply ex_build3|].
  split; [exists 1, 1; in_trace|]. split; [exists 0, 2; in_trace|].
  split; [intros g n r; not_in_trace|]. split; [exists 2; in_trace|].
  split; vm_compute; reflexivity.
Qed.

(** A build in which a Files target is run twice: goroutines 0 and 3 run it; its command is run
    once. *)
Example C58_case_named hashf H (Hh : Inj (=) (=) hashf) (HH : Inj (=) (=) H) :
  well_formed ex2_project /\ separate ex2_project /\ database_sound ex2_project /\ database_keeps ex2_project /\ distinct_descriptions ex2_project /\
  tidy ex2_project ex_owner /\ single_commands ex_right ex2_project ex_owner /\ p_possible ex2_project (e_fs ex_s0) /\
  session hashf H ex2_project ex_s0 (ex2_tr hashf H) /\
  (forall c cx ts x i, EvCall c None cx ts ∈ ex2_tr hashf H -> TPtr x ∈ ts -> ex_owner x <> Some i) /\
  (forall name x i, EvRegister name x ∈ ex2_tr hashf H -> ex_owner x <> Some i) /\
  with_database ex2_project (ex2_tr hashf H) /\ not_forced ex2_project (ex2_tr hashf H) /\
  (forall g a cx f, f ∈ p_rules ex2_project -> EvStart g a (f_id f) cx ∈ ex2_tr hashf H -> GetDryRun cx = false) /\
  EvEnd 0 20 1 None ∈ ex2_tr hashf H /\ EvEnd 3 1 1 None ∈ ex2_tr hashf H /\ EvEff 2 (OpCmd 1 0) 0 ∈ ex2_tr hashf H.
Proof.
  pose proof (ex2_tr_fine hashf H) as Hf. rewrite Forall_forall in Hf.
  split; [exact ex2_wf|]. split; [exact ex2_sep|]. split; [exact ex2_db|]. split; [exact ex2_keeps|]. split; [exact ex2_descriptions|].
  split; [exact ex2_tidy|]. split; [exact ex2_single|]. split; [exact (ex_possible "1")|]. split; [exact (ex2_session hashf H HH)|].
  split; [|split; [|split; [|split; [|split]]]].
  - intros c cx ts x i Hin Hx. apply Hf in Hin. simpl in Hin. subst ts.
    apply elem_of_cons in Hx as [[= ->]|Hx]; [discriminate|]. apply elem_of_list_singleton in Hx as [= ->]. discriminate.
  - intros name x i Hin. apply Hf in Hin. simpl in Hin. subst x. discriminate.
  - intros f g a cx _ Hin. apply Hf in Hin. simpl in Hin. subst cx. discriminate.
  - intros f g a cx _ Hin. apply Hf in Hin. simpl in Hin. subst cx. reflexivity.
  - intros g a cx f _ Hin. apply Hf in Hin. simpl in Hin. subst cx. reflexivity.
  - clear Hf. split; [in_trace|]. split; in_trace.
Qed.

(** ** C59: a repeated build does nothing.  When a build that keeps its hash database has
    completed a Files target without error, as well as every run of it and of those it needs
    that it has started, and nothing else changes the files or the database, then the next
    build of the project without -f runs no command of that target, does not request its
    subtarget, and leaves its files alone. *)
Theorem C59_repeated_build_does_nothing hashf H p1 p2 o1 o2 σ tr1 tr2 f :
  well_formed p1 -> separate p1 -> database_keeps p1 -> well_formed p2 -> separate p2 -> database_keeps p2 -> same_rules p1 p2 ->
  p_possible p1 (e_fs σ) -> session hashf H p1 σ tr1 -> session hashf H p2 (after p1 σ tr1) tr2 ->
  orderly p1 o1 tr1 -> settled p1 tr1 -> orderly p2 o2 tr2 -> with_database p1 tr1 -> with_database p2 tr2 -> not_forced p2 tr2 ->
  f ∈ p_rules p1 -> built f tr1 -> (forall q, needed p1 f q -> finished q tr1) ->
  (forall g n r, EvEff g (OpCmd (f_id f) n) r ∉ tr2) /\
  (forall c g a cx cx', EvStart g a (f_id f) cx ∈ tr2 -> EvCall c (Some g) cx' [TPtr (p_sub p2 f)] ∉ tr2) /\
  unchanged (e_fs (after p1 σ tr1)) (e_fs (after p2 (after p1 σ tr1) tr2)) (f_in f ++ f_out f).
Proof. exact (repeat_lem hashf H p1 o1 p2 o2 σ tr1 tr2 f). Qed.
Print Assumptions C59_repeated_build_does_nothing.

(** When each Files target is run at most once, it suffices that this one was completed. *)
Theorem C59_repeated_build_does_nothing_once hashf H p1 p2 o1 o2 σ tr1 tr2 f :
  well_formed p1 -> separate p1 -> database_keeps p1 -> well_formed p2 -> separate p2 -> database_keeps p2 -> same_rules p1 p2 ->
  p_possible p1 (e_fs σ) -> session hashf H p1 σ tr1 -> session hashf H p2 (after p1 σ tr1) tr2 ->
  orderly p1 o1 tr1 -> once p1 tr1 -> orderly p2 o2 tr2 -> with_database p1 tr1 -> with_database p2 tr2 -> not_forced p2 tr2 ->
  f ∈ p_rules p1 -> built f tr1 ->
  (forall g n r, EvEff g (OpCmd (f_id f) n) r ∉ tr2) /\
  (forall c g a cx cx', EvStart g a (f_id f) cx ∈ tr2 -> EvCall c (Some g) cx' [TPtr (p_sub p2 f)] ∉ tr2) /\
  unchanged (e_fs (after p1 σ tr1)) (e_fs (after p2 (after p1 σ tr1) tr2)) (f_in f ++ f_out f).
Proof.
  intros Hwf Hsep Hk Hwf2 Hsep2 Hk2 Hsame Hp S1 S2 O1 Hon O2 D1 D2 N2 Hf Hb.
  exact (repeat_lem hashf H p1 o1 p2 o2 σ tr1 tr2 f Hwf Hsep Hk Hwf2 Hsep2 Hk2 Hsame Hp S1 S2 O1 (once_settled p1 o1 Hwf tr1 (proj1 S1) O1 Hon) O2 D1 D2 N2 Hf Hb
    (once_finished p1 Hwf tr1 f (proj1 S1) Hon Hf Hb)).
Qed.
Print Assumptions C59_repeated_build_does_nothing_once.

(** [ex_s1] is the state after [ex_tr1]. *)
Example C59_case hashf H (Hh : Inj (=) (=) hashf) (HH : Inj (=) (=) H) :
  well_formed ex_project /\ separate ex_project /\ database_keeps ex_project /\ same_rules ex_project ex_project /\ p_possible ex_project (e_fs ex_s0) /\
  session hashf H ex_project ex_s0 (ex_tr1 hashf H) /\ session hashf H ex_project (ex_s1 hashf H) (ex_tr2 hashf H) /\
  orderly ex_project ex_owner (ex_tr1 hashf H) /\ once ex_project (ex_tr1 hashf H) /\ settled ex_project (ex_tr1 hashf H) /\ orderly ex_project ex_owner (ex_tr2 hashf H) /\
  with_database ex_project (ex_tr1 hashf H) /\ with_database ex_project (ex_tr2 hashf H) /\ not_forced ex_project (ex_tr2 hashf H) /\
  built ex_f2 (ex_tr1 hashf H) /\ (forall q, needed ex_project ex_f2 q -> finished q (ex_tr1 hashf H)) /\ built ex_f2 (ex_tr2 hashf H).
Proof.
  pose proof (ex_build1 hashf H HH) as B1. pose proof (ex_build2 hashf H) as B2.
  split; [exact ex_wf|]. split; [exact ex_sep|]. split; [exact ex_keeps|]. split; [split; reflexivity|]. split; [apply ex_possible|].
  split; [exact (b_session _ _ _ _ _ _ _ B1)|]. split; [exact (b_session _ _ _ _ _ _ _ B2)|].
  assert (Hon : once ex_project (ex_tr1 hashf H)).
  { exact (tidy_once ex_project ex_owner _ (ex_use _ (ex_tr1_fine hashf H)) (proj1 (b_session _ _ _ _ _ _ _ B1))). }
  split; [exact (b_orderly _ _ _ _ _ _ _ B1)|]. split; [exact Hon|]. split; [exact (b_settled _ _ _ _ _ _ _ B1)|]. split; [exact (b_orderly _ _ _ _ _ _ _ B2)|].
  split; [exact (proj1 (ex_with_db _ (ex_tr1_fine hashf H)))|]. split; [exact (proj1 (ex_with_db _ (ex_tr2_fine hashf H)))|].
  split; [exact (proj2 (ex_with_db _ (ex_tr2_fine hashf H)))|].
  split; [exists 0, 2; in_trace|]. split; [|exists 0, 2; in_trace].
  apply (once_finished ex_project ex_wf); [exact (proj1 (b_session _ _ _ _ _ _ _ B1))|exact Hon|right; left|exists 0, 2; in_trace].
Qed.

(** ** C60: an incremental build gives the same files as a build from scratch.  Two builds of
    a project, each from any state that any number of builds leads to - such as one with
    neither outputs nor database - in which the sources are the same: for every Files target
    that both complete without error, its inputs and its outputs are the same at the end. *)
Theorem C60_same_as_a_clean_build hashf H right p1 p2 o1 o2 σ1 σ2 tr1 tr2 f i :
  Inj (=) (=) hashf -> (forall c, hashf c <> "") -> Inj (=) (=) H -> hash_covers right ->
  builds_from_nothing hashf H right σ1 -> builds_from_nothing hashf H right σ2 ->
  build hashf H right p1 o1 σ1 tr1 -> build hashf H right p2 o2 σ2 tr2 -> same_rules p1 p2 ->
  sources_kept p1 -> sources_kept p2 -> determined right p1 ->
  (forall i, source p1 i -> same_files (e_fs σ1) [i] (e_fs σ2) [i]) ->
  f ∈ p_rules p1 -> built f tr1 -> built f tr2 -> i ∈ f_in f \/ i ∈ f_out f ->
  same_files (e_fs (after p1 σ1 tr1)) [i] (e_fs (after p2 σ2 tr2)) [i].
Proof.
  intros Hh Hne HH Hcov N1 N2 B1 B2 Hsr Hk1 Hk2 Hd Hs Hf H1 H2 Hi.
  apply (same_result_lem hashf H Hh Hne HH right Hcov p1 p2 o1 o2 σ1 σ2 Hsr tr1 tr2 B1 B2 (honest_always hashf H right σ1 Hh Hne HH Hcov N1)
    (honest_always hashf H right σ2 Hh Hne HH Hcov N2) Hk1 Hk2 Hd Hs f Hf H1 H2).
  destruct Hi as [Hi|Hi]; [left; exact Hi|right; exact (conj Hf (or_introl Hi))].
Qed.
Print Assumptions C60_same_as_a_clean_build.

(** A build after an edit, and one from scratch. *)
Example C60_case hashf H (Hh : Inj (=) (=) hashf) (HH : Inj (=) (=) H) :
  same_rules ex_project ex_project /\ builds_from_nothing hashf H ex_right (ex_s3 hashf H) /\ builds_from_nothing hashf H ex_right ex_s0 /\
  build hashf H ex_right ex_project ex_owner (ex_s3 hashf H) (ex_tr3 hashf H) /\ build hashf H ex_right ex_project ex_owner ex_s0 (ex_tr1 hashf H) /\
  sources_kept ex_project /\ determined ex_right ex_project /\
  (forall i, source ex_project i -> same_files (e_fs (ex_s3 hashf H)) [i] (e_fs ex_s0) [i]).
Proof.
  split; [split; reflexivity|]. split; [eapply (bfn_edit hashf H ex_right (ex_s1 hashf H)); [by apply ex_s1_from_nothing|by left]|].
  split; [constructor|]. split; [by apply ex_build3|]. split; [by apply ex_build1|].
  split; [exact ex_kept|]. split; [exact ex_determined|].
  intros i ((f & Hf & Hi) & Hn).
  assert (i = "src") as ->.
  { apply ex_rule_cases in Hf as [->| ->]; apply elem_of_list_singleton in Hi as ->; [reflexivity|].
    destruct (Hn ex_f1). split; [left|]. left. by left. }
  apply ex_same.
  - right. exists "1". vm_compute. reflexivity.
  - right. exists "1". vm_compute. reflexivity.
  - vm_compute. reflexivity.
Qed.
