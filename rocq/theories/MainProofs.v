(** Proofs about MainModel.v. *)
From stdpp Require Import base gmap list strings.
From Coq Require Import Ascii.
From Verif Require Import StrOrd PathModel PathSpec PathProofs PathProofs2 PathProofs3 TopDirModel TopDirSpec TopDirProofs DriverModel DriverSpec DriverProofs4
  YamlModel ContextModel RegistryModel RegistrySpec RegistryProofs MainModel MainSpec.
Local Open Scope list_scope.

(** ** TopDir gives absolute paths. *)
Lemma Dir_abs_form l : Forall name l -> exists l', Dir (abs_path l) = abs_path l' /\ Forall name l'.
Proof. intros H. destruct l as [|c l]; [by exists []|]. exists l. split; [by apply Dir_abs|by inversion H]. Qed.
Lemma decl_loop_abs od or : forall fuel decl l r, Forall name l -> decl_loop fuel od or decl (abs_path l) = Ok r -> exists l', r = abs_path l' /\ Forall name l'.
Proof.
  induction fuel as [|fuel IH]; intros decl l r Hl H; [done|]. cbn [decl_loop] in H.
  destruct (Dir_abs_form l Hl) as (l' & E & Hl'). rewrite E in H.
  case_decide; [done|]. case_decide; [done|]. case_decide; [injection H as <-; by exists l'|]. by eapply IH.
Qed.
Lemma top_loop_abs decode fs : forall fuel l r, Forall name l -> top_loop fuel decode fs (abs_path l) = Ok r -> exists l', r = abs_path l' /\ Forall name l'.
Proof.
  induction fuel as [|fuel IH]; intros l r Hl H; [done|]. cbn [top_loop] in H.
  assert (Hc : match topDirHelper decode fs (abs_path l) with
        | Some r => r
        | None => if decide (Dir (abs_path l) = abs_path l) then ErrNotFound else top_loop fuel decode fs (Dir (abs_path l))
        end = Ok r -> exists l', r = abs_path l' /\ Forall name l').
  { intros H'. destruct (topDirHelper decode fs (abs_path l)) as [r'|] eqn:Eh.
    - subst r'. unfold topDirHelper in Eh. destruct (openFabYAML fs (abs_path l)) as [[| | |content]| |]; try congruence. generalize dependent (S (length (split (abs_path l)))). intros f Eh.
      injection Eh as Eh. destruct (decode content) as [[decl|]|]; [|exists l; by split; [congruence|]|congruence].
      destruct (IsAbs decl); [congruence|]. exact (decl_loop_abs _ _ _ _ _ _ Hl Eh).
    - case_decide; [done|]. destruct (Dir_abs_form l Hl) as (l' & E & Hl'). rewrite E in H'. by eapply IH. }
  destruct (fs (Join [abs_path l; "_fab"])); try by apply Hc. injection H as <-. by exists l.
Qed.
Lemma topdir_abs decode fs w dir r : IsAbs w = true -> TopDir decode fs (Some w) dir = Ok r -> IsAbs r = true /\ clean r.
Proof.
  intros Hw H. unfold TopDir in H. destruct (Abs (Some w) dir) as [p|] eqn:E; [|done].
  apply Abs_lem in E as (Hp & Hn & Hcd); [|by intros ? [= <-]]. rewrite Hp in H.
  apply top_loop_abs in H as (l' & -> & Hl'); [|done]. split; [done|]. by apply abs_path_clean.
Qed.
Lemma at_abs wd p : IsAbs p = true -> at_wd wd p = Clean p.
Proof. intros H. unfold at_wd. by rewrite H. Qed.

(** ** Looking up and parsing. *)
Lemma as_registry_lookup m n : RegistryTarget (as_registry m) n = (fun p => (TPtr p.2, p.1)) <$> m !! n.
Proof. unfold RegistryTarget, as_registry. simpl. rewrite map_lookup_imap. by destruct (m !! n) as [[]|]. Qed.
Lemma flag_second_dec args : flag_second args \/ ~ flag_second args.
Proof.
  destruct args as [|a [|[|c s] rest]]; [right|right|right|]; try (intros (? & ? & ? & ?); done).
  destruct (decide (c = "-"%char)) as [->|Hc]; [left; by exists a, s, rest|right; intros (? & ? & ? & ?); by simplify_eq].
Qed.
Lemma empty_second_dec args : empty_second args \/ ~ empty_second args.
Proof.
  destruct args as [|a [|[|c s] rest]]; [right|right|left|right]; try (intros (? & ? & ?); done). by exists a, rest.
Qed.
Lemma asked_lem reg args ts : ParseArgs (fun _ => as_registry reg) args = POk ts -> asked reg args ts.
Proof.
  intros H. destruct (flag_second_dec args) as [(a & s & rest & ->)|Hn].
  - rewrite parse_flag_lem, as_registry_lookup in H. destruct (reg !! a) as [[d o]|] eqn:E; [|done]. simpl in H. injection H as <-.
    left. by exists a, s, rest, d, o.
  - right. split; [intros a s rest ->; apply Hn; by exists a, s, rest|].
    destruct (empty_second_dec args) as [He|He]; [by rewrite (proj2 (parse_panic_lem _ _) He) in H|].
    pose proof (parse_names_lem (fun _ => as_registry reg) args Hn He) as Hp.
    destruct (unknown_args _ args) as [|u [|u' us]]; [|by rewrite H in Hp|by rewrite H in Hp].
    destruct Hp as (ts' & E & Hl & Hp). rewrite H in E. injection E as <-.
    apply Forall2_same_length_lookup_2; [done|]. intros i a t Ha Ht. destruct (Hp i a Ha) as (t' & d & Hr & Ht'). rewrite as_registry_lookup in Hr.
    destruct (reg !! a) as [[d' o]|] eqn:E; [|done]. simpl in Hr. simplify_eq. by exists d, o.
Qed.
Lemma asked_inv reg args ts : asked reg args ts -> ~ empty_second args -> ParseArgs (fun _ => as_registry reg) args = POk ts.
Proof.
  intros [(a & s & rest & d & o & -> & E & ->)|[Hn H]] He.
  - by rewrite parse_flag_lem, as_registry_lookup, E.
  - assert (Hn' : ~ flag_second args) by (intros (a & s & rest & ->); by eapply Hn).
    pose proof (parse_names_lem (fun _ => as_registry reg) args Hn' He) as Hp.
    destruct (unknown_args (fun _ => as_registry reg) args) as [|u us] eqn:Eu.
    + destruct Hp as (ts' & -> & Hl & Hp). f_equal. apply list_eq. intros i. destruct (ts !! i) as [t|] eqn:Et.
      * destruct (Forall2_lookup_r _ _ _ _ _ H Et) as (a & Ha & d & o & E & ->). destruct (Hp i a Ha) as (t' & d' & Hr & ->).
        rewrite as_registry_lookup, E in Hr. simpl in Hr. by injection Hr as <- <-.
      * apply lookup_ge_None in Et. apply lookup_ge_None. rewrite Hl. by rewrite (Forall2_length _ _ _ H).
    + exfalso. clear Hp. unfold unknown_args in Eu. assert (Hu : u ∈ unknown_from (fun _ => as_registry reg) 0 args) by (rewrite Eu; by left).
      clear Eu He Hn Hn'. revert Hu. generalize 0. induction H as [|a t args ts (d & o & E & ->) H IH]; intros k; simpl; [by intros ?%elem_of_nil|].
      rewrite decide_False by (rewrite as_registry_lookup, E; done). simpl. apply IH.
Qed.

(** ** The end of a process. *)
Lemma par_shape M wd top s c args a st : parse_and_run M wd top s c args = (a, st) ->
  (a = [Complain] /\ st <> 0) \/
  exists ts, asked (y_reg s) args ts /\
    let r := {| r_wd := wd; r_top := top; r_objs := y_objs s; r_reg := y_reg s; r_ctx := c; r_targets := ts |} in
    (k_run M r = true /\ a = [Run r] /\ st = 0) \/ (k_run M r = false /\ a = [Run r; Complain] /\ st = 1).
Proof.
  unfold parse_and_run. destruct (ParseArgs _ args) as [ts|msg|] eqn:E; [|intros [= <- <-]; by left|intros [= <- <-]; by left].
  apply asked_lem in E. destruct (k_run M _) eqn:Er; intros [= <- <-]; right; exists ts; split; [done| |done|]; [left|right]; done.
Qed.

(** What the process that reads the targets does: the actions before ([pre]: messages and
    opening the hash DB), then at most one request. *)
Definition quiet_act (x : act) : Prop := x = Note \/ x = Complain \/ x = Usage \/ (exists s, x = Print s) \/ exists d, x = OpenDB d.
Definition wellformed (M : machine) (a : list act) (st : nat) : Prop :=
  (st = 0 <-> Complain ∉ a) /\
  (requests a = [] \/ exists r, requests a = [r] /\ (k_run M r = true <-> st = 0)).
Lemma wf_note M b a st : wellformed M a st -> wellformed M ((if b : bool then [Note] else []) ++ a) st.
Proof.
  intros [H1 H2]. destruct b; [|done]. split; [|done]. rewrite H1. cbn [app]. rewrite not_elem_of_cons. naive_solver.
Qed.
Lemma wf_db M d a st : wellformed M a st -> wellformed M (OpenDB d :: a) st.
Proof. intros [H1 H2]. split; [|done]. rewrite H1, not_elem_of_cons. naive_solver. Qed.
Lemma wf_par M wd top s c args a st : parse_and_run M wd top s c args = (a, st) -> wellformed M a st.
Proof.
  intros [[-> Hs]|(ts & Ha & [(Hr & -> & ->)|(Hr & -> & ->)])]%par_shape.
  - split; [|by left]. split; [done|]. intros []. by left.
  - split; [|right; eexists; split; [reflexivity|done]]. split; [intros _; set_solver|done].
  - split; [|right; eexists; split; [reflexivity|rewrite Hr; done]]. split; [done|]. intros []. set_solver.
Qed.
Ltac wf0 := split; [split; [first [done|intros _; set_solver]|first [done|intros []; set_solver]]|by left].
Lemma wf_driverless M fuel m a st : driverless M fuel m = Some (a, st) -> wellformed M a st.
Proof.
  unfold driverless, done. destruct (read_top _ _ _ _ _ _) as [s []|s [|]|]; [| |intros [= <- <-]; apply wf_note; wf0|done].
  all: destruct (m_list m); [intros [= <- <-]; apply wf_note; wf0|].
  all: destruct (k_db M _); [|intros [= <- <-]; apply wf_note; wf0].
  all: destruct (parse_and_run _ _ _ _ _ _) as [a' st'] eqn:E; intros [= <- <-]; apply wf_note, wf_db; by eapply wf_par.
Qed.
Lemma wf_usage M flags argv a st : usage flags argv = Some (a, st) -> wellformed M a st.
Proof. unfold usage, done. destruct (asks_help flags argv); intros [= <- <-]; wf0. Qed.
Lemma wf_driver M fuel p wd argv a st : driver M fuel p wd argv = Some (a, st) -> wellformed M a st.
Proof.
  unfold driver. destruct (k_cache M) as [cache|]; [|intros [= <- <-]; wf0]. destruct (driver_main _ _) as [m|]; [|apply wf_usage].
  destruct (register_all _ _) as [s0 []]; [|intros [= <- <-]; wf0].
  destruct (read_top _ _ _ _ _ _) as [s []|s [|]|]; [| |intros [= <- <-]; wf0|done].
  all: destruct (k_db M _); [|intros [= <- <-]; wf0].
  all: destruct (m_list m); [intros [= <- <-]; wf0|].
  all: case_decide; [intros [= <- <-]; wf0|].
  all: destruct (parse_and_run _ _ _ _ _ _) as [a' st'] eqn:E; intros [= <- <-]; apply wf_db; by eapply wf_par.
Qed.
Lemma wf_main M fuel m a st : Main_Run M fuel m = Some (a, st) -> wellformed M a st.
Proof.
  unfold Main_Run. destruct (if decide (m_topdir m = "") then _ else _) as [top| | | | | | | |]; try (intros [= <- <-]; wf0).
  destruct (k_fs M _); try apply wf_driverless.
  all: destruct (k_load M _) as [| |path p]; [apply wf_driverless|intros [= <- <-]; wf0|].
  all: case_decide; [|intros [= <- <-]; apply wf_note; wf0].
  all: destruct (driver M fuel p _ _) as [[b [|n]]|] eqn:E; [|..|done]; intros [= <- <-]; apply wf_note; apply wf_driver in E; [done|].
  all: destruct E as [E1 E2]; split.
  1,3,5: split; [done|]; intros []; apply elem_of_app; right; by left.
  all: unfold requests in *; rewrite omap_app; cbn [omap list_omap]; rewrite app_nil_r.
  all: destruct E2 as [E2|(r & E2 & E3)]; [by left|right; exists r; split; [done|]; rewrite E3; done].
Qed.
Lemma wf_fab M fuel argv a st : fab M fuel argv = Some (a, st) -> wellformed M a st.
Proof.
  unfold fab. destruct (k_cache M); [|intros [= <- <-]; wf0]. destruct (fab_main _ _ _) as [m|]; [apply wf_main|apply wf_usage].
Qed.
