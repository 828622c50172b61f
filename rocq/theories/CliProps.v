(** C96: how fab reads its command line.  Vocabulary: CliSpec.v. *)
From stdpp Require Import base gmap list strings.
From Coq Require Import Ascii.
From Verif Require Import DriverModel RegistryModel RegistrySpec RegistryProofs MainModel MainSpec CliSpec CliProofs.
Local Open Scope list_scope.

(** A command line is accepted exactly if it is a list of flags followed by other arguments, and
    then every setting is what the last flag of its name says, or the default. *)
Theorem C96_fab_reads cache top argv m : fab_main cache top argv = Some m <->
  exists is, reads fab_flags argv is (m_args m) /\ m_topdir m = top /\ given is "fab" cache (m_fabdir m) /\
    on is "v" (m_verbose m) /\ on is "list" (m_list m) /\ on is "f" (m_force m) /\ on is "n" (m_dryrun m).
Proof.
  unfold fab_main. split.
  - destruct (parse fab_flags argv ∅) as [[v args]|] eqn:E; [|done]. intros [= <-]. simpl. apply parse_parses in E as (is & H & ->). apply parses_reads in H.
    exists is. split; [done|]. destruct H as [Hf _]. split; [done|].
    split; [by apply (string_given fab_flags)|]. split; [by apply (bool_on fab_flags)|]. split; [by apply (bool_on fab_flags)|]. split; by apply (bool_on fab_flags).
  - intros (is & Hr & Ht & H1 & H2 & H3 & H4 & H5). pose proof (proj1 Hr) as Hf. apply parses_reads in Hr. rewrite (parses_parse _ _ _ _ Hr).
    apply (string_given fab_flags) in H1; [|done|done]. apply (bool_on fab_flags) in H2, H3, H4, H5; [|done|done|done|done|done|done|done|done].
    rewrite H1, H2, H3, H4, H5. destruct m. simpl in *. by rewrite Ht.
Qed.
Print Assumptions C96_fab_reads.
Theorem C96_driver_reads cache argv m : driver_main cache argv = Some m <->
  exists is, reads driver_flags argv is (m_args m) /\ given is "fab" cache (m_fabdir m) /\ given is "top" "" (m_topdir m) /\
    on is "v" (m_verbose m) /\ on is "list" (m_list m) /\ on is "f" (m_force m) /\ on is "n" (m_dryrun m).
Proof.
  unfold driver_main. split.
  - destruct (parse driver_flags argv ∅) as [[v args]|] eqn:E; [|done]. intros [= <-]. simpl. apply parse_parses in E as (is & H & ->). apply parses_reads in H.
    exists is. split; [done|]. destruct H as [Hf _].
    split; [by apply (string_given driver_flags)|]. split; [by apply (string_given driver_flags)|]. split; [by apply (bool_on driver_flags)|].
    split; [by apply (bool_on driver_flags)|]. split; by apply (bool_on driver_flags).
  - intros (is & Hr & H1 & Ht & H2 & H3 & H4 & H5). pose proof (proj1 Hr) as Hf. apply parses_reads in Hr. rewrite (parses_parse _ _ _ _ Hr).
    apply (string_given driver_flags) in H1, Ht; [|done|done|done|done]. apply (bool_on driver_flags) in H2, H3, H4, H5; [|done|done|done|done|done|done|done|done].
    rewrite H1, Ht, H2, H3, H4, H5. by destruct m.
Qed.
Print Assumptions C96_driver_reads.

(** It can be read in one way only. *)
Theorem C96_unambiguous flags argv is is' args args' : reads flags argv is args -> reads flags argv is' args' ->
  args = args' /\ forall n x, set_to is n x <-> set_to is' n x.
Proof.
  intros H%parses_reads H'%parses_reads. pose proof (parses_parse _ _ _ _ H ∅) as E. pose proof (parses_parse _ _ _ _ H' ∅) as E'. rewrite E in E'. injection E' as E1 E2.
  split; [done|]. intros n x. by rewrite <- !settings_set, E1.
Qed.
Print Assumptions C96_unambiguous.

(** Any other command line: nothing is done.  If it asks for help, the usage is printed and that is
    no failure; else there is an error message too, and the exit status is 2. *)
Theorem C96_refused M fuel argv cache : k_cache M = Some cache -> (forall is args, ~ reads fab_flags argv is args) ->
  asks fab_flags argv /\ fab M fuel argv = Some ([Usage], 0) \/ ~ asks fab_flags argv /\ fab M fuel argv = Some ([Complain; Usage], 2).
Proof.
  intros Hc Hn. unfold fab. rewrite Hc. destruct (fab_main cache "" argv) as [m|] eqn:E; [apply C96_fab_reads in E as (is & H & _); by apply Hn in H|].
  unfold usage. destruct (asks_help fab_flags argv) eqn:Eh; [left; split; [by apply help_asks|done]|]. right. split; [|done]. intros H%asks_help_true. congruence.
Qed.
Print Assumptions C96_refused.
Theorem C96_help M fuel argv cache : k_cache M = Some cache -> asks fab_flags argv -> fab M fuel argv = Some ([Usage], 0).
Proof. intros Hc H. destruct (C96_refused M fuel argv cache Hc) as [[_ E]|[Hn _]]; [intros is args; by apply asks_unread|done|done]. Qed.
Print Assumptions C96_help.
Theorem C96_driver_refused M fuel p wd argv cache : k_cache M = Some cache -> (forall is args, ~ reads driver_flags argv is args) ->
  asks driver_flags argv /\ driver M fuel p wd argv = Some ([Usage], 0) \/ ~ asks driver_flags argv /\ driver M fuel p wd argv = Some ([Complain; Usage], 2).
Proof.
  intros Hc Hn. unfold driver. rewrite Hc. destruct (driver_main cache argv) as [m|] eqn:E; [apply C96_driver_reads in E as (is & H & _); by apply Hn in H|].
  unfold usage. destruct (asks_help driver_flags argv) eqn:Eh; [left; split; [by apply help_asks|done]|]. right. split; [|done]. intros H%asks_help_true. congruence.
Qed.
Print Assumptions C96_driver_refused.

(** The exit status: 0 without an error message (C61), else 2 if the command line was refused (or
    the second argument is empty, which makes fab panic), and 1 for any other error. *)
Lemma par_code M wd top s c args a st : parse_and_run M wd top s c args = (a, st) -> Usage ∉ a /\ (st = 0 \/ st = 1 \/ st = 2 /\ empty_second args).
Proof.
  unfold parse_and_run. destruct (ParseArgs _ args) as [ts|msg|] eqn:E; [destruct (k_run M _)| |apply parse_panic_lem in E]; intros [= <- <-]; (split; [|by auto]).
  all: intros H; repeat (apply elem_of_cons in H as [H|H]; [done|]); by apply elem_of_nil in H.
Qed.
Theorem C96_driver_exit_codes M fuel p wd argv cache m a st : k_cache M = Some cache -> driver_main cache argv = Some m ->
  driver M fuel p wd argv = Some (a, st) -> st = 0 \/ st = 1 \/ st = 2 /\ empty_second (m_args m).
Proof.
  intros Hc Hm. unfold driver, done. rewrite Hc, Hm.
  destruct (register_all _ _) as [s0 []]; [|intros [= <- <-]; auto]. destruct (read_top _ _ _ _ _ _) as [s []|s [|]|]; [| |intros [= <- <-]; auto|done].
  all: destruct (k_db M _); [|intros [= <- <-]; auto]. all: destruct (m_list m); [intros [= <- <-]; auto|].
  all: case_decide; [intros [= <- <-]; auto|]. all: destruct (parse_and_run _ _ _ _ _ _) as [a' st'] eqn:E; intros [= <- <-]; by apply par_code in E as [_ E].
Qed.
Print Assumptions C96_driver_exit_codes.
Theorem C96_exit_codes M fuel argv cache m a st : k_cache M = Some cache -> fab_main cache "" argv = Some m ->
  fab M fuel argv = Some (a, st) -> st = 0 \/ st = 1 \/ st = 2 /\ empty_second (m_args m).
Proof.
  intros Hc Hm. unfold fab. rewrite Hc, Hm.
  assert (Hd : forall m', m_args m' = m_args m -> driverless M fuel m' = Some (a, st) -> st = 0 \/ st = 1 \/ st = 2 /\ empty_second (m_args m)).
  { intros m' <-. unfold driverless, done. destruct (read_top _ _ _ _ _ _) as [s []|s [|]|]; [| |intros [= <- <-]; auto|done].
    all: destruct (m_list m'); [intros [= <- <-]; auto|]. all: destruct (k_db M _); [|intros [= <- <-]; auto].
    all: destruct (parse_and_run _ _ _ _ _ _) as [a' st'] eqn:E; intros [= <- <-]; by apply par_code in E as [_ E]. }
  unfold Main_Run, done. destruct (if decide (m_topdir m = "") then _ else _) as [top| | | | | | | |]; try (intros [= <- <-]; auto; fail).
  destruct (k_fs M _); try (by apply Hd). all: destruct (k_load M _) as [| |path p]; [by apply Hd|intros [= <- <-]; by auto|].
  all: case_decide; [|intros [= <- <-]; by auto]. all: destruct (driver M fuel p _ _) as [[b [|n]]|]; intros [= <- <-]; by auto.
Qed.
Print Assumptions C96_exit_codes.

(** Cases: the later flag wins; a flag after the first target is an argument; -- ends the flags; a
    flag without its value and an unknown one are refused; -n=x -h: the bad value comes first. *)
Definition settings_of (argv : list string) : option (string * bool * bool * list string) :=
  m ← fab_main "cache" "" argv; Some (m_fabdir m, m_verbose m, m_dryrun m, m_args m).
Example C96_cases :
  settings_of ["-v"; "--fab"; "-n"; "-v=false"; "-n"; "A"; "-v"] = Some ("-n", false, true, ["A"; "-v"]) /\
  settings_of ["-fab=x=y"; "--"; "-v"] = Some ("x=y", false, false, ["-v"]) /\ settings_of ["-"; "-v"] = Some ("cache", false, false, ["-"; "-v"]) /\
  settings_of ["-v"; "-fab"] = None /\ settings_of ["-x"] = None /\ settings_of ["---v"] = None /\ settings_of ["-n=x"; "-h"] = None /\
  ~ asks fab_flags ["-n=x"; "-h"] /\ asks fab_flags ["-n=F"; "--help=x"; "-y"].
Proof.
  repeat (split; [reflexivity|]). split; [|apply help_asks; reflexivity]. intros H%asks_help_true. discriminate H.
Qed.
Example C96_reads_ex : exists is, reads fab_flags ["-v"; "-fab"; "-n"; "A"; "-v"] is ["A"; "-v"] /\ given is "fab" "cache" "-n" /\ on is "v" true /\ on is "n" false.
Proof.
  destruct (proj1 (C96_fab_reads "cache" "" ["-v"; "-fab"; "-n"; "A"; "-v"] _) eq_refl) as (is & H1 & _ & H2 & H3 & _ & _ & H4). by exists is.
Qed.
Example C96_codes_ex : exists m, fab_main "cache" "" ["-v"; "A"; ""] = Some m /\ empty_second (m_args m).
Proof. eexists. split; [reflexivity|]. by exists "A", []. Qed.
