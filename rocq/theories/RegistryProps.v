(** Properties C31-C34.  Vocabulary: RegistrySpec.v. *)
From stdpp Require Import base gmap list strings sorting.
From Coq Require Import Ascii.
From Verif Require Import StrOrd RegistryModel RegistrySpec RegistryProofs.
Local Open Scope list_scope.

(** ** C31.  [h] is any history of calls of RegisterTarget (concurrent ones in the order in
    which they took the lock). *)
Theorem C31_lookup_is_latest addr h n t d :
  RegistryTarget (after addr h) n = Some (t, d) <-> last_with (names_it n) h (n, d, t).
Proof. exact (registry_target_lem addr h n t d). Qed.
Print Assumptions C31_lookup_is_latest.

Theorem C31_lookup_nothing addr h n :
  RegistryTarget (after addr h) n = None <-> forall d o, (n, d, TPtr o) ∉ h.
Proof. exact (registry_none_lem addr h n). Qed.
Print Assumptions C31_lookup_nothing.

Theorem C31_names addr h :
  StronglySorted sle (RegistryNames (after addr h)) /\ NoDup (RegistryNames (after addr h)) /\
  forall n, n ∈ RegistryNames (after addr h) <-> exists d o, (n, d, TPtr o) ∈ h.
Proof. exact (conj (names_sorted _) (conj (names_nodup _) (names_lem addr h))). Qed.
Print Assumptions C31_names.

(** The name of the latest registration of a target at the same address (that is, of the
    same target, unless two targets share an address), or "unnamed" and Desc. *)
Theorem C31_describe addr desc h o :
  (exists n d t, last_with (of_addr addr (addr o)) h (n, d, t) /\ Describe addr desc (after addr h) (TPtr o) = n) \/
  ((forall n d o', (n, d, TPtr o') ∈ h -> addr o' <> addr o) /\
   Describe addr desc (after addr h) (TPtr o) = "unnamed " +:+ desc (TPtr o)).
Proof. exact (describe_ptr_lem addr desc h o). Qed.
Print Assumptions C31_describe.

Theorem C31_non_pointer_refused addr desc name doc k r :
  RegisterTarget addr name doc (TNonPtr k) r = (r, None) /\
  Describe addr desc r (TNonPtr k) = "unnamed " +:+ desc (TNonPtr k).
Proof. exact (non_pointer_lem addr desc name doc k r). Qed.
Print Assumptions C31_non_pointer_refused.

Definition h_ex : list (string * string * target) :=
  [("b", "doc of b", TPtr 1); ("a", "", TPtr 2); ("b", "second", TPtr 3); ("z", "", TNonPtr 0); ("c", "", TPtr 1)].
Example C31_case :
  RegistryTarget (after id h_ex) "b" = Some (TPtr 3, "second") /\ RegistryTarget (after id h_ex) "z" = None /\
  RegistryNames (after id h_ex) = ["a"; "b"; "c"] /\
  Describe id (fun _ => "F") (after id h_ex) (TPtr 1) = "c" /\ Describe id (fun _ => "F") (after id h_ex) (TPtr 9) = "unnamed F".
Proof. vm_compute. done. Qed.

(** ** C32.  [regs i] is the registry when the i-th argument is looked up. *)
Theorem C32_flags_for_one_target regs a0 s rest :
  ParseArgs regs (a0 :: String "-"%char s :: rest) =
  match RegistryTarget (regs 0) a0 with
  | Some (t, _) => POk [WithArgs t (String "-"%char s :: rest)]
  | None => PErr ("unknown target " +:+ a0)
  end.
Proof. exact (parse_flag_lem regs a0 s rest). Qed.
Print Assumptions C32_flags_for_one_target.

Theorem C32_list_of_targets regs args :
  ~ flag_second args -> ~ empty_second args ->
  match unknown_args regs args with
  | [] => exists ts, ParseArgs regs args = POk ts /\ length ts = length args /\
      forall i a, args !! i = Some a -> exists t d, RegistryTarget (regs i) a = Some (t, d) /\ ts !! i = Some (Plain t)
  | [u] => ParseArgs regs args = PErr ("unknown target " +:+ u)
  | us => ParseArgs regs args = PErr ("unknown targets: " +:+ unwords us)
  end.
Proof. exact (parse_names_lem regs args). Qed.
Print Assumptions C32_list_of_targets.

Example C32_case :
  let regs := fun _ : nat => after id h_ex in
  ParseArgs regs ["b"; "-v"; "x"] = POk [WithArgs (TPtr 3) ["-v"; "x"]] /\
  ParseArgs regs ["b"; "a"] = POk [Plain (TPtr 3); Plain (TPtr 2)] /\
  ParseArgs regs ["b"; "x"; "a"; "y"] = PErr "unknown targets: x y" /\
  ParseArgs regs [""] = PErr "unknown target " /\ ParseArgs regs [] = POk [] /\
  ~ flag_second ["b"; "a"] /\ ~ empty_second ["b"; "a"].
Proof.
  cbv zeta. split_and!; try (vm_compute; done).
  - by intros (? & ? & ? & ?).
  - by intros (? & ? & ?).
Qed.

(** ** C33 refuted: ParseArgs panics exactly when the second argument is the empty string
    (as in: fab foo ""). *)
Theorem C33_empty_second_argument_panics_refuted regs args :
  ParseArgs regs args = PPanic <-> empty_second args.
Proof. exact (parse_panic_lem regs args). Qed.
Print Assumptions C33_empty_second_argument_panics_refuted.
Example C33_case : empty_second ["b"; ""].
Proof. by exists "b", []. Qed.

(** Otherwise it returns targets, or an error. *)
Lemma otherwise_returns regs args : ~ empty_second args ->
  (exists ts, ParseArgs regs args = POk ts) \/ (exists msg, ParseArgs regs args = PErr msg).
Proof.
  intros Hn. destruct (ParseArgs regs args) as [ts|msg|] eqn:E; [eauto|eauto|].
  exfalso. by apply Hn, (parse_panic_lem regs).
Qed.
Theorem C33_returns_otherwise_partial regs args : ~ empty_second args ->
  (exists ts, ParseArgs regs args = POk ts) \/ (exists msg, ParseArgs regs args = PErr msg).
Proof. exact (otherwise_returns regs args). Qed.
Print Assumptions C33_returns_otherwise_partial.
Example C33_partial_case : ~ empty_second ["b"; "-x"; ""; "c"] /\ ~ empty_second [""].
Proof. by split; intros (? & ? & ?). Qed.

(** ** C34.  [hs i] is the history of registrations up to the i-th access of the registry
    (ListTargets may run concurrently with registrations).  Every name registered at the
    start is listed, once, sorted, with its doc at the time it is looked up; the output is
    as it should be if and only if no doc has more than one line. *)
Theorem C34_listing_partial addr hs : growing hs -> exists entries,
  entries.*1 = RegistryNames (after addr (hs 0)) /\
  (forall i n d, entries !! i = Some (n, d) -> exists t, last_with (names_it n) (hs (S i)) (n, d, t)) /\
  ListTargets (fun i => after addr (hs i)) =
    String.concat "" ((fun '(n, d) => n +:+ nl +:+ (if decide (d = "") then "" else "    " +:+ d +:+ nl)) <$> entries) /\
  (ListTargets (fun i => after addr (hs i)) = listing entries <-> forall n d, (n, d) ∈ entries -> multiline d = false).
Proof. exact (list_lem addr hs). Qed.
Print Assumptions C34_listing_partial.

Definition h_multi : list (string * string * target) := [("t", "one" +:+ nl +:+ "two", TPtr 1); ("a", "x" +:+ nl, TPtr 2)].
Theorem C34_second_doc_line_not_indented_refuted :
  ListTargets (fun _ => after id h_multi) =
    "a" +:+ nl +:+ "    x" +:+ nl +:+ nl +:+ "t" +:+ nl +:+ "    one" +:+ nl +:+ "two" +:+ nl /\
  listing [("a", "x" +:+ nl); ("t", "one" +:+ nl +:+ "two")] =
    "a" +:+ nl +:+ "    x" +:+ nl +:+ nl +:+ "t" +:+ nl +:+ "    one" +:+ nl +:+ "    two" +:+ nl.
Proof. exact (conj eq_refl eq_refl). Qed.
Print Assumptions C34_second_doc_line_not_indented_refuted.

Example C34_case :
  growing (fun _ => h_ex) /\
  ListTargets (fun _ => after id h_ex) = "a" +:+ nl +:+ "b" +:+ nl +:+ "    second" +:+ nl +:+ "c" +:+ nl.
Proof. split; [|vm_compute; done]. intros i j _. done. Qed.
