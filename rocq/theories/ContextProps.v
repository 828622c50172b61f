(** Property C54: context decorations (context.go). *)
From stdpp Require Import base list fin_sets sets strings.
From Verif Require Import ContextModel.

Inductive kind := KDryRun | KForce | KHashDB | KVerbose | KArgs | KOther (key : nat).
Definition kind_of (l : layer) : kind :=
  match l with
  | CDryRun _ => KDryRun | CForce _ => KForce | CHashDB _ => KHashDB
  | CVerbose _ => KVerbose | CArgs _ => KArgs | COther k => KOther k
  end.
(** No decoration of kind [k] in this part of the chain. *)
Definition without (k : kind) (c : ctx) : Prop := forall l, l ∈ c -> kind_of l <> k.

Lemma without_cons k l c : without k (l :: c) -> kind_of l <> k /\ without k c.
Proof. intros H. split; [apply H; left|intros l' ?; apply H; by right]. Qed.

Ltac skip c Hc :=
  induction c as [|[] c IH]; simpl; intros; try done;
  match goal with H : without _ (_ :: _) |- _ => apply without_cons in H as [? ?]; simpl in *; auto; try done end.

Lemma dryrun_skip c c0 : without KDryRun c -> GetDryRun (c ++ c0) = GetDryRun c0.
Proof. skip c Hc. Qed.
Lemma force_skip c c0 : without KForce c -> GetForce (c ++ c0) = GetForce c0.
Proof. skip c Hc. Qed.
Lemma hashdb_skip c c0 : without KHashDB c -> GetHashDB (c ++ c0) = GetHashDB c0.
Proof. skip c Hc. Qed.
Lemma verbose_skip c c0 : without KVerbose c -> GetVerbose (c ++ c0) = GetVerbose c0.
Proof. skip c Hc. Qed.
Lemma args_skip c c0 : without KArgs c -> GetArgs (c ++ c0) = GetArgs c0.
Proof. skip c Hc. Qed.

(** The latest setting of a kind wins, whatever (of other kinds, or from other packages)
    was added after it, and whatever was below it. *)
Lemma latest_lem c c0 :
  (forall b, without KDryRun c -> GetDryRun (c ++ WithDryRun c0 b) = b) /\
  (forall b, without KForce c -> GetForce (c ++ WithForce c0 b) = b) /\
  (forall d, without KHashDB c -> GetHashDB (c ++ WithHashDB c0 d) = d) /\
  (forall b, without KVerbose c -> GetVerbose (c ++ WithVerbose c0 b) = b) /\
  (forall a, without KArgs c -> GetArgs (c ++ WithArgs c0 a) = a).
Proof.
  split_and!; intros v H.
  - by rewrite dryrun_skip.
  - by rewrite force_skip.
  - by rewrite hashdb_skip.
  - by rewrite verbose_skip.
  - by rewrite args_skip.
Qed.
Theorem C54_latest_setting_wins c c0 :
  (forall b, without KDryRun c -> GetDryRun (c ++ WithDryRun c0 b) = b) /\
  (forall b, without KForce c -> GetForce (c ++ WithForce c0 b) = b) /\
  (forall d, without KHashDB c -> GetHashDB (c ++ WithHashDB c0 d) = d) /\
  (forall b, without KVerbose c -> GetVerbose (c ++ WithVerbose c0 b) = b) /\
  (forall a, without KArgs c -> GetArgs (c ++ WithArgs c0 a) = a).
Proof. exact (latest_lem c c0). Qed.
Print Assumptions C54_latest_setting_wins.

Lemma defaults_lem c :
  (without KDryRun c -> GetDryRun c = false) /\
  (without KForce c -> GetForce c = false) /\
  (without KHashDB c -> GetHashDB c = None) /\
  (without KVerbose c -> GetVerbose c = false) /\
  (without KArgs c -> GetArgs c = []).
Proof.
  rewrite <-(app_nil_r c). split_and!; intros H; rewrite app_nil_r in H.
  - by rewrite dryrun_skip.
  - by rewrite force_skip.
  - by rewrite hashdb_skip.
  - by rewrite verbose_skip.
  - by rewrite args_skip.
Qed.
Theorem C54_defaults c :
  (without KDryRun c -> GetDryRun c = false) /\
  (without KForce c -> GetForce c = false) /\
  (without KHashDB c -> GetHashDB c = None) /\
  (without KVerbose c -> GetVerbose c = false) /\
  (without KArgs c -> GetArgs c = []).
Proof. exact (defaults_lem c). Qed.
Print Assumptions C54_defaults.

(** A setting of one kind changes no other. *)
Lemma independent_lem l c :
  (kind_of l <> KDryRun -> GetDryRun (l :: c) = GetDryRun c) /\
  (kind_of l <> KForce -> GetForce (l :: c) = GetForce c) /\
  (kind_of l <> KHashDB -> GetHashDB (l :: c) = GetHashDB c) /\
  (kind_of l <> KVerbose -> GetVerbose (l :: c) = GetVerbose c) /\
  (kind_of l <> KArgs -> GetArgs (l :: c) = GetArgs c).
Proof. destruct l; simpl; split_and!; done. Qed.
Theorem C54_settings_independent l c :
  (kind_of l <> KDryRun -> GetDryRun (l :: c) = GetDryRun c) /\
  (kind_of l <> KForce -> GetForce (l :: c) = GetForce c) /\
  (kind_of l <> KHashDB -> GetHashDB (l :: c) = GetHashDB c) /\
  (kind_of l <> KVerbose -> GetVerbose (l :: c) = GetVerbose c) /\
  (kind_of l <> KArgs -> GetArgs (l :: c) = GetArgs c).
Proof. exact (independent_lem l c). Qed.
Print Assumptions C54_settings_independent.

Example C54_case :
  without KForce [CVerbose true; COther 3; CArgs ["a"]] /\
  GetForce ([CVerbose true; COther 3; CArgs ["a"]] ++ WithForce (WithForce Background true) false) = false.
Proof. split; [intros l; set_solver|done]. Qed.
