(** Proofs for C84-C87: every run of fab in a YAML project is a build. *)
From stdpp Require Import base gmap list strings relations.
From Verif Require Import TopDirModel DriverModel RegistryModel.
From Verif Require Import PathModel FindModel FileHashModel FileHashSpec FilesModel FilesSpec.
From Verif Require Import ContextModel RunnerModel RunnerSpec RunnerSpec2 ChainModel ChainProofs YamlModel YamlSpec.
From Verif Require Import MainModel MainSpec ProjModel ProjSpec EndSpec BuildModel BuildSpec MakeModel MakeSpec.
From Verif Require Import YamlProofs ProjLaid ProjProofs ProjProofs3 ProjProofs4 ProjProofs5 ProjProofs7 EndProofs MakeProofs MakeProofs2.
From Verif Require Import BuildProofs3 BuildProofs6 BuildProofs8 BuildProps EndProps.
Local Open Scope list_scope.

Section run.
  Context (hashf : string -> string) (H : json -> hash) (right : FilesModel.rule -> files_state -> Prop).
  Context (Hh : Inj (=) (=) hashf) (Hne : forall c, hashf c <> "") (HH : Inj (=) (=) H) (Hcov : hash_covers right).

  Section one.
  Context (M : machine) (fuel : nat) (argv : list string) (m : Main) (top : string) (T : tags) (wd : string)
      (a : list act) (st : nat) (r : request) (lf : string -> node -> string -> option (list string * list string))
      (objs' : list shape) (addr : nat -> nat) (leafp : nat -> ctx -> prog) (U : workings) (σ : env) (tr : list event).
  Context (Hrun : fab_run hashf H right M fuel argv m top T wd a st r lf objs' addr leafp U σ tr).
  Notation p := (yaml_build U addr objs' leafp).

  Lemma run_flags g b x cx : EvStart g b x cx ∈ tr -> GetForce cx = m_force m /\ GetDryRun cx = false /\ GetHashDB cx <> None.
  Proof.
    intros Hs. destruct (C81_settings_of_command_line _ _ _ _ _ _ _ _ _ _ _ _ _ _ _ _ _ _ _ (fr_project _ _ _ _ _ _ _ _ _ _ _ _ _ _ _ _ _ _ _ _ Hrun)
      (fr_fab _ _ _ _ _ _ _ _ _ _ _ _ _ _ _ _ _ _ _ _ Hrun) (fr_request _ _ _ _ _ _ _ _ _ _ _ _ _ _ _ _ _ _ _ _ Hrun)
      (fr_under_way _ _ _ _ _ _ _ _ _ _ _ _ _ _ _ _ _ _ _ _ Hrun) Hs) as (_ & Ef & Ed & (db & _ & Edb) & _).
    rewrite (fr_not_dry _ _ _ _ _ _ _ _ _ _ _ _ _ _ _ _ _ _ _ _ Hrun) in Ed. split; [done|]. split; [done|]. by rewrite Edb.
  Qed.
  Lemma run_not_dry g b cx f : f ∈ p_rules p -> EvStart g b (f_id f) cx ∈ tr -> GetDryRun cx = false.
  Proof. intros _ Hs. by apply run_flags in Hs as (_ & ? & _). Qed.
  Lemma run_db : with_database p tr.
  Proof. intros f g b cx _ Hs. by apply run_flags in Hs as (_ & _ & ?). Qed.
  Lemma run_force : m_force m = false -> not_forced p tr.
  Proof. intros Hf f g b cx _ Hs. apply run_flags in Hs as (E & _). congruence. Qed.
  Lemma run_session : session hashf H p σ tr.
  Proof.
    split; [exact (proj1 (uw_exec _ _ _ _ _ _ (fr_under_way _ _ _ _ _ _ _ _ _ _ _ _ _ _ _ _ _ _ _ _ Hrun)))|].
    exact (fr_answers _ _ _ _ _ _ _ _ _ _ _ _ _ _ _ _ _ _ _ _ Hrun).
  Qed.

  Lemma run_orderly : exists owner, tidy p owner /\ orderly p owner tr /\
    (forall c cx ts x i, EvCall c None cx ts ∈ tr -> TPtr x ∈ ts -> owner x <> Some i) /\
    (forall name x i, EvRegister name x ∈ tr -> owner x <> Some i) /\ well_formed p.
  Proof.
    destruct Hrun as [Hy Hf Hr Huw Hd Hpl Hcb Hsep Hdb Hp Hans Hwk Hag].
    destruct (the_project _ _ _ _ _ _ _ _ _ _ Hy Hf Hr) as (s & Hl & Ho & Hg).
    pose proof (uw_objs _ _ _ _ _ _ Huw) as Hexp. pose proof (uw_addr _ _ _ _ _ _ Huw) as Hinj. rewrite Ho, Hg in Hexp. rewrite Hg in Hcb.
    pose proof (yb_tidy _ _ _ _ _ _ _ _ _ Hl Hexp addr leafp U Hpl Hcb) as Htd.
    pose proof (yb_wf objs' addr leafp U Hinj) as Hwf.
    set (owner := MakeProofs.owner (snd <$> y_reg s) objs' (level s objs')) in *.
    assert (Hc : forall c cx ts x i, EvCall c None cx ts ∈ tr -> TPtr x ∈ ts -> owner x <> Some i).
    { intros c cx ts x i Hc Hx. destruct (call_registered _ _ _ _ _ _ _ _ _ _ Hy Hf Hr _ _ _ _ _ Huw s Ho Hg _ _ _ _ Hc Hx) as (q & doc & o & _ & Has & Hq).
      destruct Has as [[= ->]|(x' & args & [= <-] & Hlen & Hx')].
      - eapply (registered_free _ _ _ _ _ _ _ _ _ Hl Hexp). rewrite lookup_fmap, Hq. done.
      - eapply (args_free _ _ _ _ _ _ _ _ _ Hl Hexp); [exact Hlen|exact Hx']. }
    assert (Hn : forall name x i, EvRegister name x ∈ tr -> owner x <> Some i).
    { intros name x i Hin. apply (proj2 (proj2 (uw_exec _ _ _ _ _ _ Huw))) in Hin. rewrite Hg in Hin. by eapply (registered_free _ _ _ _ _ _ _ _ _ Hl Hexp). }
    exists owner. split; [done|]. split; [|done].
    exact (tidy_is_orderly p owner tr Hwf Htd (proj1 run_session) Hn Hc run_not_dry).
  Qed.

  Lemma run_build : exists owner, build hashf H right p owner σ tr.
  Proof.
    destruct run_orderly as (owner & Htd & Hor & Hc & Hn & Hwf). pose proof run_session as Hs. pose proof run_db as Hwd. pose proof run_force as Hnf. pose proof run_not_dry as Hnd.
    destruct Hrun as [Hy Hf Hr Huw Hd Hpl Hcb Hsep Hdb Hp Hans Hwk Hag].
    assert (Hset : settled p tr).
    { destruct Hag as [Hne'|(Hfo & Hds & Hk & Hdd & Hos)].
      - eapply C58_once_is_settled; [done|exact (proj1 Hs)|done|]. apply (tidy_once p owner tr); [|exact (proj1 Hs)].
        split; [exact Hc|exact Hn| |exact Hnd].
        intros name f x Hff Hin Hx. apply (proj2 (proj2 (uw_exec _ _ _ _ _ _ Huw))) in Hin.
        apply (deferred_ref addr objs' leafp) in Hx. apply (Hne' _ _ _ Hx Hin). apply files_elem in Hff as (t & ac & E). unfold is_rule. eauto.
      - exact (C58_named_rules_are_settled hashf H p owner σ tr Hh Hne HH Hwf Hsep Hds Hk Hdd Hp Hs Hor Hwd (Hnf Hfo) Hos). }
    exists owner. exact (Build_build hashf H right p owner σ tr Hwf Hsep Hdb Hp Hs Hor Hset Hwk).
  Qed.
  End one.

  Lemma history_builds σ : fab_history hashf H right σ -> builds_from_nothing hashf H right σ.
  Proof.
    induction 1 as [fs t|σ fs db t _ IH Hdb|M fuel argv m top T wd a st r lf objs' addr leafp U σ tr _ IH Hr].
    - constructor.
    - by eapply bfn_edit.
    - apply run_build in Hr as [owner Hb]. by eapply bfn_build.
  Qed.
End run.
