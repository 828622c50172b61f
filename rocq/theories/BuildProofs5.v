From stdpp Require Import base gmap list strings.
From Verif Require Import PathModel FindModel FileHashModel FileHashSpec FilesModel FilesSpec FilesProofs4 PathProofs3.
From Verif Require Import ContextModel RunnerModel RunnerSteps RunnerSpec RunnerInv RunnerInv2 RunnerInv3 RunnerInv4 RunnerInv5 RunnerInv6.
From Verif Require Import RunnerProofs RunnerProofs2 RunnerProofs3 ChainModel ChainProofs BuildModel BuildSpec BuildProofs BuildProofs2 BuildProofs3 BuildProofs4.
Local Open Scope list_scope.

Lemma same_files_sym fs1 i1 fs2 i2 : same_files fs1 i1 fs2 i2 -> same_files fs2 i2 fs1 i1.
Proof. intros Hs q e He. by rewrite (Hs q e He). Qed.
Lemma same_files_trans fs1 i1 fs2 i2 fs3 i3 : same_files fs1 i1 fs2 i2 -> same_files fs2 i2 fs3 i3 -> same_files fs1 i1 fs3 i3.
Proof. intros H1 H2 q e He. by rewrite (H1 q e He), (H2 q e He). Qed.

Lemma source_unchanged p σ tr i : separate p -> p_possible p (e_fs σ) -> sources_kept p -> source p i -> unchanged (e_fs σ) (e_fs (after p σ tr)) [i].
Proof.
  intros Hsep Hpos Hk Hi. induction tr as [|ev tr IH] using rev_ind; [apply unchanged_refl|].
  eapply unchanged_trans; [exact IH|]. rewrite after_snoc.
  destruct ev as [| | | | |g lb r| | |]; try apply unchanged_refl.
  destruct lb as [b o|h|h|o n|n]; cbn [after_event next e_fs]; try apply unchanged_refl; by apply (Hk i Hi); apply possible_after.
Qed.

Lemma declare_all_none fs q i : q ∈ fs -> i ∈ f_out q -> declare_all fs !! i <> None.
Proof.
  intros Hq Hi. unfold declare_all. induction fs as [|f fs IH] using rev_ind; [by apply elem_of_nil in Hq|].
  rewrite fold_left_app. simpl. rewrite declare_lookup. case_decide as Hd; [done|].
  apply elem_of_snoc in Hq as [Hq| ->]; [by apply IH|done].
Qed.

Lemma started_before_end w l1 l2 g a o e : trace w (l1 ++ EvEnd g a o e :: l2) -> exists cx, EvStart g a o cx ∈ l1.
Proof.
  intros Ht. destruct (end_started w (l1 ++ [EvEnd g a o e]) g a o e) as [cx Hs].
  - rewrite (app_assoc l1 [_] l2 : l1 ++ EvEnd g a o e :: l2 = _) in Ht. by eapply trace_prefix.
  - apply elem_of_snoc; by right.
  - exists cx. apply elem_of_snoc in Hs as [?|?]; done.
Qed.

Section same.
  Context (hashf : string -> string) (H : json -> hash).
  Context (Hh : Inj (=) (=) hashf) (Hne : forall c, hashf c <> "") (HH : Inj (=) (=) H).
  Context (right : rule -> files_state -> Prop) (Hcov : hash_covers right).
  Context (p1 p2 : project) (o1 o2 : obj -> option obj) (σ1 σ2 : env) (Hsame : same_rules p1 p2).

  Lemma same_result_lem tr1 tr2 : build hashf H right p1 o1 σ1 tr1 -> build hashf H right p2 o2 σ2 tr2 ->
    honest hashf H right (e_db σ1) -> honest hashf H right (e_db σ2) ->
    sources_kept p1 -> sources_kept p2 -> determined right p1 ->
    (forall i, source p1 i -> same_files (e_fs σ1) [i] (e_fs σ2) [i]) ->
    forall f, f ∈ p_rules p1 -> built f tr1 -> built f tr2 ->
    forall i, i ∈ f_in f \/ makes p1 f i -> same_files (e_fs (after p1 σ1 tr1)) [i] (e_fs (after p2 σ2 tr2)) [i].
  Proof.
    intros B1 B2 Ho1 Ho2 Hk1 Hk2 Hdet Hsrc.
    pose proof (b_wf _ _ _ _ _ _ _ B1) as Hwf1. pose proof (b_wf _ _ _ _ _ _ _ B2) as Hwf2. pose proof (sr_rules _ _ Hsame) as Er.
    pose proof (proj1 (b_session _ _ _ _ _ _ _ B1)) as Ht1. pose proof (proj1 (b_session _ _ _ _ _ _ _ B2)) as Ht2.
    pose proof (proj2 (incremental_lem hashf H Hh Hne HH right Hcov p1 o1 σ1 Hwf1 (b_sep _ _ _ _ _ _ _ B1) (b_db _ _ _ _ _ _ _ B1) (b_possible _ _ _ _ _ _ _ B1) tr1
      (b_session _ _ _ _ _ _ _ B1) (b_orderly _ _ _ _ _ _ _ B1) (b_settled _ _ _ _ _ _ _ B1) (b_work _ _ _ _ _ _ _ B1) Ho1)) as R1.
    pose proof (proj2 (incremental_lem hashf H Hh Hne HH right Hcov p2 o2 σ2 Hwf2 (b_sep _ _ _ _ _ _ _ B2) (b_db _ _ _ _ _ _ _ B2) (b_possible _ _ _ _ _ _ _ B2) tr2
      (b_session _ _ _ _ _ _ _ B2) (b_orderly _ _ _ _ _ _ _ B2) (b_settled _ _ _ _ _ _ _ B2) (b_work _ _ _ _ _ _ _ B2) Ho2)) as R2.
    assert (Hmain : forall n f, f ∈ p_rules p1 -> (exists l1 g a l2, tr1 = l1 ++ EvEnd g a (f_id f) None :: l2 /\ length l1 = n) -> built f tr2 ->
      forall i, i ∈ f_in f \/ makes p1 f i -> same_files (e_fs (after p1 σ1 tr1)) [i] (e_fs (after p2 σ2 tr2)) [i]).
    { intros n. induction (lt_wf n) as [n _ IH]. intros f Hf (l1 & g & a & l2 & E & Hn) Hb2.
      assert (Hb1 : built f tr1) by (exists g, a; rewrite E; apply elem_of_app; right; left).
      assert (Hin : forall i, i ∈ f_in f -> same_files (e_fs (after p1 σ1 tr1)) [i] (e_fs (after p2 σ2 tr2)) [i]).
      { intros i Hi.
        assert (Hcase : source p1 i \/ exists q, makes p1 q i /\ q ∈ needs p1 f).
        { destruct (findInFilesRegistry (declare_all (p_rules p1)) i) as [q| |] eqn:Ef.
          - right. exists q. assert (q ∈ needs p1 f) by (by eapply prereqs_elem). split; [|done]. split; [by eapply needs_rules|right; split; [by exists f|done]].
          - left. split; [by exists f|]. intros q (Hq & [Ho|[_ Hx]]); [|congruence].
            destruct (declare_all (p_rules p1) !! i) as [q'|] eqn:El; [apply find_self in El; congruence|].
            by eapply (declare_all_none (p_rules p1) q i).
          - by apply find_terminates in Ef. }
        destruct Hcase as [Hs|(q & Hm & Hq)].
        - eapply same_files_trans; [|eapply same_files_trans; [apply Hsrc; exact Hs|]].
          + apply same_files_sym, unchanged_same_files. apply source_unchanged; [apply B1|apply B1|done..].
          + apply unchanged_same_files. apply source_unchanged; [apply B2|apply B2|done|]. destruct Hs as ((f' & Hf' & Hi') & Hn'). split.
            * exists f'. rewrite Er. done.
            * intros q Hm. apply (Hn' q). unfold makes in *. rewrite Er in Hm. exact Hm.
        - assert (Hs : exists cx, EvStart g a (f_id f) cx ∈ l1).
          { rewrite E in Ht1. exact (started_before_end (p_world p1) l1 l2 g a (f_id f) None Ht1). }
          destruct Hs as (cx & Hs). rewrite E in Ht1.
          destruct (needs_done p1 Hwf1 l1 _ l2 g a f cx Ht1 Hf Hs ltac:(auto) q Hq) as (g' & a' & Hend).
          apply elem_of_list_split in Hend as (k1 & k2 & ->).
          eapply (IH (length k1)); [|apply Hm| | |right; exact Hm].
          + subst n. rewrite app_length. simpl. lia.
          + exists k1, g', a', (k2 ++ EvEnd g a (f_id f) None :: l2). split; [|done]. rewrite E, <-app_assoc. done.
          + eapply (built_needs p2 Hwf2 tr2 f q); [done|rewrite Er; done|done|]. by rewrite (needs_same p1 p2 _ Er). }
      intros i [Hi|Hm]; [by apply Hin|].
      eapply (Hdet f); [apply possible_after; apply B1|apply (sr_possible _ _ Hsame), possible_after; apply B2|done|by apply R1| |exact Hin|done].
      rewrite <-(rule_of_same p1 p2) by done. apply R2; [by rewrite Er|done]. }
    intros f Hf (g & a & Hb1) Hb2. apply elem_of_list_split in Hb1 as (l1 & l2 & E).
    eapply (Hmain (length l1)); [done| |done]. by exists l1, g, a, l2.
  Qed.
End same.

(** Over whole histories of builds. *)
Lemma honest_always hashf H right σ : Inj (=) (=) hashf -> (forall c, hashf c <> "") -> Inj (=) (=) H -> hash_covers right ->
  builds_from_nothing hashf H right σ -> honest hashf H right (e_db σ).
Proof.
  intros Hh Hne HH Hcov. induction 1 as [fs t|σ fs db t _ IH Hdb|p owner σ tr _ IH B].
  - intros h fuel fs' r Hin. simpl in Hin. by apply elem_of_empty in Hin.
  - intros h fuel fs' r Hin Hc. apply Hdb in Hin as [Hin|Hin]; [by eapply IH|]. eapply Hin; [by apply elem_of_singleton|exact Hc].
  - eapply (incremental_lem hashf H Hh Hne HH right Hcov p owner σ); [apply B..|exact IH].
Qed.
