(** Structs decoded from mappings. *)
From stdpp Require Import base gmap list strings.
From Coq Require Import Ascii.
From Verif Require Import PathModel PathSpec YamlModel YamlSpec YamlProofs.
Local Open Scope list_scope.
Lemma field_value name ps v : NoDup ((fun p : node * node => n_value p.1) <$> ps) -> field name ((fun p => (n_value p.1, p.2)) <$> ps) = v <-> value_of name ps v.
Proof.
  induction ps as [|[k0 v0] ps IH]; intros Hnd; cbn [fmap list_fmap field fst snd].
  - split; [intros <-; apply value_absent; [intros k v' H; by apply elem_of_nil in H|done]|]. intros [k v' H _|v' _ ->]; [by apply elem_of_nil in H|done].
  - cbn [fmap list_fmap fst] in Hnd. apply NoDup_cons in Hnd as [Hn Hnd]. specialize (IH Hnd). destruct (decide (n_value k0 = name)) as [E|E].
    + split; [intros <-; eapply value_here; [left|done]|]. intros [k v' H Hk|v' H _]; [|by destruct (H k0 v0); [left|]].
      apply elem_of_cons in H as [H|H]; [by injection H|]. exfalso. apply Hn. rewrite E, <- Hk. by apply (elem_of_list_fmap_1 (fun p : node * node => n_value p.1) _ (k, v')).
    + rewrite IH. split.
      * intros [k v' H Hk|v' H ->]; [eapply value_here; [by right|done]|]. apply value_absent; [|done]. intros k v' [Hx|Hx]%elem_of_cons; [by injection Hx as -> ->|by eapply H].
      * intros [k v' H Hk|v' H ->]; [apply elem_of_cons in H as [H|H]; [injection H as -> ->; done|by eapply value_here]|].
        apply value_absent; [|done]. intros k v' Hx. eapply H. by right.
Qed.
Lemma struct_mapping n fs : decode_struct n = Some fs <-> exists ps, mapping_of n ps /\ fs = (fun p => (n_value p.1, p.2)) <$> ps.
Proof.
  unfold decode_struct, mapping_of. split.
  - destruct (n_kind n); try done. destruct (pairs (n_content n)) as [ps|] eqn:E; [|done]. destruct (decide _) as [[Hf Hn]|]; [|done]. intros [= <-]. exists ps.
    split; [|done]. split; [done|]. split; [by apply pairs_spec|]. split; [|done]. intros k v H. rewrite Forall_forall in Hf. exact (Hf (k, v) H).
  - intros (ps & (-> & Hp%pairs_spec & Hk & Hn) & ->). rewrite Hp. rewrite decide_True; [done|]. split; [|done]. apply Forall_forall. intros [k v] H. exact (Hk k v H).
Qed.
Lemma seq_lists f l : seq_field f = Some l <-> lists f l.
Proof.
  unfold seq_field. destruct (decide _) as [[H|[H1 H2]]|Hn].
  - split; [intros [= <-]; by apply lists_absent|]. intros []; congruence.
  - split; [intros [= <-]; by apply lists_null|]. intros []; congruence.
  - destruct (decide _) as [Hs|Hs]; (split; [intros H; simplify_eq|]); [by apply lists_sequence|intros []; try done; exfalso; apply Hn; tauto|intros []; try done; exfalso; apply Hn; tauto].
Qed.
