From stdpp Require Import base gmap list strings.
From Verif Require Import PathModel FindModel FileHashModel FileHashSpec FilesModel FilesSpec FilesProofs4 PathProofs3.
From Verif Require Import ContextModel RunnerModel RunnerSteps RunnerSpec RunnerInv RunnerInv2 RunnerInv3 RunnerInv4 RunnerInv5 RunnerInv6.
From Verif Require Import RunnerProofs RunnerProofs2 RunnerProofs3 ChainModel ChainProofs BuildModel BuildSpec BuildProofs BuildProofs2 BuildProofs3 BuildProofs4 BuildProofs5 BuildProofs6.
Local Open Scope list_scope.

Lemma split_two {A} (l1 l2 m1 m2 : list A) x y : l1 ++ x :: l2 = m1 ++ y :: m2 ->
  (l1 = m1 /\ x = y /\ l2 = m2) \/ (exists k, m1 = l1 ++ x :: k /\ l2 = k ++ y :: m2) \/ (exists k, l1 = m1 ++ y :: k /\ m2 = k ++ x :: l2).
Proof.
  revert m1. induction l1 as [|z l1 IH]; intros m1 E; destruct m1 as [|z' m1]; simpl in E; simplify_eq/=.
  - auto.
  - right. left. by exists m1.
  - right. right. by exists l1.
  - match goal with E : l1 ++ _ = _ |- _ => destruct (IH _ E) as [(-> & -> & ->)|[(k & -> & ->)|(k & -> & ->)]] end; [auto|right; left|right; right]; by exists k.
Qed.

Section single.
  Context (right : rule -> files_state -> Prop) (Hcov : hash_covers right).
  Context (p : project) (owner : obj -> option obj) (σ : env).
  Context (Hwf : well_formed p) (Hsep : separate p) (Hpos : p_possible p (e_fs σ)) (Hsc : single_commands right p owner).
  Notation w := (p_world p).

  Lemma single_history l1 ev l2 g a f cx : trace w (l1 ++ ev :: l2) -> orderly p owner (l1 ++ ev :: l2) -> f ∈ p_rules p -> concerns g ev ->
    EvStart g a (p_sub p f) cx ∈ l1 ++ ev :: l2 ->
    (filter (concerns g) l1 = [] /\ exists r, ev = EvEff g (OpCmd (f_id f) 0) r) \/
    exists r, filter (concerns g) l1 = [EvEff g (OpCmd (f_id f) 0) r] /\ ev = EvEnd g a (p_sub p f) (match r with 0 => None | _ => Some (EBody r) end).
  Proof.
    intros Ht Hor Hf Hc Hs. destruct (path_at w l1 ev l2 g a (p_sub p f) cx Ht Hc Hs) as (_ & st & Hr).
    unfold body in Hr. rewrite (proj2 (or_rule _ _ _ Hor _ _ (proj1 (or_sub _ _ _ Hor f Hf)))) in Hr. rewrite (sc_body _ _ _ Hsc) in Hr by done.
    apply runs_eff_inv in Hr as [E|(r & h & E & Hr)]; [by destruct (filter (concerns g) l1)|].
    apply runs_ret_inv in Hr as [-> | ->].
    - left. apply snoc_inj_nil in E as [-> ->]. eauto.
    - right. exists r. change [EvEff g (OpCmd (f_id f) 0) r; EvEnd g a (p_sub p f) (match r with 0 => None | S _ => Some (EBody r) end)] with
        ([EvEff g (OpCmd (f_id f) 0) r] ++ [EvEnd g a (p_sub p f) (match r with 0 => None | S _ => Some (EBody r) end)]) in E.
      by apply app_inj_tail in E as [-> ->].
  Qed.

  Lemma undisturbed_unchanged f l1 l2 : undisturbed p σ f l1 l2 -> (forall g n r, EvEff g (OpCmd (f_id f) n) r ∉ l2) ->
    unchanged (e_fs (after p σ l1)) (e_fs (after p σ (l1 ++ l2))) (f_in f ++ f_out f).
  Proof.
    induction l2 as [|ev l2 IH] using rev_ind; intros Hu Hn; [rewrite app_nil_r; apply unchanged_refl|].
    eapply unchanged_trans; [apply IH|].
    - intros m1 g l r m2 -> Hl. eapply (Hu m1 g l r (m2 ++ [ev])); [by rewrite <-app_assoc|done].
    - intros g n r Hin. eapply (Hn g n r), elem_of_app. by left.
    - destruct ev as [| | | | |g l r| | |]; try (rewrite app_assoc, after_snoc; apply unchanged_refl).
      eapply (Hu l2 g l r []); [done|]. intros n ->. eapply (Hn g n r), elem_of_snoc. by right.
  Qed.

  (** The subtarget runs its command once. *)
  Lemma single_cmds l1 gs a f cx l2 l3 : trace w (l1 ++ EvStart gs a (p_sub p f) cx :: l2 ++ EvEnd gs a (p_sub p f) None :: l3) ->
    orderly p owner (l1 ++ EvStart gs a (p_sub p f) cx :: l2 ++ EvEnd gs a (p_sub p f) None :: l3) -> f ∈ p_rules p ->
    exists n1 n2, l2 = n1 ++ EvEff gs (OpCmd (f_id f) 0) 0 :: n2 /\ forall g n r, EvEff g (OpCmd (f_id f) n) r ∉ n2.
  Proof.
    intros Ht Hor Hf. set (es := EvStart gs a (p_sub p f) cx) in *. set (ee := EvEnd gs a (p_sub p f) None) in *.
    assert (E : l1 ++ es :: l2 ++ ee :: l3 = (l1 ++ es :: l2) ++ ee :: l3) by (by rewrite <-app_assoc).
    rewrite E in Ht, Hor. destruct (or_sub _ _ _ Hor f Hf) as [Hos Hof].
    assert (Hss : es ∈ l1 ++ es :: l2) by (apply elem_of_app; right; left).
    destruct (single_history (l1 ++ es :: l2) ee l3 gs a f cx Ht Hor Hf eq_refl ltac:(apply elem_of_app; by left)) as [(_ & r & ?)|(r & Hfil & Ee)]; [done|].
    assert (r = 0) as -> by (destruct r; [done|discriminate Ee]). clear Ee.
    pose proof (trace_prefix _ _ _ Ht) as Ht1. pose proof (orderly_prefix _ _ _ _ Hor) as Hor1.
    destruct (filter_split _ _ [] [] _ Hfil) as (n0 & n2 & En & Hn0 & Hn2).
    assert (Hn : exists n1, n0 = l1 ++ es :: n1 /\ l2 = n1 ++ EvEff gs (OpCmd (f_id f) 0) 0 :: n2).
    { destruct (split_two _ _ _ _ _ _ En) as [(_ & ? & _)|[(k & -> & ->)|(k & -> & Hk)]]; [done|by exists k|exfalso].
      (* before it was started *)
      assert (Htb := Ht1). rewrite <-app_assoc in Htb. cbn [app] in Htb.
      destruct (concerns_started w n0 _ _ gs Htb eq_refl) as (a' & o' & cx' & Hs').
      destruct (path_at w n0 (EvEff gs (OpCmd (f_id f) 0) 0) (k ++ es :: l2) gs a (p_sub p f) cx Htb eq_refl) as (Hs2 & _).
      { rewrite <-app_assoc in Hss. exact Hss. }
      apply elem_of_list_lookup in Hs2 as [i Hi].
      assert (Hj : ((n0 ++ EvEff gs (OpCmd (f_id f) 0) 0 :: k) ++ es :: l2) !! length (n0 ++ EvEff gs (OpCmd (f_id f) 0) 0 :: k) = Some es).
      { rewrite lookup_app_r by done. by rewrite Nat.sub_diag. }
      assert (Hi' : ((n0 ++ EvEff gs (OpCmd (f_id f) 0) 0 :: k) ++ es :: l2) !! i = Some es).
      { apply lookup_app_l_Some. by apply lookup_app_l_Some. }
      pose proof (start_unique _ _ _ _ _ _ _ _ _ _ _ Ht1 Hi' Hj) as Eij. apply lookup_lt_Some in Hi. rewrite app_length in Eij. simpl in Eij. lia. }
    destruct Hn as (n1 & -> & ->). exists n1, n2. split; [done|].
    intros g n r Hin. apply elem_of_list_split in Hin as (q1 & q2 & ->).
    set (L := l1 ++ es :: n1) in *.
    assert (E2 : l1 ++ es :: n1 ++ EvEff gs (OpCmd (f_id f) 0) 0 :: q1 ++ EvEff g (OpCmd (f_id f) n) r :: q2 =
      (L ++ EvEff gs (OpCmd (f_id f) 0) 0 :: q1) ++ EvEff g (OpCmd (f_id f) n) r :: q2).
    { unfold L. rewrite <-!app_assoc. done. }
    rewrite E2 in Ht1, Hor1, Hss.
    destruct (concerns_started w _ _ q2 g Ht1 eq_refl) as (a' & o2 & cx2 & Hs2).
    assert (Ho2 : owner o2 = Some (f_id f)).
    { eapply (or_cmd _ _ _ Hor1); [apply elem_of_app; left; exact Hs2|apply elem_of_app; right; left]. }
    pose proof (sc_only _ _ _ Hsc f o2 Hf Ho2) as ->.
    assert (Hs3 : EvStart g a' (p_sub p f) cx2 ∈ (L ++ EvEff gs (OpCmd (f_id f) 0) 0 :: q1) ++ EvEff g (OpCmd (f_id f) n) r :: q2) by (apply elem_of_app; by left).
    destruct (owned_once p owner _ _ _ _ _ _ _ _ _ Ht1 Hor1 Hos Hss Hs3) as (-> & -> & ->).
    destruct (single_history _ _ _ gs a f cx Ht1 Hor1 Hf eq_refl Hs3) as [(Hno & _)|(r' & _ & ?)]; [|done].
    rewrite filter_app, filter_cons_True in Hno by done. by apply app_nil in Hno as [_ ?].
  Qed.

  Lemma single_work tr : trace w tr -> orderly p owner tr -> commands_work right p σ tr.
  Proof.
    intros Ht Hor f l1 g a cx l2 l3 Hf E Hu. rewrite E in Ht, Hor.
    destruct (single_cmds l1 g a f cx l2 l3 Ht Hor Hf) as (n1 & n2 & -> & Hno).
    set (es := EvStart g a (p_sub p f) cx) in *. set (ec := EvEff g (OpCmd (f_id f) 0) 0) in *.
    set (L := l1 ++ es :: n1).
    assert (Hr : right (rule_of p f) (e_fs (after p σ (L ++ [ec])))).
    { rewrite after_snoc. cbn [after_event next e_fs ec]. apply (sc_right _ _ _ Hsc); [by apply possible_after|done]. }
    assert (E1 : l1 ++ es :: n1 ++ ec :: n2 = (L ++ [ec]) ++ n2) by (unfold L; rewrite <-!app_assoc; done).
    rewrite E1. eapply (Hcov _ (rule_of p f)); [|exact Hr]. apply unchanged_same_state. cbn [rule_of r_in r_out].
    apply undisturbed_unchanged; [|done].
    intros q1 g' lb r q2 -> Hlb. specialize (Hu (n1 ++ ec :: q1) g' lb r q2).
    assert (E3 : (l1 ++ [es]) ++ (n1 ++ ec :: q1) = (L ++ [ec]) ++ q1) by (unfold L; rewrite <-!app_assoc; done).
    assert (E4 : (l1 ++ [es]) ++ (n1 ++ ec :: q1) ++ [EvEff g' lb r] = (L ++ [ec]) ++ q1 ++ [EvEff g' lb r]) by (unfold L; rewrite <-!app_assoc; done).
    rewrite E3, E4 in Hu. apply Hu; [|done]. rewrite <-app_assoc. done.
  Qed.
End single.
