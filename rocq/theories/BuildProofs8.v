From stdpp Require Import base gmap list strings.
From Verif Require Import PathModel FindModel FileHashModel FileHashSpec FilesModel FilesSpec FilesProofs4 PathProofs3.
From Verif Require Import ContextModel RunnerModel RunnerSteps RunnerSpec RunnerInv RunnerInv2 RunnerInv3 RunnerInv4 RunnerInv5 RunnerInv6.
From Verif Require Import RunnerProofs RunnerProofs2 RunnerProofs3 ChainModel ChainProofs BuildModel BuildSpec BuildProofs BuildProofs2 BuildProofs3 BuildProofs4 BuildProofs5 BuildProofs6 BuildProofs7.
Local Open Scope list_scope.

(** ** Files targets that are run several times. *)
Lemma cmd_in_dec (o : nat) (l : list event) : (exists g n r, EvEff g (OpCmd o n) r ∈ l) \/ forall g n r, EvEff g (OpCmd o n) r ∉ l.
Proof.
  induction l as [|ev l [(g & n & r & Hin)|Hno]].
  - right. intros g n r. apply not_elem_of_nil.
  - left. exists g, n, r. by right.
  - assert (Hc : (exists g n r, ev = EvEff g (OpCmd o n) r) \/ forall g n r, ev <> EvEff g (OpCmd o n) r).
    { destruct ev as [| | | | |g lb r| | |]; try (right; done). destruct lb as [b o'|h|h|o' n|n]; try (right; done).
      destruct (decide ((o' : nat) = o)) as [Ho|Ho]; [left; subst; eauto|right; intros ? ? ? [= _ Ho2 _ _]; by apply Ho]. }
    destruct Hc as [(g & n & r & ->)|Hc]; [left; exists g, n, r; left|right].
    intros g n r [Hin|Hin]%elem_of_cons; [by eapply Hc|by eapply Hno].
Qed.
Section named.
  Context (hashf : string -> string) (H : json -> hash).
  Context (Hh : Inj (=) (=) hashf) (Hne : forall c, hashf c <> "") (HH : Inj (=) (=) H).
  Context (p : project) (owner : obj -> option obj) (σ : env).
  Context (Hwf : well_formed p) (Hsep : separate p) (Hdb : database_sound p) (Hk : database_keeps p) (Hpos : p_possible p (e_fs σ)).
  Context (Hdesc : distinct_descriptions p).
  Notation w := (p_world p).

  Lemma db_added x l m : x ∉ e_db (after p σ l) -> x ∈ e_db (after p σ (l ++ m)) ->
    exists m1 g r m2, m = m1 ++ EvEff g (OpAdd x) r :: m2.
  Proof using Hdb.
    intros Hn. induction m as [|ev m IH] using rev_ind; [rewrite app_nil_r; done|]. intros Hin.
    destruct (decide (x ∈ e_db (after p σ (l ++ m)))) as [Hx|Hx].
    { destruct (IH Hx) as (m1 & g & r & m2 & ->). exists m1, g, r, (m2 ++ [ev]). by rewrite <-app_assoc. }
    rewrite app_assoc, after_snoc in Hin. destruct ev as [| | | | |g lb r| | |]; try done.
    destruct lb as [b o|h|h|o n|n]; cbn [after_event next e_db] in Hin; try done.
    - by apply (db_has _ Hdb) in Hin.
    - apply (db_add _ Hdb) in Hin. apply elem_of_union in Hin as [Hin|Hin]; [|done].
      apply elem_of_singleton in Hin as ->. by exists m, g, r, [].
  Qed.

  (** A run found its hash, a command of the same Files target ran after that hash was taken:
      then the subtarget had ended when the run looked for its hash. *)
  Lemma named_key l f g a cx m1 x u1 g' n r u2 s1 s2 : session hashf H p σ l -> orderly p owner l -> with_database p l -> not_forced p l -> f ∈ p_rules p ->
    l = m1 ++ EvEff g (OpHash true (f_id f)) (S x) :: u1 ++ EvEff g' (OpCmd (f_id f) n) r :: u2 ->
    settled p (m1 ++ EvEff g (OpHash true (f_id f)) (S x) :: u1) ->
    (forall g9 n9 r9, EvEff g9 (OpCmd (f_id f) n9) r9 ∉ m1 ++ EvEff g (OpHash true (f_id f)) (S x) :: u1) ->
    EvStart g a (f_id f) cx ∈ l -> l = s1 ++ EvEff g (OpHas x) 1 :: s2 ->
    exists gs b, EvEnd gs b (p_sub p f) None ∈ s1.
  Proof using Hh Hne HH Hwf Hsep Hdb Hk Hpos Hdesc.
    intros Hse Hor Hd Hnf Hf El Hset Hnocmd Hs Es. pose proof (proj1 Hse) as Ht.
    set (e1 := EvEff g (OpHash true (f_id f)) (S x)) in *. set (ec := EvEff g' (OpCmd (f_id f) n) r) in *.
    set (n1 := m1 ++ e1 :: u1) in *.
    assert (El' : l = n1 ++ ec :: u2) by (rewrite El; unfold n1; rewrite <-app_assoc; done).
    assert (Htn : trace w n1) by (rewrite El' in Ht; by eapply trace_prefix).
    assert (Hon : orderly p owner n1) by (rewrite El' in Hor; by eapply orderly_prefix).
    (* the hash at m1 *)
    pose proof (proj2 Hse m1 g _ _ _ El f Hf eq_refl) as (fuel1 & Hv1).
    destruct (computeHash hashf H fuel1 (e_fs (after p σ m1)) (rule_of p f)) as [x'| | |] eqn:Ex1; try done. injection Hv1 as <-.
    (* a hash taken before the command is the same *)
    assert (Hsame : forall k k' gk ak cxk fuel y, n1 = k ++ EvEff gk (OpHash true (f_id f)) (S y) :: k' -> EvStart gk ak (f_id f) cxk ∈ n1 ->
      computeHash hashf H fuel (e_fs (after p σ k)) (rule_of p f) = HOk y -> computeHash hashf H fuel (e_fs (after p σ n1)) (rule_of p f) = HOk y).
    { intros k k' gk ak cxk fuel y Ek Hsk Hy. eapply hash_kept; [|exact Hy]. clearbody n1. subst n1.
      eapply (since_hash p owner σ Hwf Hsep Hpos k gk true (S y) k' f ak cxk); [done..|].
      intros g3 n3 r3 Hin. apply (Hnocmd g3 n3 r3). apply elem_of_app. right. by right. }
    assert (Hs1 : EvStart g a (f_id f) cx ∈ m1).
    { rewrite El in Ht, Hs. by destruct (path_at w m1 e1 _ g a (f_id f) cx Ht eq_refl Hs). }
    pose proof (Hsame m1 u1 g a cx fuel1 x eq_refl ltac:(apply elem_of_app; by left) Ex1) as Hx1.
    (* the run that requested the subtarget *)
    assert (Htc := Ht). assert (Hoc := Hor). rewrite El' in Htc, Hoc.
    destruct (cmd_nest p owner Hwf n1 g' _ n r u2 Htc Hoc) as (f2 & gf & a2 & cx2 & c & h & Hf2 & Eid & Hs2 & Hfil & _).
    pose proof (wf_ids _ Hwf _ _ Hf2 Hf Eid) as ->.
    destruct (filter_split _ _ _ _ _ Hfil) as (j1 & j2 & Ej & Hj1 & Hj2).
    assert (Htj := Htn). rewrite Ej in Htj. assert (Hs2j := Hs2). rewrite Ej in Hs2j.
    destruct (path_at w j1 _ _ gf a2 (f_id f) cx2 Htj eq_refl Hs2j) as (Hs2' & _).
    pose proof (path_at_rule p Hwf j1 _ j2 gf a2 f cx2 Htj Hf eq_refl Hs2') as Hp.
    assert (Hs2l : EvStart gf a2 (f_id f) cx2 ∈ l) by (rewrite El'; apply elem_of_app; by left).
    apply path_call in Hp as [(E & _ & _)|(hp & Hpre & [(_ & Hb)|(x2 & Hfil2)])].
    { exfalso. assert (Hin : TPtr (p_sub p f) ∈ (fun p => TPtr (f_id p)) <$> prereqs (declare_all (p_rules p)) (f_in f)) by (rewrite <-E; by left).
      apply elem_of_list_fmap in Hin as (q2 & [= Eq] & Hq2). apply needs_rules in Hq2.
      destruct (or_sub _ _ _ Hor f Hf) as [Ho _]. destruct (or_sub _ _ _ Hor q2 Hq2) as [_ Ho2]. congruence. }
    { exfalso. pose proof (Hd f gf a2 cx2 Hf Hs2l). pose proof (Hnf f gf a2 cx2 Hf Hs2l). pose proof (or_not_dry _ _ _ Hor gf a2 cx2 f Hf Hs2l).
      destruct Hb as [?|[?|?]]; congruence. }
    destruct (filter_split _ _ _ _ _ Hfil2) as (i1 & i' & -> & Hi1 & Hi').
    destruct (filter_split _ i' [] _ _ Hi') as (i2 & i3 & -> & Hi2 & Hi3). clear Hi' Hfil2.
    set (e2 := EvEff gf (OpHash true (f_id f)) (S x2)) in *. set (e3 := EvEff gf (OpHas x2) 0) in *. set (e4 := EvCall c (Some gf) cx2 [TPtr (p_sub p f)]) in *.
    assert (E5 : n1 = i1 ++ e2 :: i2 ++ e3 :: i3 ++ e4 :: j2).
    { rewrite Ej. rewrite <-!app_assoc. cbn [app]. by rewrite <-!app_assoc. }
    assert (E6 : l = i1 ++ e2 :: i2 ++ e3 :: i3 ++ e4 :: j2 ++ ec :: u2).
    { rewrite El', E5. repeat (rewrite <-app_assoc; cbn [app]). done. }
    pose proof (proj2 Hse i1 gf _ _ _ E6 f Hf eq_refl) as (fuel2 & Hv2).
    destruct (computeHash hashf H fuel2 (e_fs (after p σ i1)) (rule_of p f)) as [x'| | |] eqn:Ex2; try done. injection Hv2 as <-.
    pose proof (Hsame i1 _ gf a2 cx2 fuel2 x2 E5 Hs2 Ex2) as Hx2.
    assert (Heq : HOk x2 = HOk x) by (eapply (computeHash_fun hashf H); [exact Hx2|done|exact Hx1|done]). injection Heq as ->.
    (* it was not in the database then, and is now *)
    set (k2 := i1 ++ e2 :: i2) in *.
    assert (E7 : l = k2 ++ e3 :: i3 ++ e4 :: j2 ++ ec :: u2) by (rewrite E6; unfold k2; rewrite <-app_assoc; done).
    pose proof (proj2 Hse k2 gf (OpHas x) 0 _ E7) as [Hnot _]. specialize (Hnot eq_refl).
    pose proof (proj2 Hse s1 g (OpHas x) 1 s2 Es) as [_ Hyes]. specialize (Hyes eq_refl).
    rewrite E7 in Es. destruct (split_two _ _ _ _ _ _ Es) as [(_ & ? & _)|[(k & Ek & _)|(k & Ek & _)]]; [done| |].
    2: { exfalso. apply Hnot. rewrite Ek. by apply (db_mono p Hk). }
    rewrite Ek in Hyes. destruct (db_added x k2 (e3 :: k) Hnot Hyes) as (t1 & g3 & r3 & t2 & Et).
    assert (E8 : s1 = (k2 ++ t1) ++ EvEff g3 (OpAdd x) r3 :: t2) by (rewrite Ek, Et, app_assoc; done).
    set (T1 := k2 ++ t1) in *.
    rewrite <-E7 in Es. assert (E9 : l = T1 ++ EvEff g3 (OpAdd x) r3 :: t2 ++ EvEff g (OpHas x) 1 :: s2) by (rewrite Es, E8, <-app_assoc; done).
    assert (Ht9 := Ht). rewrite E9 in Ht9.
    destruct (concerns_started w T1 _ _ g3 Ht9 eq_refl) as (a3 & o3 & cx3 & Hs3).
    destruct (or_add _ _ _ Hor g3 a3 o3 cx3 x r3) as (f3 & Hf3 & <-).
    { rewrite E9. apply elem_of_app; by left. } { rewrite E9. apply elem_of_app; right; left. }
    pose proof (path_at_rule p Hwf T1 _ _ g3 a3 f3 cx3 Ht9 Hf3 eq_refl Hs3) as Hp3.
    apply path_add in Hp3 as (hp3 & c3 & Hfil3).
    pose proof (trace_prefix _ _ _ Ht9) as Ht10.
    assert (Hor10 : orderly p owner T1) by (rewrite E9 in Hor; by eapply orderly_prefix).
    assert (Hfil4 := Hfil3). change [EvCall c3 (Some g3) cx3 [TPtr (p_sub p f3)]; EvRet c3 (Some g3) None; EvEff g3 (OpHash false (f_id f3)) (S x)] with
      ([EvCall c3 (Some g3) cx3 [TPtr (p_sub p f3)]; EvRet c3 (Some g3) None] ++ [EvEff g3 (OpHash false (f_id f3)) (S x)]) in Hfil4.
    rewrite app_assoc in Hfil4. destruct (filter_split _ _ _ _ _ Hfil4) as (v1 & v2 & Ev & _ & _).
    assert (E10 : l = v1 ++ EvEff g3 (OpHash false (f_id f3)) (S x) :: v2 ++ EvEff g3 (OpAdd x) r3 :: t2 ++ EvEff g (OpHas x) 1 :: s2).
    { rewrite E9, Ev, <-app_assoc. done. }
    pose proof (proj2 Hse v1 g3 _ _ _ E10 f3 Hf3 eq_refl) as (fuel3 & Hv3).
    destruct (computeHash hashf H fuel3 (e_fs (after p σ v1)) (rule_of p f3)) as [x'| | |] eqn:Ex3; try done. injection Hv3 as <-.
    destruct (computeHash_same hashf H Hh Hne HH _ _ _ _ _ _ _ Ex3 Ex1) as (Hsd & _).
    pose proof (Hdesc f3 f Hf3 Hf Hsd) as ->.
    destruct (sub_returned p owner Hwf T1 f g3 a3 cx3 hp3 c3 cx3 _ Ht10 Hor10 Hf Hs3 Hfil3) as (q1 & q2 & Eq & _ & gs & b & Hend).
    exists gs, b. rewrite E8, Eq. apply elem_of_app. left. apply elem_of_app. by left.
  Qed.

  Lemma named_settled tr : session hashf H p σ tr -> orderly p owner tr -> with_database p tr -> not_forced p tr -> one_step p tr -> settled p tr.
  Proof using Hh Hne HH Hwf Hsep Hdb Hk Hpos Hdesc.
    induction tr as [|ev l IH] using rev_ind; intros Hse Hor Hd Hnf H1.
    { intros f g a l1 l2 _ E. by destruct l1. }
    assert (Hset : settled p l).
    { apply IH; [by eapply session_prefix|by eapply orderly_prefix|..].
      - intros f g a cx Hf Hin. eapply Hd; [done|]. apply elem_of_app. by left.
      - intros f g a cx Hf Hin. eapply Hnf; [done|]. apply elem_of_app. by left.
      - intros f m1 g n r m2 Hf ->. destruct (H1 f m1 g n r (m2 ++ [ev]) Hf) as [Ha Hb]; [by rewrite <-app_assoc|].
        split; [done|]. intros g' n' r' Hin. apply (Hb g' n' r'). apply elem_of_app. by left. }
    pose proof (proj1 Hse) as Ht. intros f g a l1 l2 Hf E.
    assert (Hstart : exists cx, EvStart g a (f_id f) cx ∈ l1).
    { rewrite E in Ht. exact (started_before_end w l1 l2 g a (f_id f) None Ht). }
    destruct Hstart as (cx & Hs).
    assert (HsT : EvStart g a (f_id f) cx ∈ l ++ [ev]) by (rewrite E; apply elem_of_app; by left).
    assert (HtE := Ht). rewrite E in HtE. assert (HorE := Hor). rewrite E in HorE.
    pose proof (path_at_rule p Hwf l1 _ l2 g a f cx HtE Hf eq_refl Hs) as Hp.
    apply path_end in Hp; [|by eapply (or_not_dry _ _ _ Hor)].
    destruct Hp as [(hp & x & Hfil & _)|[(hp & c & Hfil & _)|(hp & c & x & Hfil & _)]].
    2: { left. destruct (sub_returned p owner Hwf l1 f g a cx hp c cx [] (trace_prefix _ _ _ HtE) (orderly_prefix _ _ _ _ HorE) Hf Hs Hfil) as (j1 & j2 & Ej & _ & gs & b & Hend).
         exists gs, b. rewrite Ej. apply elem_of_app. by left. }
    2: { left. destruct (sub_returned p owner Hwf l1 f g a cx hp c cx _ (trace_prefix _ _ _ HtE) (orderly_prefix _ _ _ _ HorE) Hf Hs Hfil) as (j1 & j2 & Ej & _ & gs & b & Hend).
         exists gs, b. rewrite Ej. apply elem_of_app. by left. }
    destruct (filter_split _ _ _ _ _ Hfil) as (m1 & m' & E1 & Hm1 & Hm').
    destruct (filter_split _ m' [] _ _ Hm') as (m2 & m3 & E2 & Hm2 & Hm3). clear Hm'.
    set (e1 := EvEff g (OpHash true (f_id f)) (S x)) in *. set (e2 := EvEff g (OpHas x) 1) in *. set (e3 := EvEnd g a (f_id f) None) in *.
    destruct (cmd_in_dec (f_id f) (m' ++ l2)) as [(g' & n & r' & Hin)|He].
    2: { right. by exists m1, (S x), m'. }
    assert (Hin' : EvEff g' (OpCmd (f_id f) n) r' ∈ m' ++ e3 :: l2).
    { apply elem_of_app in Hin as [Hin|Hin]; apply elem_of_app; [by left|right; by right]. }
    apply elem_of_list_split in Hin' as (u1 & u2 & Eu).
    assert (El : l ++ [ev] = m1 ++ e1 :: u1 ++ EvEff g' (OpCmd (f_id f) n) r' :: u2).
    { rewrite E, E1, <-app_assoc. cbn [app]. by rewrite Eu. }
    assert (El' : l ++ [ev] = (m1 ++ e1 :: u1) ++ EvEff g' (OpCmd (f_id f) n) r' :: u2) by (rewrite El, <-app_assoc; done).
    assert (Hpref : exists k, l = (m1 ++ e1 :: u1) ++ k).
    { destruct u2 as [|z u2 _] using rev_ind.
      - apply app_inj_tail in El' as [-> _]. exists []. by rewrite app_nil_r.
      - rewrite app_comm_cons, app_assoc in El'. apply app_inj_tail in El' as [-> _]. eauto. }
    destruct Hpref as (k & Hpref).
    destruct (named_key (l ++ [ev]) f g a cx m1 x u1 g' n r' u2 (m1 ++ e1 :: m2) (m3 ++ e3 :: l2)) as (gs & b & Hend); try done.
    - rewrite Hpref in Hset. by eapply settled_prefix.
    - by destruct (H1 f (m1 ++ e1 :: u1) g' n r' u2 Hf El').
    - rewrite E, E1, E2. repeat (rewrite <-app_assoc; cbn [app]). done.
    - left. exists gs, b. rewrite E1, E2.
      assert (Ex : m1 ++ e1 :: m2 ++ e2 :: m3 = (m1 ++ e1 :: m2) ++ e2 :: m3) by (rewrite <-app_assoc; done).
      rewrite Ex. apply elem_of_app. by left.
  Qed.
End named.

(** Single commands make one step. *)
Lemma single_one_step right p owner tr : single_commands right p owner -> trace (p_world p) tr -> orderly p owner tr -> one_step p tr.
Proof.
  intros Hsc Ht Hor.
  assert (Hkey : forall f m1 g n r u g' n' r' m2, f ∈ p_rules p -> tr = m1 ++ EvEff g (OpCmd (f_id f) n) r :: u ++ EvEff g' (OpCmd (f_id f) n') r' :: m2 -> False).
  { intros f m1 g n r u g' n' r' m2 Hf E.
    assert (E2 : tr = (m1 ++ EvEff g (OpCmd (f_id f) n) r :: u) ++ EvEff g' (OpCmd (f_id f) n') r' :: m2) by (rewrite E, <-app_assoc; done).
    destruct (concerns_started (p_world p) m1 _ _ g ltac:(rewrite <-E; exact Ht) eq_refl) as (a & o & cx & Hs).
    destruct (concerns_started (p_world p) _ _ m2 g' ltac:(rewrite <-E2; exact Ht) eq_refl) as (a' & o' & cx' & Hs').
    assert (Hs1 : EvStart g a o cx ∈ tr) by (rewrite E; apply elem_of_app; by left).
    assert (Hs2 : EvStart g' a' o' cx' ∈ tr) by (rewrite E2; apply elem_of_app; by left).
    assert (Ho : o = p_sub p f).
    { apply (sc_only _ _ _ Hsc); [done|]. eapply (or_cmd _ _ _ Hor); [exact Hs1|]. rewrite E. apply elem_of_app. right. left. }
    assert (Ho' : o' = p_sub p f).
    { apply (sc_only _ _ _ Hsc); [done|]. eapply (or_cmd _ _ _ Hor); [exact Hs2|]. rewrite E2. apply elem_of_app. right. left. }
    subst o o'. destruct (owned_once p owner tr _ _ _ _ _ _ _ _ Ht Hor (proj1 (or_sub _ _ _ Hor f Hf)) Hs1 Hs2) as (-> & -> & ->).
    rewrite E2 in Ht, Hor, Hs1.
    destruct (single_history right p owner Hsc _ _ _ g a f cx Ht Hor Hf eq_refl Hs1) as [(Hno & _)|(r2 & _ & ?)]; [|done].
    rewrite filter_app, filter_cons_True in Hno by done. by apply app_nil in Hno as [_ ?]. }
  intros f m1 g n r m2 Hf ->. split; intros g' n' r' Hin; apply elem_of_list_split in Hin as (k1 & k2 & ->).
  - eapply (Hkey f k1 g' n' r' k2 g n r m2 Hf). rewrite <-app_assoc. done.
  - by eapply (Hkey f m1 g n r k1 g' n' r' k2 Hf).
Qed.
