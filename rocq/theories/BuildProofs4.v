From stdpp Require Import base gmap list strings relations.
From Verif Require Import PathModel FindModel FileHashModel FileHashSpec FilesModel FilesSpec FilesProofs4 PathProofs3.
From Verif Require Import ContextModel RunnerModel RunnerSteps RunnerSpec RunnerInv RunnerInv2 RunnerInv3 RunnerInv4 RunnerInv5 RunnerInv6.
From Verif Require Import RunnerProofs RunnerProofs2 RunnerProofs3 ChainModel ChainProofs BuildModel BuildSpec BuildProofs BuildProofs2 BuildProofs3.
Local Open Scope list_scope.

(** A run that found its hash in the database does not request its subtarget. *)
Lemma path_yes_no_sub reg g a f sub cx hp x t : path reg g a f sub cx ((hp ++ [EvEff g (OpHash true (f_id f)) (S x); EvEff g (OpHas x) 1]) ++ [EvEnd g a (f_id f) None]) ->
  t ∈ [sub] -> t ∉ ((fun p => TPtr (f_id p)) <$> prereqs reg (f_in f) : list tref) ->
  forall c cx' , EvCall c (Some g) cx' [t] ∉ hp ++ [EvEff g (OpHash true (f_id f)) (S x); EvEff g (OpHas x) 1].
Proof.
  intros Hp Ht Hnp c cx' Hin. apply path_pre in Hp as [(h1 & hr & E & Hpre & Hr)|[(c1 & ? & _)|[(c1 & e & ?)|(e & ?)]]]; [|done..|by simplify_eq].
  rewrite E in Hin. apply elem_of_app in Hin as [Hin|Hin].
  - destruct Hpre as [_|c1 _]; [by apply elem_of_nil in Hin|]. apply elem_of_cons in Hin as [Hin|Hin]; [|by apply elem_of_list_singleton in Hin].
    injection Hin as _ _ Hin. apply Hnp. rewrite <-Hin. by left.
  - assert (Hlast : exists h2, hr = h2 ++ [EvEff g (OpHas x) 1] \/ hr = []).
    { destruct hr as [|z zs _] using rev_ind; [exists []; by right|].
      rewrite app_assoc in E. change [EvEff g (OpHash true (f_id f)) (S x); EvEff g (OpHas x) 1] with ([EvEff g (OpHash true (f_id f)) (S x)] ++ [EvEff g (OpHas x) 1]) in E.
      rewrite app_assoc in E. apply app_inj_tail in E as [_ <-]. exists zs. by left. }
    destruct Hlast as (h2 & [-> | ->]); [|by apply elem_of_nil in Hin].
    assert (Hdry : h2 = [EvEff g (OpHash true (f_id f)) (S x)] \/ EvCall c (Some g) cx' [t] ∉ h2).
    { clear -Hr. rests Hr; try (symmetry in Eh; shatter h2; try done; right; set_solver).
      - exfalso. subst h1. clear Hr Hd. tails Ht; symmetry in Eh; shatter h2; done.
      - exfalso. clear Hr Hd1 Hd2 Hd3. destruct h1 as [|y ys _] using rev_ind; [symmetry in Eh; shatter h2|].
        rewrite !app_comm_cons in Eh. apply app_inj_tail in Eh as [Eh ->].
        destruct ys as [|y ys _] using rev_ind; [clear Eh x1; tails Ht; done|].
        rewrite !app_comm_cons in Eh. apply app_inj_tail in Eh as [_ ->]. clear x1.
        rewrite <-app_assoc in Ht. cbn [app] in Ht. tails Ht; symmetry in Eh; shatter ys; done. }
    apply elem_of_snoc in Hin as [Hin|]; [|done]. destruct Hdry as [-> |Hno]; [by apply elem_of_list_singleton in Hin|done].
Qed.

(** ** Repeated builds. *)
Section again.
  Context (hashf : string -> string) (H : json -> hash).
  Context (p : project) (owner : obj -> option obj).
  Context (Hwf : well_formed p) (Hsep : separate p) (Hk : database_keeps p).
  Notation w := (p_world p).

  Lemma db_mono σ l m : e_db (after p σ l) ⊆ e_db (after p σ (l ++ m)).
  Proof.
    induction m as [|ev m IH] using rev_ind; [by rewrite app_nil_r|].
    rewrite app_assoc, after_snoc. etrans; [exact IH|].
    destruct ev as [| | | | |g lb r| | |]; try done. destruct lb as [b o|h|h|o n|n]; cbn [after_event next e_db]; try done.
    - apply Hk.
    - apply Hk.
  Qed.

  Definition up_to_date (σ : env) (f : files) : Prop :=
    exists fuel x, computeHash hashf H fuel (e_fs σ) (rule_of p f) = HOk x /\ x ∈ e_db σ.

  Lemma hash_kept σ1 σ2 f fuel x : unchanged (e_fs σ1) (e_fs σ2) (f_in f ++ f_out f) ->
    computeHash hashf H fuel (e_fs σ1) (rule_of p f) = HOk x -> computeHash hashf H fuel (e_fs σ2) (rule_of p f) = HOk x.
  Proof. intros Hu <-. by apply computeHash_unchanged. Qed.

  (** A Files target that has been built is recorded. *)
  Lemma add_recorded σ tr f l g a cx hp c x l2 : p_possible p (e_fs σ) -> session hashf H p σ tr -> orderly p owner tr -> settled p tr -> f ∈ p_rules p ->
    tr = l ++ EvEnd g a (f_id f) None :: l2 -> EvStart g a (f_id f) cx ∈ l ->
    filter (concerns g) l = hp ++ [EvCall c (Some g) cx [TPtr (p_sub p f)]; EvRet c (Some g) None; EvEff g (OpHash false (f_id f)) (S x); EvEff g (OpAdd x) 0] ->
    up_to_date (after p σ tr) f.
  Proof.
    intros Hpos Hse Hor Hset Hf E Hs Hfil. pose proof (proj1 Hse) as Ht.
    change [EvCall c (Some g) cx [TPtr (p_sub p f)]; EvRet c (Some g) None; EvEff g (OpHash false (f_id f)) (S x); EvEff g (OpAdd x) 0] with
      ([EvCall c (Some g) cx [TPtr (p_sub p f)]; EvRet c (Some g) None] ++ [EvEff g (OpHash false (f_id f)) (S x); EvEff g (OpAdd x) 0]) in Hfil.
    rewrite app_assoc in Hfil. destruct (filter_split _ _ _ _ _ Hfil) as (m1 & m' & -> & Hm1 & Hm').
    destruct (filter_split _ m' [] _ _ Hm') as (m2 & m3 & -> & Hm2 & Hm3). clear Hm'.
    set (e1 := EvEff g (OpHash false (f_id f)) (S x)) in *. set (e2 := EvEff g (OpAdd x) 0) in *. set (e3 := EvEnd g a (f_id f) None) in *.
    assert (E1 : tr = m1 ++ e1 :: m2 ++ e2 :: m3 ++ e3 :: l2).
    { rewrite E, <-!app_assoc. cbn [app]. by rewrite <-!app_assoc. }
    assert (Hs' : EvStart g a (f_id f) cx ∈ tr) by (rewrite E; apply elem_of_app; by left).
    pose proof (proj2 Hse m1 g _ _ _ E1 f Hf eq_refl) as (fuel & Hv).
    destruct (computeHash hashf H fuel (e_fs (after p σ m1)) (rule_of p f)) as [x'| | |] eqn:Ex; try done. injection Hv as <-.
    exists fuel, x. split.
    - eapply hash_kept; [|exact Ex]. rewrite E1 in Ht, Hor, Hset, Hs' |- *.
      assert (Hs1 : EvStart g a (f_id f) cx ∈ m1) by (by destruct (path_at w m1 e1 _ g a (f_id f) cx Ht eq_refl Hs')).
      destruct (sub_returned p owner Hwf m1 f g a cx hp c cx [] (trace_prefix _ _ _ Ht) (orderly_prefix _ _ _ _ Hor) Hf Hs1 Hm1) as (j1 & j2 & Ej & _ & gs & b & Hend).
      eapply (since_hash p owner σ Hwf Hsep Hpos m1 g false (S x) _ f a cx); [done..|].
      intros g' n r Hi. eapply (sub_ended_quiet p owner Hwf f gs b None m1 _ Ht Hor Hf); [rewrite Ej; apply elem_of_app; by left|].
      right. exact Hi.
    - assert (E0 : tr = ((m1 ++ e1 :: m2) ++ [e2]) ++ m3 ++ e3 :: l2) by (rewrite E1, <-!app_assoc; done).
      rewrite E0. apply db_mono. rewrite after_snoc. cbn [after_event next e_db]. apply Hk.
  Qed.
  Lemma built_recorded σ tr f : p_possible p (e_fs σ) -> session hashf H p σ tr -> orderly p owner tr -> settled p tr -> with_database p tr -> f ∈ p_rules p -> built f tr -> finished f tr ->
    up_to_date (after p σ tr) f.
  Proof.
    intros Hpos Hse Hor Hset Hd Hf (g & a & Hin) Hfin. pose proof (proj1 Hse) as Ht.
    destruct (end_split _ _ _ _ _ _ Ht Hin) as (l & l2 & cx & E & Hs).
    assert (Ht' := Ht). rewrite E in Ht'.
    pose proof (path_at_rule p Hwf l _ l2 g a f cx Ht' Hf eq_refl Hs) as Hp.
    assert (Hs' : EvStart g a (f_id f) cx ∈ tr) by (rewrite E; apply elem_of_app; by left).
    apply path_end in Hp; [|by eapply (or_not_dry _ _ _ Hor)].
    destruct Hp as [(hp & x & Hfil & _)|[(hp & c & Hfil & Hx)|(hp & c & x & Hfil & _)]]; [|by destruct (Hd _ _ _ _ Hf Hs')|by eapply add_recorded].
    assert (Hset' := Hset). rewrite E in Hset'.
    destruct (yes_settled p l l2 f g a hp x Hset' Hf Hfil) as [(gs & b & Hend)|(m1 & m2 & m3 & El & Hno)].
    - (* the subtarget was run: by another run, which has added the hash *)
      assert (Hend' : EvEnd gs b (p_sub p f) None ∈ tr) by (rewrite E; apply elem_of_app; by left).
      destruct (end_started _ _ _ _ _ _ Ht Hend') as (cxs & Hss).
      apply elem_of_list_split in Hss as (n1 & n2 & En).
      assert (Htn := Ht). assert (Horn := Hor). rewrite En in Htn, Horn.
      destruct (sub_nest p owner Hwf _ _ _ _ _ _ Htn Horn Hf) as (gf & a2 & cx2 & c2 & h2 & Hs2 & Hfil2).
      assert (Hs2' : EvStart gf a2 (f_id f) cx2 ∈ tr) by (rewrite En; apply elem_of_app; by left).
      pose proof (Hfin _ _ _ Hs2') as Hend2.
      destruct (end_split _ _ _ _ _ _ Ht Hend2) as (k & k2 & cx3 & Ek & Hs3).
      assert (Htk := Ht). rewrite Ek in Htk.
      assert (Hs3' : EvStart gf a2 (f_id f) cx3 ∈ tr) by (rewrite Ek; apply elem_of_app; by left).
      pose proof (path_at_rule p Hwf k _ k2 gf a2 f cx3 Htk Hf eq_refl Hs3) as Hp2.
      (* that run made the call *)
      assert (Hcall : EvCall c2 (Some gf) cx2 [TPtr (p_sub p f)] ∈ filter (concerns gf) tr).
      { rewrite En, filter_app, Hfil2. apply elem_of_app. left. apply elem_of_snoc. by right. }
      assert (Haf : filter (concerns gf) k2 = []).
      { eapply (after_end p gf a2 (f_id f) None (k ++ [EvEnd gf a2 (f_id f) None])); [|apply elem_of_snoc; by right].
        by rewrite <-app_assoc. }
      rewrite Ek, filter_app, filter_cons_True, Haf in Hcall by done.
      apply elem_of_snoc in Hcall as [Hcall|Hcall]; [|done].
      pose proof Hp2 as Hp3. apply path_end in Hp2; [|by eapply (or_not_dry _ _ _ Hor)].
      destruct Hp2 as [(hp2 & x2 & Hfil3 & _)|[(hp2 & c3 & Hfil3 & Hx)|(hp2 & c3 & x2 & Hfil3 & _)]]; [|by destruct (Hd _ _ _ _ Hf Hs3')|by eapply add_recorded].
      exfalso. rewrite Hfil3 in Hcall, Hp3. eapply (path_yes_no_sub (declare_all (p_rules p)) gf a2 f _ cx3 hp2 x2 (TPtr (p_sub p f))); [exact Hp3|by left| |exact Hcall].
      intros Hpre. apply elem_of_list_fmap in Hpre as (q & [= Eq] & Hq). apply needs_rules in Hq.
      pose proof (proj1 (or_sub _ _ _ Hor f Hf)) as Ho1. pose proof (proj2 (or_sub _ _ _ Hor q Hq)) as Ho2. congruence.
    - set (e1 := EvEff g (OpHash true (f_id f)) (S x)) in *. set (e2 := EvEff g (OpHas x) 1) in *. set (e3 := EvEnd g a (f_id f) None) in *.
      assert (E1 : tr = m1 ++ e1 :: m2 ++ e2 :: m3 ++ e3 :: l2).
      { rewrite E, El, <-!app_assoc. cbn [app]. by rewrite <-!app_assoc. }
      pose proof (proj2 Hse m1 g _ _ _ E1 f Hf eq_refl) as (fuel & Hv).
      destruct (computeHash hashf H fuel (e_fs (after p σ m1)) (rule_of p f)) as [x'| | |] eqn:Ex; try done. injection Hv as <-.
      assert (E0 : tr = (m1 ++ e1 :: m2) ++ e2 :: m3 ++ e3 :: l2) by (rewrite E1, <-app_assoc; done).
      pose proof (proj2 Hse _ g (OpHas x) 1 _ E0) as [_ Hx]. specialize (Hx eq_refl).
      exists fuel, x. split; [|rewrite E0; by apply db_mono].
      eapply hash_kept; [|exact Ex]. rewrite E1 in Ht, Hor, Hset, Hs' |- *.
      eapply (since_hash p owner σ Hwf Hsep Hpos m1 g true (S x) _ f a cx); [done..|].
      intros g' n r Hi. apply (Hno g' n r). rewrite app_comm_cons in Hi. rewrite app_assoc in Hi. apply elem_of_app in Hi as [Hi|Hi].
      * apply elem_of_app in Hi as [Hi|Hi]; apply elem_of_app; [by left|right]. apply elem_of_cons in Hi as [Hi|Hi]; [done|].
        right. apply elem_of_app. by left.
      * apply elem_of_cons in Hi as [Hi|Hi]; [done|]. apply elem_of_app. right. right. apply elem_of_app. by right.
  Qed.

  (** The prerequisites of what has been built have been built. *)
  Lemma built_needs tr f q : trace w tr -> f ∈ p_rules p -> built f tr -> q ∈ needs p f -> built q tr.
  Proof.
    intros Ht Hf (g & a & Hin) Hq. destruct (end_split _ _ _ _ _ _ Ht Hin) as (l & l2 & cx & -> & Hs).
    destruct (needs_done p Hwf l _ l2 g a f cx Ht Hf Hs ltac:(auto) q Hq) as (g' & a' & Hx).
    exists g', a'. apply elem_of_app. by left.
  Qed.

  Lemma again_lem σ tr (S : files -> Prop) : p_possible p (e_fs σ) -> session hashf H p σ tr -> orderly p owner tr -> with_database p tr -> not_forced p tr ->
    (forall f, S f -> f ∈ p_rules p /\ up_to_date σ f /\ forall q, q ∈ needs p f -> S q) ->
    forall f, S f ->
      (forall g n r, EvEff g (OpCmd (f_id f) n) r ∉ tr) /\
      (forall c g a cx cx', EvStart g a (f_id f) cx ∈ tr -> EvCall c (Some g) cx' [TPtr (p_sub p f)] ∉ tr) /\
      unchanged (e_fs σ) (e_fs (after p σ tr)) (f_in f ++ f_out f).
  Proof.
    intros Hpos Hse Hor Hdb Hnf HS. remember (length tr) as n eqn:Hn. revert tr Hn Hse Hor Hdb Hnf.
    induction (lt_wf n) as [n _ IH]. intros tr -> Hse Hor Hdb Hnf f Hf.
    destruct tr as [|ev l _] using rev_ind.
    { split; [|split]; [intros; apply not_elem_of_nil..|apply unchanged_refl]. }
    pose proof (session_prefix _ _ _ _ _ _ Hse) as Hse1. pose proof (orderly_prefix _ _ _ _ Hor) as Hor1.
    assert (Hdb1 : with_database p l) by (intros f' g a cx Hf' Hin; eapply Hdb; [exact Hf'|apply elem_of_app; left; exact Hin]).
    assert (Hnf1 : not_forced p l) by (intros f' g a cx Hf' Hin; eapply Hnf; [exact Hf'|apply elem_of_app; left; exact Hin]).
    assert (IH0 : forall k m, l = k ++ m -> forall f, S f -> (forall g n r, EvEff g (OpCmd (f_id f) n) r ∉ k) /\
      (forall c g a cx cx', EvStart g a (f_id f) cx ∈ k -> EvCall c (Some g) cx' [TPtr (p_sub p f)] ∉ k) /\
      unchanged (e_fs σ) (e_fs (after p σ k)) (f_in f ++ f_out f)).
    { intros k m -> f' Hf'. eapply (IH (length k)); [|reflexivity|by eapply session_prefix|by eapply orderly_prefix| | |done].
      - rewrite !app_length. simpl. lia.
      - intros f2 g a cx Hf2 Hin; eapply Hdb1; [exact Hf2|apply elem_of_app; left; exact Hin].
      - intros f2 g a cx Hf2 Hin; eapply Hnf1; [exact Hf2|apply elem_of_app; left; exact Hin]. }
    clear IH. pose proof (proj1 Hse) as Ht. pose proof (proj1 Hse1) as Ht1.
    (* the call of the subtarget is not made *)
    assert (Hcall : forall f c g a cx cx', S f -> ev = EvCall c (Some g) cx' [TPtr (p_sub p f)] -> EvStart g a (f_id f) cx ∈ l -> False).
    { clear f Hf. intros f c g a cx cx' Hf -> Hs. destruct (HS f Hf) as (Hfr & (fuel0 & x0 & Hx0 & Hin0) & _).
      pose proof (path_at_rule p Hwf l _ [] g a f cx Ht Hfr eq_refl Hs) as Hp.
      apply path_call in Hp as [(E & _ & _)|(hp & Hpre & [(_ & Hb)|(x & Hfil)])].
      - assert (Hin : TPtr (p_sub p f) ∈ (fun p => TPtr (f_id p)) <$> prereqs (declare_all (p_rules p)) (f_in f)) by (rewrite <-E; by left).
        apply elem_of_list_fmap in Hin as (q2 & [= Eq] & Hq2). apply needs_rules in Hq2.
        destruct (or_sub _ _ _ Hor f Hfr) as [Ho _]. destruct (or_sub _ _ _ Hor q2 Hq2) as [_ Ho2]. congruence.
      - pose proof (Hdb1 f g a cx Hfr Hs). pose proof (Hnf1 f g a cx Hfr Hs). pose proof (or_not_dry _ _ _ Hor1 g a cx f Hfr Hs).
        destruct Hb as [?|[?|?]]; congruence.
      - destruct (filter_split _ _ _ _ _ Hfil) as (m1 & m' & -> & Hm1 & Hm').
        destruct (filter_split _ m' [] _ _ Hm') as (m2 & m3 & -> & Hm2 & Hm3). clear Hm'.
        pose proof (proj2 Hse1 m1 g _ _ _ eq_refl f Hfr eq_refl) as (fuel & Hv).
        destruct (computeHash hashf H fuel (e_fs (after p σ m1)) (rule_of p f)) as [x'| | |] eqn:Ex; try done. injection Hv as <-.
        pose proof (proj2 Hse1 (m1 ++ EvEff g (OpHash true (f_id f)) (Datatypes.S x) :: m2) g (OpHas x) 0 m3 ltac:(by rewrite <-app_assoc)) as [Hx _]. specialize (Hx eq_refl).
        destruct (IH0 m1 _ eq_refl f Hf) as (_ & _ & Hu).
        pose proof (hash_kept σ (after p σ m1) f fuel0 x0 Hu Hx0) as Hx1.
        assert (Heq : HOk x = HOk x0) by (eapply (computeHash_fun hashf H); [exact Ex|done|exact Hx1|done]). injection Heq as ->.
        apply Hx. eapply (db_mono σ []). exact Hin0. }
    (* no command of a recorded target runs *)
    assert (Hcmd : forall f g n r, S f -> ev <> EvEff g (OpCmd (f_id f) n) r).
    { intros f' g n r Hf' ->. destruct (cmd_nest p owner Hwf l g _ n r [] Ht Hor) as (f2 & gf & a & cx & c & h & Hf2 & Ho & Hs & Hfil & _).
      destruct (HS f' Hf') as (Hfr & _). pose proof (wf_ids _ Hwf _ _ Hf2 Hfr Ho) as ->.
      destruct (IH0 l [] ltac:(by rewrite app_nil_r) f' Hf') as (_ & Hno & _).
      eapply (Hno c gf a cx cx Hs). eapply (elem_hist gf). rewrite Hfil. apply elem_of_snoc; by right. }
    destruct (IH0 l [] ltac:(by rewrite app_nil_r) f Hf) as (I1 & I2 & I3). split; [|split].
    - intros g n r Hin. apply elem_of_snoc in Hin as [Hin|Hin]; [by eapply I1|]. by eapply (Hcmd f g n r).
    - intros c g a cx cx' Hs Hin. apply elem_of_snoc in Hin as [Hin|Hin].
      + destruct (concerns_started w l ev []  g) as (a' & o' & cx2 & _); [done| |].
        * exfalso. apply elem_of_snoc in Hs as [Hs|Hs]; [by eapply I2|].
          apply elem_of_list_split in Hin as (k1 & k2 & ->).
          assert (Ht2 := Ht1). destruct (concerns_started w k1 _ k2 g Ht2 eq_refl) as (a' & o' & cx2 & Hs2).
          assert (Hi : forall e, (k1 ++ EvCall c (Some g) cx' [TPtr (p_sub p f)] :: k2) ++ [e] = k1 ++ EvCall c (Some g) cx' [TPtr (p_sub p f)] :: (k2 ++ [e])) by (intros; by rewrite <-app_assoc).
          rewrite Hi in Ht. destruct (path_at w k1 _ _ g a (f_id f) cx Ht eq_refl) as (Hs3 & _).
          { rewrite <-Hi. apply elem_of_snoc. by right. }
          eapply (I2 c g a cx cx'); [apply elem_of_app; left; exact Hs3|apply elem_of_app; right; left].
        * apply elem_of_snoc in Hs as [Hs|Hs]; [by eapply I2|].
          apply elem_of_list_split in Hin as (k1 & k2 & ->).
          assert (Hi : forall e, (k1 ++ EvCall c (Some g) cx' [TPtr (p_sub p f)] :: k2) ++ [e] = k1 ++ EvCall c (Some g) cx' [TPtr (p_sub p f)] :: (k2 ++ [e])) by (intros; by rewrite <-app_assoc).
          rewrite Hi in Ht. destruct (path_at w k1 _ _ g a (f_id f) cx Ht eq_refl) as (Hs3 & _).
          { rewrite <-Hi. apply elem_of_snoc. by right. }
          eapply (I2 c g a cx cx'); [apply elem_of_app; left; exact Hs3|apply elem_of_app; right; left].
      + subst ev. apply elem_of_snoc in Hs as [Hs|]; [|done]. by eapply (Hcall f c g a cx cx').
    - eapply unchanged_trans; [exact I3|]. rewrite after_snoc.
      destruct ev as [| | | | |g lb r| | |]; try apply unchanged_refl. cbn [after_event].
      destruct lb as [b o|h|h|o n|n]; cbn [next e_fs]; try apply unchanged_refl.
      2: { apply (sep_other _ Hsep); [by apply (possible_after p Hsep σ Hpos)|]. by apply HS. }
      destruct (cmd_nest p owner Hwf l g o n r [] Ht Hor) as (f2 & gf & a & cx & c & h & Hf2 & Ho & _).
      subst o. destruct (HS f Hf) as (Hfr & _ & Hcl).
      apply (sep_cmd _ Hsep); [by apply (possible_after p Hsep σ Hpos)|done..| |].
      + intros ->. by eapply (Hcmd f g n r).
      + intros Hin. eapply (Hcmd f2 g n r); [by apply Hcl|done].
  Qed.

  (** With one run of each Files target. *)
  Lemma once_finished tr f : trace w tr -> once p tr -> f ∈ p_rules p -> built f tr -> forall q, needed p f q -> finished q tr.
  Proof.
    intros Ht Honce Hf Hb q Hq. revert Hf Hb. induction Hq as [f|f f' q Hff' Hq IH]; intros Hf Hb.
    - destruct Hb as (g & a & Hend). intros g' a' cx' Hs'. destruct (end_started _ _ _ _ _ _ Ht Hend) as (cx & Hs).
      destruct (same_gor p _ _ _ _ _ _ _ _ Ht Honce Hf Hs Hs') as (<- & <- & _). done.
    - apply IH; [by eapply needs_rules|]. by eapply built_needs.
  Qed.
End again.

Lemma needs_same p1 p2 f : p_rules p2 = p_rules p1 -> needs p2 f = needs p1 f.
Proof. intros E. unfold needs. by rewrite E. Qed.
Lemma rule_of_same p1 p2 f : same_rules p1 p2 -> f ∈ p_rules p1 -> rule_of p2 f = rule_of p1 f.
Proof. intros [_ Hd _] Hf. unfold rule_of. by rewrite (Hd f Hf). Qed.

Lemma repeat_lem hashf H p1 o1 p2 o2 σ tr1 tr2 f : well_formed p1 -> separate p1 -> database_keeps p1 -> well_formed p2 -> separate p2 -> database_keeps p2 -> same_rules p1 p2 ->
  p_possible p1 (e_fs σ) -> session hashf H p1 σ tr1 -> session hashf H p2 (after p1 σ tr1) tr2 ->
  orderly p1 o1 tr1 -> settled p1 tr1 -> orderly p2 o2 tr2 -> with_database p1 tr1 -> with_database p2 tr2 -> not_forced p2 tr2 ->
  f ∈ p_rules p1 -> built f tr1 -> (forall q, needed p1 f q -> finished q tr1) ->
  (forall g n r, EvEff g (OpCmd (f_id f) n) r ∉ tr2) /\
  (forall c g a cx cx', EvStart g a (f_id f) cx ∈ tr2 -> EvCall c (Some g) cx' [TPtr (p_sub p2 f)] ∉ tr2) /\
  unchanged (e_fs (after p1 σ tr1)) (e_fs (after p2 (after p1 σ tr1) tr2)) (f_in f ++ f_out f).
Proof.
  intros Hwf1 Hsep1 Hk1 Hwf2 Hsep2 Hk2 Hsame Hpos Hs1 Hs2 Ho1 Hset Ho2 Hd1 Hd2 Hn2 Hf Hb Hfin.
  pose proof (proj1 (sr_possible _ _ Hsame _) (possible_after p1 Hsep1 σ Hpos tr1)) as Hpos2.
  apply (again_lem hashf H p2 o2 Hwf2 Hsep2 Hk2 (after p1 σ tr1) tr2 (fun f => f ∈ p_rules p1 /\ built f tr1 /\ forall q, needed p1 f q -> finished q tr1)); [done..| |done].
  intros f' (Hf' & Hb' & Hfin'). split; [rewrite (sr_rules _ _ Hsame); exact Hf'|]. split.
  - assert (Hu : up_to_date hashf H p1 (after p1 σ tr1) f').
    { apply (built_recorded hashf H p1 o1 Hwf1 Hsep1 Hk1); [done..|]. apply Hfin'. constructor. }
    destruct Hu as (fuel & x & Hx & Hin). exists fuel, x. split; [|exact Hin]. by rewrite (rule_of_same p1 p2).
  - intros q Hq. rewrite (needs_same p1 p2 _ (sr_rules _ _ Hsame)) in Hq.
    split; [by eapply needs_rules|]. split; [eapply (built_needs p1 Hwf1 tr1 f' q); [apply Hs1|done..]|].
    intros q' Hq'. apply Hfin'. eapply rtc_l; [exact Hq|exact Hq'].
Qed.
