From stdpp Require Import base gmap list strings.
From Verif Require SqliteModel SqliteSpec SqliteProofs.
From Verif Require Import PathModel FindModel FileHashModel FileHashSpec FilesModel FilesSpec.
From Verif Require Import ContextModel RunnerModel RunnerSpec ChainModel BuildModel BuildSpec BuildProofs2 BuildProofs3 BuildProofs4 BuildProofs5 StoreSpec StoreProofs.
Local Open Scope list_scope.

(** ** The database of a project plays no role for the files. *)
Lemma after_files p d σ1 σ2 tr : e_fs σ1 = e_fs σ2 -> e_time σ1 = e_time σ2 ->
  e_fs (after (with_db p d) σ1 tr) = e_fs (after p σ2 tr) /\ e_time (after (with_db p d) σ1 tr) = e_time (after p σ2 tr).
Proof.
  revert σ1 σ2. induction tr as [|ev tr IH]; intros σ1 σ2 E1 E2; [by split|].
  apply (IH (after_event (with_db p d) σ1 ev) (after_event p σ2 ev)).
  - destruct ev as [| | | | |g lb r| | |]; simpl; try done. destruct lb; simpl; congruence.
  - destruct ev as [| | | | |g lb r| | |]; simpl; try done. destruct lb; simpl; congruence.
Qed.
Lemma wf_with_db p d : well_formed p -> well_formed (with_db p d).
Proof. intros []. by split. Qed.
Lemma sep_with_db p d : separate p -> separate (with_db p d).
Proof. intros []. by split. Qed.
Lemma orderly_with_db p d owner tr : orderly p owner tr -> orderly (with_db p d) owner tr.
Proof. intros []. by split. Qed.
Lemma work_with_db right p d σ1 σ2 tr : e_fs σ1 = e_fs σ2 -> e_time σ1 = e_time σ2 ->
  commands_work right p σ2 tr -> commands_work right (with_db p d) σ1 tr.
Proof.
  intros E1 E2 Hw f l1 g a cx l2 l3 Hf E Hu. rewrite (proj1 (after_files p d σ1 σ2 _ E1 E2)). eapply (Hw f l1 g a cx l2 l3); [exact Hf|exact E|].
  intros m1 g' l r m2 Em Hn. specialize (Hu m1 g' l r m2 Em Hn). by rewrite !(fun tr => proj1 (after_files p d σ1 σ2 tr E1 E2)) in Hu.
Qed.

Lemma script_weaken (others others' : hash -> Prop) (K K' : Prop) F : (forall x, others x -> others' x) -> (K' -> K) -> script_ok others K F -> script_ok others' K' F.
Proof. intros Ho HK Hok t l r R A E. destruct (Hok _ _ _ _ _ E) as [HA HR]. split; [|auto]. intros x Hx. destruct (HA x Hx); auto. Qed.

Section store.
  Context (code : string -> hash) (Hcode : Inj (=) (=) code).

  Lemma is_a_database others p σ tr s cs s' l :
    SqliteProofs.inv s -> SqliteModel.run s cs = Some s' -> SqliteModel.s_log s' = SqliteModel.s_log s ++ l -> uses code others tr l ->
    exists db0 d, let p' := with_db p d in let σ' := {| e_fs := e_fs σ; e_db := db0; e_time := e_time σ |} in
      (forall x, x ∈ db0 -> x ∈ contents code s \/ others x) /\
      (forall l1 g h r l2, tr = l1 ++ EvEff g (OpHas h) r :: l2 -> (r = 0 -> h ∉ e_db (after p' σ' l1)) /\ (r = 1 -> h ∈ e_db (after p' σ' l1))) /\
      e_db (after p' σ' tr) = contents code s' /\
      (forall hashf H right, (forall x, others x -> right_hash hashf H right x) -> database_honest hashf H right p') /\
      ((forall x, ~ others x) -> database_sound p') /\
      (nothing_expires (SqliteModel.s_log s) l -> contents code s ⊆ db0 /\ database_keeps p').
  Proof.
    intros I Hr Hl Hu.
    pose proof (run_path code Hcode (nothing_expires (SqliteModel.s_log s) l) cs s s' l I Hr Hl (fun x => x)) as Hp.
    destruct (uses_script code Hcode _ others tr l Hu _ _ (e_time σ) Hp) as (C0 & F & H0 & HK & HF & Hf).
    exists C0, (play F). cbv zeta. split; [exact H0|].
    destruct (follows_after F p tr {| e_fs := e_fs σ; e_db := C0; e_time := e_time σ |} _ Hf) as [Ha Hv].
    split; [exact Hv|]. split; [exact Ha|]. split; [|split].
    - intros hashf H right Ho. apply play_honest. eapply script_weaken; [exact Ho| |exact HF]. done.
    - intros Hno. pose proof (play_sound others F (script_weaken others others _ False F (fun _ x => x) (False_ind _) HF) Hno) as Hp'.
      split; intros t h r db; simpl; apply Hp'.
    - intros HE. split; [by apply HK|]. eapply (play_keeps others). eapply script_weaken; [| |exact HF]; done.
  Qed.

  Context (hashf : string -> string) (H : json -> hash) (right : rule -> files_state -> Prop).
  Notation start fs db t := {| e_fs := fs; e_db := db; e_time := t |}.

  Definition nohash : gset hash := ∅.
  Lemma sqlite_session others p owner fs t s s' tr : SqliteProofs.inv s -> sqlite_build code hashf H right others p owner fs t s s' tr ->
    (exists cs, SqliteModel.run s cs = Some s') /\
    exists db0 d l, (forall x, x ∈ db0 -> x ∈ contents code s \/ others x) /\ SqliteModel.s_log s' = SqliteModel.s_log s ++ l /\
      session hashf H (with_db p d) (start fs db0 t) tr /\
      e_db (after (with_db p d) (start fs db0 t) tr) = contents code s' /\
      ((forall x, others x -> right_hash hashf H right x) -> build hashf H right (with_db p d) owner (start fs db0 t) tr) /\
      (nothing_expires (SqliteModel.s_log s) l -> contents code s ⊆ db0 /\ database_keeps (with_db p d)).
  Proof.
    intros I [Hwf Hsep Hpos Ht Hha (cs & l & Hr & Hl & Hu) Hor Hset Hwk].
    split; [by exists cs|].
    destruct (is_a_database others p (start fs ∅ t) tr s cs s' l I Hr Hl Hu) as (db0 & d & H0 & Hv & Ha & Hho & _ & HK).
    cbv zeta in *. cbn [e_fs e_time] in *.
    assert (Hs : session hashf H (with_db p d) (start fs db0 t) tr).
    { split; [exact Ht|]. intros l1 g lb r l2 E. destruct lb as [b o|h|h|o n|n]; try exact Logic.I; [|exact (Hv l1 g h r l2 E)].
      pose proof (Hha l1 g b o r l2 E) as Hx. intros f Hf Ef. destruct (Hx f Hf Ef) as [fuel Hx']. exists fuel.
      rewrite (proj1 (after_files p d (start fs db0 t) (start fs nohash t) l1 eq_refl eq_refl)). exact Hx'. }
    exists db0, d, l. split; [exact H0|]. split; [exact Hl|]. split; [exact Hs|]. split; [exact Ha|]. split; [|exact HK].
    intros Ho. split.
    - by apply wf_with_db.
    - by apply sep_with_db.
    - by apply Hho.
    - exact Hpos.
    - exact Hs.
    - by apply orderly_with_db.
    - exact Hset.
    - eapply (work_with_db right p d); [| |exact Hwk]; done.
  Qed.

  Lemma history_from_nothing fs s : sqlite_history code hashf H right fs s ->
    SqliteModel.reachable s /\ forall t, builds_from_nothing hashf H right (start fs (contents code s) t).
  Proof.
    assert (Hrun : forall s cs s', SqliteModel.reachable s -> SqliteModel.run s cs = Some s' -> SqliteModel.reachable s').
    { intros s1 cs s2 [cs0 E0] E. exists (cs0 ++ cs). revert E0. generalize SqliteModel.init. induction cs0 as [|c cs0 IH]; intros s0 E0; simpl in *.
      - by injection E0 as ->.
      - destruct (SqliteModel.step s0 c) as [s3|]; simpl in *; [|done]. by apply IH. }
    assert (Hh : forall x, right_hash hashf H right x -> honest hashf H right {[x]}).
    { intros x Hx h fuel fs' r Hin Hc. apply elem_of_singleton in Hin as ->. by eapply Hx. }
    induction 1 as [fs|fs fs' s _ [IH1 IH2]|fs s cs s' l _ [IH1 IH2] Hr Hl Ha|p owner fs t s s' tr _ [IH1 IH2] B].
    - split; [by exists []|]. intros t. change (contents code SqliteModel.init) with (∅ : gset hash). constructor.
    - split; [done|]. intros t. apply (bfn_edit _ _ _ _ fs' _ t (IH2 0)). by left.
    - split; [by eapply Hrun|]. intros t. apply (bfn_edit _ _ _ _ fs _ t (IH2 0)). simpl. intros x Hx.
      pose proof (run_path code Hcode False cs s s' l (SqliteProofs.reachable_inv s IH1) Hr Hl (False_ind _)) as Hp.
      destruct (path_adds _ _ _ _ _ x Hp Hx) as [Hx'|(y & now & -> & Hin)]; [by left|]. right. apply Hh. by eapply Ha.
    - destruct (sqlite_session _ p owner fs t s s' tr (SqliteProofs.reachable_inv s IH1) B) as ((cs & Hr) & db0 & d & l & H0 & Hl & Hs & He & Hb & _).
      split; [by eapply Hrun|]. intros t'.
      assert (B0 : builds_from_nothing hashf H right (start fs db0 t)).
      { apply (bfn_edit _ _ _ _ fs db0 t (IH2 0)). simpl. intros x Hx. apply H0 in Hx as [Hx|Hx]; auto. }
      pose proof (bfn_build _ _ _ _ _ _ _ B0 (Hb (fun _ x => x))) as B1.
      eapply (bfn_edit _ _ _ _ _ _ t' B1). intros x Hx. left. by rewrite He.
  Qed.
End store.

(** ** Every session is possible with this database. *)
Lemma has_log (o : SqliteModel.opts) (now : Z) x s : exists cs s' u, SqliteModel.run s cs = Some s' /\
  SqliteModel.s_log s' = SqliteModel.s_log s ++ [SqliteModel.EvHas x u (bool_decide (0 < SqliteModel.sql_count x (SqliteModel.s_table s)))] /\
  (forall t, u = Some t -> t = now).
Proof.
  pose proof (SqliteProofs.begin_lookup (SqliteModel.HasNow o x) s) as Hb. set (i := length _) in Hb. clearbody i.
  destruct (SqliteModel.updateOnAccess o) eqn:Eu.
  - set (s1 := SqliteModel.at_call i (SqliteModel.HasUpdate o x now) (SqliteModel.begin (SqliteModel.HasNow o x) s)).
    assert (Hb2 : SqliteModel.s_calls s1 !! i = Some (SqliteModel.HasUpdate o x now)) by (eapply SqliteProofs.at_lookup; exact Hb).
    exists [SqliteModel.CallHas o x; SqliteModel.Go i now; SqliteModel.Go i now]. eexists. eexists.
    rewrite (SqliteProofs.run_cons _ _ _ (SqliteModel.begin (SqliteModel.HasNow o x) s)) by done.
    rewrite (SqliteProofs.run_cons _ _ _ s1) by (simpl; unfold SqliteModel.go; rewrite Hb; simpl; by rewrite Eu).
    split; [erewrite SqliteProofs.run_cons by (simpl; unfold SqliteModel.go; by rewrite Hb2); reflexivity|]. split; [done|]. by intros t [= ->].
  - exists [SqliteModel.CallHas o x; SqliteModel.Go i now]. eexists. eexists.
    rewrite (SqliteProofs.run_cons _ _ _ (SqliteModel.begin (SqliteModel.HasNow o x) s)) by done.
    split; [erewrite SqliteProofs.run_cons by (simpl; unfold SqliteModel.go; rewrite Hb; simpl; by rewrite Eu); reflexivity|]. by split.
Qed.
Lemma add_log (o : SqliteModel.opts) (now : Z) x s : exists cs s', SqliteModel.run s cs = Some s' /\
  SqliteModel.s_log s' = SqliteModel.s_log s ++ SqliteModel.EvAdd x now :: (if bool_decide (0 < SqliteModel.keep o)%Z then [SqliteModel.EvDelete (SqliteModel.keep o) now] else []).
Proof.
  pose proof (SqliteProofs.begin_lookup (SqliteModel.AddNow o x) s) as Hb. set (i := length _) in Hb. clearbody i.
  set (s1 := SqliteModel.at_call i (SqliteModel.AddUpsert o x now) (SqliteModel.begin (SqliteModel.AddNow o x) s)).
  assert (Hb2 : SqliteModel.s_calls s1 !! i = Some (SqliteModel.AddUpsert o x now)) by (eapply SqliteProofs.at_lookup; exact Hb).
  destruct (bool_decide (0 < SqliteModel.keep o)%Z) eqn:Ek.
  - set (s2 := SqliteModel.at_call i (SqliteModel.AddDelete o x now) (SqliteModel.exec (SqliteModel.sql_upsert x (SqliteModel.unix now) (SqliteModel.s_table s1)) (SqliteModel.EvAdd x now) s1)).
    assert (Hb3 : SqliteModel.s_calls s2 !! i = Some (SqliteModel.AddDelete o x now)) by (eapply SqliteProofs.at_lookup; exact Hb2).
    exists [SqliteModel.CallAdd o x; SqliteModel.Go i now; SqliteModel.Go i now; SqliteModel.Go i now]. eexists.
    rewrite (SqliteProofs.run_cons _ _ _ (SqliteModel.begin (SqliteModel.AddNow o x) s)) by done.
    rewrite (SqliteProofs.run_cons _ _ _ s1) by (simpl; unfold SqliteModel.go; by rewrite Hb).
    rewrite (SqliteProofs.run_cons _ _ _ s2) by (simpl; unfold SqliteModel.go; rewrite Hb2; simpl; by rewrite Ek).
    split; [erewrite SqliteProofs.run_cons by (simpl; unfold SqliteModel.go; by rewrite Hb3); reflexivity|].
    simpl. by rewrite <-app_assoc.
  - exists [SqliteModel.CallAdd o x; SqliteModel.Go i now; SqliteModel.Go i now]. eexists.
    rewrite (SqliteProofs.run_cons _ _ _ (SqliteModel.begin (SqliteModel.AddNow o x) s)) by done.
    rewrite (SqliteProofs.run_cons _ _ _ s1) by (simpl; unfold SqliteModel.go; by rewrite Hb).
    split; [erewrite SqliteProofs.run_cons by (simpl; unfold SqliteModel.go; rewrite Hb2; simpl; by rewrite Ek); reflexivity|]. done.
Qed.

(** Entries accessed within the keep period before an eviction are spared. *)
Lemma within_keep l1 l2 : (forall k now x t ev, SqliteModel.EvDelete k now ∈ l2 -> ev ∈ l1 ++ l2 -> SqliteSpec.accessed x t ev -> (now - t <= k)%Z) ->
  nothing_expires l1 l2.
Proof.
  intros Hw m1 k now m2 -> x t (n1 & ev & n2 & E & Ha & _). unfold SqliteSpec.spares, SqliteModel.unix.
  assert (now - t <= k)%Z; [|apply Z.div_le_mono; lia].
  eapply (Hw k now x t ev); [apply elem_of_app; right; by left| |exact Ha].
  rewrite app_assoc, E. apply elem_of_app. left. apply elem_of_app. right. by left.
Qed.

Section realise.
  Context (code : string -> hash) (Hcode : Inj (=) (=) code) (o : SqliteModel.opts) (now : Z).
  Definition at_now (ev : SqliteModel.event) : Prop :=
    (forall x t, SqliteSpec.accessed x t ev -> t = now) /\ (forall k n, ev = SqliteModel.EvDelete k n -> n = now /\ (0 < k)%Z).

  Lemma now_keeps l1 l2 : Forall at_now (l1 ++ l2) -> nothing_expires l1 l2.
  Proof.
    intros Hf. rewrite Forall_forall in Hf. apply within_keep. intros k n x t ev Hd Hin Ha.
    destruct (proj2 (Hf _ ltac:(apply elem_of_app; right; exact Hd)) k n eq_refl) as [-> Hk].
    rewrite (proj1 (Hf _ Hin) x t Ha). lia.
  Qed.

  Lemma realise tr : forall s t C', SqliteProofs.inv s -> Forall at_now (SqliteModel.s_log s) -> follows (fun _ => None) tr t (contents code s) C' ->
    (forall g h r, EvEff g (OpHas h) r ∈ tr -> exists x, h = code x) -> (forall g h r, EvEff g (OpAdd h) r ∈ tr -> exists x, h = code x) ->
    exists cs s' l, SqliteModel.run s cs = Some s' /\ SqliteModel.s_log s' = SqliteModel.s_log s ++ l /\ uses code (fun _ => False) tr l /\
      Forall at_now (SqliteModel.s_log s') /\ contents code s' = C'.
  Proof.
    assert (Hrun : forall s cs s1 cs' s', SqliteModel.run s cs = Some s1 -> SqliteModel.run s1 cs' = Some s' -> SqliteModel.run s (cs ++ cs') = Some s').
    { intros s cs. revert s. induction cs as [|c cs IH]; intros s s1 cs' s' E E'; simpl in *; [by injection E as ->|].
      destruct (SqliteModel.step s c); simpl in *; [|done]. by eapply IH. }
    induction tr as [|ev tr IH]; intros s t C' I Hat Hf Hc1 Hc2.
    { exists [], s, []. split; [done|]. split; [by rewrite app_nil_r|]. split; [constructor|]. by split. }
    assert (Hc1' : forall g h r, EvEff g (OpHas h) r ∈ tr -> exists x, h = code x) by (intros g h r Hin; apply (Hc1 g h r); by right).
    assert (Hc2' : forall g h r, EvEff g (OpAdd h) r ∈ tr -> exists x, h = code x) by (intros g h r Hin; apply (Hc2 g h r); by right).
    assert (Hskip : (forall g lb r, ev = EvEff g lb r -> ~ is_db lb) -> (exists t', follows (fun _ => None) tr t' (contents code s) C') ->
      exists cs s' l, SqliteModel.run s cs = Some s' /\ SqliteModel.s_log s' = SqliteModel.s_log s ++ l /\ uses code (fun _ => False) (ev :: tr) l /\
      Forall at_now (SqliteModel.s_log s') /\ contents code s' = C').
    { intros Hno [t' Hf']. destruct (IH s t' C' I Hat Hf' Hc1' Hc2') as (cs & s' & l & H1 & H2 & H3 & H4 & H5). exists cs, s', l. split_and!; try done. by constructor. }
    destruct ev as [| | | | |g lb r| | |]; try (apply Hskip; [done|by exists t]).
    destruct lb as [b h|h|h|h n|n]; try (apply Hskip; [by intros ? ? ? [= _ <- _] []|simpl in Hf; eauto]).
    - destruct (Hc1 g h r) as [x ->]; [by left|]. simpl in Hf. destruct Hf as (Hr0 & Hr1 & Hf).
      destruct (has_log o now x s) as (cs1 & s1 & u & E1 & L1 & Hu).
      pose proof (run_path code Hcode True cs1 s s1 _ I E1 L1) as Hp. feed specialize Hp.
      { intros _ m1 k n m2 E. exfalso. destruct m1 as [|? [|]]; done. }
      inversion Hp as [|? ? ? ? ? ? Hb Hp'| |]; subst. inversion Hp'; subst.
      assert (Ec : contents code s1 = contents code s) by congruence.
      destruct (IH s1 (S t) C') as (cs2 & s2 & l2 & E2 & L2 & U2 & A2 & C2); [by eapply SqliteProofs.run_inv| |by rewrite Ec|done..|].
      { rewrite L1. apply Forall_app. split; [done|]. constructor; [|done]. split; [|done]. intros y t' [Ha|Ha]; [done|]. injection Ha as _ Ha _. by apply Hu. }
      exists (cs1 ++ cs2), s2. eexists. split; [by eapply Hrun|]. split; [by rewrite L2, L1, <-app_assoc|].
      split; [|by split]. simpl. apply u_has; [| |done].
      + intros Ht ->. apply (Hr0 eq_refl). by apply Hb.
      + intros Ht ->. pose proof (proj2 Hb (Hr1 eq_refl)). congruence.
    - destruct (Hc2 g h r) as [x ->]; [by left|]. simpl in Hf.
      destruct (decide (r = 0)) as [-> | Hr].
      + destruct (add_log o now x s) as (cs1 & s1 & E1 & L1).
        assert (A1 : Forall at_now (SqliteModel.s_log s1)).
        { rewrite L1. apply Forall_app. split; [done|]. constructor.
          - split; [|done]. intros y t' [Ha|Ha]; [|done]. by injection Ha as _ <-.
          - case_bool_decide as Hk; [|constructor]. constructor; [|done]. split; [by intros y t' [Ha|Ha]|]. intros k n [= <- <-]. done. }
        pose proof (run_path code Hcode True cs1 s s1 _ I E1 L1) as Hp. feed specialize Hp.
        { intros _. apply now_keeps. by rewrite <-L1. }
        assert (Ec : contents code s1 = {[code x]} ∪ contents code s).
        { inversion Hp as [| |? ? ? ? ? Hp'|]; subst. destruct (bool_decide (0 < SqliteModel.keep o)%Z).
          - inversion Hp' as [| | |? ? ? C1 ? ? H1 H2 Hp'']; subst. inversion Hp''; subst. apply (anti_symm (⊆)); [done|by apply H2].
          - by inversion Hp'; subst. }
        destruct (IH s1 (S t) C') as (cs2 & s2 & l2 & E2 & L2 & U2 & A2 & C2); [by eapply SqliteProofs.run_inv|done|by rewrite Ec|done..|].
        exists (cs1 ++ cs2), s2. eexists. split; [by eapply Hrun|]. split; [by rewrite L2, L1, <-app_assoc|].
        split; [|by split]. simpl. apply u_add. destruct (bool_decide (0 < SqliteModel.keep o)%Z); simpl; [by apply u_evict|done].
      + destruct (IH s (S t) C') as (cs2 & s2 & l2 & E2 & L2 & U2 & A2 & C2); [done|done| |done..|].
        { unfold play in Hf. simpl in Hf. by destruct r. }
        exists cs2, s2, l2. split_and!; try done. by apply u_add_failed.
  Qed.
End realise.

(** Sessions with a database that keeps just what is added. *)
Lemma session_follows hashf H p tr : forall σ,
  (forall t h r db, p_db p t (OpHas h) r db = db) -> (forall t h db, p_db p t (OpAdd h) 0 db = {[h]} ∪ db) ->
  (forall g h r, EvEff g (OpAdd h) r ∈ tr -> r = 0) ->
  (forall l1 g l r l2, tr = l1 ++ EvEff g l r :: l2 -> valid hashf H p l r (after p σ l1)) ->
  follows (fun _ => None) tr (e_time σ) (e_db σ) (e_db (after p σ tr)).
Proof.
  induction tr as [|ev tr IH]; intros σ Hhas Hadd Hok Hv; [done|].
  assert (IH' : follows (fun _ => None) tr (e_time (after_event p σ ev)) (e_db (after_event p σ ev)) (e_db (after p σ (ev :: tr)))).
  { apply IH; [done|done|intros g h r Hin; eapply Hok; by right|]. intros l1 g l r l2 ->. exact (Hv (ev :: l1) g l r l2 eq_refl). }
  destruct ev as [| | | | |g lb r| | |]; try exact IH'. destruct lb as [b o|h|h|o n|n]; try exact IH'.
  - pose proof (Hv [] g (OpHas h) r tr eq_refl) as [H1 H2]. generalize dependent (e_db (after p σ (EvEff g (OpHas h) r :: tr))). intros X IH'. simpl. simpl in IH'. split; [exact H1|]. split; [exact H2|].
    unfold play. simpl. by rewrite Hhas in IH'.
  - assert (r = 0) as -> by (eapply Hok; by left). generalize dependent (e_db (after p σ (EvEff g (OpAdd h) 0 :: tr))). intros X IH'. simpl. simpl in IH'. unfold play. simpl. by rewrite Hadd in IH'.
Qed.
Lemma with_db_same p : with_db p (p_db p) = p.
Proof. by destruct p. Qed.
Lemma after_same p σ1 σ2 tr : e_fs σ1 = e_fs σ2 -> e_time σ1 = e_time σ2 -> e_fs (after p σ1 tr) = e_fs (after p σ2 tr).
Proof. intros E1 E2. pose proof (proj1 (after_files p (p_db p) σ1 σ2 tr E1 E2)) as E. by rewrite with_db_same in E. Qed.

Lemma build_possible code hashf H right p owner σ tr (o : SqliteModel.opts) (now : Z) s : Inj (=) (=) code ->
  SqliteProofs.inv s -> Forall (at_now now) (SqliteModel.s_log s) -> e_db σ = contents code s ->
  (forall t h r db, p_db p t (OpHas h) r db = db) -> (forall t h db, p_db p t (OpAdd h) 0 db = {[h]} ∪ db) ->
  (forall g h r, EvEff g (OpAdd h) r ∈ tr -> r = 0) ->
  (forall g h r, EvEff g (OpHas h) r ∈ tr \/ EvEff g (OpAdd h) r ∈ tr -> exists x, h = code x) ->
  build hashf H right p owner σ tr ->
  exists s', sqlite_build code hashf H right (fun _ => False) p owner (e_fs σ) (e_time σ) s s' tr /\ Forall (at_now now) (SqliteModel.s_log s') /\
    contents code s' = e_db (after p σ tr) /\ exists l, SqliteModel.s_log s' = SqliteModel.s_log s ++ l /\ nothing_expires (SqliteModel.s_log s) l.
Proof.
  intros Hcode I Hat Ec Hhas Hadd Hok Hc B.
  pose proof (session_follows hashf H p tr σ Hhas Hadd Hok (proj2 (b_session _ _ _ _ _ _ _ B))) as Hf. rewrite Ec in Hf.
  destruct (realise code Hcode o now tr s _ _ I Hat Hf) as (cs & s' & l & Hr & Hl & Hu & Hat' & Ec').
  { intros g h r Hin. apply (Hc g h r). by left. } { intros g h r Hin. apply (Hc g h r). by right. }
  exists s'. split; [|split; [done|split; [done|]]].
  - destruct B as [Hwf Hsep Hdb Hpos Hs Hor Hset Hwk]. split; try assumption.
    + apply Hs.
    + intros l1 g b x r l2 E f Hf' Ef. destruct (proj2 Hs l1 g _ r l2 E f Hf' Ef) as [fuel Hx]. exists fuel.
      rewrite <-(after_same p σ _ l1); [exact Hx|done|done].
    + by exists cs, l.
    + intros f l1 g a cx l2 l3 Hff E Hun. rewrite <-(after_same p σ); [|done|done]. eapply (Hwk f l1 g a cx l2 l3 Hff E).
      intros m1 g' lb r m2 Em Hn. specialize (Hun m1 g' lb r m2 Em Hn). rewrite !(fun tr => after_same p {| e_fs := e_fs σ; e_db := nohash; e_time := e_time σ |} σ tr eq_refl eq_refl) in Hun. exact Hun.
  - exists l. split; [done|]. apply (now_keeps now). by rewrite <-Hl.
Qed.

(** C59 and C60. *)
Lemma sqlite_repeat code hashf H right p1 p2 o1 o2 fs t s s1 s2 l tr1 tr2 f :
  Inj (=) (=) code -> SqliteModel.reachable s -> same_rules p1 p2 ->
  sqlite_build code hashf H right (fun _ => False) p1 o1 fs t s s1 tr1 ->
  sqlite_build code hashf H right (fun _ => False) p2 o2 (files_after p1 fs t tr1) (e_time (after p1 {| e_fs := fs; e_db := ∅; e_time := t |} tr1)) s1 s2 tr2 ->
  SqliteModel.s_log s2 = SqliteModel.s_log s ++ l -> nothing_expires (SqliteModel.s_log s) l ->
  with_database p1 tr1 -> with_database p2 tr2 -> not_forced p2 tr2 ->
  f ∈ p_rules p1 -> built f tr1 -> (forall q, needed p1 f q -> finished q tr1) ->
  (forall g n r, EvEff g (OpCmd (f_id f) n) r ∉ tr2) /\
  (forall c g a cx cx', EvStart g a (f_id f) cx ∈ tr2 -> EvCall c (Some g) cx' [TPtr (p_sub p2 f)] ∉ tr2) /\
  unchanged (files_after p1 fs t tr1) (files_after p2 (files_after p1 fs t tr1) (e_time (after p1 {| e_fs := fs; e_db := ∅; e_time := t |} tr1)) tr2) (f_in f ++ f_out f).
Proof.
  intros Hc Hr Hsame B1 B2 Hl Hne D1 D2 N2 Hf Hb Hfin.
  pose proof (SqliteProofs.reachable_inv s Hr) as I. set (T := e_time (after p1 _ tr1)) in *. set (fs1 := files_after p1 fs t tr1) in *.
  destruct (sqlite_session code Hc hashf H right _ p1 o1 fs t s s1 tr1 I B1) as ((cs1 & R1) & db1 & d1 & l1 & H1 & L1 & S1 & E1 & BB1 & K1).
  assert (I1 : SqliteProofs.inv s1) by (by eapply SqliteProofs.run_inv).
  destruct (sqlite_session code Hc hashf H right _ p2 o2 fs1 T s1 s2 tr2 I1 B2) as (_ & db2 & d2 & l2 & H2 & L2 & S2 & E2 & BB2 & K2).
  assert (El : l = l1 ++ l2). { rewrite L2, L1, <-app_assoc in Hl. by apply app_inv_head in Hl. } subst l.
  destruct K1 as [_ K1]. { intros m1 k now m2 -> x u Hx. eapply (Hne m1 k now (m2 ++ l2)); [by rewrite <-app_assoc|exact Hx]. }
  destruct K2 as [Hsub K2]. { intros m1 k now m2 -> x u Hx. rewrite L1, <-app_assoc in Hx. eapply (Hne (l1 ++ m1) k now m2); [by rewrite <-app_assoc|exact Hx]. }
  assert (Edb : db2 = contents code s1).
  { apply (anti_symm (⊆)); [|exact Hsub]. intros x Hx. by apply H2 in Hx as [Hx|[]]. }
  specialize (BB1 ltac:(by intros x [])). specialize (BB2 ltac:(by intros x [])).
  assert (Es : after (with_db p1 d1) {| e_fs := fs; e_db := db1; e_time := t |} tr1 = {| e_fs := fs1; e_db := db2; e_time := T |}).
  { destruct (after_files p1 d1 {| e_fs := fs; e_db := db1; e_time := t |} {| e_fs := fs; e_db := nohash; e_time := t |} tr1 eq_refl eq_refl) as [Ef Et].
    rewrite <-Edb in E1. destruct (after (with_db p1 d1) _ tr1) as [efs edb et]. simpl in *. subst. reflexivity. }
  rewrite <-Es in S2.
  destruct B1 as [Wf1 Sep1 Pos1 _ _ _ Or1 Set1 _]. destruct B2 as [Wf2 Sep2 _ _ _ _ Or2 _ _].
  destruct (repeat_lem hashf H (with_db p1 d1) o1 (with_db p2 d2) o2 {| e_fs := fs; e_db := db1; e_time := t |} tr1 tr2 f) as (Q1 & Q2 & Q3);
    [by apply wf_with_db|by apply sep_with_db|exact K1|by apply wf_with_db|by apply sep_with_db|exact K2| |exact Pos1|exact S1|exact S2|
     by apply orderly_with_db|exact Set1|by apply orderly_with_db|exact D1|exact D2|exact N2|exact Hf|exact Hb|exact Hfin|].
  { destruct Hsame. by split. }
  split; [exact Q1|]. split; [exact Q2|]. rewrite Es in Q3. cbn [e_fs] in Q3.
  rewrite (proj1 (after_files p2 d2 {| e_fs := fs1; e_db := db2; e_time := T |} {| e_fs := fs1; e_db := nohash; e_time := T |} tr2 eq_refl eq_refl)) in Q3.
  exact Q3.
Qed.

Lemma sqlite_clean code hashf H right p1 p2 o1 o2 fs1 fs2 t1 t2 s1 s1' s2 s2' tr1 tr2 f i :
  Inj (=) (=) code -> Inj (=) (=) hashf -> (forall c, hashf c <> "") -> Inj (=) (=) H -> hash_covers right ->
  sqlite_history code hashf H right fs1 s1 -> sqlite_history code hashf H right fs2 s2 ->
  sqlite_build code hashf H right (right_hash hashf H right) p1 o1 fs1 t1 s1 s1' tr1 ->
  sqlite_build code hashf H right (right_hash hashf H right) p2 o2 fs2 t2 s2 s2' tr2 ->
  same_rules p1 p2 -> sources_kept p1 -> sources_kept p2 -> determined right p1 ->
  (forall i, source p1 i -> same_files fs1 [i] fs2 [i]) ->
  f ∈ p_rules p1 -> built f tr1 -> built f tr2 -> i ∈ f_in f \/ i ∈ f_out f ->
  same_files (files_after p1 fs1 t1 tr1) [i] (files_after p2 fs2 t2 tr2) [i].
Proof.
  intros Hc Hh Hne HH Hcov N1 N2 B1 B2 Hsame Hk1 Hk2 Hdet Hsrc Hf Hb1 Hb2 Hi.
  assert (Hx : forall fs s p o t s' tr, sqlite_history code hashf H right fs s -> sqlite_build code hashf H right (right_hash hashf H right) p o fs t s s' tr ->
    exists db d, honest hashf H right db /\ build hashf H right (with_db p d) o {| e_fs := fs; e_db := db; e_time := t |} tr).
  { intros fs s p o t s' tr N B. destruct (history_from_nothing code Hc hashf H right fs s N) as [Hr Hn].
    destruct (sqlite_session code Hc hashf H right _ p o fs t s s' tr (SqliteProofs.reachable_inv s Hr) B) as (_ & db & d & l & H0 & _ & _ & _ & HB & _).
    exists db, d. split; [|exact (HB (fun _ x => x))].
    intros h fuel fs' r Hin Hcc. apply H0 in Hin as [Hin|Hin]; [|by eapply Hin].
    eapply (honest_always hashf H right _ Hh Hne HH Hcov (Hn 0)); [exact Hin|exact Hcc]. }
  destruct (Hx _ _ _ _ _ _ _ N1 B1) as (db1 & d1 & Ho1 & C1). destruct (Hx _ _ _ _ _ _ _ N2 B2) as (db2 & d2 & Ho2 & C2).
  pose proof (same_result_lem hashf H Hh Hne HH right Hcov (with_db p1 d1) (with_db p2 d2) o1 o2 {| e_fs := fs1; e_db := db1; e_time := t1 |} {| e_fs := fs2; e_db := db2; e_time := t2 |}) as Q.
  assert (Hsame' : same_rules (with_db p1 d1) (with_db p2 d2)) by (destruct Hsame; by split).
  specialize (Q Hsame' tr1 tr2 C1 C2 Ho1 Ho2 Hk1 Hk2 Hdet Hsrc f Hf Hb1 Hb2 i).
  assert (Hi' : i ∈ f_in f \/ makes (with_db p1 d1) f i) by (destruct Hi as [Hi|Hi]; [by left|right; split; [exact Hf|by left]]).
  specialize (Q Hi'). unfold files_after.
  rewrite (proj1 (after_files p1 d1 {| e_fs := fs1; e_db := db1; e_time := t1 |} {| e_fs := fs1; e_db := nohash; e_time := t1 |} tr1 eq_refl eq_refl)) in Q.
  rewrite (proj1 (after_files p2 d2 {| e_fs := fs2; e_db := db2; e_time := t2 |} {| e_fs := fs2; e_db := nohash; e_time := t2 |} tr2 eq_refl eq_refl)) in Q.
  exact Q.
Qed.
