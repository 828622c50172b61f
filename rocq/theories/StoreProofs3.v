From stdpp Require Import base gmap list strings relations.
From Verif Require SqliteModel SqliteSpec SqliteProofs.
From Verif Require Import TopDirModel DriverModel RegistryModel.
From Verif Require Import PathModel FindModel FileHashModel FileHashSpec FilesModel FilesSpec.
From Verif Require Import ContextModel RunnerModel RunnerSpec RunnerSpec2 ChainModel YamlModel YamlSpec.
From Verif Require Import MainModel MainSpec ProjModel ProjSpec EndSpec BuildModel BuildSpec MakeModel MakeSpec StoreSpec StoreSpec2.
From Verif Require Import BuildProofs2 BuildProofs3 StoreProofs StoreProofs2.
Local Open Scope list_scope.

Definition with_udb (U : workings) (d : nat -> label -> nat -> gset hash -> gset hash) : workings :=
  {| u_desc := u_desc U; u_cmd := u_cmd U; u_other := u_other U; u_db := d; u_possible := u_possible U |}.

Section store.
  Context (code : string -> hash) (Hcode : Inj (=) (=) code) (hashf : string -> string) (H : json -> hash) (right : FilesModel.rule -> files_state -> Prop).
  Notation start fs db t := {| e_fs := fs; e_db := db; e_time := t |}.
  Notation p_of U addr objs' leafp := (yaml_build U addr objs' leafp).

  Lemma sqlite_run_is_run others M fuel argv m top T wd a st r lf objs' addr leafp U fs t s l s' tr :
    SqliteProofs.inv s -> sqlite_fab_run code hashf H right others M fuel argv m top T wd a st r lf objs' addr leafp U fs t s l s' tr ->
    (forall x, others x -> right_hash hashf H right x) ->
    exists db0 d, (forall x, x ∈ db0 -> x ∈ contents code s \/ others x) /\
      MakeSpec.fab_run hashf H right M fuel argv m top T wd a st r lf objs' addr leafp (with_udb U d) (start fs db0 t) tr /\
      e_db (after (yaml_build (with_udb U d) addr objs' leafp) (start fs db0 t) tr) = contents code s' /\
      e_fs (after (yaml_build (with_udb U d) addr objs' leafp) (start fs db0 t) tr) = files_after (yaml_build U addr objs' leafp) fs t tr /\
      e_time (after (yaml_build (with_udb U d) addr objs' leafp) (start fs db0 t) tr) = e_time (after (yaml_build U addr objs' leafp) (start fs nohash t) tr) /\
      (nothing_expires (SqliteModel.s_log s) l -> contents code s ⊆ db0 /\ database_keeps (yaml_build (with_udb U d) addr objs' leafp)).
  Proof.
    intros I [Hy Hf Hr Huw Hd Hpl Hcb Hsep Hp (cs & Hrun) Hlog Hu Hha Hwk Hag] Ho.
    destruct (is_a_database code Hcode others (yaml_build U addr objs' leafp) (start fs nohash t) tr s cs s' l I Hrun Hlog Hu) as (db0 & d & H0 & Hv & Ha & Hho & Hso & HK).
    cbv zeta in *. cbn [e_fs e_time] in *. exists db0, d. split; [exact H0|].
    pose proof (fun tr => after_files (yaml_build U addr objs' leafp) d (start fs db0 t) (start fs nohash t) tr eq_refl eq_refl) as Haf.
    change (with_db (yaml_build U addr objs' leafp) d) with (yaml_build (with_udb U d) addr objs' leafp) in *.
    split; [|split; [exact Ha|split; [exact (proj1 (Haf tr))|split; [exact (proj2 (Haf tr))|exact HK]]]].
    split; try assumption.
    - exact (sep_with_db _ d Hsep).
    - exact (Hho hashf H right Ho).
    - intros l1 g lb y l2 E. destruct lb as [b o|h|h|o n|n]; try exact Logic.I; [|exact (Hv l1 g h y l2 E)].
      pose proof (Hha l1 g b o y l2 E) as Hx. intros f Hff Ef. destruct (Hx f Hff Ef) as [fu Hx']. exists fu.
      rewrite (proj1 (Haf l1)). exact Hx'.
    - exact (work_with_db right (yaml_build U addr objs' leafp) d (start fs db0 t) (start fs nohash t) tr eq_refl eq_refl Hwk).
    - destruct Hag as [Hag|(H1 & H2 & H3 & H4 & H5)]; [by left|]. right. split; [exact H1|]. split; [exact (Hso H2)|]. split; [exact (proj2 (HK H3))|].
      split; [exact H4|exact H5].
  Qed.

  Lemma sqlite_fab_history_is fs s : sqlite_fab_history code hashf H right fs s ->
    SqliteModel.reachable s /\ forall t, fab_history hashf H right (start fs (contents code s) t).
  Proof.
    assert (Hrun : forall s cs s', SqliteModel.reachable s -> SqliteModel.run s cs = Some s' -> SqliteModel.reachable s').
    { intros s1 cs s2 [cs0 E0] E. exists (cs0 ++ cs). revert E0. generalize SqliteModel.init. induction cs0 as [|c cs0 IH]; intros s0 E0; simpl in *.
      - by injection E0 as ->.
      - destruct (SqliteModel.step s0 c) as [s3|]; simpl in *; [|done]. by apply IH. }
    assert (Hh : forall x, right_hash hashf H right x -> honest hashf H right {[x]}).
    { intros x Hx h fuel fs' r Hin Hc. apply elem_of_singleton in Hin as ->. by eapply Hx. }
    induction 1 as [fs|fs fs' s _ [IH1 IH2]|fs s cs s' l _ [IH1 IH2] Hr Hl Ha|others M fuel argv m top T wd a st r lf objs' addr leafp U fs t s l s' tr _ [IH1 IH2] Ho R].
    - split; [by exists []|]. intros t. change (contents code SqliteModel.init) with (∅ : gset hash). constructor.
    - split; [done|]. intros t. apply (fh_edit _ _ _ _ fs' _ t (IH2 0)). by left.
    - split; [by eapply Hrun|]. intros t. apply (fh_edit _ _ _ _ fs _ t (IH2 0)). simpl. intros x Hx.
      pose proof (run_path code Hcode False cs s s' l (SqliteProofs.reachable_inv s IH1) Hr Hl (False_ind _)) as Hp.
      destruct (path_adds _ _ _ _ _ x Hp Hx) as [Hx'|(y & now & -> & Hin)]; [by left|]. right. apply Hh. by eapply Ha.
    - destruct (sqlite_run_is_run _ _ _ _ _ _ _ _ _ _ _ _ _ _ _ _ _ _ _ _ _ _ (SqliteProofs.reachable_inv s IH1) R Ho) as (db0 & d & H0 & Hfr & He & Hfs & _ & _).
      destruct (sf_db _ _ _ _ _ _ _ _ _ _ _ _ _ _ _ _ _ _ _ _ _ _ _ _ _ _ R) as [cs Hcs].
      split; [by eapply Hrun|]. intros t'.
      assert (B0 : fab_history hashf H right (start fs db0 t)).
      { apply (fh_edit _ _ _ _ fs db0 t (IH2 0)). simpl. intros x Hx. apply H0 in Hx as [Hx|Hx]; auto. }
      pose proof (fh_run _ _ _ _ _ _ _ _ _ _ _ _ _ _ _ _ _ _ _ _ B0 Hfr) as B1.
      eapply (fh_edit _ _ _ _ _ _ t' B1). intros x Hx. left. by rewrite He.
  Qed.
End store.

(** Conversely. *)
Lemma run_possible code hashf H right M fuel argv m top T wd a st r lf objs' addr leafp U σ tr (o : SqliteModel.opts) (now : Z) s :
  Inj (=) (=) code -> SqliteProofs.inv s -> Forall (at_now now) (SqliteModel.s_log s) -> e_db σ = contents code s ->
  (forall t h r db, u_db U t (OpHas h) r db = db) -> (forall t h db, u_db U t (OpAdd h) 0 db = {[h]} ∪ db) ->
  (forall g h r, EvEff g (OpAdd h) r ∈ tr -> r = 0) ->
  (forall g h r, EvEff g (OpHas h) r ∈ tr \/ EvEff g (OpAdd h) r ∈ tr -> exists x, h = code x) ->
  MakeSpec.fab_run hashf H right M fuel argv m top T wd a st r lf objs' addr leafp U σ tr ->
  exists s' l, sqlite_fab_run code hashf H right (fun _ => False) M fuel argv m top T wd a st r lf objs' addr leafp U (e_fs σ) (e_time σ) s l s' tr /\
    Forall (at_now now) (SqliteModel.s_log s') /\ contents code s' = e_db (after (yaml_build U addr objs' leafp) σ tr) /\
    nothing_expires (SqliteModel.s_log s) l.
Proof.
  intros Hcode I Hat Ec Hhas Hadd Hok Hc [Hy Hf Hr Huw Hd Hpl Hcb Hsep Hdb Hp Han Hwk Hag].
  pose proof (session_follows hashf H (yaml_build U addr objs' leafp) tr σ Hhas Hadd Hok Han) as Hfo. rewrite Ec in Hfo.
  destruct (realise code Hcode o now tr s _ _ I Hat Hfo) as (cs & s' & l & Hrun & Hl & Hu & Hat' & Ec').
  { intros g h y Hin. apply (Hc g h y). by left. } { intros g h y Hin. apply (Hc g h y). by right. }
  assert (Hne : nothing_expires (SqliteModel.s_log s) l) by (apply (now_keeps now); by rewrite <-Hl).
  exists s', l. split; [|done]. split; try assumption.
  - by exists cs.
  - intros l1 g b x y l2 E f Hf' Ef. destruct (Han l1 g _ y l2 E f Hf' Ef) as [fu Hx]. exists fu.
    rewrite <-(after_same (yaml_build U addr objs' leafp) σ _ l1); [exact Hx|done|done].
  - intros f l1 g b cx l2 l3 Hff E Hun. rewrite <-(after_same (yaml_build U addr objs' leafp) σ); [|done|done]. eapply (Hwk f l1 g b cx l2 l3 Hff E).
    intros m1 g' lb y m2 Em Hn. specialize (Hun m1 g' lb y m2 Em Hn).
    rewrite !(fun tr => after_same (yaml_build U addr objs' leafp) {| e_fs := e_fs σ; e_db := nohash; e_time := e_time σ |} σ tr eq_refl eq_refl) in Hun. exact Hun.
  - destruct Hag as [Hag|(H1 & _ & _ & H4 & H5)]; [by left|]. right. split; [exact H1|]. split; [by intros x []|]. by split.
Qed.
