From stdpp Require Import base gmap list sorting strings.
From Verif Require Import FileHashModel FileHashSpec FileHashProofs FilesModel FilesSpec FilesProofs FilesProofs2.
Local Open Scope list_scope.

Lemma files_after_snoc fs0 l ev : files_after fs0 (l ++ [ev]) =
  match ev with LEdit fs => fs | _ => files_after fs0 l end.
Proof. revert fs0. induction l as [|e l IH]; intros fs0; [by destruct ev|]. cbn [app]. destruct e; cbn [files_after]; by rewrite IH. Qed.

Lemma recorded_snoc l ev h : recorded (l ++ [ev]) h <->
  (exists j ok, ev = LAdd j h true ok) \/ (recorded l h /\ ev <> LEvict h).
Proof.
  split.
  - intros (l1 & j & ok & l2 & He & Hn). destruct l2 as [|e l2 _] using rev_ind.
    + apply app_inj_tail in He as [-> ->]. left. eauto.
    + rewrite app_comm_cons, app_assoc in He. apply app_inj_tail in He as [-> ->]. right.
      rewrite elem_of_app in Hn. split.
      * exists l1, j, ok, l2. naive_solver.
      * intros ->. apply Hn. right. by left.
  - intros [(j & ok & ->)|[(l1 & j & ok & l2 & -> & Hn) Hne]].
    + exists l, j, ok, []. split; [done|]. by apply not_elem_of_nil.
    + exists l1, j, ok, (l2 ++ [ev]). split; [by rewrite <-app_assoc|].
      rewrite elem_of_app, elem_of_list_singleton. naive_solver.
Qed.

Section inv.
  Context (hashf : string -> string) (H : json -> hash) (R : string -> option tgt).
  Notation step := (step hashf H R).
  Notation exec := (exec hashf H R).
  Notation computeHash := (computeHash hashf H).
  Notation ran := (ran R).

  Definition ran_rule (r0 r : rule) : Prop :=
    ran (r_tgt r0) = Some (r_tgt r) /\ r_in r = r_in r0 /\ r_out r = r_out r0.
  Definition rule_ok (r0 : rule) (evs : list event) (r : rule) : Prop :=
    (sub_ok evs /\ ran_rule r0 r) \/ (~ sub_ok evs /\ r = r0).

  Definition run_ok (l : list event) (i : nat) (r0 : rule) (n : run) : Prop :=
    replay (Idle (files_run (n_flags n))) (filter (of_run i) l) (n_st n) /\
    rule_ok r0 (filter (of_run i) l) (n_rule n).

  Record Inv (fs0 : files_state) (s : state) : Prop := {
    inv_fs : st_fs s = files_after fs0 (st_log s);
    inv_start i r0 fl : LStart i r0 fl ∈ st_log s ->
      exists n, st_runs s !! i = Some n /\ n_flags n = fl /\ run_ok (st_log s) i r0 n;
    inv_run i n : st_runs s !! i = Some n -> exists r0, LStart i r0 (n_flags n) ∈ st_log s;
    inv_none i : length (st_runs s) <= i -> filter (of_run i) (st_log s) = [];
    inv_db h : h ∈ st_db s <-> recorded (st_log s) h;
  }.

  Lemma exec_app s c1 c2 : exec s (c1 ++ c2) = s' ← exec s c1; exec s' c2.
  Proof. revert s. induction c1 as [|c c1 IH]; intros s; [done|]. simpl. destruct (step s c); [|done]. simpl. apply IH. Qed.

  (** What one step of a run does. *)
  Inductive gostep (s : state) (i : nat) (n : run) : event -> run -> gset hash -> Prop :=
    | gs_simple ev st : estep (n_st n) ev st -> of_run i ev = true ->
        match ev with LHash _ m fs r res => fs = st_fs s /\ r = n_rule n /\ (exists fuel, computeHash fuel fs r = res)
                    | LHas _ h (Some b) => b = true <-> h ∈ st_db s
                    | LSubEnd _ None | LAdd _ _ true _ => False | _ => True end ->
        gostep s i n ev (with_st n st) (st_db s)
    | gs_sub st t : estep (n_st n) (LSubEnd i None) st -> ran (r_tgt (n_rule n)) = Some t ->
        gostep s i n (LSubEnd i None) (with_st (with_tgt n t) st) (st_db s)
    | gs_add st h ok : estep (n_st n) (LAdd i h true ok) st ->
        gostep s i n (LAdd i h true ok) (with_st n st) ({[h]} ∪ st_db s).
  Lemma go_inv i fuel e ok ap s s' : go hashf H R i fuel e ok ap s = Some s' ->
    exists n ev n' d, st_runs s !! i = Some n /\ gostep s i n ev n' d /\
      s' = {| st_fs := st_fs s; st_db := d; st_runs := <[i := n']> (st_runs s); st_log := st_log s ++ [ev] |}.
  Proof.
    unfold go. destruct (st_runs s !! i) as [n|] eqn:En; [|done]. cbn [mbind option_bind].
    destruct (n_st n) as [[r|k|m k|h k|k|h k]|k|] eqn:Es; intros Hg.
    - injection Hg as <-. exists n. do 3 eexists. split; [done|]. split; [|unfold set_run, log, set_db; cbn [st_fs st_db st_runs st_log]; reflexivity]. apply gs_simple; [rewrite Es; constructor|simpl; by rewrite bool_decide_true|done].
    - injection Hg as <-. exists n. do 3 eexists. split; [done|]. split; [|unfold set_run, log, set_db; cbn [st_fs st_db st_runs st_log]; reflexivity]. apply gs_simple; [rewrite Es; constructor|simpl; by rewrite bool_decide_true|done].
    - destruct (computeHash fuel (st_fs s) (n_rule n)) eqn:Ec; [| | |done].
      all: injection Hg as <-; exists n; do 3 eexists; (split; [done|]); (split; [|unfold set_run, log, set_db; cbn [st_fs st_db st_runs st_log]; reflexivity]);
        (apply gs_simple; [rewrite Es; by constructor|simpl; by rewrite bool_decide_true|eauto]).
    - injection Hg as <-. exists n. do 3 eexists. split; [done|]. split; [|unfold set_run, log, set_db; cbn [st_fs st_db st_runs st_log]; reflexivity].
      apply gs_simple; [rewrite Es; constructor|simpl; by rewrite bool_decide_true|]. destruct ok; [|done]. by rewrite bool_decide_eq_true.
    - injection Hg as <-. exists n. do 3 eexists. split; [done|]. split; [|unfold set_run, log, set_db; cbn [st_fs st_db st_runs st_log]; reflexivity]. apply gs_simple; [rewrite Es; constructor|simpl; by rewrite bool_decide_true|done].
    - exists n. destruct (ok || ap) eqn:Eo.
      + injection Hg as <-. do 3 eexists. split; [done|]. split; [|unfold set_run, log, set_db; cbn [st_fs st_db st_runs st_log]; reflexivity]. apply gs_add. rewrite Es. by constructor.
      + injection Hg as <-. do 3 eexists. split; [done|]. split; [|unfold set_run, log, set_db; cbn [st_fs st_db st_runs st_log]; reflexivity].
        apply gs_simple; [rewrite Es; constructor; destruct ok; done|simpl; by rewrite bool_decide_true|done].
    - destruct e as [e|].
      + injection Hg as <-. exists n. do 3 eexists. split; [done|]. split; [|unfold set_run, log, set_db; cbn [st_fs st_db st_runs st_log]; reflexivity]. apply gs_simple; [rewrite Es; constructor|simpl; by rewrite bool_decide_true|done].
      + destruct (ran (r_tgt (n_rule n))) as [t|] eqn:Et; [|done]. injection Hg as <-. exists n. do 3 eexists. split; [done|]. split; [|unfold set_run, log, set_db; cbn [st_fs st_db st_runs st_log]; reflexivity].
        apply gs_sub; [rewrite Es; constructor|done].
    - done.
  Qed.
  Lemma gostep_of s i n ev n' d : gostep s i n ev n' d -> of_run i ev = true.
  Proof. destruct 1; [done|..]; simpl; by rewrite bool_decide_true. Qed.
  Lemma gostep_estep s i n ev n' d : gostep s i n ev n' d -> estep (n_st n) ev (n_st n') /\ n_flags n' = n_flags n.
  Proof. destruct 1; done. Qed.

  Lemma filter_snoc_in i l ev : of_run i ev = true -> filter (of_run i) (l ++ [ev]) = filter (of_run i) l ++ [ev].
  Proof. intros Ho. rewrite filter_app. cbn [filter list_filter]. rewrite decide_True; [done|]. rewrite Ho. exact I. Qed.
  Lemma filter_snoc_out i l ev : of_run i ev = false -> filter (of_run i) (l ++ [ev]) = filter (of_run i) l.
  Proof. intros Ho. rewrite filter_app. cbn [filter list_filter]. rewrite decide_False; [by rewrite app_nil_r|]. rewrite Ho. by intros []. Qed.
  Lemma of_run_other i j ev : of_run i ev = true -> i <> j -> of_run j ev = false.
  Proof. destruct ev; simpl; try done; rewrite bool_decide_eq_true; intros <- ?; by rewrite bool_decide_false. Qed.

  Lemma run_ok_out l i r0 n ev : of_run i ev = false -> run_ok l i r0 n -> run_ok (l ++ [ev]) i r0 n.
  Proof. unfold run_ok. intros Ho. by rewrite filter_snoc_out. Qed.

  Lemma gostep_rule s i n ev n' d evs r0 : gostep s i n ev n' d ->
    replay (Idle (files_run (n_flags n))) evs (n_st n) -> rule_ok r0 evs (n_rule n) -> rule_ok r0 (evs ++ [ev]) (n_rule n').
  Proof.
    intros Hg Hr Hk. destruct Hg as [ev st He Ho Hm|st t He Ht|st h ok He].
    - assert (Hns : forall j, ev <> LSubEnd j None) by (intros j ->; done).
      destruct Hk as [[Hs Hk]|[Hs Hk]]; [left|right]; (split; [|exact Hk]); rewrite sub_ok_app, sub_ok_cons; [by left|].
      intros [?|[[j ->]|?]]; [done|by apply (Hns j)|by apply sub_ok_nil].
    - assert (Hn : ~ sub_ok evs) by (eapply place_sub; [eapply replay_snoc; [exact Hr|exact He]|reflexivity]).
      destruct Hk as [[? _]|[_ Hk]]; [done|]. left. split; [rewrite sub_ok_app, sub_ok_cons; eauto|].
      rewrite Hk in Ht. split; [done|]. simpl. by rewrite Hk.
    - destruct Hk as [[Hs Hk]|[Hs Hk]]; [left|right]; (split; [|exact Hk]); rewrite sub_ok_app, sub_ok_cons; [by left|].
      intros [?|[[j ?]|?]]; [done|done|by apply sub_ok_nil].
  Qed.

  Lemma inv_init fs0 : Inv fs0 (init fs0).
  Proof.
    split; simpl.
    - done.
    - intros i r0 fl Hi. by apply elem_of_nil in Hi.
    - done.
    - done.
    - intros h. split; [by intros Hh%not_elem_of_empty|]. intros (l1 & j & ok & l2 & He & _). by apply app_cons_not_nil in He.
  Qed.
  Lemma inv_step fs0 s ch s' : Inv fs0 s -> step s ch = Some s' -> Inv fs0 s'.
  Proof.
    intros HI Hs. destruct ch as [r fl|i fuel e ok ap|fs|h]; cbn [FilesModel.step] in Hs.
    - injection Hs as <-. destruct HI as [Hfs Hst Hru Hno Hdb]. split; cbn [st_fs st_log st_runs st_db log].
      + by rewrite files_after_snoc.
      + intros i r0 fl'. rewrite elem_of_app, elem_of_list_singleton. intros [Hi|Hi].
        * destruct (Hst i r0 fl' Hi) as (n & Hn & Hf & Hk). exists n. split; [by apply lookup_app_l_Some|]. split; [done|].
          by apply run_ok_out.
        * injection Hi as -> -> ->. eexists. split; [by apply list_lookup_middle|]. split; [done|].
          apply run_ok_out; [done|]. split; cbn [n_st n_flags n_rule]; rewrite Hno by lia; [constructor|].
          right. split; [apply sub_ok_nil|done].
      + intros i n [Hn|[Hl Hn]]%lookup_app_Some.
        * destruct (Hru i n Hn) as [r0 Hr0]. exists r0. rewrite elem_of_app. by left.
        * apply list_lookup_singleton_Some in Hn as [Hz <-]. exists r. rewrite elem_of_app, elem_of_list_singleton.
          right. cbn [n_flags]. f_equal. lia.
      + intros i. rewrite app_length. cbn [length]. intros Hi. rewrite filter_snoc_out by done. apply Hno. lia.
      + intros h. rewrite recorded_snoc, Hdb. naive_solver.
    - apply go_inv in Hs as (n & ev & n' & d & Hn & Hg & ->).
      pose proof (gostep_of _ _ _ _ _ _ Hg) as Ho. pose proof (gostep_estep _ _ _ _ _ _ Hg) as [He Hfl].
      destruct HI as [Hfs Hst Hru Hno Hdb]. split; cbn [st_fs st_log st_runs st_db].
      + rewrite files_after_snoc, Hfs. by destruct ev.
      + intros j r0 fl'. rewrite elem_of_app, elem_of_list_singleton. intros [Hi|<-]; [|done].
        destruct (Hst j r0 fl' Hi) as (m & Hm & Hf & Hk1 & Hk2). destruct (decide (i = j)) as [<-|Hij].
        * rewrite Hn in Hm. injection Hm as <-. exists n'. split; [apply list_lookup_insert; by eapply lookup_lt_Some|].
          split; [congruence|]. split; rewrite filter_snoc_in by done.
          -- rewrite Hfl. eapply replay_snoc; [exact Hk1|exact He].
          -- eapply gostep_rule; [exact Hg|exact Hk1|exact Hk2].
        * exists m. split; [by rewrite list_lookup_insert_ne|]. split; [done|]. apply run_ok_out; [|done]. by eapply of_run_other.
      + intros j m Hm. destruct (decide (i = j)) as [<-|Hij].
        * rewrite list_lookup_insert in Hm by (by eapply lookup_lt_Some). injection Hm as <-.
          destruct (Hru i n Hn) as [r0 Hr0]. exists r0. rewrite elem_of_app, Hfl. by left.
        * rewrite list_lookup_insert_ne in Hm by done. destruct (Hru j m Hm) as [r0 Hr0]. exists r0. rewrite elem_of_app. by left.
      + intros j. rewrite insert_length. intros Hj. rewrite filter_snoc_out; [by apply Hno|].
        eapply of_run_other; [done|]. intros <-. apply lookup_lt_Some in Hn. lia.
      + intros h. rewrite recorded_snoc, <-Hdb. destruct Hg as [ev st He' _ Hm|st t He' Ht|st h' ok' He'].
        * split; [|intros [(j & ok' & ->)|[? _]]; done]. intros Hh. right. split; [done|]. intros ->. done.
        * naive_solver.
        * rewrite elem_of_union, elem_of_singleton. naive_solver.
    - injection Hs as <-. destruct HI as [Hfs Hst Hru Hno Hdb]. split; cbn [st_fs st_log st_runs st_db log].
      + by rewrite files_after_snoc.
      + intros i r0 fl'. rewrite elem_of_app, elem_of_list_singleton. intros [Hi|?]; [|done].
        destruct (Hst i r0 fl' Hi) as (n & Hn & Hf & Hk). exists n. split; [done|]. split; [done|]. by apply run_ok_out.
      + intros i n Hn. destruct (Hru i n Hn) as [r0 Hr0]. exists r0. rewrite elem_of_app. by left.
      + intros i Hi. rewrite filter_snoc_out by done. by apply Hno.
      + intros h. rewrite recorded_snoc, Hdb. naive_solver.
    - injection Hs as <-. destruct HI as [Hfs Hst Hru Hno Hdb]. split; cbn [st_fs st_log st_runs st_db log set_db].
      + by rewrite files_after_snoc.
      + intros i r0 fl'. rewrite elem_of_app, elem_of_list_singleton. intros [Hi|?]; [|done].
        destruct (Hst i r0 fl' Hi) as (n & Hn & Hf & Hk). exists n. split; [done|]. split; [done|]. by apply run_ok_out.
      + intros i n Hn. destruct (Hru i n Hn) as [r0 Hr0]. exists r0. rewrite elem_of_app. by left.
      + intros i Hi. rewrite filter_snoc_out by done. by apply Hno.
      + intros h'. rewrite recorded_snoc, elem_of_difference, elem_of_singleton, Hdb. naive_solver.
  Qed.

  Definition reach (fs0 : files_state) (s : state) : Prop := exists chs, exec (init fs0) chs = Some s.
  Lemma reach_inv fs0 s : reach fs0 s -> Inv fs0 s.
  Proof.
    intros [chs Hc]. revert s Hc. induction chs as [|ch chs IH] using rev_ind; intros s Hc.
    - injection Hc as <-. apply inv_init.
    - rewrite exec_app in Hc. destruct (exec (init fs0) chs) as [s1|]; [|done]. simpl in Hc.
      destruct (step s1 ch) as [s2|] eqn:E; [|done]. injection Hc as <-. eapply inv_step; [by apply IH|done].
  Qed.
  Lemma step_log s ch s' : step s ch = Some s' -> exists ev, st_log s' = st_log s ++ [ev].
  Proof.
    destruct ch as [r fl|i fuel e ok ap|fs|h]; cbn [FilesModel.step]; [intros [= <-]; eauto| |intros [= <-]; simpl; eauto|intros [= <-]; simpl; eauto].
    intros (n & ev & n' & d & _ & _ & ->)%go_inv. simpl. eauto.
  Qed.
  Lemma prefix_reach fs0 s a ev b : reach fs0 s -> st_log s = a ++ ev :: b ->
    exists s1 ch s2, reach fs0 s1 /\ st_log s1 = a /\ step s1 ch = Some s2 /\ st_log s2 = a ++ [ev].
  Proof.
    intros [chs Hc]. revert s b Hc. induction chs as [|ch chs IH] using rev_ind; intros s b Hc Hl.
    - injection Hc as <-. by apply app_cons_not_nil in Hl.
    - rewrite exec_app in Hc. destruct (exec (init fs0) chs) as [s1|] eqn:E1; [|done]. simpl in Hc.
      destruct (step s1 ch) as [s2|] eqn:E; [|done]. injection Hc as ->.
      destruct (step_log _ _ _ E) as [ev' He]. destruct b as [|e b _] using rev_ind.
      + exists s1, ch, s. rewrite He in Hl. apply app_inj_tail in Hl as [Hl1 ->]. repeat split; [by exists chs|done|done|congruence].
      + rewrite He, app_comm_cons, app_assoc in Hl. apply app_inj_tail in Hl as [Hl1 ->]. by eapply IH.
  Qed.

  (** ** Facts about events at their place. *)
  Lemma ev_start fs0 s i r0 fl r0' fl' : reach fs0 s -> LStart i r0 fl ∈ st_log s -> LStart i r0' fl' ∈ st_log s -> r0 = r0' /\ fl = fl'.
  Proof.
    intros [chs Hc]. revert s Hc. induction chs as [|ch chs IH] using rev_ind; intros s Hc.
    - injection Hc as <-. by intros ?%elem_of_nil.
    - rewrite exec_app in Hc. destruct (exec (init fs0) chs) as [s1|] eqn:E1; [|done]. simpl in Hc.
      destruct (step s1 ch) as [s2|] eqn:E; [|done]. injection Hc as ->. specialize (IH s1 eq_refl).
      assert (HI : Inv fs0 s1) by (apply reach_inv; by exists chs).
      destruct ch as [r fl1|j fuel e ok ap|fs|h]; cbn [FilesModel.step] in E.
      + injection E as <-. cbn [st_log log]. rewrite !elem_of_app, !elem_of_list_singleton.
        assert (Hnew : forall r fl, LStart (length (st_runs s1)) r fl ∉ st_log s1).
        { intros r' fl2 Hin. apply (inv_start _ _ HI) in Hin as (n & Hn & _). apply lookup_lt_Some in Hn. lia. }
        intros [H1|H1] [H2|H2]; [by apply IH| | |].
        * injection H2 as -> -> ->. by apply Hnew in H1.
        * injection H1 as -> -> ->. by apply Hnew in H2.
        * by simplify_eq.
      + apply go_inv in E as (n & ev & n' & d & Hn & Hg & ->). cbn [st_log]. rewrite !elem_of_app, !elem_of_list_singleton.
        apply gostep_of in Hg. intros [H1|<-]; [|done]. intros [H2|<-]; [|done]. by apply IH.
      + injection E as <-. cbn [st_log log]. rewrite !elem_of_app, !elem_of_list_singleton. intros [H1|?]; [|done]. intros [H2|?]; [|done]. by apply IH.
      + injection E as <-. cbn [st_log log set_db]. rewrite !elem_of_app, !elem_of_list_singleton. intros [H1|?]; [|done]. intros [H2|?]; [|done]. by apply IH.
  Qed.
  (** An event of run [i]. *)
  Lemma ev_go fs0 s a i ev b : reach fs0 s -> st_log s = a ++ ev :: b -> of_run i ev = true ->
    exists s1 n n' d r0, reach fs0 s1 /\ st_log s1 = a /\ st_runs s1 !! i = Some n /\ gostep s1 i n ev n' d /\
      LStart i r0 (n_flags n) ∈ a /\ run_ok a i r0 n /\ replay (Idle (files_run (n_flags n))) (filter (of_run i) a ++ [ev]) (n_st n').
  Proof.
    intros Hr Hl Ho. destruct (prefix_reach fs0 s a ev b Hr Hl) as (s1 & ch & s2 & Hr1 & Hl1 & Hs & Hl2).
    destruct ch as [r fl|j fuel e ok ap|fs|h]; cbn [FilesModel.step] in Hs.
    1,3,4: exfalso; injection Hs as <-; cbn [st_log log set_db] in Hl2; rewrite Hl1 in Hl2; apply app_inj_tail in Hl2 as [_ <-]; done.
    apply go_inv in Hs as (n & ev' & n' & d & Hn & Hg & ->). cbn [st_log] in Hl2. rewrite Hl1 in Hl2.
    apply app_inj_tail in Hl2 as [_ ->]. assert (j = i) as ->.
    { pose proof (gostep_of _ _ _ _ _ _ Hg) as Ho'. destruct (decide (j = i)) as [?|Hne]; [done|].
      by rewrite (of_run_other j i ev Ho' Hne) in Ho. }
    pose proof (reach_inv _ _ Hr1) as HI. destruct (inv_run _ _ HI i n Hn) as [r0 Hst].
    destruct (inv_start _ _ HI i r0 _ Hst) as (n1 & Hn1 & _ & Hk). rewrite Hn in Hn1. injection Hn1 as <-.
    exists s1, n, n', d, r0. rewrite Hl1 in *. split; [done|]. split; [done|]. split; [done|]. split; [done|]. split; [done|]. split; [done|].
    eapply replay_snoc; [apply Hk|]. by eapply gostep_estep.
  Qed.
  Lemma ev_hash fs0 s a i m fs r res b : reach fs0 s -> st_log s = a ++ LHash i m fs r res :: b ->
    fs = files_after fs0 a /\ (exists fuel, computeHash fuel fs r = res) /\ res <> HOutOfFuel /\
    exists r0 fl, LStart i r0 fl ∈ a /\ match m with Before => r = r0 | After => ran_rule r0 r end /\
      fl_db fl = true /\ fl_dry fl = false /\
      (m = Before -> fl_force fl = false) /\ (m = After -> LSubEnd i None ∈ a).
  Proof.
    intros Hr Hl. assert (Ho : of_run i (LHash i m fs r res) = true) by (simpl; by rewrite bool_decide_true).
    destruct (ev_go _ _ _ _ _ _ Hr Hl Ho) as (s1 & n & n' & d & r0 & Hr1 & Hl1 & Hn & Hg & Hst & [Hk1 Hk2] & Hrep).
    apply reach_inv in Hr1 as HI. inversion Hg as [ev st He Ho' Hm Hx| |]; subst ev. destruct Hm as (-> & -> & Hc).
    split; [by rewrite (inv_fs _ _ HI), Hl1|]. split; [done|]. split; [by inversion He|]. exists r0, (n_flags n).
    split; [done|]. split; [|split; [|split; [|split]]].
    - destruct m.
      + destruct Hk2 as [[Hs _]|[_ Hk2]]; [|done]. exfalso. eapply place_before; [exact Hrep|reflexivity|done].
      + destruct Hk2 as [[_ Hk2]|[Hs _]]; [done|]. exfalso. apply Hs. by eapply place_after; [exact Hrep|reflexivity].
    - clear -Hrep. destruct (fl_db (n_flags n)) eqn:E; [done|]. exfalso.
      set (evs := filter (of_run i) a ++ _) in *. assert (Hi : LHash i m (st_fs s1) (n_rule n) res ∈ evs) by (apply elem_of_app; right; by left).
      clearbody evs. open_all; elems; try congruence; simpl in *; try rewrite E in *; simpl in *; congruence.
    - clear -Hrep. destruct (fl_dry (n_flags n)) eqn:E; [|done]. exfalso.
      set (evs := filter (of_run i) a ++ _) in *. assert (Hi : LHash i m (st_fs s1) (n_rule n) res ∈ evs) by (apply elem_of_app; right; by left).
      clearbody evs. open_all; elems; congruence.
    - intros ->. clear -Hrep. destruct (fl_force (n_flags n)) eqn:E; [|done]. exfalso.
      set (evs := filter (of_run i) a ++ _) in *. assert (Hi : LHash i Before (st_fs s1) (n_rule n) res ∈ evs) by (apply elem_of_app; right; by left).
      clearbody evs. open_all; elems; congruence.
    - intros ->. destruct (place_after _ _ _ _ _ _ _ _ _ Hrep eq_refl) as [j Hj].
      apply elem_of_list_filter in Hj as [Hj1 Hj2]. simpl in Hj1. assert (i = j) as <-; [|done].
      destruct (decide (i = j)); [done|]. by rewrite bool_decide_false in Hj1.
  Qed.
End inv.
