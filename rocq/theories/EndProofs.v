(** From the command line to what is executed. *)
From stdpp Require Import base gmap list strings relations.
From Coq Require Import Ascii.
From Verif Require Import PathModel FindModel TopDirModel DriverModel DriverSpec ContextModel RegistryModel RunnerModel RunnerSpec RunnerSpec2 RunnerProofs YamlModel YamlSpec MainModel MainSpec ProjModel ProjSpec EndSpec.
From Verif Require Import RunnerInv6 RunnerProofs2 ChainModel DriverProofs4 ProjProofs ProjProofs2 ProjProofs4 ProjProofs5 ProjProofs8 MainProofs MainProofs2 MainProofs4 MainProps.
Local Open Scope list_scope.
Notation empty_state := {| y_objs := []; y_reg := ∅ |}.

(** The request and the reading of the files. *)
Lemma project_request M fuel argv m top T wd a st r : yaml_project M argv m top T wd -> fab M fuel argv = Some (a, st) -> r ∈ requests a ->
  m_list m = false /\ asked (r_reg r) (m_args m) (r_targets r) /\ r_wd r = wd /\ r_top r = top /\
  GetVerbose (r_ctx r) = m_verbose m /\ GetForce (r_ctx r) = m_force m /\ GetDryRun (r_ctx r) = m_dryrun m /\ GetArgs (r_ctx r) = [] /\
  (exists db, k_db M (at_wd wd (m_fabdir m)) = Some db /\ GetHashDB (r_ctx r) = Some db) /\
  exists s, read_ok M T fuel wd top empty_state s /\ r_objs r = y_objs s /\ r_reg r = y_reg s.
Proof.
  intros ((cache & Hc & Hm) & Hn & Ht & Hrd) H Hr.
  assert (Hp : in_project M m top) by (right; split; [by eapply fab_main_top|done]).
  rewrite (fab_run _ _ _ _ _ Hc Hm) in H.
  destruct (main_request M fuel m top a st r Hp (fab_main_args _ _ _ _ Hm Hn) H Hr) as (Hl & T' & wd' & s0 & s & Hrd' & Hf & Hok & Ho & Hg).
  assert (T' = T /\ wd' = wd /\ s0 = empty_state) as (-> & -> & ->).
  { destruct Hrd as [(N1 & -> & -> & _)|(path & p & [P1 P2] & -> & -> & G1 & G2)], Hrd' as [(N1' & -> & -> & ->)|(path' & p' & [P1' P2'] & -> & -> & G1' & G2')].
    - done.
    - exfalso. destruct N1 as [?|?]; congruence.
    - exfalso. destruct N1' as [?|?]; congruence.
    - assert (p' = p) as -> by congruence. split; [done|]. split; [done|]. destruct s0 as [os rg]. cbn [y_objs y_reg] in *. f_equal; [congruence|].
      apply map_eq. intros q. rewrite lookup_empty. destruct (rg !! q) as [[d o]|] eqn:E; [|done].
      apply G2' in E. apply G2 in E. by rewrite lookup_empty in E. }
  split; [done|]. destruct Hf as (F1 & F2 & F3 & F4 & (db & _ & F5 & F6) & F7 & F8 & F9). split_and!; try done; [by exists db|]. by exists s.
Qed.
Lemma read_loads M T fuel wd top s : read_ok M T fuel wd top empty_state s ->
  loads top (tag_lists T) (tag_leaf T) (k_bool M) (k_docs M wd) (k_ne M wd T) s.
Proof. intros [H|H]; exists fuel; [by left|right; by exists true]. Qed.

(** The targets asked for. *)
Lemma asked_named reg args ts q : asked reg args ts -> names_target args q ->
  exists d (o : nat) t, reg !! q = Some (d, o) /\ t ∈ ts /\ (t = Plain (RegistryModel.TPtr o) \/ t = RegistryModel.WithArgs (RegistryModel.TPtr o) (own_args args)).
Proof.
  intros [(a & s & rest & d & o & -> & Hr & ->)|[Hn Hf]] [(s' & rest' & E)|[Hn' Hq]].
  - injection E as -> -> ->. exists d, o. eexists. split; [done|]. split; [by left|]. right. done.
  - by destruct (Hn' a s rest).
  - by destruct (Hn q s' rest').
  - apply elem_of_list_lookup in Hq as [i Hi]. destruct (Forall2_lookup_l _ _ _ _ _ Hf Hi) as (t & Ht & d & o & Hr & ->).
    exists d, o, (Plain (RegistryModel.TPtr o)). split; [done|]. split; [by eapply elem_of_list_lookup_2|by left].
Qed.
Lemma asked_target reg args ts t : asked reg args ts -> t ∈ ts ->
  exists q d (o : nat), names_target args q /\ reg !! q = Some (d, o) /\
    ((t = Plain (RegistryModel.TPtr o) /\ own_args args = []) \/ (t = RegistryModel.WithArgs (RegistryModel.TPtr o) (own_args args) /\ own_args args <> [])).
Proof.
  intros [(a & s & rest & d & o & -> & Hr & ->)|[Hn Hf]] Hin.
  - apply elem_of_list_singleton in Hin as ->. exists a, d, o. split; [left; by exists s, rest|]. split; [done|]. right. done.
  - apply elem_of_list_lookup in Hin as [i Hi]. destruct (Forall2_lookup_r _ _ _ _ _ Hf Hi) as (q & Hq & d & o & Hr & ->).
    exists q, d, o. split; [right; split; [done|by eapply elem_of_list_lookup_2]|]. split; [done|]. left. split; [done|].
    destruct args as [|a0 [|[|c s] rest]]; try done. simpl. case_decide as E; [|done]. subst c. by destruct (Hn a0 s rest).
Qed.

Section run.
  Context (M : machine) (fuel : nat) (argv : list string) (m : Main) (top : string) (T : tags) (wd : string) (a : list act) (st : nat) (r : request).
  Context (Hy : yaml_project M argv m top T wd) (Hf : fab M fuel argv = Some (a, st)) (Hr : r ∈ requests a).
  Context (lf : string -> node -> string -> option (list string * list string)) (objs' : list shape) (addr : nat -> nat)
    (leafp : nat -> ctx -> prog) (tr : list event).
  Context (Huw : under_way lf r objs' addr leafp tr).

  Lemma the_project : exists s, loads top (tag_lists T) (tag_leaf T) (k_bool M) (k_docs M wd) (k_ne M wd T) s /\ r_objs r = y_objs s /\ r_reg r = y_reg s.
  Proof.
    destruct (project_request _ _ _ _ _ _ _ _ _ _ Hy Hf Hr) as (_ & _ & _ & _ & _ & _ & _ & _ & _ & s & Hok & Ho & Hg).
    exists s. split; [by eapply read_loads|done].
  Qed.
  Lemma the_args : asked (r_reg r) (m_args m) (r_targets r).
  Proof. by destruct (project_request _ _ _ _ _ _ _ _ _ _ Hy Hf Hr) as (_ & H & _). Qed.
  Lemma tref_asks t u : as_tref r objs' t u -> forall o, (t = Plain (RegistryModel.TPtr o) \/ exists b, t = RegistryModel.WithArgs (RegistryModel.TPtr o) b) ->
    asks_for (r_objs r) objs' u o.
  Proof.
    intros Ht o [-> |[b ->]]; simpl in Ht; [by left|]. destruct Ht as (x & -> & Hlen & Hx). right. by exists x, b.
  Qed.
  (** The call from outside asks only for what is named. *)
  Lemma call_only c cx ts u : EvCall c None cx ts ∈ tr -> u ∈ ts -> cx = r_ctx r /\ exists q d (o : nat), names_target (m_args m) q /\ asks_for (r_objs r) objs' u o /\
    r_reg r !! q = Some (d, o) /\
    ((u = RunnerModel.TPtr o /\ own_args (m_args m) = []) \/
     exists x : nat, u = RunnerModel.TPtr x /\ length (r_objs r) <= x /\ objs' !! x = Some (SArgs o (own_args (m_args m))) /\ own_args (m_args m) <> []).
  Proof.
    intros Hc Hu. destruct (uw_call _ _ _ _ _ _ Huw) as (c' & ts' & Hts & Honly).
    destruct (Honly _ _ _ Hc) as (-> & -> & ->). split; [done|].
    apply elem_of_list_lookup in Hu as [i Hi]. destruct (Forall2_lookup_r _ _ _ _ _ Hts Hi) as (t & Ht & Has).
    destruct (asked_target _ _ _ _ the_args (elem_of_list_lookup_2 _ _ _ Ht)) as (q & d & o & Hq & Hreg & Hto).
    exists q, d, o. split; [done|]. split; [|split; [done|]].
    - eapply tref_asks; [done|]. destruct Hto as [[-> _]|[-> _]]; [by left|right; by eexists].
    - destruct Hto as [[-> E]|[-> E]]; [by left|]. right. destruct Has as (x & H1 & H2 & H3). by exists x.
  Qed.
  Lemma call_registered s : r_objs r = y_objs s -> r_reg r = y_reg s -> clients_ask s objs' (names_target (m_args m)) tr.
  Proof.
    intros Ho Hg c cx ts u Hc Hu. destruct (call_only _ _ _ _ Hc Hu) as (_ & q & d & o & Hq & Has & Hreg & _).
    exists q, d, o. rewrite <-Ho, <-Hg. done.
  Qed.
  (** The settings at every body. *)
  Lemma settings_everywhere g b x cx : EvStart g b x cx ∈ tr -> same_settings (r_ctx r) cx.
  Proof.
    intros Hs. destruct Huw as [Hexp Hinj Hq Hx _].
    destruct (start_chain addr objs' leafp _ Hinj Hq tr tr (exec_part _ _ _ _ _ Hx) _ _ _ _ Hs) as (c & cx0 & ts & d & Hc & Hd & Hsame & _).
    by destruct (call_only _ _ _ _ Hc Hd) as (-> & _).
  Qed.

  Lemma end_runs g b x cx : EvStart g b x cx ∈ tr -> same_settings (r_ctx r) cx /\
    exists q dir v, names_target (m_args m) q /\ defined M top wd dir q v /\
      ((length (r_objs r) <= x /\ own_args (m_args m) <> [] /\ GetArgs cx = [] /\ exists o d, r_reg r !! q = Some (d, o) /\ objs' !! x = Some (SArgs o (own_args (m_args m)))) \/
       exists d n, involved_with top (tag_lists T) (k_docs M wd) lf dir v (own_args (m_args m)) d n (GetArgs cx) /\
         belongs top (tag_lists T) (tag_leaf T) (k_bool M) (k_docs M wd) (r_objs r) objs' d n x).
  Proof.
    intros Hs. split; [by eapply settings_everywhere|].
    destruct the_project as (s & Hload & Ho & Hg). pose proof (call_registered s Ho Hg) as Hcl. pose proof call_only as Honly.
    destruct (project_request _ _ _ _ _ _ _ _ _ _ Hy Hf Hr) as (_ & _ & _ & _ & _ & _ & _ & Fa & _).
    destruct Huw as [Hexp Hinj Hquiet Hx _]. rewrite Ho, Hg in *.
    destruct (sees_named _ _ _ _ _ _ s lf objs' Hload Hexp addr leafp Hinj Hquiet _ tr g b x cx Hx Hcl Hs)
      as (c & cx' & ts & t & q & doc & o & dir & k & v & Hq & Hc & Ht & Has & Hqr & Hd & _ & Hcase).
    exists q, dir, v. split; [done|]. split; [by exists k|].
    destruct (Honly _ _ _ _ Hc Ht) as (-> & q1 & d1 & o1 & Hq1 & _ & Hreg1 & Hshape).
    assert (Hlt : forall q d o, y_reg s !! q = Some (d, o) -> o < length (y_objs s)).
    { intros q2 d2 o2 H2. destruct (ProjProofs3.loads_reg _ _ _ _ _ _ _ _ _ _ Hload H2) as (? & ? & ? & _ & Hm2). by eapply (means_lt top (tag_lists T) (tag_leaf T) (k_bool M) (k_docs M wd)). }
    apply Hlt in Hreg1. pose proof (Hlt _ _ _ Hqr) as Hqlt.
    assert (Habs : forall y z : nat, y < z -> z <= y -> False) by (intros y z H1 H2; exact (Nat.lt_irrefl _ (Nat.lt_le_trans _ _ _ H1 H2))).
    destruct Hcase as [(-> & Hne & Eargs)|(b' & d & n & Hb & Hiw & Hbel)].
    - left. destruct Has as [[= E]|(x1 & args & [= <-] & Hlen & Hx1)]; [done|]. split; [done|].
      destruct Hshape as [[[= ->] _]|(x2 & [= <-] & _ & Hx2 & Hne')]; [by destruct (Habs _ _ Hreg1 Hlen)|].
      split; [done|]. split; [by rewrite Eargs|]. exists o, doc. split; [done|]. rewrite Hx1 in Hx2. injection Hx2 as -> ->. done.
    - right. exists d, n. split; [|done].
      assert (b' = own_args (m_args m)) as ->; [|done].
      destruct Hb as [[-> ->]|(y & -> & Hlen' & Hy')].
      + rewrite Fa. destruct Hshape as [[_ ->]|(x2 & [= <-] & Hlen & _)]; [done|]. by destruct (Habs _ _ Hqlt Hlen).
      + destruct Hshape as [[[= ->] E]|(x2 & [= <-] & Hlen & Hx2)]; [|destruct Hx2 as [Hx2 _]; rewrite Hy' in Hx2; by injection Hx2 as _ ->].
        by destruct (Habs _ _ Hreg1 Hlen').
  Qed.

  (** With the result. *)
  Context (e : option err) (Hco : carried_out M lf r objs' addr leafp tr e).
  Lemma status_result : st = 0 <-> e = None.
  Proof.
    destruct (wf_fab M fuel argv a st Hf) as (_ & [E|(r' & E & Hrun)]); [rewrite E in Hr; by apply elem_of_nil in Hr|].
    rewrite E in Hr. apply elem_of_list_singleton in Hr as ->. rewrite <-Hrun. by destruct Hco as (_ & _ & ?).
  Qed.
  (** The call from outside asks for what is named. *)
  Lemma call_named q : names_target (m_args m) q -> exists c ts u d (o : nat), EvCall c None (r_ctx r) ts ∈ tr /\ EvRet c None e ∈ tr /\ u ∈ ts /\
    asks_for (r_objs r) objs' u o /\ r_reg r !! q = Some (d, o).
  Proof.
    intros Hq. destruct (asked_named _ _ _ _ the_args Hq) as (d & o & t & Ho & Hin & Ht).
    destruct Hco as (Huw' & (c & ts & Hc & Hret) & _).
    destruct (uw_call _ _ _ _ _ _ Huw') as (c' & ts' & Hts & Honly). destruct (Honly _ _ _ Hc) as (_ & _ & <-).
    apply elem_of_list_lookup in Hin as [i Hi]. destruct (Forall2_lookup_l _ _ _ _ _ Hts Hi) as (u & Hu & Has).
    exists c, ts, u, d, o. split; [done|]. split; [done|]. split; [by eapply elem_of_list_lookup_2|]. split; [|done].
    eapply tref_asks; [done|]. destruct Ht as [-> | ->]; [by left|right; by eexists].
  Qed.
  Lemma end_success : st = 0 -> defined_once top (k_docs M wd) -> forall q, names_target (m_args m) q ->
    exists dir v, defined M top wd dir q v /\
      forall d n, required top (tag_lists T) (k_docs M wd) lf (m_force m || m_dryrun m) (fun q => is_Some (r_reg r !! q)) dir v d n ->
        (tagged n -> exists x, made_for M top T wd r d n x /\ ended_well x tr) /\
        (forall q', reference top d n q' -> exists dir' v', defined M top wd dir' q' v').
  Proof.
    intros Hst Honce q Hq. apply status_result in Hst.
    destruct (call_named q Hq) as (c & ts & u & d0 & o & Hc & Hret & Hu & Has & Hreg). rewrite Hst in Hret.
    destruct the_project as (s & Hload & Ho & Hg).
    destruct (project_request _ _ _ _ _ _ _ _ _ _ Hy Hf Hr) as (_ & _ & _ & _ & _ & Ff & Fd & _).
    pose proof settings_everywhere as Hset. destruct Huw as [Hexp Hinj Hquiet Hx _].
    rewrite Ho, Hg in *. apply elem_of_list_split in Hret as (l1 & l2 & E). pose proof Hx as Hx1. rewrite E in Hx1.
    assert (Hc1 : EvCall c None (r_ctx r) ts ∈ l1).
    { destruct (ret_completed _ _ _ _ _ _ (proj1 Hx1)) as (cx1 & ts1 & rs & Hc1 & _).
      assert (Hc2 : EvCall c None cx1 ts1 ∈ tr) by (rewrite E; apply elem_of_app; by left).
      by destruct (call_unique _ _ _ _ _ _ _ _ _ (proj1 Hx) Hc Hc2) as (_ & -> & ->). }
    destruct (success_lem _ _ _ _ _ _ s lf objs' Hload Hexp addr leafp Hinj Honce (m_force m || m_dryrun m) l1 c None (r_ctx r) ts l2 u q d0 o Hx1) as (dir & k & v & Hd & Hreq); try done.
    { intros Hall g b x cx Hs. destruct (Hset g b x cx) as (_ & S1 & S2 & _); [rewrite E; apply elem_of_app; by left|].
      unfold insistent. rewrite S1, S2, Ff, Fd. apply orb_true_iff in Hall as [-> | ->]; [by left|right; by left]. }
    exists dir, v. split; [by exists k|]. intros d n Hrn. destruct (Hreq d n Hrn) as [H1 H2]. split.
    - intros Htag. destruct (H1 Htag) as (x & Hm & (g & b & Hend)). exists x. split; [unfold made_for; by rewrite Ho|].
      exists g, b. rewrite E. apply elem_of_app. by left.
    - intros q' Href. destruct (H2 q' Href) as (dir' & k' & v' & Hd'). exists dir', v'. by exists k'.
  Qed.
  Lemma end_failure : st <> 0 -> exists q dir v d n, names_target (m_args m) q /\ defined M top wd dir q v /\
    involved top (tag_lists T) (k_docs M wd) lf dir v d n /\ failure_cause M top T wd lf r tr d n.
  Proof.
    intros Hst. pose proof status_result as Hres.
    destruct the_project as (s & Hload & Ho & Hg). pose proof (call_registered s Ho Hg) as Hcl.
    destruct Hco as (_ & (c & ts & Hc & Hret) & _). destruct Huw as [Hexp Hinj Hquiet Hx _].
    destruct e as [err|]; [|by destruct Hst; apply Hres]. clear Hres. rewrite Ho, Hg in *.
    destruct (ProjProofs5.failure_named _ _ _ _ _ _ s lf objs' Hload Hexp addr leafp Hinj Hquiet _ tr c (r_ctx r) ts err Hx Hcl Hc Hret)
      as (t & q & doc & o & dir & k & v & d & n & Hq & Ht & Has & Hqr & Hd & Hinv & Hcause).
    exists q, dir, v, d, n. split; [done|]. split; [by exists k|]. split; [done|]. unfold failure_cause, made_for. rewrite Ho, Hg. exact Hcause.
  Qed.
End run.

(** ** Without a request *)
Lemma asked_dec (reg : gmap string (string * nat)) args : (exists ts, asked reg args ts) \/ exists q, names_target args q /\ reg !! q = None.
Proof.
  destruct (flag_second_dec args) as [(a & s & rest & ->)|Hn].
  - destruct (reg !! a) as [[d o]|] eqn:E; [left; eexists; left; by exists a, s, rest, d, o|].
    right. exists a. split; [left; by exists s, rest|done].
  - assert (Hn' : forall a s rest, args <> a :: String "-"%char s :: rest) by (intros a s rest ->; apply Hn; by exists a, s, rest).
    assert (H : (exists ts, Forall2 (fun a t => exists d o, reg !! a = Some (d, o) /\ t = Plain (RegistryModel.TPtr o)) args ts) \/ exists q, q ∈ args /\ reg !! q = None).
    { clear. induction args as [|a args IH]; [left; exists []; constructor|].
      destruct (reg !! a) as [[d o]|] eqn:E; [|right; exists a; split; [by left|done]].
      destruct IH as [[ts H]|(q & Hq & H)]; [left; exists (Plain (RegistryModel.TPtr o) :: ts); constructor; [by exists d, o|done]|].
      right. exists q. split; [by right|done]. }
    destruct H as [[ts H]|(q & Hq & H)]; [left; exists ts; right; done|]. right. exists q. split; [right; done|done].
Qed.
Lemma go_args M fuel m top T wd s0 a st : in_project M m top -> not_flag_first (m_args m) -> reader M top T wd s0 -> k_cache M <> None ->
  Main_Run M fuel m = Some (a, st) -> read_top M T fuel wd top s0 = ROut ->
  exists path p, has_package M top path p /\
   ((exists n d, (n, d, None) ∈ p_targets p) \/ at_wd wd (Join [m_fabdir m; path; "fab.bin"]) <> at_wd (k_cwd M) (Join [m_fabdir m; path; "fab.bin"])).
Proof.
  intros Hp Hn Hr Hc H Hout. rewrite (main_eq M fuel m top Hp) in H.
  destruct Hr as [(Hnp & -> & -> & ->)|(path & p & [H1 H2] & -> & -> & Hg)].
  - exfalso. assert (Hd : driverless M fuel (set_top m top) = None) by (unfold driverless; cbn [m_topdir set_top]; by rewrite Hout).
    rewrite Hd in H. destruct Hnp as [E|E]; rewrite E in H; [done|]. by destruct (k_fs M _).
  - exists path, p. split; [done|]. rewrite H2 in H. set (wd := at_wd (k_cwd M) top) in *.
    assert (H' : (let note := if m_verbose m then [Note] else [] in
              let bin := Join [m_fabdir m; path; "fab.bin"] in
              if decide (at_wd wd bin = at_wd (k_cwd M) bin) then
                match driver M fuel p wd (driver_args (set_top m top)) with
                | None => None
                | Some (a, 0) => done (note ++ a) 0
                | Some (a, _) => done (note ++ a ++ [Complain]) 1
                end
              else done (note ++ [Complain]) 1) = Some (a, st)) by (destruct (k_fs M _); done).
    clear H. cbv zeta in H'. case_decide as Hbin; [|by right]. left.
    destruct (register_all (p_targets p) {| y_objs := p_objs p; y_reg := ∅ |}) as [s1 ok] eqn:E0. destruct ok.
    + exfalso. apply go_targets_ok in E0 as E1. assert (s1 = s0) as -> by (by eapply MainProofs4.go_targets_fun).
      unfold driver in H'. destruct (k_cache M) as [cache|]; [|done]. rewrite (flags_lem cache (set_top m top)) in H' by done.
      rewrite E0 in H'. cbn [m_topdir set_top] in H'. by rewrite Hout in H'.
    + revert E0. generalize {| y_objs := p_objs p; y_reg := ∅ |}. induction (p_targets p) as [|[[n d] [o|]] ts IH]; intros s E0; [done| |].
      * destruct (IH _ E0) as (n' & d' & Hin). exists n', d'. by right.
      * exists n, d. by left.
Qed.
Lemma no_request M fuel argv m top T wd a st : yaml_project M argv m top T wd -> fab M fuel argv = Some (a, st) -> m_list m = false -> requests a = [] ->
  (exists s, read_top M T fuel wd top empty_state = RErr s false) \/ k_db M (at_wd wd (m_fabdir m)) = None \/
  (exists x rest, m_args m = x :: "" :: rest) \/
  (exists s q, read_ok M T fuel wd top empty_state s /\ names_target (m_args m) q /\ y_reg s !! q = None) \/
  exists path p, has_package M top path p /\
    (m_args m = [] \/ (exists n d, (n, d, None) ∈ p_targets p) \/ at_wd wd (Join [m_fabdir m; path; "fab.bin"]) <> at_wd (k_cwd M) (Join [m_fabdir m; path; "fab.bin"])).
Proof.
  intros ((cache & Hc & Hm) & Hn & Ht & Hrd) H Hl Hno.
  assert (Hp : in_project M m top) by (right; split; [by eapply fab_main_top|done]).
  assert (Hpk : (no_package M top \/ exists path p, has_package M top path p /\ m_args m <> [] /\ Forall (fun t => t.2 <> None) (p_targets p) /\
     at_wd wd (Join [m_fabdir m; path; "fab.bin"]) = at_wd (k_cwd M) (Join [m_fabdir m; path; "fab.bin"])) \/
     exists path p, has_package M top path p /\
    (m_args m = [] \/ (exists n d, (n, d, None) ∈ p_targets p) \/ at_wd wd (Join [m_fabdir m; path; "fab.bin"]) <> at_wd (k_cwd M) (Join [m_fabdir m; path; "fab.bin"]))).
  { destruct Hrd as [(Hnp & _)|(path & p & Hpk & _)]; [left; by left|].
    destruct (decide (m_args m = [])) as [E|Ha]; [right; exists path, p; tauto|].
    destruct (decide (at_wd wd (Join [m_fabdir m; path; "fab.bin"]) = at_wd (k_cwd M) (Join [m_fabdir m; path; "fab.bin"]))) as [Eb|Eb]; [|right; exists path, p; tauto].
    destruct (decide (Forall (fun t : string * string * option nat => t.2 <> None) (p_targets p))) as [Hall|Hall]; [left; right; by exists path, p|].
    right. exists path, p. split; [done|]. right. left. apply not_Forall_Exists in Hall; [|apply _]. apply Exists_exists in Hall as ([[n d] o] & Hin & Ho).
    destruct o as [o|]; [by destruct Ho|]. by exists n, d. }
  destruct Hpk as [Hpk|(path & p & Hpk)]; [|do 4 right; by exists path, p].
  destruct (k_db M (at_wd wd (m_fabdir m))) as [db|] eqn:Edb; [|right; by left].
  destruct (empty_second_dec (m_args m)) as [(x & rest & E)|He]; [right; right; left; by exists x, rest|].
  destruct (read_top M T fuel wd top empty_state) as [s []|s [|]|] eqn:Er; [| |left; by exists s|].
  3:{ rewrite (fab_run _ _ _ _ _ Hc Hm) in H.
      destruct (go_args M fuel m top T wd _ a st Hp (fab_main_args _ _ _ _ Hm Hn) Hrd ltac:(by rewrite Hc) H Er) as (path & p & Hpk' & Hor).
      do 4 right. exists path, p. tauto. }
  all: assert (Hok : read_ok M T fuel wd top empty_state s) by (by (left + right)).
  all: destruct (asked_dec (y_reg s) (m_args m)) as [[ts Ha]|(q & Hq & Eq)]; [|do 3 right; left; by exists s, q].
  all: exfalso; destruct (runs_fab M fuel argv cache m top T wd empty_state s ts) as (a' & st' & r & H' & Hreq & _); try done; [by rewrite Edb|intros x rest E; apply He; by exists x, rest|].
  all: rewrite H in H'; injection H' as <- <-; by rewrite Hno in Hreq.
Qed.
(** With success and targets named there was a request. *)
Lemma success_request M fuel argv m top T wd a : yaml_project M argv m top T wd -> fab M fuel argv = Some (a, 0) -> m_list m = false -> m_args m <> [] ->
  exists r, requests a = [r] /\ k_run M r = true.
Proof.
  intros Hy H Hl Ha. destruct (wf_fab M fuel argv a 0 H) as (Hst & [E|(r & E & Hrun)]); [|exists r; split; [done|by apply Hrun]]. exfalso.
  assert (Hnc : Complain ∉ a) by (by apply Hst). clear Hst. destruct Hy as ((cache & Hc & Hm) & Hn & Ht & Hrd).
  assert (Hp : in_project M m top) by (right; split; [by eapply fab_main_top|done]).
  rewrite (fab_run _ _ _ _ _ Hc Hm) in H. pose proof (fab_main_args _ _ _ _ Hm Hn) as Hnf.
  destruct (main_cases M fuel m top Hp) as [[Hnp E']|[[_ E']|(path & p & Hpk & E')]]; rewrite E' in H; clear E'.
  - unfold driverless, done in H. destruct (read_top _ _ _ _ _ _) as [s []|s [|]|]; [| |done|done].
    all: cbn [m_list set_top] in H; rewrite Hl in H; destruct (k_db M _) as [db|]; [|done].
    all: destruct (parse_and_run _ _ _ _ _ _) as [a' st'] eqn:Ep; injection H as <- ->.
    all: apply par_shape in Ep as [[_ ?]|(ts & _ & [(_ & -> & _)|(_ & _ & ?)])]; try done; rewrite !requests_app in E; by destruct (m_verbose m).
  - done.
  - cbv zeta in H. case_decide; [|done]. destruct (driver M fuel p _ (driver_args (set_top m top))) as [[b [|n]]|] eqn:Ed; [|done|done].
    injection H as <-. unfold driver, done in Ed. rewrite Hc in Ed. rewrite (flags_lem cache (set_top m top)) in Ed by done.
    destruct (register_all _ _) as [s0 []]; [|done]. destruct (read_top _ _ _ _ _ _) as [s []|s [|]|]; [| |done|done].
    all: destruct (k_db M _) as [db|]; [|done]; cbn [m_list m_args set_top] in Ed; rewrite Hl, decide_False in Ed by done.
    all: destruct (parse_and_run _ _ _ _ _ _) as [a' st'] eqn:Ep; injection Ed as <- ->.
    all: apply par_shape in Ep as [[_ ?]|(ts & _ & [(_ & -> & _)|(_ & _ & ?)])]; try done; rewrite !requests_app in E; by destruct (m_verbose m).
Qed.

(** ** Effects *)
Lemma eff_ret e l : ~ may_eff (Ret e) l. Proof. inversion 1. Qed.
Lemma runs_may_eff g a o p h st l r : runs g a o p h st -> EvEff g l r ∈ h -> may_eff p l.
Proof.
  induction 1 as [p|e|l' k r' h st _ IH|d k r' h st _ IH|cx' us k c'|cx' us k c' e h st _ IH]; intros Hin.
  - by apply elem_of_nil in Hin.
  - by apply elem_of_list_singleton in Hin.
  - apply elem_of_cons in Hin as [[= -> ->]|Hin]; [constructor|]. by eapply me_eff, IH.
  - apply elem_of_cons in Hin as [?|Hin]; [done|]. by eapply me_res, IH.
  - by apply elem_of_list_singleton in Hin.
  - apply elem_of_cons in Hin as [?|Hin]; [done|]. apply elem_of_cons in Hin as [?|Hin]; [done|]. by eapply me_call, IH.
Qed.
Lemma eff_all ts cx l : ~ may_eff (all_prog ts cx) l.
Proof. unfold all_prog. inversion 1 as [| |? ? ? e ? H1|]; subst. by apply eff_ret in H1. Qed.
Lemma eff_seq ts cx l : ~ may_eff (seq_prog ts cx) l.
Proof.
  induction ts as [|t ts IH]; simpl; intros H; [by apply eff_ret in H|].
  inversion H as [| |? ? ? e ? H1|]; subst. destruct e; [by apply eff_ret in H1|auto].
Qed.
Lemma eff_files freg f sub cx l : may_eff (files_prog freg f sub cx) l ->
  GetDryRun cx = false /\ ((GetForce cx = false /\ (l = OpHash true (f_id f) \/ exists h, l = OpHas h)) \/ l = OpHash false (f_id f) \/ exists h, l = OpAdd h).
Proof.
  set (P := GetDryRun cx = false /\ _).
  assert (Hend : may_eff (files_end f cx) l -> P).
  { unfold files_end. case_decide as Hd; [by intros ?%eff_ret|]. destruct (GetDryRun cx) eqn:Edr; [by intros ?%eff_ret|]. intros H. split; [done|]. right.
    inversion H as [? ?|? ? r ? H1| |]; subst; [by left|]. destruct r; [by apply eff_ret in H1|].
    inversion H1 as [? ?|? ? r' ? H2| |]; subst; [right; by eexists|]. destruct r'; by apply eff_ret in H2. }
  assert (Hsub : may_eff (files_sub f sub cx) l -> P).
  { unfold files_sub. inversion 1 as [| |? ? ? e ? H1|]; subst. destruct e; [by apply eff_ret in H1|by apply Hend in H1]. }
  assert (Hrest : may_eff (files_rest f sub cx) l -> P).
  { unfold files_rest. case_decide as Hd; [done|]. destruct (GetForce cx || GetDryRun cx) eqn:Efd; [done|]. intros H. apply orb_false_iff in Efd as [Ef Edr].
    inversion H as [? ?|? ? r ? H1| |]; subst; [split; [done|]; left; split; [done|by left]|]. destruct r; [by apply eff_ret in H1|].
    inversion H1 as [? ?|? ? r' ? H2| |]; subst; [split; [done|]; left; split; [done|right; by eexists]|].
    destruct r' as [|[|]]; [auto|by apply eff_ret in H2|by apply eff_ret in H2]. }
  unfold files_prog. destruct (prereqs freg (f_in f)); [done|]. inversion 1 as [| |? ? ? e ? H1|]; subst.
  destruct e; [by apply eff_ret in H1|auto].
Qed.
Lemma body_eff addr objs leafp (o : nat) cx l : may_eff (body (project_world addr objs leafp) o cx) l ->
  may_eff (leafp o cx) l \/ (GetDryRun cx = false /\ (GetForce cx = true -> forall h, l <> OpHas h) /\ exists t ins outs ac, objs !! o = Some (SFiles t ins outs ac)).
Proof.
  destruct (is_ref_dec addr objs leafp o) as [[n Hn]|Hn].
  - rewrite (body_ref _ _ _ _ _ _ Hn). unfold deferred_prog.
    intros H. inversion H as [| | |? ? r ? H1]; subst. destruct r; [by apply eff_ret in H1|].
    inversion H1 as [| |? ? ? e ? H2|]; subst. by apply eff_ret in H2.
  - rewrite (body_own _ _ _ _ _ Hn). unfold target_prog.
    destruct (objs !! o) as [[n|us|us|t' args|t' ins outs ac|tag nd dir]|] eqn:E.
    1,6,7: by left.
    + by intros ?%eff_all.
    + by intros ?%eff_seq.
    + unfold arg_prog. intros H. inversion H as [| |? ? ? e ? H2|]; subst. by apply eff_ret in H2.
    + intros (H1 & H2)%eff_files. right. split; [done|]. split; [|by exists t', ins, outs, ac].
      intros Ef h ->. destruct H2 as [(? & _)|[?|(? & ?)]]; congruence.
Qed.
Lemma eff_started w l g lb r : trace w l -> EvEff g lb r ∈ l -> exists a o cx, EvStart g a o cx ∈ l /\ may_eff (body w o cx) lb.
Proof.
  intros Ht Hin. apply elem_of_list_split in Hin as (l1 & l2 & ->).
  destruct (concerns_started w l1 _ _ g Ht) as (a & o & cx & Hs); [done|].
  exists a, o, cx. split; [apply elem_of_app; by left|].
  destruct (path_at w l1 _ _ g a o cx Ht) as (_ & st & Hr); [done|set_solver|].
  eapply runs_may_eff; [exact Hr|]. apply elem_of_app; right; by left.
Qed.
