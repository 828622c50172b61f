(** From the command line to what is executed, in projects of any kind. *)
From stdpp Require Import base gmap list strings relations.
From Coq Require Import Ascii.
From Verif Require Import PathModel FindModel TopDirModel DriverModel DriverSpec ContextModel RegistryModel RunnerModel RunnerSpec RunnerSpec2 RunnerProofs YamlModel YamlSpec MainModel MainSpec ProjModel ProjSpec EndSpec MixSpec.
From Verif Require Import RunnerTerm RunnerInv6 RunnerProofs2 RunnerProofs3 ChainModel DriverProofs4 ProjProofs ProjProofs2 ProjProofs4 ProjProofs5 ProjProofs8 MainProofs MainProofs2 MainProofs4 MainProps EndProofs MixProofs.
Local Open Scope list_scope.

Lemma reader_fun M top T wd s0 T' wd' s0' : reader M top T wd s0 -> reader M top T' wd' s0' -> T' = T /\ wd' = wd /\ s0' = s0.
Proof.
  intros [(N1 & -> & -> & ->)|(path & p & [P1 P2] & -> & -> & G)] [(N1' & -> & -> & ->)|(path' & p' & [P1' P2'] & -> & -> & G')].
  - done.
  - exfalso. destruct N1 as [?|?]; congruence.
  - exfalso. destruct N1' as [?|?]; congruence.
  - assert (p' = p) as -> by congruence. split; [done|]. split; [done|]. by eapply MainProofs4.go_targets_fun.
Qed.
Lemma mix_request M fuel argv m top T wd s0 a st r : any_project M argv m top T wd s0 -> fab M fuel argv = Some (a, st) -> r ∈ requests a ->
  m_list m = false /\ asked (r_reg r) (m_args m) (r_targets r) /\ r_wd r = wd /\ r_top r = top /\
  GetVerbose (r_ctx r) = m_verbose m /\ GetForce (r_ctx r) = m_force m /\ GetDryRun (r_ctx r) = m_dryrun m /\ GetArgs (r_ctx r) = [] /\
  (exists db, k_db M (at_wd wd (m_fabdir m)) = Some db /\ GetHashDB (r_ctx r) = Some db) /\
  exists s, read_ok M T fuel wd top s0 s /\ r_objs r = y_objs s /\ r_reg r = y_reg s.
Proof.
  intros ((cache & Hc & Hm) & Hn & Ht & Hrd) H Hr.
  assert (Hp : in_project M m top) by (right; split; [by eapply fab_main_top|done]).
  rewrite (fab_run _ _ _ _ _ Hc Hm) in H.
  destruct (main_request M fuel m top a st r Hp (fab_main_args _ _ _ _ Hm Hn) H Hr) as (Hl & T' & wd' & s0' & s & Hrd' & Hf & Hok & Ho & Hg).
  destruct (reader_fun _ _ _ _ _ _ _ _ Hrd Hrd') as (-> & -> & ->).
  split; [done|]. destruct Hf as (F1 & F2 & F3 & F4 & (db & _ & F5 & F6) & F7 & F8 & F9). split_and!; try done; [by exists db|]. by exists s.
Qed.
Lemma mix_no_request M fuel argv m top T wd s0 a st : any_project M argv m top T wd s0 -> fab M fuel argv = Some (a, st) -> m_list m = false -> requests a = [] ->
  gives_up M fuel m top T wd s0.
Proof.
  intros ((cache & Hc & Hm) & Hn & Ht & Hrd) H Hl Hno.
  assert (Hp : in_project M m top) by (right; split; [by eapply fab_main_top|done]).
  assert (Hpk : (no_package M top \/ exists path p, has_package M top path p /\ m_args m <> [] /\ Forall (fun t => t.2 <> None) (p_targets p) /\
     at_wd wd (Join [m_fabdir m; path; "fab.bin"]) = at_wd (k_cwd M) (Join [m_fabdir m; path; "fab.bin"])) \/
     exists path p, has_package M top path p /\
    (m_args m = [] \/ (exists n d, (n, d, None) ∈ p_targets p) \/ at_wd wd (Join [m_fabdir m; path; "fab.bin"]) <> at_wd (k_cwd M) (Join [m_fabdir m; path; "fab.bin"]))).
  { destruct Hrd as [(Hnp & _)|(path & p & Hpk & _)]; [left; by left|].
    destruct (decide (m_args m = [])) as [E|Ha]; [right; exists path, p; tauto|].
    destruct (decide (at_wd wd (Join [m_fabdir m; path; "fab.bin"]) = at_wd (k_cwd M) (Join [m_fabdir m; path; "fab.bin"]))) as [Eb|Eb]; [|right; exists path, p; tauto].
    destruct (decide (Forall (fun t : string * string * option nat => t.2 <> None) (p_targets p))) as [Hall|Hall]; [left; right; by exists path, p|].
    right. exists path, p. split; [done|]. right. left. apply not_Forall_Exists in Hall; [|apply _]. apply Exists_exists in Hall as ([[n d] o] & Hin & Ho).
    destruct o as [o|]; [by destruct Ho|]. by exists n, d. }
  unfold gives_up.
  destruct Hpk as [Hpk|(path & p & Hpk)]; [|do 4 right; by exists path, p].
  destruct (k_db M (at_wd wd (m_fabdir m))) as [db|] eqn:Edb; [|right; by left].
  destruct (empty_second_dec (m_args m)) as [(x & rest & E)|He]; [right; right; left; by exists x, rest|].
  destruct (read_top M T fuel wd top s0) as [s []|s [|]|] eqn:Er; [| |left; by exists s|].
  3:{ rewrite (fab_run _ _ _ _ _ Hc Hm) in H.
      destruct (go_args M fuel m top T wd _ a st Hp (fab_main_args _ _ _ _ Hm Hn) Hrd ltac:(by rewrite Hc) H Er) as (path & p & Hpk' & Hor).
      do 4 right. exists path, p. tauto. }
  all: assert (Hok : read_ok M T fuel wd top s0 s) by (by (left + right)).
  all: destruct (asked_dec (y_reg s) (m_args m)) as [[ts Ha]|(q & Hq & Eq)]; [|do 3 right; left; by exists s, q].
  all: exfalso; destruct (runs_fab M fuel argv cache m top T wd s0 s ts) as (a' & st' & r & H' & Hreq & _); try done; [by rewrite Edb|intros x rest E; apply He; by exists x, rest|].
  all: rewrite H in H'; injection H' as <- <-; by rewrite Hno in Hreq.
Qed.
Lemma mix_success M fuel argv m top T wd s0 a : any_project M argv m top T wd s0 -> fab M fuel argv = Some (a, 0) -> m_list m = false -> m_args m <> [] ->
  exists r, requests a = [r] /\ k_run M r = true.
Proof.
  intros Hy H Hl Ha. destruct (wf_fab M fuel argv a 0 H) as (Hst & [E|(r & E & Hrun)]); [|exists r; split; [done|by apply Hrun]]. exfalso.
  assert (Hnc : Complain ∉ a) by (by apply Hst). clear Hst. destruct Hy as ((cache & Hc & Hm) & Hn & Ht & Hrd).
  assert (Hp : in_project M m top) by (right; split; [by eapply fab_main_top|done]).
  rewrite (fab_run _ _ _ _ _ Hc Hm) in H. pose proof (fab_main_args _ _ _ _ Hm Hn) as Hnf.
  destruct (main_cases M fuel m top Hp) as [[Hnp E']|[[_ E']|(path & p & Hpk & E')]]; rewrite E' in H; clear E'.
  - unfold driverless, done in H. destruct (read_top _ _ _ _ _ _) as [s []|s [|]|]; [| |done|done].
    all: cbn [m_list set_top] in H; rewrite Hl in H; destruct (k_db M _) as [db|]; [|done].
    all: destruct (parse_and_run _ _ _ _ _ _) as [a' st'] eqn:Ep; injection H as <- ->.
    all: apply par_shape in Ep as [[_ ?]|(ts & _ & [(_ & -> & _)|(_ & _ & ?)])]; try done; rewrite !requests_app in E; by destruct (m_verbose m).
  - done.
  - cbv zeta in H. case_decide; [|done]. destruct (driver M fuel p _ (driver_args (set_top m top))) as [[b [|n]]|] eqn:Ed; [|done|done].
    injection H as <-. unfold driver, done in Ed. rewrite Hc in Ed. rewrite (flags_lem cache (set_top m top)) in Ed by done.
    destruct (register_all _ _) as [s1 []]; [|done]. destruct (read_top _ _ _ _ _ _) as [s []|s [|]|]; [| |done|done].
    all: destruct (k_db M _) as [db|]; [|done]; cbn [m_list m_args set_top] in Ed; rewrite Hl, decide_False in Ed by done.
    all: destruct (parse_and_run _ _ _ _ _ _) as [a' st'] eqn:Ep; injection Ed as <- ->.
    all: apply par_shape in Ep as [[_ ?]|(ts & _ & [(_ & -> & _)|(_ & _ & ?)])]; try done; rewrite !requests_app in E; by destruct (m_verbose m).
Qed.

Section run.
  Context (M : machine) (fuel : nat) (argv : list string) (m : Main) (top : string) (T : tags) (wd : string) (s0 : ystate) (a : list act) (st : nat) (r : request).
  Context (Hy : any_project M argv m top T wd s0) (Hf : fab M fuel argv = Some (a, st)) (Hr : r ∈ requests a).
  Context (objs' : list shape) (addr : nat -> nat) (leafp : nat -> ctx -> prog) (tr : list event).
  Context (Huw : running r objs' addr leafp tr).
  Notation reg := (snd <$> r_reg r).

  Lemma the_args' : asked (r_reg r) (m_args m) (r_targets r).
  Proof. by destruct (mix_request _ _ _ _ _ _ _ _ _ _ _ Hy Hf Hr) as (_ & H & _). Qed.
  Lemma name_stands q d o : r_reg r !! q = Some (d, o) -> stands_for M top T wd s0 r q d o.
  Proof.
    intros Hq. split; [done|]. destruct (mix_request _ _ _ _ _ _ _ _ _ _ _ Hy Hf Hr) as (_ & _ & _ & _ & _ & _ & _ & _ & _ & s & Hok & Ho & Hg).
    rewrite Ho, Hg in *. destruct (read_explained _ _ _ _ _ _ _ Hok) as [_ Hex]. destruct (Hex q) as [E|(dir & k & v & o' & H1 & H2 & H3)].
    - left. congruence.
    - right. exists dir, k, v. rewrite Hq in H2. injection H2 as -> ->. done.
  Qed.
  (** The target passed to Run for [o]: [o] itself, or an ArgTarget with the arguments. *)
  Definition passed_for (u : tref) (o : nat) : Prop :=
    (u = RunnerModel.TPtr o /\ own_args (m_args m) = []) \/
    exists x : nat, u = RunnerModel.TPtr x /\ length (r_objs r) <= x /\ objs' !! x = Some (SArgs o (own_args (m_args m))) /\ own_args (m_args m) <> [].
  Lemma call_only' c cx ts u : EvCall c None cx ts ∈ tr -> u ∈ ts -> cx = r_ctx r /\ exists q d (o : nat), names_target (m_args m) q /\
    r_reg r !! q = Some (d, o) /\ passed_for u o.
  Proof.
    intros Hc Hu. destruct (rn_call _ _ _ _ _ Huw) as (c' & ts' & Hts & Honly).
    destruct (Honly _ _ _ Hc) as (-> & -> & ->). split; [done|].
    apply elem_of_list_lookup in Hu as [i Hi]. destruct (Forall2_lookup_r _ _ _ _ _ Hts Hi) as (t & Ht & Has).
    destruct (asked_target _ _ _ _ the_args' (elem_of_list_lookup_2 _ _ _ Ht)) as (q & d & o & Hq & Hreg & Hto).
    exists q, d, o. split; [done|]. split; [done|].
    destruct Hto as [[-> E]|[-> E]]; [by left|]. right. destruct Has as (x & H1 & H2 & H3). by exists x.
  Qed.
  Lemma settings' g b x cx : keep_settings leafp -> EvStart g b x cx ∈ tr -> same_settings (r_ctx r) cx.
  Proof.
    intros Hk Hs. destruct Huw as [_ _ Hinj Hx _].
    destruct (start_needed addr objs' leafp reg Hinj tr tr (exec_part _ _ _ _ _ Hx) _ _ _ _ Hs) as (c & cx0 & ts & d & Hc & Hd & _ & Hsame).
    destruct (call_only' _ _ _ _ Hc Hd) as (-> & _). by apply Hsame.
  Qed.
  Lemma only' g b x cx : EvStart g b x cx ∈ tr -> exists q d (o : nat), names_target (m_args m) q /\ r_reg r !! q = Some (d, o) /\
    (rtc (may_need objs' reg leafp) o x \/ (own_args (m_args m) <> [] /\ length (r_objs r) <= x /\ objs' !! x = Some (SArgs o (own_args (m_args m))))).
  Proof.
    intros Hs. pose proof call_only' as Honly. destruct Huw as [_ _ Hinj Hx _].
    destruct (start_needed addr objs' leafp reg Hinj tr tr (exec_part _ _ _ _ _ Hx) _ _ _ _ Hs) as (c & cx0 & ts & d & Hc & Hd & Hneed & _).
    destruct (Honly _ _ _ _ Hc Hd) as (_ & q & doc & o & Hq & Hreg & Hpass). exists q, doc, o. split; [done|]. split; [done|].
    destruct Hpass as [[[= <-] _]|(y & [= <-] & Hlen & Hy' & Hne)]; [by left|].
    apply rtc_inv in Hneed as [->|(z & Hz & Hneed)]; [by right|]. left.
    assert (Hzo : z = o); [|by rewrite <-Hzo].
    inversion Hz as [? ? Hz' E1 E2|? ? ? ? Hoth ? ? E1 E2].
    - apply asks_needs in Hz'. unfold ProjProofs.asks in Hz'. by rewrite Hy' in Hz'.
    - exfalso. destruct Hoth as [(? & ? & ? & E)|E]; congruence.
  Qed.

  Context (e : option err) (Hco : has_run M r objs' addr leafp tr e).
  Lemma status' : st = 0 <-> e = None.
  Proof.
    destruct (wf_fab M fuel argv a st Hf) as (_ & [E|(r' & E & Hrun)]); [rewrite E in Hr; by apply elem_of_nil in Hr|].
    rewrite E in Hr. apply elem_of_list_singleton in Hr as ->. rewrite <-Hrun. by destruct Hco as (_ & _ & ?).
  Qed.
  Lemma call_named' q : names_target (m_args m) q -> exists c ts u d (o : nat), EvCall c None (r_ctx r) ts ∈ tr /\ EvRet c None e ∈ tr /\ u ∈ ts /\
    (u = RunnerModel.TPtr o \/ exists x : nat, u = RunnerModel.TPtr x /\ objs' !! x = Some (SArgs o (own_args (m_args m)))) /\ r_reg r !! q = Some (d, o).
  Proof.
    intros Hq. destruct (asked_named _ _ _ _ the_args' Hq) as (d & o & t & Ho & Hin & Ht).
    destruct Hco as (Huw' & (c & ts & Hc & Hret) & _).
    destruct (rn_call _ _ _ _ _ Huw') as (c' & ts' & Hts & Honly). destruct (Honly _ _ _ Hc) as (_ & _ & <-).
    apply elem_of_list_lookup in Hin as [i Hi]. destruct (Forall2_lookup_l _ _ _ _ _ Hts Hi) as (u & Hu & Has).
    exists c, ts, u, d, o. split; [done|]. split; [done|]. split; [by eapply elem_of_list_lookup_2|]. split; [|done].
    destruct Ht as [-> | ->]; [by left|]. right. destruct Has as (x & H1 & _ & H3). by exists x.
  Qed.
  Lemma success' all : (all = true -> (m_force m || m_dryrun m) = true /\ keep_settings leafp) -> st = 0 -> forall q, names_target (m_args m) q ->
    exists d (o : nat), r_reg r !! q = Some (d, o) /\ forall x, rtc (needs all objs' reg) o x -> completed objs' reg tr x.
  Proof.
    intros Hall Hst q Hq. apply status' in Hst.
    destruct (call_named' q Hq) as (c & ts & u & d & o & Hc & Hret & Hu & Hpass & Hreg). rewrite Hst in Hret.
    destruct (mix_request _ _ _ _ _ _ _ _ _ _ _ Hy Hf Hr) as (_ & _ & _ & _ & _ & Ff & Fd & _).
    exists d, o. split; [done|]. pose proof settings' as Hset. destruct Huw as [_ _ Hinj Hx _].
    assert (Hins : all = true -> forall g a o cx, EvStart g a o cx ∈ tr -> insistent cx).
    { intros E g b y cx Hs. destruct (Hall E) as [Hfd Hk]. destruct (Hset g b y cx Hk Hs) as (_ & S1 & S2 & _).
      unfold insistent. rewrite S1, S2, Ff, Fd. apply orb_true_iff in Hfd as [-> | ->]; [by left|right; by left]. }
    intros x Hneed. assert (Hxs : exists y, u = RunnerModel.TPtr y /\ rtc (needs all objs' reg) y x).
    { destruct Hpass as [->|(y & -> & Hy')]; [by exists o|]. exists y. split; [done|]. eapply rtc_l; [by eapply needs_args|done]. }
    destruct Hxs as (y & -> & Hyx).
    eapply (needs_completed addr objs' leafp reg Hinj all tr); [by apply exec_part|exact Hins| |exact Hyx].
    apply ok_completed. by eapply (ret_ok addr objs' leafp reg Hinj).
  Qed.
  Lemma failure' : st <> 0 -> exists q d (o : nat) x, names_target (m_args m) q /\ r_reg r !! q = Some (d, o) /\
    rtc (asks_of objs' reg) o x /\ broken objs' reg tr x.
  Proof.
    intros Hst. pose proof status' as Hres. pose proof call_only' as Honly. destruct Hco as (_ & (c & ts & Hc & Hret) & _). destruct Huw as [_ _ Hinj Hx _].
    destruct e as [err|]; [|by destruct Hst; apply Hres].
    destruct (ret_broken addr objs' leafp reg Hinj tr c None (r_ctx r) ts err Hx Hc Hret) as [H|(y & x & Hin & Hyx & Hb)].
    - destruct (Honly _ _ _ _ Hc H) as (_ & q & d & o & _ & _ & [[E _]|(? & E & _)]); done.
    - destruct (Honly _ _ _ _ Hc Hin) as (_ & q & d & o & Hq & Hreg & Hpass). exists q, d, o, x. split; [done|]. split; [done|]. split; [|done].
      destruct Hpass as [[[= <-] _]|(z & [= <-] & _ & Hz & _)]; [done|].
      apply rtc_inv in Hyx as [->|(z' & Hz' & Hyx)].
      + exfalso. destruct Hb as [(? & E & _)|[(? & ? & ? & ? & ? & ? & ? & E & _)|([(? & ? & ? & E)|E] & _)]]; congruence.
      + apply asks_needs in Hz'. unfold ProjProofs.asks in Hz'. rewrite Hz in Hz'. by subst z'.
  Qed.
End run.
