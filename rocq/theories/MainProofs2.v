(** What is requested, and with which registry. *)
From stdpp Require Import base gmap list strings.
From Coq Require Import Ascii.
From Verif Require Import StrOrd PathModel PathSpec PathProofs PathProofs2 PathProofs3 TopDirModel TopDirSpec TopDirProofs DriverModel DriverSpec DriverProofs4
  YamlModel ContextModel RegistryModel RegistrySpec RegistryProofs MainModel MainSpec MainProofs.
Local Open Scope list_scope.

Lemma requests_app a b : requests (a ++ b) = requests a ++ requests b.
Proof. apply omap_app. Qed.
Lemma requests_note b : requests (if b : bool then [Note] else []) = []. Proof. by destruct b. Qed.

(** The registry of the Go package. *)
Lemma register_all_ok ts : forall s s', register_all ts s = (s', true) ->
  y_objs s' = y_objs s /\ forall q, (exists d o, last_go ts q d o /\ y_reg s' !! q = Some (d, o)) \/ ((forall d o, (q, d, o) ∉ ts) /\ y_reg s' !! q = y_reg s !! q).
Proof.
  induction ts as [|[[n d] [o|]] ts IH]; intros s s'; simpl.
  - intros [= <-]. split; [done|]. intros q. right. split; [intros ? ? ?%elem_of_nil; done|done].
  - intros [E H]%IH. split; [done|]. intros q. destruct (H q) as [(d' & o' & (b & c & -> & Hn) & E')|[Hn E']].
    + left. exists d', o'. split; [|done]. by exists ((n, d, Some o) :: b), c.
    + simpl in E'. destruct (decide (q = n)) as [->|Hne].
      * rewrite lookup_insert in E'. left. exists d, o. split; [|done]. exists [], ts. split; [done|]. intros; apply Hn.
      * rewrite lookup_insert_ne in E' by done. right. split; [|done]. intros d' o' [[= -> -> ->]|Hin]%elem_of_cons; [done|by eapply Hn].
  - done.
Qed.
Lemma last_go_fun ts q d o d' o' : last_go ts q d o -> last_go ts q d' o' -> d = d' /\ o = o'.
Proof.
  intros (b & c & -> & Hn) (b' & c' & E & Hn'). revert b' E. induction b as [|x b IH]; intros [|x' b'] E; simplify_eq/=.
  - done.
  - exfalso. eapply Hn. apply elem_of_app. right. by left.
  - exfalso. eapply Hn'. apply elem_of_app. right. by left.
  - by eapply IH.
Qed.
Lemma go_targets_ok p s : register_all (p_targets p) {| y_objs := p_objs p; y_reg := ∅ |} = (s, true) -> go_targets p s.
Proof.
  intros [E H]%register_all_ok. split; [done|]. intros q d o. destruct (H q) as [(d' & o' & Hl & E')|[Hn E']].
  - rewrite E'. split; [by intros [= -> ->]|]. intros Hl'. by destruct (last_go_fun _ _ _ _ _ _ Hl Hl') as [-> ->].
  - simpl in E'. rewrite E'. rewrite lookup_empty. split; [done|]. intros (b & c & Ets & _). exfalso. eapply Hn. rewrite Ets. apply elem_of_app. right. by left.
Qed.

Lemma par_request M wd top s c args a st r : parse_and_run M wd top s c args = (a, st) -> r ∈ requests a ->
  exists ts, asked (y_reg s) args ts /\ r = {| r_wd := wd; r_top := top; r_objs := y_objs s; r_reg := y_reg s; r_ctx := c; r_targets := ts |}.
Proof.
  intros [[-> _]|(ts & Ha & [(_ & -> & _)|(_ & -> & _)])]%par_shape; simpl; [by intros ?%elem_of_nil|..]; intros ->%elem_of_list_singleton; by exists ts.
Qed.

Definition faithful0 (M : machine) (m : Main) (top wd : string) (a : list act) (r : request) : Prop :=
  GetVerbose (r_ctx r) = m_verbose m /\ GetForce (r_ctx r) = m_force m /\ GetDryRun (r_ctx r) = m_dryrun m /\ GetArgs (r_ctx r) = [] /\
  (exists db, OpenDB (at_wd wd (m_fabdir m)) ∈ a /\ k_db M (at_wd wd (m_fabdir m)) = Some db /\ GetHashDB (r_ctx r) = Some db) /\
  r_top r = top /\ r_wd r = wd /\ asked (r_reg r) (m_args m) (r_targets r).
Lemma request_driverless M fuel m a st r : driverless M fuel m = Some (a, st) -> r ∈ requests a ->
  m_list m = false /\ faithful0 M m (m_topdir m) (k_cwd M) a r /\
  exists s, read_ok M (k_tags M) fuel (k_cwd M) (m_topdir m) {| y_objs := []; y_reg := ∅ |} s /\ r_objs r = y_objs s /\ r_reg r = y_reg s.
Proof.
  unfold driverless, done, read_ok. destruct (read_top _ _ _ _ _ _) as [s []|s [|]|]; [| |intros [= <- <-]; rewrite requests_app, requests_note; by intros ?%elem_of_nil|done].
  all: destruct (m_list m) eqn:El; [intros [= <- <-]; rewrite requests_app, requests_note; by intros ?%elem_of_nil|].
  all: destruct (k_db M _) as [db|] eqn:Ed; [|intros [= <- <-]; rewrite requests_app, requests_note; by intros ?%elem_of_nil].
  all: destruct (parse_and_run _ _ _ _ _ _) as [a' st'] eqn:E; intros [= <- <-]; rewrite requests_app, requests_note; cbn [app requests omap list_omap].
  all: intros Hr; destruct (par_request _ _ _ _ _ _ _ _ _ E Hr) as (ts & Ha & ->); split; [done|]; split; [|exists s; cbn; split; [tauto|done]].
  all: split_and!; try done; exists db; split_and!; [|done|done]; apply elem_of_app; right; by left.
Qed.

Lemma request_driver M fuel p wd argv m a st r : driver M fuel p wd argv = Some (a, st) -> (forall cache, k_cache M = Some cache -> driver_main cache argv = Some m) -> r ∈ requests a ->
  m_list m = false /\ m_args m <> [] /\ faithful0 M m (m_topdir m) wd a r /\
  exists s0 s, go_targets p s0 /\ read_ok M (p_tags p) fuel wd (m_topdir m) s0 s /\ r_objs r = y_objs s /\ r_reg r = y_reg s.
Proof.
  unfold driver, done, read_ok. intros H Hm. revert H. destruct (k_cache M) as [cache|]; [|intros [= <- <-]; by intros ?%elem_of_nil]. rewrite (Hm cache) by done.
  destruct (register_all _ _) as [s0 []] eqn:E0; [|intros [= <- <-]; by intros ?%elem_of_nil]. apply go_targets_ok in E0.
  destruct (read_top _ _ _ _ _ _) as [s []|s [|]|] eqn:Er; [| |intros [= <- <-]; by intros ?%elem_of_nil|done].
  all: destruct (k_db M _) as [db|] eqn:Ed; [|intros [= <- <-]; by intros ?%elem_of_nil].
  all: destruct (m_list m) eqn:El; [intros [= <- <-]; by intros ?%elem_of_nil|].
  all: case_decide as Ha; [intros [= <- <-]; by intros ?%elem_of_nil|].
  all: destruct (parse_and_run _ _ _ _ _ _) as [a' st'] eqn:E; intros [= <- <-]; cbn [app requests omap list_omap].
  all: intros Hr; destruct (par_request _ _ _ _ _ _ _ _ _ E Hr) as (ts & Hts & ->); split; [done|]; split; [done|]; split; [|exists s0, s; cbn; split; [done|split; [tauto|done]]].
  all: split_and!; try done; exists db; split_and!; [|done|done]; by left.
Qed.

Lemma faithful0_more M m top wd a r b c : faithful0 M m top wd a r -> faithful0 M m top wd (b ++ a ++ c) r.
Proof.
  intros (H1 & H2 & H3 & H4 & (db & H5 & H6) & H7). do 4 (split; [done|]). split; [|done]. exists db. split; [|done]. rewrite !elem_of_app. tauto.
Qed.
Definition set_top (m : Main) (top : string) : Main :=
  {| m_fabdir := m_fabdir m; m_topdir := top; m_verbose := m_verbose m; m_list := m_list m; m_force := m_force m; m_dryrun := m_dryrun m; m_args := m_args m |}.

Lemma main_eq M fuel m top : in_project M m top ->
  Main_Run M fuel m =
      match k_fs M (at_wd (k_cwd M) (Join [top; "_fab"])) with
      | NotExist => driverless M fuel (set_top m top)
      | _ =>
          match k_load M (at_wd (k_cwd M) top) with
          | NoPackage => driverless M fuel (set_top m top)
          | LoadFails => done [Complain] 1
          | Package path p =>
              let note := if m_verbose m then [Note] else [] in
              let bin := Join [m_fabdir m; path; "fab.bin"] in
              if decide (at_wd (at_wd (k_cwd M) top) bin = at_wd (k_cwd M) bin) then
                match driver M fuel p (at_wd (k_cwd M) top) (driver_args (set_top m top)) with
                | None => None
                | Some (a, 0) => done (note ++ a) 0
                | Some (a, _) => done (note ++ a ++ [Complain]) 1
                end
              else done (note ++ [Complain]) 1
          end
      end.
Proof.
  intros [[Hn ->]|[E Ht]]; unfold Main_Run; [by rewrite decide_False|]. rewrite (decide_True _ _ E), Ht. done.
Qed.
Lemma main_cases M fuel m top : in_project M m top ->
  (no_package M top /\ Main_Run M fuel m = driverless M fuel (set_top m top)) \/
  (k_load M (at_wd (k_cwd M) top) = LoadFails /\ Main_Run M fuel m = done [Complain] 1) \/
  (exists path p, has_package M top path p /\ Main_Run M fuel m =
     let note := if m_verbose m then [Note] else [] in
     let bin := Join [m_fabdir m; path; "fab.bin"] in
     if decide (at_wd (at_wd (k_cwd M) top) bin = at_wd (k_cwd M) bin) then
                match driver M fuel p (at_wd (k_cwd M) top) (driver_args (set_top m top)) with
                | None => None
                | Some (a, 0) => done (note ++ a) 0
                | Some (a, _) => done (note ++ a ++ [Complain]) 1
                end
     else done (note ++ [Complain]) 1).
Proof.
  intros Hp. rewrite (main_eq _ _ _ _ Hp). unfold no_package, has_package.
  destruct (k_fs M _) eqn:Ef; [left; by split; [left|]|..].
  all: destruct (k_load M _) as [| |path p] eqn:El; [left; by split; [right|]|right; left; done|right; right; by exists path, p].
Qed.

Lemma main_request M fuel m top a st r : in_project M m top -> not_flag_first (m_args m) -> Main_Run M fuel m = Some (a, st) -> r ∈ requests a ->
  m_list m = false /\ exists T wd s0 s, reader M top T wd s0 /\ faithful0 M m top wd a r /\ read_ok M T fuel wd top s0 s /\ r_objs r = y_objs s /\ r_reg r = y_reg s.
Proof.
  intros Hp Hn. destruct (main_cases M fuel m top Hp) as [[Hnp ->]|[[_ ->]|(path & p & Hpk & ->)]].
  - intros H Hr. destruct (request_driverless _ _ _ _ _ _ H Hr) as (? & Hf & s & ?). split; [done|].
    exists (k_tags M), (k_cwd M), {| y_objs := []; y_reg := ∅ |}, s. split; [by left|]. done.
  - intros [= <- <-]. by intros ?%elem_of_nil.
  - cbv zeta. case_decide; [|intros [= <- <-]; rewrite requests_app, requests_note; by intros ?%elem_of_nil].
    set (wd := at_wd (k_cwd M) top) in *. destruct (driver M fuel p wd (driver_args (set_top m top))) as [[b n]|] eqn:Ed; [|done].
    intros H' Hr. assert (r ∈ requests b /\ exists x y, a = x ++ b ++ y) as [Hrb (x & y & ->)].
    { destruct n; injection H' as <- <-.
      - rewrite requests_app, requests_note in Hr. split; [done|]. eexists _, []. by rewrite app_nil_r.
      - rewrite !requests_app, requests_note in Hr. split; [|by eexists _, _]. simpl in Hr. by rewrite app_nil_r in Hr. }
    destruct (request_driver M fuel p wd _ (set_top m top) _ _ _ Ed (fun c _ => flags_lem c (set_top m top) Hn) Hrb) as (Hl & _ & Hf & s0 & s & Hg & ?). split; [done|].
    exists (p_tags p), wd, s0, s. split; [right; by exists path, p|]. split; [|done]. apply faithful0_more. exact Hf.
Qed.

Lemma sapp_nil (x : string) : x +:+ "" = x.
Proof. induction x as [|c x IH]; [done|]. change (String c (x +:+ "") = String c x). by rewrite IH. Qed.
Lemma sapp_assoc (x y z : string) : (x +:+ y) +:+ z = x +:+ (y +:+ z).
Proof. induction x as [|c x IH]; [done|]. change (String c ((x +:+ y) +:+ z) = String c (x +:+ (y +:+ z))). by rewrite IH. Qed.
Lemma concat_cons x l : String.concat "" (x :: l) = x +:+ String.concat "" l.
Proof. destruct l; simpl; [by rewrite sapp_nil|done]. Qed.
Lemma concat_app l1 l2 : String.concat "" (l1 ++ l2) = String.concat "" l1 +:+ String.concat "" l2.
Proof. induction l1 as [|x l1 IH]; [done|]. cbn [app]. by rewrite !concat_cons, IH, sapp_assoc. Qed.
Lemma printed_app a b : printed (a ++ b) = printed a +:+ printed b.
Proof. unfold printed. by rewrite omap_app, concat_app. Qed.
Lemma printed_note b : printed (if b : bool then [Note] else []) = "". Proof. by destruct b. Qed.

(** ** Errors in the YAML files. *)
Lemma broken_lem M fuel m top T wd s0 s a st : in_project M m top -> not_flag_first (m_args m) ->
  reader M top T wd s0 -> read_top M T fuel wd top s0 = RErr s false ->
  Main_Run M fuel m = Some (a, st) -> st <> 0 /\ requests a = [] /\ printed a = "".
Proof.
  intros Hp Hn Hr Hb Hm. destruct (main_cases M fuel m top Hp) as [[Hnp E]|[[_ E]|(path & p & Hpk & E)]]; rewrite E in Hm; clear E.
  - destruct Hr as [(_ & -> & -> & ->)|(path & p & [H1 H2] & _)]; [|destruct Hnp; congruence].
    unfold driverless in Hm. simpl in Hm. rewrite Hb in Hm. injection Hm as <- <-. by destruct (m_verbose m).
  - by injection Hm as <- <-.
  - destruct Hr as [[[?|?] _]|(path' & p' & [_ H2] & -> & -> & Hg)]; [by destruct Hpk|destruct Hpk; congruence|].
    destruct Hpk as [_ Hl]. rewrite Hl in H2. injection H2 as <- <-.
    cbv zeta in Hm. case_decide; [|injection Hm as <- <-; by destruct (m_verbose m)].
    set (wd := at_wd (k_cwd M) top) in *.
    assert (Hd : exists b n, driver M fuel p wd (driver_args (set_top m top)) = Some (b, n) /\ n <> 0 /\ requests b = [] /\ printed b = "").
    { unfold driver. destruct (k_cache M) as [cache|]; [|by eexists _, _]. rewrite (flags_lem cache (set_top m top)) by done.
      destruct (register_all _ _) as [s1 []] eqn:E0; [|by eexists _, _]. apply go_targets_ok in E0.
      assert (s1 = s0) as ->.
      { destruct s1 as [o1 r1], s0 as [o0 r0], Hg as [Ho Hg], E0 as [Ho1 Hg1]; simpl in *. f_equal; [congruence|].
        apply map_eq. intros q. apply option_eq. intros [d o]. rewrite Hg, Hg1. done. }
      simpl. rewrite Hb. by eexists _, _. }
    destruct Hd as (b & n & Ed & Hn0 & Hrq & Hpr). rewrite Ed in Hm. destruct n; [done|]. injection Hm as <- <-. split; [done|].
    rewrite !requests_app, requests_note, Hrq. split; [done|]. by rewrite !printed_app, printed_note, Hpr.
Qed.

(** ** Listing. *)
Lemma list_nothing M fuel m top a st : in_project M m top -> not_flag_first (m_args m) -> m_list m = true -> Main_Run M fuel m = Some (a, st) -> requests a = [].
Proof.
  intros Hp Hn Hl Hm. destruct (requests a) as [|r l] eqn:E; [done|]. exfalso.
  destruct (main_request M fuel m top a st r Hp Hn Hm) as [? _]; [rewrite E; by left|congruence].
Qed.
Lemma listing_lem M fuel m top a : in_project M m top -> not_flag_first (m_args m) -> m_list m = true -> Main_Run M fuel m = Some (a, 0) ->
  exists T wd s0 s, reader M top T wd s0 /\ read_ok M T fuel wd top s0 s /\ printed a = ListTargets (fun _ => as_registry (y_reg s)).
Proof.
  intros Hp Hn Hl Hm. destruct (main_cases M fuel m top Hp) as [[Hnp E]|[[_ E]|(path & p & Hpk & E)]]; rewrite E in Hm; clear E.
  - unfold driverless, done in Hm. simpl in Hm. destruct (read_top _ _ _ _ _ _) as [s []|s [|]|] eqn:Er; [| |done|done].
    all: rewrite Hl in Hm; injection Hm as <-; eexists _, _, _, s; (split; [by left|]); (split; [by (left + right)|]).
    all: rewrite printed_app, printed_note; done.
  - done.
  - cbv zeta in Hm. case_decide; [|done]. destruct (driver M fuel p _ (driver_args (set_top m top))) as [[b [|n]]|] eqn:Ed; [|done|done].
    injection Hm as <-. unfold driver, done in Ed. destruct (k_cache M) as [cache|]; [|done]. rewrite (flags_lem cache (set_top m top)) in Ed by done.
    destruct (register_all _ _) as [s0 []] eqn:E0; [|done]. apply go_targets_ok in E0. simpl in Ed.
    destruct (read_top _ _ _ _ _ _) as [s []|s [|]|] eqn:Er; [| |done|done].
    all: destruct (k_db M _) as [db|]; [|done]; rewrite Hl in Ed; injection Ed as <-.
    all: eexists _, _, s0, s; (split; [right; by exists path, p|]); (split; [by (left + right)|]).
    all: rewrite printed_app, printed_note; done.
Qed.
