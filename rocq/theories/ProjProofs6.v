(** What YAML files say and what is executed: order. *)
From stdpp Require Import base gmap list strings relations.
From Verif Require Import PathModel FindModel ContextModel RunnerModel RunnerSpec RunnerSpec2 RunnerProofs RunnerProofs2 RunnerProofs3 RunnerProgress RunnerDet PathProofs3 BuildProofs5 ChainModel ChainProofs ChainProofs2.
From Verif Require Import YamlModel YamlSpec YamlProofs YamlProofs2 ProjModel ProjSpec ProjProofs ProjProofs2 ProjProofs3 ProjLaid ProjProofs4.
Local Open Scope list_scope.

Section order.
  Context (top : string) (fns : list_fns) (leaf : string -> option (node -> string -> bool))
    (ybool : node -> option bool) (docs : string -> option node) (ne : notexist) (s : ystate)
    (lf : string -> node -> string -> option (list string * list string)) (objs' : list shape).
  Notation objs := (y_objs s).
  Notation means := (means top fns leaf ybool docs objs).
  Notation laid := (laid top fns leaf ybool docs s).
  Notation reg := (snd <$> y_reg s).
  Notation asks := (asks objs' reg).
  Context (Hload : loads top fns leaf ybool docs ne s) (Hexp : expands lf (snd <$> y_reg s) objs objs').

  Lemma slot_expanded p i x : slot objs p i x -> objs' !! p = objs !! p.
  Proof.
    unfold slot. intros H. destruct (objs !! p) as [sh|] eqn:E; [|done]. apply (proj1 (proj2 Hexp)); [done|].
    intros t n d ->. done.
  Qed.
  Lemma asks_only p i x p' : only_in s p i x -> ~ is_rule objs' x -> asks p' x -> p' = p.
  Proof.
    intros (Hs & Hu & Hlt & Hreg) Hnr Ha. unfold ProjProofs.asks in Ha.
    destruct (objs' !! p') as [sh|] eqn:E; [|done].
    assert (Hlen : ((exists t n d, sh = SLeaf t n d) \/ exists q u args, reg !! q = Some u /\ sh = SArgs u args) \/ exists sh0, objs !! p' = Some sh0).
    { destruct (decide (p' < length objs)) as [H|H]; [right; by apply lookup_lt_is_Some_2|].
      left. by eapply (proj1 (proj2 (proj2 (proj2 Hexp)))); [|exact E]; lia. }
    destruct Hlen as [[(t & n & d & ->)|(q & u & args & Hq & ->)]|[sh0 E0]]; [done| |].
    { subst u. apply lookup_fmap_Some in Hq as ([d x'] & <- & Hq). by apply Hreg in Hq. }
    assert (Hsh : sh0 = sh \/ exists ts t, (sh = SSeq ts /\ Forall (fun t => length objs <= t) ts) \/ (exists ins outs ac, sh = SFiles t ins outs ac) /\ length objs <= t).
    { destruct sh0 as [n|us|us|t' args|t' ins outs ac|tag nd dir]; try (left; apply (proj1 (proj2 Hexp)) in E0; [congruence|done]).
      destruct (proj1 (proj2 (proj2 Hexp)) _ _ _ _ E0) as [[? _]|[(ts & ? & _ & Hts & _)|(t' & ins & outs & ac & ? & _ & Ht' & _)]].
      - left. congruence.
      - right. exists ts, 0. left. split; [congruence|]. eapply Forall_impl; [exact Hts|]. by intros ? [? _].
      - right. exists [], t'. right. split; [exists ins, outs, ac; congruence|done]. }
    assert (Hpre : forall ins, (exists f, f ∈ prereqs (declare_all (files_of objs')) ins /\ x = f_id f) -> False).
    { intros ins (f & Hf & ->). apply prereqs_inv in Hf as (i0 & Hi & Hf). apply found_in in Hf.
      apply files_elem in Hf as (t' & ac' & Hf). apply Hnr. by eexists _, _, _, _. }
    destruct Hsh as [->|(ts & t & [[-> Hts]|[(ins & outs & ac & ->) Ht]])].
    - destruct sh as [n|us|us|t' args|t' ins outs ac|tag nd dir]; try done.
      + apply lookup_fmap_Some in Ha as ([d x'] & <- & Hq). by apply Hreg in Hq.
      + apply elem_of_list_lookup in Ha as [j Hj]. apply (Hu p' j). unfold slot. by rewrite E0.
      + apply elem_of_list_lookup in Ha as [j Hj]. apply (Hu p' j). unfold slot. by rewrite E0.
      + subst t'. apply (Hu p' 0). unfold slot. by rewrite E0.
      + destruct Ha as [->|Ha]; [|by apply Hpre in Ha]. apply (Hu p' 0). unfold slot. by rewrite E0.
    - rewrite Forall_forall in Hts. apply Hts in Ha. lia.
    - destruct Ha as [->|Ha]; [lia|by apply Hpre in Ha].
  Qed.

  Context (addr : nat -> nat) (leafp : nat -> ctx -> prog).
  Notation w := (project_world addr objs' leafp).
  Notation part_of := (part_of addr objs' leafp reg).
  Notation ok := (ok objs' reg).
  Context (Hinj : forall o1 o2, addr o1 = addr o2 -> o1 = o2) (Honce : defined_once top docs).
  Context (Hquiet : forall o cx ts, ~ may_call (leafp o cx) ts).
  Notation known := (fun q => is_Some (y_reg s !! q)).

  Lemma no_client tr p i x : clients_ask_registered s objs' tr -> only_in s p i x ->
    forall c cx ts, EvCall c None cx ts ∈ tr -> TPtr x ∉ ts.
  Proof.
    intros Hcl (_ & _ & Hlt & Hr) c cx ts Hc Hx. destruct (Hcl _ _ _ _ Hc Hx) as (q & doc & o & [[= <-]|(x' & args & [= <-] & Hge & _)] & Hq); [|lia].
    by apply Hr in Hq.
  Qed.
  Lemma start_addr tr l1 g a (x : nat) cx l2 p i : part_of tr (l1 ++ EvStart g a x cx :: l2) -> only_in s p i x -> a = addr x.
  Proof.
    intros Hp (_ & _ & _ & Hr).
    destruct (start_call addr objs' leafp reg _ _ _ _ _ _ _ Hp) as (c & p' & cx' & ts & d & _ & _ & -> & Hres). f_equal.
    destruct (is_ref_dec addr objs' leafp d) as [[n Hn]|Hn].
    - apply (resolution_ref _ _ _ _ _ _ _ Hn) in Hres. apply lookup_fmap_Some in Hres as ([d' x'] & <- & Hq). by apply Hr in Hq.
    - by apply (resolution_own _ _ _ _ _ _ Hn) in Hres as ->.
  Qed.
  Lemma start_owner tr l1 g a (x : nat) cx l2 p : part_of tr (l1 ++ EvStart g a x cx :: l2) -> clients_ask_registered s objs' tr ->
    own_part s objs' p x -> exists g' a' cx', EvStart g' a' p cx' ∈ l1.
  Proof.
    intros Hp Hcl (i & Ho & Hnr). pose proof (start_addr _ _ _ _ _ _ _ _ _ Hp Ho) as ->.
    destruct (start_call addr objs' leafp reg _ _ _ _ _ _ _ Hp) as (c & p' & cx' & ts & d & Hc & Hd & Ha & _).
    apply Hinj in Ha as <-. destruct p' as [g'|].
    2:{ exfalso. eapply (no_client _ _ _ _ Hcl Ho); [|exact Hd]. destruct Hp as [_ [l3 ->]]. rewrite <-app_assoc. apply elem_of_app. by left. }
    apply elem_of_list_split in Hc as (m1 & m2 & ->). rewrite <-app_assoc in *. cbn [app] in *.
    pose proof (part_trace _ _ _ _ _ _ Hp) as Ht.
    destruct (concerns_started w m1 _ _ g' Ht) as (a' & o' & cx0 & Hs); [done|].
    destruct (body_call addr objs' leafp reg Hinj Hquiet _ _ _ _ _ _ _ _ _ _ _ Hp Hs Hd) as (? & [= <-] & Hask).
    apply (asks_only _ _ _ _ Ho Hnr) in Hask as ->. exists g', a', cx0. apply elem_of_app. by left.
  Qed.
  Lemma start_within tr y x : in_place s objs' y x -> clients_ask_registered s objs' tr ->
    forall l1 g a cx l2, part_of tr (l1 ++ EvStart g a x cx :: l2) ->
    exists m1 m2 g' a' cx', part_of tr (m1 ++ EvStart g' a' y cx' :: m2) /\ exists k, l1 = m1 ++ k.
  Proof.
    intros Hin Hcl. induction Hin as [x|y z x Hyz _ IH]; intros l1 g a cx l2 Hp.
    { exists l1, l2, g, a, cx. split; [done|]. exists []. by rewrite app_nil_r. }
    destruct (IH _ _ _ _ _ Hp) as (m1 & m2 & g' & a' & cx' & Hp' & k & ->).
    destruct (start_owner _ _ _ _ _ _ _ _ Hp' Hcl Hyz) as (g2 & a2 & cx2 & Hs).
    apply elem_of_list_split in Hs as (k1 & k2 & ->). exists k1, k2, g2, a2, cx2.
    split.
    - eapply (part_prefix _ _ _ _ _ _ (EvStart g' a' z cx' :: m2)). rewrite <-app_assoc. cbn [app]. rewrite <-app_assoc in Hp'. exact Hp'.
    - exists ((EvStart g2 a2 y cx2 :: k2) ++ k). by rewrite <-!app_assoc.
  Qed.

  Lemma start_inside tr y x : in_place s objs' y x -> clients_ask_registered s objs' tr ->
    forall l1 g a cx l2, part_of tr (l1 ++ EvStart g a x cx :: l2) -> x = y \/ exists g' a' cx', EvStart g' a' y cx' ∈ l1.
  Proof.
    intros Hin Hcl. induction Hin as [x|y z x Hyz _ IH]; intros l1 g a cx l2 Hp; [by left|]. right.
    destruct (IH _ _ _ _ _ Hp) as [->|(g' & a' & cx' & Hs)].
    - by eapply start_owner.
    - apply elem_of_list_split in Hs as (k1 & k2 & ->). rewrite <-app_assoc in Hp. cbn [app] in Hp.
      destruct (start_owner _ _ _ _ _ _ _ _ Hp Hcl Hyz) as (g2 & a2 & cx2 & Hs). exists g2, a2, cx2. apply elem_of_app. by left.
  Qed.

  (** What is required of a part whose target was met has been carried out. *)
  Lemma met tr l dir c t d m : part_of tr l -> means dir c t -> ok l t -> required top fns docs lf false known dir c d m -> tagged m ->
    exists z, means d m z /\ ended_well z l.
  Proof.
    intros Hp Hm Hok Hr Htag.
    destruct (required_done top fns leaf ybool docs ne s lf objs' Hload Hexp addr leafp Hinj Honce false tr l dir c d m Hp ltac:(done) Hr t Hm Hok) as (z & Hz & Hokz).
    exists z. split; [done|]. destruct Hokz as [z Hn Hw|z n x' Hn Hreg _]; [done|].
    by apply (tagged_own top fns leaf ybool docs s lf objs' Hexp _ _ _ Hz Htag) in Hn.
  Qed.
  Lemma met_mono z l k : ended_well z l -> ended_well z (l ++ k).
  Proof. intros (g & a & H). exists g, a. apply elem_of_app. by left. Qed.

  (** The start of what is written in the [j]th place: every earlier one was met. *)
  Lemma part_start tr l1 g a (x : nat) cx l2 (o : nat) ts j y :
    part_of tr (l1 ++ EvStart g a x cx :: l2) -> clients_ask_registered s objs' tr ->
    objs !! o = Some (SSeq ts) -> ts !! j = Some y -> only_in s o j y -> ~ is_rule objs' y -> in_place s objs' y x ->
    exists m k, l1 = m ++ k /\ part_of tr m /\ forall i t, i < j -> ts !! i = Some t -> ok m t.
  Proof.
    intros Hp Hcl Ho Hj Honly Hnr Hin.
    destruct (start_within _ _ _ Hin Hcl _ _ _ _ _ Hp) as (m1 & m2 & g' & a' & cx' & Hp' & k & ->).
    exists m1, k. split; [done|]. split; [by eapply part_prefix|].
    pose proof (start_addr _ _ _ _ _ _ _ _ _ Hp' Honly) as ->.
    apply (seq_start addr objs' leafp reg Hinj Hquiet tr m1 g' y y cx' m2 o ts j Hp').
    - rewrite (slot_expanded o j y); [done|]. by destruct Honly.
    - done.
    - intros p. by apply (asks_only o j).
    - intros j' Hj'. destruct Honly as (_ & Hu & _). apply (Hu o j'). unfold slot. by rewrite Ho.
    - by eapply no_client.
  Qed.
  Lemma laid_means dir n o : laid dir n o -> means dir n o.
  Proof. by destruct 1. Qed.
  Lemma laid_own dir n o c p j x : laid dir n o -> placed objs n o c p j x -> tagged c -> only_in s p j x.
  Proof. destruct 1 as [n o _ H _ _]. apply H. Qed.
  Lemma laid_part dir n o c p j x : laid dir n o -> placed objs n o c p j x -> tagged c -> laid dir c x.
  Proof. destruct 1 as [n o _ _ H _]. apply H. Qed.
  Lemma laid_spot dir good n o m y : spot objs good n o m y -> laid dir n o -> laid dir m y.
  Proof. induction 1 as [|n o c p j x m y Hpl Ht _ _ IH]; [done|]. intros Hl. apply IH. by eapply laid_part. Qed.
  Lemma laid_deps dir n o : laid dir n o -> has_tag n "Deps" -> exists a t os post pre,
    objs !! o = Some (SSeq [a; t]) /\ objs !! a = Some (SAll os) /\ deps_parts n post pre /\ only_in s o 0 a /\
    means dir post t /\ Forall2 (means dir) pre os.
  Proof.
    intros Hl Ht. destruct (means_tag _ _ _ _ _ _ _ _ _ _ (laid_means _ _ _ Hl) Ht) as (_ & _ & H3 & _).
    destruct (H3 eq_refl) as (post & pre & t & a & os & Hk & Hp & Hos & Ha & Ho).
    exists a, t, os, post, pre. split_and!; try done; [|by apply denote_Forall2].
    destruct Hl as [n o _ _ _ H]. apply (H a Ht). unfold slot. by rewrite Ho.
  Qed.
  Lemma spot_in_place dir n o m y : spot objs (fun x => ~ is_rule objs' x) n o m y -> laid dir n o -> in_place s objs' o y.
  Proof.
    induction 1 as [|n o c p j x m y Hpl Ht Hg _ IH]; intros Hl; [constructor|].
    pose proof (laid_own _ _ _ _ _ _ _ Hl Hpl Ht) as Honly. etrans; [|by apply IH; eapply laid_part].
    destruct Hpl as [j c x Htg Hc Hs|post pre x Htg Hd Hs|post pre a j c x Htg Hd Hs Hc Hx|c cs x Htg Hc Hs|fs x Htg Hd Hs];
      try (apply rtc_once; by eexists).
    destruct (laid_deps _ _ _ Hl Htg) as (a' & t & os & post' & pre' & Ho & Ha & _ & Hoa & _).
    assert (a = a') as -> by (unfold slot in Hs; rewrite Ho in Hs; simpl in Hs; by injection Hs).
    eapply rtc_l; [|apply rtc_once; by exists j]. exists 0. split; [done|].
    intros (? & ? & ? & ? & E). pose proof (kept s lf objs' Hexp _ _ Ha ltac:(done)). congruence.
  Qed.
  Lemma seq_start_lem tr l1 g a (x : nat) cx l2 dir n o i j ci cj y n' d m :
    part_of tr (l1 ++ EvStart g a x cx :: l2) -> clients_ask_registered s objs' tr ->
    laid dir n o -> has_tag n "Seq" -> i < j -> n_content n !! i = Some ci -> n_content n !! j = Some cj -> tagged cj ->
    slot objs o j y -> ~ is_rule objs' y -> spot objs (fun x => ~ is_rule objs' x) cj y n' x ->
    required top fns docs lf false known dir ci d m -> tagged m ->
    exists z, means d m z /\ ended_well z l1.
  Proof.
    intros Hp Hcl Hl Ht Hij Hci Hcj Htag Hslot Hnr Hin Hreq Htm.
    destruct (means_tag _ _ _ _ _ _ _ _ _ _ (laid_means _ _ _ Hl) Ht) as (_ & H2 & _).
    destruct (H2 eq_refl) as (_ & os & Hos & Ho). apply denote_Forall2 in Hos.
    assert (Hpl : placed objs n o cj o j y) by (by apply placed_list; [right|..]).
    pose proof (laid_own _ _ _ _ _ _ _ Hl Hpl Htag) as Honly. pose proof (laid_part _ _ _ _ _ _ _ Hl Hpl Htag) as Hlc.
    apply (spot_in_place dir) in Hin; [|done].
    assert (Hj : os !! j = Some y) by (unfold slot in Hslot; by rewrite Ho in Hslot).
    destruct (part_start _ _ _ _ _ _ _ _ _ _ _ Hp Hcl Ho Hj Honly Hnr Hin) as (k1 & k2 & -> & Hp1 & Hall).
    destruct (Forall2_lookup_l _ _ _ _ _ Hos Hci) as (t & Hti & Hmt).
    destruct (met _ _ _ _ _ _ _ Hp1 Hmt (Hall _ _ Hij Hti) Hreq Htm) as (z & Hz & Hw).
    exists z. split; [done|]. by apply met_mono.
  Qed.
  Lemma ok_all tr l (a0 t : nat) os : part_of tr l -> ok l a0 -> objs !! a0 = Some (SAll os) -> t ∈ os -> ok l t.
  Proof.
    intros Hp Hok Ha Hin. eapply (ok_insists addr objs' leafp reg Hinj); [exact Hp|exact Hok|].
    unfold insists, ProjProofs.asks. by rewrite (kept s lf objs' Hexp _ _ Ha ltac:(done)).
  Qed.
  Lemma deps_start_lem tr l1 g a (x : nat) cx l2 dir n o post pre c y n' d m :
    part_of tr (l1 ++ EvStart g a x cx :: l2) -> clients_ask_registered s objs' tr ->
    laid dir n o -> has_tag n "Deps" -> deps_parts n post pre -> c ∈ pre -> tagged post ->
    slot objs o 1 y -> ~ is_rule objs' y -> spot objs (fun x => ~ is_rule objs' x) post y n' x ->
    required top fns docs lf false known dir c d m -> tagged m ->
    exists z, means d m z /\ ended_well z l1.
  Proof.
    intros Hp Hcl Hl Ht Hdp Hc Htag Hslot Hnr Hin Hreq Htm.
    assert (Hpl : placed objs n o post o 1 y) by (by eapply placed_post).
    pose proof (laid_own _ _ _ _ _ _ _ Hl Hpl Htag) as Honly. pose proof (laid_part _ _ _ _ _ _ _ Hl Hpl Htag) as Hlc.
    apply (spot_in_place dir) in Hin; [|done].
    destruct (laid_deps _ _ _ Hl Ht) as (a0 & t & os & post' & pre' & Ho & Ha0 & Hdp' & _ & Hpost & Hpre).
    destruct (deps_parts_fun _ _ _ _ _ Hdp Hdp') as [-> ->].
    assert (Hy : y = t) by (unfold slot in Hslot; rewrite Ho in Hslot; by injection Hslot).
    subst y. destruct (part_start _ _ _ _ _ _ _ _ _ 1 t Hp Hcl Ho eq_refl Honly Hnr Hin) as (k1 & k2 & -> & Hp1 & Hall).
    apply elem_of_list_lookup in Hc as [i Hi]. destruct (Forall2_lookup_l _ _ _ _ _ Hpre Hi) as (u & Hui & Hmu).
    assert (Hok : ok k1 u). { eapply ok_all; [exact Hp1|apply (Hall 0 a0); [lia|done]|done|by eapply elem_of_list_lookup_2]. }
    destruct (met _ _ _ _ _ _ _ Hp1 Hmu Hok Hreq Htm) as (z & Hz & Hw).
    exists z. split; [done|]. by apply met_mono.
  Qed.

  (** Requests: what a Seq asks for next. *)
  Lemma seq_call tr l1 c g cx' ts l2 a (o : nat) cx os :
    part_of tr (l1 ++ EvCall c (Some g) cx' ts :: l2) -> EvStart g a o cx ∈ l1 -> objs !! o = Some (SSeq os) ->
    exists j t, os !! j = Some t /\ ts = [TPtr t] /\ forall i t', i < j -> os !! i = Some t' -> ok l1 t'.
  Proof.
    intros Hp Hs Ho. pose proof (part_trace _ _ _ _ _ _ Hp) as Ht. pose proof (kept s lf objs' Hexp _ _ Ho ltac:(done)) as Ho'.
    assert (Hn : forall n, ~ is_ref objs' o n) by (intros n Hn; unfold is_ref in Hn; congruence).
    destruct (seq_order_lem w l1 c g cx' ts _ a o cx (TPtr <$> os) Ht Hs) as (_ & u & Hu & -> & Hsucc).
    { rewrite (body_own _ _ _ _ _ Hn). unfold target_prog. by rewrite Ho'. }
    rewrite list_lookup_fmap in Hu. apply fmap_Some in Hu as (t & Et & ->). exists (length (calls_by g l1)), t.
    split; [done|]. split; [done|]. intros i t' Hi Ht'.
    apply (succ_ok addr objs' leafp reg Hinj tr); [by eapply part_prefix|]. apply (Hsucc i); [done|].
    rewrite list_lookup_fmap. exact (fmap_Some_2 TPtr _ _ Ht').
  Qed.
  Lemma seq_call_lem tr l1 c g cx' ts l2 a (o : nat) cx dir n :
    part_of tr (l1 ++ EvCall c (Some g) cx' ts :: l2) -> EvStart g a o cx ∈ l1 -> means dir n o -> has_tag n "Seq" ->
    exists j cj t, n_content n !! j = Some cj /\ means dir cj t /\ ts = [TPtr t] /\
      forall i ci d m, i < j -> n_content n !! i = Some ci -> required top fns docs lf false known dir ci d m -> tagged m ->
        exists z, means d m z /\ ended_well z l1.
  Proof.
    intros Hp Hs Hm Ht. destruct (means_tag _ _ _ _ _ _ _ _ _ _ Hm Ht) as (_ & H2 & _).
    destruct (H2 eq_refl) as (_ & os & Hos & Ho). apply denote_Forall2 in Hos.
    destruct (seq_call _ _ _ _ _ _ _ _ _ _ _ Hp Hs Ho) as (j & t & Hj & -> & Hall).
    destruct (Forall2_lookup_r _ _ _ _ _ Hos Hj) as (cj & Hcj & Hmt). exists j, cj, t. split; [done|]. split; [done|]. split; [done|].
    intros i ci d m Hij Hci Hreq Htm. destruct (Forall2_lookup_l _ _ _ _ _ Hos Hci) as (u & Hui & Hmu).
    eapply met; [by eapply part_prefix|exact Hmu|by eapply Hall|done|done].
  Qed.
  Lemma deps_call_lem tr l1 c g cx' ts l2 a (o : nat) cx dir n post pre :
    part_of tr (l1 ++ EvCall c (Some g) cx' ts :: l2) -> EvStart g a o cx ∈ l1 -> means dir n o -> has_tag n "Deps" -> deps_parts n post pre ->
    (exists a0 os, ts = [TPtr a0] /\ objs !! a0 = Some (SAll os) /\ Forall2 (means dir) pre os) \/
    (exists t, ts = [TPtr t] /\ means dir post t /\
      forall ci d m, ci ∈ pre -> required top fns docs lf false known dir ci d m -> tagged m ->
        exists z, means d m z /\ ended_well z l1).
  Proof.
    intros Hp Hs Hm Ht Hdp. destruct (means_tag _ _ _ _ _ _ _ _ _ _ Hm Ht) as (_ & _ & H3 & _).
    destruct (H3 eq_refl) as (post' & pre' & t & a0 & os & Hdp' & Hpost & Hpre & Ha0 & Ho). apply denote_Forall2 in Hpre.
    destruct (deps_parts_fun _ _ _ _ _ Hdp Hdp') as [-> ->].
    destruct (seq_call _ _ _ _ _ _ _ _ _ _ _ Hp Hs Ho) as (j & u & Hj & -> & Hall).
    destruct j as [|[|j]]; simpl in Hj; [| |done]; injection Hj as <-.
    - left. by exists a0, os.
    - right. exists t. split; [done|]. split; [done|]. intros ci d m Hci Hreq Htm.
      apply elem_of_list_lookup in Hci as [i Hi]. destruct (Forall2_lookup_l _ _ _ _ _ Hpre Hi) as (v & Hvi & Hmv).
      eapply met; [by eapply part_prefix|exact Hmv| |done|done].
      eapply ok_all; [by eapply part_prefix|apply (Hall 0 a0); [lia|done]|done|by eapply elem_of_list_lookup_2].
  Qed.
  (** What a registered name's definition was made into. *)
  Lemma def_laid q doc o dir k v : y_reg s !! q = Some (doc, o) -> defines top docs dir q k v -> tagged v -> laid dir v o.
  Proof.
    intros Hq Hd Ht. destruct (loads_reg_laid top fns leaf ybool docs ne s q doc o Hload Hq) as (dir' & k' & v' & Hd' & H).
    destruct (Honce _ _ _ _ _ _ _ Hd Hd') as [-> ->]. by apply H.
  Qed.
End order.
