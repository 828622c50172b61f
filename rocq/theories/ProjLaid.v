(** Parts written in place belong to one target only. *)
From stdpp Require Import base gmap list strings.
From Verif Require Import PathModel FindModel ContextModel RunnerModel RunnerSpec RunnerSpec2.
From Verif Require Import YamlModel YamlSpec YamlProofs YamlProofs2 ProjModel ProjSpec ProjProofs3.
Local Open Scope list_scope.

Section origin.
  Context (top : string) (fns : list_fns) (leaf : string -> option (node -> string -> bool))
    (ybool : node -> option bool) (docs : string -> option node) (ne : notexist).
  Notation means := (means top fns leaf ybool docs).
  Notation no_pre := (fun _ _ => False).
  Notation inv := (inv top fns leaf ybool no_pre (defines top docs)).
  Notation ext := (ext top fns leaf ybool no_pre (defines top docs)).
  Notation written := (written top docs).
  Notation YT := (YAMLTarget top fns leaf ybool docs ne).

  (** ** Objects: which have which *)
  Definition regd (s : ystate) (x : nat) : Prop := exists q d, y_reg s !! q = Some (d, x).
  Definition free (s : ystate) (x : nat) : Prop := x < length (y_objs s) /\ ~ regd s x /\ forall p i, ~ slot (y_objs s) p i x.
  Definition frame (s s' : ystate) : Prop :=
    y_objs s `prefix_of` y_objs s' /\
    forall x, x < length (y_objs s) -> ~ regd s x -> ~ regd s' x /\ forall p i, length (y_objs s) <= p -> ~ slot (y_objs s') p i x.
  Lemma slot_lt objs p i x : slot objs p i x -> p < length objs.
  Proof. unfold slot. destruct (objs !! p) as [sh|] eqn:E; [|done]. intros _. by eapply lookup_lt_Some. Qed.
  Lemma slot_prefix objs objs' p i x : objs `prefix_of` objs' -> p < length objs -> slot objs' p i x <-> slot objs p i x.
  Proof.
    intros Hp Hlt. apply lookup_lt_is_Some in Hlt as [sh Hsh]. unfold slot.
    by rewrite Hsh, (prefix_lookup _ _ _ _ Hsh Hp).
  Qed.
  Lemma frame_refl s : frame s s.
  Proof. split; [done|]. intros x _ Hr. split; [done|]. intros p i Hge Hs. apply slot_lt in Hs. lia. Qed.
  Lemma frame_trans s1 s2 s3 : frame s1 s2 -> frame s2 s3 -> frame s1 s3.
  Proof.
    intros [Hp1 H1] [Hp2 H2]. split; [by etrans|]. intros x Hlt Hr. destruct (H1 x Hlt Hr) as [Hr2 Hs2].
    pose proof (prefix_length _ _ Hp1) as Hlen.
    destruct (H2 x) as [Hr3 Hs3]; [lia|done|]. split; [done|]. intros p i Hge Hs.
    destruct (decide (p < length (y_objs s2))) as [Hlt2|Hge2].
    - apply (slot_prefix _ _ _ _ _ Hp2 Hlt2) in Hs. by eapply Hs2.
    - eapply Hs3; [|exact Hs]. lia.
  Qed.
  Lemma free_frame s s' x : frame s s' -> free s x -> free s' x.
  Proof.
    intros [Hp H] (Hlt & Hr & Hs). pose proof (prefix_length _ _ Hp) as Hlen. destruct (H x Hlt Hr) as [Hr' Hs'].
    split; [lia|]. split; [done|]. intros p i Hsl. destruct (decide (p < length (y_objs s))) as [Hlt2|Hge2].
    - apply (slot_prefix _ _ _ _ _ Hp Hlt2) in Hsl. by eapply Hs.
    - eapply Hs'; [|exact Hsl]. lia.
  Qed.
  Lemma means_lt objs dir n o : means objs dir n o -> o < length objs.
  Proof. induction 1 as [| |dir n o q ? ? ? ? ? []| | | | | | | ]; try done; by eapply lookup_lt_Some. Qed.

  Lemma deps_parts_fun n post pre post' pre' : deps_parts n post pre -> deps_parts n post' pre' -> post' = post /\ pre' = pre.
  Proof.
    intros [[K1 E1]|(K1 & fs & E1 & -> & E2)] [[K2 F1]|(K2 & fs' & F1 & -> & F2)]; try congruence.
    - rewrite E1 in F1. by injection F1.
    - assert (fs' = fs) as -> by congruence. split; congruence.
  Qed.
  (** [T]: the targets that belong to one place for good. *)
  Inductive laidT (T : nat -> Prop) (objs : list shape) (dir : string) : node -> nat -> Prop :=
    | laidT_intro n o :
        means objs dir n o ->
        (forall c p j x, placed objs n o c p j x -> tagged c -> T x) ->
        (forall c p j x, placed objs n o c p j x -> tagged c -> laidT T objs dir c x) ->
        (forall a, has_tag n "Deps" -> slot objs o 0 a -> T a) ->
        laidT T objs dir n o.
  Lemma laidT_means T objs dir n o : laidT T objs dir n o -> means objs dir n o.
  Proof. by destruct 1. Qed.
  Lemma placed_prefix objs objs' dir n o c p j x : objs `prefix_of` objs' -> means objs dir n o ->
    placed objs' n o c p j x -> placed objs n o c p j x.
  Proof.
    intros Hp Hm. assert (Hsl : forall j x, slot objs' o j x -> slot objs o j x).
    { intros j' x'. apply (slot_prefix _ _ o j' x' Hp). by eapply means_lt. }
    intros Hpl. destruct Hpl as [j c x Ht Hc Hs|post pre x Ht Hd Hs|post pre a j c x Ht Hd Hs Hc Hx|c cs x Ht Hc Hs|fs x Ht Hd Hs].
    - by eapply placed_list; [..|apply Hsl].
    - by eapply placed_post; [..|apply Hsl].
    - apply Hsl in Hs. eapply placed_pre; [done|done|exact Hs|done|].
      apply (slot_prefix _ _ _ _ _ Hp); [|done].
      destruct Hm as [dir n o Hu|dir n o q Hu|dir n o q Hu|dir n o q dir' k v Hu|dir n o os Ht'|dir n o os Ht'
        |dir n o post' pre' t1 a' os Ht' Hk Hpo Hos Ha Ho|dir n o c' cs t1 args Ht'|dir n o fs t1 ins outs ac Ht'|dir n o t1 acc Ht' Hnt];
        try (by destruct (untagged_has _ _ Hu Ht)); try (by pose proof (has_tag_fun _ _ _ Ht Ht')).
      + unfold slot in Hs. rewrite Ho in Hs. simpl in Hs. injection Hs as <-. by eapply lookup_lt_Some.
      + exfalso. apply Hnt. pose proof (has_tag_fun _ _ _ Ht Ht') as <-. rewrite !elem_of_cons. tauto.
    - by eapply placed_arg; [..|apply Hsl].
    - by eapply placed_files; [..|apply Hsl].
  Qed.
  Lemma laidT_mono (T T' : nat -> Prop) objs objs' dir n o : (forall x, T x -> T' x) -> objs `prefix_of` objs' ->
    laidT T objs dir n o -> laidT T' objs' dir n o.
  Proof.
    intros Ho Hp. induction 1 as [n o H1 H2 H3 IH H4].
    constructor.
    - by eapply denotes_mono.
    - intros c p j x Hpl Ht. eapply Ho, H2; [by eapply placed_prefix|done].
    - intros c p j x Hpl Ht. eapply IH; [by eapply placed_prefix|done].
    - intros a Ht Hs. apply Ho, H4; [done|]. apply (slot_prefix _ _ _ _ _ Hp); [by eapply means_lt|done].
  Qed.
  (** Target [o] was made for a node of some definition. *)
  Definition made (T : nat -> Prop) (objs : list shape) (o : nat) : Prop :=
    exists q dir n, written q dir n /\
      ((laidT T objs dir n o /\ (tagged n \/ exists m, objs !! o = Some (SRef m))) \/
       exists o' t, laidT T objs dir n o' /\ has_tag n "Deps" /\ objs !! o' = Some (SSeq [o; t])).
  Lemma made_mono (T T' : nat -> Prop) objs objs' o : (forall x, T x -> T' x) -> objs `prefix_of` objs' -> made T objs o -> made T' objs' o.
  Proof.
    intros Ht Hp (q & dir & n & Hw & H). exists q, dir, n. split; [done|].
    destruct H as [[H Htag]|(o' & t & H1 & H2 & H3)].
    - left. split; [by eapply laidT_mono|]. destruct Htag as [?|[m Hm]]; [by left|right]. exists m. by eapply prefix_lookup.
    - right. exists o', t. split_and!; [by eapply laidT_mono|done|by eapply prefix_lookup].
  Qed.
  Record okC (T : nat -> Prop) (s : ystate) : Prop := {
    ok_inv : inv s;
    ok_only : forall x, T x -> exists p i, only_in s p i x;
    ok_closed : forall p i x, slot (y_objs s) p i x -> x < p
  }.
  Record okT (T : nat -> Prop) (s : ystate) : Prop := {
    ok_C : okC T s;
    ok_made : forall o, o < length (y_objs s) -> made T (y_objs s) o;
    ok_reg : forall q d o, y_reg s !! q = Some (d, o) ->
      exists dir k v, defines top docs dir q k v /\ (tagged v -> laidT T (y_objs s) dir v o)
  }.
  Record from (T : nat -> Prop) (s : ystate) (T' : nat -> Prop) (s' : ystate) : Prop := {
    fr_ext : ext s s';
    fr_frame : frame s s';
    fr_more : forall x, T x -> T' x;
    fr_new : forall x, T' x -> T x \/ length (y_objs s) <= x
  }.
  Lemma from_refl T s : from T s T s.
  Proof. split; [apply ext_refl|apply frame_refl|auto|auto]. Qed.
  Lemma from_len T s T' s' : from T s T' s' -> length (y_objs s) <= length (y_objs s').
  Proof. intros H. apply prefix_length, (fr_ext _ _ _ _ H). Qed.
  Lemma from_trans T1 s1 T2 s2 T3 s3 : from T1 s1 T2 s2 -> from T2 s2 T3 s3 -> from T1 s1 T3 s3.
  Proof.
    intros H1 H2. pose proof (from_len _ _ _ _ H1) as Hl. destruct H1 as [E1 F1 M1 N1]. destruct H2 as [E2 F2 M2 N2].
    split; [by eapply ext_trans|by eapply frame_trans|auto|].
    intros x [Hx|Hx]%N2; [|right; lia]. by apply N1.
  Qed.
  Definition og {A} (T : nat -> Prop) (s : ystate) (r : res A) (P : (nat -> Prop) -> ystate -> A -> Prop) : Prop :=
    match r with
    | ROk s' a => exists T', okT T' s' /\ from T s T' s' /\ P T' s' a
    | RErr s' _ => exists T', okT T' s' /\ from T s T' s'
    | ROut => True
    end.
  Lemma og_bind {A B} T0 s0 T s (r : res A) (f : ystate -> A -> res B) P Q :
    from T0 s0 T s -> og T s r P ->
    (forall T' s' a, okT T' s' -> from T0 s0 T' s' -> from T s T' s' -> P T' s' a -> og T0 s0 (f s' a) Q) -> og T0 s0 (bind r f) Q.
  Proof.
    intros H0 H Hf. destruct r as [s' a|s' e|]; [| |exact I].
    - destruct H as (T' & Hi & He & HP). apply (Hf T' s' a Hi); [by eapply from_trans|done|done].
    - destruct H as (T' & Hi & He). exists T'. split; [done|]. by eapply from_trans.
  Qed.
  Lemma og_err {A} T0 s0 T s e (P : (nat -> Prop) -> ystate -> A -> Prop) : okT T s -> from T0 s0 T s -> og T0 s0 (RErr s e) P.
  Proof. intros. by exists T. Qed.

  Definition add (s : ystate) (sh : shape) : ystate := {| y_objs := y_objs s ++ [sh]; y_reg := y_reg s |}.
  Lemma ext_add s sh : ext s (add s sh).
  Proof. split; [by apply prefix_app_r|]. simpl. auto. Qed.
  Lemma add_at s (sh : shape) : y_objs (add s sh) !! length (y_objs s) = Some sh.
  Proof. simpl. by rewrite lookup_app_r, Nat.sub_diag by done. Qed.
  Lemma add_length s sh : length (y_objs (add s sh)) = S (length (y_objs s)).
  Proof. simpl. rewrite app_length. simpl. lia. Qed.
  Lemma add_prefix s sh : y_objs s `prefix_of` y_objs (add s sh).
  Proof. by apply prefix_app_r. Qed.
  (** The parts of an object. *)
  Definition part_at (sh : shape) (i x : nat) : Prop :=
    match sh with SAll ts | SSeq ts => ts !! i = Some x | SArgs t _ | SFiles t _ _ _ => i = 0 /\ x = t | _ => False end.
  Lemma slot_add s sh p i x : slot (y_objs (add s sh)) p i x <->
    (p < length (y_objs s) /\ slot (y_objs s) p i x) \/ (p = length (y_objs s) /\ part_at sh i x).
  Proof.
    assert (Hnew : slot (y_objs (add s sh)) (length (y_objs s)) i x <-> part_at sh i x).
    { unfold slot. rewrite add_at. by destruct sh. }
    split.
    - intros H. destruct (decide (p < length (y_objs s))) as [Hlt|Hge].
      + left. split; [done|]. by apply (slot_prefix _ _ p i x (add_prefix s sh) Hlt).
      + right. pose proof (slot_lt _ _ _ _ H) as Hl. rewrite add_length in Hl. assert (p = length (y_objs s)) as -> by lia.
        split; [done|]. by apply Hnew.
    - intros [[Hlt H]|[-> H]]; [|by apply Hnew]. by apply (slot_prefix _ _ p i x (add_prefix s sh) Hlt).
  Qed.
  (** Everything is about objects that there are. *)
  Lemma regd_lt s x : inv s -> regd s x -> x < length (y_objs s).
  Proof.
    intros Hi (q & d & E). destruct (Hi q d x E) as [[]|(d' & o' & dir & k & v & E' & _ & _ & Hm)].
    assert (o' = x) as -> by congruence. by eapply means_lt.
  Qed.
  Lemma free_notT T s x : okC T s -> free s x -> ~ T x.
  Proof. intros Hok (_ & _ & Hs) Hx. destruct (ok_only _ _ Hok x Hx) as (p & i & H & _). by eapply Hs. Qed.
  Lemma regd_notT T s x : okC T s -> regd s x -> ~ T x.
  Proof. intros Hok (q & d & E) Hx. destruct (ok_only _ _ Hok x Hx) as (p & i & _ & _ & _ & H). by eapply H. Qed.
  Lemma notT_from T s T' s' x : from T s T' s' -> x < length (y_objs s) -> ~ T x -> ~ T' x.
  Proof. intros Hf Hlt Hx [?|?]%(fr_new _ _ _ _ Hf); [done|lia]. Qed.

  (** A new object [sh] made in state [s], begun in [s0]; its parts in [N] become its own. *)
  Lemma add_okC T0 s0 T s sh (N : nat -> Prop) :
    from T0 s0 T s -> okC T s ->
    (forall i x, part_at sh i x -> x < length (y_objs s) /\ ~ T x /\ (x < length (y_objs s0) -> regd s0 x)) ->
    (forall x, N x -> free s x /\ length (y_objs s0) <= x /\ exists i, part_at sh i x /\ forall i', part_at sh i' x -> i' = i) ->
    okC (fun x => T x \/ N x) (add s sh) /\ from T0 s0 (fun x => T x \/ N x) (add s sh) /\
    free (add s sh) (length (y_objs s)) /\ length (y_objs s0) <= length (y_objs s).
  Proof.
    intros Hf Hok Hpart HN. pose proof (from_len _ _ _ _ Hf) as Hlen. split; [|split; [|split; [split; [|split]|]]].
    - split.
      + eapply ext_inv; [apply ext_add|apply Hok].
      + intros x [Hx|Hx].
        * destruct (ok_only _ _ Hok x Hx) as (p & i & Hs & Hu & Hlt & Hr). exists p, i. split_and!.
          -- apply slot_add. left. split; [by eapply slot_lt|done].
          -- intros p' i' [[_ H]|[-> H]]%slot_add; [by apply Hu|]. by destruct (Hpart _ _ H) as (_ & ? & _).
          -- rewrite add_length. lia.
          -- done.
        * destruct (HN x Hx) as ((Hlt & Hr & Hs) & _ & i & Hp & Hu). exists (length (y_objs s)), i. split_and!.
          -- apply slot_add. by right.
          -- intros p' i' [[_ H]|[-> H]]%slot_add; [by apply Hs in H|]. split; [done|]. by apply Hu.
          -- rewrite add_length. lia.
          -- intros q' d E. apply Hr. by exists q', d.
      + intros p i x [[_ H]|[-> H]]%slot_add.
        * by apply (ok_closed _ _ Hok) in H.
        * by apply Hpart in H as [? _].
    - split.
      + eapply ext_trans; [apply Hf|apply ext_add].
      + destruct (fr_frame _ _ _ _ Hf) as [Hp H]. split; [etrans; [exact Hp|apply add_prefix]|]. intros x Hlt Hr.
        destruct (H x Hlt Hr) as [Hr' Hs']. split; [done|].
        intros p i Hge [[Hlt' Hs]|[-> Hs]]%slot_add; [by eapply Hs'|]. apply Hr. destruct (Hpart _ _ Hs) as (_ & _ & Hx). by apply Hx.
      + intros x Hx. left. by apply (fr_more _ _ _ _ Hf).
      + intros x [Hx|Hx]; [by apply (fr_new _ _ _ _ Hf)|]. right. by destruct (HN x Hx) as (_ & ? & _).
    - rewrite add_length. lia.
    - intros H. assert (H' : regd s (length (y_objs s))) by done. apply regd_lt in H'; [lia|apply Hok].
    - intros p i [[Hp H]|[_ H]]%slot_add; [apply (ok_closed _ _ Hok) in H|apply Hpart in H as [H _]]; lia.
    - done.
  Qed.

  Lemma classic_regd s x : regd s x \/ ~ regd s x.
  Proof.
    destruct (decide (map_Forall (fun _ (z : string * nat) => z.2 <> x) (y_reg s))) as [H|H].
    - right. intros (q & d & E). by apply H in E.
    - left. apply map_not_Forall in H as (q & [d y] & E & Hx); [|apply _]. apply dec_stable in Hx. simpl in Hx. subst y. by exists q, d.
  Qed.
  (** What decoding one node gives. *)
  Definition gives (s : ystate) (dir : string) (n : node) (T' : nat -> Prop) (s' : ystate) (o : nat) : Prop :=
    means (y_objs s') dir n o /\ ((free s' o /\ length (y_objs s) <= o) \/ (untagged n /\ regd s' o)) /\
    (tagged n -> laidT T' (y_objs s') dir n o).
  Definition yt_og (yt : node -> string -> ystate -> res nat) : Prop :=
    forall q n dir T s, written q dir n -> okT T s -> og T s (yt n dir s) (gives s dir n).
  Lemma gives_old T s dir n T' s' o : okC T' s' -> from T s T' s' -> gives s dir n T' s' o ->
    o < length (y_objs s') /\ ~ T' o /\ (o < length (y_objs s) -> regd s o).
  Proof.
    intros Hok Hf (Hm & Hg & _). split; [by eapply means_lt|]. split.
    - destruct Hg as [[H _]|[_ H]]; [by eapply free_notT|by eapply regd_notT].
    - intros Hlt. destruct Hg as [[_ H]|[_ H]]; [lia|].
      destruct (classic_regd s o) as [?|Hn]; [done|]. exfalso. by apply (proj2 (fr_frame _ _ _ _ Hf) o Hlt Hn).
  Qed.
  Lemma regd_back T s T' s' x : from T s T' s' -> x < length (y_objs s) -> regd s' x -> regd s x.
  Proof. intros Hf Hlt Hr. destruct (classic_regd s x) as [?|Hn]; [done|]. exfalso. by apply (proj2 (fr_frame _ _ _ _ Hf) x Hlt Hn). Qed.
  Lemma gives_tagged s dir n T' s' o : gives s dir n T' s' o -> tagged n -> free s' o /\ length (y_objs s) <= o.
  Proof. intros (_ & [H|[Hu _]] & _) [t Ht]; [done|]. by destruct (untagged_has _ _ Hu Ht). Qed.

  (** Making an object for a node. *)
  Lemma new_og T0 s0 T s sh (N : nat -> Prop) q dir n :
    from T0 s0 T s -> okT T s -> written q dir n ->
    (forall i x, part_at sh i x -> x < length (y_objs s) /\ ~ T x /\ (x < length (y_objs s0) -> regd s0 x)) ->
    (forall x, N x -> free s x /\ length (y_objs s0) <= x /\ exists i, part_at sh i x /\ forall i', part_at sh i' x -> i' = i) ->
    laidT (fun x => T x \/ N x) (y_objs (add s sh)) dir n (length (y_objs s)) -> (tagged n \/ exists m, sh = SRef m) ->
    og T0 s0 (new sh s) (gives s0 dir n).
  Proof.
    intros Hf Hok Hw Hpart HN Hl Ht. destruct (add_okC T0 s0 T s sh N Hf (ok_C _ _ Hok) Hpart HN) as (H1 & H2 & H3 & H4).
    exists (fun x => T x \/ N x). split; [|split; [exact H2|]].
    - split; [exact H1| |].
      { intros o. change {| y_objs := y_objs s ++ [sh]; y_reg := y_reg s |} with (add s sh).
      rewrite add_length. intros Hlt. destruct (decide (o = length (y_objs s))) as [->|].
      + exists q, dir, n. split; [done|]. left. split; [done|]. destruct Ht as [?|[m ->]]; [by left|right]. exists m. apply add_at.
      + eapply made_mono; [by left|apply add_prefix|]. apply (ok_made _ _ Hok). lia. }
      intros q' d o' Hq. destruct (ok_reg _ _ Hok q' d o' Hq) as (dir' & k' & v' & Hd & Hlv). exists dir', k', v'.
        split; [done|]. intros Htag. eapply laidT_mono; [by left|apply add_prefix|auto].
    - split; [by eapply laidT_means|]. split; [by left|done].
  Qed.

  Notation denote := (denote top fns leaf ybool no_pre (defines top docs)).
  Lemma denote_Forall2 objs dir ns os : denote objs dir ns os <-> Forall2 (means objs dir) ns os.
  Proof.
    split; [induction 1; by constructor|]. induction 1; by constructor.
  Qed.
  (** What decoding several gives. *)
  Definition gives_list (s : ystate) (dir : string) (ns : list node) (T' : nat -> Prop) (s' : ystate) (os : list nat) : Prop :=
    Forall2 (means (y_objs s') dir) ns os /\
    (forall x, x ∈ os -> x < length (y_objs s') /\ ~ T' x /\ (x < length (y_objs s) -> regd s x)) /\
    (forall j c x, ns !! j = Some c -> os !! j = Some x -> tagged c ->
       free s' x /\ length (y_objs s) <= x /\ forall j', os !! j' = Some x -> j' = j) /\
    (forall j c x, ns !! j = Some c -> os !! j = Some x -> tagged c -> laidT T' (y_objs s') dir c x).
  Lemma map_targets_og yt q ns dir : yt_og yt -> (forall n, n ∈ ns -> written q dir n) -> forall T s, okT T s ->
    og T s (map_targets yt ns dir s) (gives_list s dir ns).
  Proof.
    intros Hy. induction ns as [|n ns IH]; intros Hns T s Hok; simpl.
    { exists T. split; [done|]. split; [apply from_refl|]. split; [constructor|]. split; [by intros x ?%elem_of_nil|]. split; done. }
    eapply (og_bind T s T s); [apply from_refl|eapply Hy; [apply Hns; by left|done]|]. intros T1 s1 o Hok1 Hf1 _ Ho.
    eapply (og_bind T s T1 s1); [exact Hf1|apply IH; [intros; apply Hns; by right|done]|].
    intros T2 s2 os Hok2 Hf2 Hf12 (Hos1 & Hos2 & Hos3 & Hos4). pose proof (from_len _ _ _ _ Hf1) as Hl1. pose proof (from_len _ _ _ _ Hf12) as Hl2.
    destruct (gives_old _ _ _ _ _ _ _ (ok_C _ _ Hok1) Hf1 Ho) as (Ho1 & Ho2 & Ho3).
    exists T2. split; [done|]. split; [done|]. split; [|split; [|split]].
    - constructor; [|done]. eapply denotes_mono; [apply (fr_ext _ _ _ _ Hf12)|apply Ho].
    - intros x [->|Hx]%elem_of_cons.
      + split; [lia|]. split; [by eapply notT_from|done].
      + destruct (Hos2 x Hx) as (H1 & H2 & H3). split; [done|]. split; [done|]. intros Hlt. eapply regd_back; [exact Hf1|done|]. apply H3. lia.
    - intros [|j] c x Hc Hx Ht; simpl in Hc, Hx.
      + injection Hc as ->. injection Hx as ->. destruct (gives_tagged _ _ _ _ _ _ Ho Ht) as [Hfree Hle].
        split; [eapply free_frame; [apply (fr_frame _ _ _ _ Hf12)|done]|]. split; [done|].
        intros [|j'] Hj; [done|]. simpl in Hj. exfalso. apply elem_of_list_lookup_2 in Hj. destruct (Hos2 x Hj) as (_ & _ & H3).
        apply Hfree. by apply H3.
      + destruct (Hos3 j c x Hc Hx Ht) as (H1 & H2 & H3). split; [done|]. split; [lia|].
        intros [|j'] Hj; simpl in Hj; [injection Hj as ->; lia|]. f_equal. by apply H3.
    - intros [|j] c x Hc Hx Ht; simpl in Hc, Hx; [|by eapply Hos4].
      injection Hc as ->. injection Hx as ->. eapply laidT_mono; [apply (fr_more _ _ _ _ Hf12)|apply (fr_ext _ _ _ _ Hf12)|by apply Ho].
  Qed.
  Lemma mk_deps_og T0 s0 T s q dir n post pre' t os : written q dir n -> has_tag n "Deps" -> deps_parts n post pre' ->
    from T0 s0 T s -> okT T s -> means (y_objs s) dir post t -> Forall2 (means (y_objs s) dir) pre' os ->
    t < length (y_objs s) -> ~ T t -> (t < length (y_objs s0) -> regd s0 t) ->
    (tagged post -> free s t /\ length (y_objs s0) <= t /\ t ∉ os) ->
    (forall x, x ∈ os -> x < length (y_objs s) /\ ~ T x /\ (x < length (y_objs s0) -> regd s0 x)) ->
    (forall j c x, pre' !! j = Some c -> os !! j = Some x -> tagged c ->
       free s x /\ length (y_objs s0) <= x /\ x <> t /\ forall j', os !! j' = Some x -> j' = j) ->
    (tagged post -> laidT T (y_objs s) dir post t) ->
    (forall j c x, pre' !! j = Some c -> os !! j = Some x -> tagged c -> laidT T (y_objs s) dir c x) ->
    og T0 s0 (mk_deps t os s) (gives s0 dir n).
  Proof.
    intros Hw Ht Hk Hf Hok Hpost Hpre Ht1 Ht2 Ht3 Ht4 Hos2 Hos3 Hlt Hlos. pose proof (from_len _ _ _ _ Hf) as Hlen.
    set (N1 x := exists j c, pre' !! j = Some c /\ os !! j = Some x /\ tagged c).
    destruct (add_okC T0 s0 T s (SAll os) N1 Hf (ok_C _ _ Hok)) as (HC1 & HF1 & HA1 & _).
    { intros i x H. simpl in H. apply Hos2. by eapply elem_of_list_lookup_2. }
    { intros x (j & c & Hc & Hx & Htag). destruct (Hos3 j c x Hc Hx Htag) as (H1 & H2 & _ & H3). split; [done|]. split; [done|]. exists j. done. }
    set (a := length (y_objs s)) in *. set (s1 := add s (SAll os)) in *. set (T1 x := T x \/ N1 x) in *.
    set (N2 x := x = a \/ (x = t /\ tagged post)).
    assert (Hl1 : length (y_objs s1) = S a) by apply add_length.
    assert (Hnt : ~ T1 t).
    { intros [?|(j & c & Hc & Hx & Htag)]; [done|]. destruct (Hos3 j c t Hc Hx Htag) as (_ & _ & ? & _). done. }
    destruct (add_okC T0 s0 T1 s1 (SSeq [a; t]) N2 HF1 HC1) as (HC2 & HF2 & HA2 & Hge).
    { intros i x H. simpl in H. rewrite Hl1. destruct i as [|[|i]]; simpl in H; [..|done]; injection H as <-.
      - split; [lia|]. split; [by eapply free_notT|]. intros; unfold a in *; lia.
      - split; [lia|]. split; [done|]. done. }
    { intros x [->|[-> Htag]].
      - split; [done|]. split; [done|]. exists 0. split; [done|]. intros [|[|i]] H; simpl in H; [done| |done]. injection H as H. unfold a in *. lia.
      - destruct (Ht4 Htag) as ((_ & Hr & Hs) & Hle & Hnin). split; [split; [lia|]; split; [done|]|].
        + intros p i [[_ H]|[_ H]]%slot_add; [by eapply Hs|]. simpl in H. apply Hnin. by eapply elem_of_list_lookup_2.
        + split; [done|]. exists 1. split; [done|]. intros [|[|i]] H; simpl in H; [|done|done]. injection H as H. unfold a in *. lia. }
    set (s2 := add s1 (SSeq [a; t])) in *. set (T2 x := T1 x \/ N2 x) in *. rewrite Hl1 in HA2, Hge.
    assert (Hp : y_objs s `prefix_of` y_objs s2) by (etrans; apply add_prefix).
    assert (Ea : y_objs s2 !! a = Some (SAll os)) by (eapply prefix_lookup; [apply add_at|apply add_prefix]).
    assert (Eo : y_objs s2 !! S a = Some (SSeq [a; t])) by (rewrite <-Hl1; apply add_at).
    assert (Hm : means (y_objs s2) dir n (S a)).
    { eapply den_deps; [done|exact Hk| | |exact Ea|exact Eo]; [by eapply denotes_mono|]. apply denote_Forall2.
      eapply Forall2_impl; [exact Hpre|]. intros. by eapply denotes_mono. }
    assert (HL : laidT T2 (y_objs s2) dir n (S a)).
    { assert (Hno : forall t', t' <> "Deps" -> ~ has_tag n t') by (intros t' Hne Ht'; apply Hne; by eapply has_tag_fun).
      assert (Hmono : forall c x, laidT T (y_objs s) dir c x -> laidT T2 (y_objs s2) dir c x).
      { intros c x. apply laidT_mono; [|done]. intros z Hz. left. by left. }
      assert (Hpl : forall c p j x, placed (y_objs s2) n (S a) c p j x -> tagged c -> T2 x /\ laidT T2 (y_objs s2) dir c x).
      { intros c p j x Hpl Htag. destruct Hpl as [j c x [H|H] Hc Hs|post1 pre1 x _ Hd Hs|post1 pre1 a1 j c x _ Hd Hs Hc Hx|c cs x H Hc Hs|fs x H Hd Hs]; try (by apply Hno in H).
        - destruct (deps_parts_fun _ _ _ _ _ Hk Hd) as [-> ->]. unfold slot in Hs. rewrite Eo in Hs. simpl in Hs. injection Hs as <-.
          split; [right; by right|]. by apply Hmono, Hlt.
        - destruct (deps_parts_fun _ _ _ _ _ Hk Hd) as [-> ->]. unfold slot in Hs. rewrite Eo in Hs. simpl in Hs. injection Hs as <-.
          unfold slot in Hx. rewrite Ea in Hx. split; [left; right; by exists j, c|]. by eapply Hmono, Hlos. }
      constructor; [done|by intros; eapply Hpl|by intros; eapply Hpl|].
      intros a1 _ Hs. unfold slot in Hs. rewrite Eo in Hs. simpl in Hs. injection Hs as <-. right. by left. }
    assert (Hres : mk_deps t os s = ROk s2 (S a)).
    { unfold mk_deps, new, alloc. simpl. fold a. fold s1. rewrite <-Hl1. reflexivity. }
    rewrite Hres. exists T2. split; [|split; [done|]].
    - split; [done| |].
      2:{ intros q' d o' Hq. destruct (ok_reg _ _ Hok q' d o' Hq) as (dir' & k' & v' & Hd & Hlv). exists dir', k', v'.
        split; [done|]. intros Htag. eapply laidT_mono; [|exact Hp|by apply Hlv]. intros z Hz. left. by left. }
      intros o Ho. unfold s2 in Ho. rewrite add_length, Hl1 in Ho.
      destruct (decide (o = S a)) as [->|]; [|destruct (decide (o = a)) as [->|]].
      + exists q, dir, n. split; [done|]. left. split; [done|]. left. by eexists.
      + exists q, dir, n. split; [done|]. right. by exists (S a), t.
      + eapply made_mono; [|exact Hp|apply (ok_made _ _ Hok); unfold a in *; lia]. intros x Hx. left. by left.
    - split; [done|]. split; [|done]. left. split; [done|]. lia.
  Qed.
  Lemma decode_tag_og yt tag q n dir T s : yt_og yt -> has_tag n tag -> written q dir n -> okT T s ->
    og T s (decode_tag top fns leaf ybool ne yt tag n dir s) (gives s dir n).
  Proof.
    intros Hy Ht Hw Hok. pose proof (written_part top docs q dir n) as Hwp.
    assert (Hno : forall t', t' <> tag -> ~ has_tag n t') by (intros t' Hne Ht'; apply Hne; by eapply has_tag_fun).
    assert (Hlist : forall T1 s1 os sh, okT T1 s1 -> from T s T1 s1 -> gives_list s dir (n_content n) T1 s1 os ->
      (forall i x, part_at sh i x <-> os !! i = Some x) -> tag = "All" \/ tag = "Seq" ->
      means (y_objs (add s1 sh)) dir n (length (y_objs s1)) ->
      og T s (new sh s1) (gives s dir n)).
    { intros T1 s1 os sh Hok1 Hf1 (Hos1 & Hos2 & Hos3 & Hos4) Hsh Htag Hm.
      eapply (new_og T s T1 s1 sh (fun x => exists j c, n_content n !! j = Some c /\ os !! j = Some x /\ tagged c)); [done|done|done| | | |].
      - intros i x H%Hsh. apply Hos2. by eapply elem_of_list_lookup_2.
      - intros x (j & c & Hc & Hx & Htg). destruct (Hos3 j c x Hc Hx Htg) as (H1 & H2 & H3). split; [done|]. split; [done|].
        exists j. split; [by apply Hsh|]. intros i' Hi'%Hsh. by apply H3.
      - assert (Hpl : forall c p j x, placed (y_objs (add s1 sh)) n (length (y_objs s1)) c p j x -> n_content n !! j = Some c /\ os !! j = Some x).
        { intros c p j x Hpl. destruct Hpl as [j c x _ Hc Hs|post1 pre1 x H|post1 pre1 a1 j c x H|c cs x H|fs x H];
            try (exfalso; destruct Htag as [-> | ->]; (by eapply Hno; [|exact H])).
          split; [done|]. apply Hsh. apply slot_add in Hs as [[? _]|[_ Hx]]; [lia|done]. }
        constructor; [done| | |].
        + intros c p j x [Hc Hx]%Hpl Htg. right. by exists j, c.
        + intros c p j x [Hc Hx]%Hpl Htg. eapply laidT_mono; [by left|apply add_prefix|by eapply Hos4].
        + intros a H. exfalso; destruct Htag as [-> | ->]; (by eapply Hno; [|exact H]).
      - left. by exists tag. }
    unfold decode_tag.
    destruct (decide (tag = "All")) as [->|N1].
    { destruct (decide _) as [|Hk%dec_stable]; [eapply og_err; [done|apply from_refl]|].
      eapply (og_bind T s T s); [apply from_refl|eapply map_targets_og; [done| |done]|].
      { intros c Hc. apply Hwp; [done|]. by eapply part_list; eauto. }
      intros T1 s1 os Hok1 Hf1 _ Hos. eapply Hlist; [done|done|exact Hos|done|by left|].
      eapply den_all; [done|done| |apply add_at]. apply denote_Forall2. eapply Forall2_impl; [apply Hos|].
      intros. eapply denotes_mono; [apply add_prefix|done]. }
    destruct (decide (tag = "Seq")) as [->|N2].
    { destruct (decide _) as [|Hk%dec_stable]; [eapply og_err; [done|apply from_refl]|].
      eapply (og_bind T s T s); [apply from_refl|eapply map_targets_og; [done| |done]|].
      { intros c Hc. apply Hwp; [done|]. by eapply part_list; eauto. }
      intros T1 s1 os Hok1 Hf1 _ Hos. eapply Hlist; [done|done|exact Hos|done|by right|].
      eapply den_seq; [done|done| |apply add_at]. apply denote_Forall2. eapply Forall2_impl; [apply Hos|].
      intros. eapply denotes_mono; [apply add_prefix|done]. }
    clear Hlist.
    destruct (decide (tag = "Deps")) as [->|N3].
    { assert (Hdeps : forall T1 s1 t T2 s2 os post pre', deps_parts n post pre' -> okT T1 s1 -> from T s T1 s1 ->
        gives s dir post T1 s1 t -> okT T2 s2 -> from T s T2 s2 -> from T1 s1 T2 s2 -> gives_list s1 dir pre' T2 s2 os ->
        og T s (mk_deps t os s2) (gives s dir n)).
      { intros T1 s1 t T2 s2 os post pre' Hp Hok1 Hf1 Hg Hok2 Hf2 Hf12 (Hos1 & Hos2 & Hos3 & Hos4).
        destruct (gives_old _ _ _ _ _ _ _ (ok_C _ _ Hok1) Hf1 Hg) as (H1 & H2 & H3).
        pose proof (from_len _ _ _ _ Hf1) as Hl1. pose proof (from_len _ _ _ _ Hf12) as Hl2.
        eapply mk_deps_og; [done|done|exact Hp|done|done| |done|lia|by eapply notT_from|done| | | | |done].
        - eapply denotes_mono; [apply (fr_ext _ _ _ _ Hf12)|apply Hg].
        - intros Htag. destruct (gives_tagged _ _ _ _ _ _ Hg Htag) as [Hfree Hle].
          split; [eapply free_frame; [apply (fr_frame _ _ _ _ Hf12)|done]|]. split; [done|]. intros Hin.
          destruct (Hos2 t Hin) as (_ & _ & Hr). apply Hfree. by apply Hr.
        - intros x Hx. destruct (Hos2 x Hx) as (? & ? & Hr). split; [done|]. split; [done|]. intros Hlt.
          eapply regd_back; [exact Hf1|done|]. apply Hr. lia.
        - intros j c x Hc Hx Htag. destruct (Hos3 j c x Hc Hx Htag) as (? & ? & ?). split; [done|]. split; [lia|]. split; [lia|done].
        - intros Htag. eapply laidT_mono; [apply (fr_more _ _ _ _ Hf12)|apply (fr_ext _ _ _ _ Hf12)|by apply Hg]. }
      destruct (n_kind n) eqn:Hk; try (eapply og_err; [done|apply from_refl]).
      - destruct (n_content n) as [|c cs] eqn:Hc; [eapply og_err; [done|apply from_refl]|].
        eapply (og_bind T s T s); [apply from_refl|eapply Hy; [|done]; apply Hwp; [done|]; eapply part_list; [done|auto..]; rewrite Hc; by left|].
        intros T1 s1 t Hok1 Hf1 _ Ht1. eapply (og_bind T s T1 s1); [done|eapply map_targets_og; [done| |done]|].
        { intros c' Hc'. apply Hwp; [done|]. eapply part_list; [done|auto..]. rewrite Hc; by right. }
        intros T2 s2 os Hok2 Hf2 Hf12 Hos. eapply (Hdeps T1 s1 t T2 s2 os c cs); [by left|done..].
      - destruct (decode_struct n) as [fs|] eqn:Hd; [|eapply og_err; [done|apply from_refl]].
        destruct (seq_field (field "Pre" fs)) as [pre'|] eqn:Hp; [|eapply og_err; [done|apply from_refl]].
        eapply (og_bind T s T s); [apply from_refl|eapply Hy; [|done]; apply Hwp; [done|]; by eapply part_post|].
        intros T1 s1 t Hok1 Hf1 _ Ht1. eapply (og_bind T s T1 s1); [done|eapply map_targets_og; [done| |done]|].
        { intros c' Hc'. apply Hwp; [done|]. by eapply part_pre. }
        intros T2 s2 os Hok2 Hf2 Hf12 Hos. eapply (Hdeps T1 s1 t T2 s2 os (field "Post" fs) pre'); [right; split; [done|]; by exists fs|done..]. }
    assert (Hone : forall T1 s1 c t sh, okT T1 s1 -> from T s T1 s1 -> gives s dir c T1 s1 t ->
      (forall i x, part_at sh i x <-> i = 0 /\ x = t) ->
      (tag = "ArgTarget" /\ (exists cs, n_content n = c :: cs)) \/ (tag = "Files" /\ (exists fs, decode_struct n = Some fs /\ c = field "Target" fs)) ->
      means (y_objs (add s1 sh)) dir n (length (y_objs s1)) ->
      og T s (new sh s1) (gives s dir n)).
    { intros T1 s1 c t sh Hok1 Hf1 Hg Hsh Htag Hm.
      destruct (gives_old _ _ _ _ _ _ _ (ok_C _ _ Hok1) Hf1 Hg) as (H1 & H2 & H3).
      eapply (new_og T s T1 s1 sh (fun x => x = t /\ tagged c)); [done|done|done| | | |].
      - intros i x [-> ->]%Hsh. done.
      - intros x [-> Htg]. destruct (gives_tagged _ _ _ _ _ _ Hg Htg) as [? ?]. split; [done|]. split; [done|].
        exists 0. split; [by apply Hsh|]. by intros i' [-> _]%Hsh.
      - assert (Hpl : forall c' p j x, placed (y_objs (add s1 sh)) n (length (y_objs s1)) c' p j x -> c' = c /\ x = t).
        { assert (Hsl : forall i x, slot (y_objs (add s1 sh)) (length (y_objs s1)) i x -> x = t).
          { intros i x [[? _]|[_ Hx]]%slot_add; [lia|]. by apply Hsh in Hx as [_ ->]. }
          intros c' p j x Hpl. destruct Hpl as [j c' x [H|H] Hc Hs|post1 pre1 x H|post1 pre1 a1 j c' x H|c' cs x H Hc Hs|fs x H Hd Hs];
            try (exfalso; destruct Htag as [[-> _]|[-> _]]; (by eapply Hno; [|exact H])).
          - split; [|by eapply Hsl]. destruct Htag as [[-> [cs' Hcs]]|[-> _]]; [congruence|exfalso; by eapply Hno; [|exact H]].
          - split; [|by eapply Hsl]. destruct Htag as [[-> _]|[-> (fs' & Hfs & ->)]]; [exfalso; by eapply Hno; [|exact H]|]. congruence. }
        constructor; [done| | |].
        + intros c' p j x [-> ->]%Hpl Htg. by right.
        + intros c' p j x [-> ->]%Hpl Htg. eapply laidT_mono; [by left|apply add_prefix|by apply Hg].
        + intros a H. exfalso; destruct Htag as [[-> _]|[-> _]]; (by eapply Hno; [|exact H]).
      - left. by exists tag. }
    destruct (decide (tag = "ArgTarget")) as [->|N4].
    { destruct (decide _) as [|Hk%dec_stable]; [eapply og_err; [done|apply from_refl]|]. destruct (n_content n) as [|c cs] eqn:Hc; [eapply og_err; [done|apply from_refl]|].
      eapply (og_bind T s T s); [apply from_refl|eapply Hy; [|done]; apply Hwp; [done|]; by eapply part_arg|].
      intros T1 s1 t Hok1 Hf1 _ Ht1. unfold lift.
      destruct (YAMLStringListFromNodes fns cs dir) as [args|e] eqn:Ha; [|by eapply og_err].
      eapply Hone; [done|done|exact Ht1|done|left; split; [done|by eexists]|]. eapply den_arg; eauto; [|apply add_at]. eapply denotes_mono; [apply add_prefix|apply Ht1]. }
    destruct (decide (tag = "Files")) as [->|N5].
    { destruct (decide _) as [|Hk%dec_stable]; [eapply og_err; [done|apply from_refl]|].
      destruct (decode_struct n) as [fs|] eqn:Hd; [|eapply og_err; [done|apply from_refl]].
      destruct (bool_field ybool (field "Autoclean" fs)) as [ac|] eqn:Hb; [|eapply og_err; [done|apply from_refl]].
      eapply (og_bind T s T s); [apply from_refl|eapply Hy; [|done]; apply Hwp; [done|]; by eapply part_files|].
      intros T1 s1 t Hok1 Hf1 _ Ht1. unfold lift.
      destruct (YAMLFileList fns top (field "In" fs) dir) as [ins|e] eqn:Hin; [|by eapply og_err].
      destruct (YAMLFileList fns top (field "Out" fs) dir) as [outs|e] eqn:Hout; [|by eapply og_err].
      eapply Hone; [done|done|exact Ht1|done|right; split; [done|by eexists]|]. eapply den_files; eauto; [|apply add_at]. eapply denotes_mono; [apply add_prefix|apply Ht1]. }
    destruct (leaf tag) as [accepts|] eqn:Hl; [|eapply og_err; [done|apply from_refl]].
    destruct (accepts n dir) eqn:Hacc; [|eapply og_err; [done|apply from_refl]].
    eapply (new_og T s T s _ (fun _ => False)); [apply from_refl|done|done|by intros i x []|by intros x []| |left; by exists tag].
    assert (Hm : means (y_objs (add s (SLeaf tag n dir))) dir n (length (y_objs s))).
    { eapply den_leaf; eauto; [|apply add_at]. rewrite !elem_of_cons, elem_of_nil. tauto. }
    assert (Hpl : forall c p j x, ~ placed (y_objs (add s (SLeaf tag n dir))) n (length (y_objs s)) c p j x).
    { intros c p j x Hpl. destruct Hpl as [j c x [H|H] Hc Hs|post1 pre1 x H|post1 pre1 a1 j c x H|c cs x H|fs x H]; by eapply Hno; [|exact H]. }
    constructor; [done|by intros c p j x ?%Hpl|by intros c p j x ?%Hpl|].
    intros a H; exfalso; by eapply Hno; [|exact H].
  Qed.
  Lemma og_trans {A} T0 s0 T s (r : res A) P : from T0 s0 T s -> og T s r P -> og T0 s0 r P.
  Proof.
    intros H0. destruct r as [s' a|s' e|]; [| |done].
    - intros (T' & H1 & H2 & H3). exists T'. split; [done|]. split; [by eapply from_trans|done].
    - intros (T' & H1 & H2). exists T'. split; [done|]. by eapply from_trans.
  Qed.
  Lemma register_ok T s T1 s1 dir k v o : target_key k -> defines top docs dir (reg_name dir (n_value k)) k v ->
    okT T1 s1 -> from T s T1 s1 -> gives s dir v T1 s1 o ->
    let s2 := register (reg_name dir (n_value k)) (key_doc k) o s1 in okT T1 s2 /\ from T s T1 s2.
  Proof.
    intros Htk Hd Hok Hf Hg s2. destruct (gives_old _ _ _ _ _ _ _ (ok_C _ _ Hok) Hf Hg) as (H1 & H2 & H3).
    destruct (register_ext top fns leaf ybool no_pre (defines top docs) s1 dir k v o) as (Her & Hir & _); [apply Hok|done|apply Hg|].
    fold s2 in Her, Hir.
    assert (Hreg : forall q d x, y_reg s2 !! q = Some (d, x) -> x = o \/ y_reg s1 !! q = Some (d, x)).
    { intros q d x. unfold s2, register. simpl. rewrite lookup_insert_Some. intros [[_ E]|[_ E]]; [left|by right]. by injection E as _ <-. }
    split; [split; [split| |]|split].
    - done.
    - intros x Hx. destruct (ok_only _ _ (ok_C _ _ Hok) x Hx) as (p & i & Hs & Hu & Hlt & Hr). exists p, i. split_and!; [done|done|done|].
      intros q d [->|E]%Hreg; [done|]. by apply Hr in E.
    - apply (ok_closed _ _ (ok_C _ _ Hok)).
    - apply (ok_made _ _ Hok).
    - intros q d x E. unfold s2, register in E. simpl in E. apply lookup_insert_Some in E as [[<- E]|[_ E]]; [|by apply (ok_reg _ _ Hok) in E].
      injection E as _ <-. exists dir, k, v. split; [done|]. apply Hg.
    - eapply ext_trans; [apply Hf|done].
    - destruct (fr_frame _ _ _ _ Hf) as [Hp H]. split; [done|]. intros x Hlt Hr. destruct (H x Hlt Hr) as [Hr' Hs'].
      split; [|done]. intros (q & d & [->|E]%Hreg); [by apply Hr, H3|]. apply Hr'. by exists q, d.
    - apply Hf.
    - apply Hf.
  Qed.
  Lemma entries_og yt dir ps : yt_og yt ->
    (forall k v, (k, v) ∈ ps -> target_key k -> defines top docs dir (reg_name dir (n_value k)) k v) ->
    forall saw T s, okT T s -> og T s (entries_loop yt dir ps saw s) (fun _ _ _ => True).
  Proof.
    intros Hy. induction ps as [|[k v] ps IH]; intros Hps saw T s Hok; cbn [entries_loop].
    { destruct (decide _) as [|Hd]; [eapply og_err; [done|apply from_refl]|]. exists T. split; [done|]. split; [apply from_refl|done]. }
    destruct (decide _) as [|Hk%dec_stable]; [eapply og_err; [done|apply from_refl]|].
    assert (Hps' : forall k v, (k, v) ∈ ps -> target_key k -> defines top docs dir (reg_name dir (n_value k)) k v).
    { intros k' v' ?. apply Hps. by right. }
    specialize (IH Hps').
    destruct (decide (n_value k = "_dir")) as [Hdir|Hdir].
    - destruct (decide _) as [|Hkv%dec_stable]; [eapply og_err; [done|apply from_refl]|].
      destruct (decide _) as [|Hv%dec_stable]; [eapply og_err; [done|apply from_refl]|]. by apply IH.
    - destruct (has_slash (n_value k)) eqn:Hs; [eapply og_err; [done|apply from_refl]|].
      assert (Htk : target_key k) by done.
      assert (Hd : defines top docs dir (reg_name dir (n_value k)) k v) by (apply Hps; [by left|done]).
      eapply (og_bind T s T s); [apply from_refl|eapply (Hy (reg_name dir (n_value k))); [|done]; exists k, v; split; [done|constructor]|].
      intros T1 s1 o Hok1 Hf1 _ Ho. destruct (register_ok T s T1 s1 dir k v o Htk Hd Hok1 Hf1 Ho) as [H1 H2].
      eapply og_trans; [exact H2|]. by apply IH.
  Qed.
  Lemma read_og yt D : yt_og yt -> forall T s, okT T s -> og T s (ReadYAMLFile top docs ne yt D s) (fun _ _ _ => True).
  Proof.
    intros Hy T s Hok. unfold ReadYAMLFile. destruct (docs _) as [doc|] eqn:Hdoc; [|eapply og_err; [done|apply from_refl]].
    destruct (file_dir top D) as [dir|] eqn:Hdir; [|eapply og_err; [done|apply from_refl]].
    unfold ReadYAML. destruct (decide _) as [|Hk%dec_stable]; [eapply og_err; [done|apply from_refl]|].
    destruct (n_content doc) as [|m [|? ?]] eqn:Hc; try (eapply og_err; [done|apply from_refl]).
    destruct (decide _) as [|Hm%dec_stable]; [eapply og_err; [done|apply from_refl]|].
    destruct (pairs (n_content m)) as [ps|] eqn:Hp; [|eapply og_err; [done|apply from_refl]]. apply pairs_spec in Hp.
    apply entries_og; [done| |done]. intros k v Hin Htk. exists D, doc, ps. split_and!; try done. by exists m.
  Qed.
  Lemma yaml_target_og fuel : yt_og (YT fuel).
  Proof.
    induction fuel as [|fuel IH]; intros q n dir T s Hw Hok; [done|]. cbn [YAMLTarget].
    destruct (decide _) as [Ht|Hu%dec_stable]; [eapply decode_tag_og; [done|by apply tag_ne|done|done]|].
    apply tag_untagged in Hu. destruct (decide _) as [|Hk%dec_stable]; [eapply og_err; [done|apply from_refl]|].
    assert (Hsref : forall m, means (y_objs (add s (SRef m))) dir n (length (y_objs s)) -> og T s (new (SRef m) s) (gives s dir n)).
    { intros m Hm. eapply (new_og T s T s _ (fun _ => False)); [apply from_refl|done|done|by intros i x []|by intros x []| |right; by eexists].
      assert (Hpl : forall c p j x, ~ placed (y_objs (add s (SRef m))) n (length (y_objs s)) c p j x).
      { intros c p j x Hpl. destruct Hpl as [j c x [H|H] Hc Hs'|post1 pre1 x H|post1 pre1 a1 j c x H|c cs x H|fs x H]; by destruct (untagged_has _ _ Hu H). }
      constructor; [done|by intros c p j x ?%Hpl|by intros c p j x ?%Hpl|]. intros a H. by destruct (untagged_has _ _ Hu H). }
    destruct (has_slash (n_value n)) eqn:Hs.
    2:{ apply Hsref. apply den_name; [done|done|done|apply add_at]. }
    destruct (RelPath top (JoinPath top [dir; n_value n])) as [q'|] eqn:Hq; [|eapply og_err; [done|apply from_refl]].
    assert (Href : ref_key top dir (n_value n) = Some q') by (unfold ref_key; by rewrite Hs).
    destruct (decide (Dir q' <> ".")) as [Hfar|Hnear].
    2:{ apply Hsref. eapply den_top; [done|done|done|done|done|apply add_at]. }
    assert (Hden : forall s' d o, inv s' -> y_reg s' !! q' = Some (d, o) -> means (y_objs s') dir n o).
    { intros s' d o Hi' Ho. destruct (Hi' q' d o Ho) as [[]|(d' & o' & dir' & k & v & Ho' & Hdf & -> & Hn)].
      simplify_eq. by eapply den_far. }
    destruct (y_reg s !! q') as [[d o]|] eqn:Ho.
    { exists T. split; [done|]. split; [apply from_refl|]. split; [eapply Hden; [apply Hok|done]|]. split; [right; split; [done|by exists q', d]|]. intros [t H]. by destruct (untagged_has _ _ Hu H). }
    eapply (og_bind T s T s); [apply from_refl|by apply read_og|].
    intros T1 s1 _ Hok1 Hf1 _ _. destruct (y_reg s1 !! q') as [[d o]|] eqn:Ho1; [|by eapply og_err].
    exists T1. split; [done|]. split; [done|]. split; [eapply Hden; [apply Hok1|done]|].
    split; [right; split; [done|by exists q', d]|]. intros [t H]. by destruct (untagged_has _ _ Hu H).
  Qed.

  (** What reading leaves. *)
  Lemma only_in_slot s p i x p' i' : only_in s p i x -> slot (y_objs s) p' i' x -> only_in s p' i' x.
  Proof. intros (H1 & H2 & H3) Hs. by destruct (H2 _ _ Hs) as [-> ->]. Qed.
  Lemma laidT_laid T s dir n o : okC T s -> laidT T (y_objs s) dir n o -> laid top fns leaf ybool docs s dir n o.
  Proof.
    intros Hok. assert (HT : forall x p i, T x -> slot (y_objs s) p i x -> only_in s p i x).
    { intros x p i Hx Hs. destruct (ok_only _ _ Hok x Hx) as (p' & i' & H). by eapply only_in_slot. }
    induction 1 as [n o H1 H2 H3 IH H4]. constructor; [done| |by eauto|by eauto].
    intros c p j x Hpl Ht. apply HT; [by eapply H2|]. by destruct Hpl.
  Qed.
  Lemma loads_ok s : loads top fns leaf ybool docs ne s -> exists T, okT T s.
  Proof.
    intros [fuel Hl]. pose proof (read_og (YT fuel) "" (yaml_target_og fuel) (fun _ => False) {| y_objs := []; y_reg := ∅ |}) as H.
    cbv zeta in Hl. assert (H0 : okT (fun _ => False) {| y_objs := []; y_reg := ∅ |}).
    { split; [split| |].
      - intros q d o'. simpl. by rewrite lookup_empty.
      - by intros x [].
      - intros p i x Hs. apply slot_lt in Hs. simpl in Hs. lia.
      - intros o'. simpl. lia.
      - intros q d o'. simpl. by rewrite lookup_empty. }
    specialize (H H0).
    destruct Hl as [Hl|[e Hl]]; rewrite Hl in H; simpl in H; [destruct H as (T' & H & _)|destruct H as (T' & H & _)]; by exists T'.
  Qed.
  Lemma loads_laid s o : loads top fns leaf ybool docs ne s -> o < length (y_objs s) ->
    exists q dir n, written q dir n /\
      ((laid top fns leaf ybool docs s dir n o /\ (tagged n \/ exists m, y_objs s !! o = Some (SRef m))) \/
       exists o' t, laid top fns leaf ybool docs s dir n o' /\ has_tag n "Deps" /\ y_objs s !! o' = Some (SSeq [o; t])).
  Proof.
    intros Hl Ho. destruct (loads_ok s Hl) as [T Hok]. destruct (ok_made _ _ Hok o Ho) as (q & dir & n & Hw & Hm). exists q, dir, n. split; [done|].
    destruct Hm as [[Hm Htag]|(o' & t & Hm & Ht & Ho')].
    - left. split; [|done]. eapply laidT_laid; [apply Hok|done].
    - right. exists o', t. split; [|done]. eapply laidT_laid; [apply Hok|done].
  Qed.
  Lemma loads_reg_laid s q d o : loads top fns leaf ybool docs ne s -> y_reg s !! q = Some (d, o) ->
    exists dir k v, defines top docs dir q k v /\ (tagged v -> laid top fns leaf ybool docs s dir v o).
  Proof.
    intros Hl Hq. destruct (loads_ok s Hl) as [T Hok]. destruct (ok_reg _ _ Hok q d o Hq) as (dir & k & v & Hd & H). exists dir, k, v.
    split; [done|]. intros Ht. eapply laidT_laid; [apply Hok|auto].
  Qed.
  Lemma loads_closed s p i x : loads top fns leaf ybool docs ne s -> slot (y_objs s) p i x -> x < length (y_objs s).
  Proof. intros Hl Hs. pose proof (slot_lt _ _ _ _ Hs) as Hp. destruct (loads_ok s Hl) as [T Hok]. apply (ok_closed _ _ (ok_C _ _ Hok)) in Hs. lia. Qed.
  Lemma loads_down s p i x : loads top fns leaf ybool docs ne s -> slot (y_objs s) p i x -> x < p.
  Proof. intros Hl Hs. destruct (loads_ok s Hl) as [T Hok]. by apply (ok_closed _ _ (ok_C _ _ Hok)) in Hs. Qed.
End origin.
