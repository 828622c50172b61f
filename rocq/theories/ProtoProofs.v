From stdpp Require Import base gmap fin_sets list strings sorting.
From Coq Require Import Ascii.
From Verif Require Import PathModel StrOrd ProtoModel ProtoSpec.
Local Open Scope list_scope.

(** ** The regular expression. *)
Lemma nil_sapp (s : string) : "" +:+ s = s. Proof. done. Qed.
Lemma cons_sapp c (a s : string) : String c a +:+ s = String c (a +:+ s). Proof. done. Qed.
Lemma is_space_spec c : is_space c = true <->
  (c = " "%char \/ c = "009"%char \/ c = "010"%char \/ c = "012"%char \/ c = "013"%char).
Proof. unfold is_space. apply bool_decide_eq_true. Qed.
Lemma white_nil : white "". Proof. intros c []. Qed.
Lemma white_cons c s : white (String c s) <-> is_space c = true /\ white s.
Proof.
  rewrite is_space_spec. unfold white. simpl. split; [intros H; split; [by apply H; left|intros; apply H; by right]|].
  intros [H1 H2] d [<-|Hd]; auto.
Qed.
Lemma skip_split s : exists sp, white sp /\ s = sp +:+ skip_spaces s /\
  forall c s', skip_spaces s = String c s' -> is_space c = false.
Proof.
  induction s as [|c s IH]; [exists ""; split; [apply white_nil|]; by split|]. simpl.
  destruct (is_space c) eqn:E.
  - destruct IH as (sp & H1 & H2 & H3). exists (String c sp). split; [by apply white_cons|]. split; [|done].
    change (String c s = String c (sp +:+ skip_spaces s)). by f_equal.
  - exists "". split; [apply white_nil|]. split; [done|]. by intros ? ? [= <- _].
Qed.
Lemma skip_white sp s : white sp -> skip_spaces (sp +:+ s) = skip_spaces s.
Proof. induction sp as [|c sp IH]; [done|]. intros [H1 H2]%white_cons. rewrite cons_sapp. simpl. rewrite H1. auto. Qed.
Lemma skip_nonspace c s : is_space c = false -> skip_spaces (String c s) = String c s.
Proof. intros H. simpl. by rewrite H. Qed.
Lemma strip_spec p s s' : strip_prefix p s = Some s' <-> s = p +:+ s'.
Proof.
  revert s. induction p as [|c p IH]; intros s; simpl; [rewrite nil_sapp; split; congruence|].
  rewrite cons_sapp.
  destruct s as [|d s]; [done|]. destruct (decide (c = d)) as [->|H]; [rewrite IH; split; congruence|].
  split; [done|]. congruence.
Qed.
Lemma until_spec s r : until_quote s = Some r <-> ~ In quote (list_ascii_of_string r) /\ exists rest, s = r +:+ String quote rest.
Proof.
  revert r. induction s as [|c s IH]; intros r; simpl.
  { split; [done|]. intros [_ [rest H]]. by destruct r. }
  destruct (decide (c = quote)) as [->|H].
  - split; [intros [= <-]; split; [by intros []|by exists s]|]. intros [Hn [rest E]].
    destruct r as [|d r]; [done|]. rewrite cons_sapp in E. injection E as E1 E2. destruct Hn. simpl. by left.
  - destruct (until_quote s) as [r1|] eqn:E; simpl.
    + destruct (proj1 (IH r1) eq_refl) as [Hn [rest Hr]]. split.
      * intros [= <-]. simpl. split; [intros [?|?]; [congruence|done]|]. exists rest. by rewrite Hr, cons_sapp.
      * intros [Hn' [rest' Hr']]. destruct r as [|d r]; [rewrite nil_sapp in Hr'; congruence|]. rewrite cons_sapp in Hr'. injection Hr' as <- Hr'.
        assert (Hx : Some r1 = Some r).
        { apply IH. split; [|by exists rest']. intros Hi. apply Hn'. simpl. by right. }
        congruence.
    + split; [done|]. intros [Hn' [rest' Hr']]. destruct r as [|d r]; [rewrite nil_sapp in Hr'; congruence|].
      rewrite cons_sapp in Hr'. injection Hr' as <- Hr'.
      assert (Hx : None = Some r).
      { apply IH. split; [|by exists rest']. intros Hi. apply Hn'. simpl. by right. }
      done.
Qed.
Lemma quoted_spec s imp : quoted s = Some imp <->
  exists sp rest, white sp /\ quotable imp /\ s = sp +:+ String quote (imp +:+ String quote rest).
Proof.
  unfold quoted. split.
  - destruct (skip_split s) as (sp & Hw & E & _). destruct (skip_spaces s) as [|c s1]; [done|].
    destruct (decide (c = quote)) as [->|]; [|done]. destruct (until_quote s1) as [r|] eqn:Eu; [|done].
    apply until_spec in Eu as [Hn [rest ->]]. destruct r as [|d r]; [done|]. intros [= <-].
    exists sp, rest. split; [done|]. split; [by split|]. done.
  - intros (sp & rest & Hw & [Hne Hn] & ->). rewrite skip_white by done. rewrite skip_nonspace by done.
    destruct (decide (quote = quote)) as [_|]; [|done].
    assert (Hu : until_quote (imp +:+ String quote rest) = Some imp) by (apply until_spec; eauto).
    rewrite Hu. by destruct imp.
Qed.
Lemma sapp_assoc (a b c : string) : (a +:+ b) +:+ c = a +:+ (b +:+ c).
Proof. induction a as [|x a IH]; [done|]. rewrite !cons_sapp. by rewrite IH. Qed.
Lemma quoted_public s : quoted ("public" +:+ s) = None.
Proof. reflexivity. Qed.
Lemma import_of_spec line imp : import_of line = Some imp <-> import_statement line imp.
Proof.
  unfold import_of, import_statement, import_line. split.
  - destruct (strip_prefix "import" line) as [s|] eqn:E; [|done]. apply strip_spec in E as ->.
    intros Hq. apply quoted_spec in Hq as (sp & rest & Hw & Hqi & Hs). unfold skip_public in Hs.
    destruct s as [|c s]; [by destruct sp|].
    destruct (is_space c) eqn:Ec; [|exists "", sp, rest; split; [by rewrite Hs|]; auto].
    destruct (strip_prefix "public" (skip_spaces (String c s))) as [s'|] eqn:Ep; [|exists "", sp, rest; split; [by rewrite Hs|]; auto].
    apply strip_spec in Ep. destruct (skip_split (String c s)) as (sp' & Hw' & E' & _). rewrite Ep in E'.
    exists (sp' +:+ "public"), sp, rest. split; [rewrite E', Hs, !sapp_assoc; done|]. split; [done|]. split; [done|].
    right. exists sp'. split; [|done]. intros ->. rewrite nil_sapp in E'. injection E' as -> _. done.
  - intros (md & sp & rest & -> & Hw & Hq & Hm).
    assert (Ep : forall x, strip_prefix "import" ("import" +:+ x) = Some x) by (intros; by apply strip_spec). rewrite Ep.
    destruct Hm as [->|(sp' & Hne & Hw' & ->)].
    + change ("" +:+ (sp +:+ String quote (imp +:+ String quote rest))) with (sp +:+ String quote (imp +:+ String quote rest)).
      replace (skip_public (sp +:+ String quote (imp +:+ String quote rest))) with (sp +:+ String quote (imp +:+ String quote rest)).
      { apply quoted_spec. eauto. }
      unfold skip_public. destruct sp as [|c sp]; [done|]. rewrite skip_white by done. rewrite skip_nonspace by done.
      apply white_cons in Hw as [Hc _]. rewrite cons_sapp. by rewrite Hc.
    + rewrite !sapp_assoc. unfold skip_public. rewrite skip_white by done. destruct sp' as [|c sp']; [done|].
      apply white_cons in Hw' as [Hc _]. rewrite cons_sapp, Hc.
      change (skip_spaces ("public" +:+ (sp +:+ String quote (imp +:+ String quote rest))))
        with ("public" +:+ (sp +:+ String quote (imp +:+ String quote rest))).
      rewrite (proj2 (strip_spec _ _ _) eq_refl). apply quoted_spec. eauto.
Qed.

Section proofs.
  Context (fs : fsys) (incs : list string).
  Notation deps_t := (list string -> bool -> gset string -> pres).

  Definition rset (p : pres) : gset string := match p with POk r | PErr r => r | POutOfFuel => ∅ end.

  (** ** Termination. *)
  Definition todo (r : gset string) : nat := size (dom fs ∖ r).
  Lemma todo_mono r r' : r ⊆ r' -> todo r' <= todo r.
  Proof. intros. unfold todo. apply subseteq_size. set_solver. Qed.
  Lemma todo_add f r : is_Some (fs !! f) -> f ∉ r -> todo ({[f]} ∪ r) < todo r.
  Proof. intros Hf Hn. unfold todo. apply subset_size. apply elem_of_dom in Hf. set_solver. Qed.

  (** The set only grows. *)
  Definition grows (d : deps_t) : Prop := forall l ok r, d l ok r <> POutOfFuel -> r ⊆ rset (d l ok r).
  Lemma import_grows d is imp : grows d -> forall r, import_loop fs d is imp r <> POutOfFuel -> r ⊆ rset (import_loop fs d is imp r).
  Proof.
    intros Hd. induction is as [|i is IH]; intros r Hn; cbn [import_loop] in *; [done|].
    destruct (decide (Join [i; imp] ∈ r)); [by apply IH|].
    destruct (fs !! Join [i; imp]) as [[|l ok]|]; [done| |by apply IH]. apply Hd in Hn. set_solver.
  Qed.
  Lemma lines_grows d l ok : grows d -> forall r, lines_loop fs incs d l ok r <> POutOfFuel -> r ⊆ rset (lines_loop fs incs d l ok r).
  Proof.
    intros Hd. induction l as [|line l IH]; intros r Hn; cbn [lines_loop] in *; [by destruct ok|].
    destruct (import_of line) as [imp|]; [|by apply IH].
    pose proof (import_grows d incs imp Hd r) as Hi.
    destruct (import_loop fs d incs imp r) as [r1|r1|]; simpl in *; [|by apply Hi|done].
    specialize (Hi ltac:(done)). apply IH in Hn. set_solver.
  Qed.
  Lemma protodeps_grows fuel : grows (protodeps fs incs fuel).
  Proof. induction fuel as [|fuel IH]; intros l ok r Hn; cbn [protodeps] in *; [done|]. by apply lines_grows. Qed.

  Lemma import_terminates d is imp n : grows d -> (forall l ok r, todo r < n -> d l ok r <> POutOfFuel) ->
    forall r, todo r <= n -> import_loop fs d is imp r <> POutOfFuel.
  Proof.
    intros Hg Hd. induction is as [|i is IH]; intros r Hn; cbn [import_loop]; [done|].
    destruct (decide (Join [i; imp] ∈ r)); [by apply IH|].
    destruct (fs !! Join [i; imp]) as [[|l ok]|] eqn:E; [done| |by apply IH]. apply Hd.
    pose proof (todo_add (Join [i; imp]) r ltac:(by rewrite E) ltac:(done)). lia.
  Qed.
  Lemma lines_terminates d l ok n : grows d -> (forall l ok r, todo r < n -> d l ok r <> POutOfFuel) ->
    forall r, todo r <= n -> lines_loop fs incs d l ok r <> POutOfFuel.
  Proof.
    intros Hg Hd. induction l as [|line l IH]; intros r Hn; cbn [lines_loop]; [by destruct ok|].
    destruct (import_of line) as [imp|]; [|by apply IH].
    pose proof (import_terminates d incs imp n Hg Hd r Hn) as Ht. pose proof (import_grows d incs imp Hg r Ht) as Hi.
    destruct (import_loop fs d incs imp r) as [r1|r1|]; simpl in *; [|done|done]. apply IH.
    pose proof (todo_mono r r1 Hi). lia.
  Qed.
  Lemma protodeps_terminates fuel l ok r : todo r < fuel -> protodeps fs incs fuel l ok r <> POutOfFuel.
  Proof.
    revert l ok r. induction fuel as [|fuel IH]; intros l ok r Hn; [lia|]. simpl.
    apply (lines_terminates _ _ _ fuel); [apply protodeps_grows|done|lia].
  Qed.

  (** ** What is in the result. *)
  Definition from_imports (r : gset string) (l : list string) : Prop :=
    forall line imp full, line ∈ l -> import_statement line imp -> resolves fs incs imp full -> full ∈ r.
  (** Everything new in [r'] has its imports in [r']. *)
  Definition closed_new (r r' : gset string) : Prop :=
    forall f l ok, f ∈ r' -> f ∉ r -> fs !! f = Some (Lines l ok) -> from_imports r' l.
  Lemma closed_new_trans r1 r2 r3 : r2 ⊆ r3 -> closed_new r1 r2 -> closed_new r2 r3 -> closed_new r1 r3.
  Proof.
    intros Hs H12 H23 f l ok Hf Hn E. destruct (decide (f ∈ r2)) as [H2|H2]; [|by eapply H23].
    intros line imp full H1 H3 H4. apply Hs. by eapply (H12 f l ok H2 Hn E).
  Qed.
  Definition existing (r : gset string) : Prop := forall f, f ∈ r -> is_Some (fs !! f).

  Definition good (d : deps_t) : Prop := forall l ok r r', existing r -> d l ok r = POk r' ->
    existing r' /\ closed_new r r' /\ from_imports r' l.

  Lemma existing_add f r : is_Some (fs !! f) -> existing r -> existing ({[f]} ∪ r).
  Proof. intros H1 H2 g. rewrite elem_of_union, elem_of_singleton. intros [->|?]; auto. Qed.

  Lemma import_good d imp : grows d -> good d -> forall is r r', existing r -> import_loop fs d is imp r = POk r' ->
    r ⊆ r' /\ existing r' /\ closed_new r r' /\
    forall before inc after, is = before ++ inc :: after -> is_Some (fs !! Join [inc; imp]) ->
      (forall i, i ∈ before -> fs !! Join [i; imp] = None) -> Join [inc; imp] ∈ r'.
  Proof.
    intros Hg Hd is. induction is as [|i is IH]; intros r r' He H; cbn [import_loop] in H.
    - injection H as ->. split; [done|]. split; [done|]. split; [intros ? ? ? ? ?; done|].
      intros [|? ?] ? ? ?; done.
    - destruct (decide (Join [i; imp] ∈ r)) as [Hin|Hin].
      { destruct (IH r r' He H) as (H1 & H2 & H3 & H4). split; [done|]. split; [done|]. split; [done|].
        intros [|b before] inc after [= -> ->] Hs Hb; [by apply H1|]. eapply H4; [done|done|]. intros. apply Hb. by right. }
      destruct (fs !! Join [i; imp]) as [[|l ok]|] eqn:E; [done| |].
      + assert (He' : existing ({[Join [i; imp]]} ∪ r)) by (apply existing_add; [by rewrite E|done]).
        assert (Hs : {[Join [i; imp]]} ∪ r ⊆ r').
        { pose proof (Hg l ok ({[Join [i; imp]]} ∪ r)) as Hgr. rewrite H in Hgr. by apply Hgr. }
        destruct (Hd l ok _ r' He' H) as (H1 & H2 & H3). split; [set_solver|]. split; [done|]. split.
        * intros f l' ok' Hf Hn Ef. destruct (decide (f = Join [i; imp])) as [->|Hne].
          -- rewrite E in Ef. by simplify_eq.
          -- eapply H2; [done| |done]. set_solver.
        * intros [|b before] inc after [= -> ->] Hsome Hb; [set_solver|].
          specialize (Hb b ltac:(by left)). congruence.
      + destruct (IH r r' He H) as (H1 & H2 & H3 & H4). split; [done|]. split; [done|]. split; [done|].
        intros [|b before] inc after [= -> ->] Hs Hb; [rewrite E in Hs; by destruct Hs|].
        eapply H4; [done|done|]. intros. apply Hb. by right.
  Qed.
  Lemma lines_good d ok : grows d -> good d -> forall l r r', existing r -> lines_loop fs incs d l ok r = POk r' ->
    r ⊆ r' /\ existing r' /\ closed_new r r' /\ from_imports r' l.
  Proof.
    intros Hg Hd l. induction l as [|line l IH]; intros r r' He H; cbn [lines_loop] in H.
    - destruct ok; [|done]. injection H as ->. split; [done|]. split; [done|]. split; [intros ? ? ? ? ?; done|].
      intros ? ? ? ?%elem_of_nil. done.
    - destruct (import_of line) as [imp|] eqn:Ei.
      + destruct (import_loop fs d incs imp r) as [r1|r1|] eqn:E; try done.
        apply import_good in E as (S1 & E1 & C1 & F1); [|done..].
        apply IH in H as (S2 & E2 & C2 & F2); [|done]. split; [set_solver|]. split; [done|].
        split; [by eapply closed_new_trans|].
        intros line' imp' full [->|Hl]%elem_of_cons Hi Hr; [|by eapply F2].
        apply import_of_spec in Hi. rewrite Ei in Hi. injection Hi as <-. destruct Hr as (b & inc & a & Hincs & -> & Hs & Hb). apply S2. by eapply F1.
      + apply IH in H as (S2 & E2 & C2 & F2); [|done]. split; [done|]. split; [done|]. split; [done|].
        intros line' imp' full [->|Hl]%elem_of_cons Hi Hr; [apply import_of_spec in Hi; congruence|by eapply F2].
  Qed.
  Lemma protodeps_good fuel : good (protodeps fs incs fuel).
  Proof.
    induction fuel as [|fuel IH]; intros l ok r r' He H; simpl in H; [done|].
    apply lines_good in H as (_ & ? & ? & ?); [done|apply protodeps_grows|done|done].
  Qed.

  (** Only what is imported, also when there is an error. *)
  Definition okset (P : string -> Prop) (r : gset string) : Prop := forall f, f ∈ r -> P f.
  Definition only (P : string -> Prop) (d : deps_t) : Prop :=
    forall l ok r, (forall line imp full, line ∈ l -> import_statement line imp -> candidate fs incs imp full -> P full) ->
      okset P r -> okset P (rset (d l ok r)).
  Definition pclosed (P : string -> Prop) : Prop := forall g imp full, P g -> imports fs g imp -> candidate fs incs imp full -> P full.
  Lemma import_only P d imp : pclosed P -> only P d -> (forall full, candidate fs incs imp full -> P full) ->
    forall is r, (forall i, i ∈ is -> i ∈ incs) -> okset P r -> okset P (rset (import_loop fs d is imp r)).
  Proof.
    intros HP Hd Hc is. induction is as [|i is IH]; intros r Hi Hr; cbn [import_loop]; [done|].
    assert (Hi' : forall j, j ∈ is -> j ∈ incs) by (intros; apply Hi; by right).
    destruct (decide (Join [i; imp] ∈ r)); [by apply IH|].
    destruct (fs !! Join [i; imp]) as [[|l ok]|] eqn:E; [done| |by apply IH].
    assert (HPi : P (Join [i; imp])).
    { apply Hc. exists i. split; [apply Hi; by left|]. split; [done|]. by rewrite E. }
    apply Hd.
    - intros line imp' full Hl He Hcand. eapply HP; [exact HPi| |done]. exists l, ok, line. done.
    - intros f. rewrite elem_of_union, elem_of_singleton. intros [->|?]; auto.
  Qed.
  Lemma lines_only P d ok : pclosed P -> only P d -> forall l r,
    (forall line imp full, line ∈ l -> import_statement line imp -> candidate fs incs imp full -> P full) ->
    okset P r -> okset P (rset (lines_loop fs incs d l ok r)).
  Proof.
    intros HP Hd l. induction l as [|line l IH]; intros r Hl Hr; cbn [lines_loop]; [by destruct ok|].
    assert (Hl' : forall line' imp full, line' ∈ l -> import_statement line' imp -> candidate fs incs imp full -> P full).
    { intros line' imp full H. apply Hl. by right. }
    destruct (import_of line) as [imp|] eqn:Ei; [|by apply IH].
    pose proof (import_only P d imp HP Hd (fun full => Hl line imp full ltac:(by left) (proj1 (import_of_spec _ _) Ei)) incs r (fun _ H => H) Hr) as Hi.
    destruct (import_loop fs d incs imp r) as [r1|r1|]; simpl in *; [by apply IH|done|done].
  Qed.
  Lemma protodeps_only P fuel : pclosed P -> only P (protodeps fs incs fuel).
  Proof.
    intros HP. induction fuel as [|fuel IH]; intros l ok r Hl Hr; simpl; [intros f Hf; set_solver|]. by apply lines_only.
  Qed.

  (** Errors are about files that cannot be opened or read. *)
  Definition bad (f : string) : Prop := fs !! f = Some OpenErr \/ exists l, fs !! f = Some (Lines l false).

  Lemma deps_ok_lem fuel f l : Deps fs incs fuel f = DepsRet l true ->
    exists ls ok r, fs !! f = Some (Lines ls ok) /\ protodeps fs incs fuel ls ok {[f]} = POk r /\ l = ssort (elements r).
  Proof.
    unfold Deps. destruct (fs !! f) as [[|ls ok]|]; [done| |done].
    destruct (protodeps fs incs fuel ls ok {[f]}) as [r|r|] eqn:E; try done. intros [= <-]. eauto 10.
  Qed.
  Lemma deps_any_lem fuel f l b : Deps fs incs fuel f = DepsRet l b ->
    l = [] \/ exists ls ok r, fs !! f = Some (Lines ls ok) /\
      (protodeps fs incs fuel ls ok {[f]} = POk r \/ protodeps fs incs fuel ls ok {[f]} = PErr r) /\ l = ssort (elements r).
  Proof.
    unfold Deps. destruct (fs !! f) as [[|ls ok]|]; [intros [= <- _]; by left| |intros [= <- _]; by left].
    destruct (protodeps fs incs fuel ls ok {[f]}) as [r|r|] eqn:E; try done; intros [= <- _]; right; eauto 10.
  Qed.
  Lemma elem_sorted r x : x ∈ ssort (elements r : list string) <-> x ∈ (r : gset string).
  Proof. by rewrite ssort_elem, elem_of_elements. Qed.

  Lemma deps_terminates_lem fuel f : size fs < fuel -> Deps fs incs fuel f <> DepsOutOfFuel.
  Proof.
    intros Hf. unfold Deps. destruct (fs !! f) as [[|ls ok]|]; [done| |done].
    pose proof (protodeps_terminates fuel ls ok {[f]}) as H.
    assert (Ht : todo {[f]} < fuel).
    { unfold todo. eapply Nat.le_lt_trans; [|exact Hf]. etrans; [apply subseteq_size, subseteq_difference_l; reflexivity|].
      unfold fsys in *. rewrite size_dom. done. }
    specialize (H Ht). by destruct (protodeps fs incs fuel ls ok {[f]}).
  Qed.
  Lemma deps_needed_lem fuel f l x : Deps fs incs fuel f = DepsRet l true -> needed fs incs f x -> x ∈ l.
  Proof.
    intros H Hx. apply deps_ok_lem in H as (ls & ok & r & Ef & E & ->). rewrite elem_sorted.
    pose proof (protodeps_grows fuel ls ok {[f]}) as Hg. rewrite E in Hg. specialize (Hg ltac:(done)). simpl in Hg.
    destruct (protodeps_good fuel ls ok {[f]} r) as (He & Hc & Hf); [|done|].
    { intros g ->%elem_of_singleton. by rewrite Ef. }
    induction Hx as [|g imp full Hg' IH (l' & ok' & line & El & Hline & Hi) Hr]; [set_solver|].
    destruct (decide (g = f)) as [->|Hne].
    - rewrite Ef in El. injection El as <- <-. by eapply Hf.
    - eapply (Hc g l' ok'); [done|set_solver|done|done|done|done].
  Qed.
  Lemma deps_possible_lem fuel f l b x : Deps fs incs fuel f = DepsRet l b -> x ∈ l ->
    possible fs incs f x /\ is_Some (fs !! x).
  Proof.
    intros H Hx. apply deps_any_lem in H as [->|(ls & ok & r & Ef & E & ->)]; [by apply elem_of_nil in Hx|].
    rewrite elem_sorted in Hx.
    set (P := fun x => possible fs incs f x /\ is_Some (fs !! x)).
    assert (HP : pclosed P).
    { intros g imp full [Hg _] Hi Hc. split; [by eapply possible_import|]. by destruct Hc as (? & _ & _ & ?). }
    assert (HPf : P f) by (split; [constructor|by rewrite Ef]).
    assert (Hr : okset P (rset (protodeps fs incs fuel ls ok {[f]}))).
    { apply protodeps_only; [done| |by intros ? ->%elem_of_singleton]. intros line imp full Hl Hi Hc.
      eapply HP; [exact HPf| |done]. by exists ls, ok, line. }
    destruct E as [E|E]; rewrite E in Hr; by apply Hr.
  Qed.
  Lemma deps_sorted_lem fuel f l b : Deps fs incs fuel f = DepsRet l b -> StronglySorted sle l /\ NoDup l.
  Proof.
    intros H. apply deps_any_lem in H as [->|(ls & ok & r & Ef & E & ->)]; [split; constructor|].
    split; [apply ssort_sorted|]. rewrite ssort_perm. apply NoDup_elements.
  Qed.
  Lemma resolves_candidate imp full : resolves fs incs imp full -> candidate fs incs imp full.
  Proof. intros (b & inc & a & E & -> & Hs & _). exists inc. split; [rewrite E; set_solver|]. done. Qed.
  Lemma candidate_resolves imp : forall full, candidate fs incs imp full -> exists full', resolves fs incs imp full'.
  Proof.
    unfold candidate, resolves. generalize incs as is. induction is as [|i is IH]; intros full (inc & Hin & -> & Hs).
    { by apply elem_of_nil in Hin. }
    destruct (fs !! Join [i; imp]) as [e|] eqn:E.
    - exists (Join [i; imp]), [], i, is. split; [done|]. split; [done|]. split; [by rewrite E|]. intros ? ?%elem_of_nil. done.
    - apply elem_of_cons in Hin as [->|Hin]; [rewrite E in Hs; by destruct Hs|].
      destruct (IH (Join [inc; imp])) as (full' & b & inc' & a & -> & -> & Hs' & Hb); [by exists inc|].
      exists (Join [inc'; imp]), (i :: b), inc', a. split; [done|]. split; [done|]. split; [done|].
      intros j [->|Hj]%elem_of_cons; [done|by apply Hb].
  Qed.
  Lemma unambiguous_needed f x : unambiguous fs incs -> possible fs incs f x -> needed fs incs f x.
  Proof.
    intros Hu. induction 1 as [|g imp full Hg IH Hi Hc]; [constructor|].
    destruct (candidate_resolves imp full Hc) as (full' & Hr).
    assert (full' = full) as -> by (eapply Hu; [by apply resolves_candidate|done]).
    by eapply needed_import.
  Qed.

  (** ** Errors. *)
  Definition errs (P : string -> Prop) (d : deps_t) : Prop :=
    forall l ok r r', (forall line imp full, line ∈ l -> import_statement line imp -> candidate fs incs imp full -> P full) ->
      d l ok r = PErr r' -> ok = false \/ exists g, P g /\ bad g.
  Lemma import_errs P d imp : pclosed P -> errs P d -> (forall full, candidate fs incs imp full -> P full) ->
    forall is r r', (forall i, i ∈ is -> i ∈ incs) -> import_loop fs d is imp r = PErr r' -> exists g, P g /\ bad g.
  Proof.
    intros HP Hd Hc is. induction is as [|i is IH]; intros r r' Hi; cbn [import_loop]; [done|].
    assert (Hi' : forall j, j ∈ is -> j ∈ incs) by (intros; apply Hi; by right).
    destruct (decide (Join [i; imp] ∈ r)); [by apply IH|].
    assert (HPi : is_Some (fs !! Join [i; imp]) -> P (Join [i; imp])).
    { intros Hs. apply Hc. exists i. split; [apply Hi; by left|]. split; [done|]. done. }
    destruct (fs !! Join [i; imp]) as [[|l ok]|] eqn:E; [| |by apply IH].
    - intros _. exists (Join [i; imp]). split; [apply HPi; eauto|by left].
    - intros H. apply Hd in H as [->|H].
      + exists (Join [i; imp]). split; [apply HPi; eauto|]. right. eauto.
      + done.
      + intros line imp' full Hl He Hcand. eapply HP; [apply HPi; eauto| |done]. exists l, ok, line. done.
  Qed.
  Lemma lines_errs P d ok : pclosed P -> errs P d -> forall l r r',
    (forall line imp full, line ∈ l -> import_statement line imp -> candidate fs incs imp full -> P full) ->
    lines_loop fs incs d l ok r = PErr r' -> ok = false \/ exists g, P g /\ bad g.
  Proof.
    intros HP Hd l. induction l as [|line l IH]; intros r r' Hl; cbn [lines_loop]; [destruct ok; auto; done|].
    assert (Hl' : forall line' imp full, line' ∈ l -> import_statement line' imp -> candidate fs incs imp full -> P full).
    { intros line' imp full H. apply Hl. by right. }
    destruct (import_of line) as [imp|] eqn:Ei; [|by apply IH]. apply import_of_spec in Ei.
    destruct (import_loop fs d incs imp r) as [r1|r1|] eqn:E; [by apply IH| |done].
    intros _. right. eapply (import_errs P d imp HP Hd); [|by intros|exact E].
    intros full. apply (Hl line); [by left|done].
  Qed.
  Lemma protodeps_errs P fuel : pclosed P -> errs P (protodeps fs incs fuel).
  Proof.
    intros HP. induction fuel as [|fuel IH]; intros l ok r r' Hl; cbn [protodeps]; [done|]. by apply lines_errs.
  Qed.
  Lemma deps_error_lem fuel f l : Deps fs incs fuel f = DepsRet l false ->
    fs !! f = None \/ exists g, possible fs incs f g /\ bad g.
  Proof.
    unfold Deps. destruct (fs !! f) as [[|ls ok]|] eqn:Ef; [| |by left].
    { intros _. right. exists f. split; [constructor|by left]. }
    destruct (protodeps fs incs fuel ls ok {[f]}) as [r|r|] eqn:E; try done. intros _. right.
    apply (protodeps_errs (possible fs incs f)) in E as [->|H]; [|done| |].
    - exists f. split; [constructor|]. right. eauto.
    - intros g imp full Hg Hi Hc. by eapply possible_import.
    - intros line imp full Hl Hi Hc. eapply possible_import; [constructor| |done]. by exists ls, ok, line.
  Qed.

  Definition reads (d : deps_t) : Prop := forall l ok r r', d l ok r = POk r' ->
    ok = true /\ forall f, f ∈ r' -> f ∉ r -> exists l', fs !! f = Some (Lines l' true).
  Lemma import_reads d imp : reads d -> forall is r r', import_loop fs d is imp r = POk r' ->
    forall f, f ∈ r' -> f ∉ r -> exists l', fs !! f = Some (Lines l' true).
  Proof.
    intros Hd is. induction is as [|i is IH]; intros r r'; cbn [import_loop].
    { intros [= ->] f ? ?. done. }
    destruct (decide (Join [i; imp] ∈ r)); [by apply IH|].
    destruct (fs !! Join [i; imp]) as [[|l ok]|] eqn:E; [done| |by apply IH].
    intros [-> H]%Hd f H1 H2. destruct (decide (f = Join [i; imp])) as [->|Hne]; [eauto|]. apply H; [done|]. set_solver.
  Qed.
  Lemma lines_reads d ok : reads d -> forall l r r', lines_loop fs incs d l ok r = POk r' ->
    ok = true /\ forall f, f ∈ r' -> f ∉ r -> exists l', fs !! f = Some (Lines l' true).
  Proof.
    intros Hd l. induction l as [|line l IH]; intros r r'; cbn [lines_loop].
    { destruct ok; [|done]. intros [= ->]. split; [done|]. intros f ? ?. done. }
    destruct (import_of line) as [imp|]; [|apply IH].
    destruct (import_loop fs d incs imp r) as [r1|r1|] eqn:E; [|done..].
    intros [-> H]%IH. split; [done|]. intros f H1 H2. destruct (decide (f ∈ r1)); [by eapply import_reads|by apply H].
  Qed.
  Lemma protodeps_reads fuel : reads (protodeps fs incs fuel).
  Proof. induction fuel as [|fuel IH]; intros l ok r r' H; cbn [protodeps] in H; [done|]. by apply lines_reads in H. Qed.
  Lemma deps_reads_lem fuel f l x : Deps fs incs fuel f = DepsRet l true -> x ∈ l -> exists ls, fs !! x = Some (Lines ls true).
  Proof.
    intros H Hx. apply deps_ok_lem in H as (ls & ok & r & Ef & E & ->). rewrite elem_sorted in Hx.
    apply protodeps_reads in E as [-> H]. destruct (decide (x = f)) as [->|Hn]; [eauto|]. apply H; [done|]. set_solver.
  Qed.
  Lemma deps_exact_lem fuel f l x : unambiguous fs incs -> Deps fs incs fuel f = DepsRet l true ->
    (x ∈ l <-> needed fs incs f x).
  Proof.
    intros Hu H. split; [|by eapply deps_needed_lem]. intros Hx. eapply deps_possible_lem in H as [H _]; [|done].
    by apply unambiguous_needed.
  Qed.

  Lemma proto_deps_lem fuel : forall inputs all r, proto_deps fs incs fuel inputs all = Some r ->
    forall x, x ∈ r <-> x ∈ all \/ exists i l, i ∈ inputs /\ Deps fs incs fuel i = DepsRet l true /\ x ∈ l.
  Proof.
    intros inputs. induction inputs as [|i inputs IH]; intros all r; cbn [proto_deps].
    - intros [= <-] x. split; [auto|]. intros [?|(? & ? & H & _)]; [done|by apply elem_of_nil in H].
    - destruct (Deps fs incs fuel i) as [l [|]|] eqn:E; try done. intros H x. rewrite (IH _ _ H x).
      rewrite elem_of_union, elem_of_list_to_set. split.
      + intros [[?|?]|(j & l' & ? & ? & ?)]; [by left| |]; right.
        * exists i, l. split; [by left|]. done.
        * exists j, l'. split; [by right|]. done.
      + intros [?|(j & l' & Hj & E' & Hx)]; [by do 2 left|]. apply elem_of_cons in Hj as [->|Hj]; [|by right; eauto 10].
        rewrite E in E'. injection E' as ->. left. by right.
  Qed.
  Lemma proto_deps_ok fuel : forall inputs all, is_Some (proto_deps fs incs fuel inputs all) <->
    forall i, i ∈ inputs -> exists l, Deps fs incs fuel i = DepsRet l true.
  Proof.
    intros inputs. induction inputs as [|i inputs IH]; intros all; cbn [proto_deps].
    - split; [intros _ i H; by apply elem_of_nil in H|eauto].
    - split.
      + destruct (Deps fs incs fuel i) as [l [|]|] eqn:E; try by intros [? ?].
        intros H j [->|Hj]%elem_of_cons; [eauto|]. by eapply IH.
      + intros H. destruct (H i ltac:(by left)) as [l ->]. apply IH. intros j Hj. apply H. by right.
  Qed.
End proofs.
