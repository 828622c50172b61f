(** Who holds the locks of FineModel.v, and that entries of con.ran have an owner. *)
From stdpp Require Import base gmap list strings.
From Verif Require Import ContextModel RunnerModel RunnerSteps RunnerInv RunnerInv2 RunnerInv3 RunnerSpec RunnerSpec2 FineModel FineSpec FineProofs FineProofs2 FineProofs3.
Local Open Scope list_scope.

(** The goroutine holds the mutex of the gate of its key. *)
Definition gheld (p : gpc) : bool := match p with PTest | PClosed | PWoken | PSetL | PSetU => true | _ => false end.

Definition lockinv (f : fstate) : Prop := forall x, m_lock f = Some x -> holds f x.
Definition gateinv (f : fstate) : Prop := forall a o, m_ran f !! a = Some o -> fo_lock o = true -> exists g h, m_gors f !! g = Some h /\ h_key h = a /\ gheld (h_pc h) = true.
Definition ownerinv (f : fstate) : Prop := forall a, is_Some (m_ran f !! a) ->
  (exists g h, m_gors f !! g = Some h /\ h_key h = a /\ pre (h_pc h) = true) \/ exists g o cx, EvStart g a o cx ∈ m_log f.

(** What every step does to the other parts of the state. *)
Lemma holds_mono f f' x :
  (forall g h, m_gors f !! g = Some h -> g_locked (h_pc h) = true -> exists h', m_gors f' !! g = Some h' /\ g_locked (h_pc h') = true) ->
  (forall c k, m_calls f !! c = Some k -> c_locked (k_pc k) = true -> exists k', m_calls f' !! c = Some k' /\ c_locked (k_pc k') = true) ->
  holds f x -> holds f' x.
Proof. intros H1 H2. destruct x as [g|c]; simpl; [intros (h & H & Hp); by eapply H1|intros (k & H & Hp); by eapply H2]. Qed.

Lemma look_alter {A} (z : A -> A) (P : A -> bool) i (l : list A) j x : l !! j = Some x -> P x = true -> (forall y, l !! i = Some y -> P y = true -> P (z y) = true) ->
  exists x', alter z i l !! j = Some x' /\ P x' = true.
Proof.
  intros Hx HP Hz. destruct (decide (i = j)) as [->|Hn]; [rewrite list_lookup_alter, Hx; eexists; split; [reflexivity|by apply Hz]|].
  rewrite list_lookup_alter_ne by done. by exists x.
Qed.
Lemma look_app {A} (P : A -> bool) (l l2 : list A) j x : l !! j = Some x -> P x = true -> exists x', (l ++ l2) !! j = Some x' /\ P x' = true.
Proof. intros Hx HP. exists x. split; [|done]. by apply lookup_app_l_Some. Qed.

Definition gl (h : fgor) : bool := g_locked (h_pc h).
Definition cl (k : fcall) : bool := c_locked (k_pc k).
Lemma lock_go f f' g p h : lockinv f -> m_gors f !! g = Some h -> m_gors f' = alter (set_pc p) g (m_gors f) ->
  (m_calls f' = m_calls f \/ (exists z c, m_calls f' = alter z c (m_calls f) /\ forall k, k_pc (z k) = k_pc k) \/ exists k, m_calls f' = m_calls f ++ [k]) ->
  (m_lock f' = m_lock f /\ (g_locked (h_pc h) = true -> g_locked p = true) \/ m_lock f' = Some (WGo g) /\ g_locked p = true \/ m_lock f' = None) -> lockinv f'.
Proof.
  intros Hi Hg Hgs Hc Hl x Hx. destruct Hl as [(Hl & Hp)|[(Hl & Hp)|Hl]].
  - rewrite Hl in Hx. apply Hi in Hx. revert Hx. apply holds_mono.
    + intros g' h' Hh Hp'. rewrite Hgs. apply (look_alter (set_pc p) gl g _ g' h' Hh Hp'). intros y Hy. rewrite Hg in Hy. injection Hy as <-. exact Hp.
    + intros c k Hk Hck. destruct Hc as [->|[(z & c' & -> & Hz)|(k' & ->)]]; [by exists k| |exact (look_app cl _ _ _ _ Hk Hck)].
      apply (look_alter z cl c' _ c k Hk Hck). intros y _. unfold cl. by rewrite Hz.
  - rewrite Hl in Hx. injection Hx as <-. simpl. rewrite Hgs, list_lookup_alter, Hg. by eexists.
  - by rewrite Hl in Hx.
Qed.
Lemma lock_call f f' c k z : lockinv f -> m_calls f !! c = Some k -> m_calls f' = alter z c (m_calls f) ->
  (m_gors f' = m_gors f \/ (exists h, m_gors f' = m_gors f ++ [h]) \/ exists g h p, m_gors f !! g = Some h /\ g_locked (h_pc h) = false /\ m_gors f' = alter (set_pc p) g (m_gors f)) ->
  (m_lock f' = m_lock f /\ (cl k = true -> cl (z k) = true) \/ m_lock f' = Some (WCall c) /\ cl (z k) = true \/ m_lock f' = None) -> lockinv f'.
Proof.
  intros Hi Hk Hcs Hg Hl x Hx. destruct Hl as [(Hl & Hp)|[(Hl & Hp)|Hl]].
  - rewrite Hl in Hx. apply Hi in Hx. revert Hx. apply holds_mono.
    + intros g' h' Hh Hp'. destruct Hg as [->|[(h0 & ->)|(g & h & p & Hg & Hn & ->)]]; [by exists h'|exact (look_app gl _ _ _ _ Hh Hp')|].
      apply (look_alter (set_pc p) gl g _ g' h' Hh Hp'). intros y Hy. rewrite Hg in Hy. injection Hy as <-. unfold gl. by rewrite Hn.
    + intros c' k' Hk' Hck. rewrite Hcs. apply (look_alter z cl c _ c' k' Hk' Hck). intros y Hy. rewrite Hk in Hy. injection Hy as <-. exact Hp.
  - rewrite Hl in Hx. injection Hx as <-. simpl. rewrite Hcs, list_lookup_alter, Hk. by eexists.
  - by rewrite Hl in Hx.
Qed.
Lemma alter_alter {A} (z1 z2 : A -> A) i (l : list A) : alter z1 i (alter z2 i l) = alter (z1 ∘ z2) i l.
Proof. by rewrite list_alter_compose. Qed.
Lemma lock_holds w f : reached w f -> lockinv f.
Proof.
  revert f. apply reached_ind; [done|]. intros f ch f' Hre Hi Hf. destruct ch as [cx ts|name o|c|g r]; simpl in Hf.
  - injection Hf as <-. intros x Hx. apply Hi in Hx. revert Hx. apply holds_mono; [intros g h Hg Hp; by exists h|]. intros c k Hk Hp. exact (look_app cl _ _ _ _ Hk Hp).
  - destruct (m_lock f); [done|]. by injection Hf as <-.
  - unfold f_call in Hf. destruct (m_calls f !! c) as [k|] eqn:Hk; simpl in Hf; [|done].
    destruct (k_pc k) as [| |d| |i todo| |acc|e|e|e d|e|e|e] eqn:Hq.
    + destruct (m_lock f); [done|]. injection Hf as <-. eapply lock_call; [exact Hi|exact Hk|reflexivity|by left|right; left; done].
    + injection Hf as <-. eapply lock_call; [exact Hi|exact Hk|reflexivity|by left|by left].
    + injection Hf as <-. eapply lock_call; [exact Hi|exact Hk|reflexivity|by left|by left].
    + injection Hf as <-. eapply lock_call; [exact Hi|exact Hk|reflexivity|by left|right; by right].
    + destruct todo as [|t todo]; [injection Hf as <-; eapply lock_call; [exact Hi|exact Hk|reflexivity|by left|left; split; [done|unfold cl; by rewrite Hq]]|].
      unfold f_iter in Hf. destruct t as [o|].
      * destruct (w_deferred w o).
        -- simpl in Hf. destruct (m_lock f); [done|]. destruct (f_resolve _ _ _) as [ca [e|o']]; injection Hf as <-; (eapply lock_call; [exact Hi|exact Hk|simpl; apply alter_alter|simpl; eauto|left; split; [done|unfold cl; by rewrite Hq]]).
        -- injection Hf as <-. eapply lock_call; [exact Hi|exact Hk|simpl; apply alter_alter|simpl; eauto|left; split; [done|unfold cl; by rewrite Hq]].
      * injection Hf as <-. eapply lock_call; [exact Hi|exact Hk|simpl; apply alter_alter|simpl; eauto|left; split; [done|unfold cl; by rewrite Hq]].
    + destruct (k_wg k); [|done]. injection Hf as <-. eapply lock_call; [exact Hi|exact Hk|reflexivity|by left|left; split; [done|unfold cl; by rewrite Hq]].
    + destruct (k_errs k !! length acc); injection Hf as <-; (eapply lock_call; [exact Hi|exact Hk|reflexivity|by left|left; split; [done|unfold cl; by rewrite Hq]]).
    + destruct (m_lock f); [done|]. injection Hf as <-. eapply lock_call; [exact Hi|exact Hk|reflexivity|by left|right; left; done].
    + injection Hf as <-. eapply lock_call; [exact Hi|exact Hk|reflexivity|by left|by left].
    + injection Hf as <-. eapply lock_call; [exact Hi|exact Hk|reflexivity|by left|by left].
    + injection Hf as <-. eapply lock_call; [exact Hi|exact Hk|reflexivity|by left|right; by right].
    + destruct (k_parent k) as [g|].
      * destruct (m_gors f !! g) as [h|] eqn:Hg; simpl in Hf; [|done]. destruct (h_pc h) eqn:Hp; try done. destruct (decide _); [|done]. injection Hf as <-.
        eapply lock_call; [exact Hi|exact Hk|reflexivity| |left; split; [done|unfold cl; by rewrite Hq]].
        right. right. exists g, h. eexists. split; [done|]. split; [by rewrite Hp|reflexivity].
      * injection Hf as <-. eapply lock_call; [exact Hi|exact Hk|reflexivity|by left|left; split; [done|unfold cl; by rewrite Hq]].
    + done.
  - unfold f_go in Hf. destruct (m_gors f !! g) as [h|] eqn:Hg; simpl in Hf; [|done].
    destruct (h_pc h) as [| | | | | | | | | | |e| |p|c k|e|e| | | | |] eqn:Hp.
    14: destruct p as [e|cx ts k|d k|l k]; [| |destruct (m_lock f); [done|]; destruct (f_resolve w d f)|].
    all: try (destruct (m_lock f) eqn:El; [done|]); try (destruct (m_ran f !! h_key h) eqn:Er; simpl in Hf; [|done]; try (destruct (fo_lock _); [done|])); try done;
      injection Hf as <-; (eapply lock_go; [exact Hi|exact Hg|reflexivity| |rewrite Hp]); simpl; rewrite ?El;
      first [by left|by right; left; eexists _, _; split; [reflexivity|]|by right; right; eexists|by right; left|by right; right|idtac].
    all: try (left; split; [done|]; done).
    all: try (left; split; [done|]; by destruct (m_ran f !! h_key h)).
    all: try (right; left; split; [reflexivity|]; by destruct (m_ran f !! h_key h)).
Qed.

Definition inv2 (f : fstate) : Prop := gateinv f /\ ownerinv f.
Lemma inv2_same f f' : m_ran f' = m_ran f ->
  (forall g h, m_gors f !! g = Some h -> exists h', m_gors f' !! g = Some h' /\ h_key h' = h_key h /\ (gheld (h_pc h) = true -> gheld (h_pc h') = true) /\ (pre (h_pc h) = true -> pre (h_pc h') = true)) ->
  (exists l, m_log f' = m_log f ++ l) -> inv2 f -> inv2 f'.
Proof.
  intros Hr Hg (l & Hl) [H1 H2]. split.
  - intros a o Ha Ho. rewrite Hr in Ha. destruct (H1 a o Ha Ho) as (g & h & Hh & Hk & Hp). destruct (Hg g h Hh) as (h' & Hh' & Hk' & Hp' & _). exists g, h'. split; [done|]. split; [congruence|auto].
  - intros a Ha. rewrite Hr in Ha. destruct (H2 a Ha) as [(g & h & Hh & Hk & Hp)|(g & o & cx & Hin)].
    + destruct (Hg g h Hh) as (h' & Hh' & Hk' & _ & Hp'). left. exists g, h'. split; [done|]. split; [congruence|auto].
    + right. exists g, o, cx. rewrite Hl. apply elem_of_app. by left.
Qed.
Lemma inv2_go f f' g p h : inv2 f -> m_gors f !! g = Some h -> m_gors f' = alter (set_pc p) g (m_gors f) ->
  (exists l, m_log f' = m_log f ++ l) ->
  (forall a o', m_ran f' !! a = Some o' -> fo_lock o' = true ->
     (exists o, m_ran f !! a = Some o /\ fo_lock o = true /\ (a = h_key h -> gheld (h_pc h) = true -> gheld p = true)) \/ (a = h_key h /\ gheld p = true)) ->
  (forall a, is_Some (m_ran f' !! a) -> is_Some (m_ran f !! a) \/ (a = h_key h /\ pre p = true)) ->
  (pre (h_pc h) = true -> pre p = true \/ exists g o cx, EvStart g (h_key h) o cx ∈ m_log f') -> inv2 f'.
Proof.
  intros [H1 H2] Hg Hgs (l & Hl) Hr Hd Hp. assert (Hg' : m_gors f' !! g = Some (set_pc p h)) by (by rewrite Hgs, list_lookup_alter, Hg). split.
  - intros a o' Ha Ho. destruct (Hr a o' Ha Ho) as [(o & Ha1 & Ho1 & Hk)|(-> & Hk)].
    + destruct (H1 a o Ha1 Ho1) as (g1 & h1 & Hg1 & Hk1 & Hp1). destruct (decide (g1 = g)) as [->|Hn].
      * rewrite Hg in Hg1. injection Hg1 as <-. exists g, (set_pc p h). split; [done|]. split; [done|]. by apply Hk.
      * exists g1, h1. rewrite Hgs, list_lookup_alter_ne by done. done.
    + by exists g, (set_pc p h).
  - intros a Ha. destruct (Hd a Ha) as [Ha1|(-> & Hq)]; [|left; by exists g, (set_pc p h)].
    destruct (H2 a Ha1) as [(g1 & h1 & Hg1 & Hk1 & Hp1)|(g1 & o & cx & Hin)]; [|right; exists g1, o, cx; rewrite Hl; apply elem_of_app; by left].
    destruct (decide (g1 = g)) as [->|Hn].
    + rewrite Hg in Hg1. injection Hg1 as <-. destruct (Hp Hp1) as [Hp'|Hs]; [left; by exists g, (set_pc p h)|right]. by rewrite <-Hk1.
    + left. exists g1, h1. rewrite Hgs, list_lookup_alter_ne by done. done.
Qed.
Lemma inv2_iter w c i t cx f f' : inv2 f -> f_iter w c i t cx f = Some f' -> inv2 f'.
Proof.
  intros Hi Hf. unfold f_iter in Hf. assert (Hs : forall a o cx' f, inv2 f -> inv2 (f_spawn c i a o cx' f)).
  { intros a o cx' f0 H0. revert H0. apply inv2_same; [done| |by eexists]. intros g h Hh. exists h. split; [simpl; by apply lookup_app_l_Some|done]. }
  assert (Hr : forall e f, inv2 f -> inv2 (f_reject c i e f)).
  { intros e f0 H0. revert H0. apply inv2_same; [done| |by eexists]. intros g h Hh. by exists h. }
  destruct t as [o|].
  - destruct (w_deferred w o).
    + destruct (m_lock f); [done|]. destruct (f_resolve w o f) as [ca [e|o']]; injection Hf as <-; [by apply Hr|]. apply Hs. exact Hi.
    + injection Hf as <-. by apply Hs.
  - injection Hf as <-. by apply Hr.
Qed.
Lemma inv2_pc f f' g p h : inv2 f -> m_gors f !! g = Some h -> m_gors f' = alter (set_pc p) g (m_gors f) -> (exists l, m_log f' = m_log f ++ l) -> m_ran f' = m_ran f ->
  (gheld (h_pc h) = true -> gheld p = true) -> (pre (h_pc h) = true -> pre p = true \/ exists g o cx, EvStart g (h_key h) o cx ∈ m_log f') -> inv2 f'.
Proof.
  intros Hi Hg Hgs Hl Hr Hh Hp. eapply inv2_go; [exact Hi|exact Hg|exact Hgs|exact Hl| | |exact Hp]; rewrite Hr; [|by left].
  intros a o' Ha Ho. left. by exists o'.
Qed.
Lemma inv2_gate f f' g p h z : inv2 f -> m_gors f !! g = Some h -> m_gors f' = alter (set_pc p) g (m_gors f) -> m_log f' = m_log f -> m_ran f' = alter z (h_key h) (m_ran f) ->
  (forall o, fo_lock (z o) = true -> (fo_lock o = true /\ (gheld (h_pc h) = true -> gheld p = true)) \/ gheld p = true) -> pre (h_pc h) = false -> inv2 f'.
Proof.
  intros Hi Hg Hgs Hl Hr Hz Hp. eapply inv2_go; [exact Hi|exact Hg|exact Hgs|exists []; by rewrite Hl, app_nil_r| | |by rewrite Hp]; rewrite Hr.
  - intros a o' Ha Ho. destruct (decide (h_key h = a)) as [<-|Hn].
    + rewrite lookup_alter in Ha. destruct (m_ran f !! h_key h) as [o|]; simpl in Ha; [|done]. injection Ha as <-.
      destruct (Hz o Ho) as [[Ho1 Hh]|Hh]; [left; by exists o|by right].
    + rewrite lookup_alter_ne in Ha by done. left. exists o'. split; [done|]. split; [done|]. intros ->. done.
  - intros a Ha. left. destruct (decide (h_key h = a)) as [<-|Hn]; [|by rewrite lookup_alter_ne in Ha].
    rewrite lookup_alter in Ha. by destruct (m_ran f !! h_key h); [eexists|destruct Ha].
Qed.
Lemma inv2_holds w f : reached w f -> inv2 f.
Proof.
  revert f. apply reached_ind; [split; [done|]; intros a [o H]; done|]. intros f ch f' Hre Hi Hf.
  assert (Hsame : forall f1, m_ran f1 = m_ran f -> m_gors f1 = m_gors f -> (exists l, m_log f1 = m_log f ++ l) -> inv2 f1).
  { intros f1 E1 E2 E3. revert Hi. apply inv2_same; [done| |done]. intros g h Hh. exists h. by rewrite E2. }
  assert (Hnil : exists l, m_log f = m_log f ++ l) by (exists []; by rewrite app_nil_r).
  destruct ch as [cx ts|name o|c|g r]; simpl in Hf.
  - injection Hf as <-. apply Hsame; [done|done|by eexists].
  - destruct (m_lock f); [done|]. injection Hf as <-. apply Hsame; [done|done|by eexists].
  - unfold f_call in Hf. destruct (m_calls f !! c) as [k|] eqn:Hk; simpl in Hf; [|done].
    destruct (k_pc k) as [| |d| |i todo| |acc|e|e|e d|e|e|e] eqn:Hq; try done;
      try (destruct (m_lock f) eqn:El; [done|]); try (destruct (k_wg k); [|done]); try (injection Hf as <-; by apply Hsame).
    + destruct todo as [|t todo]; [injection Hf as <-; by apply Hsame|]. eapply inv2_iter; [|exact Hf]. by apply Hsame.
    + destruct (k_errs k !! length acc); injection Hf as <-; by apply Hsame.
    + destruct (k_parent k) as [g|]; [|injection Hf as <-; apply Hsame; [done|done|by eexists]].
      destruct (m_gors f !! g) as [h|] eqn:Hg; simpl in Hf; [|done]. destruct (h_pc h) eqn:Hp; try done. destruct (decide _); [|done]. injection Hf as <-.
      eapply inv2_go; [exact Hi|exact Hg|reflexivity|by eexists| |by left|by rewrite Hp].
      intros a o' Ha Ho. left. exists o'. rewrite Hp. done.
  - unfold f_go in Hf. destruct (m_gors f !! g) as [h|] eqn:Hg; simpl in Hf; [|done].
    destruct (h_pc h) as [| | | | | | | | | | |e| |p|c k|e|e| | | | |] eqn:Hp.
    14: destruct p as [e|cx ts k|d k|l k]; [| |destruct (m_lock f); [done|]; destruct (f_resolve w d f)|].
    all: try (destruct (m_lock f) eqn:El; [done|]); try (destruct (m_ran f !! h_key h) as [o|] eqn:Er; simpl in Hf; [|done]; try (destruct (fo_lock o) eqn:Eo; [done|])); try done;
      injection Hf as <-.
    all: try (eapply inv2_pc; [exact Hi|exact Hg|reflexivity|first [exact Hnil|by eexists]|reflexivity|rewrite Hp; simpl; try done|rewrite Hp; simpl; first [done|by left|idtac]]; fail).
    all: try (eapply inv2_gate; [exact Hi|exact Hg|reflexivity|reflexivity|reflexivity|rewrite Hp; simpl; first [by right|intros ?; simpl; try done; try (by left)]|by rewrite Hp]; fail).
    + eapply (inv2_go f _ g PInserted h); [exact Hi|exact Hg|reflexivity|exact Hnil| | |by rewrite Hp]; simpl.
      * intros a o' Ha Ho. destruct (decide (h_key h = a)) as [<-|Hn]; [rewrite lookup_insert in Ha; by injection Ha as <-|].
        rewrite lookup_insert_ne in Ha by done. left. exists o'. by rewrite Hp.
      * intros a Ha. destruct (decide (h_key h = a)) as [<-|Hn]; [by right|]. rewrite lookup_insert_ne in Ha by done. by left.
    + eapply inv2_pc; [exact Hi|exact Hg|reflexivity|exact Hnil|reflexivity|by destruct (fo_open o)|by rewrite Hp].
    + eapply inv2_pc; [exact Hi|exact Hg|reflexivity|by eexists|reflexivity|by rewrite Hp|]. intros _. right.
      eexists _, _, _. simpl. apply elem_of_app. right. apply elem_of_list_singleton. reflexivity.
Qed.
