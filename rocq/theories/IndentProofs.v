(** Proofs about IndentingCopier. *)
From stdpp Require Import base list strings.
From Verif Require Import IndentModel IndentSpec.
Local Open Scope nat_scope.
Local Open Scope list_scope.

(** ** A reference machine without the writer. *)
Definition rstep (ind : list byte) (bol cr : bool) (b : byte) : bool * bool * list byte :=
  if decide (b = LF) then (true, false, [LF])
  else if decide (b = CR) then (bol || cr, true, if cr then [LF] else [])
  else (false, false, (if cr then [LF] else []) ++ (if bol || cr then ind else []) ++ [b]).
Fixpoint rrun (ind : list byte) (bol cr : bool) (l : list byte) : list byte :=
  match l with
  | [] => []
  | b :: l => let '(bol, cr, o) := rstep ind bol cr b in o ++ rrun ind bol cr l
  end.

(** Output of the specification when the line has (not) been started. *)
Definition spec_from (ind : list byte) (bol : bool) (l : list byte) : list byte :=
  match split_lines (normalize l) with
  | [] => []
  | x :: xs => join_lines ((if bol then indent_line ind x else x) :: (indent_line ind <$> xs))
  end.

Lemma LF_CR : LF <> CR. Proof. done. Qed.

Lemma split_lines_ne l : exists x xs, split_lines l = x :: xs.
Proof. destruct l as [|b l]; simpl; [eauto|]. case_decide; [eauto|]. destruct (split_lines l); eauto. Qed.

Lemma join_cons x l : exists y ys, split_lines l = y :: ys /\
  forall f : list byte -> list byte, join_lines (x :: (f <$> split_lines l)) = x ++ LF :: join_lines (f <$> split_lines l).
Proof. destruct (split_lines_ne l) as (y & ys & ->). exists y, ys. split; [done|]. done. Qed.

Lemma spec_from_true ind l : spec_from ind true l = indented ind l.
Proof. unfold spec_from, indented. by destruct (split_lines_ne (normalize l)) as (x & xs & ->). Qed.

(** Splitting on normalized text. *)
Definition sf (ind : list byte) (bol : bool) (l : list byte) : list byte :=
  match split_lines l with
  | [] => []
  | x :: xs => join_lines ((if bol then indent_line ind x else x) :: (indent_line ind <$> xs))
  end.
Lemma sf_LF ind bol l : sf ind bol (LF :: l) = LF :: sf ind true l.
Proof.
  unfold sf. simpl. destruct (split_lines_ne l) as (x & xs & ->). simpl.
  destruct bol; [unfold indent_line at 1; rewrite decide_True by done|]; done.
Qed.
Lemma join_app u x xs : join_lines ((u ++ x) :: xs) = u ++ join_lines (x :: xs).
Proof. destruct xs; simpl; [done|]. by rewrite <-app_assoc. Qed.
Lemma sf_other ind bol b l : b <> LF -> sf ind bol (b :: l) = (if bol then ind else []) ++ b :: sf ind false l.
Proof.
  intros Hb. unfold sf. cbn [split_lines]. rewrite decide_False by done.
  destruct (split_lines_ne l) as (x & xs & ->). cbv iota.
  destruct bol.
  - assert (indent_line ind (b :: x) = ind ++ b :: x) as -> by done.
    change (ind ++ b :: x) with (ind ++ ([b] ++ x)). rewrite app_assoc.
    rewrite (join_app (ind ++ [b])). rewrite <-app_assoc. done.
  - change (b :: x) with ([b] ++ x). by rewrite (join_app [b]).
Qed.
Lemma sf_nil ind bol : sf ind bol [] = [].
Proof. unfold sf. simpl. destruct bol; done. Qed.

Lemma rrun_spec ind l : forall bol cr,
  rrun ind bol cr l =
  if cr then sf ind bol (normalize (CR :: l)) else sf ind bol (normalize l).
Proof.
  induction l as [|b l IH]; intros bol cr.
  - simpl. destruct cr; [|by rewrite sf_nil]. by rewrite sf_nil.
  - cbn [rrun]. unfold rstep.
    destruct (decide (b = LF)) as [->|Hlf].
    + rewrite IH. destruct cr.
      * change (normalize (CR :: LF :: l)) with (LF :: normalize l). by rewrite sf_LF.
      * change (normalize (LF :: l)) with (LF :: normalize l). by rewrite sf_LF.
    + destruct (decide (b = CR)) as [->|Hcr].
      * rewrite IH. destruct cr.
        -- change (normalize (CR :: CR :: l)) with (LF :: normalize (CR :: l)). rewrite sf_LF.
           by rewrite orb_true_r.
        -- by rewrite orb_false_r.
      * rewrite IH. destruct cr.
        -- assert (normalize (CR :: b :: l) = LF :: b :: normalize l) as ->.
           { simpl. rewrite decide_False by done. by rewrite decide_False by done. }
           rewrite sf_LF, sf_other by done. rewrite orb_true_r. simpl. by rewrite <-app_assoc.
        -- assert (normalize (b :: l) = b :: normalize l) as ->.
           { simpl. by rewrite decide_False by done. }
           rewrite sf_other by done. rewrite orb_false_r. simpl. by rewrite <-app_assoc.
Qed.

Lemma rrun_indented ind l : rrun ind true false l = indented ind l.
Proof. rewrite rrun_spec. rewrite <-spec_from_true. done. Qed.

(** ** The buffered writer. *)
Definition pending (b : bw) : list byte := bw_sent b ++ bw_buf b.

Lemma flush_ok w b : bw_err (flush w b) = false ->
  bw_sent (flush w b) = pending b /\ bw_buf (flush w b) = [].
Proof.
  unfold flush, pending. destruct (bw_err b) eqn:E; [congruence|].
  case_decide as Hb; [by rewrite Hb, app_nil_r|].
  destruct (w (bw_sent b) (bw_buf b)) as [n e]. cbn [bw_err bw_sent bw_buf].
  intros [_ Hn]%orb_false_iff. apply Nat.ltb_ge in Hn.
  rewrite firstn_all2 by lia. rewrite skipn_all2 by lia. done.
Qed.
Lemma flush_prefix w b : bw_err b = false -> bw_sent (flush w b) `prefix_of` pending b.
Proof.
  unfold flush, pending. intros ->. case_decide as Hb; [by apply prefix_app_r|].
  destruct (w (bw_sent b) (bw_buf b)) as [n e]. simpl.
  apply prefix_app. exists (drop (n `min` length (bw_buf b)) (bw_buf b)). by rewrite take_drop.
Qed.
Lemma flush_total w b : total_writer w -> bw_err b = false -> bw_err (flush w b) = false.
Proof.
  intros Hw. unfold flush. intros E. rewrite E. case_decide; [done|].
  specialize (Hw (bw_sent b) (bw_buf b)). destruct (w (bw_sent b) (bw_buf b)) as [n e].
  cbn in *. destruct Hw as [Hn ->]. simpl. apply Nat.ltb_ge. lia.
Qed.

(** A write of bytes [o]: on success everything is pending, on failure a prefix was sent. *)
Definition wrote (o : list byte) (b b' : bw) (ok : bool) : Prop :=
  if ok then bw_err b' = false /\ pending b' = pending b ++ o
  else bw_err b' = true /\ bw_sent b' `prefix_of` pending b ++ o.

Lemma write_byte_wrote cap w c b : bw_err b = false ->
  let '(b', ok) := write_byte cap w c b in wrote [c] b b' ok.
Proof.
  intros E. unfold write_byte. rewrite E.
  set (b1 := if cap <=? length (bw_buf b) then flush w b else b).
  destruct (bw_err b1) eqn:E1.
  - split; [done|]. subst b1. destruct (cap <=? length (bw_buf b)); [|congruence].
    etrans; [by apply flush_prefix|]. by apply prefix_app_r.
  - split; [done|]. unfold pending at 1. simpl. rewrite app_assoc. f_equal.
    subst b1. destruct (cap <=? length (bw_buf b)); [|done].
    apply flush_ok in E1 as [-> ->]. by rewrite app_nil_r.
Qed.
Lemma write_byte_total cap w c b : total_writer w -> bw_err b = false ->
  (write_byte cap w c b).2 = true.
Proof.
  intros Hw E. unfold write_byte. rewrite E.
  destruct (cap <=? length (bw_buf b)); [rewrite flush_total by done|rewrite E]; done.
Qed.

Lemma wrote_app o1 o2 b b1 b2 ok : wrote o1 b b1 true -> wrote o2 b1 b2 ok -> wrote (o1 ++ o2) b b2 ok.
Proof. intros [E H1] H2. destruct ok; unfold wrote in *; destruct H2 as [? H2]; rewrite H1 in H2; by rewrite app_assoc. Qed.
Lemma wrote_more o1 o2 b b1 : wrote o1 b b1 false -> wrote (o1 ++ o2) b b1 false.
Proof. intros [E H]. split; [done|]. etrans; [done|]. rewrite app_assoc. by apply prefix_app_r. Qed.

Lemma write_string_wrote cap w s : forall b, bw_err b = false ->
  let '(b', ok) := write_string cap w s b in wrote s b b' ok.
Proof.
  induction s as [|c s IH]; intros b E; simpl.
  - rewrite E. simpl. split; [done|]. by rewrite app_nil_r.
  - pose proof (write_byte_wrote cap w c b E) as H. destruct (write_byte cap w c b) as [b1 ok].
    destruct ok.
    + destruct H as [E1 H1]. specialize (IH b1 E1). destruct (write_string cap w s b1) as [b2 ok].
      change (c :: s) with ([c] ++ s). by eapply wrote_app.
    + change (c :: s) with ([c] ++ s). by apply wrote_more.
Qed.
Lemma write_string_total cap w s : total_writer w -> forall b, bw_err b = false ->
  (write_string cap w s b).2 = true.
Proof.
  intros Hw. induction s as [|c s IH]; intros b E; simpl; [by rewrite E|].
  pose proof (write_byte_total cap w c b Hw E) as H.
  pose proof (write_byte_wrote cap w c b E) as H2. destruct (write_byte cap w c b) as [b1 ok].
  simpl in H. subst ok. destruct H2. by apply IH.
Qed.

(** ** One byte. *)
Definition matches (c c' : copier) (o : list byte) (bol cr ok : bool) : Prop :=
  c_indent c' = c_indent c /\ wrote o (c_w c) (c_w c') ok /\
  (ok = true -> c_bol c' = bol /\ c_sawcr c' = cr).

Lemma newline_matches cap w c : bw_err (c_w c) = false ->
  let '(c', ok) := newline cap w c in matches c c' [LF] true false ok.
Proof.
  intros E. unfold newline. pose proof (write_byte_wrote cap w LF (c_w c) E) as H.
  destruct (write_byte cap w LF (c_w c)) as [b ok]. destruct ok; repeat split; try done; apply H.
Qed.

Lemma wrote_nil b : bw_err b = false -> wrote [] b b true.
Proof. intros E. split; [done|]. by rewrite app_nil_r. Qed.

Lemma copy_byte_matches cap w b c : bw_err (c_w c) = false ->
  let '(bol, cr, o) := rstep (c_indent c) (c_bol c) (c_sawcr c) b in
  let '(c', ok) := copy_byte cap w b c in matches c c' o bol cr ok.
Proof.
  intros E. unfold rstep, copy_byte.
  destruct (decide (b = LF)) as [->|Hlf].
  { pose proof (newline_matches cap w c E) as H. destruct (newline cap w c) as [c' ok]. done. }
  assert (Hnl : let '(c1, ok) := if c_sawcr c then newline cap w c else (c, true) in
                matches c c1 (if c_sawcr c then [LF] else []) (c_bol c || c_sawcr c) false ok).
  { destruct (c_sawcr c) eqn:Ecr.
    - pose proof (newline_matches cap w c E) as H. destruct (newline cap w c) as [c' ok].
      rewrite orb_true_r. done.
    - rewrite orb_false_r. split; [done|]. split; [by apply wrote_nil|]. done. }
  destruct (decide (b = CR)) as [->|Hcr].
  - destruct (if c_sawcr c then newline cap w c else (c, true)) as [c1 ok].
    destruct Hnl as (Hi & Hw & Hs). destruct ok; (split; [done|]); (split; [done|]); [|done].
    intros _. simpl. by destruct (Hs eq_refl).
  - destruct (if c_sawcr c then newline cap w c else (c, true)) as [c1 ok].
    destruct Hnl as (Hi & Hw & Hs). destruct ok.
    2:{ split; [done|]. split; [|done]. by apply wrote_more. }
    destruct (Hs eq_refl) as [Hbol Hc1]. rewrite Hbol.
    assert (Hind : let '(c2, ok) := if c_bol c || c_sawcr c then
                     let '(bw, ok) := write_string cap w (c_indent c1) (c_w c1) in (set_w bw c1, ok)
                     else (c1, true) in
                   c_indent c2 = c_indent c1 /\ c_sawcr c2 = c_sawcr c1 /\
                   wrote (if c_bol c || c_sawcr c then c_indent c else []) (c_w c1) (c_w c2) ok).
    { destruct Hw as [E1 _]. destruct (c_bol c || c_sawcr c).
      - pose proof (write_string_wrote cap w (c_indent c1) (c_w c1) E1) as H.
        destruct (write_string cap w (c_indent c1) (c_w c1)) as [b2 ok]. simpl. by rewrite <-Hi.
      - split; [done|]. split; [done|]. by apply wrote_nil. }
    destruct (if c_bol c || c_sawcr c then _ else _) as [c2 ok] in *.
    destruct Hind as (Hi2 & Hc2 & Hw2). destruct ok.
    2:{ split; [by rewrite Hi2|]. split; [|done].
        eapply wrote_app; [done|]. by apply wrote_more. }
    assert (E2 : bw_err (c_w (set_bol false c2)) = false) by apply Hw2.
    pose proof (write_byte_wrote cap w b _ E2) as H3.
    destruct (write_byte cap w b (c_w (set_bol false c2))) as [b3 ok].
    split; [by simpl; rewrite Hi2|]. split; [|by simpl; rewrite Hc2, Hc1].
    eapply wrote_app; [done|]. eapply wrote_app; [done|]. done.
Qed.

Lemma newline_total cap w c : total_writer w -> bw_err (c_w c) = false -> (newline cap w c).2 = true.
Proof.
  intros Hw E. unfold newline. pose proof (write_byte_total cap w LF (c_w c) Hw E) as H.
  destruct (write_byte cap w LF (c_w c)) as [b ok]. simpl in H. by subst.
Qed.
Lemma copy_byte_total cap w b c : total_writer w -> bw_err (c_w c) = false ->
  (copy_byte cap w b c).2 = true.
Proof.
  intros Hw E. unfold copy_byte. case_decide; [by apply newline_total|].
  assert (Hnl : let '(c1, ok) := if c_sawcr c then newline cap w c else (c, true) in
                ok = true /\ bw_err (c_w c1) = false).
  { destruct (c_sawcr c); [|done]. pose proof (newline_total cap w c Hw E) as H1.
    pose proof (newline_matches cap w c E) as H2. destruct (newline cap w c) as [c1 ok].
    simpl in H1. subst. split; [done|]. apply H2. }
  destruct (if c_sawcr c then newline cap w c else (c, true)) as [c1 ok].
  destruct Hnl as [-> E1]. case_decide; [done|].
  assert (Hind : let '(c2, ok) := if c_bol c1 then
                     let '(bw, ok) := write_string cap w (c_indent c1) (c_w c1) in (set_w bw c1, ok)
                     else (c1, true) in ok = true /\ bw_err (c_w c2) = false).
  { destruct (c_bol c1); [|done].
    pose proof (write_string_total cap w (c_indent c1) Hw (c_w c1) E1) as H1.
    pose proof (write_string_wrote cap w (c_indent c1) (c_w c1) E1) as H2.
    destruct (write_string cap w (c_indent c1) (c_w c1)) as [b2 ok]. simpl in *. subst. split; [done|apply H2]. }
  destruct (if c_bol c1 then _ else _) as [c2 ok] in *. destruct Hind as [-> E2].
  pose proof (write_byte_total cap w b (c_w (set_bol false c2)) Hw E2) as H3.
  destruct (write_byte cap w b (c_w (set_bol false c2))) as [b3 ok]. done.
Qed.

(** ** A whole Write. *)
Fixpoint rstate (ind : list byte) (bol cr : bool) (l : list byte) : bool * bool :=
  match l with
  | [] => (bol, cr)
  | b :: l => let '(bol, cr, _) := rstep ind bol cr b in rstate ind bol cr l
  end.
Lemma rrun_app ind l1 : forall bol cr l2,
  rrun ind bol cr (l1 ++ l2) =
  rrun ind bol cr l1 ++ rrun ind (rstate ind bol cr l1).1 (rstate ind bol cr l1).2 l2.
Proof.
  induction l1 as [|b l1 IH]; intros bol cr l2; simpl; [done|].
  destruct (rstep ind bol cr b) as [[bol' cr'] o]. by rewrite IH, app_assoc.
Qed.

Definition wmatches (buf : list byte) (n : nat) (c c' : copier) (n' : nat) (ok : bool) : Prop :=
  c_indent c' = c_indent c /\ n' <= n + length buf /\
  let o := rrun (c_indent c) (c_bol c) (c_sawcr c) buf in
  if ok then
    n' = n + length buf /\ bw_err (c_w c') = false /\ bw_buf (c_w c') = [] /\
    bw_sent (c_w c') = pending (c_w c) ++ o /\
    (c_bol c', c_sawcr c') = rstate (c_indent c) (c_bol c) (c_sawcr c) buf
  else bw_err (c_w c') = true /\ bw_sent (c_w c') `prefix_of` pending (c_w c) ++ o.

Lemma copy_loop_matches cap w buf : forall n c, bw_err (c_w c) = false ->
  let '(c', n', ok) := copy_loop cap w buf n c in wmatches buf n c c' n' ok.
Proof.
  induction buf as [|b buf IH]; intros n c E; simpl.
  - split; [done|]. split; [simpl; lia|]. cbn [rrun rstate]. rewrite app_nil_r.
    destruct (bw_err (flush w (c_w c))) eqn:E1; simpl.
    + split; [done|]. by apply flush_prefix.
    + destruct (flush_ok w (c_w c) E1). split; [lia|]. done.
  - pose proof (copy_byte_matches cap w b c E) as H.
    destruct (rstep (c_indent c) (c_bol c) (c_sawcr c) b) as [[bol cr] o] eqn:Er.
    destruct (copy_byte cap w b c) as [c1 ok]. destruct H as (Hi & Hw & Hs). destruct ok.
    + destruct (Hs eq_refl) as [Hb Hc]. destruct Hw as [E1 Hw].
      specialize (IH (S n) c1 E1). destruct (copy_loop cap w buf (S n) c1) as [[c2 n2] ok2].
      destruct IH as (Hi2 & Hn & IH). split; [by rewrite Hi2|]. split; [simpl; lia|].
      cbn [rrun rstate]. rewrite Er. rewrite Hi, Hb, Hc, Hw in IH.
      destruct ok2.
      * destruct IH as (Hn' & ? & ? & Hsent & ?). split_and!; try done; [simpl; lia|].
        by rewrite app_assoc.
      * by rewrite app_assoc.
    + split; [done|]. split; [lia|]. destruct Hw as [E1 Hp]. split; [done|].
      cbn [rrun]. rewrite Er. etrans; [done|]. rewrite app_assoc. by apply prefix_app_r.
Qed.
Lemma copy_loop_total cap w buf : total_writer w -> forall n c, bw_err (c_w c) = false ->
  (copy_loop cap w buf n c).2 = true.
Proof.
  intros Hw. induction buf as [|b buf IH]; intros n c E; simpl.
  - by rewrite flush_total.
  - pose proof (copy_byte_total cap w b c Hw E) as H1.
    pose proof (copy_byte_matches cap w b c E) as H2.
    destruct (rstep (c_indent c) (c_bol c) (c_sawcr c) b) as [[bol cr] o].
    destruct (copy_byte cap w b c) as [c1 ok]. simpl in H1. subst. apply IH. apply H2.
Qed.

(** After an error nothing more is sent and every Write fails. *)
Lemma write_byte_err cap w c b : bw_err b = true -> write_byte cap w c b = (b, false).
Proof. intros E. unfold write_byte. by rewrite E. Qed.
Lemma flush_err w b : bw_err b = true -> flush w b = b.
Proof. intros E. unfold flush. by rewrite E. Qed.
Lemma newline_err cap w c : bw_err (c_w c) = true -> newline cap w c = (set_w (c_w c) c, false).
Proof. intros E. unfold newline. by rewrite write_byte_err. Qed.
Lemma write_string_err cap w s b : bw_err b = true -> write_string cap w s b = (b, false).
Proof. intros E. destruct s; simpl; [by rewrite E|]. by rewrite write_byte_err. Qed.
Lemma copy_byte_err cap w b c : bw_err (c_w c) = true -> c_w (copy_byte cap w b c).1 = c_w c.
Proof.
  intros E. unfold copy_byte. case_decide; [by rewrite newline_err|].
  destruct (c_sawcr c).
  - rewrite newline_err by done. case_decide; done.
  - case_decide; [done|]. destruct (c_bol c).
    + by rewrite write_string_err.
    + cbn. by rewrite write_byte_err.
Qed.
Lemma copy_loop_err cap w buf : forall n c, bw_err (c_w c) = true ->
  let '(c', n', ok) := copy_loop cap w buf n c in c_w c' = c_w c /\ ok = false /\ n' <= n + length buf.
Proof.
  induction buf as [|b buf IH]; intros n c E; simpl.
  - rewrite flush_err by done. rewrite E. simpl. split_and!; [done|done|lia].
  - pose proof (copy_byte_err cap w b c E) as H. destruct (copy_byte cap w b c) as [c1 ok]. simpl in H.
    destruct ok; [|split_and!; [done|done|lia]].
    specialize (IH (S n) c1). rewrite H in IH. specialize (IH E).
    destruct (copy_loop cap w buf (S n) c1) as [[c2 n2] ok2].
    destruct IH as (? & ? & ?). split_and!; [done|done|lia].
Qed.

(** ** Many Writes. *)
Lemma writes_lem cap w chunks : forall c c' rs,
  writes cap w chunks c = (c', rs) ->
  bw_err (c_w c) = false -> bw_buf (c_w c) = [] ->
  let o := rrun (c_indent c) (c_bol c) (c_sawcr c) (concat chunks) in
  output c' `prefix_of` output c ++ o /\
  ((forall n ok, (n, ok) ∈ rs -> ok = true) ->
     output c' = output c ++ o /\ rs = (fun ch => (length ch, true)) <$> chunks).
Proof.
  assert (Herr : forall chunks c c' rs, writes cap w chunks c = (c', rs) -> bw_err (c_w c) = true ->
            c_w c' = c_w c).
  { clear chunks. induction chunks as [|ch chunks IH]; simpl; intros c c' rs H E; [by simplify_eq|].
    unfold Write in H. pose proof (copy_loop_err cap w ch 0 c E) as Hl.
    destruct (copy_loop cap w ch 0 c) as [[c1 n] ok]. destruct Hl as (Hw & _).
    destruct (writes cap w chunks c1) as [c2 rs2] eqn:E2. simplify_eq.
    rewrite <-Hw. rewrite <-Hw in E. by eapply IH. }
  induction chunks as [|ch chunks IH]; intros c c' rs H E Hb; simpl in *.
  - simplify_eq. rewrite app_nil_r. split; [done|]. done.
  - unfold Write in H. pose proof (copy_loop_matches cap w ch 0 c E) as Hm.
    destruct (copy_loop cap w ch 0 c) as [[c1 n] ok].
    destruct (writes cap w chunks c1) as [c2 rs2] eqn:E2. simplify_eq.
    destruct Hm as (Hi & Hn & Hm). rewrite rrun_app, app_assoc.
    assert (Hpend : pending (c_w c) = output c) by (unfold pending; by rewrite Hb, app_nil_r).
    rewrite Hpend in Hm. destruct ok.
    + destruct Hm as (-> & E1 & Hb1 & Hs1 & Hst).
      destruct (IH _ _ _ E2 E1 Hb1) as [IH1 IH2].
      assert (output c1 = output c ++ rrun (c_indent c) (c_bol c) (c_sawcr c) ch) as Ho by done.
      rewrite Hi, Ho in IH1, IH2.
      assert (c_bol c1 = (rstate (c_indent c) (c_bol c) (c_sawcr c) ch).1) as Hb1' by (by rewrite <-Hst).
      assert (c_sawcr c1 = (rstate (c_indent c) (c_bol c) (c_sawcr c) ch).2) as Hc1' by (by rewrite <-Hst).
      rewrite Hb1', Hc1' in IH1, IH2.
      split; [done|]. intros Hok.
      destruct IH2 as [? ->]; [intros ??; intros; eapply Hok; by right|]. split; [done|]. done.
    + destruct Hm as [E1 Hp]. rewrite <-(Herr _ _ _ _ E2 E1) in Hp. split.
      * etrans; [done|]. by apply prefix_app_r.
      * intros Hok. specialize (Hok n false ltac:(left)). done.
Qed.
Lemma writes_total cap w chunks : total_writer w -> forall c, bw_err (c_w c) = false ->
  forall n ok, (n, ok) ∈ (writes cap w chunks c).2 -> ok = true.
Proof.
  intros Hw. induction chunks as [|ch chunks IH]; intros c E n ok; simpl; [by intros ?%elem_of_nil|].
  unfold Write. pose proof (copy_loop_matches cap w ch 0 c E) as Hm.
  pose proof (copy_loop_total cap w ch Hw 0 c E) as Ht.
  destruct (copy_loop cap w ch 0 c) as [[c1 n1] ok1]. simpl in Ht. subst.
  destruct Hm as (_ & _ & _ & E1 & _). specialize (IH c1 E1).
  destruct (writes cap w chunks c1) as [c2 rs2]. simpl in *.
  intros [[= -> ->]|Hin]%elem_of_cons; [done|]. by eapply IH.
Qed.

Lemma Write_counts cap w buf c : bw_err (c_w c) = false ->
  let '(c', n, ok) := Write cap w buf c in n <= length buf /\ (ok = true -> n = length buf).
Proof.
  intros E. unfold Write. pose proof (copy_loop_matches cap w buf 0 c E) as Hm.
  destruct (copy_loop cap w buf 0 c) as [[c1 n] ok]. destruct Hm as (_ & Hn & Hm).
  split; [simpl in Hn; lia|]. intros ->. destruct Hm as (Hn' & _). simpl in Hn'. lia.
Qed.

Lemma copier_output_lem cap w depth prefix chunks c rs :
  writes cap w chunks (IndentingCopier depth prefix) = (c, rs) ->
  output c `prefix_of` indented (spaces depth ++ prefix) (concat chunks) /\
  ((forall n ok, (n, ok) ∈ rs -> ok = true) ->
   output c = indented (spaces depth ++ prefix) (concat chunks) /\
   rs = (fun ch => (length ch, true)) <$> chunks).
Proof.
  intros H. pose proof (writes_lem _ _ _ _ _ _ H eq_refl eq_refl) as [H1 H2].
  simpl in H1, H2. rewrite rrun_indented in H1, H2. done.
Qed.
