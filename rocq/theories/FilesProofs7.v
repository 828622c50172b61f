From stdpp Require Import base gmap list sorting strings.
From Verif Require Import PathModel FileHashModel FileHashSpec FileHashProofs FilesModel FilesSpec FilesProofs FilesProofs2 FilesProofs3 FilesProofs4 FilesProofs5 FilesProofs6.
Local Open Scope list_scope.

(** ** The encoding of transparent targets is injective. *)
Fixpoint assoc (k : string) (l : list (string * json)) : option json :=
  match l with
  | [] => None
  | (k', j) :: l => if decide (k = k') then Some j else assoc k l
  end.
Definition as_str (o : option json) : string := match o with Some (JStr s) => s | _ => "" end.
Definition as_strs (o : option json) : list string :=
  match o with Some (JArr l) => (fun j => as_str (Some j)) <$> l | _ => [] end.
Definition fields (j : json) : list (string * json) := match j with JObj l => l | _ => [] end.
Definition dec_command (j : json) : command :=
  let l := fields j in
  {| c_shell := as_str (assoc "shell" l); c_cmd := as_str (assoc "cmd" l); c_args := as_strs (assoc "args" l);
     c_stdout_file := as_str (assoc "stdout_file" l); c_stderr_file := as_str (assoc "stderr_file" l);
     c_stdin_file := as_str (assoc "stdin_file" l); c_dir := as_str (assoc "dir" l); c_env := as_strs (assoc "env" l) |}.

Lemma skip_str k k' s r : k <> k' -> assoc k (fstr k' s ++ r) = assoc k r.
Proof. intros Hk. unfold fstr. destruct (decide (s = "")); [done|]. cbn [app assoc]. by rewrite decide_False. Qed.
Lemma skip_strs k k' s r : k <> k' -> assoc k (fstrs k' s ++ r) = assoc k r.
Proof. intros Hk. unfold fstrs. destruct (decide (s = [])); [done|]. cbn [app assoc]. by rewrite decide_False. Qed.
Lemma skip_strs1 k k' s : k <> k' -> assoc k (fstrs k' s) = None.
Proof. intros Hk. rewrite <-(app_nil_r (fstrs k' s)). by rewrite skip_strs. Qed.
Lemma hit_str k s r : assoc k r = None -> as_str (assoc k (fstr k s ++ r)) = s.
Proof. intros Hr. unfold fstr. destruct (decide (s = "")) as [->|?]; cbn [app assoc]; [by rewrite Hr|]. by rewrite decide_True. Qed.
Lemma as_strs_jstrs l : as_strs (Some (jstrs l)) = l.
Proof. cbn. induction l as [|s l IH]; [done|]. cbn. f_equal. exact IH. Qed.
Lemma hit_strs k s r : assoc k r = None -> as_strs (assoc k (fstrs k s ++ r)) = s.
Proof. intros Hr. unfold fstrs. destruct (decide (s = [])) as [->|?]; cbn [app assoc]; [by rewrite Hr|]. rewrite decide_True by done. apply as_strs_jstrs. Qed.
Lemma hit_strs1 k s : as_strs (assoc k (fstrs k s)) = s.
Proof. rewrite <-(app_nil_r (fstrs k s)). by rewrite hit_strs. Qed.
Ltac skips := repeat first [rewrite skip_str by discriminate|rewrite skip_strs by discriminate|rewrite skip_strs1 by discriminate].
Lemma dec_enc c : dec_command (enc_command c) = c.
Proof.
  destruct c. unfold dec_command, enc_command. cbn beta iota zeta delta [fields]. simpl. f_equal.
  all: skips; first [rewrite hit_str; [done|by skips]|rewrite hit_strs; [done|by skips]|by rewrite hit_strs1].
Qed.
Lemma enc_command_inj c1 c2 : enc_command c1 = enc_command c2 -> c1 = c2.
Proof. intros E. by rewrite <-(dec_enc c1), <-(dec_enc c2), E. Qed.
Lemma enc_command_no c k : k ∉ ["shell"; "cmd"; "args"; "stdout_file"; "stderr_file"; "stdin_file"; "dir"; "env"] ->
  assoc k (fields (enc_command c)) = None.
Proof.
  intros Hk. unfold enc_command. cbn [fields].
  rewrite !not_elem_of_cons in Hk. destruct Hk as (H1 & H2 & H3 & H4 & H5 & H6 & H7 & H8 & _).
  rewrite !skip_str, skip_strs, !skip_str, skip_strs1 by assumption. done.
Qed.

Fixpoint encs (ts : list tgt) : option (list json) :=
  match ts with
  | [] => Some []
  | t :: ts => j ← enc t; js ← encs ts; Some (j :: js)
  end.
Lemma enc_all ts : enc (TAll ts) = (fun js => JObj [("Targets", JArr js)]) <$> encs ts.
Proof. reflexivity. Qed.

Section tgt_ind.
  Context (P : tgt -> Prop) (Hnil : P TNil) (Hcmd : forall c, P (TCmd c)) (Hall : forall ts, Forall P ts -> P (TAll ts))
    (Hseq : forall ts, Forall P ts -> P (TSeq ts)) (Harg : forall t a, P t -> P (TArg t a)) (HF : forall n, P (TF n))
    (Hfiles : forall t i o, P t -> P (TFiles t i o)) (Hclean : forall l b, P (TClean l b))
    (Hd0 : forall n, P (TDeferred n None)) (Hd : forall n t, P t -> P (TDeferred n (Some t))) (Hu : forall s j, P (TUser s j)).
  Fixpoint tgt_ind' (t : tgt) : P t :=
    match t with
    | TNil => Hnil | TCmd c => Hcmd c
    | TAll ts => Hall ts ((fix go ts : Forall P ts := match ts with [] => Forall_nil_2 _ | t :: ts => Forall_cons_2 _ _ _ (tgt_ind' t) (go ts) end) ts)
    | TSeq ts => Hseq ts ((fix go ts : Forall P ts := match ts with [] => Forall_nil_2 _ | t :: ts => Forall_cons_2 _ _ _ (tgt_ind' t) (go ts) end) ts)
    | TArg t a => Harg t a (tgt_ind' t)
    | TF n => HF n | TFiles t i o => Hfiles t i o (tgt_ind' t) | TClean l b => Hclean l b
    | TDeferred n None => Hd0 n | TDeferred n (Some t) => Hd n t (tgt_ind' t) | TUser s j => Hu s j
    end.
End tgt_ind.

Definition keys (j : json) : list string := (fields j).*1.
Lemma cmd_key_absent c j k : Some (enc_command c) = Some j -> k ∈ ["Targets"; "Target"; "Files"; "Name"] -> assoc k (fields j) = None.
Proof.
  intros [= <-] Hk. apply enc_command_no. rewrite !elem_of_cons, elem_of_nil in *.
  destruct Hk as [->|[->|[->|[->|[]]]]]; intros Hx; repeat destruct Hx as [Hx|Hx]; try discriminate Hx; done.
Qed.
Lemma enc_some t : transparent t -> is_Some (enc t).
Proof.
  induction t as [|c|ts IH|ts IH|t a IH|n|t i o IH|l b|n|n t IH|s j] using tgt_ind'; intros Ht; inversion Ht as [|? Hts| | | |]; subst.
  - simpl. eauto.
  - rewrite enc_all. assert (Hs : is_Some (encs ts)); [|destruct Hs as [js ->]; simpl; eauto].
    clear Ht. induction ts as [|t ts IHts]; [simpl; eauto|]. apply Forall_cons in IH as [I1 I2]. apply Forall_cons in Hts as [T1 T2].
    simpl. destruct (I1 T1) as [j ->]. simpl. destruct (IHts I2 T2) as [js ->]. simpl. eauto.
  - simpl. destruct IH as [j ->]; [done|]. simpl. eauto.
  - simpl. destruct IH as [j ->]; [done|]. simpl. eauto.
  - simpl. eauto.
  - simpl. destruct IH as [j ->]; [done|]. simpl. eauto.
Qed.
Lemma encs_some ts : Forall transparent ts -> is_Some (encs ts).
Proof.
  induction ts as [|t ts IHts]; intros Ht; [simpl; eauto|]. apply Forall_cons in Ht as [T1 T2]. simpl.
  destruct (enc_some t T1) as [j ->]. simpl. destruct (IHts T2) as [js ->]. simpl. eauto.
Qed.
(** The shapes of encodings. *)
Inductive shape : tgt -> json -> Prop :=
  | sh_cmd c : shape (TCmd c) (enc_command c)
  | sh_all ts js : encs ts = Some js -> Forall transparent ts -> shape (TAll ts) (JObj [("Targets", JArr js)])
  | sh_arg t a j : enc t = Some j -> transparent t -> shape (TArg t a) (JObj [("Target", j); ("Args", jstrs a)])
  | sh_files t i o j : enc t = Some j -> transparent t -> shape (TFiles t i o) (JObj [("Target", j); ("In", jstrs i); ("Out", jstrs o)])
  | sh_clean l b : shape (TClean l b) (JObj [("Files", jstrs l); ("Autoclean", JBool b)])
  | sh_def n t j : enc t = Some j -> transparent t -> shape (TDeferred n (Some t)) (JObj [("Name", JStr n); ("Target", j)]).
Lemma enc_shape t : transparent t -> exists j, enc t = Some j /\ shape t j.
Proof.
  intros Ht. inversion Ht as [c|ts Hts|t' a Ht'|t' i o Ht'|l b|n t' Ht']; subst.
  - eexists. split; [reflexivity|constructor].
  - rewrite enc_all. destruct (encs_some ts Hts) as [js Ej]. rewrite Ej. eexists. split; [reflexivity|by constructor].
  - simpl. destruct (enc_some t' Ht') as [j Ej]. rewrite Ej. eexists. split; [reflexivity|by constructor].
  - simpl. destruct (enc_some t' Ht') as [j Ej]. rewrite Ej. eexists. split; [reflexivity|by constructor].
  - eexists. split; [reflexivity|constructor].
  - simpl. destruct (enc_some t' Ht') as [j Ej]. rewrite Ej. eexists. split; [reflexivity|by constructor].
Qed.
Lemma shape_not_cmd t j c : shape t j -> j = enc_command c -> t = TCmd c.
Proof.
  intros Hs Hj.
  assert (Ha : forall k, k ∈ ["Targets"; "Target"; "Files"; "Name"] -> assoc k (fields j) = None) by (intros; eapply cmd_key_absent; [by rewrite Hj|done]).
  destruct Hs; [f_equal; by apply enc_command_inj|exfalso..].
  - specialize (Ha "Targets"). cbn in Ha. discriminate Ha. rewrite !elem_of_cons. tauto.
  - specialize (Ha "Target"). cbn in Ha. discriminate Ha. rewrite !elem_of_cons. tauto.
  - specialize (Ha "Target"). cbn in Ha. discriminate Ha. rewrite !elem_of_cons. tauto.
  - specialize (Ha "Files"). cbn in Ha. discriminate Ha. rewrite !elem_of_cons. tauto.
  - specialize (Ha "Target"). cbn in Ha. discriminate Ha. rewrite !elem_of_cons. tauto.
Qed.
Lemma encs_inj a : Forall (fun t1 => forall t2, transparent t1 -> transparent t2 -> enc t1 = enc t2 -> t1 = t2) a ->
  forall b, Forall transparent a -> Forall transparent b -> encs a = encs b -> a = b.
Proof.
  induction a as [|x a IHa]; intros HF [|y b] Ha Hb Hab; [done| | |].
  - simpl in Hab. destruct (enc y); [|done]. simpl in Hab. by destruct (encs b).
  - simpl in Hab. destruct (enc x); [|done]. simpl in Hab. by destruct (encs a).
  - apply Forall_cons in HF as [HF1 HF2]. apply Forall_cons in Ha as [Ha1 Ha2]. apply Forall_cons in Hb as [Hb1 Hb2]. simpl in Hab.
    destruct (enc_some x Ha1) as [jx Ex], (enc_some y Hb1) as [jy Ey], (encs_some a Ha2) as [ja Ea], (encs_some b Hb2) as [jb Eb].
    rewrite Ex, Ey, Ea, Eb in Hab. simpl in Hab. injection Hab as -> ->.
    f_equal; [apply HF1; congruence|]. apply IHa; try done. congruence.
Qed.
Lemma enc_injective t1 : forall t2, transparent t1 -> transparent t2 -> enc t1 = enc t2 -> t1 = t2.
Proof.
  induction t1 as [|c|ts IH|ts IH|t a IH|n|t i o IH|l b|n|n t IH|s j] using tgt_ind'; intros t2 H1 H2 E;
    destruct (enc_shape _ H1) as (j1 & E1 & S1); destruct (enc_shape _ H2) as (j2 & E2 & S2);
    assert (j1 = j2) as -> by congruence; clear E E1 E2.
  all: inversion S1 as [c1 X Y|ts1 js1 A1 T1 X Y|u1 a1 k1 A1 T1 X Y|u1 i1 o1 k1 A1 T1 X Y|l1 b1 X Y|n1 u1 k1 A1 T1 X Y]; subst; clear S1.
  - symmetry. eapply shape_not_cmd; [exact S2|done].
  - remember (JObj [("Targets", JArr js1)]) as J eqn:EJ.
    destruct S2 as [c2|ts2 js2 A2 T2|u2 a2 k2 A2 T2|u2 i2 o2 k2 A2 T2|l2 b2|n2 u2 k2 A2 T2]; try (discriminate EJ).
    + eapply shape_not_cmd; [by constructor|by rewrite <-EJ].
    + injection EJ as ->. f_equal. apply encs_inj; try done. congruence.
  - remember (JObj [("Target", k1); ("Args", jstrs a)]) as J eqn:EJ.
    destruct S2 as [c2|ts2 js2 A2 T2|u2 a2 k2 A2 T2|u2 i2 o2 k2 A2 T2|l2 b2|n2 u2 k2 A2 T2]; try (discriminate EJ).
    + eapply shape_not_cmd; [by constructor|by rewrite <-EJ].
    + assert (k2 = k1) as -> by congruence. assert (Hx : jstrs a2 = jstrs a) by congruence. apply jstrs_inj in Hx as ->.
      f_equal. apply IH; try done. congruence.
  - remember (JObj [("Target", k1); ("In", jstrs i); ("Out", jstrs o)]) as J eqn:EJ.
    destruct S2 as [c2|ts2 js2 A2 T2|u2 a2 k2 A2 T2|u2 i2 o2 k2 A2 T2|l2 b2|n2 u2 k2 A2 T2]; try (discriminate EJ).
    + eapply shape_not_cmd; [by constructor|by rewrite <-EJ].
    + assert (k2 = k1) as -> by congruence. assert (Hx : jstrs i2 = jstrs i) by congruence. apply jstrs_inj in Hx as ->.
      assert (Hx : jstrs o2 = jstrs o) by congruence. apply jstrs_inj in Hx as ->.
      f_equal. apply IH; try done. congruence.
  - remember (JObj [("Files", jstrs l); ("Autoclean", JBool b)]) as J eqn:EJ.
    destruct S2 as [c2|ts2 js2 A2 T2|u2 a2 k2 A2 T2|u2 i2 o2 k2 A2 T2|l2 b2|n2 u2 k2 A2 T2]; try (discriminate EJ).
    + eapply shape_not_cmd; [by constructor|by rewrite <-EJ].
    + assert (b2 = b) as -> by congruence. assert (Hx : jstrs l2 = jstrs l) by congruence. by apply jstrs_inj in Hx as ->.
  - remember (JObj [("Name", JStr n); ("Target", k1)]) as J eqn:EJ.
    destruct S2 as [c2|ts2 js2 A2 T2|u2 a2 k2 A2 T2|u2 i2 o2 k2 A2 T2|l2 b2|n2 u2 k2 A2 T2]; try (discriminate EJ).
    + eapply shape_not_cmd; [by constructor|by rewrite <-EJ].
    + assert (k2 = k1) as -> by congruence. assert (n2 = n) as -> by congruence.
      do 2 f_equal. apply IH; try done. congruence.
Qed.
