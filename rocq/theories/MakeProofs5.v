(** Proofs for C86, C87: reading the same YAML files gives the same targets. *)
From stdpp Require Import base gmap list strings.
From Verif Require Import TopDirModel DriverModel RegistryModel.
From Verif Require Import PathModel FindModel FileHashModel FileHashSpec FilesModel FilesSpec.
From Verif Require Import ContextModel RunnerModel RunnerSpec RunnerSpec2 ChainModel YamlModel YamlSpec.
From Verif Require Import MainModel MainSpec ProjModel ProjSpec EndSpec BuildModel BuildSpec MakeModel MakeSpec EndProofs ProjProofs.
Local Open Scope list_scope.

(** [r'] is [r], if [r] did not run out of fuel. *)
Definition below {A} (r r' : res A) : Prop := r = ROut \/ r' = r.
Lemma below_refl {A} (r : res A) : below r r.
Proof. by right. Qed.
Lemma below_bind {A B} (r r' : res A) (f f' : ystate -> A -> res B) : below r r' -> (forall s a, below (f s a) (f' s a)) -> below (bind r f) (bind r' f').
Proof. intros [-> | ->] Hf; [by left|]. destruct r as [s a|s e|]; simpl; [apply Hf|by right|by left]. Qed.

Section ext.
  Context (top : string) (fns : list_fns) (leaf : string -> option (node -> string -> bool)) (yb1 yb2 : node -> option bool)
    (docs1 docs2 : string -> option node) (ne1 ne2 : notexist).
  Context (Hb : forall n, yb2 n = yb1 n) (Hd : forall d, docs2 d = docs1 d) (Hn : forall d, ne_file ne2 d = ne_file ne1 d)
    (Hl : ne_list ne2 = ne_list ne1) (Hf : ne_leaf ne2 = ne_leaf ne1).

  Section dec.
  Context (y1 y2 : node -> string -> ystate -> res nat) (Hy : forall n dir s, below (y1 n dir s) (y2 n dir s)).
  Lemma map_below ns dir s : below (map_targets y1 ns dir s) (map_targets y2 ns dir s).
  Proof.
    revert s. induction ns as [|n ns IH]; intros s; simpl; [by right|]. apply below_bind; [apply Hy|]. intros s1 o. apply below_bind; [apply IH|]. intros; by right.
  Qed.
  Lemma lift_below {A} r s (f f' : list string -> res A) : (forall l, below (f l) (f' l)) -> below (lift ne1 r s f) (lift ne2 r s f').
  Proof. intros H. destruct r as [l|e]; simpl; [apply H|]. right. unfold ne_lerr. by rewrite Hl. Qed.
  Lemma decode_below tag n dir s : below (decode_tag top fns leaf yb1 ne1 y1 tag n dir s) (decode_tag top fns leaf yb2 ne2 y2 tag n dir s).
  Proof.
    unfold decode_tag. repeat case_decide; try by right.
    - apply below_bind; [apply map_below|intros; by right].
    - apply below_bind; [apply map_below|intros; by right].
    - destruct (n_kind n); try by right.
      + destruct (n_content n) as [|c cs]; [by right|]. apply below_bind; [apply Hy|]. intros. apply below_bind; [apply map_below|intros; by right].
      + destruct (decode_struct n) as [fs|]; [|by right]. destruct (seq_field _) as [pre|]; [|by right].
        apply below_bind; [apply Hy|]. intros. apply below_bind; [apply map_below|intros; by right].
    - destruct (n_content n) as [|c cs]; [by right|]. apply below_bind; [apply Hy|]. intros. apply lift_below; intros; by right.
    - destruct (decode_struct n) as [fs|]; [|by right]. assert (E : bool_field yb2 (field "Autoclean" fs) = bool_field yb1 (field "Autoclean" fs)) by (unfold bool_field; by rewrite Hb).
      rewrite E. destruct (bool_field yb1 _) as [ac|]; [|by right]. apply below_bind; [apply Hy|]. intros. apply lift_below; intros. apply lift_below; intros; by right.
    - destruct (leaf tag) as [acc|]; [|by right]. rewrite Hf. by right.
  Qed.
  Lemma entries_below dir ps saw s : below (entries_loop y1 dir ps saw s) (entries_loop y2 dir ps saw s).
  Proof.
    revert saw s. induction ps as [|[k v] ps IH]; intros saw s; simpl; [by right|]. repeat case_decide; try (by right).
    - apply IH.
    - destruct (has_slash (n_value k)); [by right|]. apply below_bind; [apply Hy|]. intros; apply IH.
  Qed.
  Lemma read_below dir s : below (ReadYAMLFile top docs1 ne1 y1 dir s) (ReadYAMLFile top docs2 ne2 y2 dir s).
  Proof.
    unfold ReadYAMLFile. rewrite Hd, Hn. destruct (docs1 _) as [doc|]; [|by right]. destruct (file_dir _ _) as [rel|]; [|by right].
    unfold ReadYAML. case_decide; [by right|]. destruct (n_content doc) as [|m [|? ?]]; try by right. case_decide; [by right|].
    destruct (pairs _); [apply entries_below|by right].
  Qed.
  End dec.
  Lemma target_below f1 f2 : f1 <= f2 -> forall n dir s, below (YAMLTarget top fns leaf yb1 docs1 ne1 f1 n dir s) (YAMLTarget top fns leaf yb2 docs2 ne2 f2 n dir s).
  Proof.
    revert f2. induction f1 as [|f1 IH]; intros [|f2] Hle n dir s; try lia; [by left|by left|]. simpl.
    case_decide; [apply decode_below, IH; lia|]. case_decide; [by right|]. destruct (has_slash _); [|by right].
    destruct (RelPath _ _) as [q|]; [|by right]. case_decide; [|by right]. destruct (y_reg s !! q) as [[? ?]|]; [by right|].
    apply below_bind; [apply read_below, IH; lia|]. intros; by right.
  Qed.
End ext.

Lemma read_same M1 M2 T f1 f2 wd1 wd2 top s s1 s2 : same_yaml M1 wd1 M2 wd2 -> read_ok M1 T f1 wd1 top s s1 -> read_ok M2 T f2 wd2 top s s2 -> s2 = s1.
Proof.
  intros (Hd & Hn0 & Hb) H1 H2.
  assert (Hn : forall d, ne_file (k_ne M2 wd2 T) d = ne_file (k_ne M1 wd1 T) d).
  { intros d. specialize (Hn0 d). simpl. destruct (openFabYAML _ d), (openFabYAML _ d); try done; exfalso; destruct Hn0 as [A B]; first [discriminate (A eq_refl)|discriminate (B eq_refl)]. }
  unfold read_ok, read_top in *. destruct (Nat.le_ge_cases f1 f2) as [Hle|Hle].
  - assert (B : below (ReadYAMLFile top (k_docs M1 wd1) (k_ne M1 wd1 T) (YAMLTarget top (tag_lists T) (tag_leaf T) (k_bool M1) (k_docs M1 wd1) (k_ne M1 wd1 T) f1) "" s)
      (ReadYAMLFile top (k_docs M2 wd2) (k_ne M2 wd2 T) (YAMLTarget top (tag_lists T) (tag_leaf T) (k_bool M2) (k_docs M2 wd2) (k_ne M2 wd2 T) f2) "" s)).
    { apply read_below; try done. by apply target_below. }
    destruct B as [E|E], H1 as [H1|H1], H2 as [H2|H2]; congruence.
  - assert (B : below (ReadYAMLFile top (k_docs M2 wd2) (k_ne M2 wd2 T) (YAMLTarget top (tag_lists T) (tag_leaf T) (k_bool M2) (k_docs M2 wd2) (k_ne M2 wd2 T) f2) "" s)
      (ReadYAMLFile top (k_docs M1 wd1) (k_ne M1 wd1 T) (YAMLTarget top (tag_lists T) (tag_leaf T) (k_bool M1) (k_docs M1 wd1) (k_ne M1 wd1 T) f1) "" s)).
    { apply read_below; try done. by apply target_below. }
    destruct B as [E|E], H1 as [H1|H1], H2 as [H2|H2]; congruence.
Qed.

Lemma files_of_app A B : (forall i sh, B !! i = Some sh -> forall o, as_files o sh = None) -> files_of (A ++ B) = files_of A.
Proof.
  intros H. unfold files_of. rewrite imap_app, omap_app. rewrite <-(app_nil_r (omap id (imap as_files A))) at 2. f_equal.
  generalize (length A) as k. induction B as [|sh B IH]; intros k; [done|]. simpl. unfold compose at 1. rewrite (H 0 sh eq_refl). simpl.
  rewrite <-(IH (fun i sh' Hi => H (S i) sh' Hi) (S k)). f_equal. apply imap_ext. intros i x _. unfold compose. f_equal. lia.
Qed.
Lemma expands_files lf reg1 reg2 objs objs1 objs2 : expands lf reg1 objs objs1 -> expands lf reg2 objs objs2 -> files_of objs1 = files_of objs2.
Proof.
  assert (Htake : forall reg objs', expands lf reg objs objs' -> files_of objs' = files_of (take (length objs) objs')).
  { intros reg objs' (_ & _ & _ & Hnew & _). rewrite <-(take_drop (length objs) objs') at 1. apply files_of_app. intros i sh Hi o.
    rewrite lookup_drop in Hi. destruct (Hnew (length objs + i) sh ltac:(lia) Hi) as [(t & n & d & ->)|(q & u & args & _ & ->)]; done. }
  intros H1 H2. rewrite (Htake _ _ H1), (Htake _ _ H2). unfold files_of. f_equal. apply list_eq. intros i. rewrite !list_lookup_imap.
  destruct (decide (i < length objs)) as [Hi|Hi]; [|rewrite !lookup_take_ge by lia; done]. rewrite !lookup_take by lia.
  destruct H1 as (_ & A1 & B1 & _), H2 as (_ & A2 & B2 & _). apply lookup_lt_is_Some in Hi as [sh Hsh].
  destruct sh as [q|ts|ts|t args|t ins outs ac|t n d]; try (rewrite (A1 i _ Hsh), (A2 i _ Hsh) by done; done).
  destruct (B1 i _ _ _ Hsh) as [[-> E1]|[(ts1 & -> & E1 & _)|(t1 & i1 & o1 & c1 & -> & E1 & _)]],
    (B2 i _ _ _ Hsh) as [[-> E2]|[(ts2 & -> & E2 & _)|(t2 & i2 & o2 & c2 & -> & E2 & _)]]; simpl; congruence.
Qed.
