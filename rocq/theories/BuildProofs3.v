From stdpp Require Import base gmap list strings.
From Verif Require Import PathModel FindModel FileHashModel FileHashSpec FilesModel FilesSpec FilesProofs4 PathProofs3.
From Verif Require Import ContextModel RunnerModel RunnerSteps RunnerSpec RunnerInv RunnerInv2 RunnerInv3 RunnerInv4 RunnerInv5 RunnerInv6.
From Verif Require Import RunnerProofs RunnerProofs2 RunnerProofs3 ChainModel ChainProofs BuildModel BuildSpec BuildProofs BuildProofs2.
Local Open Scope list_scope.

(** ** Paths that end in a given way. *)
(** The part of a history that concerns the prerequisites. *)
Inductive pre (reg : gmap string files) (g : nat) (f : files) (cx : ctx) : list event -> Prop :=
  | pre_none : prereqs reg (f_in f) = [] -> pre reg g f cx []
  | pre_some c : prereqs reg (f_in f) <> [] ->
      pre reg g f cx [EvCall c (Some g) cx ((fun p => TPtr (f_id p)) <$> prereqs reg (f_in f)); EvRet c (Some g) None].

Ltac shatter h := destruct h as [|? [|? [|? [|? [|? [|? ?]]]]]]; simplify_eq/=.

Lemma path_pre reg g a f sub cx h ev : path reg g a f sub cx (h ++ [ev]) ->
  (exists hp hr, h = hp ++ hr /\ pre reg g f cx hp /\ rest g a f sub cx (hr ++ [ev])) \/
  (exists c, ev = EvCall c (Some g) cx ((fun p => TPtr (f_id p)) <$> prereqs reg (f_in f)) /\ h = [] /\ prereqs reg (f_in f) <> []) \/
  (exists c e, ev = EvRet c (Some g) e) \/ (exists e, ev = EvEnd g a (f_id f) (Some e)).
Proof.
  intros Hp. inversion Hp as [h1 E Hr Eh|Eh|c Hn Eh|c e h1 Hn Hh Eh|c h1 Hn Hr Eh].
  - left. exists [], h. subst. split; [done|]. split; [by constructor|done].
  - by destruct h.
  - symmetry in Eh. apply snoc_inj_nil in Eh as [-> ->]. eauto 10.
  - destruct Hh as [-> | ->].
    + change [EvCall c (Some g) cx ((λ p, TPtr (f_id p)) <$> prereqs reg (f_in f)); EvRet c (Some g) (Some e)] with
        ([EvCall c (Some g) cx ((λ p, TPtr (f_id p)) <$> prereqs reg (f_in f))] ++ [EvRet c (Some g) (Some e)]) in Eh.
      apply app_inj_tail in Eh as [_ <-]. eauto 10.
    + change [EvCall c (Some g) cx ((λ p, TPtr (f_id p)) <$> prereqs reg (f_in f)); EvRet c (Some g) (Some e); EvEnd g a (f_id f) (Some e)] with
        ([EvCall c (Some g) cx ((λ p, TPtr (f_id p)) <$> prereqs reg (f_in f)); EvRet c (Some g) (Some e)] ++ [EvEnd g a (f_id f) (Some e)]) in Eh.
      apply app_inj_tail in Eh as [_ <-]. eauto 10.
  - destruct h1 as [|y ys _] using rev_ind.
    + change [EvCall c (Some g) cx ((λ p, TPtr (f_id p)) <$> prereqs reg (f_in f)); EvRet c (Some g) None] with
        ([EvCall c (Some g) cx ((λ p, TPtr (f_id p)) <$> prereqs reg (f_in f))] ++ [EvRet c (Some g) None]) in Eh.
      apply app_inj_tail in Eh as [_ <-]. eauto 10.
    + rewrite !app_comm_cons in Eh. apply app_inj_tail in Eh as [<- <-]. left.
      exists [EvCall c (Some g) cx ((λ p, TPtr (f_id p)) <$> prereqs reg (f_in f)); EvRet c (Some g) None], ys.
      split; [done|]. split; [by constructor|done].
Qed.

Ltac tails Ht :=
  inversion Ht as [Eh|c1 Eh|c1 e1 h1 Hh Eh|c1 h1 Hd Hh Eh|c1 h1 Hd1 Hd2 Hh Eh|c1 x1 h1 Hd1 Hd2 Hh Eh];
  try destruct Hh as [-> | ->]; try destruct Hh as [-> |[-> | ->]]; try destruct Hh as [-> |[-> |[-> |(n1 & [-> | ->])]]].

Lemma tail_end g a f sub cx h : tail g a f sub cx (h ++ [EvEnd g a (f_id f) None]) -> GetDryRun cx = false ->
  exists c, (h = [EvCall c (Some g) cx [sub]; EvRet c (Some g) None] /\ GetHashDB cx = None) \/
    (exists x, h = [EvCall c (Some g) cx [sub]; EvRet c (Some g) None; EvEff g (OpHash false (f_id f)) (S x); EvEff g (OpAdd x) 0]) /\ GetHashDB cx <> None.
Proof.
  intros Ht Hdry. tails Ht; symmetry in Eh; shatter h; try done; exists c1.
  - left. split; [done|]. destruct Hd as [?|?]; [done|congruence].
  - right. split; [by exists x1|done].
Qed.
Lemma tail_add g a f sub cx h x r : tail g a f sub cx (h ++ [EvEff g (OpAdd x) r]) ->
  exists c, h = [EvCall c (Some g) cx [sub]; EvRet c (Some g) None; EvEff g (OpHash false (f_id f)) (S x)].
Proof.
  intros Ht. tails Ht; symmetry in Eh; shatter h; try done; by exists c1.
Qed.
Lemma tail_call g a f sub cx h c cx' ts : tail g a f sub cx (h ++ [EvCall c (Some g) cx' ts]) -> h = [].
Proof.
  intros Ht. tails Ht; symmetry in Eh; shatter h; done.
Qed.

Ltac rests Hr :=
  inversion Hr as [h1 Hd Ht Eh|Eh|h1 Hh Eh|x1 Eh|x1 h1 Hd1 Hd2 Hd3 Ht Eh|x1 h1 Hd1 Hd2 Hd3 Hh Eh|x1 n1 h1 Hh Eh];
  try destruct Hh as [-> | ->].

Lemma rest_end g a f sub cx h : rest g a f sub cx (h ++ [EvEnd g a (f_id f) None]) -> GetDryRun cx = false ->
  (exists x, h = [EvEff g (OpHash true (f_id f)) (S x); EvEff g (OpHas x) 1] /\ GetHashDB cx <> None) \/
  (exists hp c, h = hp ++ [EvCall c (Some g) cx [sub]; EvRet c (Some g) None] /\ GetHashDB cx = None) \/
  (exists hp c x, h = hp ++ [EvCall c (Some g) cx [sub]; EvRet c (Some g) None; EvEff g (OpHash false (f_id f)) (S x); EvEff g (OpAdd x) 0] /\ GetHashDB cx <> None).
Proof.
  intros Hr Hdry. rests Hr; try (symmetry in Eh; shatter h; done); try (symmetry in Eh; shatter h; left; by exists x1).
  - apply tail_end in Ht as (c & [(-> & ?)|((x & ->) & ?)]); [| |done].
    + right. left. by exists [], c.
    + right. right. by exists [], c, x.
  - destruct h1 as [|y ys _] using rev_ind.
    { symmetry in Eh; shatter h. }
    rewrite !app_comm_cons in Eh. apply app_inj_tail in Eh as [<- ->].
    apply tail_end in Ht as (c & [(-> & ?)|((x & ->) & ?)]); [| |done].
    + right. left. by exists [EvEff g (OpHash true (f_id f)) (S x1); EvEff g (OpHas x1) 0], c.
    + right. right. by exists [EvEff g (OpHash true (f_id f)) (S x1); EvEff g (OpHas x1) 0], c, x.
Qed.
Lemma rest_add g a f sub cx h x r : rest g a f sub cx (h ++ [EvEff g (OpAdd x) r]) ->
  exists hp c, h = hp ++ [EvCall c (Some g) cx [sub]; EvRet c (Some g) None; EvEff g (OpHash false (f_id f)) (S x)].
Proof.
  intros Hr. rests Hr; try (symmetry in Eh; shatter h; done).
  - apply tail_add in Ht as (c & ->). by exists [], c.
  - destruct h1 as [|y ys _] using rev_ind.
    { symmetry in Eh; shatter h. }
    rewrite !app_comm_cons in Eh. apply app_inj_tail in Eh as [<- ->].
    apply tail_add in Ht as (c & ->). by exists [EvEff g (OpHash true (f_id f)) (S x1); EvEff g (OpHas x1) 0], c.
Qed.
Lemma rest_call g a f sub cx h c cx' ts : rest g a f sub cx (h ++ [EvCall c (Some g) cx' ts]) ->
  h = [] /\ (GetHashDB cx = None \/ GetForce cx = true \/ GetDryRun cx = true) \/
  exists x, h = [EvEff g (OpHash true (f_id f)) (S x); EvEff g (OpHas x) 0].
Proof.
  intros Hr. rests Hr; try (symmetry in Eh; shatter h; done).
  - apply tail_call in Ht as ->. auto.
  - destruct h1 as [|y ys _] using rev_ind.
    { symmetry in Eh; shatter h. }
    rewrite !app_comm_cons in Eh. apply app_inj_tail in Eh as [<- ->].
    apply tail_call in Ht as ->. right. by exists x1.
Qed.

Lemma path_end reg g a f sub cx h : path reg g a f sub cx (h ++ [EvEnd g a (f_id f) None]) -> GetDryRun cx = false ->
  (exists hp x, h = hp ++ [EvEff g (OpHash true (f_id f)) (S x); EvEff g (OpHas x) 1] /\ GetHashDB cx <> None) \/
  (exists hp c, h = hp ++ [EvCall c (Some g) cx [sub]; EvRet c (Some g) None] /\ GetHashDB cx = None) \/
  (exists hp c x, h = hp ++ [EvCall c (Some g) cx [sub]; EvRet c (Some g) None; EvEff g (OpHash false (f_id f)) (S x); EvEff g (OpAdd x) 0] /\ GetHashDB cx <> None).
Proof.
  intros Hp Hdry. apply path_pre in Hp as [(hp & hr & -> & _ & Hr)|[(c & ? & _)|[(c & e & ?)|(e & ?)]]]; [|done..|by simplify_eq].
  apply rest_end in Hr as [(x & -> & ?)|[(hp' & c & -> & ?)|(hp' & c & x & -> & ?)]]; [| | |done].
  - left. eauto.
  - right. left. exists (hp ++ hp'), c. by rewrite <-app_assoc.
  - right. right. exists (hp ++ hp'), c, x. by rewrite <-app_assoc.
Qed.
Lemma path_add reg g a f sub cx h x r : path reg g a f sub cx (h ++ [EvEff g (OpAdd x) r]) ->
  exists hp c, h = hp ++ [EvCall c (Some g) cx [sub]; EvRet c (Some g) None; EvEff g (OpHash false (f_id f)) (S x)].
Proof.
  intros Hp. apply path_pre in Hp as [(hp & hr & -> & _ & Hr)|[(c & ? & _)|[(c & e & ?)|(e & ?)]]]; [|done..].
  apply rest_add in Hr as (hp' & c & ->). exists (hp ++ hp'), c. by rewrite <-app_assoc.
Qed.
Lemma path_call reg g a f sub cx h c cx' ts : path reg g a f sub cx (h ++ [EvCall c (Some g) cx' ts]) ->
  (ts = (fun p => TPtr (f_id p)) <$> prereqs reg (f_in f) /\ h = [] /\ prereqs reg (f_in f) <> []) \/
  exists hp, pre reg g f cx hp /\
    (h = hp /\ (GetHashDB cx = None \/ GetForce cx = true \/ GetDryRun cx = true) \/
     exists x, h = hp ++ [EvEff g (OpHash true (f_id f)) (S x); EvEff g (OpHas x) 0]).
Proof.
  intros Hp. apply path_pre in Hp as [(hp & hr & -> & Hp & Hr)|[(c1 & ? & -> & Hn)|[(c1 & e & ?)|(e & ?)]]]; [|by simplify_eq; auto|done..].
  right. exists hp. split; [done|]. apply rest_call in Hr as [(-> & ?)|(x & ->)]; [|eauto]. rewrite app_nil_r. auto.
Qed.

(** ** Correctness. *)
Lemma sound_honest hashf H right p : database_sound p -> database_honest hashf H right p.
Proof.
  intros [Hhas Hadd]. split.
  - intros t h r db x Hx. left. by apply Hhas in Hx.
  - intros t h r db x Hx. apply Hadd in Hx. apply elem_of_union in Hx as [Hx|Hx]; [left; by apply elem_of_singleton in Hx|right; by left].
Qed.

Section build.
  Context (hashf : string -> string) (H : json -> hash).
  Context (Hh : Inj (=) (=) hashf) (Hne : forall c, hashf c <> "") (HH : Inj (=) (=) H).
  Context (right : rule -> files_state -> Prop) (Hcov : hash_covers right).
  Context (p : project) (owner : obj -> option obj) (σ : env).
  Context (Hwf : well_formed p) (Hsep : separate p) (Hdb : database_honest hashf H right p) (Hpos : p_possible p (e_fs σ)).
  Notation w := (p_world p).

  (** The prerequisites have ended. *)
  Lemma needs_done l1 ev l2 gf a f cx : trace w (l1 ++ ev :: l2) -> f ∈ p_rules p -> EvStart gf a (f_id f) cx ∈ l1 ->
    (exists l r, ev = EvEff gf l r) \/ (exists c cx' ts, ev = EvCall c (Some gf) cx' ts /\ calls_by gf l1 <> []) \/
    ev = EvEnd gf a (f_id f) None ->
    forall q, q ∈ needs p f -> exists g a, EvEnd g a (f_id q) None ∈ l1.
  Proof.
    intros Ht Hf Hs Hev q Hq.
    destruct (order_lem w l1 ev l2 gf a (f_id f) cx (p_rules p) f (TPtr (p_sub p f)) q Ht Hs) as (o & g & o' & [= <-] & Hend); [|done..|].
    { unfold body. rewrite (wf_plain _ Hwf) by done. by apply (wf_body _ Hwf). }
    exists g, (w_addr w (f_id q)). assert (Hq' : q ∈ p_rules p) by (by eapply needs_rules).
    rewrite (end_obj w l1 g (f_id q) o' None (wf_addr _ Hwf) (trace_prefix _ _ _ Ht) (wf_plain _ Hwf _ Hq') Hend) in Hend. done.
  Qed.
  Lemma needs_at_call l1 c cx' l2 gf a f cx : trace w (l1 ++ EvCall c (Some gf) cx' [TPtr (p_sub p f)] :: l2) ->
    orderly p owner (l1 ++ EvCall c (Some gf) cx' [TPtr (p_sub p f)] :: l2) -> f ∈ p_rules p -> EvStart gf a (f_id f) cx ∈ l1 ->
    forall q, q ∈ needs p f -> exists g a, EvEnd g a (f_id q) None ∈ l1.
  Proof.
    intros Ht Hor Hf Hs q Hq.
    pose proof (path_at_rule p Hwf l1 _ l2 gf a f cx Ht Hf eq_refl Hs) as Hp.
    apply path_call in Hp as [(E & _ & _)|(hp & Hpre & Hx)].
    - exfalso. assert (Hin : TPtr (p_sub p f) ∈ (fun p => TPtr (f_id p)) <$> prereqs (declare_all (p_rules p)) (f_in f)) by (rewrite <-E; by left).
      apply elem_of_list_fmap in Hin as (q2 & [= Eq] & Hq2). apply needs_rules in Hq2.
      destruct (or_sub _ _ _ Hor f Hf) as [Ho _]. destruct (or_sub _ _ _ Hor q2 Hq2) as [_ Ho2]. congruence.
    - eapply (needs_done l1 _ l2 gf a f cx Ht Hf Hs); [|done]. right. left. exists c, cx', [TPtr (p_sub p f)]. split; [done|].
      inversion Hpre as [E Eh|c1 E Eh].
      { unfold needs in Hq. rewrite E in Hq. by apply elem_of_nil in Hq. }
      rewrite <-calls_by_filter. destruct Hx as [(-> & _)|(x & ->)]; subst hp; simpl; rewrite decide_True by done; done.
  Qed.
  (** A request for the subtarget that has returned without error. *)
  Lemma sub_returned l f gf a cx hp c cx' t : trace w l -> orderly p owner l -> f ∈ p_rules p -> EvStart gf a (f_id f) cx ∈ l ->
    filter (concerns gf) l = hp ++ EvCall c (Some gf) cx' [TPtr (p_sub p f)] :: EvRet c (Some gf) None :: t ->
    exists l1 l2, l = l1 ++ EvRet c (Some gf) None :: l2 /\ filter (concerns gf) l2 = t /\ exists gs b, EvEnd gs b (p_sub p f) None ∈ l1.
  Proof.
    intros Ht Hor Hf Hs Hfil.
    destruct (filter_split _ _ _ _ _ Hfil) as (m1 & m' & -> & Hm1 & Hm').
    destruct (filter_split _ m' [] _ _ Hm') as (m2 & m3 & -> & Hm2 & Hm3). clear Hm'.
    exists (m1 ++ EvCall c (Some gf) cx' [TPtr (p_sub p f)] :: m2), m3.
    assert (E : m1 ++ EvCall c (Some gf) cx' [TPtr (p_sub p f)] :: m2 ++ EvRet c (Some gf) None :: m3 =
      (m1 ++ EvCall c (Some gf) cx' [TPtr (p_sub p f)] :: m2) ++ EvRet c (Some gf) None :: m3) by (by rewrite <-app_assoc).
    rewrite E in *. split; [done|]. split; [done|].
    destruct (ret_none_succeeded w _ c (Some gf) cx' [TPtr (p_sub p f)] m3 0 (TPtr (p_sub p f)) Ht) as (x & gs & o' & [= <-] & Hend); [apply elem_of_app; right; left|done|].
    exists gs, (w_addr w (p_sub p f)).
    rewrite (end_obj w _ gs (p_sub p f) o' None (wf_addr _ Hwf) (trace_prefix _ _ _ Ht) (proj2 (or_rule _ _ _ Hor _ _ (proj1 (or_sub _ _ _ Hor f Hf)))) Hend) in Hend. done.
  Qed.
  (** When the subtarget starts, the prerequisites have ended. *)
  Lemma needs_at_sub l1 gs b f cxs l2 : trace w (l1 ++ EvStart gs b (p_sub p f) cxs :: l2) -> orderly p owner (l1 ++ EvStart gs b (p_sub p f) cxs :: l2) ->
    f ∈ p_rules p -> forall q, q ∈ needs p f -> exists g a, EvEnd g a (f_id q) None ∈ l1.
  Proof.
    intros Ht Hor Hf q Hq.
    destruct (sub_nest p owner Hwf _ _ _ _ _ _ Ht Hor Hf) as (gf & a & cx & c & h & Hs & Hfil).
    destruct (filter_split _ _ _ _ _ Hfil) as (m1 & m2 & E & Hm1 & Hm2).
    pose proof (trace_prefix _ _ _ Ht) as Ht1. pose proof (orderly_prefix _ _ _ _ Hor) as Hor1. rewrite E in Ht1, Hor1, Hs.
    destruct (path_at w m1 _ _ gf a (f_id f) cx Ht1 eq_refl Hs) as (Hs1 & _).
    destruct (needs_at_call m1 c cx m2 gf a f cx Ht1 Hor1 Hf Hs1 q Hq) as (g' & a' & Hend).
    exists g', a'. rewrite E. apply elem_of_app. by left.
  Qed.
  Lemma needs_when_sub_ended l f gs b e : trace w l -> orderly p owner l -> f ∈ p_rules p -> EvEnd gs b (p_sub p f) e ∈ l ->
    forall q, q ∈ needs p f -> exists g a, EvEnd g a (f_id q) None ∈ l.
  Proof.
    intros Ht Hor Hf Hend q Hq. destruct (end_started _ _ _ _ _ _ Ht Hend) as (cxs & Hs).
    apply elem_of_list_split in Hs as (l1 & l2 & ->).
    destruct (needs_at_sub _ _ _ _ _ _ Ht Hor Hf q Hq) as (g & a & Hq'). exists g, a. apply elem_of_app. by left.
  Qed.

  (** After the subtarget has succeeded, the outputs are right. *)
  Lemma ran_right l f gs b : trace w l -> orderly p owner l -> settled p l -> commands_work right p σ l -> f ∈ p_rules p ->
    EvEnd gs b (p_sub p f) None ∈ l -> right (rule_of p f) (e_fs (after p σ l)).
  Proof.
    intros Ht Hor Hset Hw Hf Hend.
    destruct (end_split _ _ _ _ _ _ Ht Hend) as (l1 & l2 & cxs & -> & Hs). clear Hend.
    apply elem_of_list_split in Hs as (m1 & m2 & ->).
    set (es := EvStart gs b (p_sub p f) cxs) in *. set (ee := EvEnd gs b (p_sub p f) None) in *.
    assert (E : (m1 ++ es :: m2) ++ ee :: l2 = m1 ++ es :: m2 ++ ee :: l2) by (by rewrite <-app_assoc).
    assert (Hq : forall q, q ∈ needs p f -> exists g a, EvEnd g a (f_id q) None ∈ m1).
    { rewrite E in Ht, Hor. exact (needs_at_sub m1 gs b f cxs _ Ht Hor Hf). }
    assert (Hr : right (rule_of p f) (e_fs (after p σ (m1 ++ es :: m2)))).
    { eapply (Hw f m1 gs b cxs m2 l2 Hf); [exact E|].
      intros k1 g lb r k2 -> Hlb. fold es.
      assert (E1 : (m1 ++ [es]) ++ k1 ++ [EvEff g lb r] = ((m1 ++ [es]) ++ k1) ++ [EvEff g lb r]) by (by rewrite !app_assoc).
      rewrite E1.
      assert (E2 : (m1 ++ es :: k1 ++ EvEff g lb r :: k2) ++ ee :: l2 = (((m1 ++ [es]) ++ k1) ++ [EvEff g lb r]) ++ k2 ++ ee :: l2) by (rewrite <-!app_assoc; cbn [app]; by rewrite <-!app_assoc).
      rewrite E2 in Ht, Hor, Hset. apply trace_prefix in Ht. apply orderly_prefix in Hor. apply settled_prefix in Hset.
      eapply (step_unchanged p owner Hwf Hsep σ Hpos); [done..| |done].
      intros q Hin. destruct (Hq q Hin) as (g1 & a1 & ?). exists g1, a1. rewrite !elem_of_app. by left; left. }
    eapply (Hcov _ (rule_of p f)); [|exact Hr]. apply unchanged_same_state. cbn [rule_of r_in r_out].
    assert (E2 : after p σ (m1 ++ es :: m2) = after p σ ((m1 ++ es :: m2) ++ [ee])) by (by rewrite after_snoc).
    assert (E3 : (m1 ++ es :: m2) ++ ee :: l2 = ((m1 ++ es :: m2) ++ [ee]) ++ l2) by (exact (app_assoc (m1 ++ es :: m2) [ee] l2)).
    rewrite E2. rewrite E3 in *.
    eapply (quiet_unchanged p owner Hwf Hsep σ Hpos); [done..| |].
    - intros q Hin. destruct (Hq q Hin) as (g1 & a1 & ?). exists g1, a1. rewrite !elem_of_app. by left; left.
    - eapply (sub_ended_quiet p owner Hwf f gs b None); [exact Ht|done..|]. apply elem_of_snoc. by right.
  Qed.

  (** When a run of [f] found its hash in the database and has ended, its subtarget has
      ended or no command has run since. *)
  Lemma yes_settled l l2 f g a hp x : settled p (l ++ EvEnd g a (f_id f) None :: l2) -> f ∈ p_rules p ->
    filter (concerns g) l = hp ++ [EvEff g (OpHash true (f_id f)) (S x); EvEff g (OpHas x) 1] ->
    (exists gs b, EvEnd gs b (p_sub p f) None ∈ l) \/
    exists m1 m2 m3, l = m1 ++ EvEff g (OpHash true (f_id f)) (S x) :: m2 ++ EvEff g (OpHas x) 1 :: m3 /\
      forall g' n r, EvEff g' (OpCmd (f_id f) n) r ∉ m2 ++ EvEff g (OpHas x) 1 :: m3 ++ l2.
  Proof.
    intros Hset Hf Hfil. destruct (Hset f g a l l2 Hf eq_refl) as [?|(k1 & r & k2 & E & Hno)]; [by left|]. right.
    destruct (filter_split _ _ _ _ _ Hfil) as (m1 & m' & -> & Hm1 & Hm').
    destruct (filter_split _ m' [] _ _ Hm') as (m2 & m3 & -> & Hm2 & Hm3). clear Hm' Hfil.
    exists m1, m2, m3. split; [done|]. intros g' n r' Hin.
    apply (Hno g' n r'). rewrite elem_of_app.
    assert (Hsub : forall ev, ev ∈ m2 ++ EvEff g (OpHas x) 1 :: m3 -> ev ∈ k2).
    { clear -E Hm2 Hm3. revert k1 E. induction m1 as [|y m1 IH]; intros k1 E; destruct k1 as [|z k1]; simpl in E; injection E as E1 E2.
      - rewrite E2. done.
      - exfalso. assert (Hin : EvEff g (OpHash true (f_id f)) r ∈ m2 ++ EvEff g (OpHas x) 1 :: m3) by (rewrite E2; apply elem_of_app; right; left).
        assert (Hc : forall m, filter (concerns g) m = [] -> EvEff g (OpHash true (f_id f)) r ∉ m).
        { intros m Hm Hi. assert (Hx : EvEff g (OpHash true (f_id f)) r ∈ filter (concerns g) m) by (by apply elem_of_list_filter).
          rewrite Hm in Hx. by apply elem_of_nil in Hx. }
        apply elem_of_app in Hin as [Hin|Hin]; [by eapply (Hc m2)|]. apply elem_of_cons in Hin as [Hin|Hin]; [done|by eapply (Hc m3)].
      - intros ev Hev. rewrite <-E2. apply elem_of_app. right. by right.
      - by eapply IH. }
    assert (E' : m2 ++ EvEff g (OpHas x) 1 :: m3 ++ l2 = (m2 ++ EvEff g (OpHas x) 1 :: m3) ++ l2) by (by rewrite <-app_assoc).
    rewrite E', elem_of_app in Hin. destruct Hin as [Hin|Hin]; [left; by apply Hsub|by right].
  Qed.

  (** The files of [f] are the same from the time when one of its runs took the hash, if no command
      has run since. *)
  Lemma since_hash m1 g bo r k f a cx : trace w (m1 ++ EvEff g (OpHash bo (f_id f)) r :: k) -> orderly p owner (m1 ++ EvEff g (OpHash bo (f_id f)) r :: k) ->
    settled p (m1 ++ EvEff g (OpHash bo (f_id f)) r :: k) -> f ∈ p_rules p -> EvStart g a (f_id f) cx ∈ m1 ++ EvEff g (OpHash bo (f_id f)) r :: k ->
    (forall g' n r', EvEff g' (OpCmd (f_id f) n) r' ∉ k) ->
    unchanged (e_fs (after p σ m1)) (e_fs (after p σ (m1 ++ EvEff g (OpHash bo (f_id f)) r :: k))) (f_in f ++ f_out f).
  Proof.
    intros Ht Hor Hset Hf Hs Hno.
    destruct (path_at w m1 _ _ g a (f_id f) cx Ht eq_refl Hs) as (Hs1 & _).
    eapply (quiet_unchanged p owner Hwf Hsep σ Hpos); [done..| |].
    - eapply (needs_done m1 _ k g a f cx Ht Hf Hs1). left. eauto.
    - intros g' n r' Hin. apply elem_of_cons in Hin as [Hin|Hin]; [done|by eapply Hno].
  Qed.

  Lemma incremental_lem tr : session hashf H p σ tr -> orderly p owner tr -> settled p tr -> commands_work right p σ tr ->
    honest hashf H right (e_db σ) ->
    honest hashf H right (e_db (after p σ tr)) /\
    forall f, f ∈ p_rules p -> built f tr -> right (rule_of p f) (e_fs (after p σ tr)).
  Proof.
    intros Hse Hor Hset Hw Hho. remember (length tr) as n eqn:Hn. revert tr Hn Hse Hor Hset Hw.
    induction (lt_wf n) as [n _ IH]. intros tr -> Hse Hor Hset Hw.
    pose proof (proj1 Hse) as Ht.
    assert (IH0 : forall k ev m, tr = k ++ ev :: m -> honest hashf H right (e_db (after p σ k))).
    { intros k ev m E. eapply (IH (length k)); [|reflexivity|rewrite E in *; by eapply session_prefix|rewrite E in *; by eapply orderly_prefix|rewrite E in *; by eapply settled_prefix|rewrite E in *; by eapply work_prefix].
      rewrite E, app_length. simpl. lia. }
    clear IH. split.
    - destruct tr as [|ev l _] using rev_ind; [done|].
      pose proof (session_prefix _ _ _ _ _ _ Hse) as Hse1. pose proof (proj1 Hse1) as Ht1. pose proof (IH0 l ev [] eq_refl) as IH1.
      rewrite after_snoc. destruct ev as [| | | | |g lb r| | |]; try exact IH1. cbn [after_event].
      destruct lb as [b o|x|x|o n|n]; cbn [next e_db]; try exact IH1.
      { intros y fuel fs r' Hy Hc. apply (dh_has _ _ _ _ Hdb) in Hy as [Hy|Hy]; [by eapply IH1|]. eapply Hy; [by apply elem_of_singleton|exact Hc]. }
      intros y fuel fs r' Hy Hc. apply (dh_add _ _ _ _ Hdb) in Hy as [->|[Hy|Hy]]; [|by eapply IH1|eapply Hy; [by apply elem_of_singleton|exact Hc]].
      destruct (concerns_started w l (EvEff g (OpAdd x) r) [] g Ht eq_refl) as (a & o & cx & Hs).
      destruct (or_add _ _ _ Hor g a o cx x r) as (f & Hf & <-).
      { apply elem_of_app; by left. } { apply elem_of_snoc; by right. }
      pose proof (path_at_rule p Hwf l _ [] g a f cx Ht Hf eq_refl Hs) as Hp.
      apply path_add in Hp as (hp & c & Hfil).
      change [EvCall c (Some g) cx [TPtr (p_sub p f)]; EvRet c (Some g) None; EvEff g (OpHash false (f_id f)) (S x)] with
        ([EvCall c (Some g) cx [TPtr (p_sub p f)]; EvRet c (Some g) None] ++ [EvEff g (OpHash false (f_id f)) (S x)]) in Hfil.
      rewrite app_assoc in Hfil. destruct (filter_split _ _ _ _ _ Hfil) as (m1 & m2 & -> & Hm1 & Hm2).
      assert (Hs1 : EvStart g a (f_id f) cx ∈ m1).
      { by destruct (path_at w m1 _ _ g a (f_id f) cx Ht1 eq_refl Hs). }
      pose proof (trace_prefix _ _ _ Ht1) as Htm. pose proof (orderly_prefix _ _ _ _ (orderly_prefix _ _ _ _ Hor)) as Horm.
      destruct (sub_returned m1 f g a cx hp c cx [] Htm Horm Hf Hs1 Hm1) as (j1 & j2 & Ej & _ & gs & b & Hend).
      assert (Hr : right (rule_of p f) (e_fs (after p σ m1))).
      { eapply (ran_right m1 f gs b); [done..|by do 2 eapply settled_prefix|by do 2 eapply work_prefix|done|]. rewrite Ej. apply elem_of_app. by left. }
      pose proof (proj2 Hse1 m1 g _ _ m2 eq_refl f Hf eq_refl) as (fuel1 & Hv).
      destruct (computeHash hashf H fuel1 (e_fs (after p σ m1)) (rule_of p f)) as [x'| | |] eqn:Ex; try done. injection Hv as <-.
      eapply Hcov; [|exact Hr]. eapply (computeHash_same hashf H Hh Hne HH); [exact Ex|exact Hc].
    - intros f Hf (g & a & Hin).
      destruct (end_split _ _ _ _ _ _ Ht Hin) as (l & l2 & cx & Etr & Hs).
      rewrite Etr in Ht, Hset. pose proof Hor as Hor0. rewrite Etr in Hor0. pose proof (orderly_prefix _ _ _ _ Hor0) as Hor1. pose proof (trace_prefix _ _ _ Ht) as Ht1.
      pose proof (path_at_rule p Hwf l _ l2 g a f cx Ht Hf eq_refl Hs) as Hp.
      apply path_end in Hp; [|by eapply (or_not_dry _ _ _ Hor1)].
      assert (Hsub : forall gs b, EvEnd gs b (p_sub p f) None ∈ l -> right (rule_of p f) (e_fs (after p σ tr))).
      { intros gs b Hend. eapply (ran_right tr f gs b); [by rewrite Etr|done|by rewrite Etr|done|done|]. rewrite Etr. apply elem_of_app. by left. }
      destruct Hp as [(hp & x & Hfil & _)|[(hp & c & Hfil & _)|(hp & c & x & Hfil & _)]].
      + destruct (yes_settled l l2 f g a hp x Hset Hf Hfil) as [(gs & b & Hend)|(m1 & m2 & m3 & El & Hno)]; [by eapply Hsub|].
        set (e1 := EvEff g (OpHash true (f_id f)) (S x)) in *. set (e2 := EvEff g (OpHas x) 1) in *. set (e3 := EvEnd g a (f_id f) None) in *.
        assert (E : tr = m1 ++ e1 :: m2 ++ e2 :: m3 ++ e3 :: l2).
        { rewrite Etr, El, <-!app_assoc. cbn [app]. by rewrite <-!app_assoc. }
        rewrite <-Etr in Ht, Hset.
        pose proof (proj2 Hse m1 g _ _ _ E f Hf eq_refl) as (fuel1 & Hv).
        destruct (computeHash hashf H fuel1 (e_fs (after p σ m1)) (rule_of p f)) as [x'| | |] eqn:Ex; try done. injection Hv as <-.
        assert (E' : tr = (m1 ++ e1 :: m2) ++ e2 :: m3 ++ e3 :: l2) by (rewrite E, <-app_assoc; done).
        pose proof (proj2 Hse _ _ _ _ _ E') as [_ Hx]. specialize (Hx eq_refl).
        pose proof (IH0 _ _ _ E') as Hon.
        assert (Hr : right (rule_of p f) (e_fs (after p σ m1))) by (by eapply Hon).
        eapply (Hcov _ (rule_of p f)); [|exact Hr]. apply unchanged_same_state. cbn [rule_of r_in r_out].
        assert (Hs' : EvStart g a (f_id f) cx ∈ tr) by (rewrite Etr; apply elem_of_app; by left).
        rewrite E in Ht, Hor, Hset, Hs' |- *. eapply (since_hash m1 g true (S x) _ f a cx); [done..|].
        intros g' n r Hi. apply (Hno g' n r). rewrite app_comm_cons in Hi. rewrite app_assoc in Hi. apply elem_of_app in Hi as [Hi|Hi].
        * apply elem_of_app in Hi as [Hi|Hi]; apply elem_of_app; [by left|right]. apply elem_of_cons in Hi as [Hi|Hi]; [done|].
          right. apply elem_of_app. by left.
        * apply elem_of_cons in Hi as [Hi|Hi]; [done|]. apply elem_of_app. right. right. apply elem_of_app. by right.
      + destruct (sub_returned l f g a cx hp c cx [] Ht1 Hor1 Hf Hs Hfil) as (j1 & j2 & Ej & _ & gs & b & Hend).
        eapply (Hsub gs b). rewrite Ej. apply elem_of_app. by left.
      + destruct (sub_returned l f g a cx hp c cx _ Ht1 Hor1 Hf Hs Hfil) as (j1 & j2 & Ej & _ & gs & b & Hend).
        eapply (Hsub gs b). rewrite Ej. apply elem_of_app. by left.
  Qed.

End build.

Section once.
  Context (p : project) (owner : obj -> option obj) (Hwf : well_formed p).
  Notation w := (p_world p).

  (** A Files target that is run once is settled. *)
  Lemma once_settled tr : trace w tr -> orderly p owner tr -> once p tr -> settled p tr.
  Proof.
    intros Ht Hor Honce f g a l l2 Hf ->.
    assert (Hs : exists cx, EvStart g a (f_id f) cx ∈ l).
    { destruct (concerns_started w l (EvEnd g a (f_id f) None) l2 g Ht eq_refl) as (a' & o' & cx' & Hs).
      destruct (end_started w _ g a (f_id f) None Ht) as (cx & Hs2); [apply elem_of_app; right; left|].
      exists cx. by destruct (path_at w l _ l2 g a (f_id f) cx Ht eq_refl Hs2). }
    destruct Hs as (cx & Hs). pose proof (orderly_prefix _ _ _ _ Hor) as Hor1. pose proof (trace_prefix _ _ _ Ht) as Ht1.
    pose proof (path_at_rule p Hwf l _ l2 g a f cx Ht Hf eq_refl Hs) as Hp.
    apply path_end in Hp; [|by eapply (or_not_dry _ _ _ Hor1)].
    destruct Hp as [(hp & x & Hfil & _)|[(hp & c & Hfil & _)|(hp & c & x & Hfil & _)]].
    - right. destruct (filter_split _ _ _ _ _ Hfil) as (m1 & m2 & -> & Hm1 & Hm2).
      exists m1, (S x), m2. split; [done|]. intros g' n r Hin.
      set (e1 := EvEff g (OpHash true (f_id f)) (S x)) in *. set (e3 := EvEnd g a (f_id f) None) in *.
      (* the history of g never ends with a call from here on *)
      assert (Hnc : forall q1 q2, m2 ++ e3 :: l2 = q1 ++ q2 -> forall h c' gc cx' ts, filter (concerns g) (m1 ++ e1 :: q1) <> h ++ [EvCall c' gc cx' ts]).
      { intros q1 q2 E h c' gc cx' ts Hq. rewrite filter_app, filter_cons_True in Hq by done.
        assert (Hall : forall ev, ev ∈ filter (concerns g) q1 -> ev = EvEff g (OpHas x) 1 \/ ev = e3).
        { intros ev Hev. assert (Hev' : ev ∈ filter (concerns g) (m2 ++ e3 :: l2)) by (rewrite E, filter_app; apply elem_of_app; by left).
          assert (Haf : filter (concerns g) l2 = []).
          { eapply (after_end p g a (f_id f) None ((m1 ++ e1 :: m2) ++ [e3])); [|apply elem_of_snoc; by right].
            by rewrite <-app_assoc. }
          rewrite filter_app, filter_cons_True, Hm2, Haf in Hev' by done. set_solver. }
        destruct (filter (concerns g) q1) as [|z zs _] eqn:Ez using rev_ind.
        - apply app_inj_tail in Hq as [_ Hq]. done.
        - rewrite app_comm_cons, app_assoc in Hq. apply app_inj_tail in Hq as [_ ->].
          destruct (Hall (EvCall c' gc cx' ts)) as [?|?]; [apply elem_of_snoc; by right|done|done]. }
      assert (Hin' : EvEff g' (OpCmd (f_id f) n) r ∈ m2 ++ e3 :: l2).
      { apply elem_of_app in Hin as [Hin|Hin]; apply elem_of_app; [by left|right; by right]. }
      apply elem_of_list_split in Hin' as (q1 & q2 & Eq).
      assert (E : (m1 ++ e1 :: m2) ++ e3 :: l2 = (m1 ++ e1 :: q1) ++ EvEff g' (OpCmd (f_id f) n) r :: q2).
      { rewrite <-!app_assoc. cbn [app]. by rewrite Eq. }
      assert (Ht' := Ht). assert (Hor' := Hor). assert (Honce' := Honce). rewrite E in Ht', Hor', Honce'.
      destruct (cmd_nest p owner Hwf _ _ _ _ _ _ Ht' Hor') as (f2 & gf & a2 & cx2 & c & h & Hf2 & Eid & Hs2 & Hhist & _).
      pose proof (wf_ids _ Hwf _ _ Hf2 Hf Eid) as ->.
      assert (HsA : EvStart g a (f_id f) cx ∈ (m1 ++ e1 :: q1) ++ EvEff g' (OpCmd (f_id f) n) r :: q2) by (rewrite <-E; apply elem_of_app; by left).
      assert (HsB : EvStart gf a2 (f_id f) cx2 ∈ (m1 ++ e1 :: q1) ++ EvEff g' (OpCmd (f_id f) n) r :: q2) by (apply elem_of_app; by left).
      destruct (same_gor p _ _ _ _ _ _ _ _ Ht' Honce' Hf HsA HsB) as (<- & _). by eapply (Hnc q1 _ Eq).
    - left. destruct (sub_returned p owner Hwf l f g a cx hp c cx [] Ht1 Hor1 Hf Hs Hfil) as (j1 & j2 & Ej & _ & gs & b & Hend).
      exists gs, b. rewrite Ej. apply elem_of_app. by left.
    - left. destruct (sub_returned p owner Hwf l f g a cx hp c cx _ Ht1 Hor1 Hf Hs Hfil) as (j1 & j2 & Ej & _ & gs & b & Hend).
      exists gs, b. rewrite Ej. apply elem_of_app. by left.
  Qed.
End once.
