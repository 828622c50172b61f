From stdpp Require Import base gmap list strings relations.
From Verif Require Import ContextModel RunnerModel RunnerSteps RunnerInv RunnerInv2 RunnerInv3 RunnerInv4 RaceModel RaceSpec.
Local Open Scope list_scope.

Notation trc := (list (thread * act)).
Definition add (T : trc) (t : thread) (l : list act) : trc := T ++ (pair t <$> l).

Lemma add_app T t l1 l2 : add (add T t l1) t l2 = add T t (l1 ++ l2).
Proof. unfold add. by rewrite fmap_app, app_assoc. Qed.
Lemma add_nil T t : add T t [] = T.
Proof. unfold add. by rewrite app_nil_r. Qed.
Lemma add_old T t l k x : T !! k = Some x -> add T t l !! k = Some x.
Proof. intros E. unfold add. by apply lookup_app_l_Some. Qed.
Lemma add_new T t l1 a l2 : add T t (l1 ++ a :: l2) !! (length T + length l1) = Some (t, a).
Proof.
  unfold add. rewrite lookup_app_r by lia. replace (length T + length l1 - length T) with (length l1) by lia.
  rewrite fmap_app. rewrite lookup_app_r by (rewrite fmap_length; lia). rewrite fmap_length. by rewrite Nat.sub_diag.
Qed.
Lemma add_lookup T t l k x : add T t l !! k = Some x ->
  T !! k = Some x \/ exists l1 a l2, l = l1 ++ a :: l2 /\ k = length T + length l1 /\ x = (t, a).
Proof.
  unfold add. intros E. apply lookup_app_Some in E as [E|[Hle E]]; [by left|]. right.
  rewrite list_lookup_fmap in E. apply fmap_Some in E as (a & E & ->).
  apply elem_of_list_split_length in E as (l1 & l2 & -> & Hl). exists l1, a, l2. split; [done|]. split; [lia|done].
Qed.

Lemma edge_mono T T' i j : edge T i j -> edge (T ++ T') i j.
Proof. intros (Hl & x & y & Hx & Hy & H). split; [done|]. exists x, y. split; [by apply lookup_app_l_Some|]. split; [by apply lookup_app_l_Some|done]. Qed.
Lemma hb_mono T T' i j : happens_before T i j -> happens_before (T ++ T') i j.
Proof. induction 1 as [i j E|i k j E _ IH]; [apply tc_once|eapply tc_l; [|exact IH]]; by apply edge_mono. Qed.
Lemma hb_add T t l i j : happens_before T i j -> happens_before (add T t l) i j.
Proof. apply hb_mono. Qed.
Lemma hb_po T i j t a b : i < j -> T !! i = Some (t, a) -> T !! j = Some (t, b) -> happens_before T i j.
Proof. intros Hl Hi Hj. apply tc_once. split; [done|]. exists (t, a), (t, b). split; [done|]. split; [done|by left]. Qed.

(** What happens before anything that the thread will do. *)
Definition known (T : trc) (i : nat) (t : thread) : Prop :=
  exists k y, T !! k = Some y /\ (i = k \/ happens_before T i k) /\ (y.1 = t \/ exists g, y.2 = Spawn g /\ t = TGo g).
(** A later unlock by the same thread. *)
Definition closed (T : trc) (i : nat) (m : mutex) : Prop :=
  exists t a u, T !! i = Some (t, a) /\ i < u /\ T !! u = Some (t, Unlock m).

Lemma known_add T t l i u : known T i u -> known (add T t l) i u.
Proof.
  intros (k & y & Hk & Hi & Hy). exists k, y. split; [by apply add_old|]. split; [|done].
  destruct Hi as [->|Hi]; [by left|right; by apply hb_add].
Qed.
Lemma closed_add T t l i m : closed T i m -> closed (add T t l) i m.
Proof. intros (u & a & k & Hi & Hl & Hk). exists u, a, k. split; [by apply add_old|]. split; [done|by apply add_old]. Qed.
Lemma known_self T i t a : T !! i = Some (t, a) -> known T i t.
Proof. intros E. exists i, (t, a). split; [done|]. split; [by left|by left]. Qed.
Lemma known_hb T i t a l : known T i t -> happens_before (add T t (a :: l)) i (length T).
Proof.
  intros (k & y & Hk & Hi & Hy).
  assert (Hlast : add T t (a :: l) !! length T = Some (t, a)) by (pose proof (add_new T t [] a l) as E; by rewrite Nat.add_0_r in E).
  assert (He : edge (add T t (a :: l)) k (length T)).
  { split; [by eapply lookup_lt_Some|]. exists y, (t, a). split; [by apply add_old|]. split; [done|].
    destruct Hy as [Hy|(g & Hy & ->)]; [left; exact Hy|right]. destruct y as [u b]. simpl in Hy. subst b. constructor. }
  destruct Hi as [->|Hi]; [by apply tc_once|]. eapply tc_r; [by apply hb_add|exact He].
Qed.
(** Acquiring. *)
Lemma known_acquire T i k x t a : T !! k = Some x -> i = k \/ happens_before T i k -> synchronizes x (t, a) -> known (add T t [a]) i t.
Proof.
  intros Hk Hi Hs. pose proof (add_new T t [] a []) as Hlast. rewrite Nat.add_0_r in Hlast. simpl in Hlast.
  exists (length T), (t, a). split; [done|]. split; [right|by left].
  assert (He : edge (add T t [a]) k (length T)).
  { split; [by eapply lookup_lt_Some|]. exists x, (t, a). split; [by apply add_old|]. split; [done|by right]. }
  destruct Hi as [->|Hi]; [by apply tc_once|]. eapply tc_r; [by apply hb_add|exact He].
Qed.
Lemma known_locked T i m t l : closed T i m -> Lock m ∈ l -> known (add T t l) i t.
Proof.
  intros (u & a & k & Hi & Hl & Hk) (l1 & l2 & ->)%elem_of_list_split.
  replace (l1 ++ Lock m :: l2) with ((l1 ++ [Lock m]) ++ l2) by (by rewrite <-app_assoc).
  rewrite <-add_app, <-add_app. apply known_add.
  eapply (known_acquire _ i k (u, Unlock m)); [by apply add_old| |constructor].
  right. eapply (hb_po _ i k u a (Unlock m)); [done|by apply add_old|by apply add_old].
Qed.
Lemma known_waited T i c t l u a k : T !! i = Some (u, a) -> i < k -> T !! k = Some (u, Done c) -> Waited c ∈ l -> known (add T t l) i t.
Proof.
  intros Hi Hl Hk (l1 & l2 & ->)%elem_of_list_split.
  replace (l1 ++ Waited c :: l2) with ((l1 ++ [Waited c]) ++ l2) by (by rewrite <-app_assoc).
  rewrite <-add_app, <-add_app. apply known_add.
  eapply (known_acquire _ i k (u, Done c)); [by apply add_old| |constructor].
  right. eapply (hb_po _ i k u a (Done c)); [done|by apply add_old|by apply add_old].
Qed.
Lemma known_spawn T i t a l g : T !! i = Some (t, a) -> Spawn g ∈ l -> known (add T t l) i (TGo g).
Proof.
  intros Hi (l1 & l2 & ->)%elem_of_list_split. exists (length T + length l1), (t, Spawn g). split; [apply add_new|]. split; [|right; by exists g].
  right. eapply hb_po; [|by apply add_old|apply add_new]. apply lookup_lt_Some in Hi. lia.
Qed.
Lemma known_spawn_new T t l1 a l2 g : Spawn g ∈ l2 -> known (add T t (l1 ++ a :: l2)) (length T + length l1) (TGo g).
Proof.
  intros (k1 & k2 & ->)%elem_of_list_split. exists (length T + length (l1 ++ a :: k1)), (t, Spawn g).
  replace (l1 ++ a :: k1 ++ Spawn g :: k2) with ((l1 ++ a :: k1) ++ Spawn g :: k2) by (by rewrite <-app_assoc).
  split; [apply add_new|]. split; [|right; by exists g]. right. eapply hb_po; [|rewrite <-app_assoc; apply add_new|apply add_new].
  rewrite app_length. simpl. lia.
Qed.
Lemma closed_new T t l1 a l2 m : Unlock m ∈ l2 -> closed (add T t (l1 ++ a :: l2)) (length T + length l1) m.
Proof.
  intros (k1 & k2 & ->)%elem_of_list_split. exists t, a, (length T + length (l1 ++ a :: k1)).
  replace (l1 ++ a :: k1 ++ Unlock m :: k2) with ((l1 ++ a :: k1) ++ Unlock m :: k2) by (by rewrite <-app_assoc).
  split; [rewrite <-app_assoc; apply add_new|]. split; [rewrite app_length; simpl; lia|apply add_new].
Qed.

(** A block of actions of one thread, each of which is ordered after what it conflicts with. *)
Definition ordered (T : trc) (t : thread) (l : list act) : Prop :=
  forall l1 a l2 x i u b, l = l1 ++ a :: l2 -> touches x a -> T !! i = Some (u, b) -> touches x b -> a = Wr x \/ b = Wr x ->
    known (add T t l1) i t.
Lemma race_free_add T t l : race_free T -> ordered T t l -> race_free (add T t l).
Proof.
  intros Hr Ho i j t1 t2 a b x Hlt Hi Hj Ha Hb Hw.
  destruct (add_lookup _ _ _ _ _ Hj) as [Hj'|(l1 & a' & l2 & -> & -> & E)].
  - assert (Hi' : T !! i = Some (t1, a)).
    { destruct (add_lookup _ _ _ _ _ Hi) as [?|(l1 & a' & l2 & -> & -> & _)]; [done|]. apply lookup_lt_Some in Hj'. lia. }
    apply hb_add. by eapply (Hr i j).
  - injection E as -> ->. destruct (add_lookup _ _ _ _ _ Hi) as [Hi'|(k1 & a'' & k2 & _ & -> & E)].
    + pose proof (known_hb _ _ _ a' l2 (Ho l1 a' l2 x i t1 a eq_refl Hb Hi' Ha ltac:(tauto))) as Hk.
      rewrite add_app in Hk. unfold add at 2 in Hk. by rewrite app_length, fmap_length in Hk.
    + injection E as -> ->. by eapply hb_po.
Qed.
