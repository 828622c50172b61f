(** Properties C25, C26: the sqlite hash database.  Vocabulary: SqliteSpec.v. *)
From stdpp Require Import base sets strings numbers list.
From Verif Require Import SqliteModel SqliteSpec SqliteProofs.
Local Open Scope Z_scope.

(** ** C25.  In every interleaving of Has and Add calls by any number of processes with any
    options and clocks, with crashes, the rows are exactly the hashes accessed and not
    evicted since, with the time of their last access ... *)
Theorem C25_contents s h secs :
  reachable s -> ((h, secs) ∈ s_table s <-> exists t, holds h t (s_log s) /\ secs = unix t).
Proof. exact (fun Hr => i_rows s (reachable_inv s Hr) h secs). Qed.
Print Assumptions C25_contents.

(** ... at most one row per hash ... *)
Theorem C25_one_row_per_hash s : reachable s -> NoDup (fst <$> s_table s).
Proof. exact (fun Hr => i_nodup s (reachable_inv s Hr)). Qed.
Print Assumptions C25_one_row_per_hash.

(** ... and Has answers yes exactly when the hash was there at that moment. *)
Theorem C25_has_answer s l1 h u b l2 :
  reachable s -> s_log s = l1 ++ EvHas h u b :: l2 -> (b = true <-> exists t, holds h t l1).
Proof. exact (has_answer_lem s l1 h u b l2). Qed.
Print Assumptions C25_has_answer.

(** Has neither adds nor removes anything, and leaves the other entries alone; Add makes its
    hash present, whatever the options and times. *)
Theorem C25_has_frame o now h tb h' :
  ((exists s, (h', s) ∈ (Has o now h tb).1) <-> (exists s, (h', s) ∈ tb)) /\
  (h' <> h -> forall s, (h', s) ∈ (Has o now h tb).1 <-> (h', s) ∈ tb) /\
  (updateOnAccess o = false -> (Has o now h tb).1 = tb).
Proof.
  exact (conj (has_frame_lem o now h tb h')
        (conj (fun Hne s => has_other_lem o now h tb h' s Hne)
              (has_noupdate_lem o now h tb))).
Qed.
Print Assumptions C25_has_frame.
Theorem C25_add_then_has o o' now now' h tb : (Has o' now' h (Add o now h tb)).2 = true.
Proof. exact (add_has_lem o o' now now' h tb). Qed.
Print Assumptions C25_add_then_has.
(** [Has] and [Add] are the machine's calls run without interference. *)
Theorem C25_calls_alone o now h s :
  (let i := length (s_calls s) in
   exists cs s', run s (CallHas o h :: cs) = Some s' /\ (forall c, c ∈ cs -> c = Go i now) /\
    s_table s' = (Has o now h (s_table s)).1 /\ s_calls s' !! i = Some (HasDone h (Has o now h (s_table s)).2)) /\
  (let i := length (s_calls s) in
   exists cs s', run s (CallAdd o h :: cs) = Some s' /\ (forall c, c ∈ cs -> c = Go i now) /\
    s_table s' = Add o now h (s_table s) /\ s_calls s' !! i = Some (AddDone h)).
Proof. exact (conj (has_alone o now h s) (add_alone o now h s)). Qed.
Print Assumptions C25_calls_alone.

Definition dflt : opts := {| keep := 0; updateOnAccess := true |}.
Definition hour : opts := {| keep := 3600 * 1000000000; updateOnAccess := true |}.
Definition secs (n : Z) : time := n * 1000000000.

(** Two processes interleave; one crashes in the middle of an Add; an eviction happens. *)
Definition c25_sched : list choice :=
  [CallAdd hour "a"; CallAdd dflt "b"; Go 0 (secs 10); Go 1 (secs 11); Go 1 0; Go 0 0; Crash;
   CallHas hour "b"; Go 0 (secs 4000); Go 0 0; CallHas hour "c"; Go 1 (secs 4000); Go 1 0;
   CallAdd hour "c"; Go 2 (secs 4000); Go 2 0; Go 2 0].
Example C25_case :
  exists s, run init c25_sched = Some s /\ s_table s = [("b", 4000); ("c", 4000)] /\
    s_log s = [EvAdd "b" (secs 11); EvAdd "a" (secs 10); EvHas "b" (Some (secs 4000)) true;
               EvHas "c" (Some (secs 4000)) false; EvAdd "c" (secs 4000); EvDelete (secs 3600) (secs 4000)].
Proof. eexists. split; [vm_compute; reflexivity|]. split; vm_compute; reflexivity. Qed.

(** ** C26.  An entry disappears only through the eviction of an Add with a Keep option, more
    than the keep period after the entry's (recorded) last access; in any interleaving, with
    crashes at any point. *)
Theorem C26_evicts_only_old s c s' h t :
  reachable s -> step s c = Some s' ->
  holds h t (s_log s) -> (forall t', ~ holds h t' (s_log s')) ->
  exists k now, s_log s' = s_log s ++ [EvDelete k now] /\ 0 < k /\ k < now - t.
Proof. exact (evict_lem s c s' h t). Qed.
Print Assumptions C26_evicts_only_old.

(** Right after an eviction, nothing remains that is older than the keep period by a second
    or more. *)
Theorem C26_evicts_all_old l k now h t :
  holds h t (l ++ [EvDelete k now]) -> now - t < k + 1000000000.
Proof. exact (evict_all_lem l k now h t). Qed.
Print Assumptions C26_evicts_all_old.

(** Without Keep nothing is ever evicted by Add; with it, an Add by itself spares its own
    hash (C25_add_then_has) and every entry of the others that is recent enough. *)
Theorem C26_add_keeps_others o now h tb h' s : h' <> h ->
  ((h', s) ∈ Add o now h tb <-> (h', s) ∈ tb /\ ~ (0 < keep o /\ s < unix (now - keep o))).
Proof. exact (add_other_lem o now h tb h' s). Qed.
Print Assumptions C26_add_keeps_others.

(** The recorded last access is not always the latest one: with one clock that never goes
    back, a call delayed between reading the clock and its statement (from another goroutine
    or process) can move it backwards, and an entry used less than the keep period ago is
    evicted. *)
Definition c26_sched : list choice :=
  [CallAdd dflt "a"; Go 0 (secs 0); Go 0 (secs 0);
   CallHas hour "a"; Go 1 (secs 10);                          (* reads the clock, is delayed *)
   CallHas hour "a"; Go 2 (secs 4000); Go 2 (secs 4000);      (* a is used at 4000 *)
   Go 1 (secs 4001);                                          (* overwrites with 10 *)
   CallAdd hour "b"; Go 3 (secs 4002); Go 3 (secs 4002); Go 3 (secs 4002)].
Theorem C26_recently_used_evicted_refuted :
  exists cs s t now, clock_from 0 cs /\ run init cs = Some s /\
    EvHas "a" (Some t) true ∈ s_log s /\ EvDelete (keep hour) now ∈ s_log s /\
    now - t < keep hour /\ (forall secs, ("a", secs) ∉ s_table s).
Proof.
  exists c26_sched. eexists. exists (secs 4000), (secs 4002).
  split; [vm_compute; intuition discriminate|]. split; [vm_compute; reflexivity|].
  split; [apply elem_of_list_In; vm_compute; auto 10|]. split; [apply elem_of_list_In; vm_compute; auto 10|].
  split; [vm_compute; reflexivity|]. intros sec Hin. apply elem_of_list_In in Hin.
  vm_compute in Hin. destruct Hin as [Hin|[]]. discriminate Hin.
Qed.
Print Assumptions C26_recently_used_evicted_refuted.

Example C26_case :
  exists s s', run init (take 16 c25_sched) = Some s /\ step s (Go 2 0) = Some s' /\
    last_access "a" (secs 10) (s_log s) /\ ("a", 10) ∈ s_table s /\ (forall x, ("a", x) ∉ s_table s').
Proof.
  eexists _, _. split; [vm_compute; reflexivity|]. split; [vm_compute; reflexivity|]. split; [|split].
  - exists [EvAdd "b" (secs 11)], (EvAdd "a" (secs 10)), [EvHas "b" (Some (secs 4000)) true; EvHas "c" (Some (secs 4000)) false; EvAdd "c" (secs 4000)].
    split; [vm_compute; reflexivity|]. split; [by left|].
    intros ev t Hin [->| ->]; apply elem_of_list_In in Hin; vm_compute in Hin; intuition congruence.
  - apply elem_of_list_In. vm_compute. auto.
  - intros x Hin. apply elem_of_list_In in Hin. vm_compute in Hin. intuition discriminate.
Qed.
