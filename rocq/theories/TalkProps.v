(** C95: progress messages of goroutines that print at the same time. *)
From stdpp Require Import base gmap list strings.
From Verif Require Import IndentModel TalkModel TalkSpec TalkProofs.
Local Open Scope list_scope.

(** Whatever the schedule, standard output consists of whole pieces: the indentation of a message,
    or the message with one newline at its end; and the pieces of each goroutine are those of its
    messages, in order, each indented by a depth the controller had during the run. *)
Theorem C95_pieces s0 acts s : quiet s0 -> texec s0 acts = Some s ->
  exists ps, sc_out s = concat (bytes <$> ps) /\
    forall g, sc_procs s !! g = None -> exists ds, length ds = length (called g acts) /\ Forall (had_depth s0 acts) ds /\
      filter (fun p => writer_of p = g) ps = concat (pieces g <$> zip ds (called g acts)).
Proof.
  intros H0 Hx. destruct (told_all s0 acts s H0 Hx) as (ps & Ho & Hg). exists ps. split; [done|]. intros g Hn.
  destruct (Hg g) as (dms & rest & K1 & K2 & K3 & K4). rewrite Hn in K1, K4. simpl in K1, K4. subst rest. rewrite app_nil_r in K1, K3.
  exists dms.*1. rewrite K1, !fmap_length, zip_fst_snd. by split.
Qed.
Print Assumptions C95_pieces.

(** If no two goroutines print at the same time, the output is the messages in order, each whole and
    indented by a depth of the controller. *)
Theorem C95_in_turn_partial s0 acts s : quiet s0 -> in_turn s0 acts -> texec s0 acts = Some s -> sc_procs s = ∅ ->
  exists ds, length ds = length (all_called acts) /\ Forall (had_depth s0 acts) ds /\ sc_out s = concat (whole <$> zip ds (all_called acts)).
Proof.
  intros H0 Ht Hx He. destruct (turn_all s0 acts s H0 Ht Hx) as (dms & rest & K1 & K2 & K3).
  destruct K3 as [(_ & -> & K4)|(g' & m' & [(K3 & _)|(d & _ & _ & [(K3 & _)|(K3 & _)])])]; [|by rewrite He in K3; symmetry in K3; apply map_non_empty_singleton in K3..].
  rewrite app_nil_r in K1. exists dms.*1. rewrite K1, !fmap_length, zip_fst_snd. by split.
Qed.
Print Assumptions C95_in_turn_partial.

(** Outside of Run (depth 0) the output is whole lines, one for each message. *)
Theorem C95_depth_0_partial s0 acts s : quiet s0 -> sc_depth s0 = 0 -> TInc ∉ acts -> texec s0 acts = Some s -> sc_procs s = ∅ ->
  exists ms, ms ≡ₚ all_called acts /\ sc_out s = concat (line <$> ms).
Proof.
  intros H0 Hd Hi Hx He. destruct (flat_all s0 acts s H0 Hd Hi Hx) as (_ & _ & ms & K1 & K2). exists ms. split; [|done].
  rewrite K1, He. unfold waiting. rewrite map_to_list_empty. simpl. by rewrite app_nil_r.
Qed.
Print Assumptions C95_depth_0_partial.

(** In Run it is false: indentation and text are two writes, and those of another goroutine can come
    in between.  Any two messages, any depth above 0: the first line has the indentation of both, the
    second has none. *)
Theorem C95_lines_refuted d (A B : message) :
  exists acts s, texec {| sc_depth := S d; sc_out := []; sc_procs := ∅ |} acts = Some s /\ all_called acts = [A; B] /\ TInc ∉ acts /\ TDec ∉ acts /\
    sc_procs s = ∅ /\ sc_out s = concat (replicate (S d + S d) [SP; SP]) ++ line A ++ line B.
Proof.
  exists [TCall 0 A; TCall 1 B; TStep 0; TStep 1; TStep 0; TStep 1; TStep 0; TStep 1].
  eexists. split; [|split; [reflexivity|split; [intros H; apply elem_of_list_In in H; simpl in H; intuition discriminate|split; [intros H; apply elem_of_list_In in H; simpl in H; intuition discriminate|]]]].
  - simpl. reflexivity.
  - simpl. split; [apply map_eq; intros [|[|i]]; reflexivity|]. rewrite !rendered_line. rewrite replicate_add, concat_app, <- !(assoc_L (++)). simpl. rewrite spaces_pad. done.
Qed.
Print Assumptions C95_lines_refuted.

(** A case: two goroutines in turn, at depths 1 and 2; and what the refutation prints for a and b at depth 1. *)
Definition msg (t : string) : message := {| m_text := String.list_ascii_of_string t; m_newline := false |}.
Definition ex_turn : list tact := [TInc; TCall 0 (msg "Running a"); TStep 0; TStep 0; TInc; TStep 0; TCall 1 (msg "Running b"); TStep 1; TStep 1; TStep 1; TDec; TDec].
Example C95_case : let s0 := {| sc_depth := 0; sc_out := []; sc_procs := ∅ |} in quiet s0 /\ in_turn s0 ex_turn /\
  exists s, texec s0 ex_turn = Some s /\ sc_procs s = ∅ /\ sc_out s = String.list_ascii_of_string "  Running a" ++ [LF] ++ String.list_ascii_of_string "    Running b" ++ [LF].
Proof.
  intros s0. split; [done|]. split; [|eexists; split; [reflexivity|split; [apply map_eq; intros [|[|i]]; reflexivity|reflexivity]]].
  intros p g m q s E Hp. unfold ex_turn in E.
  do 12 (destruct p as [|a p]; [injection E as E1 E2; try discriminate E1; injection Hp as <-; apply map_eq; intros [|[|i]]; reflexivity|injection E as <- E]).
  destruct p; discriminate E.
Qed.
