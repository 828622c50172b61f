(** Vocabulary for the properties of Files targets. *)
From stdpp Require Import base gmap list strings.
From Verif Require Import FileHashModel FileHashSpec FilesModel.
Local Open Scope list_scope.

(** The histories possible from the given files and an empty hash database. *)
Definition history hashf H R (fs0 : files_state) (tr : list event) : Prop :=
  exists chs s, exec hashf H R (init fs0) chs = Some s /\ st_log s = tr.

(** The files after the events [l]: those of the last edit.  (What commands do to files is
    also recorded as edits.) *)
Fixpoint files_after (fs0 : files_state) (l : list event) : files_state :=
  match l with
  | [] => fs0
  | LEdit fs :: l => files_after fs l
  | _ :: l => files_after fs0 l
  end.

(** [h] has been added to the database and not been evicted since. *)
Definition recorded (l : list event) (h : hash) : Prop :=
  exists l1 j ok l2, l = l1 ++ LAdd j h true ok :: l2 /\ LEvict h ∉ l2.

(** Nothing at or under the names differs. *)
Definition unchanged (fs1 fs2 : files_state) (items : list string) : Prop :=
  forall q, covered fs1 items q -> fs2 q = fs1 q.

(** The files covered by [items1] in [fs1] are those covered by [items2] in [fs2], with the
    same contents; and the same listed or found names are missing. *)
Definition same_files (fs1 : files_state) (items1 : list string) (fs2 : files_state) (items2 : list string) : Prop :=
  forall q e, (e = FMissing \/ exists c, e = FFile (Some c)) ->
    (covered fs1 items1 q /\ fs1 q = e) <-> (covered fs2 items2 q /\ fs2 q = e).

(** Two targets whose JSON description and type are the same. *)
Definition same_description (t1 t2 : tgt) : Prop :=
  type_string t1 = type_string t2 /\ enc t1 = enc t2.

(** Targets whose encoding shows everything that is encoded: no Seq or Deps, no F, no
    user-defined type, no nil. *)
Inductive transparent : tgt -> Prop :=
  | tr_cmd c : transparent (TCmd c)
  | tr_all ts : Forall transparent ts -> transparent (TAll ts)
  | tr_arg t args : transparent t -> transparent (TArg t args)
  | tr_files t ins outs : transparent t -> transparent (TFiles t ins outs)
  | tr_clean fs a : transparent (TClean fs a)
  | tr_deferred n t : transparent t -> transparent (TDeferred n (Some t)).

(** The events of run [i], in order. *)
Definition of_run (i : nat) (ev : event) : bool :=
  match ev with
  | LPrereqs j _ | LHash j _ _ _ _ | LHas j _ _ | LSubStart j | LSubEnd j _ | LAdd j _ _ _ | LRet j _ =>
      bool_decide (i = j)
  | LStart _ _ _ | LEdit _ | LEvict _ => false
  end.

(** The description of the rule and the contents of its files are the same. *)
Definition same_state (fs1 : files_state) (r1 : rule) (fs2 : files_state) (r2 : rule) : Prop :=
  same_description (r_tgt r1) (r_tgt r2) /\
  same_files fs1 (r_in r1) fs2 (r_in r2) /\ same_files fs1 (r_out r1) fs2 (r_out r2).

(** In history [l], the subtarget of run [j] succeeded; after that the files were [fs'] and
    the rule [r'] (the one [j] was started with, with references resolved); and this was
    recorded, as [h]. *)
Definition success_recorded R (fs0 : files_state) (l : list event) (j : nat) (fs' : files_state) (r' : rule) (h : hash) : Prop :=
  exists rj fl l1 l2 l3 ok,
    l = l1 ++ LHash j After fs' r' (HOk h) :: l2 ++ LAdd j h true ok :: l3 /\
    LStart j rj fl ∈ l1 /\ LSubEnd j None ∈ l1 /\ fs' = files_after fs0 l1 /\
    ran R (r_tgt rj) = Some (r_tgt r') /\ r_in r' = r_in rj /\ r_out r' = r_out rj.

(** Two complete runs, for concrete histories. *)
Definition normal : flags := {| fl_db := true; fl_force := false; fl_dry := false |}.
(** A run that finds nothing recorded, during which the files change from [fs] to [fs1] and
    then to [fs2]. *)
Definition building_run (k : nat) (r r' : rule) (fs fs1 fs2 : files_state) (h h' : hash) : list event :=
  [LStart k r normal; LPrereqs k None; LHash k Before fs r (HOk h); LHas k h (Some false); LSubStart k;
   LEdit fs1; LEdit fs2; LSubEnd k None; LHash k After fs2 r' (HOk h'); LAdd k h' true true; LRet k RNil].
Definition skipping_run (k : nat) (r : rule) (fs : files_state) (h : hash) : list event :=
  [LStart k r normal; LPrereqs k None; LHash k Before fs r (HOk h); LHas k h (Some true); LRet k RNil].
