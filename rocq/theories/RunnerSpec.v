(** Vocabulary for the properties of the runner: traces of observable events. *)
From stdpp Require Import base gmap list strings.
From Verif Require Import ContextModel RunnerModel.

(** The traces of a program: the events of all executions, of any length, under any
    schedule, with any client calls and registrations and any answers of the environment. *)
Definition trace (w : world) (tr : list event) : Prop :=
  exists sched s, run w init sched = Some s /\ s_log s = tr.

(** Different targets have different addresses (the normal case in Go for live values of
    non-zero size). *)
Definition addr_injective (w : world) : Prop :=
  forall o1 o2, w_addr w o1 = w_addr w o2 -> o1 = o2.

(** The calls to Run made by the body running in goroutine [g], oldest first. *)
Definition calls_by (g : nat) (tr : list event) : list (nat * list tref) :=
  omap (fun ev =>
    match ev with
    | EvCall c (Some g') _ ts => if decide (g' = g) then Some (c, ts) else None
    | _ => None
    end) tr.

(** Request [t] has been completed with no error, according to the events [tr]. *)
Definition succeeded (w : world) (t : tref) (tr : list event) : Prop :=
  exists o g o', t = TPtr o /\ EvEnd g (w_addr w o) o' None ∈ tr.

(** Target [t], the [i]th argument of call [c], has been completed with result [r]. *)
Definition completed (w : world) (c i : nat) (t : tref) (r : option err) (tr : list event) : Prop :=
  match t with
  | TNonPtr => r = Some ENotPointer /\ EvRej c i ENotPointer ∈ tr
  | TPtr o =>
      (* it ran (in this call or elsewhere) and returned [e]; [r] is that, wrapped *)
      (exists o1 g o2 e, EvReq c i (w_addr w o) o1 ∈ tr /\
         EvEnd g (w_addr w o) o2 e ∈ tr /\ r = wrap o2 e) \/
      (* or it is the name of no target *)
      (exists name, w_deferred w o = Some name /\ r = Some (EUnresolved name) /\
         EvRej c i (EUnresolved name) ∈ tr)
  end.

(** Number of calls to Run, with at least one target, that began and have not returned. *)
Definition returned_in (tr : list event) (c : nat) : bool :=
  existsb (fun ev => match ev with EvRet c' _ _ => bool_decide (c' = c) | _ => false end) tr.
Definition in_progress (tr : list event) : nat :=
  length (List.filter (fun ev => match ev with
                                 | EvCall c _ _ (_ :: _) => negb (returned_in tr c)
                                 | _ => false
                                 end) tr).

(** How often the body of [o] was started. *)
Definition times_run (o : obj) (tr : list event) : nat :=
  length (List.filter (fun ev => match ev with EvStart _ _ o' _ => bool_decide (o' = o) | _ => false end) tr).

(** The target value [d] stands for [o]: it is [o] itself, or a reference to a name under
    which [o] was registered. *)
Definition stands_for (w : world) (tr : list event) (d o : obj) : Prop :=
  (w_deferred w o = None /\ d = o) \/
  exists name, w_deferred w d = Some name /\ EvRegister name o ∈ tr.
