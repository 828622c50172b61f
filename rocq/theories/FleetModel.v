(** Model of Main.getDriver (main.go) run by any number of fab processes at the same time, in one
    project and with one fab directory.  The steps are those of DriverModel.v; the difference is
    that other processes may act between any two steps of one. *)
From stdpp Require Import base gmap list strings.
From Verif Require Import DriverModel.
Local Open Scope list_scope.

(** The project and the processes that are in getDriver, by process id. *)
Record fleet := { c_src : option sources; c_disk : disk; c_procs : gmap nat proc }.
Inductive cact :=
  | CEdit (s : option sources)                    (* the user changes _fab, or removes it *)
  | CRemove (f : file)                            (* somebody deletes a file of driverdir *)
  | CStart (id : nat) (fab : fabinfo) (force : bool)
  | CStep (id : nat) (lost : bool)                (* [lost]: what is written goes to a file that has since been removed *)
  | CDie (id : nat) (torn : nat).                 (* the process fails or is killed; of what it was writing, [torn] bytes are written *)

(** What is in an open file after [new] is written at its start (nothing truncates it). *)
Definition overlay (new old : string) : string :=
  new +:+ substring (String.length new) (String.length old - String.length new) old.

(** main.go:287 and 290-300, the write after the file was opened with O_TRUNC: others may have
    written in between, or removed the file (then it is not there afterwards either). *)
Definition write_hash (new : string) (d : disk) : disk := with_hash (overlay new <$> d_hash d) d.
Definition write_ver (new : string) (d : disk) : disk := with_ver (overlay new <$> d_ver d) d.
(** main.go:214-302, one step. *)
Definition co_step (T : tools) (p : proc) (lost : bool) (src : option sources) (d : disk) : option (disk * pc * list event) :=
  match p_pc p with
  | PWriteHash new info => Some (if lost then d else write_hash new d, match info with Some i => PTruncVer i | None => PReturn end, [])
  | PWriteVer i => Some (if lost then d else write_ver (t_enc T i) d, PReturn, [])
  | _ => proc_step T p src d
  end.

(** Events carry the process id. *)
Definition cstep (T : tools) (s : fleet) (a : cact) : option (fleet * list (nat * event)) :=
  match a with
  | CEdit src => Some ({| c_src := src; c_disk := c_disk s; c_procs := c_procs s |}, [])
  | CRemove f =>
      let d := c_disk s in
      Some ({| c_src := c_src s; c_disk := match f with FBin => with_bin None d | FHash => with_hash None d | FVer => with_ver None d end; c_procs := c_procs s |}, [])
  | CStart id fab force =>
      match c_procs s !! id with
      | Some _ => None
      | None => Some ({| c_src := c_src s; c_disk := c_disk s; c_procs := <[id := {| p_fab := fab; p_force := force; p_pc := PStat |}]> (c_procs s) |}, [])
      end
  | CStep id lost =>
      match c_procs s !! id with
      | None => None
      | Some p =>
          match p_pc p with
          | PReturn => Some ({| c_src := c_src s; c_disk := c_disk s; c_procs := delete id (c_procs s) |}, [(id, EvDriver (d_bin (c_disk s)))])
          | _ =>
              match co_step T p lost (c_src s) (c_disk s) with
              | None => Some ({| c_src := c_src s; c_disk := c_disk s; c_procs := delete id (c_procs s) |}, [(id, EvNoDriver)])
              | Some (d, pc, evs) =>
                  Some ({| c_src := c_src s; c_disk := d; c_procs := <[id := {| p_fab := p_fab p; p_force := p_force p; p_pc := pc |}]> (c_procs s) |}, pair id <$> evs)
              end
          end
      end
  | CDie id torn =>
      match c_procs s !! id with
      | None => None
      | Some p =>
          let d := match p_pc p with
                   | PWriteHash new _ => write_hash (substring 0 torn new) (c_disk s)
                   | PWriteVer i => write_ver (substring 0 torn (t_enc T i)) (c_disk s)
                   | _ => c_disk s
                   end in
          Some ({| c_src := c_src s; c_disk := d; c_procs := delete id (c_procs s) |}, [(id, EvDied)])
      end
  end.
Fixpoint cexec (T : tools) (s : fleet) (acts : list cact) : option (fleet * list (nat * event)) :=
  match acts with
  | [] => Some (s, [])
  | a :: acts =>
      match cstep T s a with
      | None => None
      | Some (s, evs) => match cexec T s acts with None => None | Some (s', evs') => Some (s', evs ++ evs') end
      end
  end.
