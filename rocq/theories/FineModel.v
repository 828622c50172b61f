(** Controller.Run (runner.go:20-120) and gate.go at the granularity of single accesses to shared
    memory and single operations on mutexes and the wait group: between any two of them every
    other goroutine may act.

    Simplifications: one iteration of the loop, lines 65-84 (targetAddr, resolution of a name,
    wg.Add and the go statement), one call of another method of the controller, and the
    resolution of a name by a target body are one step each, which for names needs con.mu to be
    free; a goroutine that sleeps on the condition variable of a gate may wake at any time (Go:
    only after Broadcast; GateModel.v has the tickets); the message of line 104 is left out; a
    pointer to an outcome is represented by the key under which con.ran holds it (entries are
    never removed or replaced). *)
From stdpp Require Import base gmap list strings.
From Verif Require Import ContextModel RunnerModel.
Local Open Scope list_scope.

(** Who holds con.mu: a goroutine of line 84, or a call of Run (lines 20-33). *)
Inductive who := WGo (g : nat) | WCall (c : nat).

(** The goroutine of lines 84-114: the next thing it does. *)
Inductive gpc :=
  | PStart                      (* 87: con.mu.Lock() *)
  | PLocked                     (* 88: o, ok := con.ran[addr] *)
  | PAbsent                     (* 90-91: con.ran[addr] = o, a new outcome *)
  | PInserted                   (* 93: con.mu.Unlock(), with ok = false *)
  | PPresent                    (* 93: con.mu.Unlock(), with ok = true *)
  | PWait                       (* gate.go:33: g.c.L.Lock() *)
  | PTest                       (* gate.go:34: reads g.open *)
  | PClosed                     (* gate.go:35: Wait unlocks *)
  | PAsleep                     (* gate.go:35: Wait sleeps, then locks *)
  | PWoken                      (* gate.go:37: g.c.L.Unlock() *)
  | PRead                       (* 99: reads o.err *)
  | PGot (e : option err)       (* 99: writes errs[i] *)
  | PRun                        (* 106: calls target.Run *)
  | PBody (p : prog)            (* 106: within target.Run *)
  | PCalling (c : nat) (k : option err -> prog)   (* 106: within a nested con.Run *)
  | PRet (e : option err)       (* 110: writes errs[i] *)
  | PErr (e : option err)       (* 111: writes o.err *)
  | PSet                        (* gate.go:23: g.c.L.Lock() *)
  | PSetL                       (* gate.go:24-28: opens the gate *)
  | PSetU                       (* gate.go:29: g.c.L.Unlock() *)
  | PExit                       (* 85: wg.Done() *)
  | PEnd.
Record fgor := { h_call : nat; h_idx : nat; h_key : addr; h_obj : obj; h_cx : ctx; h_pc : gpc }.

(** Run itself: the next thing it does. *)
Inductive cpc :=
  | QInc                        (* 21: con.mu.Lock() *)
  | QIncL                       (* 22: reads con.depth *)
  | QIncV (d : Z)               (* 22: writes con.depth *)
  | QIncU                       (* 23: con.mu.Unlock() *)
  | QLoop (i : nat) (todo : list tref)    (* 65 *)
  | QWait                       (* 117 *)
  | QJoin (acc : list (option err))       (* 119: reads errs[len(acc)] *)
  | QDec (e : option err)       (* 27: con.mu.Lock() *)
  | QDecL (e : option err)      (* 28: reads con.depth *)
  | QDecV (e : option err) (d : Z)        (* 28-31: writes con.depth *)
  | QDecU (e : option err)      (* 32: con.mu.Unlock() *)
  | QRet (e : option err)       (* returns *)
  | QDone (e : option err).
Record fcall := { k_parent : option nat; k_cx : ctx; k_targets : list tref; k_errs : list (option err); k_wg : nat; k_pc : cpc }.

(** runner.go:15-18, gate.go:8-11 *)
Record foutcome := { fo_err : option err; fo_open : bool; fo_lock : bool }.

Record fstate := {
  m_lock : option who;            (* con.mu *)
  m_ran : gmap addr foutcome;     (* con.ran *)
  m_depth : Z;                    (* con.depth *)
  m_reg : gmap string obj;        (* con.targetsByName *)
  m_cache : gmap obj obj;         (* the Target fields of name references *)
  m_calls : list fcall;
  m_gors : list fgor;
  m_log : list event;             (* what has happened, oldest first *)
}.
Definition finit : fstate :=
  {| m_lock := None; m_ran := ∅; m_depth := 0; m_reg := ∅; m_cache := ∅; m_calls := []; m_gors := []; m_log := [] |}.

Definition set_pc (p : gpc) (h : fgor) : fgor :=
  {| h_call := h_call h; h_idx := h_idx h; h_key := h_key h; h_obj := h_obj h; h_cx := h_cx h; h_pc := p |}.
Definition set_qc (p : cpc) (k : fcall) : fcall :=
  {| k_parent := k_parent k; k_cx := k_cx k; k_targets := k_targets k; k_errs := k_errs k; k_wg := k_wg k; k_pc := p |}.
Definition put_err (i : nat) (e : option err) (k : fcall) : fcall :=
  {| k_parent := k_parent k; k_cx := k_cx k; k_targets := k_targets k; k_errs := <[i:=e]> (k_errs k); k_wg := k_wg k; k_pc := k_pc k |}.
Definition put_wg (f : nat -> nat) (k : fcall) : fcall :=
  {| k_parent := k_parent k; k_cx := k_cx k; k_targets := k_targets k; k_errs := k_errs k; k_wg := f (k_wg k); k_pc := k_pc k |}.

Definition f_lock (l : option who) (f : fstate) : fstate :=
  {| m_lock := l; m_ran := m_ran f; m_depth := m_depth f; m_reg := m_reg f; m_cache := m_cache f; m_calls := m_calls f; m_gors := m_gors f; m_log := m_log f |}.
Definition f_ran (h : gmap addr foutcome -> gmap addr foutcome) (f : fstate) : fstate :=
  {| m_lock := m_lock f; m_ran := h (m_ran f); m_depth := m_depth f; m_reg := m_reg f; m_cache := m_cache f; m_calls := m_calls f; m_gors := m_gors f; m_log := m_log f |}.
Definition f_depth (d : Z) (f : fstate) : fstate :=
  {| m_lock := m_lock f; m_ran := m_ran f; m_depth := d; m_reg := m_reg f; m_cache := m_cache f; m_calls := m_calls f; m_gors := m_gors f; m_log := m_log f |}.
Definition f_reg (h : gmap string obj -> gmap string obj) (f : fstate) : fstate :=
  {| m_lock := m_lock f; m_ran := m_ran f; m_depth := m_depth f; m_reg := h (m_reg f); m_cache := m_cache f; m_calls := m_calls f; m_gors := m_gors f; m_log := m_log f |}.
Definition f_cache (h : gmap obj obj -> gmap obj obj) (f : fstate) : fstate :=
  {| m_lock := m_lock f; m_ran := m_ran f; m_depth := m_depth f; m_reg := m_reg f; m_cache := h (m_cache f); m_calls := m_calls f; m_gors := m_gors f; m_log := m_log f |}.
Definition f_calls (h : list fcall -> list fcall) (f : fstate) : fstate :=
  {| m_lock := m_lock f; m_ran := m_ran f; m_depth := m_depth f; m_reg := m_reg f; m_cache := m_cache f; m_calls := h (m_calls f); m_gors := m_gors f; m_log := m_log f |}.
Definition f_gors (h : list fgor -> list fgor) (f : fstate) : fstate :=
  {| m_lock := m_lock f; m_ran := m_ran f; m_depth := m_depth f; m_reg := m_reg f; m_cache := m_cache f; m_calls := m_calls f; m_gors := h (m_gors f); m_log := m_log f |}.
Definition f_emit (ev : event) (f : fstate) : fstate :=
  {| m_lock := m_lock f; m_ran := m_ran f; m_depth := m_depth f; m_reg := m_reg f; m_cache := m_cache f; m_calls := m_calls f; m_gors := m_gors f; m_log := m_log f ++ [ev] |}.
Definition goto (g : nat) (p : gpc) : fstate -> fstate := f_gors (alter (set_pc p) g).
Definition on_call (c : nat) (h : fcall -> fcall) : fstate -> fstate := f_calls (alter h c).
Definition cgoto (c : nat) (p : cpc) : fstate -> fstate := on_call c (set_qc p).
Definition on_outcome (a : addr) (h : foutcome -> foutcome) : fstate -> fstate := f_ran (alter h a).

(** Run is called: runner.go:52-56, 60-64 *)
Definition f_begin (parent : option nat) (cx : ctx) (ts : list tref) (f : fstate) : fstate :=
  f_calls (fun l => l ++ [{| k_parent := parent; k_cx := cx; k_targets := ts; k_errs := replicate (length ts) None; k_wg := 0;
                             k_pc := if decide (ts = []) then QRet None else QInc |}])
    (f_emit (EvCall (length (m_calls f)) parent cx ts) f).

(** yaml.go:100-113 *)
Definition f_resolve (w : world) (d : obj) (f : fstate) : gmap obj obj * (err + obj) :=
  match m_cache f !! d with
  | Some o => (m_cache f, inr o)
  | None =>
      match w_deferred w d with
      | None => (m_cache f, inr d)
      | Some name =>
          match m_reg f !! name with
          | None => (m_cache f, inl (EUnresolved name))
          | Some o => (<[d:=o]> (m_cache f), inr o)
          end
      end
  end.

(** runner.go:66-84 *)
Definition f_spawn (c i : nat) (a : addr) (o : obj) (cx : ctx) (f : fstate) : fstate :=
  f_gors (fun l => l ++ [{| h_call := c; h_idx := i; h_key := a; h_obj := o; h_cx := cx; h_pc := PStart |}])
    (on_call c (put_wg S) (f_emit (EvReq c i a o) f)).
Definition f_reject (c i : nat) (e : err) (f : fstate) : fstate :=
  on_call c (put_err i (Some e)) (f_emit (EvRej c i e) f).
Definition f_iter (w : world) (c i : nat) (t : tref) (cx : ctx) (f : fstate) : option fstate :=
  match t with
  | TNonPtr => Some (f_reject c i ENotPointer f)
  | TPtr o =>
      match w_deferred w o with
      | None => Some (f_spawn c i (w_addr w o) o cx f)
      | Some _ =>
          match m_lock f with
          | Some _ => None
          | None =>
              match f_resolve w o f with
              | (ca, inl e) => Some (f_reject c i e f)
              | (ca, inr o') => Some (f_spawn c i (w_addr w o) o' cx (f_cache (fun _ => ca) f))
              end
          end
      end
  end.

(** One step of call [c] of Run. *)
Definition f_call (w : world) (c : nat) (f : fstate) : option fstate :=
  k ← m_calls f !! c;
  match k_pc k with
  | QInc => match m_lock f with None => Some (cgoto c QIncL (f_lock (Some (WCall c)) f)) | Some _ => None end
  | QIncL => Some (cgoto c (QIncV (m_depth f)) f)
  | QIncV d => Some (cgoto c QIncU (f_depth (d + 1)%Z f))
  | QIncU => Some (cgoto c (QLoop 0 (k_targets k)) (f_lock None f))
  | QLoop i [] => Some (cgoto c QWait f)
  | QLoop i (t :: todo) => f_iter w c i t (k_cx k) (cgoto c (QLoop (S i) todo) f)
  | QWait => match k_wg k with 0 => Some (cgoto c (QJoin []) f) | S _ => None end
  | QJoin acc =>
      match k_errs k !! length acc with
      | Some e => Some (cgoto c (QJoin (acc ++ [e])) f)
      | None => Some (cgoto c (QDec (join acc)) f)
      end
  | QDec e => match m_lock f with None => Some (cgoto c (QDecL e) (f_lock (Some (WCall c)) f)) | Some _ => None end
  | QDecL e => Some (cgoto c (QDecV e (m_depth f)) f)
  | QDecV e d => Some (cgoto c (QDecU e) (f_depth (let d' := (d - 1)%Z in if (d' <? 0)%Z then 0%Z else d') f))
  | QDecU e => Some (cgoto c (QRet e) (f_lock None f))
  | QRet e =>
      let f' := cgoto c (QDone e) (f_emit (EvRet c (k_parent k) e) f) in
      match k_parent k with
      | None => Some f'
      | Some g =>
          h ← m_gors f !! g;
          match h_pc h with
          | PCalling c' kk => if decide (c' = c) then Some (goto g (PBody (kk e)) f') else None
          | _ => None
          end
      end
  | QDone _ => None
  end.

(** One step of goroutine [g]; [r] answers an Eff. *)
Definition f_go (w : world) (g r : nat) (f : fstate) : option fstate :=
  h ← m_gors f !! g;
  let a := h_key h in let c := h_call h in let i := h_idx h in
  match h_pc h with
  | PStart => match m_lock f with None => Some (goto g PLocked (f_lock (Some (WGo g)) f)) | Some _ => None end
  | PLocked => Some (goto g (if m_ran f !! a then PPresent else PAbsent) f)
  | PAbsent => Some (goto g PInserted (f_ran <[a := {| fo_err := None; fo_open := false; fo_lock := false |}]> f))
  | PInserted => Some (goto g PRun (f_lock None f))
  | PPresent => Some (goto g PWait (f_lock None f))
  | PWait | PAsleep =>
      o ← m_ran f !! a;
      if fo_lock o then None else Some (goto g PTest (on_outcome a (fun o => {| fo_err := fo_err o; fo_open := fo_open o; fo_lock := true |}) f))
  | PTest => o ← m_ran f !! a; Some (goto g (if fo_open o then PWoken else PClosed) f)
  | PClosed => Some (goto g PAsleep (on_outcome a (fun o => {| fo_err := fo_err o; fo_open := fo_open o; fo_lock := false |}) f))
  | PWoken => Some (goto g PRead (on_outcome a (fun o => {| fo_err := fo_err o; fo_open := fo_open o; fo_lock := false |}) f))
  | PRead => o ← m_ran f !! a; Some (goto g (PGot (fo_err o)) f)
  | PGot e => Some (goto g PExit (on_call c (put_err i e) f))
  | PRun => Some (goto g (PBody (body w (h_obj h) (h_cx h))) (f_emit (EvStart g a (h_obj h) (h_cx h)) f))
  | PBody (Ret e) => Some (goto g (PRet (wrap (h_obj h) e)) (f_emit (EvEnd g a (h_obj h) e) f))
  | PBody (Eff l k) => Some (goto g (PBody (k r)) (f_emit (EvEff g l r) f))
  | PBody (Resolve d k) =>
      match m_lock f with
      | Some _ => None
      | None => let '(ca, res) := f_resolve w d f in Some (goto g (PBody (k res)) (f_emit (EvResolve g d res) (f_cache (fun _ => ca) f)))
      end
  | PBody (Call cx ts k) => Some (goto g (PCalling (length (m_calls f)) k) (f_begin (Some g) cx ts f))
  | PCalling _ _ => None
  | PRet e => Some (goto g (PErr e) (on_call c (put_err i e) f))
  | PErr e => Some (goto g PSet (on_outcome a (fun o => {| fo_err := e; fo_open := fo_open o; fo_lock := fo_lock o |}) f))
  | PSet =>
      o ← m_ran f !! a;
      if fo_lock o then None else Some (goto g PSetL (on_outcome a (fun o => {| fo_err := fo_err o; fo_open := fo_open o; fo_lock := true |}) f))
  | PSetL => Some (goto g PSetU (on_outcome a (fun o => {| fo_err := fo_err o; fo_open := true; fo_lock := fo_lock o |}) f))
  | PSetU => Some (goto g PExit (on_outcome a (fun o => {| fo_err := fo_err o; fo_open := fo_open o; fo_lock := false |}) f))
  | PExit => Some (goto g PEnd (on_call c (put_wg pred) f))
  | PEnd => None
  end.

Inductive fchoice :=
  | FRun (cx : ctx) (ts : list tref)        (* a client calls con.Run *)
  | FRegister (name : string) (o : obj)     (* a client registers a target, register.go:21-24 *)
  | FCall (c : nat)                         (* call c takes a step *)
  | FGo (g r : nat).                        (* goroutine g takes a step *)
Definition fstep (w : world) (f : fstate) (ch : fchoice) : option fstate :=
  match ch with
  | FRun cx ts => Some (f_begin None cx ts f)
  | FRegister name o => match m_lock f with None => Some (f_reg <[name:=o]> (f_emit (EvRegister name o) f)) | Some _ => None end
  | FCall c => f_call w c f
  | FGo g r => f_go w g r f
  end.
Fixpoint frun (w : world) (f : fstate) (sched : list fchoice) : option fstate :=
  match sched with
  | [] => Some f
  | ch :: sched => f' ← fstep w f ch; frun w f' sched
  end.
