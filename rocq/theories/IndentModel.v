(** Model of IndentingCopier (runner.go:146-221) over a bufio.Writer, and of Indentf. *)
From stdpp Require Import base list strings.
From Coq Require Import Ascii.
Local Open Scope nat_scope.
Local Open Scope list_scope.

Definition byte := ascii.
Definition LF : byte := "010"%char.
Definition CR : byte := "013"%char.
Definition SP : byte := " "%char.

(** An underlying io.Writer: given what it accepted before and the bytes of this Write,
    how many it accepts and whether it reports an error. *)
Definition writer := list byte -> list byte -> nat * bool.

(** bufio.Writer: bytes passed on, bytes buffered, sticky error. *)
Record bw := { bw_sent : list byte; bw_buf : list byte; bw_err : bool }.

(** bufio.Writer.Flush.  A short count without an error becomes io.ErrShortWrite. *)
Definition flush (w : writer) (b : bw) : bw :=
  if bw_err b then b else
  if decide (bw_buf b = []) then b else
  let '(n, e) := w (bw_sent b) (bw_buf b) in
  let n := Nat.min n (length (bw_buf b)) in
  {| bw_sent := bw_sent b ++ take n (bw_buf b);
     bw_buf := drop n (bw_buf b);
     bw_err := e || (n <? length (bw_buf b)) |}.

(** bufio.Writer.WriteByte, with buffer size [cap] (4096 for bufio.NewWriter); reports
    success. *)
Definition write_byte (cap : nat) (w : writer) (c : byte) (b : bw) : bw * bool :=
  if bw_err b then (b, false) else
  let b := if cap <=? length (bw_buf b) then flush w b else b in
  if bw_err b then (b, false) else
  ({| bw_sent := bw_sent b; bw_buf := bw_buf b ++ [c]; bw_err := false |}, true).

(** bufio.Writer.WriteString.  Simplification: as a sequence of WriteByte; the library may
    instead pass a string longer than the buffer directly to the underlying writer in one
    piece, which sends the same bytes. *)
Fixpoint write_string (cap : nat) (w : writer) (s : list byte) (b : bw) : bw * bool :=
  match s with
  | [] => (b, negb (bw_err b))
  | c :: s =>
      let '(b, ok) := write_byte cap w c b in
      if ok then write_string cap w s b else (b, false)
  end.

(** runner.go:166-170 *)
Record copier := { c_w : bw; c_indent : list byte; c_bol : bool; c_sawcr : bool }.

(** strings.Repeat("  ", depth) *)
Fixpoint spaces (depth : nat) : list byte :=
  match depth with O => [] | S d => SP :: SP :: spaces d end.

(** runner.go:154-164; the depth is never negative (theorem C11). *)
Definition IndentingCopier (depth : nat) (prefix : list byte) : copier :=
  {| c_w := {| bw_sent := []; bw_buf := []; bw_err := false |};
     c_indent := spaces depth ++ prefix; c_bol := true; c_sawcr := false |}.

Definition set_w (b : bw) (c : copier) : copier :=
  {| c_w := b; c_indent := c_indent c; c_bol := c_bol c; c_sawcr := c_sawcr c |}.
Definition set_bol (v : bool) (c : copier) : copier :=
  {| c_w := c_w c; c_indent := c_indent c; c_bol := v; c_sawcr := c_sawcr c |}.
Definition set_sawcr (v : bool) (c : copier) : copier :=
  {| c_w := c_w c; c_indent := c_indent c; c_bol := c_bol c; c_sawcr := v |}.

(** runner.go:214-221 *)
Definition newline (cap : nat) (w : writer) (c : copier) : copier * bool :=
  let '(b, ok) := write_byte cap w LF (c_w c) in
  let c := set_w b c in
  if ok then (set_sawcr false (set_bol true c), true) else (c, false).

(** One iteration of the loop, runner.go:175-208; [false]: returned early with an error. *)
Definition copy_byte (cap : nat) (w : writer) (b : byte) (c : copier) : copier * bool :=
  if decide (b = LF) then newline cap w c                              (* 177-180 *)
  else if decide (b = CR) then                                         (* 182-188 *)
    let '(c, ok) := if c_sawcr c then newline cap w c else (c, true) in
    if ok then (set_sawcr true c, true) else (c, false)
  else                                                                 (* 190-206 *)
    let '(c, ok) := if c_sawcr c then newline cap w c else (c, true) in
    if ok then
      let '(c, ok) :=
        if c_bol c then
          let '(bw, ok) := write_string cap w (c_indent c) (c_w c) in (set_w bw c, ok)
        else (c, true) in
      if ok then
        let c := set_bol false c in
        let '(bw, ok) := write_byte cap w b (c_w c) in (set_w bw c, ok)
      else (c, false)
    else (c, false).

Fixpoint copy_loop (cap : nat) (w : writer) (buf : list byte) (n : nat) (c : copier) : copier * nat * bool :=
  match buf with
  | [] =>                                                              (* 210-211 *)
      let b := flush w (c_w c) in (set_w b c, n, negb (bw_err b))
  | b :: buf =>
      let '(c, ok) := copy_byte cap w b c in
      if ok then copy_loop cap w buf (S n) c else (c, n, false)
  end.

(** runner.go:172-212: the new state, the count and whether the error is nil. *)
Definition Write (cap : nat) (w : writer) (buf : list byte) (c : copier) : copier * nat * bool :=
  copy_loop cap w buf 0 c.

(** A client writes [chunks] in order; the results of the calls are collected. *)
Fixpoint writes (cap : nat) (w : writer) (chunks : list (list byte)) (c : copier) : copier * list (nat * bool) :=
  match chunks with
  | [] => (c, [])
  | ch :: chunks =>
      let '(c, n, ok) := Write cap w ch c in
      let '(c, rs) := writes cap w chunks c in
      (c, (n, ok) :: rs)
  end.

(** Bytes that reached the underlying writer. *)
Definition output (c : copier) : list byte := bw_sent (c_w c).
