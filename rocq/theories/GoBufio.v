(** * bufio.Reader and io.ReadFull over a connection that delivers its bytes in pieces.

    These model Go's standard library (bufio/bufio.go and io/io.go, Go 1.16) as far as /repo calls
    it: bufio.NewReader (client/server.go:151, 194, 666, 697, 1171, 1208; server/server.go:74),
    ReadSlice (client/server.go:217 and every reply line), ReadBytes (server/server.go:117), Peek
    (server/server.go:80) and io.ReadFull on a bufio.Reader (client/server.go:244, server/server.go:154
    and others). GoIO.v's readers see one byte string; here the same reads see segments. *)
From Verif Require Import GoBytes GoNum GoIO.
Local Open Scope Z_scope.

(** What successive Read calls on a net.Conn meet: a segment of bytes, or the deadline passing
    before any byte came. After the list the connection has failed for good. *)
Inductive arrival := Seg (b : bytes) | Stall.

(** net.Conn.Read into a buffer of n > 0 bytes: at most n bytes of the first segment, at least one;
    [None] is an error return. An empty segment is not an event (Read blocks until a byte arrives). *)
Fixpoint net_read (n : Z) (a : list arrival) : option bytes * list arrival :=
  match a with
  | [] => (None, [])
  | Stall :: a' => (None, a')
  | Seg [] :: a' => net_read n a'
  | Seg b :: a' => if zlen b <=? n then (Some b, a')
                   else (Some (firstn (Z.to_nat n) b), Seg (skipn (Z.to_nat n) b) :: a')
  end.

(** bufio.Reader: the buffered bytes b.buf[b.r:b.w], the pending error b.err, the connection. The
    position b.r of the bytes in the 4096-byte array is not modelled: fill first slides them down. *)
Record breader := mkBR { br_buf : bytes; br_err : bool; br_net : list arrival }.
Definition new_breader (a : list arrival) : breader := mkBR [] false a.

(** Reader.fill, called only when the buffer is not full: one read behind the buffered bytes. *)
Definition br_fill (b : breader) : breader :=
  match net_read (buf_size - zlen (br_buf b)) (br_net b) with
  | (Some d, a) => mkBR (br_buf b ++ d) (br_err b) a
  | (None, a) => mkBR (br_buf b) true a
  end.

(** How often a loop around a read can go round: every round takes a byte, a segment or an error. *)
Fixpoint net_size (a : list arrival) : nat :=
  match a with
  | [] => 1
  | Stall :: a' => S (net_size a')
  | Seg b :: a' => (S (length b) + net_size a')%nat
  end.

(** Reader.ReadSlice('\n'): the loop. The result is the returned slice and the error; a slice is
    also returned with an error. [None] is running out of fuel, which never happens. *)
Fixpoint br_slice_loop (fuel : nat) (b : breader) : option (bytes * option err * breader) :=
  match fuel with
  | O => None
  | S f =>
      match find_line (br_buf b) with
      | Some (l, r) => Some (l, None, mkBR r (br_err b) (br_net b))
      | None =>
          if br_err b then Some (br_buf b, Some EIO, mkBR [] false (br_net b))
          else if buf_size <=? zlen (br_buf b) then Some (br_buf b, Some EBufFull, mkBR [] false (br_net b))
          else br_slice_loop f (br_fill b)
      end
  end.
(** Callers look at the slice only when the error is nil. *)
Definition checked (b : breader) (r : option (bytes * option err * breader)) : outcome bytes * breader :=
  match r with
  | Some (l, None, b') => (Ok l, b')
  | Some (_, Some e, b') => (Err e, b')
  | None => (Panic, b)          (* unreachable: br_slice_spec, br_bytes_spec, br_full_spec *)
  end.
Definition br_slice (b : breader) : outcome bytes * breader :=
  checked b (br_slice_loop (S (S (net_size (br_net b)))) b).

(** Reader.ReadBytes('\n') with collectFragments: the slices of full buffers are collected until
    ReadSlice finds the newline or fails otherwise. *)
Fixpoint br_bytes_loop (fuel : nat) (acc : bytes) (b : breader) : option (bytes * option err * breader) :=
  match fuel with
  | O => None
  | S f =>
      match br_slice_loop (S (S (net_size (br_net b)))) b with
      | Some (d, Some EBufFull, b') => br_bytes_loop f (acc ++ d) b'
      | Some (d, e, b') => Some (acc ++ d, e, b')
      | None => None
      end
  end.
Definition br_bytes (b : breader) : outcome bytes * breader :=
  checked b (br_bytes_loop (length (br_buf b) + net_size (br_net b)) [] b).

(** Reader.Read into n > 0 bytes; [None] is an error return. A large read bypasses an empty buffer. *)
Definition br_read (n : Z) (b : breader) : option bytes * breader :=
  match br_buf b with
  | [] =>
      if br_err b then (None, mkBR [] false (br_net b))
      else if buf_size <=? n then
        let '(d, a) := net_read n (br_net b) in (d, mkBR [] false a)
      else
        match net_read buf_size (br_net b) with
        | (Some d, a) => (Some (firstn (Z.to_nat n) d), mkBR (skipn (Z.to_nat n) d) false a)
        | (None, a) => (None, mkBR [] false a)
        end
  | _ => (Some (firstn (Z.to_nat n) (br_buf b)), mkBR (skipn (Z.to_nat n) (br_buf b)) (br_err b) (br_net b))
  end.

(** io.ReadFull = io.ReadAtLeast(r, buf, len(buf)): read until n bytes are there. *)
Fixpoint br_full_loop (fuel : nat) (n : Z) (acc : bytes) (b : breader) : option (bytes * option err * breader) :=
  if n <=? 0 then Some (acc, None, b)
  else
    match fuel with
    | O => None
    | S f =>
        match br_read n b with
        | (Some d, b') => br_full_loop f (n - zlen d) (acc ++ d) b'
        | (None, b') => Some (acc, Some EIO, b')
        end
    end.
Definition br_full (n : Z) (b : breader) : outcome bytes * breader :=
  checked b (br_full_loop (S (length (br_buf b) + net_size (br_net b))) n [] b).

(** Reader.Peek(1): fill until a byte is buffered; nothing is consumed. *)
Definition br_peek (b : breader) : outcome ascii * breader :=
  match br_buf b with
  | c :: _ => (Ok c, b)
  | [] =>
      let b1 := if br_err b then b else br_fill b in
      match br_buf b1 with
      | c :: _ => (Ok c, b1)
      | [] => (Err EIO, mkBR [] false (br_net b1))
      end
  end.

(** ** The reading code as programs over these reads *)

(** The reads /repo performs on a connection. *)
Inductive rprim :=
| RSlice                (* ReadSlice('\n') *)
| RBytes                (* ReadBytes('\n') *)
| RFull (n : Z).        (* io.ReadFull into n bytes *)

(** A program either ends with a result or reads and continues with the bytes. Every read in /repo
    is followed by [if err != nil { return ..., err }], so a read error ends the program. *)
Inductive rprog (A : Type) :=
| PRet (o : outcome A)
| PRead (r : rprim) (k : bytes -> rprog A).
Arguments PRet {A} _.
Arguments PRead {A} _ _.

Definition prim_stream (r : rprim) : reader bytes :=
  match r with RSlice => read_slice | RBytes => read_bytes | RFull n => read_full n end.
Definition prim_bufio (r : rprim) : breader -> outcome bytes * breader :=
  match r with RSlice => br_slice | RBytes => br_bytes | RFull n => br_full n end.

(** The program on one byte string (as in GoIO.v) and on a bufio.Reader. *)
Fixpoint run_stream {A} (p : rprog A) (s : bytes) : outcome A * bytes :=
  match p with
  | PRet o => (o, s)
  | PRead r k => match prim_stream r s with
                 | (Ok b, s') => run_stream (k b) s'
                 | (Err e, s') => (Err e, s')
                 | (Panic, s') => (Panic, s')
                 end
  end.
Fixpoint run_bufio {A} (p : rprog A) (b : breader) : outcome A * breader :=
  match p with
  | PRet o => (o, b)
  | PRead r k => match prim_bufio r b with
                 | (Ok d, b') => run_bufio (k d) b'
                 | (Err e, b') => (Err e, b')
                 | (Panic, b') => (Panic, b')
                 end
  end.

(** All bytes not yet returned to the program: buffered, or still to arrive. *)
Fixpoint in_flight (a : list arrival) : bytes :=
  match a with [] => [] | Seg b :: a' => b ++ in_flight a' | Stall :: a' => in_flight a' end.
Definition unread (b : breader) : bytes := br_buf b ++ in_flight (br_net b).
