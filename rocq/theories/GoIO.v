(** * Results, and reading from a connection through bufio.

    A reader is a function of all the bytes that will arrive before the connection fails, ends or
    its deadline passes; it returns the bytes it left unread. GoBufio.v shows that this is what
    bufio.Reader computes for every way the network cuts the stream. *)
From Verif Require Import GoBytes GoNum.
Local Open Scope Z_scope.

Inductive err :=
| ENotFound               (* errors/errors.go:9  ItemNotFound *)
| EExists                 (* errors/errors.go:10 ItemExists *)
| EMsg (m : bytes)        (* errors.New / fmt.Errorf with this text *)
| EParse                  (* an error of strconv or fmt.Fscanf *)
| EIO                     (* EOF, reset, deadline: bytes ran out *)
| EBufFull                (* bufio.ErrBufferFull: no newline in the first 4096 bytes *)
| EClosed.                (* the net package's "use of closed network connection" *)

(** The two *MemcachedError values; proxy/replica_pool.go:25,40 tests for that type. *)
Definition is_memcached_error (e : err) : bool :=
  match e with ENotFound | EExists => true | _ => false end.

Inductive outcome (A : Type) :=
| Ok (a : A)
| Err (e : err)
| Panic.                  (* a Go run-time panic: index, slice bounds, nil, make *)
Arguments Ok {A} _.
Arguments Err {A} _.
Arguments Panic {A}.

Definition reader (A : Type) := bytes -> outcome A * bytes.

Definition ret {A} (a : A) : reader A := fun s => (Ok a, s).
Definition fail {A} (e : err) : reader A := fun s => (Err e, s).
Definition panic {A} : reader A := fun s => (Panic, s).
Definition bind {A C} (m : reader A) (f : A -> reader C) : reader C :=
  fun s => match m s with
           | (Ok a, s') => f a s'
           | (Err e, s') => (Err e, s')
           | (Panic, s') => (Panic, s')
           end.
Notation "x <- m ;; f" := (bind m (fun x => f)) (at level 61, m at next level, right associativity).

(** A strconv or Fscanf result: [None] is an error return. *)
Definition lift_opt {A} (o : option A) : reader A :=
  match o with Some a => ret a | None => fail EParse end.

(** Position of the first newline: the line including it, and the rest. *)
Fixpoint find_line (s : bytes) : option (bytes * bytes) :=
  match s with
  | [] => None
  | c :: s' => if Ascii.eqb c LF then Some ([c], s')
               else match find_line s' with
                    | Some (l, r) => Some (c :: l, r)
                    | None => None
                    end
  end.

(** bufio's default buffer size (bufio.NewReader in client/server.go:151, server/server.go:74). *)
Definition buf_size : Z := 4096.

(** bufio.Reader.ReadSlice('\n') (all reply lines in client/server.go). It fails with
    ErrBufferFull, consuming the full buffer, when the newline is not within the first 4096 bytes;
    when the input ends first it consumes everything and returns the read error. *)
Definition read_slice : reader bytes := fun s =>
  match find_line s with
  | Some (l, r) => if zlen l <=? buf_size then (Ok l, r)
                   else (Err EBufFull, skipn (Z.to_nat buf_size) s)
  | None => if buf_size <=? zlen s then (Err EBufFull, skipn (Z.to_nat buf_size) s)
            else (Err EIO, [])
  end.

(** bufio.Reader.ReadBytes('\n') (server/server.go:117): no length limit. *)
Definition read_bytes : reader bytes := fun s =>
  match find_line s with
  | Some (l, r) => (Ok l, r)
  | None => (Err EIO, [])
  end.

(** io.ReadFull into a buffer of n bytes, n >= 0. *)
Definition read_full (n : Z) : reader bytes := fun s =>
  if n <=? zlen s then (Ok (firstn (Z.to_nat n) s), skipn (Z.to_nat n) s)
  else (Err EIO, []).

(** Go's make([]byte, n): panics when n is negative or exceeds the largest possible allocation
    (2^48 bytes on linux/amd64). Exhausting physical memory below that limit is not modelled. *)
Definition max_alloc : Z := 2 ^ 48.
Definition go_make (n : Z) : reader unit :=
  if (n <? 0) || (max_alloc <? n) then panic else ret tt.

(** buf := make([]byte, n); io.ReadFull(r, buf). *)
Definition make_read_full (n : Z) : reader bytes :=
  _ <- go_make n ;; read_full n.

(** b[lo:hi] on a slice whose capacity equals its length. *)
Definition go_slice (b : bytes) (lo hi : Z) : outcome bytes :=
  if (0 <=? lo) && (lo <=? hi) && (hi <=? zlen b)
  then Ok (firstn (Z.to_nat (hi - lo)) (skipn (Z.to_nat lo) b))
  else Panic.
Definition go_sub (b : bytes) (lo hi : Z) : reader bytes := fun s => (go_slice b lo hi, s).

(** s[i] on a slice of strings. *)
Definition go_index {A} (l : list A) (i : nat) : reader A :=
  match nth_error l i with Some a => ret a | None => panic end.
