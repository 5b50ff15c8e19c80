(** * The life of a server object: operations, time-outs, failing connections, Close, Reconnect and
    the heartbeat.

    A server object over a connection to the conforming memcached. Operations go through the
    bufio.Writer and bufio.Reader of GoWriter.v and GoBufio.v. Concurrency is not part of this file:
    each operation holds s.mu (PropConc.v). *)
From Verif Require Import GoBytes GoNum GoIO GoBufio Item ClientText ClientMeta ClientBinary GoWriter Cache Daemon Spec Call Guard Transport.
Local Open Scope Z_scope.

(** The fields of ServerWithTextProtocol, client/server.go:119-130, and of the other two
    (634-645, 1136-1150), that change. *)
Record sobj := mkSobj {
  so_raw : option bool;      (* s.raw: nil, or a connection and whether it is open *)
  so_chan : bool;            (* s.closeCh != nil *)
  so_writer : bwriter;       (* s.conn.Writer *)
  so_reader : breader;       (* s.conn.Reader *)
  so_header : req_header     (* the pooled request header (binary only, see Call.v) *)
}.
(** The object and its peer: the daemon's cache, and what it has received on this connection that
    does not yet form a command. *)
Record world := mkWorld { w_obj : sobj; w_cache : cache; w_pending : bytes }.

(** New...Protocol (134-160, 649-675, 1154-1188) with a dial that succeeds. The connection takes
    [room] bytes before a write on it fails: a connection reset in the future, or [room] is larger
    than all that will be written. *)
Definition opened (room : nat) (h : req_header) (c : cache) : world :=
  mkWorld (mkSobj (Some true) true (new_bwriter (mkWconn [] room)) (new_breader []) h) c [].

(** Closing a connection: no more bytes go out or come in. Bytes already in the bufio.Reader stay. *)
Definition dead_writer (b : bwriter) : bwriter := mkBW (bw_size b) (bw_buf b) (bw_err b) (mkWconn (wc_sent (bw_conn b)) 0).
Definition dead_reader (b : breader) : breader := mkBR (br_buf b) (br_err b) [].

(** An operation. The reply the daemon gives reaches the client as [sched reply]: cut into segments,
    with a [Stall] where a read meets its deadline (206-209 and alike). *)
Definition do_call (pr : proto) (name : bytes) (w : world) (o : op) (sched : bytes -> list arrival) : world * outcome result :=
  let s := w_obj w in
  match pr, so_raw s with
  | PText, None => (w, Err (EMsg (B "memcached: closed")))     (* 202-204, 264-266, 343-345, ..., 607-609 *)
  | _, _ =>
      let h' := snd (cl_req (client_of pr name) (so_header s) o) in
      let '(r, bw) := send (so_writer s) (writes_of pr (so_header s) o) in
      let got := skipn (length (wc_sent (bw_conn (so_writer s)))) (wc_sent (bw_conn bw)) in
      let '(c', reply, pending') := daemon (cl_wire (client_of pr name)) (w_cache w) (w_pending w ++ got) in
      let br := mkBR (br_buf (so_reader s)) (br_err (so_reader s)) (br_net (so_reader s) ++ sched reply) in
      let '(res, br') :=
        match r with
        | Ok _ => run_bufio (reply_prog pr name (S (length (unread br))) o) br
        | Err e => (Err e, br)
        | Panic => (Panic, br)
        end in
      (mkWorld (mkSobj (so_raw s) (so_chan s) bw br' h') c' pending', res)
  end.

(** Close: client/server.go:166-176 (text), 1132-1134 and 1740-1742. *)
Definition do_close (pr : proto) (w : world) : world * outcome result :=
  let s := w_obj w in
  match pr with
  | PText =>
      if negb (so_chan s) then (w, Err (EMsg (B "memcached: already closed")))
      else match so_raw s with
           | None => (w, Panic)                                   (* s.raw.Close() on a nil interface *)
           | Some live => (mkWorld (mkSobj None false (dead_writer (so_writer s)) (dead_reader (so_reader s)) (so_header s)) (w_cache w) (w_pending w),
                           if live then Ok RUnit else Err EClosed)
           end
  | _ =>
      match so_raw s with
      | None => (w, Panic)
      | Some live => (mkWorld (mkSobj (Some false) (so_chan s) (dead_writer (so_writer s)) (dead_reader (so_reader s)) (so_header s)) (w_cache w) (w_pending w),
                      if live then Ok RUnit else Err EClosed)
      end
  end.

(** Reconnect: client/server.go:178-196, 681-699, 1192-1210, the same in all three. [dial] is the
    outcome of DialContext: a failure, or a connection with this much room. *)
Definition do_reconnect (w : world) (dial : option nat) : world * outcome result :=
  let s := w_obj w in
  match so_raw s with
  | Some false => (w, Err EClosed)                       (* s.raw.Close() reports that it is closed *)
  | raw =>
      let s1 := match raw with
                | Some _ => mkSobj (Some false) (so_chan s) (dead_writer (so_writer s)) (dead_reader (so_reader s)) (so_header s)
                | None => s
                end in
      match dial with
      | None => (mkWorld s1 (w_cache w) (w_pending w), Err EIO)
      | Some room => (mkWorld (mkSobj (Some true) (so_chan s) (new_bwriter (mkWconn [] room)) (new_breader []) (so_header s)) (w_cache w) [], Ok RUnit)
      end
  end.

(** The peer closes or the network fails: nothing more goes out or comes in on this connection. *)
Definition do_break (w : world) : world :=
  let s := w_obj w in
  mkWorld (mkSobj (so_raw s) (so_chan s) (dead_writer (so_writer s)) (dead_reader (so_reader s)) (so_header s)) (w_cache w) (w_pending w).

Inductive levent :=
| LCall (o : op) (sched : bytes -> list arrival)
| LClose
| LReconnect (dial : option nat)
| LBreak
| LWait (d : Z).

Definition lstep (pr : proto) (name : bytes) (w : world) (e : levent) : world * option (outcome result) :=
  match e with
  | LCall o sched => let '(w', r) := do_call pr name w o sched in (w', Some r)
  | LClose => let '(w', r) := do_close pr w in (w', Some r)
  | LReconnect d => let '(w', r) := do_reconnect w d in (w', Some r)
  | LBreak => (do_break w, None)
  | LWait d => (mkWorld (w_obj w) (tick (w_cache w) d) (w_pending w), None)
  end.
(** The results in the order of the calls (Close and Reconnect included). *)
Fixpoint life (pr : proto) (name : bytes) (w : world) (evs : list levent) : world * list (outcome result) :=
  match evs with
  | [] => (w, [])
  | e :: evs' =>
      let wr := lstep pr name w e in
      let rest := life pr name (fst wr) evs' in
      (fst rest, match snd wr with Some r => [r] | None => [] end ++ snd rest)
  end.

(** ** The heartbeat goroutine, client/server.go:1835-1854 *)

(** Not running, or waiting in its select with the timer armed or not. time.NewTimer(interval) at
    1836 fires once; nothing rearms it. *)
Inductive hbeat := HbOff | HbWait (armed : bool).
Record hworld := mkHW { hw_world : world; hw_beat : hbeat; hw_reconnect : bool }.

(** What the goroutine does when an interval has passed: a check is one call of Version (1842); its
    result is recorded. [sched] schedules the reply, [dial] is used if it reconnects. *)
Definition beat (pr : proto) (name : bytes) (h : hworld) (sched : bytes -> list arrival) (dial : option nat) : hworld * list (outcome result) :=
  match hw_beat h with
  | HbOff => (h, [])
  | HbWait false => (h, [])                                           (* ticker.C never delivers again *)
  | HbWait true =>
      let '(w, r) := do_call pr name (hw_world h) OVersion sched in
      match r with
      | Ok _ => (mkHW w (HbWait false) (hw_reconnect h), [r])
      | _ =>
          if hw_reconnect h then
            let '(w', r') := do_reconnect w dial in                    (* 1845-1847 *)
            (mkHW w' (match r' with Ok _ => HbWait false | _ => HbOff end) (hw_reconnect h), [r])
          else (mkHW (fst (do_close pr w)) (HbWait false) (hw_reconnect h), [r])   (* 1849 *)
      end
  end.
(** Its other case: closeCh, captured when the goroutine was started (156, 671, 1184), is closed. It is
    closed exactly when text Close has run (174-175); the other two never close it. *)
Definition notice (h : hworld) : hworld :=
  if so_chan (w_obj (hw_world h)) then h else mkHW (hw_world h) HbOff (hw_reconnect h).

(** The user's events, an interval passing, and the goroutine being scheduled. *)
Inductive hevent :=
| HUser (e : levent)
| HInterval (sched : bytes -> list arrival) (dial : option nat)
| HSched.
Definition hstep (pr : proto) (name : bytes) (h : hworld) (e : hevent) : hworld * list (outcome result) :=
  match e with
  | HUser e => (mkHW (fst (lstep pr name (hw_world h) e)) (hw_beat h) (hw_reconnect h), [])
  | HInterval sched dial => beat pr name h sched dial
  | HSched => (notice h, [])
  end.
(** The checks made, in order. *)
Fixpoint hlife (pr : proto) (name : bytes) (h : hworld) (evs : list hevent) : hworld * list (outcome result) :=
  match evs with
  | [] => (h, [])
  | e :: evs' => let hr := hstep pr name h e in let rest := hlife pr name (fst hr) evs' in (fst rest, snd hr ++ snd rest)
  end.
Definition heartbeat_started (reconnect : bool) (w : world) : hworld := mkHW w (HbWait true) reconnect.
