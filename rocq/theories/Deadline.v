(** * Timeouts in real time: the deadlines the calls of client/server.go set and what the network does.

    Every operation begins, holding s.mu, with
      if s.Timeout != 0 { s.raw.SetWriteDeadline(time.Now().Add(s.Timeout)); s.raw.SetReadDeadline(...) }
    (text 206-209, 268-271, 347-350, 388-391, 424-427, 458-461, 505-508, 542-545, 579-582, 611-614; meta
    705-708 and on, Version 1109-1112 with [> 0]; binary 1216-1219 and on), then writes its request, then
    reads its reply. Nothing ever clears a deadline.

    Times are integers (nanoseconds); computing takes no time, waiting for the network does. What the peer
    and the network do is given by the times at which things happen, so that quantifying over them is
    quantifying over every peer: when the request will have been taken, when each byte arrives, when the
    peer closes the connection. *)
From Verif Require Import GoBytes GoNum GoIO Item ClientText ClientMeta ClientBinary Spec Call Guard.
Local Open Scope Z_scope.

(** The connection of an open server object. *)
Record tconn := mkTconn {
  t_deadline : option Z;            (* both deadlines of s.raw: always set together *)
  t_broken : bool;                  (* s.conn.Writer has met an error, which stays (C59) *)
  t_in : list (Z * ascii);          (* the bytes not yet read, each with the time of its arrival *)
  t_end : option Z;                 (* when the peer closes the connection; [None]: never *)
  t_header : req_header             (* the pooled header (Call.v) *)
}.

(** The condition under which an operation sets the deadlines: [s.Timeout != 0], and [s.Timeout > 0] in
    ServerWithMetaProtocol.Version (client/server.go:1109). *)
Definition sets_deadline (pr : proto) (o : op) (timeout : Z) : bool :=
  match pr, o with
  | PMeta, OVersion => 0 <? timeout
  | _, _ => negb (timeout =? 0)
  end.
Definition deadline_of (pr : proto) (o : op) (timeout now : Z) (old : option Z) : option Z :=
  if sets_deadline pr o timeout then Some (now + timeout) else old.

(** The bytes that arrive in time. *)
Fixpoint in_time (d : Z) (a : list (Z * ascii)) : list (Z * ascii) :=
  match a with
  | (t, b) :: a' => if t <=? d then (t, b) :: in_time d a' else []
  | [] => []
  end.
Definition in_time_for (d : option Z) (a : list (Z * ascii)) : list (Z * ascii) :=
  match d with Some d => in_time d a | None => a end.
(** When the last of these bytes has arrived; waiting for them starts at [now]. *)
Definition all_there (now : Z) (a : list (Z * ascii)) : Z := fold_left (fun m x => Z.max m (fst x)) a now.
(** When a read that will get no more bytes fails: at the deadline or when the peer closes the
    connection, whichever is first; not at all if neither will be. *)
Definition gives_up (now : Z) (d e : option Z) : option Z :=
  match d, e with
  | Some d, Some e => Some (Z.max now (Z.min d e))
  | Some d, None => Some (Z.max now d)
  | None, Some e => Some (Z.max now e)
  | None, None => None
  end.
(** Whether a deadline has passed: reads and writes on the connection then fail at once. *)
Definition expired (now : Z) (d : option Z) : bool := match d with Some d => d <=? now | None => false end.

(** An operation that gets s.mu at time [now]. [taken]: when the peer will have taken the request
    ([None]: it never reads it). The result is when the call returns, what it returns, and the connection
    then; [None] when it never returns. A call whose request cannot be built panics while building it; what
    a binary store leaves in the write buffer then is the subject of C58, not of this file. *)
Definition timed_call (pr : proto) (name : bytes) (timeout now : Z) (o : op) (taken : option Z) (c : tconn)
  : option (Z * outcome result * tconn) :=
  let d := deadline_of pr o timeout now (t_deadline c) in
  let '(rq, h) := cl_req (client_of pr name) (t_header c) o in
  match rq with
  | Ok _ =>
      let fails t := Some (t, Err EIO, mkTconn d true (t_in c) (t_end c) h) in
      if t_broken c || expired now d then fails now
      else match taken, d with
           | None, None => None
           | None, Some d => fails d
           | Some w, _ =>
               if match d with Some d => d <? w | None => false end then fails (match d with Some d => d | None => now end)
               else
                 let start := Z.max now w in
                 let there := in_time_for d (t_in c) in
                 let '(out, rest) := cl_resp (client_of pr name) o (map snd there) in
                 let used := (length there - length rest)%nat in
                 let c' := mkTconn d false (skipn used (t_in c)) (t_end c) h in
                 match out with
                 | Err EIO => match gives_up (all_there start there) d (t_end c) with
                              | Some t => Some (t, Err EIO, c')
                              | None => None
                              end
                 | _ => Some (all_there start (firstn used there), out, c')
                 end
           end
  | Err e => Some (now, Err e, mkTconn d (t_broken c) (t_in c) (t_end c) h)
  | Panic => Some (now, Panic, mkTconn d (t_broken c) (t_in c) (t_end c) h)
  end.

(** What happens to an object one thing after the other (s.mu): calls, the user assigning to the field
    Timeout, time passing, Reconnect (178-196, 681-699, 1192-1210). Reconnect dials with context.TODO():
    [Dial done]: the new connection is there at [done], or never. *)
Inductive tevent :=
| TCall (o : op) (taken : option Z)
| TTimeout (d : Z)
| TPass (d : Z)
| TReconnect (done : option Z) (a : list (Z * ascii)) (e : option Z).
Fixpoint timed_run (pr : proto) (name : bytes) (timeout now : Z) (c : tconn) (evs : list tevent) : list (Z * outcome result) * option (Z * tconn) :=
  match evs with
  | [] => ([], Some (now, c))
  | TTimeout d :: evs' => timed_run pr name d now c evs'
  | TPass d :: evs' => timed_run pr name timeout (now + d) c evs'
  | TReconnect (Some t) a e :: evs' => timed_run pr name timeout (Z.max now t) (mkTconn None false a e (t_header c)) evs'
  | TReconnect None _ _ :: _ => ([], None)
  | TCall o taken :: evs' =>
      match timed_call pr name timeout now o taken c with
      | Some (t, r, c') => let '(l, fin) := timed_run pr name timeout t c' evs' in ((t, r) :: l, fin)
      | None => ([], None)
      end
  end.
