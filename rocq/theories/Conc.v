(** * Goroutines sharing one server object.

    Part 1: any number of goroutines calling operations of one server, every step of theirs, of the
    network and of the daemon interleaved in any order. Each operation in client/server.go is
    [s.mu.Lock(); defer s.mu.Unlock(); write; Flush; read] (e.g. 198-257, 701-721, 1212-1267).
    Part 2: Close against operations, at the granularity of the accesses to s.raw and s.closeCh. *)
From Verif Require Import GoBytes GoNum GoIO Item ClientText ClientMeta ClientBinary Cache Daemon Spec Call Guard.

(** ** Part 1 *)

(** Where a goroutine is: outside the mutex, writing its request (these bytes are left), or reading. *)
Inductive tpc := Idle | Sending (o : op) (left : bytes) | Waiting (o : op).
Record thread := mkThread { th_pc : tpc; th_todo : list op }.
(** Completed calls and the passing of time, in the order in which they happened. *)
Inductive entry := LDone (t : nat) (o : op) (r : outcome result) | LTick (d : Z).
Record cstate := mkC {
  cs_lock : option nat;             (* s.mu and the goroutine holding it *)
  cs_threads : nat -> thread;
  cs_header : req_header;
  cs_out : bytes;                   (* written, not yet at the daemon *)
  cs_pending : bytes;               (* at the daemon, not yet executed *)
  cs_cache : cache;
  cs_in : bytes;                    (* replies under way *)
  cs_buf : bytes;                   (* in the client's bufio.Reader *)
  cs_log : list entry
}.
Definition set_thread (f : nat -> thread) (t : nat) (x : thread) : nat -> thread := fun u => if Nat.eqb u t then x else f u.

(** One step. The writes of a call may reach the connection in any pieces, the network may deliver in
    any pieces in both directions, the daemon executes one command at a time. A read blocks while its
    bytes are missing ([Err EIO] on the bytes at hand); that the reading code gives the same result
    when the rest arrives later is C17 and C28. Requests that cannot be built (C57) have no step, and
    connections do not fail here (Lifecycle.v). *)
Inductive cstep (cl : client) : cstate -> cstate -> Prop :=
| S_lock : forall s t o os rq, cs_lock s = None -> cs_threads s t = mkThread Idle (o :: os) -> fst (cl_req cl (cs_header s) o) = Ok rq ->
    cstep cl s (mkC (Some t) (set_thread (cs_threads s) t (mkThread (Sending o rq) os)) (snd (cl_req cl (cs_header s) o))
                    (cs_out s) (cs_pending s) (cs_cache s) (cs_in s) (cs_buf s) (cs_log s))
| S_send : forall s t o a b os, cs_threads s t = mkThread (Sending o (a ++ b)) os ->
    cstep cl s (mkC (cs_lock s) (set_thread (cs_threads s) t (mkThread (Sending o b) os)) (cs_header s)
                    (cs_out s ++ a) (cs_pending s) (cs_cache s) (cs_in s) (cs_buf s) (cs_log s))
| S_sent : forall s t o os, cs_threads s t = mkThread (Sending o []) os ->
    cstep cl s (mkC (cs_lock s) (set_thread (cs_threads s) t (mkThread (Waiting o) os)) (cs_header s)
                    (cs_out s) (cs_pending s) (cs_cache s) (cs_in s) (cs_buf s) (cs_log s))
| S_net_out : forall s a b, cs_out s = a ++ b ->
    cstep cl s (mkC (cs_lock s) (cs_threads s) (cs_header s) b (cs_pending s ++ a) (cs_cache s) (cs_in s) (cs_buf s) (cs_log s))
| S_daemon : forall s c' r rest, daemon_step (cl_wire cl) (cs_cache s) (cs_pending s) = Some (c', r, rest) ->
    cstep cl s (mkC (cs_lock s) (cs_threads s) (cs_header s) (cs_out s) rest c' (cs_in s ++ r) (cs_buf s) (cs_log s))
| S_net_in : forall s a b, cs_in s = a ++ b ->
    cstep cl s (mkC (cs_lock s) (cs_threads s) (cs_header s) (cs_out s) (cs_pending s) (cs_cache s) b (cs_buf s ++ a) (cs_log s))
| S_done : forall s t o os r rest, cs_threads s t = mkThread (Waiting o) os -> cl_resp cl o (cs_buf s) = (r, rest) -> r <> Err EIO ->
    cstep cl s (mkC None (set_thread (cs_threads s) t (mkThread Idle os)) (cs_header s)
                    (cs_out s) (cs_pending s) (cs_cache s) (cs_in s) rest (cs_log s ++ [LDone t o r]))
| S_tick : forall s d, cs_lock s = None -> cs_out s = [] -> cs_pending s = [] ->          (* time passes between calls *)
    cstep cl s (mkC None (cs_threads s) (cs_header s) [] [] (tick (cs_cache s) d) (cs_in s) (cs_buf s) (cs_log s ++ [LTick d])).
Inductive csteps (cl : client) : cstate -> cstate -> Prop :=
| cs_refl : forall s, csteps cl s s
| cs_step : forall s u v, csteps cl s u -> cstep cl u v -> csteps cl s v.

(** Goroutine [t] is to call the operations [progs t] in this order. *)
Definition started (c : cache) (h : req_header) (progs : nat -> list op) : cstate :=
  mkC None (fun t => mkThread Idle (progs t)) h [] [] c [] [] [].

(** ** Part 2 *)

(** The shared fields: whether s.raw is non-nil, whether s.closeCh is non-nil, whether the channel has
    been closed, and s.mu. *)
Record shared := mkShared { sh_raw : bool; sh_chan : bool; sh_chan_closed : bool; sh_mu : option nat }.
(** What a goroutine calls; a Reconnect will succeed or fail (in Close of the old connection, or in
    dialling). *)
Inductive job := JOp | JClose | JReconnect (ok : bool).
(** The accesses of each, in order. *)
Inductive rpc :=
| OpCheck | OpDeadlineW | OpDeadlineR | OpIO       (* 202, 207, 208, 211-257 *)
| ClChan | ClRaw | ClNil | ClClose | ClChanNil     (* 167, 171, 172, 173, 174 *)
| RcCheck (ok : bool) | RcClose (ok : bool) | RcSet   (* 182, 183, 193 *)
| Next | Crashed.
Record rthread := mkR { rt_pc : rpc; rt_jobs : list job }.

(** One access of goroutine [t] of a text (or meta, binary) server with or without Timeout. [None]: it
    waits for the mutex, or has nothing left to do. A method call on a nil s.raw, and closing a nil or
    closed channel, crash. *)
Definition raccess (pr : proto) (timeout : bool) (t : nat) (s : shared) (x : rthread) : option (shared * rthread) :=
  let go pc := Some (s, mkR pc (rt_jobs x)) in
  let free := mkShared (sh_raw s) (sh_chan s) (sh_chan_closed s) None in
  let leave := Some (free, mkR Next (rt_jobs x)) in
  match rt_pc x with
  | Crashed => None
  | Next =>
      match rt_jobs x with
      | [] => None
      | JClose :: js => Some (s, mkR (match pr with PText => ClChan | _ => ClRaw end) js)    (* 166, 1132, 1740: no lock *)
      | j :: js => match sh_mu s with
                   | Some _ => None
                   | None => Some (mkShared (sh_raw s) (sh_chan s) (sh_chan_closed s) (Some t),
                                   mkR (match j with
                                        | JReconnect ok => RcCheck ok
                                        | _ => match pr with PText => OpCheck | _ => if timeout then OpDeadlineW else OpIO end   (* the nil check is in the text client only *)
                                        end) js)
                   end
      end
  | OpCheck => if sh_raw s then go (if timeout then OpDeadlineW else OpIO) else leave
  | OpDeadlineW => if sh_raw s then go OpDeadlineR else go Crashed
  | OpDeadlineR => if sh_raw s then go OpIO else go Crashed
  | OpIO => leave                                    (* through s.conn, which keeps the connection it was made with *)
  | ClChan => if sh_chan s then go ClRaw else go Next
  | ClRaw => if sh_raw s then (match pr with PText => go ClNil | _ => go Next end) else go Crashed
  | ClNil => Some (mkShared false (sh_chan s) (sh_chan_closed s) (sh_mu s), mkR ClClose (rt_jobs x))
  | ClClose => if sh_chan s && negb (sh_chan_closed s)
               then Some (mkShared (sh_raw s) (sh_chan s) true (sh_mu s), mkR ClChanNil (rt_jobs x)) else go Crashed
  | ClChanNil => Some (mkShared (sh_raw s) false (sh_chan_closed s) (sh_mu s), mkR Next (rt_jobs x))
  | RcCheck ok => if sh_raw s then go (RcClose ok) else if ok then go RcSet else leave
  | RcClose ok => if sh_raw s then (if ok then go RcSet else leave) else go Crashed
  | RcSet => Some (mkShared true (sh_chan s) (sh_chan_closed s) None, mkR Next (rt_jobs x))
  end.
Record rstate := mkRS { rs_shared : shared; rs_threads : nat -> rthread }.
Definition raccess_of (pr : proto) (timeout : bool) (s : rstate) (t : nat) : rstate :=
  match raccess pr timeout t (rs_shared s) (rs_threads s t) with
  | None => s
  | Some (sh, x) => mkRS sh (fun u => if Nat.eqb u t then x else rs_threads s u)
  end.
(** A schedule says which goroutine makes the next access. *)
Fixpoint interleave (pr : proto) (timeout : bool) (s : rstate) (schedule : list nat) : rstate :=
  match schedule with [] => s | t :: ts => interleave pr timeout (raccess_of pr timeout s t) ts end.
Definition rstart (progs : nat -> list job) : rstate := mkRS (mkShared true true false None) (fun t => mkR Next (progs t)).
