(** * The router when a connection to a backend is lost: cmd/router/main.go:29-40.

    connectServers dials every backend once (client.NewServerWithMetaProtocol without options: no Timeout, no
    heartbeat, no automatic Reconnect), and nothing in the router calls Reconnect. A lost connection is lost for good:
    every later call on that server object fails (Lifecycle.v's [do_call] on a broken connection, see
    [C81_a_lost_connection_stays_lost]). The faults a backend's connection will meet are a part of its state, one
    entry for each call to come; a connection lost between two calls is found lost by the second. *)
From Verif Require Import GoBytes GoNum GoIO Item ClientMeta Cache Daemon Call ReplicaSpec.
Local Open Scope Z_scope.

Inductive call_fault :=
| Fine
| LostBefore       (* lost before the backend has the whole request: it executes nothing *)
| LostAfter.       (* lost after that and before the whole reply has arrived: it executes the request *)
Record backend := mkBack {
  bk_link : link;                  (* the backend's memcached, and the connection as long as it is up *)
  bk_up : bool;
  bk_faults : list call_fault      (* of the calls to come; none when they run out *)
}.
(** A call on the server object, client/server.go:701-733 (Get) and 859-905 (Set) and alike: on a lost connection the
    write fails, unless building the request panics first (878). *)
Definition back_call (b : backend) (o : op) : backend * outcome result :=
  let l := bk_link b in
  let failed l' := (mkBack l' false (tl (bk_faults b)), match fst (cl_req meta_client (l_header l) o) with Panic => Panic | _ => Err EIO end) in
  if bk_up b then
    match bk_faults b with
    | [] | Fine :: _ => (mkBack (fst (meta_server l o)) true (tl (bk_faults b)), snd (meta_server l o))
    | LostBefore :: _ => failed l
    | LostAfter :: _ => failed (fst (meta_server l o))
    end
  else failed l.
Definition back_tick (b : backend) (d : Z) : backend := mkBack (link_tick (bk_link b) d) (bk_up b) (bk_faults b).
(** Started with backends [w], whose connections will meet these faults. *)
Definition backends (w : nat -> link) (faults : nat -> list call_fault) : nat -> backend := fun n => mkBack (w n) true (faults n).
