(** * Servers of a SinglePool whose connections are lost.

    client/client.go:27-115 knows nothing of lost connections: Ring.Pick (client/ring.go:52-76) goes on
    choosing the same server, and a call on a server object whose connection is lost fails for good unless
    somebody calls Reconnect (Lifecycle.v; [C81_a_lost_connection_stays_lost]; the heartbeat does not do it,
    C31, C32). The faults a connection will meet are a part of the server's state, one entry for each call
    to come, as in RouterFail.v; a connection lost between two calls is found lost by the second. A call
    that panics while its request is built (C57) is not distinguished from one that fails. *)
From Verif Require Import GoBytes GoNum GoIO Item Ring Pool ReplicaSpec RouterFail.
Local Open Scope Z_scope.

Record flaky (ST : Type) := mkFlaky {
  fl_state : ST;                    (* the server, and the connection as long as it is up *)
  fl_up : bool;
  fl_faults : list call_fault       (* of the calls to come; none when they run out *)
}.
Arguments mkFlaky {ST}. Arguments fl_state {ST}. Arguments fl_up {ST}. Arguments fl_faults {ST}.

Section Flaky.
Context {ST : Type}.
Variable step : ST -> op -> ST * outcome result.
Variable pass : ST -> Z -> ST.
(** A call on the server object, client/server.go:206-257 and alike: on a lost connection the write fails. *)
Definition flaky_step (s : flaky ST) (o : op) : flaky ST * outcome result :=
  if fl_up s then
    match fl_faults s with
    | [] | Fine :: _ => (mkFlaky (fst (step (fl_state s) o)) true (tl (fl_faults s)), snd (step (fl_state s) o))
    | LostBefore :: _ => (mkFlaky (fl_state s) false (tl (fl_faults s)), Err EIO)
    | LostAfter :: _ => (mkFlaky (fst (step (fl_state s) o)) false (tl (fl_faults s)), Err EIO)
    end
  else (s, Err EIO).
Definition flaky_pass (s : flaky ST) (d : Z) : flaky ST := mkFlaky (pass (fl_state s) d) (fl_up s) (fl_faults s).
(** Servers in the states [w], whose connections are up and will meet these faults. *)
Definition with_faults (w : world ST) (faults : nat -> list call_fault) : world (flaky ST) := fun i => mkFlaky (w i) true (faults i).
End Flaky.
