(** * The router when backends are slow or silent: the locks of the server objects.

    RouterConc.v makes a call on a backend in one step. Here it is what it is in the code: a method of
    client.ServerWithMetaProtocol takes the object's mutex (client/server.go:702-703, 858-859; [W_take]), sends
    the request and waits for the answer without a time limit (cmd/router sets no Timeout), and gives the mutex
    back when the answer has come ([W_answer]). The pool and the proxy hold no lock (cluster/cluster.go:31-64,
    proxy/replica_pool.go:20-50). The backend does the work at some time between the two; here when it answers
    (nobody else can reach it in between: the connection is this router's, C19). *)
From Verif Require Import GoBytes GoNum GoIO Item Ring Pool Replica ServerTypes ServerParse ServerWrite Serve ServerConc Proxy RouterConc.
Local Open Scope Z_scope.

Record wait_state (ST : Type) := mkW {
  wt_router : router_state ST;
  wt_holder : nat -> option nat                   (* which connection's goroutine has the mutex of a backend's object *)
}.
Arguments mkW {ST}. Arguments wt_router {ST}. Arguments wt_holder {ST}.
Definition set_holder (f : nat -> option nat) (id : nat) (x : option nat) : nat -> option nat := fun j => if Nat.eqb j id then x else f j.
(** A step of the router other than a call on a backend. *)
Definition no_call {ST} (v u : router_state ST) : Prop := forall i sv o a, rt_log u <> rt_log v ++ [ECall i sv o a].

Section Waiting.
Context {ST : Type}.
Variable step : ST -> op -> ST * outcome result.
Variable later : ST -> Z -> ST.
Variable pn sn : list node.
Variable answers : nat -> Prop.                        (* the backends that answer *)

Inductive wstep : wait_state ST -> wait_state ST -> Prop :=
| W_step : forall v u hd, rtstep step later pn sn v u -> no_call v u -> wstep (mkW v hd) (mkW u hd)
| W_take : forall v hd i s p out q sv o k, rt_down v = false -> rt_conns v i = mkSC s p (Calling q) out -> rt_prog v i = Call sv o k ->
    hd (sv_id sv) = None -> wstep (mkW v hd) (mkW v (set_holder hd (sv_id sv) (Some i)))                        (* s.mu.Lock() *)
| W_answer : forall v hd i s p out q sv o k, rt_down v = false -> rt_conns v i = mkSC s p (Calling q) out -> rt_prog v i = Call sv o k ->
    hd (sv_id sv) = Some i -> answers (sv_id sv) ->
    let wr := server_call step (rt_world v) sv o in
    wstep (mkW v hd)
      (mkW (mkRt (fst wr) (rt_conns v) (set_prog (rt_prog v) i (k (snd wr))) (rt_log v ++ [ECall i sv o (snd wr)]) (rt_listening v) false)
           (set_holder hd (sv_id sv) None)).                                                                    (* defer s.mu.Unlock() *)
Inductive wsteps : wait_state ST -> wait_state ST -> Prop :=
| w_refl : forall v, wsteps v v
| w_step : forall v u x, wsteps v u -> wstep u x -> wsteps v x.
(** A router that has just been started. *)
Definition waiting_started (w : world ST) (streams : nat -> bytes) : wait_state ST := mkW (router_started w streams) (fun _ => None).
End Waiting.
