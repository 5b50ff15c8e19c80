(** * The router with many clients: cmd/router/main.go:40-63.

    server.Server with the proxy as its handler (server/server.go:475-515, proxy/replica_pool.go:20-50) on a
    ReplicaPool shared by all connections. In ServerConc.v a handler call is one step; here it is the program
    it is: the proxy calls the pool, the pool calls the owner of the key in the primary ring and then, for a
    set, the owner in the secondary ring (Replica.v). Every call on a backend is one step (its methods hold
    the object's mutex, C19); between any two steps other connections may do theirs, and time may pass. *)
From Verif Require Import GoBytes GoNum GoIO Item Ring Pool Replica ServerTypes ServerParse ServerWrite Serve ServerConc Proxy.
Local Open Scope Z_scope.

(** ServeRequest, proxy/replica_pool.go:20-50, up to the return of the pool's method ... *)
Definition proxy_prog (pn sn : list node) (q : srequest) : prog :=
  match q_opcode q with
  | OpcGet => rp_prog pn sn (RGet (q_key q))                                     (* 23 *)
  | OpcSet => match q_set q with
              | None => Ret Panic                                               (* req.SetOpt.Expiration on a nil pointer, 36 *)
              | Some o => rp_prog pn sn (RSet (proxy_item q o))                  (* 32-38 *)
              end
  | _ => Ret (Err proxy_unknown)                                                (* 48 *)
  end.
(** ... and from there on. *)
Definition proxy_answer (q : srequest) (r : outcome result) : answer_of :=
  match q_opcode q with
  | OpcGet => match r with
              | Ok (RItem i) => Ok [mkRes (it_key i) None None (it_value i) 0 0]   (* 30 *)
              | Ok _ => Panic                                                    (* not a Get result: excluded by typing in Go *)
              | Err e => answer_error e                                           (* 24-29 *)
              | Panic => Panic
              end
  | OpcSet => match r with
              | Ok _ => Ok [empty_response]                                       (* 46 *)
              | Err e => answer_error e                                           (* 40-45 *)
              | Panic => Panic
              end
  | _ => match r with Ok _ => Panic | Err e => Err e | Panic => Panic end
  end.

(** What happens, in order. *)
Inductive rtevent :=
| ERead (i : nat) (q : srequest)                                  (* the goroutine of connection i read a request *)
| ECall (i : nat) (sv : server) (o : op) (a : outcome result)      (* ... called a backend, which answered *)
| EAnswer (i : nat) (q : srequest) (r : answer_of)                (* ... ServeRequest returned *)
| ETime (d : Z).                                                  (* time passed *)

(** The handler's part of a connection's goroutine is in [rt_prog]; the rest is as in ServerConc.v. *)
Record router_state (ST : Type) := mkRt {
  rt_world : world ST;                            (* the backends *)
  rt_conns : nat -> sconn;
  rt_prog : nat -> prog;                          (* what is left of ServeRequest, while Calling *)
  rt_log : list rtevent;
  rt_listening : bool;
  rt_down : bool
}.
Arguments mkRt {ST}. Arguments rt_world {ST}. Arguments rt_conns {ST}. Arguments rt_prog {ST}. Arguments rt_log {ST}. Arguments rt_listening {ST}. Arguments rt_down {ST}.
Definition set_prog (f : nat -> prog) (i : nat) (p : prog) : nat -> prog := fun j => if Nat.eqb j i then p else f j.
(** The steps of a connection's goroutine outside the handler are those of ServerConc.v's [move]. *)
Definition no_handler : handler unit := fun st _ => (st, Err EIO).
Definition calling (x : sconn) : bool := match sc_phase x with Calling _ => true | _ => false end.

Section Router.
Context {ST : Type}.
Variable step : ST -> op -> ST * outcome result.       (* one call on a backend *)
Variable later : ST -> Z -> ST.                        (* a backend some time later *)
Variable pn sn : list node.                            (* the pool's rings *)

Inductive rtstep : router_state ST -> router_state ST -> Prop :=
| Rt_accept : forall v i s p out, rt_down v = false -> rt_listening v = true -> rt_conns v i = mkSC s p Offered out ->
    rtstep v (mkRt (rt_world v) (set_conn (rt_conns v) i (mkSC s p Reading out)) (rt_prog v) (rt_log v) true false)
| Rt_accept_fails : forall v, rt_down v = false -> rt_listening v = true ->
    rtstep v (mkRt (rt_world v) (rt_conns v) (rt_prog v) (rt_log v) false false)
| Rt_read : forall v i x' q, rt_down v = false -> move no_handler tt (rt_conns v i) tt x' [] -> sc_phase x' = Calling q ->  (* server.go:495-509 *)
    rtstep v (mkRt (rt_world v) (set_conn (rt_conns v) i x') (set_prog (rt_prog v) i (proxy_prog pn sn q)) (rt_log v ++ [ERead i q]) (rt_listening v) false)
| Rt_call : forall v i s p out q sv o k, rt_down v = false -> rt_conns v i = mkSC s p (Calling q) out -> rt_prog v i = Call sv o k ->
    let wr := server_call step (rt_world v) sv o in
    rtstep v (mkRt (fst wr) (rt_conns v) (set_prog (rt_prog v) i (k (snd wr))) (rt_log v ++ [ECall i sv o (snd wr)]) (rt_listening v) false)
| Rt_return : forall v i s p out q r, rt_down v = false -> rt_conns v i = mkSC s p (Calling q) out -> rt_prog v i = Ret r ->
    rtstep v (mkRt (rt_world v) (set_conn (rt_conns v) i (mkSC s p (Answered q (proxy_answer q r)) out)) (rt_prog v)
               (rt_log v ++ [EAnswer i q (proxy_answer q r)]) (rt_listening v) false)
| Rt_move : forall v i x', rt_down v = false -> move no_handler tt (rt_conns v i) tt x' [] -> calling x' = false ->          (* server.go:509-515 *)
    rtstep v (mkRt (rt_world v) (set_conn (rt_conns v) i x') (rt_prog v) (rt_log v) (rt_listening v) (crashed x'))
| Rt_time : forall v d, rt_down v = false -> 0 <= d ->
    rtstep v (mkRt (fun n => later (rt_world v n) d) (rt_conns v) (rt_prog v) (rt_log v ++ [ETime d]) (rt_listening v) false).
Inductive rtsteps : router_state ST -> router_state ST -> Prop :=
| rt_refl : forall v, rtsteps v v
| rt_step : forall v u w, rtsteps v u -> rtstep u w -> rtsteps v w.
(** A router that has just been started: connection [i] will send [streams i]. *)
Definition router_started (w : world ST) (streams : nat -> bytes) : router_state ST :=
  mkRt w (fun i => mkSC (streams i) None Offered []) (fun _ => Ret Panic) [] true false.
End Router.
