(** * Several connections at once: Server.Serve, server/server.go:475-491, and the goroutine of each
    connection, server/server.go:483-488, 493-515.

    Every accepted connection has its own goroutine, bufio pair and protocol; the goroutines share the
    handler and nothing else. The model interleaves their steps in any order. The handler's effect is one
    step (a handler that is not safe for concurrent use is outside the model); between the call and its
    return anything may happen on other connections. *)
From Verif Require Import GoBytes GoNum GoIO ServerTypes ServerParse ServerWrite Serve.

Definition answer_of := outcome (list sresponse).
(** Where the goroutine of a connection is. *)
Inductive phase :=
| Offered                                        (* in the listener's queue *)
| Reading                                        (* conn.readRequest, 495 *)
| Calling (q : srequest)                         (* s.Handler.ServeRequest(req) called, 509 *)
| Answered (q : srequest) (r : answer_of)        (* ... its effect done *)
| Writing (left : bytes)                         (* the reply: these bytes are not yet written, 514 *)
| Over (ft : fate)                               (* the loop ended, the connection is closed *)
| Lost.                                          (* the same because a reply could not be written (C61) *)
Record sconn := mkSC {
  sc_left : bytes;                               (* what the client sends and the server has not read *)
  sc_proto : option protocol;
  sc_phase : phase;
  sc_out : bytes                                 (* written to the client *)
}.

(** One step of a connection's goroutine: the handler's state and the connection before and after, and
    the request handled in this step with its answer. The bytes of a reply may leave in any pieces. *)
Inductive move {H} (h : handler H) : H -> sconn -> H -> sconn -> list (srequest * answer_of) -> Prop :=
| M_read : forall st s p out q s' p', read_request p s = ((Ok q, s'), p') ->
    move h st (mkSC s p Reading out) st (mkSC s' p' (Calling q) out) []
| M_bad : forall st s p out e s' p', read_request p s = ((Err e, s'), p') ->
    move h st (mkSC s p Reading out) st (mkSC s' p' (Over (Closed e)) out) []
| M_crash : forall st s p out s' p', read_request p s = ((Panic, s'), p') ->
    move h st (mkSC s p Reading out) st (mkSC s' p' (Over Crashed) out) []
| M_handle : forall st s p out q, 
    move h st (mkSC s p (Calling q) out) (fst (h st q)) (mkSC s p (Answered q (snd (h st q))) out) [(q, snd (h st q))]
| M_refused : forall st s p out q e,
    move h st (mkSC s p (Answered q (Err e)) out) st (mkSC s p (Over (Closed e)) out) []
| M_handler_crash : forall st s p out q,
    move h st (mkSC s p (Answered q Panic) out) st (mkSC s p (Over Crashed) out) []
| M_reply : forall st s p out q res b, write_response p q res = Ok b ->
    move h st (mkSC s (Some p) (Answered q (Ok res)) out) st (mkSC s (Some p) (Writing b) out) []
| M_no_reply : forall st s p out q res e, write_response p q res = Err e ->
    move h st (mkSC s (Some p) (Answered q (Ok res)) out) st (mkSC s (Some p) (Over (Closed e)) out) []
| M_reply_crash : forall st s p out q res, write_response p q res = Panic ->
    move h st (mkSC s (Some p) (Answered q (Ok res)) out) st (mkSC s (Some p) (Over Crashed) out) []
| M_write : forall st s p out a b,
    move h st (mkSC s p (Writing (a ++ b)) out) st (mkSC s p (Writing b) (out ++ a)) []
| M_written : forall st s p out,
    move h st (mkSC s p (Writing []) out) st (mkSC s p Reading out) []
| M_lost : forall st s p out b,
    move h st (mkSC s p (Writing b) out) st (mkSC s p Lost out) [].

(** The process. [v_log]: the handler calls in the order of their effects, with the connection. *)
Record server_state (H : Type) := mkV {
  v_handler : H;
  v_conns : nat -> sconn;
  v_log : list (nat * (srequest * answer_of));
  v_listening : bool;                            (* Serve has not returned *)
  v_down : bool                                  (* a panic ended the process *)
}.
Arguments mkV {H}. Arguments v_handler {H}. Arguments v_conns {H}. Arguments v_log {H}. Arguments v_listening {H}. Arguments v_down {H}.
Definition set_conn (f : nat -> sconn) (i : nat) (x : sconn) : nat -> sconn := fun j => if Nat.eqb j i then x else f j.
Definition crashed (x : sconn) : bool := match sc_phase x with Over Crashed => true | _ => false end.

(** One step of the process: of connection [Some i], or of the listener. *)
Inductive sstep {H} (h : handler H) : option nat -> server_state H -> server_state H -> Prop :=
| V_accept : forall v i s p out, v_down v = false -> v_listening v = true -> v_conns v i = mkSC s p Offered out ->     (* 478-488 *)
    sstep h (Some i) v (mkV (v_handler v) (set_conn (v_conns v) i (mkSC s p Reading out)) (v_log v) true false)
| V_accept_fails : forall v, v_down v = false -> v_listening v = true ->                                               (* 479-481 *)
    sstep h None v (mkV (v_handler v) (v_conns v) (v_log v) false false)
| V_move : forall v i st' x' new, v_down v = false -> move h (v_handler v) (v_conns v i) st' x' new ->
    sstep h (Some i) v (mkV st' (set_conn (v_conns v) i x') (v_log v ++ map (pair i) new) (v_listening v) (crashed x')).
Inductive ssteps {H} (h : handler H) (who : option nat -> Prop) : server_state H -> server_state H -> Prop :=
| v_refl : forall v, ssteps h who v v
| v_step : forall v u w k, ssteps h who v u -> who k -> sstep h k u w -> ssteps h who v w.
Definition anyone (k : option nat) : Prop := True.

(** A server that has just been started: connection [i] will send [streams i]. *)
Definition listening {H} (st : H) (streams : nat -> bytes) : server_state H :=
  mkV st (fun i => mkSC (streams i) None Offered []) [] true false.
