(** * Goroutines sharing one server object while time passes.

    Conc.v lets time pass only between calls. Here the daemon's clock may advance at any moment, also while
    a request is being written, lies at the daemon, or is being answered; every other step is a step of
    Conc.v (each operation in client/server.go is s.mu.Lock(), write, Flush, read: e.g. 198-257, 701-721,
    1212-1267). The log says when calls begin (the mutex is taken) and end. *)
From Verif Require Import GoBytes GoNum GoIO Item ClientText ClientMeta ClientBinary Cache Daemon Spec Call Guard Conc.

Inductive tevent :=
| TBegin (t : nat) (o : op)                                (* goroutine t has taken the mutex *)
| TEnd (t : nat) (o : op) (r : outcome result)             (* ... and gives it back and returns *)
| TTime (d : Z).                                           (* the daemon's clock advances *)

Inductive tstep (cl : client) : cstate * list tevent -> cstate * list tevent -> Prop :=
| T_begin : forall s u L t o rq os, cstep cl s u -> cs_lock s = None -> cs_lock u = Some t -> cs_threads u t = mkThread (Sending o rq) os ->
    tstep cl (s, L) (u, L ++ [TBegin t o])
| T_quiet : forall s u L, cstep cl s u -> cs_lock u = cs_lock s -> cs_log u = cs_log s -> tstep cl (s, L) (u, L)
| T_end : forall s u L t o r, cstep cl s u -> cs_log u = cs_log s ++ [LDone t o r] -> tstep cl (s, L) (u, L ++ [TEnd t o r])
| T_time : forall s L d, (0 <= d)%Z ->
    tstep cl (s, L) (mkC (cs_lock s) (cs_threads s) (cs_header s) (cs_out s) (cs_pending s) (tick (cs_cache s) d) (cs_in s) (cs_buf s) (cs_log s), L ++ [TTime d]).
Inductive tsteps (cl : client) : cstate * list tevent -> cstate * list tevent -> Prop :=
| ts_refl : forall v, tsteps cl v v
| ts_step : forall v u w, tsteps cl v u -> tstep cl u w -> tsteps cl v w.

(** ** Specification: whole calls, each at one moment between its beginning and its end.

    [orders L E R]: the history [E] consists of the calls that begin and end in [L], which return [R], and
    of the passages of time of [L], in the order of [L], each call in one place between its beginning and
    its end. (Calls exclude each other, so nothing but time passes while one is under way.) *)
Inductive orders : list tevent -> list event -> list (outcome result) -> Prop :=
| o_nil : orders [] [] []
| o_time : forall d L E R, orders L E R -> orders (TTime d :: L) (Wait d :: E) R
| o_call : forall t o r a b L E R, orders L E R ->
    orders (TBegin t o :: map TTime a ++ map TTime b ++ TEnd t o r :: L) (map Wait a ++ Do o :: map Wait b ++ E) (r :: R).
(** What a call still under way has put into the log. *)
Definition under_way (L : list tevent) : Prop := L = [] \/ exists t o a, L = TBegin t o :: map TTime a.
(** The calls of goroutine [t] that have ended. *)
Definition ended (t : nat) (L : list tevent) : list op :=
  flat_map (fun e => match e with TEnd u o _ => if Nat.eqb u t then [o] else [] | _ => [] end) L.
(** The calls that put one command on the wire: all but GetMulti of the meta and binary clients, which
    sends one for each key (client/server.go:735-745, 1278-1297). *)
Definition one_command (pr : proto) (o : op) : Prop := match o with OGetMulti _ => pr = PText | _ => True end.
(** Each protocol's conditions (Guard.v) in every order in question. *)
Definition safe_in_time (pr : proto) (name : bytes) (last : Z) (c : cache) (L : list tevent) : Prop :=
  forall L1 L2 E R, L = L1 ++ L2 -> orders L1 E R -> safe_run pr name last c E.
