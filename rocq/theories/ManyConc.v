(** * Many clients of one memcached, whose connections can be lost at any moment.

    Any number of server objects (client/server.go:113-160), in one process or in many, each with its own
    connection to the same daemon and its own mutex, each shared by any number of goroutines. A call is
    s.mu.Lock(), write, Flush, read (Conc.v; client/server.go:198-257 and so on); its steps, those of the
    network and those of the daemon interleave in any order, and time passes at any moment. *)
From Verif Require Import GoBytes GoNum GoIO Item ClientText ClientMeta ClientBinary Cache Daemon Spec Call Conc PoolConc.

(** Call number [n]. *)
Inductive nevent :=
| NBegin (n t i : nat) (o : op)                        (* goroutine t calls method o of server object i *)
| NEnd (n : nat) (r : outcome result)                  (* ... which returns r *)
| NTime (d : Z)                                        (* the clock advances *)
| NLoss (i : nat).                                     (* the connection of server object i is lost *)
Record nstate := mkN {
  n_cache : cache;                                     (* the daemon *)
  n_object : nat -> cstate;                            (* the server objects; their [cs_cache] is not used *)
  n_up : nat -> bool;                                  (* the connection exists *)
  n_now : nat -> option nat;                           (* the number of the call a goroutine is in *)
  n_todo : nat -> list (nat * op);                     (* what a goroutine is to call, on which object *)
  n_next : nat
}.
Definition facing (s : cstate) (c : cache) : cstate :=
  mkC (cs_lock s) (cs_threads s) (cs_header s) (cs_out s) (cs_pending s) c (cs_in s) (cs_buf s) (cs_log s).
Definition object (v : nstate) (i : nat) : cstate := facing (n_object v i) (n_cache v).
(** What is sent on a lost connection does not arrive, neither requests nor answers: nothing is added to
    what was under way. *)
Definition into_the_void (s s' : cstate) : cstate :=
  mkC (cs_lock s') (cs_threads s') (cs_header s') (firstn (length (cs_out s)) (cs_out s')) (cs_pending s') (cs_cache s')
      (firstn (length (cs_in s)) (cs_in s')) (cs_buf s') (cs_log s').
Definition with_object (v : nstate) (i : nat) (s : cstate) : nstate :=
  mkN (cs_cache s) (put_at (n_object v) i s) (n_up v) (n_now v) (n_todo v) (n_next v).

Inductive nstep (cl : nat -> client) : nstate * list nevent -> nstate * list nevent -> Prop :=
| N_begin : forall v L t i o os, n_now v t = None -> n_todo v t = (i, o) :: os ->
    nstep cl (v, L) (mkN (n_cache v) (put_at (n_object v) i (enter (n_object v i) t o)) (n_up v) (put_at (n_now v) t (Some (n_next v))) (put_at (n_todo v) t os) (S (n_next v)),
                     L ++ [NBegin (n_next v) t i o])
| N_inside : forall v L i s', cstep (cl i) (object v i) s' -> cs_log s' = cs_log (object v i) ->
    nstep cl (v, L) (with_object v i (if n_up v i then s' else into_the_void (object v i) s'), L)
| N_end : forall v L i t n o r s', cstep (cl i) (object v i) s' -> cs_log s' = cs_log (object v i) ++ [LDone t o r] -> n_now v t = Some n ->
    nstep cl (v, L) (mkN (n_cache v) (put_at (n_object v) i s') (n_up v) (put_at (n_now v) t None) (n_todo v) (n_next v), L ++ [NEnd n r])
| N_time : forall v L d, (0 <= d)%Z ->
    nstep cl (v, L) (mkN (tick (n_cache v) d) (n_object v) (n_up v) (n_now v) (n_todo v) (n_next v), L ++ [NTime d])
(** The connection is lost; of what is under way, what has come so far may still arrive. *)
| N_loss : forall v L i a a' b b', n_up v i = true -> cs_out (n_object v i) = a ++ a' -> cs_in (n_object v i) = b ++ b' ->
    let s := n_object v i in
    nstep cl (v, L) (mkN (n_cache v) (put_at (n_object v) i (mkC (cs_lock s) (cs_threads s) (cs_header s) a (cs_pending s) (cs_cache s) b (cs_buf s) (cs_log s)))
                         (put_at (n_up v) i false) (n_now v) (n_todo v) (n_next v), L ++ [NLoss i])
(** A write fails that has something left to send, or a read does for want of bytes, when all that are at
    hand have been consumed; the call fails with it (io errors are EIO here, as everywhere). *)
| N_fail_write : forall v L i t n o rq os, n_up v i = false -> let s := n_object v i in
    cs_threads s t = mkThread (Sending o rq) os -> rq <> [] -> n_now v t = Some n ->
    nstep cl (v, L) (mkN (n_cache v) (put_at (n_object v) i (mkC None (set_thread (cs_threads s) t (mkThread Idle os)) (cs_header s) (cs_out s) (cs_pending s) (cs_cache s) (cs_in s) (cs_buf s) (cs_log s)))
                         (n_up v) (put_at (n_now v) t None) (n_todo v) (n_next v), L ++ [NEnd n (Err EIO)])
| N_fail_read : forall v L i t n o os, n_up v i = false -> let s := n_object v i in
    cs_threads s t = mkThread (Waiting o) os -> fst (cl_resp (cl i) o (cs_buf s)) = Err EIO -> n_now v t = Some n ->
    nstep cl (v, L) (mkN (n_cache v) (put_at (n_object v) i (mkC None (set_thread (cs_threads s) t (mkThread Idle os)) (cs_header s) (cs_out s) (cs_pending s) (cs_cache s) [] [] (cs_log s)))
                         (n_up v) (put_at (n_now v) t None) (n_todo v) (n_next v), L ++ [NEnd n (Err EIO)]).
Inductive nsteps (cl : nat -> client) : nstate * list nevent -> nstate * list nevent -> Prop :=
| ns_refl : forall v, nsteps cl v v
| ns_step : forall v u w, nsteps cl v u -> nstep cl u w -> nsteps cl v w.
(** All connected to a daemon in the state [c]; goroutine [t] is to make the calls [progs t]. *)
Definition many_started (c : cache) (h : nat -> req_header) (progs : nat -> list (nat * op)) : nstate :=
  mkN c (fun i => started c (h i) (fun _ => [])) (fun _ => true) (fun _ => None) progs 0.

(** ** Specification: the log with the moments at which the calls take effect. *)
Inductive effectful := Seen (e : nevent) | Effective (n : nat) (o : op) (r : outcome result).
Definition seen_only (M : list effectful) : list nevent := flat_map (fun m => match m with Seen e => [e] | Effective _ _ _ => [] end) M.
(** A call takes effect at most once and not before it begins; a call that returns something else than an io
    error has taken effect before it returns, and returns what it was to return then. *)
Definition effects_are_right (L : list nevent) (M : list effectful) : Prop :=
  seen_only M = L
  /\ (forall M1 n o r M2, M = M1 ++ Effective n o r :: M2 -> (exists t i, In (Seen (NBegin n t i o)) M1) /\ forall o' r', ~ In (Effective n o' r') M1)
  /\ (forall M1 n r M2, M = M1 ++ Seen (NEnd n r) :: M2 -> r = Err EIO \/ exists o, In (Effective n o r) M1).
(** The history that the effects and the clock make, and what the calls are to return. *)
Definition story (M : list effectful) : list event :=
  flat_map (fun m => match m with Effective _ o _ => [Do o] | Seen (NTime d) => [Wait d] | _ => [] end) M.
Definition told (M : list effectful) : list (outcome result) := flat_map (fun m => match m with Effective _ _ r => [r] | _ => [] end) M.
(** The calls goroutine [t] has begun, and their numbers. *)
Definition called (t : nat) (L : list nevent) : list (nat * op) :=
  flat_map (fun e => match e with NBegin _ u i o => if Nat.eqb u t then [(i, o)] else [] | _ => [] end) L.
Definition numbers (L : list nevent) : list nat := flat_map (fun e => match e with NBegin n _ _ _ => [n] | _ => [] end) L.
