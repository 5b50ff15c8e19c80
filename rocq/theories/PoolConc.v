(** * Goroutines sharing a SinglePool, client/client.go:27-115.

    SinglePool has no lock of its own: the ring is only read, and each method is a sequence of calls of
    Server methods made by the calling goroutine. Those are the calls of Conc.v (mutex, writes, network,
    daemon), one such system per server; the steps of all of them interleave. *)
From Verif Require Import GoBytes GoNum GoIO Item ClientText ClientMeta ClientBinary Cache Daemon Spec Call Guard Ring Pool Conc.

(** What a goroutine has left to do: calls of server objects, each depending on the results so far. *)
Inductive prog := Stop | Then (j : nat) (o : op) (k : outcome result -> prog).

(** c.ring.Pick(key).Op(...), client/client.go:38, 42, 46, 50, 76, 80, 84, 88; a panic (no servers) ends it. *)
Definition prog_key (nodes : list node) (key : bytes) (o : op) (k : outcome result -> prog) : prog :=
  match pick nodes key with Ok sv => Then (sv_id sv) o k | _ => Stop end.
(** SinglePool.Flush, client/client.go:91-95, with Ring.Each over the map in the given order, client/ring.go:82-90. *)
Fixpoint prog_flush (order : list server) (k : outcome result -> prog) : prog :=
  match order with
  | [] => k (Ok RUnit)
  | sv :: rest => Then (sv_id sv) OFlush (fun r => match r with Ok _ => prog_flush rest k | Err e => k (Err e) | Panic => Stop end)
  end.
(** SinglePool.GetMulti, client/client.go:63-72, over the groups in the given order. *)
Fixpoint prog_groups (servers : list server) (groups : list (bytes * list bytes)) (acc : list item) (k : outcome result -> prog) : prog :=
  match groups with
  | [] => k (Ok (RItems acc))
  | (name, ks) :: rest =>
      match find_server servers name with
      | None => Stop
      | Some sv => Then (sv_id sv) (OGetMulti ks)
                     (fun r => match r with Ok (RItems l) => prog_groups servers rest (acc ++ l) k | Ok _ => Stop | Err e => k (Err e) | Panic => Stop end)
      end
  end.

(** Completed calls of server [j] and the passing of time, in the order in which they happened. *)
Inductive pentry := PDone (j t : nat) (o : op) (r : outcome result) | PTick (d : Z).
Record pstate := mkP {
  ps_server : nat -> cstate;                  (* every server object with its connection and daemon *)
  ps_at : nat -> option (nat * (outcome result -> prog));   (* the call a goroutine is in, and what follows *)
  ps_prog : nat -> prog;                      (* what a goroutine outside any call does next *)
  ps_log : list pentry
}.
Definition put_at {A} (f : nat -> A) (i : nat) (x : A) : nat -> A := fun j => if Nat.eqb j i then x else f j.
(** Goroutine [t] enters method [o] of a server. *)
Definition enter (s : cstate) (t : nat) (o : op) : cstate :=
  mkC (cs_lock s) (set_thread (cs_threads s) t (mkThread Idle [o])) (cs_header s) (cs_out s) (cs_pending s) (cs_cache s) (cs_in s) (cs_buf s) (cs_log s).
Definition ticked (s : cstate) (d : Z) : cstate :=
  mkC None (cs_threads s) (cs_header s) [] [] (tick (cs_cache s) d) (cs_in s) (cs_buf s) (cs_log s ++ [LTick d]).
Definition at_rest (s : cstate) : Prop := cs_lock s = None /\ cs_out s = [] /\ cs_pending s = [].

(** One step: of a goroutine between calls, of one server's system (Conc.v), or of the clock. Time passes
    for all daemons at once and, as in Conc.v, while no call is under way. *)
Inductive pstep (cl : nat -> client) : pstate -> pstate -> Prop :=
| P_call : forall p t j o k, ps_at p t = None -> ps_prog p t = Then j o k ->
    pstep cl p (mkP (put_at (ps_server p) j (enter (ps_server p j) t o)) (put_at (ps_at p) t (Some (j, k))) (put_at (ps_prog p) t Stop) (ps_log p))
| P_inside : forall p j s', cstep (cl j) (ps_server p j) s' -> cs_log s' = cs_log (ps_server p j) ->
    pstep cl p (mkP (put_at (ps_server p) j s') (ps_at p) (ps_prog p) (ps_log p))
| P_return : forall p j t o r k s', cstep (cl j) (ps_server p j) s' -> cs_log s' = cs_log (ps_server p j) ++ [LDone t o r] -> ps_at p t = Some (j, k) ->
    pstep cl p (mkP (put_at (ps_server p) j s') (put_at (ps_at p) t None) (put_at (ps_prog p) t (k r)) (ps_log p ++ [PDone j t o r]))
| P_clock : forall p d, (forall j, at_rest (ps_server p j)) ->
    pstep cl p (mkP (fun j => ticked (ps_server p j) d) (ps_at p) (ps_prog p) (ps_log p ++ [PTick d])).
Inductive psteps (cl : nat -> client) : pstate -> pstate -> Prop :=
| ps_refl : forall p, psteps cl p p
| ps_step : forall p u v, psteps cl p u -> pstep cl u v -> psteps cl p v.

(** Connected to daemons in the states [c], with no call under way. *)
Definition pool_started (c : nat -> cache) (h : nat -> req_header) (progs : nat -> prog) : pstate :=
  mkP (fun j => started (c j) (h j) (fun _ => [])) (fun _ => None) progs [].
