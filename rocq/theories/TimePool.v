(** * Goroutines sharing a SinglePool while time passes at any moment, client/client.go:27-115.

    PoolConc.v lets time pass only while no call is under way. Here the clock of all daemons may advance at
    any moment; every other step is a step of PoolConc.v. The log says when a goroutine calls a method of a
    server (before it waits for the mutex, client/server.go:199, 221, 260, ...) and when that method returns. *)
From Verif Require Import GoBytes GoNum GoIO Item Cache Daemon Spec Call Ring Pool Conc PoolConc.

Inductive vevent :=
| VBegin (t j : nat) (o : op)                          (* goroutine t calls method o of server j *)
| VEnd (t j : nat) (o : op) (r : outcome result)       (* ... which returns r *)
| VTime (d : Z).                                       (* the clock advances *)
Definition aged (s : cstate) (d : Z) : cstate :=
  mkC (cs_lock s) (cs_threads s) (cs_header s) (cs_out s) (cs_pending s) (tick (cs_cache s) d) (cs_in s) (cs_buf s) (cs_log s).

Inductive vstep (cl : nat -> client) : pstate * list vevent -> pstate * list vevent -> Prop :=
| V_begin : forall p L t j o k, ps_at p t = None -> ps_prog p t = Then j o k ->
    vstep cl (p, L) (mkP (put_at (ps_server p) j (enter (ps_server p j) t o)) (put_at (ps_at p) t (Some (j, k))) (put_at (ps_prog p) t Stop) (ps_log p), L ++ [VBegin t j o])
| V_inside : forall p L j s', cstep (cl j) (ps_server p j) s' -> cs_log s' = cs_log (ps_server p j) ->
    vstep cl (p, L) (mkP (put_at (ps_server p) j s') (ps_at p) (ps_prog p) (ps_log p), L)
| V_end : forall p L j t o r k s', cstep (cl j) (ps_server p j) s' -> cs_log s' = cs_log (ps_server p j) ++ [LDone t o r] -> ps_at p t = Some (j, k) ->
    vstep cl (p, L) (mkP (put_at (ps_server p) j s') (put_at (ps_at p) t None) (put_at (ps_prog p) t (k r)) (ps_log p ++ [PDone j t o r]), L ++ [VEnd t j o r])
| V_time : forall p L d, (0 <= d)%Z ->
    vstep cl (p, L) (mkP (fun j => aged (ps_server p j) d) (ps_at p) (ps_prog p) (ps_log p), L ++ [VTime d]).
Inductive vsteps (cl : nat -> client) : pstate * list vevent -> pstate * list vevent -> Prop :=
| vs_refl : forall v, vsteps cl v v
| vs_step : forall v u w, vsteps cl v u -> vstep cl u w -> vsteps cl v w.

(** ** Specification: a log with the moments at which the calls take effect.

    [Effect t j o r]: at this moment goroutine t's call takes effect, and it is to return r. *)
Inductive mevent := Logged (e : vevent) | Effect (t j : nat) (o : op) (r : outcome result).
Definition without_effects (M : list mevent) : list vevent := flat_map (fun m => match m with Logged e => [e] | Effect _ _ _ _ => [] end) M.
(** What concerns goroutine [t]. *)
Definition of_goroutine (t : nat) (m : mevent) : bool :=
  match m with
  | Logged (VBegin u _ _) | Logged (VEnd u _ _ _) | Effect u _ _ _ => Nat.eqb u t
  | Logged (VTime _) => false
  end.
(** One call after the other; each takes effect once, between its beginning and its end, and returns what
    it is to return; the last may still be under way. *)
Inductive in_turn (t : nat) : list mevent -> Prop :=
| it_none : in_turn t []
| it_begun : forall j o, in_turn t [Logged (VBegin t j o)]
| it_effective : forall j o r, in_turn t [Logged (VBegin t j o); Effect t j o r]
| it_call : forall j o r l, in_turn t l -> in_turn t (Logged (VBegin t j o) :: Effect t j o r :: Logged (VEnd t j o r) :: l).
Definition each_call_at_one_moment (L : list vevent) (M : list mevent) : Prop :=
  without_effects M = L /\ forall t, in_turn t (filter (of_goroutine t) M).
(** The history that the effects and the clock make, and what the calls are to return. *)
Definition history (M : list mevent) : list event :=
  flat_map (fun m => match m with Effect _ _ o _ => [Do o] | Logged (VTime d) => [Wait d] | _ => [] end) M.
Definition answers (M : list mevent) : list (outcome result) := flat_map (fun m => match m with Effect _ _ _ r => [r] | _ => [] end) M.
(** The calls goroutine [t] has begun. *)
Definition begun (t : nat) (L : list vevent) : list op :=
  flat_map (fun e => match e with VBegin u _ o => if Nat.eqb u t then [o] else [] | _ => [] end) L.
(** The same as a log of PoolConc.v, for calls made one after the other. *)
Definition effects (M : list mevent) : list pentry :=
  flat_map (fun m => match m with Effect t j o r => [PDone j t o r] | Logged (VTime d) => [PTick d] | _ => [] end) M.
