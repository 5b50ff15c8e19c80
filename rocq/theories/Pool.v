(** * SinglePool, client/client.go:27-115, and Ring.Each / Ring.Close, client/ring.go:82-101.

    The servers are abstract: a state type, the effect of one operation and of Close. They are
    instantiated with the abstract cache and with the protocol clients. *)
From Verif Require Import GoBytes GoNum GoIO Item Ring.
Local Open Scope Z_scope.

Section Pool.
Context {ST : Type}.
Variable step : ST -> op -> ST * outcome result.
Variable close : ST -> ST * outcome unit.

(** The state of every server object, by identity. *)
Definition world := nat -> ST.
Definition upd (w : world) (i : nat) (s : ST) : world := fun j => if Nat.eqb j i then s else w j.

Definition server_call (w : world) (sv : server) (o : op) : world * outcome result :=
  let sr := step (w (sv_id sv)) o in (upd w (sv_id sv) (fst sr), snd sr).

(** c.ring.Pick(key).Op(...): client/client.go:38, 42, 46, 50, 76, 80, 84, 88. *)
Definition routed (nodes : list node) (w : world) (key : bytes) (o : op) : world * outcome result :=
  match pick nodes key with
  | Ok sv => server_call w sv o
  | Err e => (w, Err e)
  | Panic => (w, Panic)
  end.

(** GetMulti's keyMap, client/client.go:54-61: keys grouped by server name. *)
Fixpoint add_key (m : list (bytes * list bytes)) (name k : bytes) : list (bytes * list bytes) :=
  match m with
  | [] => [(name, [k])]
  | (n, ks) :: m' => if beq n name then (n, ks ++ [k]) :: m' else (n, ks) :: add_key m' name k
  end.

Fixpoint group_keys (nodes : list node) (m : list (bytes * list bytes)) (ks : list bytes)
  : outcome (list (bytes * list bytes)) :=
  match ks with
  | [] => Ok m
  | k :: ks' => match pick nodes k with
                | Ok sv => group_keys nodes (add_key m (sv_name sv) k) ks'
                | Err e => Err e
                | Panic => Panic
                end
  end.

(** The loop client/client.go:63-72 over the groups in the order Go iterates the map. *)
Fixpoint run_groups (servers : list server) (w : world) (groups : list (bytes * list bytes))
  (acc : list item) : world * outcome (list item) :=
  match groups with
  | [] => (w, Ok acc)
  | (name, ks) :: rest =>
      match find_server servers name with
      | None => (w, Panic)                         (* a nil Server *)
      | Some sv =>
          match server_call w sv (OGetMulti ks) with
          | (w', Ok (RItems l)) => run_groups servers w' rest (acc ++ l)
          | (w', Ok _) => (w', Panic)              (* not a GetMulti result: excluded by typing in Go *)
          | (w', Err e) => (w', Err e)
          | (w', Panic) => (w', Panic)
          end
      end
  end.

(** GetMulti, client/client.go:53-73: [r] is a possible result from world [w], the groups being
    visited in some order. *)
Definition pool_getmulti (servers : list server) (nodes : list node) (w : world) (ks : list bytes)
  (w' : world) (r : outcome (list item)) : Prop :=
  match group_keys nodes [] ks with
  | Ok m => exists groups, Permutation groups m /\ run_groups servers w groups [] = (w', r)
  | Err e => w' = w /\ r = Err e
  | Panic => w' = w /\ r = Panic
  end.

(** Ring.Each over the map in a given order, client/ring.go:82-90: the first error stops it. *)
Fixpoint each (fn : world -> server -> world * outcome unit) (order : list server) (w : world)
  : world * outcome unit :=
  match order with
  | [] => (w, Ok tt)
  | s :: rest => match fn w s with
                 | (w', Ok _) => each fn rest w'
                 | (w', Err e) => (w', Err e)
                 | (w', Panic) => (w', Panic)
                 end
  end.

Definition drop_result (p : world * outcome result) : world * outcome unit :=
  (fst p, match snd p with Ok _ => Ok tt | Err e => Err e | Panic => Panic end).

(** SinglePool.Flush, client/client.go:91-95. *)
Definition pool_flush (order : list server) (w : world) : world * outcome unit :=
  each (fun w s => drop_result (server_call w s OFlush)) order w.

(** SinglePool.Close, client/client.go:111-115. *)
Definition close_call (w : world) (sv : server) : world * outcome unit :=
  let sr := close (w (sv_id sv)) in (upd w (sv_id sv) (fst sr), snd sr).
Definition pool_close (order : list server) (w : world) : world * outcome unit :=
  each close_call order w.

(** SinglePool.Version, client/client.go:97-109: the map built so far is returned with the error. *)
Fixpoint pool_version (order : list server) (w : world) (acc : list (bytes * bytes))
  : world * list (bytes * bytes) * outcome unit :=
  match order with
  | [] => (w, acc, Ok tt)
  | s :: rest => match server_call w s OVersion with
                 | (w', Ok (RStr v)) => pool_version rest w' (acc ++ [(sv_name s, v)])
                 | (w', Ok _) => (w', acc, Panic)  (* excluded by typing in Go *)
                 | (w', Err e) => (w', acc, Err e)
                 | (w', Panic) => (w', acc, Panic)
                 end
  end.

(** Ring.Close, client/ring.go:92-101: all are closed, the last error is returned. *)
Fixpoint ring_close (order : list server) (w : world) (e : option err) : world * outcome unit :=
  match order with
  | [] => (w, match e with None => Ok tt | Some x => Err x end)
  | s :: rest => match close_call w s with
                 | (w', Ok _) => ring_close rest w' e
                 | (w', Err x) => ring_close rest w' (Some x)
                 | (w', Panic) => (w', Panic)
                 end
  end.

(** All single-key operations of SinglePool, by the key they carry. *)
Definition op_key (o : op) : option bytes :=
  match o with
  | OGet k | ODelete k | OIncr k _ _ | ODecr k _ _ | OTouch k _ => Some k
  | OSet i | OAdd i | OReplace i => Some (it_key i)
  | OGetMulti _ | OFlush | OVersion => None
  end.
End Pool.
Arguments world : clear implicits.
