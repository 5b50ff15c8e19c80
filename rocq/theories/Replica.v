(** * ReplicaPool, cluster/cluster.go.

    A call on the pool is a program: a sequence of calls on server objects, each depending on the
    previous answers. A call on a server object is one atomic step (its methods hold the object's
    mutex, C19). The same programs are run alone and interleaved with those of other goroutines. *)
From Verif Require Import GoBytes GoNum GoIO Item Ring Pool.
Local Open Scope Z_scope.

Inductive prog :=
| Ret (r : outcome result)                                   (* return, or a panic *)
| Call (sv : server) (o : op) (k : outcome result -> prog).  (* r, err := sv.Op(...); ... *)

(** ring.Pick(key).Op(...). *)
Definition on_ring (nodes : list node) (key : bytes) (o : op) (k : outcome result -> prog) : prog :=
  match pick nodes key with
  | Ok sv => Call sv o k
  | Err e => Ret (Err e)
  | Panic => Ret Panic
  end.
(** if err != nil { return err }. A panic in a callee ends the goroutine. *)
Definition if_ok (r : outcome result) (k : result -> prog) : prog :=
  match r with Ok x => k x | Err e => Ret (Err e) | Panic => Ret Panic end.

(** The calls of ReplicaPool (GetMulti is separate, it ranges over a map). *)
Inductive rop :=
| RGet (k : bytes)
| RSet (i : item)
| RAdd (i : item)
| RReplace (i : item)
| RDelete (k : bytes)
| RIncr (k : bytes) (delta expiration : Z)
| RDecr (k : bytes) (delta expiration : Z).
Definition rop_key (o : rop) : bytes :=
  match o with RSet i | RAdd i | RReplace i => it_key i | RGet k | RDelete k | RIncr k _ _ | RDecr k _ _ => k end.

Section ReplicaPool.
Variable pn : list node.        (* p.primary *)
Variable sn : list node.        (* p.secondary *)

(** Get, cluster/cluster.go:31-33. *)
Definition rp_get (k : bytes) : prog := on_ring pn k (OGet k) Ret.

(** Set, Add, Replace, cluster/cluster.go:57-79: only the first call differs. *)
Definition rp_store (first : item -> op) (i : item) : prog :=
  on_ring pn (it_key i) (first i) (fun r => if_ok r (fun _ => on_ring sn (it_key i) (OSet i) Ret)).

(** Delete, cluster/cluster.go:81-87. *)
Definition rp_delete (k : bytes) : prog :=
  on_ring pn k (ODelete k) (fun r => if_ok r (fun _ => on_ring sn k (ODelete k) Ret)).

(** Increment and Decrement, cluster/cluster.go:89-130. When the Get fails Go returns the counter
    along with the error (lines 96-98, 118-120); here only the error. *)
Definition replica_item (k : bytes) (i : item) : item := mkItem k (it_value i) (it_flags i) (it_exp i) 0 [].
Definition rp_delta (o : op) (k : bytes) : prog :=
  match pick pn k with
  | Ok s =>
      Call s o (fun r => if_ok r (fun n =>
        Call s (OGet k) (fun r => if_ok r (fun g =>
          match g with
          | RItem i => on_ring sn k (OSet (replica_item k i)) (fun r => if_ok r (fun _ => Ret (Ok n)))
          | _ => Ret Panic                            (* not a Get result: excluded by typing in Go *)
          end))))
  | Err e => Ret (Err e)
  | Panic => Ret Panic
  end.

Definition rp_prog (o : rop) : prog :=
  match o with
  | RGet k => rp_get k
  | RSet i => rp_store OSet i
  | RAdd i => rp_store OAdd i
  | RReplace i => rp_store OReplace i
  | RDelete k => rp_delete k
  | RIncr k d e => rp_delta (OIncr k d e) k
  | RDecr k d e => rp_delta (ODecr k d e) k
  end.

(** GetMulti, cluster/cluster.go:35-55: line by line SinglePool.GetMulti on the primary ring. *)
Definition rp_getmulti {ST} (step : ST -> op -> ST * outcome result) (primary : list server) :=
  pool_getmulti step primary pn.
End ReplicaPool.

(** ** Running programs *)
Section Run.
Context {ST : Type}.
Variable step : ST -> op -> ST * outcome result.

(** Alone. *)
Fixpoint exec (p : prog) (w : world ST) : world ST * outcome result :=
  match p with
  | Ret r => (w, r)
  | Call sv o k => let wr := server_call step w sv o in exec (k (snd wr)) (fst wr)
  end.

(** Interleaved with others: in each step one goroutine makes its next call. *)
Fixpoint set_nth {A} (n : nat) (x : A) (l : list A) : list A :=
  match n, l with
  | O, _ :: l' => x :: l'
  | S n', y :: l' => y :: set_nth n' x l'
  | _, [] => []
  end.
Inductive interleave : nat -> world ST -> list prog -> world ST -> list prog -> Prop :=
| il_done : forall w ts, interleave 0 w ts w ts
| il_step : forall n i sv o k w ts w' ts', nth_error ts i = Some (Call sv o k) ->
    interleave n (fst (server_call step w sv o)) (set_nth i (k (snd (server_call step w sv o))) ts) w' ts' ->
    interleave (S n) w ts w' ts'.
End Run.
