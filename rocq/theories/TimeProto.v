(** * SPECIFICATION: what the effects in a log (TimePool.v) are, for servers spoken to in any protocol.

    Not repository code. Server [j] of the pool (client/client.go:27-61; client/server.go:87-111: any type with these methods)
    was made for protocol [pr j]; each call is executed as a whole on the cache of its server, and is to
    return what Exact.v says. *)
From Verif Require Import GoBytes GoNum GoIO Item Cache Daemon Spec Call Guard Exact Conc PoolConc TimePool.
Local Open Scope Z_scope.
Fixpoint explained_exactly (pr : nat -> proto) (name : nat -> bytes) (c : nat -> cache) (M : list mevent) : Prop :=
  match M with
  | [] => True
  | Effect _ j o r :: M' =>
      let cr := exact_step (pr j) (name j) 0 (c j) o in
      agrees (snd cr) r /\ explained_exactly pr name (put_at c j (fst cr)) M'
  | Logged (VTime d) :: M' => explained_exactly pr name (fun i => tick (c i) d) M'
  | Logged _ :: M' => explained_exactly pr name c M'
  end.
