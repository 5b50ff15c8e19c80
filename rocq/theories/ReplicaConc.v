(** * Goroutines sharing a ReplicaPool, cluster/cluster.go:31-130.

    ReplicaPool has no lock: its methods are the programs of Replica.v, and the calls on server objects that
    different goroutines make interleave freely (each is one step: the methods of a server object hold its
    mutex, C19). A goroutine calls the methods of the pool one after the other, in any order and with any
    arguments; between any two steps time may pass. GetMulti is not among the calls here. *)
From Verif Require Import GoBytes GoNum GoIO Item Ring Pool Replica.
Local Open Scope Z_scope.

(** What happens, in order. *)
Inductive gevent :=
| GBegin (t : nat) (o : rop)                                      (* goroutine t calls a method of the pool *)
| GCall (t : nat) (sv : server) (o : op) (a : outcome result)      (* ... which calls a server, which answers *)
| GReturn (t : nat) (o : rop) (r : outcome result)                (* ... and returns *)
| GTime (d : Z).                                                  (* time passes *)

Record pool_state (ST : Type) := mkG {
  g_world : world ST;                                   (* the servers *)
  g_now : nat -> option (rop * prog);                   (* the method a goroutine is in and what is left of it *)
  g_log : list gevent
}.
Arguments mkG {ST}. Arguments g_world {ST}. Arguments g_now {ST}. Arguments g_log {ST}.
Definition set_now (f : nat -> option (rop * prog)) (t : nat) (x : option (rop * prog)) : nat -> option (rop * prog) :=
  fun j => if Nat.eqb j t then x else f j.

Section Shared.
Context {ST : Type}.
Variable step : ST -> op -> ST * outcome result.       (* one call on a server object *)
Variable later : ST -> Z -> ST.                        (* a server some time later *)
Variable pn sn : list node.                            (* p.primary, p.secondary *)

Inductive gstep : pool_state ST -> pool_state ST -> Prop :=
| G_begin : forall v t o, g_now v t = None ->
    gstep v (mkG (g_world v) (set_now (g_now v) t (Some (o, rp_prog pn sn o))) (g_log v ++ [GBegin t o]))
| G_call : forall v t o sv c k, g_now v t = Some (o, Call sv c k) ->
    let wr := server_call step (g_world v) sv c in
    gstep v (mkG (fst wr) (set_now (g_now v) t (Some (o, k (snd wr)))) (g_log v ++ [GCall t sv c (snd wr)]))
| G_return : forall v t o r, g_now v t = Some (o, Ret r) ->
    gstep v (mkG (g_world v) (set_now (g_now v) t None) (g_log v ++ [GReturn t o r]))
| G_time : forall v d, 0 <= d ->
    gstep v (mkG (fun n => later (g_world v n) d) (g_now v) (g_log v ++ [GTime d])).
Inductive gsteps : pool_state ST -> pool_state ST -> Prop :=
| g_refl : forall v, gsteps v v
| g_step : forall v u w, gsteps v u -> gstep u w -> gsteps v w.
(** No method has been called yet. *)
Definition pool_fresh (w : world ST) : pool_state ST := mkG w (fun _ => None) [].
End Shared.
