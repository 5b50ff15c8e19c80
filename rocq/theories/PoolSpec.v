(** * SPECIFICATION: what it means that a pool of servers behaves as one cache. *)
From Verif Require Import GoBytes GoNum GoIO Item Cache Spec Ring Pool.
Local Open Scope Z_scope.

(** Results are compared without the Server field, which names the server that answered. *)
Definition hide_server (i : item) : item :=
  mkItem (it_key i) (it_value i) (it_flags i) (it_exp i) (it_cas i) [].
Definition hide (r : result) : result :=
  match r with
  | RItem i => RItem (hide_server i)
  | RItems l => RItems (map hide_server l)
  | r => r
  end.
Definition matches (s : sres) (o : outcome result) : Prop :=
  match s, o with
  | SOk r, Ok r' => hide r' = hide r
  | SErr e, Err e' => e' = e
  | SFail, Err e' => completed e'
  | _, _ => False
  end.

Definition with_cas (c : cache) (n : Z) : cache := mkCache (c_cfg c) (c_now c) n (c_map c).

(** A run of one single cache that may skip cas numbers: before an operation on key [k] its counter is
    set to any [n] not below [last k], the number in use when [k] was last operated on. So the cas
    numbers of a key never repeat and never decrease; nothing else is free. *)
Inductive one_cache (pr : proto) : cache -> (bytes -> Z) -> list event -> list sres -> Prop :=
| oc_nil : forall c last, one_cache pr c last [] []
| oc_key : forall c last o k n evs rs, op_key o = Some k -> last k <= n ->
    one_cache pr (fst (spec_step pr [] (with_cas c n) o))
      (fun j => if beq j k then c_cas (fst (spec_step pr [] (with_cas c n) o)) else last j) evs rs ->
    one_cache pr c last (Do o :: evs) (snd (spec_step pr [] (with_cas c n) o) :: rs)
| oc_flush : forall c last evs rs, one_cache pr (cache_flush c) last evs rs ->
    one_cache pr c last (Do OFlush :: evs) (SOk RUnit :: rs)
| oc_wait : forall c last d evs rs, one_cache pr (tick c d) last evs rs ->
    one_cache pr c last (Wait d :: evs) rs.

(** A history of calls on a SinglePool. Every Flush ranges over the server map in some order. *)
Section PoolRun.
Context {ST : Type}.
Variable step : ST -> op -> ST * outcome result.
Variable pass : ST -> Z -> ST.               (* time passes *)
Variable servers : list server.
Variable nodes : list node.
Definition unit_result (o : outcome unit) : outcome result :=
  match o with Ok _ => Ok RUnit | Err e => Err e | Panic => Panic end.
Inductive pool_run : world ST -> list event -> list (outcome result) -> Prop :=
| pr_nil : forall w, pool_run w [] []
| pr_key : forall w o k w' r evs rs, op_key o = Some k -> routed step nodes w k o = (w', r) ->
    pool_run w' evs rs -> pool_run w (Do o :: evs) (r :: rs)
| pr_flush : forall w order w' u evs rs, Permutation order (map_entries servers) ->
    pool_flush step order w = (w', u) -> pool_run w' evs rs ->
    pool_run w (Do OFlush :: evs) (unit_result u :: rs)
| pr_wait : forall w d evs rs, pool_run (fun i => pass (w i) d) evs rs -> pool_run w (Wait d :: evs) rs.
End PoolRun.
