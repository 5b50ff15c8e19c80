(** * The binary client with sync.Pool as it is documented.

    client/server.go:1148, 1173-1175: every request takes a header object from s.reqHeaderPool and puts it
    back. Call.v passes one header from call to call; sync.Pool promises less: Get returns an arbitrary
    object from the pool or, at any time, a new one, and objects may be dropped at any time. The calls
    themselves are those of Call.v (s.mu is held, so that one call runs at a time). Response headers are
    pooled too, but Read overwrites every field (1797-1822), so nothing is left of their past. *)
From Verif Require Import GoBytes GoNum GoIO Item ClientBinary Cache Daemon Spec Call Exact.
Local Open Scope Z_scope.

Definition header_pool := list req_header.
(** The garbage collector empties the pool in part. *)
Inductive forgets : header_pool -> header_pool -> Prop :=
| fg_nil : forgets [] []
| fg_keep : forall h p p', forgets p p' -> forgets (h :: p) (h :: p')
| fg_drop : forall h p p', forgets p p' -> forgets (h :: p) p'.
(** Get: a new header (newBinaryRequestHeader, 1768-1770: all fields zero) or any from the pool. *)
Inductive takes : header_pool -> req_header -> header_pool -> Prop :=
| tk_new : forall p, takes p reset_header p
| tk_old : forall a h b, takes (a ++ h :: b) h (a ++ b).

Definition with_header (l : link) (h : req_header) : link := mkLink (l_cache l) (l_pending l) (l_unread l) h.
(** The header of GetMulti after its keys have been written, 1278-1289. *)
Definition after_keys (h : req_header) (ks : list bytes) : req_header := fold_left (fun _ k => key_header op_getkq k) ks h.

(** A call: the header is taken, used, and put back as the call leaves it (1221-1222, 1343-1344, 1503-1504,
    1569-1570, 1631-1632 and so on); GetMulti takes one for its keys and then one for its Noop (1278-1297). *)
Inductive pooled_call (l : link) (p : header_pool) : op -> link -> header_pool -> outcome result -> Prop :=
| pc_one : forall o h p0 p1 l' r, (forall ks, o <> OGetMulti ks) -> forgets p p0 -> takes p0 h p1 ->
    call bin_client (with_header l h) o = (l', r) -> pooled_call l p o l' (l_header l' :: p1) r
| pc_multi : forall ks h1 h2 p0 p1 p2 l' r, forgets p p0 -> takes p0 h1 p1 -> takes (after_keys h1 ks :: p1) h2 p2 ->
    call bin_client (with_header l h2) (OGetMulti ks) = (l', r) -> pooled_call l p (OGetMulti ks) l' (l_header l' :: p2) r.

(** A history of calls on one object. *)
Inductive pooled_run : link -> header_pool -> list xevent -> link -> header_pool -> list (outcome result) -> Prop :=
| pr_nil : forall l p, pooled_run l p [] l p []
| pr_do : forall l p o l1 p1 r evs l2 p2 rs, pooled_call l p o l1 p1 r -> pooled_run l1 p1 evs l2 p2 rs ->
    pooled_run l p (XDo o :: evs) l2 p2 (r :: rs)
| pr_wait : forall l p d evs l2 p2 rs, pooled_run (link_tick l d) p evs l2 p2 rs -> pooled_run l p (XWait d :: evs) l2 p2 rs
| pr_reconnect : forall l p evs l2 p2 rs, pooled_run (link_reconnect l) p evs l2 p2 rs -> pooled_run l p (XReconnect :: evs) l2 p2 rs.
