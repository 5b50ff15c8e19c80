(** * SPECIFICATION: calls on a ReplicaPool, histories, and what it means that the replicas agree. *)
From Verif Require Import GoBytes GoNum GoIO Item Cache Spec Daemon Ring Pool Call Replica.
Local Open Scope Z_scope.

(** What happens when a program runs and the servers may answer anything: the calls it made, in
    order, with their answers, and what it returned. *)
Record made := mkMade { m_server : server; m_op : op; m_answer : outcome result }.
Inductive behaves : prog -> list made -> outcome result -> Prop :=
| b_ret : forall r, behaves (Ret r) [] r
| b_call : forall sv o k a t r, behaves (k a) t r -> behaves (Call sv o k) (mkMade sv o a :: t) r.

(** The operation a pool call performs on the primary, and whether it writes. *)
Definition primary_op (o : rop) : op :=
  match o with
  | RGet k => OGet k | RSet i => OSet i | RAdd i => OAdd i | RReplace i => OReplace i
  | RDelete k => ODelete k | RIncr k d e => OIncr k d e | RDecr k d e => ODecr k d e
  end.
Definition writes (o : rop) : bool := match o with RGet _ => false | _ => true end.
Definition is_write (o : op) : bool := match o with OGet _ | OGetMulti _ | OVersion => false | _ => true end.
Definition legal_rop (o : rop) : Prop := legal PMeta (primary_op o).

(** A ReplicaPool is configured with servers of the meta protocol, each with its own memcached. *)
Definition meta_server (l : link) (o : op) : link * outcome result := call meta_client l o.

(** A sequential history. No time passes during a call. *)
Inductive revent := RDo (o : rop) | RWait (d : Z).
Definition legal_revent (ev : revent) : Prop := match ev with RDo o => legal_rop o | RWait d => 0 <= d end.
Definition all_tick (w : world link) (d : Z) : world link := fun i => link_tick (w i) d.
Fixpoint history (pn sn : list node) (w : world link) (evs : list revent) : world link * list (outcome result) :=
  match evs with
  | [] => (w, [])
  | RWait d :: evs' => history pn sn (all_tick w d) evs'
  | RDo o :: evs' =>
      let wr := exec meta_server (rp_prog pn sn o) w in
      let wrs := history pn sn (fst wr) evs' in (fst wrs, snd wr :: snd wrs)
  end.
Definition succeeded (r : outcome result) : Prop := exists x, r = Ok x.

(** The item of a key as its owner in a ring holds it. *)
Definition held (nodes : list node) (w : world link) (k : bytes) : option entry :=
  match pick nodes k with Ok sv => lookup (l_cache (w (sv_id sv))) k | _ => None end.
(** Same value, flags and expiry time; cas numbers are per server. *)
Definition same_entry (a b : option entry) : Prop :=
  match a, b with
  | None, None => True
  | Some x, Some y => e_value x = e_value y /\ e_flags x = e_flags y /\ e_expire x = e_expire y
  | _, _ => False
  end.
Definition replicas_agree (pn sn : list node) (w : world link) : Prop :=
  forall k, same_entry (held pn w k) (held sn w k).

(** Increment and Decrement are only called on items that expire within 30 days. *)
Definition short_lived (w : world link) (nodes : list node) (k : bytes) : Prop :=
  match pick nodes k, held nodes w k with
  | Ok sv, Some e => exists t, e_expire e = Some t /\ t - c_now (l_cache (w (sv_id sv))) <= month
  | _, _ => True
  end.
Definition counter_guard (pn : list node) (w : world link) (o : rop) : Prop :=
  match o with RIncr k _ _ | RDecr k _ _ => short_lived w pn k | _ => True end.
Fixpoint counters_expire (pn sn : list node) (w : world link) (evs : list revent) : Prop :=
  match evs with
  | [] => True
  | RWait d :: evs' => counters_expire pn sn (all_tick w d) evs'
  | RDo o :: evs' => counter_guard pn w o /\ counters_expire pn sn (fst (exec meta_server (rp_prog pn sn o) w)) evs'
  end.

(** Two correctly configured rings of different server objects. *)
Definition two_rings (ps ss : list server) (pn sn : list node) : Prop :=
  ps <> [] /\ ss <> [] /\ NewRing ps pn /\ NewRing ss sn
  /\ (forall p s, In p ps -> In s ss -> sv_id p <> sv_id s)
  /\ NoDup (map sv_name ps) /\ NoDup (map sv_id ps) /\ NoDup (map sv_name ss) /\ NoDup (map sv_id ss).
(** All servers are idle, their clocks agree and they can give out [n] more cas numbers. *)
Definition good_world (n : Z) (svs : list server) (w : world link) : Prop :=
  exists now, forall sv, In sv svs -> exists c h, w (sv_id sv) = fresh_link c h /\ wf PMeta c
    /\ c_now c = now /\ c_cas c + n < 2 ^ 63.
Definition all_empty (svs : list server) (w : world link) : Prop :=
  forall sv k, In sv svs -> c_map (l_cache (w (sv_id sv))) k = None.

(** The secondary ring distributes the keys as the primary ring does. *)
Definition mirrored (pn sn : list node) : Prop := forall j k, pick pn j = pick pn k <-> pick sn j = pick sn k.
(** Owners of the same key have given out the same number of cas numbers. *)
Definition equal_counters (pn sn : list node) (w : world link) : Prop :=
  forall k p s, pick pn k = Ok p -> pick sn k = Ok s -> c_cas (l_cache (w (sv_id p))) = c_cas (l_cache (w (sv_id s))).

(** No two different goroutines write the same key. *)
Definition different_keys (os : list rop) : Prop :=
  forall i j a b, nth_error os i = Some a -> nth_error os j = Some b -> i <> j -> writes a = true -> writes b = true ->
  rop_key a <> rop_key b.
