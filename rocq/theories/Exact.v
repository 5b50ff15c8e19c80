(** * SPECIFICATION: what the meta and the binary client do, deviations included.

    Not repository code. [spec_step] (Spec.v) is what a user expects; here is, in terms of the abstract
    cache only, what client/server.go makes of every legal call. The two differ in: the meta client's
    Delete of an absent key, Touch and GetMulti with a miss; the binary client's counters after an item
    with a cas number, Touch of an absent key, and Add and Replace of an item with a cas number. *)
From Verif Require Import GoBytes GoNum GoIO Item ClientText ClientMeta ClientBinary Cache Daemon Spec Call Guard.
Local Open Scope Z_scope.

(** The items of a GetMulti up to the first key that is absent. *)
Fixpoint until_a_miss (c : cache) (ks : list bytes) : list item :=
  match ks with
  | [] => []
  | k :: ks' => match lookup c k with Some e => item_view PMeta [] true c k e :: until_a_miss c ks' | None => [] end
  end.
Definition meta_exact (c : cache) (o : op) : cache * sres :=
  match o with
  | OGetMulti ks => (c, SOk (RItems (until_a_miss c ks)))
  | ODelete k => (fst (cache_delete c k), SOk RUnit)
  | OTouch k e => let cr := cache_invalidate c k (Some e) in (fst cr, if snd cr then SOk RUnit else SFail)
  | _ => spec_step PMeta [] c o
  end.

(** [last]: the cas number the previous calls left in the request header ([next_cas]); a counter is then
    changed only if its own cas number is that one. The expiration 2^32-1 forbids the creation. *)
Definition bin_counter (last : Z) (up : bool) (c : cache) (k : bytes) (d e : Z) : cache * sres :=
  match lookup c k with
  | None => if e =? 2 ^ 32 - 1 then (c, SFail) else (put c k (B "1") 0 (expire_at (c_now c) e), SOk (RInt 1))
  | Some o => if negb (last =? 0) && negb (e_cas o =? last) then (c, SFail)
              else let cr := cache_delta up c k d in (fst cr, delta_outcome PBinary (snd cr))
  end.
Definition cas_store (c : cache) (i : item) : cache * store_result :=
  cache_cas c (it_key i) (it_value i) (item_flags i) (it_exp i) (it_cas i).
Definition bin_exact (last : Z) (c : cache) (o : op) : cache * sres :=
  match o with
  | OAdd i => if it_cas i =? 0 then spec_step PBinary [] c o
              else (fst (cas_store c i), store_outcome SFail (snd (cas_store c i)))
  | OReplace i => if it_cas i =? 0 then spec_step PBinary [] c o
                  else (fst (cas_store c i), match snd (cas_store c i) with Stored => SOk RUnit | CasMissing => SErr ENotFound | _ => SFail end)
  | OIncr k d e => bin_counter last true c k d e
  | ODecr k d e => bin_counter last false c k d e
  | OTouch k e => let cr := cache_touch c k e in (fst cr, if snd cr then SOk RUnit else SFail)
  | _ => spec_step PBinary [] c o
  end.
Definition exact_step (pr : proto) (name : bytes) (last : Z) (c : cache) (o : op) : cache * sres :=
  match pr with PText => spec_step PText name c o | PMeta => meta_exact c o | PBinary => bin_exact last c o end.

(** The calls after which the reply has been read completely. After the others the next call on this
    connection would read what is left. *)
Definition reads_all (pr : proto) (c : cache) (last : Z) (o : op) : Prop :=
  match pr, o with
  | PMeta, OGetMulti ks => Forall (fun k => lookup c k <> None) ks
  | PBinary, OSet _ | PBinary, OAdd _ => snd (bin_exact last c o) = SOk RUnit
  | PBinary, OTouch _ _ => snd (bin_exact last c o) = SOk RUnit /\ cf_touch_extras (c_cfg c) = false
  | _, _ => True
  end.

(** Legal calls; with the binary client also Add and Replace of items with a cas number, and the
    expiration 2^32-1. *)
Definition accepted (pr : proto) (o : op) : Prop :=
  match pr, o with
  | PBinary, OAdd i | PBinary, OReplace i => legal_item PBinary i
  | PBinary, OIncr k d e | PBinary, ODecr k d e => legal_key PBinary k /\ 0 <= d < 2 ^ 63 /\ 0 <= e < 2 ^ 32
  | _, _ => legal pr o
  end.

(** A history of calls, waiting, and reconnecting. *)
Inductive xevent := XDo (o : op) | XWait (d : Z) | XReconnect.
Definition accepted_event (pr : proto) (ev : xevent) : Prop :=
  match ev with XDo o => accepted pr o | XWait d => 0 <= d | XReconnect => True end.
Fixpoint exact_run (pr : proto) (name : bytes) (last : Z) (c : cache) (evs : list xevent) : cache * list sres :=
  match evs with
  | [] => (c, [])
  | XReconnect :: evs' => exact_run pr name last c evs'
  | XWait d :: evs' => exact_run pr name last (tick c d) evs'
  | XDo o :: evs' =>
      let cr := exact_step pr name last c o in
      let crs := exact_run pr name (next_cas last o) (fst cr) evs' in (fst crs, snd cr :: snd crs)
  end.
(** After a call that leaves part of its reply unread the next thing done is a Reconnect (or nothing, or
    time passes). [dirty]: something is unread. *)
Fixpoint orderly (pr : proto) (name : bytes) (dirty : bool) (last : Z) (c : cache) (evs : list xevent) : Prop :=
  match evs with
  | [] => True
  | XReconnect :: evs' => orderly pr name false last c evs'
  | XWait d :: evs' => orderly pr name dirty last (tick c d) evs'
  | XDo o :: evs' =>
      dirty = false /\
      ((reads_all pr c last o /\ orderly pr name false (next_cas last o) (fst (exact_step pr name last c o)) evs')
       \/ orderly pr name true (next_cas last o) (fst (exact_step pr name last c o)) evs')
  end.

(** Reconnect that succeeds (client/server.go:178-196, 681-699, 1192-1210; Lifecycle.v has it in full): a
    new connection with nothing in transit; the pooled header is kept. *)
Definition link_reconnect (l : link) : link := mkLink (l_cache l) [] [] (l_header l).
Fixpoint xrun (cl : client) (l : link) (evs : list xevent) : link * list (outcome result) :=
  match evs with
  | [] => (l, [])
  | XReconnect :: evs' => xrun cl (link_reconnect l) evs'
  | XWait d :: evs' => xrun cl (link_tick l d) evs'
  | XDo o :: evs' =>
      let lr := call cl l o in
      let lrs := xrun cl (fst lr) evs' in (fst lrs, snd lr :: snd lrs)
  end.
