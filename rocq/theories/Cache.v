(** * SPECIFICATION (not repository code): the cache a user of the client expects.

    What memcached's documentation (doc/protocol.txt) says about values, flags, expiration times,
    unique cas numbers and counters. Nothing here mentions wire formats or the client. *)
From Verif Require Import GoBytes GoNum.
Local Open Scope Z_scope.

Record entry := mkEntry {
  e_value : bytes;
  e_flags : Z;                   (* opaque 32-bit number *)
  e_expire : option Z;           (* absolute time at which it stops being visible *)
  e_cas : Z;                     (* unique number of its last modification *)
  e_stale : bool                 (* invalidated by a meta delete with the I flag *)
}.

(** Settings of the server process: largest storable value, version string, and whether a binary
    touch reply carries the four flag bytes (memcached's implementation) or not (the document). *)
Record config := mkConfig { cf_limit : Z; cf_version : bytes; cf_touch_extras : bool }.

Record cache := mkCache {
  c_cfg : config;
  c_now : Z;                     (* seconds *)
  c_cas : Z;                     (* last cas number given out *)
  c_map : bytes -> option entry
}.

Definition with_map (c : cache) (m : bytes -> option entry) : cache :=
  mkCache (c_cfg c) (c_now c) (c_cas c) m.

(** Visible until the expiry time is reached. *)
Definition alive (now : Z) (e : entry) : bool :=
  match e_expire e with None => true | Some t => now <? t end.
Definition lookup (c : cache) (k : bytes) : option entry :=
  match c_map c k with
  | Some e => if alive (c_now c) e then Some e else None
  | None => None
  end.

(** doc/protocol.txt "Expiration times": 0 never, negative immediately, up to 30 days relative,
    otherwise an absolute Unix time. *)
Definition month : Z := 60 * 60 * 24 * 30.
Definition expire_at (now e : Z) : option Z :=
  if e =? 0 then None else if e <? 0 then Some now
  else if e <=? month then Some (now + e) else Some e.

(** Remaining lifetime as the meta protocol's t flag reports it: -1 when unlimited. *)
Definition ttl (c : cache) (e : entry) : Z :=
  match e_expire e with None => -1 | Some t => t - c_now c end.

Definition put_entry (m : bytes -> option entry) (k : bytes) (e : option entry) : bytes -> option entry :=
  fun j => if beq j k then e else m j.
Definition drop (c : cache) (k : bytes) : cache := with_map c (put_entry (c_map c) k None).

(** Storing gives a fresh cas number. *)
Definition put (c : cache) (k v : bytes) (flags : Z) (expire : option Z) : cache :=
  mkCache (c_cfg c) (c_now c) (c_cas c + 1)
    (put_entry (c_map c) k (Some (mkEntry v flags expire (c_cas c + 1) false))).

Inductive store_result := Stored | NotStored | CasMismatch | CasMissing | TooLarge.

Definition too_large (c : cache) (v : bytes) : bool := cf_limit (c_cfg c) <? zlen v.

(** A refused set also removes the old value, so that no outdated data stays visible. *)
Definition cache_set (c : cache) (k v : bytes) (f e : Z) : cache * store_result :=
  if too_large c v then (drop c k, TooLarge)
  else (put c k v f (expire_at (c_now c) e), Stored).
Definition cache_cas (c : cache) (k v : bytes) (f e n : Z) : cache * store_result :=
  if too_large c v then (c, TooLarge)
  else match lookup c k with
       | None => (c, CasMissing)
       | Some o => if e_cas o =? n then (put c k v f (expire_at (c_now c) e), Stored)
                   else (c, CasMismatch)
       end.
Definition cache_add (c : cache) (k v : bytes) (f e : Z) : cache * store_result :=
  if too_large c v then (c, TooLarge)
  else match lookup c k with
       | Some _ => (c, NotStored)
       | None => (put c k v f (expire_at (c_now c) e), Stored)
       end.
Definition cache_replace (c : cache) (k v : bytes) (f e : Z) : cache * store_result :=
  if too_large c v then (c, TooLarge)
  else match lookup c k with
       | None => (c, NotStored)
       | Some _ => (put c k v f (expire_at (c_now c) e), Stored)
       end.

Definition cache_delete (c : cache) (k : bytes) : cache * bool :=
  match lookup c k with
  | None => (c, false)
  | Some _ => (drop c k, true)
  end.

(** Counters: decimal 64-bit numbers; increment wraps at 2^64, decrement stops at 0. A result
    shorter than the old text is padded with spaces, which reading a counter ignores. *)
Fixpoint strip_spaces_front (b : bytes) : bytes :=
  match b with
  | c :: b' => if Ascii.eqb c SP then strip_spaces_front b' else b
  | [] => []
  end.
Definition strip_spaces (b : bytes) : bytes := rev (strip_spaces_front (rev b)).
Definition counter_value (v : bytes) : option Z := parse_uint 64 (strip_spaces v).
Definition counter_text (old : bytes) (n : Z) : bytes :=
  dec n ++ repeat SP (length old - length (dec n)).

Inductive delta_result := DeltaMissing | DeltaNonNumeric | DeltaMismatch | DeltaOk (n : Z).

Definition delta_apply (up : bool) (n d : Z) : Z :=
  if up then (n + d) mod 2 ^ 64 else if d <=? n then n - d else 0.

Definition cache_delta (up : bool) (c : cache) (k : bytes) (d : Z) : cache * delta_result :=
  match lookup c k with
  | None => (c, DeltaMissing)
  | Some o =>
      match counter_value (e_value o) with
      | None => (c, DeltaNonNumeric)
      | Some n =>
          let n' := delta_apply up n d in
          (put c k (counter_text (e_value o) n') (e_flags o) (e_expire o), DeltaOk n')
      end
  end.

Definition set_expire (o : entry) (t : option Z) : entry :=
  mkEntry (e_value o) (e_flags o) t (e_cas o) (e_stale o).
Definition cache_touch (c : cache) (k : bytes) (e : Z) : cache * bool :=
  match lookup c k with
  | None => (c, false)
  | Some o => (with_map c (put_entry (c_map c) k (Some (set_expire o (expire_at (c_now c) e)))), true)
  end.

(** Meta delete with I: the item stays, marked stale, with a new cas number; T sets its lifetime. *)
Definition cache_invalidate (c : cache) (k : bytes) (e : option Z) : cache * bool :=
  match lookup c k with
  | None => (c, false)
  | Some o =>
      let x := match e with None => e_expire o | Some t => expire_at (c_now c) t end in
      (mkCache (c_cfg c) (c_now c) (c_cas c + 1)
         (put_entry (c_map c) k (Some (mkEntry (e_value o) (e_flags o) x (c_cas c + 1) true))), true)
  end.

Definition cache_flush (c : cache) : cache := with_map c (fun _ => None).

(** Time passes. *)
Definition tick (c : cache) (d : Z) : cache := mkCache (c_cfg c) (c_now c + d) (c_cas c) (c_map c).

Definition empty_cache (cf : config) (now : Z) : cache := mkCache cf now 0 (fun _ => None).
