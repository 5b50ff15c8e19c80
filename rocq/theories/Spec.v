(** * SPECIFICATION (not repository code): what each client operation should return, in terms of the
    abstract cache only. The three protocols return different parts of an item; [item_view] says
    which. *)
From Verif Require Import GoBytes GoNum GoIO Item Cache.
Local Open Scope Z_scope.

Inductive proto := PText | PMeta | PBinary.

(** Expected result: a value, a particular error, or some error with which the (complete) reply
    was refused. *)
Inductive sres := SOk (r : result) | SErr (e : err) | SFail.

Definition completed (e : err) : Prop := e <> EIO /\ e <> EBufFull /\ e <> EClosed.
Definition agrees (s : sres) (o : outcome result) : Prop :=
  match s, o with
  | SOk r, Ok r' => r' = r
  | SErr e, Err e' => e' = e
  | SFail, Err e' => completed e'
  | _, _ => False
  end.

(** The item a Get ([multi] = false) or GetMulti ([multi] = true) returns for entry [e] of key [k]:
    value and flags always; the cas number except in text and binary GetMulti; the remaining
    lifetime only with the meta protocol; the server's name only with the text protocol. *)
Definition item_view (pr : proto) (name : bytes) (multi : bool) (c : cache) (k : bytes) (e : entry) : item :=
  let cas := match pr with PMeta => e_cas e | _ => if multi then 0 else e_cas e end in
  let exp := match pr with PMeta => ttl c e | _ => 0 end in
  let srv := match pr with PText => name | _ => [] end in
  mkItem k (e_value e) (Some (be 4 (e_flags e))) exp cas srv.

(** The flags of an item to store: absent is 0, otherwise the four bytes as a big-endian number. *)
Definition item_flags (i : item) : Z := match it_flags i with None => 0 | Some f => unbe f end.

Definition store_outcome (refused : sres) (r : store_result) : sres :=
  match r with
  | Stored => SOk RUnit
  | NotStored => refused
  | CasMismatch => SErr EExists
  | CasMissing => SFail
  | TooLarge => SFail
  end.

(** Increment/Decrement of an absent counter: an error with text and meta; the binary protocol
    creates the counter with the value 1 and the given expiration. Text and meta cannot return a
    counter of 2^63 or more in an int64 and fail; binary returns its two's complement. *)
Definition delta_outcome (pr : proto) (r : delta_result) : sres :=
  match r with
  | DeltaOk n => match pr with
                 | PBinary => SOk (RInt (i64 n))
                 | _ => if n <? 2 ^ 63 then SOk (RInt n) else SFail
                 end
  | DeltaMissing => SErr ENotFound
  | DeltaNonNumeric => SFail
  | DeltaMismatch => SErr EExists
  end.
Definition spec_delta (pr : proto) (up : bool) (c : cache) (k : bytes) (d e : Z) : cache * sres :=
  match pr, lookup c k with
  | PBinary, None => (put c k (B "1") 0 (expire_at (c_now c) e), SOk (RInt 1))
  | _, _ => let cr := cache_delta up c k d in (fst cr, delta_outcome pr (snd cr))
  end.

Definition spec_step (pr : proto) (name : bytes) (c : cache) (o : op) : cache * sres :=
  match o with
  | OGet k =>
      (c, match lookup c k with
          | Some e => SOk (RItem (item_view pr name false c k e))
          | None => SErr ENotFound
          end)
  | OGetMulti ks =>
      (c, SOk (RItems (flat_map (fun k => match lookup c k with
                                          | Some e => [item_view pr name true c k e]
                                          | None => []
                                          end) ks)))
  | OSet i =>
      let cr := if it_cas i =? 0
                then cache_set c (it_key i) (it_value i) (item_flags i) (it_exp i)
                else cache_cas c (it_key i) (it_value i) (item_flags i) (it_exp i) (it_cas i) in
      (fst cr, store_outcome SFail (snd cr))
  | OAdd i =>
      let cr := cache_add c (it_key i) (it_value i) (item_flags i) (it_exp i) in
      (fst cr, store_outcome (SErr EExists) (snd cr))
  | OReplace i =>
      let cr := cache_replace c (it_key i) (it_value i) (item_flags i) (it_exp i) in
      (fst cr, store_outcome (SErr ENotFound) (snd cr))
  | ODelete k =>
      let cr := cache_delete c k in (fst cr, if snd cr then SOk RUnit else SErr ENotFound)
  | OIncr k d e => spec_delta pr true c k d e
  | ODecr k d e => spec_delta pr false c k d e
  | OTouch k e =>
      let cr := cache_touch c k e in (fst cr, if snd cr then SOk RUnit else SErr ENotFound)
  | OFlush => (cache_flush c, SOk RUnit)
  | OVersion => (c, SOk (RStr (cf_version (c_cfg c))))
  end.

(** A history: calls and the passing of time. *)
Inductive event := Do (o : op) | Wait (d : Z).

Fixpoint spec_run (pr : proto) (name : bytes) (c : cache) (evs : list event) : cache * list sres :=
  match evs with
  | [] => (c, [])
  | Wait d :: evs' => spec_run pr name (tick c d) evs'
  | Do o :: evs' =>
      let cr := spec_step pr name c o in
      let crs := spec_run pr name (fst cr) evs' in (fst crs, snd cr :: snd crs)
  end.

(** ** Which calls are legal *)

(** One character of UTF-8 (RFC 3629), as its bytes: neither a control character below 128 nor white
    space (the White_Space property of Unicode: U+0085, U+00A0, U+1680, U+2000 to U+200A, U+2028, U+2029,
    U+202F, U+205F, U+3000). *)
Definition tail_byte (x : Z) : Prop := 128 <= x <= 191.
Definition white2 (a b : Z) : Prop := a = 194 /\ (b = 133 \/ b = 160).
Definition white3 (a b c : Z) : Prop :=
  (a = 225 /\ b = 154 /\ c = 128)
  \/ (a = 226 /\ b = 128 /\ (128 <= c <= 138 \/ c = 168 \/ c = 169 \/ c = 175))
  \/ (a = 226 /\ b = 129 /\ c = 159)
  \/ (a = 227 /\ b = 128 /\ c = 128).
Inductive utf8_char : list Z -> Prop :=
| Utf8_1 : forall a, 33 <= a <= 126 -> utf8_char [a]
| Utf8_2 : forall a b, 194 <= a <= 223 -> tail_byte b -> ~ white2 a b -> utf8_char [a; b]
| Utf8_3 : forall a b c, 224 <= a <= 239 -> tail_byte b -> tail_byte c ->
    (a = 224 -> 160 <= b) -> (a = 237 -> b <= 159) -> ~ white3 a b c -> utf8_char [a; b; c]
| Utf8_4 : forall a b c d, 240 <= a <= 244 -> tail_byte b -> tail_byte c -> tail_byte d ->
    (a = 240 -> 144 <= b) -> (a = 244 -> b <= 143) -> utf8_char [a; b; c; d].
Definition utf8_word (k : bytes) : Prop := exists chars, map code k = concat chars /\ Forall utf8_char chars.

(** Keys: 1 to 250 bytes. Text: UTF-8 without control characters and white space (in particular printable
    ASCII without space). Meta: no control byte, no space, any bytes above 127. Binary: any bytes. *)
Definition key_text (pr : proto) (k : bytes) : Prop :=
  match pr with
  | PText => utf8_word k
  | PMeta => Forall (fun ch => 33 <= code ch /\ code ch <> 127) k
  | PBinary => True
  end.
Definition legal_key (pr : proto) (k : bytes) : Prop := 1 <= zlen k <= 250 /\ key_text pr k.

(** Expiration: a 32-bit number, signed in the textual protocols, unsigned in the binary one. *)
Definition legal_exp (pr : proto) (e : Z) : Prop :=
  match pr with
  | PBinary => 0 <= e < 2 ^ 32
  | _ => - 2 ^ 31 <= e < 2 ^ 31
  end.

(** Flags: absent or four bytes; the meta client cannot read back numbers from 2^31 on. *)
Definition legal_flags (pr : proto) (i : item) : Prop :=
  match it_flags i with
  | None => True
  | Some f => length f = 4%nat /\ (pr = PMeta -> unbe f < 2 ^ 31)
  end.

Definition legal_item (pr : proto) (i : item) : Prop :=
  legal_key pr (it_key i) /\ legal_flags pr i /\ legal_exp pr (it_exp i)
  /\ 0 <= it_cas i < 2 ^ 64 /\ zlen (it_value i) < 2 ^ 31.

Definition legal_delta (pr : proto) (d e : Z) : Prop :=
  0 <= d < 2 ^ 63 /\ (pr = PBinary -> 0 <= e < 2 ^ 32 - 1).

Definition legal (pr : proto) (o : op) : Prop :=
  match o with
  | OGet k | ODelete k => legal_key pr k
  | OGetMulti ks => ks <> [] /\ Forall (legal_key pr) ks
  | OSet i => legal_item pr i
  | OAdd i | OReplace i => legal_item pr i /\ (pr = PBinary -> it_cas i = 0)
  | OIncr k d e | ODecr k d e => legal_key pr k /\ legal_delta pr d e
  | OTouch k e => legal_key pr k /\ legal_exp pr e
  | OFlush | OVersion => True
  end.
Definition legal_event (pr : proto) (ev : event) : Prop :=
  match ev with Do o => legal pr o | Wait d => 0 <= d end.

(** ** Well-formed server states. [cas_bound] is the largest cas number the protocol's client can
    represent plus one. *)
Definition cas_bound (pr : proto) : Z := match pr with PMeta => 2 ^ 63 | _ => 2 ^ 64 end.
Definition flags_bound (pr : proto) : Z := match pr with PMeta => 2 ^ 31 | _ => 2 ^ 32 end.

Definition wf_config (cf : config) : Prop :=
  1024 <= cf_limit cf <= 2 ^ 30
  /\ zlen (cf_version cf) <= 1000 /\ Forall (fun ch => 32 <= code ch <= 126) (cf_version cf).

Definition wf_entry (pr : proto) (c : cache) (e : entry) : Prop :=
  zlen (e_value e) <= cf_limit (c_cfg c) /\ 0 <= e_flags e < flags_bound pr
  /\ 1 <= e_cas e <= c_cas c
  /\ (pr = PMeta -> match e_expire e with None => True | Some t => t - c_now c < 2 ^ 31 end).

Definition wf (pr : proto) (c : cache) : Prop :=
  wf_config (c_cfg c) /\ 0 <= c_now c /\ 0 <= c_cas c
  /\ forall k e, c_map c k = Some e -> wf_entry pr c e.
