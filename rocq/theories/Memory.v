(** * Items as Go has them: windows on arrays of memory.

    Elsewhere an item's Value and Flags are their contents. Here they are slices (GoSlice.v) of arrays in
    the program's memory: the arrays an item passed to a store points to, and the arrays Get and GetMulti
    allocate (client/server.go:238-248, 307-330, 819-834, 1243-1263, 1318-1327). What a call sends and
    what the reply is parsed to is as in ClientText.v, ClientMeta.v and ClientBinary.v; the memory comes
    in addition. Key and Server are Go strings: their bytes never change. *)
From Verif Require Import GoBytes GoNum GoIO GoScan GoSlice Item ClientText ClientMeta ClientBinary Cache Daemon Spec Call.
Local Open Scope Z_scope.

(** client/client.go:7-15. A nil Value is an empty slice without capacity. *)
Record mitem := mkMItem {
  mi_key : bytes; mi_value : slice; mi_flags : option slice; mi_exp : Z; mi_cas : Z; mi_server : bytes }.
(** The item's contents at a moment. *)
Definition deref (h : heap) (i : mitem) : item :=
  mkItem (mi_key i) (contents h (mi_value i)) (option_map (contents h) (mi_flags i)) (mi_exp i) (mi_cas i) (mi_server i).

(** ** Reading replies into memory *)

(** Like GoIO.v's readers, with the arrays allocated so far. *)
Definition mreader (A : Type) := heap -> bytes -> outcome A * heap * bytes.
Definition mret {A} (a : A) : mreader A := fun h s => (Ok a, h, s).
Definition mbind {A C} (m : mreader A) (f : A -> mreader C) : mreader C :=
  fun h s => match m h s with
             | (Ok a, h', s') => f a h' s'
             | (Err e, h', s') => (Err e, h', s')
             | (Panic, h', s') => (Panic, h', s')
             end.
Notation "x <+ m ;; f" := (mbind m (fun x => f)) (at level 61, m at next level, right associativity).
(** A step that allocates nothing that outlives it. Lines from ReadSlice are windows on the
    bufio.Reader's own array; all that is kept of them is copied by string() or parsed. *)
Definition pure {A} (m : reader A) : mreader A := fun h s => let '(o, s') := m s in (o, h, s').
(** A new array with these contents, and the slice of all of it. *)
Definition alloc (b : bytes) : mreader slice := fun h s => (Ok (mkSlice (length h) 0 (length b) (length b)), h ++ [b], s).
(** buf := make([]byte, n); io.ReadFull(r, buf). After a failure nothing refers to the array. *)
Definition alloc_read_full (n : Z) : mreader slice := b <+ pure (make_read_full n) ;; alloc b.
(** s[lo:hi]: allowed up to the capacity, which it keeps. *)
Definition reslice (s : slice) (lo hi : Z) : outcome slice :=
  if (0 <=? lo) && (lo <=? hi) && (hi <=? Z.of_nat (s_cap s))
  then Ok (mkSlice (s_arr s) (s_off s + Z.to_nat lo) (Z.to_nat (hi - lo)) (s_cap s - Z.to_nat lo))
  else Panic.
Definition mreslice (s : slice) (lo hi : Z) : mreader slice := fun h r => (reslice s lo hi, h, r).

(** Get of the text client, client/server.go:217-257. *)
Definition m_text_get_resp (name : bytes) : mreader mitem :=
  b <+ pure read_slice ;;
  if beq b msg_end then pure (fail ENotFound)
  else if negb (has_prefix (B "VALUE") b) then pure (fail invalid_response)
  else
    v <+ pure (lift_opt (fscanf_value (negb (count_sp b =? 3)) b)) ;;
    let '(key, flags, size, cas) := v in
    f <+ alloc (be 4 flags) ;;                                                   (* 238-240 *)
    buf <+ alloc_read_full (i64 (size + 2)) ;;                                   (* 242-245 *)
    value <+ mreslice buf 0 size ;;                                              (* 246 *)
    e <+ pure read_slice ;;
    if negb (beq e msg_end) then pure (fail invalid_response)
    else mret (mkMItem key value (Some f) 0 cas name).

(** One VALUE block of parseGetResponse, client/server.go:302-331. *)
Definition m_text_value_block (b : bytes) : mreader mitem :=
  let s := split_sp b in
  s0 <+ pure (go_index s 0) ;;
  if negb (beq s0 (B "VALUE")) then pure (fail invalid_response)
  else
    s2 <+ pure (go_index s 2) ;;
    f <+ pure (lift_opt (atoi s2)) ;;
    flags <+ alloc (be 4 (u32 f)) ;;                                             (* 311-312 *)
    s3 <+ pure (go_index s 3) ;;
    sz <+ pure (if zlen s =? 4 then go_sub s3 0 (zlen s3 - 2) else ret s3) ;;
    size <+ pure (lift_opt (atoi sz)) ;;
    _ <+ pure (go_make (i64 (size + 2))) ;;
    s1 <+ pure (go_index s 1) ;;
    d <+ pure (read_full (i64 (size + 2))) ;;                                    (* 324, 329 *)
    buf <+ alloc d ;;
    value <+ mreslice buf 0 size ;;                                              (* 332 *)
    mret (mkMItem s1 value (Some flags) 0 0 []).
Fixpoint m_text_values (fuel : nat) (acc : list mitem) : mreader (list mitem) :=
  match fuel with
  | O => pure panic
  | S f =>
      b <+ pure read_slice ;;
      if beq b (B "END" ++ crlf) then mret (rev acc)
      else i <+ m_text_value_block b ;; m_text_values f (i :: acc)
  end.
(** GetMulti, client/server.go:280-289. *)
Definition m_text_getmulti_resp (name : bytes) : mreader (list mitem) := fun h s =>
  (l <+ m_text_values (S (length s)) [] ;;
   mret (map (fun i => mkMItem (mi_key i) (mi_value i) (mi_flags i) (mi_exp i) (mi_cas i) name) l)) h s.

(** parseGetResponse of the meta client, client/server.go:762-826, with readGetFlagToken 828-855. The
    line's fields are parsed as in ClientMeta.v; each f token allocates a new four-byte array and the last
    one stays (834-836), so only that one is kept here. *)
Definition m_meta_get_block : mreader mitem :=
  b <+ pure read_slice ;;
  if beq b meta_end then pure (fail ENotFound)
  else if beq b meta_noop then pure (fail ENotFound)
  else if negb (has_prefix (B "VA") b) then pure (fail (EMsg (B "memcached: invalid get response")))
  else
    si <+ pure (lift_opt (meta_scan (MSize []) 0 zero_item (skipn 3 b))) ;;
    let '(size, i) := si in
    f <+ match it_flags i with None => mret None | Some fb => s <+ alloc fb ;; mret (Some s) end ;;
    buf <+ alloc_read_full (i64 (size + 2)) ;;                                   (* 819-822 *)
    value <+ mreslice buf 0 size ;;                                              (* 823 *)
    mret (mkMItem (it_key i) value f (it_exp i) (it_cas i) (it_server i)).
Definition m_meta_get_resp (k : bytes) : mreader mitem :=
  i <+ m_meta_get_block ;; mret (mkMItem k (mi_value i) (mi_flags i) (mi_exp i) (mi_cas i) (mi_server i)).
Fixpoint m_meta_values (fuel : nat) (acc : list mitem) : mreader (list mitem) :=
  match fuel with
  | O => pure panic
  | S f => fun h s =>
      match m_meta_get_block h s with
      | (Ok i, h', s') => m_meta_values f (i :: acc) h' s'
      | (Err ENotFound, h', s') => (Ok (rev acc), h', s')
      | (Err e, h', s') => (Err e, h', s')
      | (Panic, h', s') => (Panic, h', s')
      end
  end.
Definition m_meta_getmulti_resp : mreader (list mitem) := fun h s => m_meta_values (S (length s)) [] h s.

(** Get of the binary client, client/server.go:1239-1265: Value and Flags are windows on one array. *)
Definition m_bin_get_resp (k : bytes) : mreader mitem :=
  hd <+ pure read_res_header ;;
  buf <+ alloc_read_full (rs_total hd) ;;                                        (* 1243-1246 *)
  if negb (rs_status hd =? 0) then
    pure (fail (if rs_status hd =? 1 then ENotFound else status_error (rs_status hd)))
  else
    value <+ mreslice buf (body_off hd) (Z.of_nat (s_len buf)) ;;                (* 1262 *)
    flags <+ mreslice buf 0 (rs_extra_len hd) ;;                                 (* 1263 *)
    mret (mkMItem k value (Some flags) 0 (rs_cas hd) []).
(** GetMulti's loop, client/server.go:1304-1327. *)
Definition m_bin_getmulti_step : mreader (option mitem) :=
  hd <+ pure read_res_header ;;
  if rs_opcode hd =? op_noop then mret None
  else if negb (rs_status hd =? 0) then pure (fail (status_error (rs_status hd)))
  else
    d <+ pure (make_read_full (rs_total hd)) ;;                                  (* 1318-1321 *)
    buf <+ alloc d ;;
    key <+ pure (go_sub d (rs_extra_len hd) (body_off hd)) ;;                    (* 1324: string() copies *)
    value <+ mreslice buf (body_off hd) (Z.of_nat (s_len buf)) ;;                (* 1325 *)
    flags <+ mreslice buf 0 (rs_extra_len hd) ;;                                 (* 1326 *)
    mret (Some (mkMItem key value (Some flags) 0 0 [])).
Fixpoint m_bin_values (fuel : nat) (acc : list mitem) : mreader (list mitem) :=
  match fuel with
  | O => pure panic
  | S f =>
      o <+ m_bin_getmulti_step ;;
      match o with
      | Some i => m_bin_values f (i :: acc)
      | None => mret (rev acc)
      end
  end.
Definition m_bin_getmulti_resp : mreader (list mitem) := fun h s => m_bin_values (S (length s)) [] h s.

(** ** Calls with items in memory *)

Inductive mop :=
| MGet (k : bytes)
| MGetMulti (ks : list bytes)
| MSet (i : mitem)
| MAdd (i : mitem)
| MReplace (i : mitem)
| MOther (o : op).                (* an operation without an item; see [other] *)
(** The operations that neither pass nor return an item. *)
Definition other (o : op) : bool :=
  match o with ODelete _ | OIncr _ _ _ | ODecr _ _ _ | OTouch _ _ | OFlush | OVersion => true | _ => false end.
Definition deref_op (h : heap) (o : mop) : op :=
  match o with
  | MGet k => OGet k
  | MGetMulti ks => OGetMulti ks
  | MSet i => OSet (deref h i)
  | MAdd i => OAdd (deref h i)
  | MReplace i => OReplace (deref h i)
  | MOther o => o
  end.
Inductive mresult := MRItem (i : mitem) | MRItems (l : list mitem) | MROther (r : result).
Definition deref_result (h : heap) (r : mresult) : result :=
  match r with MRItem i => RItem (deref h i) | MRItems l => RItems (map (deref h) l) | MROther r => r end.

Inductive kind := KText (name : bytes) | KMeta | KBinary.
Definition client_of (k : kind) : client :=
  match k with KText n => text_client n | KMeta => meta_client | KBinary => bin_client end.

(** The length and flags of an item as the store commands format them (client/server.go:463-472,
    867-875): len(item.Value), and the flags bytes. *)
Definition m_text_flags (h : heap) (i : mitem) : Z :=
  match mi_flags i with
  | Some f => if Z.of_nat (s_len f) =? 4 then unbe (contents h f) else 0
  | None => 0
  end.
Definition m_text_line (cmd : bytes) (h : heap) (i : mitem) (tail : bytes) : bytes :=
  cmd ++ B " " ++ mi_key i ++ B " " ++ dec (m_text_flags h i) ++ B " " ++ dec (mi_exp i)
  ++ B " " ++ dec (Z.of_nat (s_len (mi_value i))) ++ tail ++ crlf.

(** The bytes a store writes and what it does to memory; [grown] is what append's new array, if it
    makes one, has beyond the appended bytes. Text: client/server.go:463-478, 510-518, 547-555; meta:
    866-881, 914-922, 948-956; binary: 1346-1358, 1398-1410, 1450-1462 (item.Flags[:4] reaches up to the
    capacity). *)
Definition m_set_req (k : kind) (grown : bytes) (h : heap) (i : mitem) : heap * request :=
  match k with
  | KText _ =>
      let '(h', ws) := store_writes TextSet grown h (mi_value i) in
      (h', Ok ((if 0 <? mi_cas i then m_text_line (B "cas") h i (B " " ++ dec (mi_cas i)) else m_text_line (B "set") h i []) ++ concat ws))
  | KMeta =>
      let head := B "ms " ++ mi_key i ++ B " " ++ dec (Z.of_nat (s_len (mi_value i))) ++ B " T" ++ dec (mi_exp i)
                  ++ (if 0 <? mi_cas i then B " C" ++ dec (mi_cas i) else []) in
      let finish fl := let '(h', ws) := store_writes MetaSet grown h (mi_value i) in (h', Ok (head ++ fl ++ crlf ++ concat ws)) in
      match mi_flags i with
      | None => finish []
      | Some f => if Z.of_nat (s_len f) <? 4 then (h, Panic) else finish (B " F" ++ dec (unbe (firstn 4 (contents h f))))
      end
  | KBinary => (h, Panic)             (* not used: see m_bin_store_req *)
  end.
Definition m_plain_req (cmd : bytes) (h : heap) (i : mitem) : request :=
  Ok (m_text_line cmd h i [] ++ concat (snd (store_writes PlainStore [] h (mi_value i)))).
Definition m_store_header (opc : Z) (i : mitem) : req_header :=
  mkReqHeader opc (u16 (zlen (mi_key i))) 8 0 0 (u32 (zlen (mi_key i) + Z.of_nat (s_len (mi_value i)) + 8)) 0 (mi_cas i).
Definition m_bin_store_req (opc : Z) (h : heap) (i : mitem) : request * req_header :=
  let hd := m_store_header opc i in
  let rest := be 4 (u32 (mi_exp i)) ++ mi_key i ++ concat (snd (store_writes BinaryStore [] h (mi_value i))) in
  (match mi_flags i with
   | None => Ok (encode_header hd ++ be 4 0 ++ rest)
   | Some f => match reslice f 0 4 with
               | Ok f4 => Ok (encode_header hd ++ contents h f4 ++ rest)
               | Err e => Err e
               | Panic => Panic
               end
   end, hd).
Definition m_req (k : kind) (grown : bytes) (h : heap) (rh : req_header) (o : mop) : heap * (request * req_header) :=
  match k, o with
  | KBinary, MSet i => (h, m_bin_store_req op_set h i)
  | KBinary, MAdd i => (h, m_bin_store_req op_add h i)
  | KBinary, MReplace i => (h, m_bin_store_req op_replace h i)
  | _, MSet i => let '(h', r) := m_set_req k grown h i in (h', (r, rh))
  | _, MAdd i => (h, (m_plain_req (B "add") h i, rh))
  | _, MReplace i => (h, (m_plain_req (B "replace") h i, rh))
  | _, MGet key => (h, cl_req (client_of k) rh (OGet key))
  | _, MGetMulti ks => (h, cl_req (client_of k) rh (OGetMulti ks))
  | _, MOther o => (h, cl_req (client_of k) rh o)
  end.
Definition m_resp (k : kind) (o : mop) : mreader mresult :=
  let item m := i <+ m ;; mret (MRItem i) in
  let items m := l <+ m ;; mret (MRItems l) in
  let plain o := r <+ pure (cl_resp (client_of k) o) ;; mret (MROther r) in
  match k, o with
  | KText n, MGet _ => item (m_text_get_resp n)
  | KText n, MGetMulti _ => items (m_text_getmulti_resp n)
  | KMeta, MGet key => item (m_meta_get_resp key)
  | KMeta, MGetMulti _ => items m_meta_getmulti_resp
  | KBinary, MGet key => item (m_bin_get_resp key)
  | KBinary, MGetMulti _ => items m_bin_getmulti_resp
  | _, MSet _ => plain (OSet zero_item)
  | _, MAdd _ => plain (OAdd zero_item)
  | _, MReplace _ => plain (OReplace zero_item)
  | _, MOther o => plain o
  end.

(** A call (Call.v) of a client whose items are in memory. *)
Definition mcall (k : kind) (grown : bytes) (h : heap) (l : link) (o : mop) : heap * link * outcome mresult :=
  let '(h1, (rq, hd)) := m_req k grown h (l_header l) o in
  match rq with
  | Ok rq =>
      let '(c', reply, pending') := daemon (cl_wire (client_of k)) (l_cache l) (l_pending l ++ rq) in
      let '(r, h2, unread') := m_resp k o h1 (l_unread l ++ reply) in
      (h2, mkLink c' pending' unread' hd, r)
  | Err e => (h1, mkLink (l_cache l) (l_pending l) (l_unread l) hd, Err e)
  | Panic => (h1, mkLink (l_cache l) (l_pending l) (l_unread l) hd, Panic)
  end.

(** ** Histories: calls, time, and what the program itself does with slices *)
Inductive mevent :=
| ECall (o : mop) (grown : bytes)
| EWait (d : Z)
| EAssign (s : slice) (i : nat) (c : ascii)          (* s[i] = c *)
| EAppend (s : slice) (d : bytes) (grown : bytes)    (* append(s, d...) *)
| EMake (b : bytes).                                 (* a new array of the program *)

(** s[i] = c, for i below len(s). *)
Definition assign (h : heap) (s : slice) (i : nat) (c : ascii) : heap :=
  if (i <? s_len s)%nat then set_array h (s_arr s) (write_at (array h (s_arr s)) (s_off s + i) [c]) else h.
Definition mstep (k : kind) (h : heap) (l : link) (e : mevent) : heap * link * list (outcome mresult) :=
  match e with
  | ECall o grown => let '(h', l', r) := mcall k grown h l o in (h', l', [r])
  | EWait d => (h, link_tick l d, [])
  | EAssign s i c => (assign h s i c, l, [])
  | EAppend s d grown => (fst (append grown h s d), l, [])
  | EMake b => (h ++ [b], l, [])
  end.
Fixpoint mrun (k : kind) (h : heap) (l : link) (evs : list mevent) : heap * link * list (outcome mresult) :=
  match evs with
  | [] => (h, l, [])
  | e :: evs' => let '(h1, l1, r1) := mstep k h l e in
                 let '(h2, l2, r2) := mrun k h1 l1 evs' in (h2, l2, r1 ++ r2)
  end.
(** The slices an event is given. *)
Definition item_slices (i : mitem) : list slice := mi_value i :: match mi_flags i with Some f => [f] | None => [] end.
Definition op_slices (o : mop) : list slice :=
  match o with MSet i | MAdd i | MReplace i => item_slices i | _ => [] end.
Definition event_slices (e : mevent) : list slice :=
  match e with ECall o _ => op_slices o | EAssign s _ _ => [s] | EAppend s _ _ => [s] | EWait _ | EMake _ => [] end.
(** A history the program can perform: every slice it uses exists when it uses it, and [MOther] is one
    of the remaining operations. *)
Definition op_ok (h : heap) (o : mop) : Prop :=
  Forall (valid h) (op_slices o) /\ match o with MOther o => other o = true | _ => True end.
Definition event_ok (h : heap) (e : mevent) : Prop :=
  Forall (valid h) (event_slices e) /\ match e with ECall o _ => op_ok h o | _ => True end.
Fixpoint events_ok (k : kind) (h : heap) (l : link) (evs : list mevent) : Prop :=
  match evs with
  | [] => True
  | e :: evs' => event_ok h e /\ let '(h1, l1, _) := mstep k h l e in events_ok k h1 l1 evs'
  end.
(** The items a call returned. *)
Definition items_of (r : outcome mresult) : list mitem :=
  match r with Ok (MRItem i) => [i] | Ok (MRItems l) => l | _ => [] end.
Definition returned (rs : list (outcome mresult)) : list mitem := flat_map items_of rs.
