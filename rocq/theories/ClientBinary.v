(** * The binary-protocol client, client/server.go:1136-1833 and client/client.go:17-25. *)
From Verif Require Import GoBytes GoNum GoIO Item ClientText.
Local Open Scope Z_scope.

(** client/server.go:45-48 *)
Definition magic_request : Z := 128.
Definition magic_response : Z := 129.

(** client/server.go:50-68 *)
Definition op_get : Z := 0.
Definition op_set : Z := 1.
Definition op_add : Z := 2.
Definition op_replace : Z := 3.
Definition op_delete : Z := 4.
Definition op_increment : Z := 5.
Definition op_decrement : Z := 6.
Definition op_flush : Z := 8.
Definition op_noop : Z := 10.
Definition op_version : Z := 11.
Definition op_getkq : Z := 13.
Definition op_touch : Z := 28.

(** client/server.go:70-78 *)
Definition binary_status (s : Z) : option bytes :=
  if s =? 1 then Some (B "key not found")
  else if s =? 2 then Some (B "key exists")
  else if s =? 3 then Some (B "value too large")
  else if s =? 4 then Some (B "invalid arguments")
  else if s =? 6 then Some (B "non-numeric value")
  else if s =? 129 then Some (B "unknown command")
  else if s =? 130 then Some (B "out of memory")
  else None.

(** binaryRequestHeader, client/server.go:1754-1765 (without buf, which EncodeTo overwrites
    completely). Field values are within their Go types. *)
Record req_header := mkReqHeader {
  rq_opcode : Z; rq_key_len : Z; rq_extra_len : Z; rq_data_type : Z;
  rq_vbucket : Z; rq_total : Z; rq_opaque : Z; rq_cas : Z
}.

(** Reset, client/server.go:1788-1797; also a fresh header from the pool's New. *)
Definition reset_header : req_header := mkReqHeader 0 0 0 0 0 0 0 0.

(** EncodeTo, client/server.go:1771-1786. *)
Definition encode_header (h : req_header) : bytes :=
  byte_of magic_request :: byte_of (rq_opcode h) :: be 2 (rq_key_len h)
  ++ byte_of (rq_extra_len h) :: byte_of (rq_data_type h) :: be 2 0
  ++ be 4 (rq_total h) ++ be 4 0 ++ be 8 (rq_cas h).

(** binaryResponseHeader, client/server.go:1799-1810. *)
Record res_header := mkResHeader {
  rs_opcode : Z; rs_key_len : Z; rs_extra_len : Z; rs_data_type : Z;
  rs_status : Z; rs_total : Z; rs_opaque : Z; rs_cas : Z
}.

Definition sub (b : bytes) (lo n : nat) : bytes := firstn n (skipn lo b).
Definition byte_at (b : bytes) (i : nat) : Z := code (nth i b "000"%char).

(** Read, client/server.go:1816-1833. *)
Definition read_res_header : reader res_header :=
  b <- read_full 24 ;;
  if negb (byte_at b 0 =? magic_response) then fail invalid_response
  else ret (mkResHeader (byte_at b 1) (unbe (sub b 2 2)) (byte_at b 4) (byte_at b 5)
              (unbe (sub b 6 2)) (unbe (sub b 8 4)) (unbe (sub b 12 4)) (unbe (sub b 16 8))).

(** ** Requests. [h] is the request header the pool hands out, with whatever contents its previous
    use left; the second component of the result is the header as it is put back. *)

(** Header set up by Get, Delete, GetMulti (client/server.go:1223-1227, 1280-1283, 1505-1509). *)
Definition key_header (opc : Z) (k : bytes) : req_header :=
  mkReqHeader opc (u16 (zlen k)) 0 0 0 (u32 (zlen k)) 0 0.

(** marshalBinaryRequestHeader, client/client.go:17-25, on a reset header with the opcode set. *)
Definition store_header (opc : Z) (i : item) : req_header :=
  mkReqHeader opc (u16 (zlen (it_key i))) 8 0 0
    (u32 (zlen (it_key i) + zlen (it_value i) + 8)) 0 (it_cas i).

(** Set/Add/Replace, client/server.go:1342-1358, 1394-1410, 1446-1462. item.Flags[:4] panics when
    the capacity is below four; a slice shorter than four with spare capacity is treated as if its
    capacity equalled its length. The header has already been written to the buffer at that point,
    but nothing is flushed. *)
Definition bin_store_req (opc : Z) (i : item) : request * req_header :=
  let h := store_header opc i in
  let rest := be 4 (u32 (it_exp i)) ++ it_key i ++ it_value i in
  (match it_flags i with
   | None => Ok (encode_header h ++ be 4 0 ++ rest)
   | Some f => if zlen f <? 4 then Panic
               else Ok (encode_header h ++ firstn 4 f ++ rest)
   end, h).

(** incrOrDecr, client/server.go:1565-1584: the pooled header is not Reset, so data type and cas
    keep the values of the header's previous use. *)
Definition bin_incr_req (h : req_header) (opc : Z) (k : bytes) (delta expiration : Z)
  : request * req_header :=
  let h' := mkReqHeader opc (u16 (zlen k)) 20 (rq_data_type h) (rq_vbucket h)
              (u32 (zlen k + 20)) (rq_opaque h) (rq_cas h) in
  (Ok (encode_header h' ++ be 8 (u64 delta) ++ be 8 1 ++ be 4 (u32 expiration) ++ k), h').

(** Touch, client/server.go:1629-1646. *)
Definition bin_touch_req (k : bytes) (expiration : Z) : request * req_header :=
  let h := mkReqHeader op_touch (u16 (zlen k)) 4 0 0 (u32 (zlen k + 4)) 0 0 in
  (Ok (encode_header h ++ be 4 (u32 expiration) ++ k), h).

(** Flush, Version and the Noop of GetMulti, client/server.go:1675-1682, 1708-1715, 1291-1296. *)
Definition bare_header (opc : Z) : req_header := mkReqHeader opc 0 0 0 0 0 0 0.

Definition bin_req (h : req_header) (o : op) : request * req_header :=
  match o with
  | OGet k => (Ok (encode_header (key_header op_get k) ++ k), key_header op_get k)
  | OGetMulti ks =>
      (Ok (flat_map (fun k => encode_header (key_header op_getkq k) ++ k) ks
           ++ encode_header (bare_header op_noop)), bare_header op_noop)
  | OSet i => bin_store_req op_set i
  | OAdd i => bin_store_req op_add i
  | OReplace i => bin_store_req op_replace i
  | ODelete k => (Ok (encode_header (key_header op_delete k) ++ k), key_header op_delete k)
  | OIncr k d e => bin_incr_req h op_increment k d e
  | ODecr k d e => bin_incr_req h op_decrement k d e
  | OTouch k e => bin_touch_req k e
  | OFlush => (Ok (encode_header (bare_header op_flush)), bare_header op_flush)
  | OVersion => (Ok (encode_header (bare_header op_version)), bare_header op_version)
  end.

(** ** Replies *)

(** fmt.Errorf("memcached: error %s", v) or ("memcached: unknown error %d", status). *)
Definition status_error (st : Z) : err :=
  match binary_status st with
  | Some v => EMsg (B "memcached: error " ++ v)
  | None => EMsg (B "memcached: unknown error " ++ dec st)
  end.

(** Value/Key/Flags slices of a body; the sum of extras and key length is computed in uint16,
    client/server.go:1262-1263, 1324-1326. *)
Definition body_off (h : res_header) : Z := u16 (rs_extra_len h + rs_key_len h).

(** Get, client/server.go:1239-1265. *)
Definition bin_get_resp (k : bytes) : reader item :=
  h <- read_res_header ;;
  buf <- make_read_full (rs_total h) ;;
  if negb (rs_status h =? 0) then
    fail (if rs_status h =? 1 then ENotFound else status_error (rs_status h))
  else
    value <- go_sub buf (body_off h) (zlen buf) ;;
    flags <- go_sub buf 0 (rs_extra_len h) ;;
    ret (mkItem k value (Some flags) 0 (rs_cas h) []).

(** One round of GetMulti's loop, client/server.go:1304-1327: [None] is the terminating Noop. *)
Definition bin_getmulti_step : reader (option item) :=
  h <- read_res_header ;;
  if rs_opcode h =? op_noop then ret None
  else if negb (rs_status h =? 0) then fail (status_error (rs_status h))
  else
    buf <- make_read_full (rs_total h) ;;
    key <- go_sub buf (rs_extra_len h) (body_off h) ;;
    value <- go_sub buf (body_off h) (zlen buf) ;;
    flags <- go_sub buf 0 (rs_extra_len h) ;;
    ret (Some (mkItem key value (Some flags) 0 0 [])).

Fixpoint bin_values (fuel : nat) (acc : list item) (s : bytes) : option (outcome (list item) * bytes) :=
  match fuel with
  | O => None
  | S f => match bin_getmulti_step s with
           | (Ok (Some i), s') => bin_values f (i :: acc) s'
           | (Ok None, s') => Some (Ok (rev acc), s')
           | (Err e, s') => Some (Err e, s')
           | (Panic, s') => Some (Panic, s')
           end
  end.

Definition bin_getmulti_resp : reader (list item) := fun s =>
  match bin_values (S (length s)) [] s with
  | Some r => r
  | None => (Panic, s)             (* unreachable: bin_values_fuel in PReader.v *)
  end.

(** Set and Add, client/server.go:1362-1382, 1414-1434: the body of an error reply is not read. *)
Definition bin_store_resp (opc : Z) : reader unit :=
  h <- read_res_header ;;
  if negb (rs_opcode h =? opc) then fail invalid_response
  else if negb (rs_status h =? 0) then
    fail (if rs_status h =? 2 then EExists else status_error (rs_status h))
  else ret tt.

(** Replace and Delete, client/server.go:1466-1491, 1520-1545. *)
Definition bin_body_resp (opc : Z) : reader unit :=
  h <- read_res_header ;;
  if negb (rs_opcode h =? opc) then fail invalid_response
  else
    _ <- make_read_full (rs_total h) ;;
    if negb (rs_status h =? 0) then
      fail (if rs_status h =? 1 then ENotFound else status_error (rs_status h))
    else ret tt.

(** incrOrDecr, client/server.go:1589-1617. binary.BigEndian.Uint64 panics on a short body and
    reads the first eight bytes of a longer one. *)
Definition bin_incr_resp (opc : Z) : reader Z :=
  h <- read_res_header ;;
  if negb (rs_opcode h =? opc) then fail invalid_response
  else
    body <- (if 0 <? rs_total h then make_read_full (rs_total h) else ret []) ;;
    if negb (rs_status h =? 0) then
      fail (match binary_status (rs_status h) with
            | Some v => EMsg (B "memcached: error " ++ v
                              ++ (if 0 <? zlen body then B " (" ++ body ++ B ")" else []))
            | None => EMsg (B "memcached: unknown error " ++ dec (rs_status h)
                            ++ B " (" ++ body ++ B ")")
            end)
    else if zlen body <? 8 then panic
    else ret (i64 (unbe (firstn 8 body))).

(** Touch, client/server.go:1651-1663: neither opcode nor body is looked at. *)
Definition bin_touch_resp : reader unit :=
  h <- read_res_header ;;
  if negb (rs_status h =? 0) then fail (status_error (rs_status h)) else ret tt.

(** Flush, client/server.go:1689-1696: the status is not looked at. *)
Definition bin_flush_resp : reader unit :=
  h <- read_res_header ;;
  if negb (rs_opcode h =? op_flush) then fail invalid_response else ret tt.

(** Version, client/server.go:1721-1737. *)
Definition bin_version_resp : reader bytes :=
  h <- read_res_header ;;
  if negb (rs_status h =? 0) then fail (status_error (rs_status h))
  else make_read_full (rs_total h).

Definition bin_resp (o : op) : reader result :=
  match o with
  | OGet k => rmap RItem (bin_get_resp k)
  | OGetMulti _ => rmap RItems bin_getmulti_resp
  | OSet _ => runit (bin_store_resp op_set)
  | OAdd _ => runit (bin_store_resp op_add)
  | OReplace _ => runit (bin_body_resp op_replace)
  | ODelete _ => runit (bin_body_resp op_delete)
  | OIncr _ _ _ => rmap RInt (bin_incr_resp op_increment)
  | ODecr _ _ _ => rmap RInt (bin_incr_resp op_decrement)
  | OTouch _ _ => runit bin_touch_resp
  | OFlush => runit bin_flush_resp
  | OVersion => rmap RStr bin_version_resp
  end.
