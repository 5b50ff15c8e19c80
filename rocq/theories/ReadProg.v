(** * The reading code of the client and the server as programs over bufio reads.

    The text of these definitions is the text of the readers of ClientText.v, ClientMeta.v,
    ClientBinary.v and ServerParse.v (same names with the prefix p_), with the reads left symbolic
    ([rprog], GoBufio.v) so that they can be run on a bufio.Reader as well as on a byte string.
    PReadProg.v proves that on a byte string they are those readers. *)
From Verif Require Import GoBytes GoNum GoIO GoScan GoBufio Item ClientText ClientMeta ClientBinary ServerTypes ServerParse Serve ServerWrite.
Local Open Scope Z_scope.

(** ** Sequencing, and the pure steps (GoIO.v) *)
Fixpoint p_bind {A C} (p : rprog A) (f : A -> rprog C) : rprog C :=
  match p with
  | PRet (Ok a) => f a
  | PRet (Err e) => PRet (Err e)
  | PRet Panic => PRet Panic
  | PRead r k => PRead r (fun b => p_bind (k b) f)
  end.
Notation "x << m ;; f" := (p_bind m (fun x => f)) (at level 61, m at next level, right associativity).
Definition p_ret {A} (a : A) : rprog A := PRet (Ok a).
Definition p_fail {A} (e : err) : rprog A := PRet (Err e).
Definition p_panic {A} : rprog A := PRet Panic.
Definition p_lift {A} (o : outcome A) : rprog A := PRet o.
Definition p_lift_opt {A} (o : option A) : rprog A := match o with Some a => p_ret a | None => p_fail EParse end.
Definition p_go_sub (b : bytes) (lo hi : Z) : rprog bytes := PRet (go_slice b lo hi).
Definition p_go_index {A} (l : list A) (i : nat) : rprog A := match nth_error l i with Some a => p_ret a | None => p_panic end.
Definition p_go_make (n : Z) : rprog unit := if (n <? 0) || (max_alloc <? n) then p_panic else p_ret tt.
Definition p_read_slice : rprog bytes := PRead RSlice p_ret.
Definition p_read_bytes : rprog bytes := PRead RBytes p_ret.
Definition p_read_full (n : Z) : rprog bytes := PRead (RFull n) p_ret.
Definition p_make_read_full (n : Z) : rprog bytes := _ << p_go_make n ;; p_read_full n.

(** ** The text client *)

(** Get, client/server.go:217-257. [name] is the server's name. *)
Definition p_text_get_resp (name : bytes) : rprog item :=
  b << p_read_slice ;;
  if beq b msg_end then p_fail ENotFound
  else if negb (has_prefix (B "VALUE") b) then p_fail invalid_response
  else
    v << p_lift_opt (fscanf_value (negb (count_sp b =? 3)) b) ;;
    let '(key, flags, size, cas) := v in
    buf << p_make_read_full (i64 (size + 2)) ;;
    value << p_go_sub buf 0 size ;;
    e << p_read_slice ;;
    if negb (beq e msg_end) then p_fail invalid_response
    else p_ret (mkItem key value (Some (be 4 flags)) 0 cas name).

(** parseGetResponse, client/server.go:292-337, one VALUE block: from the line [b] already read. *)
Definition p_text_value_block (b : bytes) : rprog item :=
  let s := split_sp b in
  s0 << p_go_index s 0 ;;
  if negb (beq s0 (B "VALUE")) then p_fail invalid_response
  else
    s2 << p_go_index s 2 ;;
    f << p_lift_opt (atoi s2) ;;
    s3 << p_go_index s 3 ;;
    sz << (if zlen s =? 4 then p_go_sub s3 0 (zlen s3 - 2) else p_ret s3) ;;
    size << p_lift_opt (atoi sz) ;;
    _ << p_go_make (i64 (size + 2)) ;;
    s1 << p_go_index s 1 ;;
    buf << p_read_full (i64 (size + 2)) ;;
    value << p_go_sub buf 0 size ;;
    p_ret (mkItem s1 value (Some (be 4 (u32 f))) 0 0 []).

(** The loop of parseGetResponse, client/server.go:294-334. Like every loop here it is given fuel;
    a program is run with more fuel than there are bytes to come, which is never used up. *)
Fixpoint p_text_values (fuel : nat) (acc : list item) : rprog (list item) :=
  match fuel with
  | O => p_panic
  | S f =>
      b << p_read_slice ;;
      if beq b (B "END" ++ crlf) then p_ret (rev acc)
      else i << p_text_value_block b ;; p_text_values f (i :: acc)
  end.
(** GetMulti, client/server.go:280-289. *)
Definition p_text_getmulti_resp (fuel : nat) (name : bytes) : rprog (list item) :=
  l << p_text_values fuel [] ;; p_ret (map (set_server name) l).

(** Set, client/server.go:482-494. *)
Definition p_text_set_resp : rprog unit :=
  b << p_read_slice ;;
  if beq b msg_stored then p_ret tt
  else if beq b msg_exists then p_fail EExists
  else p_fail (EMsg (B "memcached: failed set: " ++ b)).

(** Add, client/server.go:523-531 (and 927-935 for the meta client). *)
Definition p_text_add_resp : rprog unit :=
  b << p_read_slice ;;
  if beq b msg_stored then p_ret tt else p_fail EExists.

(** Replace, client/server.go:560-568 (and 961-969). *)
Definition p_text_replace_resp : rprog unit :=
  b << p_read_slice ;;
  if beq b msg_stored then p_ret tt else p_fail ENotFound.

(** Delete, client/server.go:358-369: any other line is success. *)
Definition p_text_delete_resp : rprog unit :=
  b << p_read_slice ;;
  if beq b msg_deleted then p_ret tt
  else if beq b msg_not_found then p_fail ENotFound
  else p_ret tt.

(** incrOrDecr, client/server.go:399-413 (and 1031-1045). *)
Definition p_text_incr_resp : rprog Z :=
  b << p_read_slice ;;
  if beq b msg_not_found then p_fail ENotFound
  else
    d << p_go_sub b 0 (zlen b - 2) ;;
    p_lift_opt (parse_int 64 d).

(** Touch, client/server.go:435-447: any other line is success. *)
Definition p_text_touch_resp : rprog unit :=
  b << p_read_slice ;;
  if beq b msg_touched then p_ret tt
  else if beq b msg_not_found then p_fail ENotFound
  else p_ret tt.

(** Flush, client/server.go:590-600 (and 1092-1102). *)
Definition p_text_flush_resp : rprog unit :=
  b << p_read_slice ;;
  if beq b msg_ok then p_ret tt
  else
    m << p_go_sub b 0 (zlen b - 2) ;;
    p_fail (EMsg (B "memcached: " ++ m)).

(** Version, client/server.go:623-631 (and 1121-1129). A line read successfully is never empty. *)
Definition p_text_version_resp : rprog bytes :=
  b << p_read_slice ;;
  if 0 <? zlen b then p_ret (trim_suffix crlf (trim_prefix (B "VERSION ") b))
  else p_ret [].

Definition p_rmap {A} (f : A -> result) (m : rprog A) : rprog result := a << m ;; p_ret (f a).

Definition p_runit (m : rprog unit) : rprog result := p_rmap (fun _ => RUnit) m.

Definition p_text_resp (fuel : nat) (name : bytes) (o : op) : rprog result :=
  match o with
  | OGet _ => p_rmap RItem (p_text_get_resp name)
  | OGetMulti _ => p_rmap RItems (p_text_getmulti_resp fuel name)
  | OSet _ => p_runit p_text_set_resp
  | OAdd _ => p_runit p_text_add_resp
  | OReplace _ => p_runit p_text_replace_resp
  | ODelete _ => p_runit p_text_delete_resp
  | OIncr _ _ _ => p_rmap RInt p_text_incr_resp
  | ODecr _ _ _ => p_rmap RInt p_text_incr_resp
  | OTouch _ _ => p_runit p_text_touch_resp
  | OFlush => p_runit p_text_flush_resp
  | OVersion => p_rmap RStr p_text_version_resp
  end.

(** ** The meta client *)

(** parseGetResponse, client/server.go:762-826. A line with prefix "VA" ends in a newline, so it
    has at least three bytes and b[3:] is in range. *)
Definition p_meta_get_block : rprog item :=
  b << p_read_slice ;;
  if beq b meta_end then p_fail ENotFound
  else if beq b meta_noop then p_fail ENotFound
  else if negb (has_prefix (B "VA") b) then p_fail (EMsg (B "memcached: invalid get response"))
  else
    si << p_lift_opt (meta_scan (MSize []) 0 zero_item (skipn 3 b)) ;;
    let '(size, i) := si in
    buf << p_make_read_full (i64 (size + 2)) ;;
    value << p_go_sub buf 0 size ;;
    p_ret (mkItem (it_key i) value (it_flags i) (it_exp i) (it_cas i) (it_server i)).

(** Get, client/server.go:717-722. *)
Definition p_meta_get_resp (k : bytes) : rprog item :=
  i << p_meta_get_block ;;
  p_ret (mkItem k (it_value i) (it_flags i) (it_exp i) (it_cas i) (it_server i)).

(** GetMulti's loop, client/server.go:745-759: ItemNotFound ends it. *)
Fixpoint p_until {A C} (p : rprog A) (f : outcome A -> rprog C) : rprog C :=
  match p with
  | PRet o => f o
  | PRead r k => PRead r (fun b => p_until (k b) f)
  end.
Fixpoint p_meta_values (fuel : nat) (acc : list item) : rprog (list item) :=
  match fuel with
  | O => p_panic
  | S f =>
      p_until p_meta_get_block (fun o =>
        match o with
        | Ok i => p_meta_values f (i :: acc)
        | Err ENotFound => p_ret (rev acc)
        | Err e => p_fail e
        | Panic => p_panic
        end)
  end.
Definition p_meta_getmulti_resp (fuel : nat) : rprog (list item) := p_meta_values fuel [].

(** Set, client/server.go:885-901. *)
Definition p_meta_set_resp : rprog unit :=
  b << p_read_slice ;;
  if has_prefix meta_hd b then p_ret tt
  else if has_prefix meta_ns b then p_fail (EMsg (B "memcached: not stored"))
  else if has_prefix meta_ex b then p_fail EExists
  else if has_prefix meta_nf b then p_fail ENotFound
  else p_fail (EMsg (B "memcached: failed set")).

(** Delete, client/server.go:987-1001. *)
Definition p_meta_delete_resp : rprog unit :=
  b << p_read_slice ;;
  if has_prefix meta_hd b then p_ret tt
  else if has_prefix meta_nf b then p_ret tt
  else if has_prefix meta_ex b then p_fail ENotFound
  else p_fail (EMsg (B "memcached: failed delete")).

(** Touch, client/server.go:1064-1074. *)
Definition p_meta_touch_resp : rprog unit :=
  b << p_read_slice ;;
  if has_prefix meta_hd b then p_ret tt
  else p_fail (EMsg (B "memcached: failed touch")).

Definition p_meta_resp (fuel : nat) (o : op) : rprog result :=
  match o with
  | OGet k => p_rmap RItem (p_meta_get_resp k)
  | OGetMulti _ => p_rmap RItems (p_meta_getmulti_resp fuel)
  | OSet _ => p_runit p_meta_set_resp
  | OAdd _ => p_runit p_text_add_resp
  | OReplace _ => p_runit p_text_replace_resp
  | ODelete _ => p_runit p_meta_delete_resp
  | OIncr _ _ _ => p_rmap RInt p_text_incr_resp
  | ODecr _ _ _ => p_rmap RInt p_text_incr_resp
  | OTouch _ _ => p_runit p_meta_touch_resp
  | OFlush => p_runit p_text_flush_resp
  | OVersion => p_rmap RStr p_text_version_resp
  end.

(** ** The binary client *)

(** Read, client/server.go:1816-1833. *)
Definition p_read_res_header : rprog res_header :=
  b << p_read_full 24 ;;
  if negb (byte_at b 0 =? magic_response) then p_fail invalid_response
  else p_ret (mkResHeader (byte_at b 1) (unbe (sub b 2 2)) (byte_at b 4) (byte_at b 5)
              (unbe (sub b 6 2)) (unbe (sub b 8 4)) (unbe (sub b 12 4)) (unbe (sub b 16 8))).

(** Get, client/server.go:1239-1265. *)
Definition p_bin_get_resp (k : bytes) : rprog item :=
  h << p_read_res_header ;;
  buf << p_make_read_full (rs_total h) ;;
  if negb (rs_status h =? 0) then
    p_fail (if rs_status h =? 1 then ENotFound else status_error (rs_status h))
  else
    value << p_go_sub buf (body_off h) (zlen buf) ;;
    flags << p_go_sub buf 0 (rs_extra_len h) ;;
    p_ret (mkItem k value (Some flags) 0 (rs_cas h) []).

(** One round of GetMulti's loop, client/server.go:1304-1327: [None] is the terminating Noop. *)
Definition p_bin_getmulti_step : rprog (option item) :=
  h << p_read_res_header ;;
  if rs_opcode h =? op_noop then p_ret None
  else if negb (rs_status h =? 0) then p_fail (status_error (rs_status h))
  else
    buf << p_make_read_full (rs_total h) ;;
    key << p_go_sub buf (rs_extra_len h) (body_off h) ;;
    value << p_go_sub buf (body_off h) (zlen buf) ;;
    flags << p_go_sub buf 0 (rs_extra_len h) ;;
    p_ret (Some (mkItem key value (Some flags) 0 0 [])).

(** GetMulti's loop, client/server.go:1303-1328. *)
Fixpoint p_bin_values (fuel : nat) (acc : list item) : rprog (list item) :=
  match fuel with
  | O => p_panic
  | S f =>
      o << p_bin_getmulti_step ;;
      match o with
      | Some i => p_bin_values f (i :: acc)
      | None => p_ret (rev acc)
      end
  end.
Definition p_bin_getmulti_resp (fuel : nat) : rprog (list item) := p_bin_values fuel [].

(** Set and Add, client/server.go:1362-1382, 1414-1434: the body of an error reply is not read. *)
Definition p_bin_store_resp (opc : Z) : rprog unit :=
  h << p_read_res_header ;;
  if negb (rs_opcode h =? opc) then p_fail invalid_response
  else if negb (rs_status h =? 0) then
    p_fail (if rs_status h =? 2 then EExists else status_error (rs_status h))
  else p_ret tt.

(** Replace and Delete, client/server.go:1466-1491, 1520-1545. *)
Definition p_bin_body_resp (opc : Z) : rprog unit :=
  h << p_read_res_header ;;
  if negb (rs_opcode h =? opc) then p_fail invalid_response
  else
    _ << p_make_read_full (rs_total h) ;;
    if negb (rs_status h =? 0) then
      p_fail (if rs_status h =? 1 then ENotFound else status_error (rs_status h))
    else p_ret tt.

(** incrOrDecr, client/server.go:1589-1617. binary.BigEndian.Uint64 panics on a short body and
    reads the first eight bytes of a longer one. *)
Definition p_bin_incr_resp (opc : Z) : rprog Z :=
  h << p_read_res_header ;;
  if negb (rs_opcode h =? opc) then p_fail invalid_response
  else
    body << (if 0 <? rs_total h then p_make_read_full (rs_total h) else p_ret []) ;;
    if negb (rs_status h =? 0) then
      p_fail (match binary_status (rs_status h) with
            | Some v => EMsg (B "memcached: error " ++ v
                              ++ (if 0 <? zlen body then B " (" ++ body ++ B ")" else []))
            | None => EMsg (B "memcached: unknown error " ++ dec (rs_status h)
                            ++ B " (" ++ body ++ B ")")
            end)
    else if zlen body <? 8 then p_panic
    else p_ret (i64 (unbe (firstn 8 body))).

(** Touch, client/server.go:1651-1663: neither opcode nor body is looked at. *)
Definition p_bin_touch_resp : rprog unit :=
  h << p_read_res_header ;;
  if negb (rs_status h =? 0) then p_fail (status_error (rs_status h)) else p_ret tt.

(** Flush, client/server.go:1689-1696: the status is not looked at. *)
Definition p_bin_flush_resp : rprog unit :=
  h << p_read_res_header ;;
  if negb (rs_opcode h =? op_flush) then p_fail invalid_response else p_ret tt.

(** Version, client/server.go:1721-1737. *)
Definition p_bin_version_resp : rprog bytes :=
  h << p_read_res_header ;;
  if negb (rs_status h =? 0) then p_fail (status_error (rs_status h))
  else p_make_read_full (rs_total h).

Definition p_bin_resp (fuel : nat) (o : op) : rprog result :=
  match o with
  | OGet k => p_rmap RItem (p_bin_get_resp k)
  | OGetMulti _ => p_rmap RItems (p_bin_getmulti_resp fuel)
  | OSet _ => p_runit (p_bin_store_resp op_set)
  | OAdd _ => p_runit (p_bin_store_resp op_add)
  | OReplace _ => p_runit (p_bin_body_resp op_replace)
  | ODelete _ => p_runit (p_bin_body_resp op_delete)
  | OIncr _ _ _ => p_rmap RInt (p_bin_incr_resp op_increment)
  | ODecr _ _ _ => p_rmap RInt (p_bin_incr_resp op_decrement)
  | OTouch _ _ => p_runit p_bin_touch_resp
  | OFlush => p_runit p_bin_flush_resp
  | OVersion => p_rmap RStr p_bin_version_resp
  end.

(** ** The server *)

(** The switch of readAsciiRequest, server/server.go:122-292, on the fields of the line.
    strings.Split never returns an empty slice, so the check at 122-124 never fires. *)
Definition p_ascii_command (s : list bytes) : rprog srequest :=
  match s with
  | [] => p_fail invalid_request
  | cmd :: args =>
      if beq cmd (B "get") then                                                   (* 127-131 *)
        match args with
        | [k] => p_ret (key_req OpcGet k)
        | _ => p_fail invalid_request
        end
      else if beq cmd (B "gets") then                                             (* 132-133 *)
        p_ret (mkReq OpcGet [] args None [] 0 None None None)
      else if beq cmd (B "set") || beq cmd (B "add") || beq cmd (B "replace") then  (* 134-167 *)
        match args with
        | [k; fl; ex; ln] =>
            f << p_lift_opt (parse_int 32 fl) ;;
            e << p_lift_opt (parse_int 32 ex) ;;
            n << p_lift_opt (parse_int 32 ln) ;;
            buf << p_make_read_full (n + 2) ;;
            value << p_go_sub buf 0 n ;;
            let opc := if beq cmd (B "add") then OpcAdd
                       else if beq cmd (B "replace") then OpcReplace else OpcSet in
            p_ret (mkReq opc k [] (Some (be 4 (u32 f))) value 0 None (Some (exp_opt e)) None)
        | _ => p_fail invalid_request
        end
      else if beq cmd (B "delete") || beq cmd (B "md") then                       (* 168-176 *)
        match args with
        | [k] => p_ret (mkReq OpcDelete k [] None [] 0 None None (Some (beq cmd (B "md"))))
        | _ => p_fail invalid_request
        end
      else if beq cmd (B "incr") || beq cmd (B "decr") || beq cmd (B "touch") then  (* 177-192 *)
        match args with
        | [k; n] =>
            d << p_lift_opt (parse_int 32 n) ;;
            let opc := if beq cmd (B "decr") then OpcDecrement
                       else if beq cmd (B "touch") then OpcTouch else OpcIncrement in
            p_ret (mkReq opc k [] None [] d None None None)
        | _ => p_fail invalid_request
        end
      else if beq cmd (B "mg") then                                               (* 193-224 *)
        match args with
        | k :: fl :: _ => p_ret (mkReq OpcGet k [] None [] 0 (Some (mg_opt fl)) None None)
        | _ => p_fail invalid_request
        end
      else if beq cmd (B "ms") then                                               (* 225-285 *)
        match args with
        | k :: ln :: tokens =>
            v << p_lift_opt (parse_uint 32 ln) ;;
            o << p_lift (ms_tokens (mkSetOpt true false 0 0 false false 0 false v 0) tokens) ;;
            buf << p_make_read_full (s_size o + 2) ;;
            value << p_go_sub buf 0 (s_size o) ;;
            p_ret (mkReq OpcSet k [] None value 0 None (Some o) None)
        | _ => p_fail invalid_request
        end
      else if beq cmd (B "flush_all") then p_ret (key_req OpcFlush [])              (* 286-287 *)
      else if beq cmd (B "version") then p_ret (key_req OpcVersion [])              (* 288-289 *)
      else p_fail invalid_request                                                   (* 292 *)
  end.

(** readAsciiRequest, server/server.go:116-293. *)
Definition p_read_ascii_request : rprog srequest :=
  line << p_read_bytes ;;
  p_ascii_command (split_sp (trim_suffix crlf line)).

(** binary.BigEndian.Uint32(b[lo:hi]) and the like: the slice expression panics when out of range. *)
Definition p_be_at (b : bytes) (lo hi : Z) : rprog Z :=
  w << p_go_sub b lo hi ;; p_ret (unbe w).

(** readBinaryRequest, server/server.go:295-394. *)
Definition p_read_binary_request : rprog srequest :=
  header << p_read_full 24 ;;
  if negb (byte_at header 0 =? magic_request) then p_fail invalid_request
  else
    let opc := byte_at header 1 in
    let key_len := unbe (sub header 2 2) in
    let extra_len := byte_at header 4 in
    let total := unbe (sub header 8 4) in
    if opc =? 0 then                                                              (* 305-312 *)
      k << p_make_read_full key_len ;; p_ret (key_req OpcGet k)
    else if opc =? 13 then                                                        (* 313-320 *)
      k << p_make_read_full key_len ;;
      p_ret (mkReq OpcGet k [] None [] 0
             (Some (mkGetOpt false [] false false true false false true false false false false)) None None)
    else if (opc =? 1) || (opc =? 2) || (opc =? 3) then                           (* 321-346 *)
      extra << p_make_read_full extra_len ;;
      e << p_be_at extra 4 8 ;;
      k << p_make_read_full key_len ;;
      v << p_make_read_full (total - extra_len - key_len) ;;
      fl << p_go_sub extra 0 4 ;;
      p_ret (mkReq (if opc =? 1 then OpcSet else if opc =? 2 then OpcAdd else OpcReplace)
             k [] (Some fl) v 0 None (Some (exp_opt e)) None)
    else if opc =? 4 then                                                         (* 347-354 *)
      k << p_make_read_full key_len ;; p_ret (key_req OpcDelete k)
    else if (opc =? 5) || (opc =? 6) then                                         (* 355-374 *)
      extra << p_make_read_full extra_len ;;
      d << p_be_at extra 0 8 ;;
      e << p_be_at extra 16 20 ;;
      k << p_make_read_full key_len ;;
      p_ret (mkReq (if opc =? 5 then OpcIncrement else OpcDecrement)
             k [] None [] (i64 d) None (Some (exp_opt e)) None)
    else if opc =? 28 then                                                        (* 375-388 *)
      extra << p_make_read_full extra_len ;;
      e << p_be_at extra 0 4 ;;
      k << p_make_read_full key_len ;;
      p_ret (mkReq OpcTouch k [] None [] 0 None (Some (exp_opt e)) None)
    else if opc =? 10 then p_ret (key_req OpcNoop [])                               (* 389-390 *)
    else if opc =? 11 then p_ret (key_req OpcVersion [])
    else if opc =? 8 then p_ret (key_req OpcFlush [])
    else p_fail invalid_request.

(** readRequest with detectProtocol, server/server.go:79-91, 99-114, on the connection's
    bufio.Reader. *)
Definition bufio_request (p : option protocol) (b : breader) : (outcome srequest * breader) * option protocol :=
  match p with
  | Some ProtoAscii => (run_bufio p_read_ascii_request b, p)
  | Some ProtoBinary => (run_bufio p_read_binary_request b, p)
  | None =>
      match br_peek b with
      | (Ok c, b') => if code c =? magic_request then (run_bufio p_read_binary_request b', Some ProtoBinary)
                      else (run_bufio p_read_ascii_request b', Some ProtoAscii)
      | (Err e, b') => ((Err e, b'), None)
      | (Panic, b') => ((Panic, b'), None)
      end
  end.

(** The connection loop, server/server.go:493-515, reading from a bufio.Reader. *)
Fixpoint serve_bufio {H} (h : handler H) (fuel : nat) (p : option protocol) (st : H) (b : breader)
  : H * list served * fate :=
  match fuel with
  | O => (st, [], OutOfFuel)
  | S f =>
      match bufio_request p b with
      | ((Err e, _), _) => (st, [], Closed e)
      | ((Panic, _), _) => (st, [], Crashed)
      | ((Ok req, b'), p') =>
          match h st req with
          | (st', Err e) => (st', [mkServed req []], Closed e)
          | (st', Panic) => (st', [mkServed req []], Crashed)
          | (st', Ok res) =>
              match p' with
              | None => (st', [mkServed req []], OutOfFuel)
              | Some pr =>
                  match write_response pr req res with
                  | Err e => (st', [mkServed req []], Closed e)
                  | Panic => (st', [mkServed req []], Crashed)
                  | Ok out =>
                      let '(st'', l, ft) := serve_bufio h f p' st' b' in
                      (st'', mkServed req out :: l, ft)
                  end
              end
          end
      end
  end.
