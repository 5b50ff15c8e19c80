(** * The meta-protocol client, client/server.go:634-1134. *)
From Verif Require Import GoBytes GoNum GoIO Item ClientText.
Local Open Scope Z_scope.

(** client/server.go:35-43 *)
Definition meta_end  : bytes := B "EN" ++ crlf.
Definition meta_noop : bytes := B "MN" ++ crlf.
Definition meta_hd   : bytes := B "HD".          (* msgMetaProtoStored, msgMetaProtoDeleted *)
Definition meta_ns   : bytes := B "NS".
Definition meta_ex   : bytes := B "EX".
Definition meta_nf   : bytes := B "NF".

(** ** Requests *)

(** Set, client/server.go:866-881. binary.BigEndian.Uint32 of a non-nil Flags slice shorter than
    four bytes panics; a longer one uses its first four bytes. *)
Definition meta_set_req (i : item) : request :=
  let head := B "ms " ++ it_key i ++ B " " ++ dec (zlen (it_value i)) ++ B " T" ++ dec (it_exp i)
              ++ (if 0 <? it_cas i then B " C" ++ dec (it_cas i) else []) in
  let data := crlf ++ it_value i ++ crlf in
  match it_flags i with
  | None => Ok (head ++ data)
  | Some f => if zlen f <? 4 then Panic
              else Ok (head ++ B " F" ++ dec (unbe (firstn 4 f)) ++ data)
  end.

Definition meta_req (o : op) : request :=
  match o with
  | OGet k => Ok (B "mg " ++ k ++ B " v f c t" ++ crlf)                          (* 710 *)
  | OGetMulti ks =>                                                              (* 735-740 *)
      Ok (flat_map (fun k => B "mg " ++ k ++ B " v f k c t" ++ crlf) ks ++ B "mn" ++ crlf)
  | OSet i => meta_set_req i
  | OAdd i => Ok (text_store_req (B "add") i)                                    (* 914-922 *)
  | OReplace i => Ok (text_store_req (B "replace") i)                            (* 948-956 *)
  | ODelete k => Ok (B "md " ++ k ++ crlf)                                       (* 981 *)
  | OIncr k d _ => Ok (B "incr " ++ k ++ B " " ++ dec d ++ crlf)                 (* 1006-1008, 1025 *)
  | ODecr k d _ => Ok (B "decr " ++ k ++ B " " ++ dec d ++ crlf)                 (* 1012-1014, 1025 *)
  | OTouch k e => Ok (B "md " ++ k ++ B " I T" ++ dec e ++ crlf)                 (* 1057 *)
  | OFlush => Ok (B "flush_all" ++ crlf)                                         (* 1086 *)
  | OVersion => Ok (B "version" ++ crlf)                                         (* 1114 *)
  end.

(** ** Replies *)

(** readGetFlagToken, client/server.go:828-855. *)
Definition meta_token (flag : ascii) (v : bytes) (i : item) : option item :=
  if Ascii.eqb flag "f" then
    match parse_int 32 v with
    | Some n => Some (mkItem (it_key i) (it_value i) (Some (be 4 (u32 n))) (it_exp i) (it_cas i) (it_server i))
    | None => None
    end
  else if Ascii.eqb flag "c" then
    match parse_int 64 v with
    | Some n => Some (mkItem (it_key i) (it_value i) (it_flags i) (it_exp i) (u64 n) (it_server i))
    | None => None
    end
  else if Ascii.eqb flag "t" then
    match parse_int 32 v with
    | Some n => Some (mkItem (it_key i) (it_value i) (it_flags i) n (it_cas i) (it_server i))
    | None => None
    end
  else if Ascii.eqb flag "k" then
    Some (mkItem v (it_value i) (it_flags i) (it_exp i) (it_cas i) (it_server i))
  else Some i.

(** The scanner state of parseGetResponse, client/server.go:777-785. The slice
    b[startIndex:3+i] is represented by the bytes collected since startIndex: in state 1 they start
    at index 3, in state 3 right after the flag letter. *)
Inductive mstate :=
| MSize (acc : bytes)
| MFlag
| MToken (flag : ascii) (acc : bytes).

Definition is_meta_flag (c : ascii) : bool :=
  Ascii.eqb c "f" || Ascii.eqb c "c" || Ascii.eqb c "t" || Ascii.eqb c "k".

(** One character of the loop client/server.go:786-817. *)
Definition meta_step (st : mstate) (size : Z) (i : item) (c : ascii) : option (mstate * Z * item) :=
  if Ascii.eqb c SP then
    match st with
    | MSize acc => match parse_int 32 acc with
                   | Some n => Some (MFlag, n, i)
                   | None => None
                   end
    | MFlag => Some (MFlag, size, i)
    | MToken fl acc => match meta_token fl acc i with
                       | Some i' => Some (MFlag, size, i')
                       | None => None
                       end
    end
  else if Ascii.eqb c CR then
    match st with
    | MToken fl acc => match meta_token fl acc i with
                       | Some i' => Some (MToken fl (acc ++ [c]), size, i')
                       | None => None
                       end
    | MSize acc => Some (MSize (acc ++ [c]), size, i)
    | MFlag => Some (MFlag, size, i)
    end
  else
    match st with
    | MFlag => if is_meta_flag c then Some (MToken c [], size, i) else Some (MFlag, size, i)
    | MSize acc => Some (MSize (acc ++ [c]), size, i)
    | MToken fl acc => Some (MToken fl (acc ++ [c]), size, i)
    end.

Fixpoint meta_scan (st : mstate) (size : Z) (i : item) (b : bytes) : option (Z * item) :=
  match b with
  | [] => Some (size, i)
  | c :: b' => match meta_step st size i c with
               | Some (st', size', i') => meta_scan st' size' i' b'
               | None => None
               end
  end.

(** parseGetResponse, client/server.go:762-826. A line with prefix "VA" ends in a newline, so it
    has at least three bytes and b[3:] is in range. *)
Definition meta_get_block : reader item :=
  b <- read_slice ;;
  if beq b meta_end then fail ENotFound
  else if beq b meta_noop then fail ENotFound
  else if negb (has_prefix (B "VA") b) then fail (EMsg (B "memcached: invalid get response"))
  else
    si <- lift_opt (meta_scan (MSize []) 0 zero_item (skipn 3 b)) ;;
    let '(size, i) := si in
    buf <- make_read_full (i64 (size + 2)) ;;
    value <- go_sub buf 0 size ;;
    ret (mkItem (it_key i) value (it_flags i) (it_exp i) (it_cas i) (it_server i)).

(** Get, client/server.go:717-722. *)
Definition meta_get_resp (k : bytes) : reader item :=
  i <- meta_get_block ;;
  ret (mkItem k (it_value i) (it_flags i) (it_exp i) (it_cas i) (it_server i)).

(** GetMulti's loop, client/server.go:745-759: ItemNotFound (both "EN" and "MN") ends it. *)
Fixpoint meta_values (fuel : nat) (acc : list item) (s : bytes) : option (outcome (list item) * bytes) :=
  match fuel with
  | O => None
  | S f => match meta_get_block s with
           | (Ok i, s') => meta_values f (i :: acc) s'
           | (Err ENotFound, s') => Some (Ok (rev acc), s')
           | (Err e, s') => Some (Err e, s')
           | (Panic, s') => Some (Panic, s')
           end
  end.

Definition meta_getmulti_resp : reader (list item) := fun s =>
  match meta_values (S (length s)) [] s with
  | Some r => r
  | None => (Panic, s)             (* unreachable: meta_values_fuel in PReader.v *)
  end.

(** Set, client/server.go:885-901. *)
Definition meta_set_resp : reader unit :=
  b <- read_slice ;;
  if has_prefix meta_hd b then ret tt
  else if has_prefix meta_ns b then fail (EMsg (B "memcached: not stored"))
  else if has_prefix meta_ex b then fail EExists
  else if has_prefix meta_nf b then fail ENotFound
  else fail (EMsg (B "memcached: failed set")).

(** Delete, client/server.go:987-1001. *)
Definition meta_delete_resp : reader unit :=
  b <- read_slice ;;
  if has_prefix meta_hd b then ret tt
  else if has_prefix meta_nf b then ret tt
  else if has_prefix meta_ex b then fail ENotFound
  else fail (EMsg (B "memcached: failed delete")).

(** Touch, client/server.go:1064-1074. *)
Definition meta_touch_resp : reader unit :=
  b <- read_slice ;;
  if has_prefix meta_hd b then ret tt
  else fail (EMsg (B "memcached: failed touch")).

Definition meta_resp (o : op) : reader result :=
  match o with
  | OGet k => rmap RItem (meta_get_resp k)
  | OGetMulti _ => rmap RItems meta_getmulti_resp
  | OSet _ => runit meta_set_resp
  | OAdd _ => runit text_add_resp
  | OReplace _ => runit text_replace_resp
  | ODelete _ => runit meta_delete_resp
  | OIncr _ _ _ => rmap RInt text_incr_resp
  | ODecr _ _ _ => rmap RInt text_incr_resp
  | OTouch _ _ => runit meta_touch_resp
  | OFlush => runit text_flush_resp
  | OVersion => rmap RStr text_version_resp
  end.
