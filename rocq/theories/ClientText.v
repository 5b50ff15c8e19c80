(** * The text-protocol client, client/server.go:119-632.

    Each operation is the request bytes it writes and flushes, and a reader for its reply. The
    mutex, the nil check of s.raw and deadlines are modelled in Lifecycle.v and Conc.v. Writes go
    through a bufio.Writer whose errors are sticky and reported at the latest by Flush, so a write
    failure always makes the call return an error before anything is read (Conc.v / Call.v). *)
From Verif Require Import GoBytes GoNum GoIO GoScan Item.
Local Open Scope Z_scope.

(** client/server.go:21-29 *)
Definition msg_stored    : bytes := B "STORED" ++ crlf.
Definition msg_deleted   : bytes := B "DELETED" ++ crlf.
Definition msg_not_found : bytes := B "NOT_FOUND" ++ crlf.
Definition msg_touched   : bytes := B "TOUCHED" ++ crlf.
Definition msg_exists    : bytes := B "EXISTS" ++ crlf.
Definition msg_ok        : bytes := B "OK" ++ crlf.
Definition msg_end       : bytes := B "END" ++ crlf.

Definition invalid_response : err := EMsg (B "memcached: invalid response").

(** ** Requests *)

(** client/server.go:211 (Get) and 274 (GetMulti). *)
Definition text_get_req (k : bytes) : bytes := B "gets " ++ k ++ crlf.
Definition text_getmulti_req (ks : list bytes) : bytes := B "gets " ++ join_sp ks ++ crlf.

(** The storage command line and data block; client/server.go:472, 514, 551, 918, 952 and
    476, 517-518, 554-555. *)
Definition text_store_req (cmd : bytes) (i : item) : bytes :=
  cmd ++ B " " ++ it_key i ++ B " " ++ dec (text_flags i) ++ B " " ++ dec (it_exp i)
  ++ B " " ++ dec (zlen (it_value i)) ++ crlf ++ it_value i ++ crlf.

(** client/server.go:463-478: cas when the item carries a cas value, set otherwise. *)
Definition text_set_req (i : item) : bytes :=
  if 0 <? it_cas i then
    B "cas " ++ it_key i ++ B " " ++ dec (text_flags i) ++ B " " ++ dec (it_exp i)
    ++ B " " ++ dec (zlen (it_value i)) ++ B " " ++ dec (it_cas i) ++ crlf ++ it_value i ++ crlf
  else text_store_req (B "set") i.

Definition text_req (o : op) : request :=
  match o with
  | OGet k => Ok (text_get_req k)
  | OGetMulti ks => Ok (text_getmulti_req ks)
  | OSet i => Ok (text_set_req i)
  | OAdd i => Ok (text_store_req (B "add") i)                                  (* 514-518 *)
  | OReplace i => Ok (text_store_req (B "replace") i)                          (* 551-555 *)
  | ODelete k => Ok (B "delete " ++ k ++ crlf)                                 (* 352 *)
  | OIncr k d _ => Ok (B "incr " ++ k ++ B " " ++ dec d ++ crlf)               (* 372-374, 393 *)
  | ODecr k d _ => Ok (B "decr " ++ k ++ B " " ++ dec d ++ crlf)               (* 376-378, 393 *)
  | OTouch k e => Ok (B "touch " ++ k ++ B " " ++ dec e ++ crlf)               (* 429 *)
  | OFlush => Ok (B "flush_all" ++ crlf)                                       (* 584 *)
  | OVersion => Ok (B "version" ++ crlf)                                       (* 616 *)
  end.

(** ** Replies *)

(** Get, client/server.go:217-257. [name] is the server's name. *)
Definition text_get_resp (name : bytes) : reader item :=
  b <- read_slice ;;
  if beq b msg_end then fail ENotFound
  else if negb (has_prefix (B "VALUE") b) then fail invalid_response
  else
    v <- lift_opt (fscanf_value (negb (count_sp b =? 3)) b) ;;
    let '(key, flags, size, cas) := v in
    buf <- make_read_full (i64 (size + 2)) ;;
    value <- go_sub buf 0 size ;;
    e <- read_slice ;;
    if negb (beq e msg_end) then fail invalid_response
    else ret (mkItem key value (Some (be 4 flags)) 0 cas name).

(** parseGetResponse, client/server.go:292-337, one VALUE block: from the line [b] already read. *)
Definition text_value_block (b : bytes) : reader item :=
  let s := split_sp b in
  s0 <- go_index s 0 ;;
  if negb (beq s0 (B "VALUE")) then fail invalid_response
  else
    s2 <- go_index s 2 ;;
    f <- lift_opt (atoi s2) ;;
    s3 <- go_index s 3 ;;
    sz <- (if zlen s =? 4 then go_sub s3 0 (zlen s3 - 2) else ret s3) ;;
    size <- lift_opt (atoi sz) ;;
    _ <- go_make (i64 (size + 2)) ;;
    s1 <- go_index s 1 ;;
    buf <- read_full (i64 (size + 2)) ;;
    value <- go_sub buf 0 size ;;
    ret (mkItem s1 value (Some (be 4 (u32 f))) 0 0 []).

(** The loop of parseGetResponse, client/server.go:294-334. Every round consumes at least one byte,
    so fuel above the number of available bytes is never exhausted ([None]). *)
Fixpoint text_values (fuel : nat) (acc : list item) (s : bytes) : option (outcome (list item) * bytes) :=
  match fuel with
  | O => None
  | S f =>
      match read_slice s with
      | (Ok b, s1) =>
          if beq b (B "END" ++ crlf) then Some (Ok (rev acc), s1)
          else match text_value_block b s1 with
               | (Ok i, s2) => text_values f (i :: acc) s2
               | (Err e, s2) => Some (Err e, s2)
               | (Panic, s2) => Some (Panic, s2)
               end
      | (Err e, s1) => Some (Err e, s1)
      | (Panic, s1) => Some (Panic, s1)
      end
  end.

Definition set_server (name : bytes) (i : item) : item :=
  mkItem (it_key i) (it_value i) (it_flags i) (it_exp i) (it_cas i) name.

(** GetMulti, client/server.go:280-289. *)
Definition text_getmulti_resp (name : bytes) : reader (list item) := fun s =>
  match text_values (S (length s)) [] s with
  | Some (Ok l, s') => (Ok (map (set_server name) l), s')
  | Some (r, s') => (r, s')
  | None => (Panic, s)             (* unreachable: text_values_fuel in PReader.v *)
  end.

(** Set, client/server.go:482-494. *)
Definition text_set_resp : reader unit :=
  b <- read_slice ;;
  if beq b msg_stored then ret tt
  else if beq b msg_exists then fail EExists
  else fail (EMsg (B "memcached: failed set: " ++ b)).

(** Add, client/server.go:523-531 (and 927-935 for the meta client). *)
Definition text_add_resp : reader unit :=
  b <- read_slice ;;
  if beq b msg_stored then ret tt else fail EExists.

(** Replace, client/server.go:560-568 (and 961-969). *)
Definition text_replace_resp : reader unit :=
  b <- read_slice ;;
  if beq b msg_stored then ret tt else fail ENotFound.

(** Delete, client/server.go:358-369: any other line is success. *)
Definition text_delete_resp : reader unit :=
  b <- read_slice ;;
  if beq b msg_deleted then ret tt
  else if beq b msg_not_found then fail ENotFound
  else ret tt.

(** incrOrDecr, client/server.go:399-413 (and 1031-1045). *)
Definition text_incr_resp : reader Z :=
  b <- read_slice ;;
  if beq b msg_not_found then fail ENotFound
  else
    d <- go_sub b 0 (zlen b - 2) ;;
    lift_opt (parse_int 64 d).

(** Touch, client/server.go:435-447: any other line is success. *)
Definition text_touch_resp : reader unit :=
  b <- read_slice ;;
  if beq b msg_touched then ret tt
  else if beq b msg_not_found then fail ENotFound
  else ret tt.

(** Flush, client/server.go:590-600 (and 1092-1102). *)
Definition text_flush_resp : reader unit :=
  b <- read_slice ;;
  if beq b msg_ok then ret tt
  else
    m <- go_sub b 0 (zlen b - 2) ;;
    fail (EMsg (B "memcached: " ++ m)).

(** Version, client/server.go:623-631 (and 1121-1129). A line read successfully is never empty. *)
Definition text_version_resp : reader bytes :=
  b <- read_slice ;;
  if 0 <? zlen b then ret (trim_suffix crlf (trim_prefix (B "VERSION ") b))
  else ret [].

Definition rmap {A} (f : A -> result) (m : reader A) : reader result := a <- m ;; ret (f a).
Definition runit (m : reader unit) : reader result := rmap (fun _ => RUnit) m.

Definition text_resp (name : bytes) (o : op) : reader result :=
  match o with
  | OGet _ => rmap RItem (text_get_resp name)
  | OGetMulti _ => rmap RItems (text_getmulti_resp name)
  | OSet _ => runit text_set_resp
  | OAdd _ => runit text_add_resp
  | OReplace _ => runit text_replace_resp
  | ODelete _ => runit text_delete_resp
  | OIncr _ _ _ => rmap RInt text_incr_resp
  | ODecr _ _ _ => rmap RInt text_incr_resp
  | OTouch _ _ => runit text_touch_resp
  | OFlush => runit text_flush_resp
  | OVersion => rmap RStr text_version_resp
  end.
