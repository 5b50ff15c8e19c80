(** * Response writing, server/server.go:517-735.
    The result is the bytes written and flushed; every path that writes also flushes. Errors of the
    underlying connection, and which of them are looked at, are in ServerIO.v. *)
From Verif Require Import GoBytes GoNum GoIO ServerTypes ClientBinary.
Local Open Scope Z_scope.

(** server/server.go:45-57 *)
Definition text_proto_end     : bytes := B "END" ++ crlf.
Definition text_proto_ok      : bytes := B "OK" ++ crlf.
Definition text_proto_stored  : bytes := B "STORED" ++ crlf.
Definition text_proto_deleted : bytes := B "DELETED" ++ crlf.
Definition text_proto_touched : bytes := B "TOUCHED" ++ crlf.
Definition meta_proto_end     : bytes := B "EN" ++ crlf.
Definition meta_proto_stored  : bytes := B "HD".
Definition meta_proto_deleted : bytes := B "HD".

Definition opt_bytes (o : option bytes) : bytes := match o with Some b => b | None => [] end.

(** server/server.go:622-625, 646-649: 0 when empty, else Uint32, which panics below four bytes. *)
Definition flag_number (r : sresponse) : outcome Z :=
  let f := opt_bytes (r_flags r) in
  if 0 <? zlen f then (if zlen f <? 4 then Panic else Ok (unbe (firstn 4 f))) else Ok 0.

(** writeAsciiResponseGet, server/server.go:621-644 *)
Definition ascii_get_block (r : sresponse) : outcome bytes :=
  match flag_number r with
  | Ok flag => Ok (B "VALUE " ++ r_key r ++ B " " ++ dec flag ++ B " " ++ dec (zlen (r_value r)) ++ crlf
                   ++ r_value r ++ crlf)
  | Err e => Err e
  | Panic => Panic
  end.

(** server/server.go:659-672: what one letter of the request flags adds to the line. *)
Definition meta_flag_text (req : srequest) (r : sresponse) (flag : Z) (c : ascii) : bytes :=
  if Ascii.eqb c "c" then B " " ++ dec (r_cas r)
  else if Ascii.eqb c "f" then B " " ++ dec flag
  else if Ascii.eqb c "k" then B " " ++ q_key req
  else if Ascii.eqb c "s" then B " " ++ dec (zlen (r_value r))
  else if Ascii.eqb c "t" then B " " ++ dec (r_ttl r)
  else [].

(** writeAsciiResponseMetaGet, server/server.go:645-684 *)
Definition meta_get_block_bytes (req : srequest) (g : get_opt) (r : sresponse) : outcome bytes :=
  match flag_number r with
  | Ok flag =>
      Ok (B "VA " ++ dec (zlen (r_value r)) ++ B " " ++ g_request_flag g
          ++ flat_map (meta_flag_text req r flag) (g_request_flag g) ++ crlf
          ++ (if g_value g then r_value r else []) ++ crlf)
  | Err e => Err e
  | Panic => Panic
  end.

Fixpoint concat_outcomes (l : list (outcome bytes)) : outcome bytes :=
  match l with
  | [] => Ok []
  | Ok b :: l' => match concat_outcomes l' with
                  | Ok bs => Ok (b ++ bs)
                  | Err e => Err e
                  | Panic => Panic
                  end
  | Err e :: _ => Err e
  | Panic :: _ => Panic
  end.

Definition oapp (a : outcome bytes) (b : bytes) : outcome bytes :=
  match a with Ok x => Ok (x ++ b) | Err e => Err e | Panic => Panic end.

(** res[0]: panics on an empty slice; then [f] when its Error is nil, nothing otherwise. *)
Definition on_first (res : list sresponse) (f : sresponse -> outcome bytes) : outcome bytes :=
  match res with
  | [] => Panic
  | r :: _ => match r_error r with None => f r | Some _ => Ok [] end
  end.

Definition unknown_opcode : err := EMsg (B "memcached: unknown opcode").

(** writeAsciiResponse, server/server.go:528-619. *)
Definition write_ascii_response (req : srequest) (res : list sresponse) : outcome bytes :=
  match q_opcode req with
  | OpcGet =>
      match q_get req with
      | None => oapp (concat_outcomes (map ascii_get_block res)) text_proto_end
      | Some g => oapp (concat_outcomes (map (meta_get_block_bytes req g) res))
                       (match res with [] => meta_proto_end | _ => [] end)
      end
  | OpcSet | OpcAdd | OpcReplace =>
      on_first res (fun _ => match q_set req with
                             | None => Panic
                             | Some o => Ok (if s_meta o then meta_proto_stored ++ crlf else text_proto_stored)
                             end)
  | OpcDelete =>
      on_first res (fun _ => match q_del req with
                             | None => Panic
                             | Some m => Ok (if m then meta_proto_deleted ++ crlf else text_proto_deleted)
                             end)
  | OpcIncrement | OpcDecrement | OpcVersion => on_first res (fun r => Ok (r_value r ++ crlf))
  | OpcTouch => on_first res (fun _ => Ok text_proto_touched)
  | OpcFlush => on_first res (fun _ => Ok text_proto_ok)
  | OpcNoop => Err unknown_opcode
  end.

(** writeAsBinaryProtocol, server/server.go:712-735. The status field is always 0. *)
Definition binary_response (opc : opcode) (r : sresponse) : bytes :=
  let fl := opt_bytes (r_flags r) in
  byte_of magic_response :: byte_of (opcode_byte opc) :: be 2 (u16 (zlen (r_key r)))
  ++ byte_of (u8 (zlen fl)) :: byte_of 0 :: be 2 0
  ++ be 4 (u32 (zlen (r_key r) + zlen fl + zlen (r_value r))) ++ be 4 0 ++ be 8 0
  ++ fl ++ r_key r ++ r_value r.

(** writeBinaryResponse, server/server.go:686-710. *)
Definition write_binary_response (req : srequest) (res : list sresponse) : outcome bytes :=
  match q_opcode req with
  | OpcGet =>
      Ok (flat_map (binary_response OpcGet) res
          ++ (if 1 <? zlen res then binary_response OpcNoop empty_response else []))
  | OpcSet | OpcAdd | OpcReplace | OpcDelete | OpcIncrement | OpcDecrement
  | OpcVersion | OpcFlush | OpcTouch | OpcNoop =>
      on_first res (fun r => Ok (binary_response (q_opcode req) r))
  end.

(** writeResponse, server/server.go:517-526. *)
Definition write_response (p : protocol) (req : srequest) (res : list sresponse) : outcome bytes :=
  match p with
  | ProtoAscii => write_ascii_response req res
  | ProtoBinary => write_binary_response req res
  end.
