(** * Writing responses through bufio.Writer to a connection that may fail, and the connection loop
    on top of it. server/server.go:493-735.

    ServerWrite.v has the bytes of a response; here are the individual writes, which of their errors
    are looked at, and where Flush is called. *)
From Verif Require Import GoBytes GoNum GoIO ServerTypes ServerParse ServerWrite Serve GoWriter ClientBinary.

(** bufio.Writer.WriteString (Go 1.16 bufio/bufio.go): unlike Write it never bypasses the buffer. *)
Fixpoint bw_write_string (fuel : nat) (b : bwriter) (p : bytes) : option (bool * bwriter) :=
  match fuel with
  | O => None
  | S f =>
      if (available b <? length p)%nat && negb (bw_err b) then
        let n := available b in
        bw_write_string f (snd (bw_flush (mkBW (bw_size b) (bw_buf b ++ firstn n p) (bw_err b) (bw_conn b)))) (skipn n p)
      else if bw_err b then Some (false, b)
      else Some (true, mkBW (bw_size b) (bw_buf b ++ p) false (bw_conn b))
  end.
Definition string_step (b : bwriter) (p : bytes) : bool * bwriter :=
  match bw_write_string (length p + 3) b p with Some r => r | None => (false, b) end.   (* None: unreachable *)

(** Write or WriteString, with its error returned or ignored, or a panic. *)
Inductive swrite := SW (checked : bool) (b : bytes) | SS (checked : bool) (b : bytes) | SPanic.

(** writeAsciiResponseGet, server/server.go:621-644. *)
Definition ascii_get_writes (r : sresponse) : list swrite :=
  match flag_number r with
  | Ok flag => [SS true (B "VALUE " ++ r_key r ++ B " " ++ dec flag ++ B " " ++ dec (zlen (r_value r)) ++ crlf);   (* 626-632 *)
                SW true (r_value r); SW true crlf]                                                               (* 636-641 *)
  | _ => [SPanic]
  end.
(** writeAsciiResponseMetaGet, server/server.go:645-684. The letters that print nothing write nothing. *)
Definition meta_get_writes (req : srequest) (g : get_opt) (r : sresponse) : list swrite :=
  match flag_number r with
  | Ok flag =>
      SS true (B "VA " ++ dec (zlen (r_value r)) ++ B " " ++ g_request_flag g)                                   (* 650-655 *)
      :: map (fun c => SS false (meta_flag_text req r flag c))
             (filter (fun c => existsb (Ascii.eqb c) ["c"; "f"; "k"; "s"; "t"]%char) (g_request_flag g))          (* 659-672 *)
      ++ [SW false crlf]                                                                                         (* 673 *)
      ++ (if g_value g then [SW true (r_value r)] else [])                                                       (* 674-678 *)
      ++ [SW true crlf]                                                                                          (* 679-681 *)
  | _ => [SPanic]
  end.

(** writeAsBinaryProtocol, server/server.go:712-735: the header, then what is not empty of flags, key
    and value. *)
Definition binary_head (opc : opcode) (r : sresponse) : bytes :=
  let fl := opt_bytes (r_flags r) in
  byte_of magic_response :: byte_of (opcode_byte opc) :: be 2 (u16 (zlen (r_key r)))
  ++ byte_of (u8 (zlen fl)) :: byte_of 0 :: be 2 0
  ++ be 4 (u32 (zlen (r_key r) + zlen fl + zlen (r_value r))) ++ be 4 0 ++ be 8 0.
Definition if_any (b : bytes) : list swrite := match b with [] => [] | _ => [SW false b] end.
Definition binary_writes (opc : opcode) (r : sresponse) : list swrite :=
  SW false (binary_head opc r) :: if_any (opt_bytes (r_flags r)) ++ if_any (r_key r) ++ if_any (r_value r).

(** A response: batches of writes, each followed by a Flush whose error is returned, and what
    writeResponse then returns. *)
Definition script := (list (list swrite) * outcome unit)%type.
Definition once (ws : list swrite) : script := ([ws], Ok tt).
Definition if_no_error (res : list sresponse) (f : sresponse -> script) : script :=
  match res with
  | [] => ([], Panic)                                             (* res[0] *)
  | r :: _ => match r_error r with None => f r | Some _ => ([], Ok tt) end
  end.
(** writeAsciiResponse, server/server.go:528-619. *)
Definition ascii_script (req : srequest) (res : list sresponse) : script :=
  match q_opcode req with
  | OpcGet =>
      match q_get req with
      | None => once (flat_map ascii_get_writes res ++ [SW false text_proto_end])                         (* 531-541 *)
      | Some g => once (flat_map (meta_get_writes req g) res ++ match res with [] => [SW false meta_proto_end] | _ => [] end)   (* 543-554 *)
      end
  | OpcSet | OpcAdd | OpcReplace =>                                                                       (* 556-571 *)
      if_no_error res (fun _ => match q_set req with
                                | None => ([], Panic)
                                | Some o => once (if s_meta o then [SW false meta_proto_stored; SW false crlf] else [SW false text_proto_stored])
                                end)
  | OpcDelete =>                                                                                          (* 572-586 *)
      if_no_error res (fun _ => match q_del req with
                                | None => ([], Panic)
                                | Some m => once (if m then [SW false meta_proto_deleted; SW false crlf] else [SW false text_proto_deleted])
                                end)
  | OpcIncrement | OpcDecrement | OpcVersion => if_no_error res (fun r => once [SW false (r_value r); SW false crlf])   (* 587-602 *)
  | OpcTouch => if_no_error res (fun _ => once [SW false text_proto_touched])                              (* 603-608 *)
  | OpcFlush => if_no_error res (fun _ => once [SW false text_proto_ok])                                   (* 609-614 *)
  | OpcNoop => ([], Err unknown_opcode)                                                                   (* 615-616 *)
  end.
(** writeBinaryResponse, server/server.go:686-710. *)
Definition binary_script (req : srequest) (res : list sresponse) : script :=
  match q_opcode req with
  | OpcGet => (map (binary_writes OpcGet) res ++ (if (1 <? zlen res)%Z then [binary_writes OpcNoop empty_response] else []), Ok tt)
  | _ => if_no_error res (fun r => once (binary_writes (q_opcode req) r))
  end.
(** writeResponse, server/server.go:517-526. *)
Definition response_script (p : protocol) : srequest -> list sresponse -> script :=
  match p with ProtoAscii => ascii_script | ProtoBinary => binary_script end.

(** One batch and its Flush. *)
Fixpoint send_batch (b : bwriter) (ws : list swrite) : outcome unit * bwriter :=
  match ws with
  | [] => let '(ok, b') := bw_flush b in (if ok then Ok tt else Err EIO, b')
  | SPanic :: _ => (Panic, b)
  | SW checked p :: ws' => let '(ok, b') := write_step b p in if checked && negb ok then (Err EIO, b') else send_batch b' ws'
  | SS checked p :: ws' => let '(ok, b') := string_step b p in if checked && negb ok then (Err EIO, b') else send_batch b' ws'
  end.
Fixpoint send_batches (b : bwriter) (l : list (list swrite)) (last : outcome unit) : outcome unit * bwriter :=
  match l with
  | [] => (last, b)
  | ws :: l' => match send_batch b ws with
                | (Ok _, b') => send_batches b' l' last
                | (Err e, b') => (Err e, b')
                | (Panic, b') => (Panic, b')
                end
  end.
Definition send_response (b : bwriter) (sc : script) : outcome unit * bwriter := send_batches b (fst sc) (snd sc).

(** The loop of Serve.v with these writes: the handler's state, the requests it was given, how the
    connection ended, and the writer. *)
Fixpoint serve_net {H} (h : handler H) (fuel : nat) (p : option protocol) (st : H) (b : bwriter) (s : bytes)
  : H * list srequest * fate * bwriter :=
  match fuel with
  | O => (st, [], OutOfFuel, b)
  | S f =>
      match read_request p s with
      | ((Err e, _), _) => (st, [], Closed e, b)
      | ((Panic, _), _) => (st, [], Crashed, b)
      | ((Ok req, s'), p') =>
          match h st req with
          | (st', Err e) => (st', [req], Closed e, b)
          | (st', Panic) => (st', [req], Crashed, b)
          | (st', Ok res) =>
              match p' with
              | None => (st', [req], OutOfFuel, b)            (* unreachable: a request was read *)
              | Some pr =>
                  match send_response b (response_script pr req res) with
                  | (Err e, b') => (st', [req], Closed e, b')
                  | (Panic, b') => (st', [req], Crashed, b')
                  | (Ok _, b') =>
                      let '(st'', l, ft, b'') := serve_net h f p' st' b' s' in (st'', req :: l, ft, b'')
                  end
              end
          end
      end
  end.
(** A connection on which the client sends [s] and takes [room] bytes of replies before writing to it
    fails. *)
Definition serve_conn_net {H} (h : handler H) (st : H) (room : nat) (s : bytes) : H * list srequest * fate * bwriter :=
  serve_net h (S (length s)) None st (new_bwriter (mkWconn [] room)) s.
