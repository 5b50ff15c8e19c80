(** * bufio.Writer over a connection that may fail, and the writes of every call.

    bufio.Writer.Write, WriteString and Flush (Go 1.16 bufio/bufio.go) as client/server.go uses them:
    bufio.NewWriter at 151, 194, 666, 697, 1171, 1208. *)
From Verif Require Import GoBytes GoNum GoIO Item ClientText ClientMeta ClientBinary.
Local Open Scope nat_scope.

(** The sending side of a connection: what the peer has been sent, and how many more bytes it takes
    before a Write fails (a reset, or the write deadline). *)
Record wconn := mkWconn { wc_sent : bytes; wc_room : nat }.
(** net.Conn.Write: the number of bytes taken, and whether all were. *)
Definition net_write (w : wconn) (p : bytes) : nat * bool * wconn :=
  if length p <=? wc_room w then (length p, true, mkWconn (wc_sent w ++ p) (wc_room w - length p))
  else (wc_room w, false, mkWconn (wc_sent w ++ firstn (wc_room w) p) 0).

(** bufio.Writer: len(b.buf), the buffered bytes b.buf[:b.n], and whether b.err is set (it never is
    reset). *)
Record bwriter := mkBW { bw_size : nat; bw_buf : bytes; bw_err : bool; bw_conn : wconn }.
Definition wbuf_size : nat := 4096.
Definition new_bwriter (w : wconn) : bwriter := mkBW wbuf_size [] false w.
Definition available (b : bwriter) : nat := bw_size b - length (bw_buf b).

(** Writer.Flush; [true] is a nil error. *)
Definition bw_flush (b : bwriter) : bool * bwriter :=
  if bw_err b then (false, b)
  else match bw_buf b with
       | [] => (true, b)
       | _ => let '(n, ok, w) := net_write (bw_conn b) (bw_buf b) in
              if ok then (true, mkBW (bw_size b) [] false w) else (false, mkBW (bw_size b) (skipn n (bw_buf b)) true w)
       end.

(** Writer.Write: while the bytes do not fit, write them directly when nothing is buffered, else
    fill the buffer and flush. WriteString (client/server.go:741, 4 bytes) behaves the same. *)
Fixpoint bw_write (fuel : nat) (b : bwriter) (p : bytes) : option (bool * bwriter) :=
  match fuel with
  | O => None
  | S f =>
      if (available b <? length p) && negb (bw_err b) then
        match bw_buf b with
        | [] => let '(n, ok, w) := net_write (bw_conn b) p in
                bw_write f (mkBW (bw_size b) [] (negb ok) w) (skipn n p)
        | _ => let n := available b in
               bw_write f (snd (bw_flush (mkBW (bw_size b) (bw_buf b ++ firstn n p) (bw_err b) (bw_conn b)))) (skipn n p)
        end
      else if bw_err b then Some (false, b)
      else Some (true, mkBW (bw_size b) (bw_buf b ++ p) false (bw_conn b))
  end.

(** The write steps of a call: a write whose error is returned at once, a write whose error is
    ignored (the error stays in the Writer), or a panic. *)
Inductive wstep := WChecked (b : bytes) | WIgnored (b : bytes) | WPanic.

(** client/server.go: Fprintf and Write errors are returned; Add and Replace of the text client
    (517-518, 554-555), GetMulti of the meta client (741) and most binary body writes are unchecked. *)
Definition text_store_writes (cmd : bytes) (i : item) : list wstep :=
  [WChecked (cmd ++ B " " ++ it_key i ++ B " " ++ dec (text_flags i) ++ B " " ++ dec (it_exp i) ++ B " " ++ dec (zlen (it_value i)) ++ crlf);
   WIgnored (it_value i); WIgnored crlf].
Definition one_line (r : request) : list wstep := match r with Ok b => [WChecked b] | _ => [WPanic] end.
Definition text_writes (o : op) : list wstep :=
  match o with
  | OSet i =>                                                                  (* 463-478 *)
      [WChecked (if (0 <? it_cas i)%Z then
                   B "cas " ++ it_key i ++ B " " ++ dec (text_flags i) ++ B " " ++ dec (it_exp i) ++ B " " ++ dec (zlen (it_value i)) ++ B " " ++ dec (it_cas i) ++ crlf
                 else B "set " ++ it_key i ++ B " " ++ dec (text_flags i) ++ B " " ++ dec (it_exp i) ++ B " " ++ dec (zlen (it_value i)) ++ crlf);
       WChecked (it_value i ++ crlf)]
  | OAdd i => text_store_writes (B "add") i                                    (* 514-518 *)
  | OReplace i => text_store_writes (B "replace") i                            (* 551-555 *)
  | _ => one_line (text_req o)                                                 (* one Fprintf *)
  end.
Definition meta_writes (o : op) : list wstep :=
  match o with
  | OGetMulti ks => map (fun k => WChecked (B "mg " ++ k ++ B " v f k c t" ++ crlf)) ks ++ [WIgnored (B "mn" ++ crlf)]   (* 735-741 *)
  | OSet i =>                                                                  (* 866-882 *)
      let line f := B "ms " ++ it_key i ++ B " " ++ dec (zlen (it_value i)) ++ B " T" ++ dec (it_exp i)
                    ++ (if (0 <? it_cas i)%Z then B " C" ++ dec (it_cas i) else []) ++ f ++ crlf in
      match it_flags i with
      | None => [WChecked (line []); WChecked (it_value i ++ crlf)]
      | Some f => if (zlen f <? 4)%Z then [WPanic]
                  else [WChecked (line (B " F" ++ dec (unbe (firstn 4 f)))); WChecked (it_value i ++ crlf)]
      end
  | OAdd i => text_store_writes (B "add") i                                    (* 914-922 *)
  | OReplace i => text_store_writes (B "replace") i                            (* 948-956 *)
  | _ => one_line (meta_req o)
  end.
(** EncodeTo's error is returned, the writes of extras, key and value are not looked at. *)
Definition bin_writes (h : req_header) (o : op) : list wstep :=
  let hdr x := WChecked (encode_header x) in
  let store opc i :=                                                           (* 1346-1358 *)
    hdr (store_header opc i) ::
    match it_flags i with
    | None => [WIgnored (be 4 0 ++ be 4 (u32 (it_exp i))); WIgnored (it_key i); WIgnored (it_value i)]
    | Some f => if (zlen f <? 4)%Z then [WPanic]
                else [WIgnored (firstn 4 f ++ be 4 (u32 (it_exp i))); WIgnored (it_key i); WIgnored (it_value i)]
    end in
  let incr opc k d e :=                                                        (* 1576-1580 *)
    [hdr (mkReqHeader opc (u16 (zlen k)) 20 (rq_data_type h) (rq_vbucket h) (u32 (zlen k + 20)) (rq_opaque h) (rq_cas h));
     WIgnored (be 8 (u64 d) ++ be 8 1 ++ be 4 (u32 e)); WIgnored k] in
  match o with
  | OGet k => [hdr (key_header op_get k); WIgnored k]                          (* 1228-1231 *)
  | OGetMulti ks => flat_map (fun k => [hdr (key_header op_getkq k); WIgnored k]) ks ++ [hdr (bare_header op_noop)]   (* 1279-1294 *)
  | OSet i => store op_set i
  | OAdd i => store op_add i
  | OReplace i => store op_replace i
  | ODelete k => [hdr (key_header op_delete k); WIgnored k]                    (* 1510-1513 *)
  | OIncr k d e => incr op_increment k d e
  | ODecr k d e => incr op_decrement k d e
  | OTouch k e => [hdr (mkReqHeader op_touch (u16 (zlen k)) 4 0 0 (u32 (zlen k + 4)) 0 0); WIgnored (be 4 (u32 e)); WIgnored k]   (* 1639-1643 *)
  | OFlush => [hdr (bare_header op_flush)]                                     (* 1680 *)
  | OVersion => [hdr (bare_header op_version)]                                 (* 1713 *)
  end.

(** Performing the writes and the Flush that follows them; the result is whether the call goes on to
    read its reply. *)
Definition write_step (b : bwriter) (p : bytes) : bool * bwriter :=
  match bw_write (length p + 3) b p with Some r => r | None => (false, b) end.   (* None: unreachable *)
Fixpoint send (b : bwriter) (ws : list wstep) : outcome unit * bwriter :=
  match ws with
  | [] => let '(ok, b') := bw_flush b in (if ok then Ok tt else Err EIO, b')
  | WChecked p :: ws' => let '(ok, b') := write_step b p in if ok then send b' ws' else (Err EIO, b')
  | WIgnored p :: ws' => send (snd (write_step b p)) ws'
  | WPanic :: _ => (Panic, b)
  end.
