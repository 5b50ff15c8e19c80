(** * SPECIFICATION (not repository code): a conforming memcached.

    It receives the request bytes of one connection, splits them into commands on its own, executes
    each on the abstract cache (Cache.v) and prints the reply. Written from memcached's
    doc/protocol.txt (classic and meta commands) and the binary protocol document; it shares no
    definition with the client model. Not modelled: noreply, gat, append/prepend, slabs, stats, auth,
    the meta commands' less used flags. *)
From Verif Require Import GoBytes GoNum Cache.
Local Open Scope Z_scope.

Definition eol : bytes := [CR; LF].

(** The first line without its terminator (LF, optionally preceded by CR), and what follows. *)
Fixpoint cut_line (s : bytes) : option (bytes * bytes) :=
  match s with
  | [] => None
  | c :: s' =>
      if Ascii.eqb c LF then Some ([], s')
      else match s' with
           | d :: s'' => if Ascii.eqb c CR && Ascii.eqb d LF then Some ([], s'')
                         else match cut_line s' with
                              | Some (l, r) => Some (c :: l, r)
                              | None => None
                              end
           | [] => None
           end
  end.

(** Tokens are separated by one or more spaces. *)
Definition tokens (line : bytes) : list bytes :=
  filter (fun w => match w with [] => false | _ => true end) (split_sp line).

Definition key_max : Z := 250.
Definition key_ok (k : bytes) : bool := zlen k <=? key_max.

Definition bad_format : bytes := B "CLIENT_ERROR bad command line format" ++ eol.
Definition bad_chunk  : bytes := B "CLIENT_ERROR bad data chunk" ++ eol.
Definition big_object : bytes := B "SERVER_ERROR object too large for cache" ++ eol.
Definition error_line : bytes := B "ERROR" ++ eol.

(** What one command does: new cache, reply, remaining input. [None]: more input is needed. *)
Definition dresult := option (cache * bytes * bytes).
Definition done (c : cache) (reply rest : bytes) : dresult := Some (c, reply, rest).

Definition data_block (n : Z) (rest : bytes) : option (bytes * bytes * bytes) :=
  if n + 2 <=? zlen rest
  then Some (firstn (Z.to_nat n) rest, firstn 2 (skipn (Z.to_nat n) rest), skipn (Z.to_nat (n + 2)) rest)
  else None.

(** ** Classic text commands *)

Definition value_line (withcas : bool) (k : bytes) (e : entry) : bytes :=
  B "VALUE " ++ k ++ B " " ++ dec (e_flags e) ++ B " " ++ dec (zlen (e_value e))
  ++ (if withcas then B " " ++ dec (e_cas e) else []) ++ eol ++ e_value e ++ eol.
Definition get_reply (withcas : bool) (c : cache) (ks : list bytes) : bytes :=
  flat_map (fun k => match lookup c k with Some e => value_line withcas k e | None => [] end) ks
  ++ B "END" ++ eol.

Definition text_store_reply (r : store_result) : bytes :=
  match r with
  | Stored => B "STORED" ++ eol
  | NotStored => B "NOT_STORED" ++ eol
  | CasMismatch => B "EXISTS" ++ eol
  | CasMissing => B "NOT_FOUND" ++ eol
  | TooLarge => big_object
  end.

(** A storage command whose line has been parsed to [k f e n]; [run] performs it. *)
Definition text_store (c : cache) (kw fw ew nw : bytes) (rest : bytes)
  (run : bytes -> bytes -> Z -> Z -> cache * store_result) : dresult :=
  match parse_uint 32 fw, parse_int 32 ew, parse_uint 31 nw with
  | Some f, Some e, Some n =>
      if key_ok kw then
        match data_block n rest with
        | None => None
        | Some (v, trailer, rest') =>
            if cf_limit (c_cfg c) <? n then done (fst (run kw v f e)) big_object rest'
            else if beq trailer eol then
              let cr := run kw v f e in done (fst cr) (text_store_reply (snd cr)) rest'
            else done c bad_chunk rest'
        end
      else done c bad_format rest
  | _, _, _ => done c bad_format rest
  end.

Definition text_delta_reply (r : delta_result) : bytes :=
  match r with
  | DeltaOk n => dec n ++ eol
  | DeltaMissing => B "NOT_FOUND" ++ eol
  | DeltaMismatch => B "EXISTS" ++ eol
  | DeltaNonNumeric => B "CLIENT_ERROR cannot increment or decrement non-numeric value" ++ eol
  end.

(** ** Meta commands *)

(** A return flag of mg, in the order requested. *)
Definition meta_return (c : cache) (k : bytes) (e : entry) (w : bytes) : bytes :=
  match w with
  | [f] => if Ascii.eqb f "f" then B " f" ++ dec (e_flags e)
           else if Ascii.eqb f "c" then B " c" ++ dec (e_cas e)
           else if Ascii.eqb f "t" then B " t" ++ dec (ttl c e)
           else if Ascii.eqb f "s" then B " s" ++ dec (zlen (e_value e))
           else if Ascii.eqb f "k" then B " k" ++ k
           else []
  | _ => []
  end.
Definition meta_get_reply (c : cache) (k : bytes) (flags : list bytes) : bytes :=
  match lookup c k with
  | None => B "EN" ++ eol
  | Some e =>
      let rf := flat_map (meta_return c k e) flags ++ (if e_stale e then B " W X" else []) in
      if existsb (beq (B "v")) flags
      then B "VA " ++ dec (zlen (e_value e)) ++ rf ++ eol ++ e_value e ++ eol
      else B "HD" ++ rf ++ eol
  end.

(** The token of a flag that carries one. *)
Definition flag_token (l : ascii) (flags : list bytes) : option bytes :=
  match find (fun w => match w with c :: _ => Ascii.eqb c l | [] => false end) flags with
  | Some (_ :: t) => Some t
  | _ => None
  end.
Definition has_flag (l : ascii) (flags : list bytes) : bool :=
  existsb (fun w => match w with c :: _ => Ascii.eqb c l | [] => false end) flags.

(** A numeric flag token, [dflt] when the flag is absent; [None] when it is malformed. *)
Definition num_flag (parse : bytes -> option Z) (l : ascii) (dflt : Z) (flags : list bytes) : option Z :=
  match flag_token l flags with None => Some dflt | Some t => parse t end.

Definition meta_store_reply (r : store_result) : bytes :=
  match r with
  | Stored => B "HD" ++ eol
  | NotStored => B "NS" ++ eol
  | CasMismatch => B "EX" ++ eol
  | CasMissing => B "NF" ++ eol
  | TooLarge => big_object
  end.

Definition meta_set (c : cache) (k nw : bytes) (flags : list bytes) (rest : bytes) : dresult :=
  match parse_uint 31 nw, num_flag (parse_uint 32) "F" 0 flags, num_flag (parse_int 32) "T" 0 flags,
        num_flag (parse_uint 64) "C" 0 flags with
  | Some n, Some f, Some e, Some u =>
      if key_ok k then
        match data_block n rest with
        | None => None
        | Some (v, trailer, rest') =>
            let run := if has_flag "C" flags then cache_cas c k v f e u else cache_set c k v f e in
            if cf_limit (c_cfg c) <? n then done (fst run) big_object rest'
            else if beq trailer eol then done (fst run) (meta_store_reply (snd run)) rest'
            else done c bad_chunk rest'
        end
      else done c bad_format rest
  | _, _, _, _ => done c bad_format rest
  end.

Definition hd_nf (b : bool) : bytes := if b then B "HD" ++ eol else B "NF" ++ eol.

Definition meta_delete (c : cache) (k : bytes) (flags : list bytes) (rest : bytes) : dresult :=
  if key_ok k then
    if has_flag "I" flags then
      match flag_token "T" flags with
      | None => let cr := cache_invalidate c k None in done (fst cr) (hd_nf (snd cr)) rest
      | Some t => match parse_int 32 t with
                  | Some e => let cr := cache_invalidate c k (Some e) in done (fst cr) (hd_nf (snd cr)) rest
                  | None => done c bad_format rest
                  end
      end
    else let cr := cache_delete c k in done (fst cr) (hd_nf (snd cr)) rest
  else done c bad_format rest.

(** One command of an ASCII connection, from its tokens. [rest] is the input after the line. *)
Definition ascii_cmd (c : cache) (cmd : bytes) (args : list bytes) (rest : bytes) : dresult :=
  if beq cmd (B "get") || beq cmd (B "gets") then
    match args with
    | [] => done c error_line rest
    | _ => if forallb key_ok args then done c (get_reply (beq cmd (B "gets")) c args) rest
           else done c bad_format rest
    end
  else if beq cmd (B "set") then
    match args with
    | [k; f; e; n] => text_store c k f e n rest (cache_set c)
    | _ => done c error_line rest
    end
  else if beq cmd (B "add") then
    match args with
    | [k; f; e; n] => text_store c k f e n rest (cache_add c)
    | _ => done c error_line rest
    end
  else if beq cmd (B "replace") then
    match args with
    | [k; f; e; n] => text_store c k f e n rest (cache_replace c)
    | _ => done c error_line rest
    end
  else if beq cmd (B "cas") then
    match args with
    | [k; f; e; n; u] =>
        match parse_uint 64 u with
        | Some u => text_store c k f e n rest (fun k v f e => cache_cas c k v f e u)
        | None => done c bad_format rest
        end
    | _ => done c error_line rest
    end
  else if beq cmd (B "delete") then
    match args with
    | [k] => if key_ok k then
               let cr := cache_delete c k in
               done (fst cr) (if snd cr then B "DELETED" ++ eol else B "NOT_FOUND" ++ eol) rest
             else done c bad_format rest
    | _ => done c error_line rest
    end
  else if beq cmd (B "incr") || beq cmd (B "decr") then
    match args with
    | [k; d] =>
        if key_ok k then
          match parse_uint 64 d with
          | Some d => let cr := cache_delta (beq cmd (B "incr")) c k d in
                      done (fst cr) (text_delta_reply (snd cr)) rest
          | None => done c (B "CLIENT_ERROR invalid numeric delta argument" ++ eol) rest
          end
        else done c bad_format rest
    | _ => done c error_line rest
    end
  else if beq cmd (B "touch") then
    match args with
    | [k; e] =>
        if key_ok k then
          match parse_int 32 e with
          | Some e => let cr := cache_touch c k e in
                      done (fst cr) (if snd cr then B "TOUCHED" ++ eol else B "NOT_FOUND" ++ eol) rest
          | None => done c (B "CLIENT_ERROR invalid exptime argument" ++ eol) rest
          end
        else done c bad_format rest
    | _ => done c error_line rest
    end
  else if beq cmd (B "flush_all") then
    match args with
    | [] => done (cache_flush c) (B "OK" ++ eol) rest
    | _ => done c error_line rest
    end
  else if beq cmd (B "version") then
    done c (B "VERSION " ++ cf_version (c_cfg c) ++ eol) rest
  else if beq cmd (B "mg") then
    match args with
    | k :: flags => if key_ok k then done c (meta_get_reply c k flags) rest else done c bad_format rest
    | [] => done c error_line rest
    end
  else if beq cmd (B "ms") then
    match args with
    | k :: n :: flags => meta_set c k n flags rest
    | _ => done c error_line rest
    end
  else if beq cmd (B "md") then
    match args with
    | k :: flags => meta_delete c k flags rest
    | [] => done c error_line rest
    end
  else if beq cmd (B "mn") then done c (B "MN" ++ eol) rest
  else done c error_line rest.

Definition ascii_step (c : cache) (s : bytes) : dresult :=
  match cut_line s with
  | None => None
  | Some (line, rest) =>
      match tokens line with
      | [] => done c error_line rest
      | cmd :: args => ascii_cmd c cmd args rest
      end
  end.

(** ** Binary commands *)

Definition num_at (b : bytes) (lo n : nat) : Z := unbe (firstn n (skipn lo b)).

(** Reply packet: magic 0x81, opcode, key length, extras length, data type, status, body length,
    opaque, cas, extras, key, value. *)
Definition packet (opc status cas : Z) (extras key value : bytes) : bytes :=
  byte_of 129 :: byte_of opc :: be 2 (zlen key) ++ byte_of (zlen extras) :: byte_of 0 :: be 2 status
  ++ be 4 (zlen extras + zlen key + zlen value) ++ be 4 0 ++ be 8 cas ++ extras ++ key ++ value.

Definition not_found_packet (opc : Z) := packet opc 1 0 [] [] (B "Not found").
Definition exists_packet (opc : Z) := packet opc 2 0 [] [] (B "Data exists for key.").

Definition bin_store_packet (opc : Z) (c' : cache) (r : store_result) : bytes :=
  match r with
  | Stored => packet opc 0 (c_cas c') [] [] []
  | NotStored => if opc =? 2 then exists_packet opc else not_found_packet opc
  | CasMismatch => exists_packet opc
  | CasMissing => not_found_packet opc
  | TooLarge => packet opc 3 0 [] [] (B "Too large.")
  end.

(** Counter operations create the item with the initial value when it is absent, unless the
    expiration is 0xffffffff; a non-zero cas must match. *)
Definition bin_delta (up : bool) (c : cache) (k : bytes) (d init e cas : Z) : cache * delta_result :=
  match lookup c k with
  | None => if e =? 2 ^ 32 - 1 then (c, DeltaMissing)
            else (put c k (dec init) 0 (expire_at (c_now c) e), DeltaOk init)
  | Some o => if negb (cas =? 0) && negb (e_cas o =? cas) then (c, DeltaMismatch)
              else cache_delta up c k d
  end.

(** One command of a binary connection: opcode, cas field, the whole body, key and value. *)
Definition binary_cmd (c : cache) (opc cas : Z) (body k v rest : bytes) : dresult :=
  if (opc =? 0) || (opc =? 13) then
    match lookup c k with
    | Some e => done c (packet opc 0 (e_cas e) (be 4 (e_flags e))
                          (if opc =? 13 then k else []) (e_value e)) rest
    | None => done c (if opc =? 13 then [] else not_found_packet opc) rest
    end
  else if (opc =? 1) || (opc =? 2) || (opc =? 3) then
    let f := num_at body 0 4 in
    let e := num_at body 4 4 in
    let cr := if negb (cas =? 0) then cache_cas c k v f e cas
              else if opc =? 1 then cache_set c k v f e
              else if opc =? 2 then cache_add c k v f e
              else cache_replace c k v f e in
    done (fst cr) (bin_store_packet opc (fst cr) (snd cr)) rest
  else if opc =? 4 then
    let cr := cache_delete c k in
    done (fst cr) (if snd cr then packet opc 0 0 [] [] [] else not_found_packet opc) rest
  else if (opc =? 5) || (opc =? 6) then
    let cr := bin_delta (opc =? 5) c k (num_at body 0 8) (num_at body 8 8) (num_at body 16 4) cas in
    done (fst cr)
      (match snd cr with
       | DeltaOk n => packet opc 0 (c_cas (fst cr)) [] [] (be 8 n)
       | DeltaMissing => not_found_packet opc
       | DeltaMismatch => exists_packet opc
       | DeltaNonNumeric => packet opc 6 0 [] [] (B "Non-numeric server-side value for incr or decr")
       end) rest
  else if opc =? 8 then done (cache_flush c) (packet opc 0 0 [] [] []) rest
  else if opc =? 10 then done c (packet opc 0 0 [] [] []) rest
  else if opc =? 11 then done c (packet opc 0 0 [] [] (cf_version (c_cfg c))) rest
  else if opc =? 28 then
    let cr := cache_touch c k (num_at body 0 4) in
    done (fst cr)
      (if snd cr
       then packet opc 0 0
              (if cf_touch_extras (c_cfg c)
               then match lookup c k with Some e => be 4 (e_flags e) | None => [] end else []) [] []
       else not_found_packet opc) rest
  else done c (packet opc 129 0 [] [] (B "Unknown command")) rest.

Definition binary_step (c : cache) (s : bytes) : dresult :=
  if zlen s <? 24 then None
  else if negb (num_at s 0 1 =? 128) then None      (* the connection is closed: nothing more is read from it *)
  else
    let kl := num_at s 2 2 in
    let el := num_at s 4 1 in
    let total := num_at s 8 4 in
    if zlen s <? 24 + total then None
    else
      let body := firstn (Z.to_nat total) (skipn 24 s) in
      let rest := skipn (Z.to_nat (24 + total)) s in
      if (total <? el + kl) || (key_max <? kl) then None   (* the connection is closed *)
      else binary_cmd c (num_at s 1 1) (num_at s 16 8) body
             (firstn (Z.to_nat kl) (skipn (Z.to_nat el) body)) (skipn (Z.to_nat (el + kl)) body) rest.

(** ** A connection: commands are executed as long as a complete one is available. *)
Inductive wire := WireAscii | WireBinary.
Definition daemon_step (w : wire) : cache -> bytes -> dresult :=
  match w with WireAscii => ascii_step | WireBinary => binary_step end.

(** New cache, replies, input kept for later. Every command consumes at least one byte. *)
Fixpoint daemon_run (w : wire) (fuel : nat) (c : cache) (s : bytes) : cache * bytes * bytes :=
  match fuel with
  | O => (c, [], s)
  | S f => match daemon_step w c s with
           | None => (c, [], s)
           | Some (c', reply, rest) =>
               let '(c'', replies, rest') := daemon_run w f c' rest in (c'', reply ++ replies, rest')
           end
  end.
Definition daemon (w : wire) (c : cache) (s : bytes) : cache * bytes * bytes :=
  daemon_run w (S (length s)) c s.
