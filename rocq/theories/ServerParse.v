(** * Request parsing, server/server.go:79-91 and 99-394. *)
From Verif Require Import GoBytes GoNum GoIO ServerTypes ClientBinary.
Local Open Scope Z_scope.

Definition invalid_request : err := EMsg (B "server: invalid request").

(** server/server.go:199-222: one letter of the mg flags. Go ranges over runes; a byte below 128 is
    always a rune of its own and no other rune matches a letter, so ranging over bytes is the same. *)
Definition mg_flag (o : get_opt) (c : ascii) : get_opt :=
  let '(mkGetOpt me rf cas fl ke la hi no si tl op va) := o in
  if Ascii.eqb c "c" then mkGetOpt me rf true fl ke la hi no si tl op va
  else if Ascii.eqb c "f" then mkGetOpt me rf cas true ke la hi no si tl op va
  else if Ascii.eqb c "h" then mkGetOpt me rf cas fl ke la true no si tl op va
  else if Ascii.eqb c "k" then mkGetOpt me rf cas fl true la hi no si tl op va
  else if Ascii.eqb c "l" then mkGetOpt me rf cas fl ke true hi no si tl op va
  else if Ascii.eqb c "o" then mkGetOpt me rf cas fl ke la hi no si tl true va
  else if Ascii.eqb c "q" then mkGetOpt me rf cas fl ke la hi true si tl op va
  else if Ascii.eqb c "s" then mkGetOpt me rf cas fl ke la hi no true tl op va
  else if Ascii.eqb c "t" then mkGetOpt me rf cas fl ke la hi no si true op va
  else if Ascii.eqb c "v" then mkGetOpt me rf cas fl ke la hi no si tl op true
  else o.

(** server/server.go:197-223 *)
Definition mg_opt (flags : bytes) : get_opt :=
  fold_left mg_flag flags
    (mkGetOpt true flags false false false false false false false false false false).

(** server/server.go:237-275: one token of an ms request. An empty token panics at f[0]. *)
Definition ms_token (o : set_opt) (f : bytes) : outcome set_opt :=
  let '(mkSetOpt me cas cv fl inv ke opq no si ex) := o in
  match f with
  | [] => Panic
  | c :: v =>
      if Ascii.eqb c "C" then
        match parse_uint 64 v with Some n => Ok (mkSetOpt me true n fl inv ke opq no si ex) | None => Err EParse end
      else if Ascii.eqb c "F" then
        match parse_int 32 v with Some n => Ok (mkSetOpt me cas cv n inv ke opq no si ex) | None => Err EParse end
      else if Ascii.eqb c "I" then Ok (mkSetOpt me cas cv fl true ke opq no si ex)
      else if Ascii.eqb c "k" then Ok (mkSetOpt me cas cv fl inv true opq no si ex)
      else if Ascii.eqb c "O" then
        match parse_int 64 v with Some n => Ok (mkSetOpt me cas cv fl inv ke n no si ex) | None => Err EParse end
      else if Ascii.eqb c "q" then Ok (mkSetOpt me cas cv fl inv ke opq true si ex)
      else if Ascii.eqb c "S" then
        match parse_int 32 v with Some n => Ok (mkSetOpt me cas cv fl inv ke opq no n ex) | None => Err EParse end
      else if Ascii.eqb c "T" then
        match parse_int 32 v with Some n => Ok (mkSetOpt me cas cv fl inv ke opq no si n) | None => Err EParse end
      else Ok o
  end.

Fixpoint ms_tokens (o : set_opt) (ts : list bytes) : outcome set_opt :=
  match ts with
  | [] => Ok o
  | f :: ts' => match ms_token o f with
                | Ok o' => ms_tokens o' ts'
                | Err e => Err e
                | Panic => Panic
                end
  end.

Definition lift {A} (o : outcome A) : reader A := fun s => (o, s).

(** The switch of readAsciiRequest, server/server.go:122-292, on the fields of the line.
    strings.Split never returns an empty slice, so the check at 122-124 never fires. *)
Definition ascii_command (s : list bytes) : reader srequest :=
  match s with
  | [] => fail invalid_request
  | cmd :: args =>
      if beq cmd (B "get") then                                                   (* 127-131 *)
        match args with
        | [k] => ret (key_req OpcGet k)
        | _ => fail invalid_request
        end
      else if beq cmd (B "gets") then                                             (* 132-133 *)
        ret (mkReq OpcGet [] args None [] 0 None None None)
      else if beq cmd (B "set") || beq cmd (B "add") || beq cmd (B "replace") then  (* 134-167 *)
        match args with
        | [k; fl; ex; ln] =>
            f <- lift_opt (parse_int 32 fl) ;;
            e <- lift_opt (parse_int 32 ex) ;;
            n <- lift_opt (parse_int 32 ln) ;;
            buf <- make_read_full (n + 2) ;;
            value <- go_sub buf 0 n ;;
            let opc := if beq cmd (B "add") then OpcAdd
                       else if beq cmd (B "replace") then OpcReplace else OpcSet in
            ret (mkReq opc k [] (Some (be 4 (u32 f))) value 0 None (Some (exp_opt e)) None)
        | _ => fail invalid_request
        end
      else if beq cmd (B "delete") || beq cmd (B "md") then                       (* 168-176 *)
        match args with
        | [k] => ret (mkReq OpcDelete k [] None [] 0 None None (Some (beq cmd (B "md"))))
        | _ => fail invalid_request
        end
      else if beq cmd (B "incr") || beq cmd (B "decr") || beq cmd (B "touch") then  (* 177-192 *)
        match args with
        | [k; n] =>
            d <- lift_opt (parse_int 32 n) ;;
            let opc := if beq cmd (B "decr") then OpcDecrement
                       else if beq cmd (B "touch") then OpcTouch else OpcIncrement in
            ret (mkReq opc k [] None [] d None None None)
        | _ => fail invalid_request
        end
      else if beq cmd (B "mg") then                                               (* 193-224 *)
        match args with
        | k :: fl :: _ => ret (mkReq OpcGet k [] None [] 0 (Some (mg_opt fl)) None None)
        | _ => fail invalid_request
        end
      else if beq cmd (B "ms") then                                               (* 225-285 *)
        match args with
        | k :: ln :: tokens =>
            v <- lift_opt (parse_uint 32 ln) ;;
            o <- lift (ms_tokens (mkSetOpt true false 0 0 false false 0 false v 0) tokens) ;;
            buf <- make_read_full (s_size o + 2) ;;
            value <- go_sub buf 0 (s_size o) ;;
            ret (mkReq OpcSet k [] None value 0 None (Some o) None)
        | _ => fail invalid_request
        end
      else if beq cmd (B "flush_all") then ret (key_req OpcFlush [])              (* 286-287 *)
      else if beq cmd (B "version") then ret (key_req OpcVersion [])              (* 288-289 *)
      else fail invalid_request                                                   (* 292 *)
  end.

(** readAsciiRequest, server/server.go:116-293. *)
Definition read_ascii_request : reader srequest :=
  line <- read_bytes ;;
  ascii_command (split_sp (trim_suffix crlf line)).

(** binary.BigEndian.Uint32(b[lo:hi]) and the like: the slice expression panics when out of range. *)
Definition be_at (b : bytes) (lo hi : Z) : reader Z :=
  w <- go_sub b lo hi ;; ret (unbe w).

(** readBinaryRequest, server/server.go:295-394. *)
Definition read_binary_request : reader srequest :=
  header <- read_full 24 ;;
  if negb (byte_at header 0 =? magic_request) then fail invalid_request
  else
    let opc := byte_at header 1 in
    let key_len := unbe (sub header 2 2) in
    let extra_len := byte_at header 4 in
    let total := unbe (sub header 8 4) in
    if opc =? 0 then                                                              (* 305-312 *)
      k <- make_read_full key_len ;; ret (key_req OpcGet k)
    else if opc =? 13 then                                                        (* 313-320 *)
      k <- make_read_full key_len ;;
      ret (mkReq OpcGet k [] None [] 0
             (Some (mkGetOpt false [] false false true false false true false false false false)) None None)
    else if (opc =? 1) || (opc =? 2) || (opc =? 3) then                           (* 321-346 *)
      extra <- make_read_full extra_len ;;
      e <- be_at extra 4 8 ;;
      k <- make_read_full key_len ;;
      v <- make_read_full (total - extra_len - key_len) ;;
      fl <- go_sub extra 0 4 ;;
      ret (mkReq (if opc =? 1 then OpcSet else if opc =? 2 then OpcAdd else OpcReplace)
             k [] (Some fl) v 0 None (Some (exp_opt e)) None)
    else if opc =? 4 then                                                         (* 347-354 *)
      k <- make_read_full key_len ;; ret (key_req OpcDelete k)
    else if (opc =? 5) || (opc =? 6) then                                         (* 355-374 *)
      extra <- make_read_full extra_len ;;
      d <- be_at extra 0 8 ;;
      e <- be_at extra 16 20 ;;
      k <- make_read_full key_len ;;
      ret (mkReq (if opc =? 5 then OpcIncrement else OpcDecrement)
             k [] None [] (i64 d) None (Some (exp_opt e)) None)
    else if opc =? 28 then                                                        (* 375-388 *)
      extra <- make_read_full extra_len ;;
      e <- be_at extra 0 4 ;;
      k <- make_read_full key_len ;;
      ret (mkReq OpcTouch k [] None [] 0 None (Some (exp_opt e)) None)
    else if opc =? 10 then ret (key_req OpcNoop [])                               (* 389-390 *)
    else if opc =? 11 then ret (key_req OpcVersion [])
    else if opc =? 8 then ret (key_req OpcFlush [])
    else fail invalid_request.

(** readRequest with detectProtocol, server/server.go:79-91, 99-114. [None] is the protocol not yet
    detected; Peek(1) fails when no byte arrives. *)
Definition read_request (p : option protocol) (s : bytes) : (outcome srequest * bytes) * option protocol :=
  match p with
  | Some ProtoAscii => (read_ascii_request s, p)
  | Some ProtoBinary => (read_binary_request s, p)
  | None =>
      match s with
      | [] => ((Err EIO, []), None)
      | c :: _ => if code c =? magic_request then (read_binary_request s, Some ProtoBinary)
                  else (read_ascii_request s, Some ProtoAscii)
      end
  end.
