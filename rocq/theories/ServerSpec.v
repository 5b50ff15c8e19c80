(** * SPECIFICATION: what a client's call means to the handler of this repository's server, and what
    serving a connection means. *)
From Verif Require Import GoBytes GoNum GoIO Item Cache Spec ServerTypes ServerParse ServerWrite Serve.
Local Open Scope Z_scope.

(** What a request asks for, independent of the protocol it came in. Flags and the compare-and-swap
    number are 0 when absent. *)
Record wish := mkWish {
  w_op : opcode; w_keys : list bytes; w_value : bytes; w_flags : Z; w_exp : Z; w_cas : Z; w_delta : Z
}.

(** Reading the fields of a server.Request as its documentation-free API offers them: one key in Key
    or several in Keys; flags in Flags or (meta) SetOpt.Flag; the expiration in SetOpt, or in Delta for
    a text touch. *)
Definition keyless (o : opcode) : bool := match o with OpcFlush | OpcNoop | OpcVersion => true | _ => false end.
Definition counting (o : opcode) : bool := match o with OpcIncrement | OpcDecrement => true | _ => false end.
Definition understood (q : srequest) : wish :=
  mkWish (q_opcode q)
    (if keyless (q_opcode q) then [] else match q_keys q with [] => [q_key q] | ks => ks end)
    (q_value q)
    (match q_flags q with Some f => unbe f | None => match q_set q with Some o => u32 (s_flag o) | None => 0 end end)
    (match q_set q with Some o => s_exp o | None => match q_opcode q with OpcTouch => q_delta q | _ => 0 end end)
    (match q_set q with Some o => if s_cas o then s_cas_value o else 0 | None => 0 end)
    (if counting (q_opcode q) then q_delta q else 0).

(** What a call of the client means. GetMulti is one request with the text protocol and one per key
    followed by a no-op with the other two; only the binary protocol carries a counter's expiration. *)
Definition get_wish (ks : list bytes) : wish := mkWish OpcGet ks [] 0 0 0 0.
Definition store_wish (o : opcode) (i : item) (cas : Z) : wish :=
  mkWish o [it_key i] (it_value i) (item_flags i) (it_exp i) cas 0.
Definition delta_wish (pr : proto) (o : opcode) (k : bytes) (d e : Z) : wish :=
  mkWish o [k] [] 0 (match pr with PBinary => e | _ => 0 end) 0 d.
Definition intended (pr : proto) (o : op) : list wish :=
  match o with
  | OGet k => [get_wish [k]]
  | OGetMulti ks => match pr with
                    | PText => [get_wish ks]
                    | _ => map (fun k => get_wish [k]) ks ++ [mkWish OpcNoop [] [] 0 0 0 0]
                    end
  | OSet i => [store_wish OpcSet i (it_cas i)]
  | OAdd i => [store_wish OpcAdd i 0]
  | OReplace i => [store_wish OpcReplace i 0]
  | ODelete k => [mkWish OpcDelete [k] [] 0 0 0 0]
  | OIncr k d e => [delta_wish pr OpcIncrement k d e]
  | ODecr k d e => [delta_wish pr OpcDecrement k d e]
  | OTouch k e => [mkWish OpcTouch [k] [] 0 e 0 0]
  | OFlush => [mkWish OpcFlush [] [] 0 0 0 0]
  | OVersion => [mkWish OpcVersion [] [] 0 0 0 0]
  end.

(** What this server does not support: the text "cas" command, text and meta flags of 2^31 and more,
    deltas of 2^31 and more, the meta client's Touch and the "mn" that ends its GetMulti, binary
    compare-and-swap (the cas field is ignored). *)
Definition supported (pr : proto) (o : op) : Prop :=
  match pr with
  | PText => match o with
             | OSet i => it_cas i = 0 /\ item_flags i < 2 ^ 31
             | OAdd i | OReplace i => item_flags i < 2 ^ 31
             | OIncr _ d _ | ODecr _ d _ => d < 2 ^ 31
             | _ => True
             end
  | PMeta => match o with
             | OGetMulti _ | OTouch _ _ => False
             | OSet i | OAdd i | OReplace i => item_flags i < 2 ^ 31
             | OIncr _ d _ | ODecr _ d _ => d < 2 ^ 31
             | _ => True
             end
  | PBinary => match o with OSet i => it_cas i = 0 | _ => True end
  end.

Definition proto_of (pr : proto) : protocol := match pr with PBinary => ProtoBinary | _ => ProtoAscii end.

(** In which form a request is to be answered: the meta form exactly for the meta client's get, set and
    delete (its other calls use the text commands). *)
Definition flavour (pr : proto) (q : srequest) : bool :=
  match pr with
  | PBinary => true
  | PText =>
      match q_opcode q with
      | OpcGet => match q_get q with None => true | Some _ => false end
      | OpcSet | OpcAdd | OpcReplace => match q_set q with Some o => negb (s_meta o) | None => false end
      | OpcDelete => match q_del q with Some m => negb m | None => false end
      | _ => true
      end
  | PMeta =>
      match q_opcode q with
      | OpcGet => match q_get q with Some g => beq (g_request_flag g) (B "v") && g_value g | None => false end
      | OpcSet => match q_set q with Some o => s_meta o | None => false end
      | OpcAdd | OpcReplace => match q_set q with Some o => negb (s_meta o) | None => false end
      | OpcDelete => match q_del q with Some m => m | None => false end
      | _ => true
      end
  end.

(** Where the request carries its fields: the key in Key, several or the text client's only one in Keys;
    an expected cas number only together with the flag that says so; a set has a SetOpt, its flags are in Flags as four
    bytes, except with the meta protocol, where they are in SetOpt. *)
Definition tidy (pr : proto) (q : srequest) : bool :=
  match q_keys q with [] => true | _ => match pr, q_opcode q with PText, OpcGet => true | _, _ => false end end
  && match q_set q with Some o => s_cas o || (s_cas_value o =? 0) | None => match q_opcode q with OpcSet => false | _ => true end end
  && match q_opcode q with
     | OpcSet => match pr, q_flags q with
                 | PMeta, None => true
                 | PText, Some f | PBinary, Some f => Nat.eqb (length f) 4
                 | _, _ => false
                 end
     | _ => true
     end.

(** Reading several requests from a connection: [reads p s qs p' s']. *)
Inductive reads : option protocol -> bytes -> list srequest -> option protocol -> bytes -> Prop :=
| reads_none : forall p s, reads p s [] p s
| reads_one : forall p s q p1 s1 qs p2 s2, read_request p s = ((Ok q, s1), p1) ->
    reads p1 s1 qs p2 s2 -> reads p s (q :: qs) p2 s2.

(** Serving requests one at a time: the handler is called once per request, in order, each reply is
    the one written for that request's answer; the first failure ends it. *)
Fixpoint serve_list {H} (h : handler H) (p : protocol) (st : H) (qs : list srequest) : H * list served * option fate :=
  match qs with
  | [] => (st, [], None)
  | q :: qs' =>
      match h st q with
      | (st', Err e) => (st', [mkServed q []], Some (Closed e))
      | (st', Panic) => (st', [mkServed q []], Some Crashed)
      | (st', Ok res) =>
          match write_response p q res with
          | Err e => (st', [mkServed q []], Some (Closed e))
          | Panic => (st', [mkServed q []], Some Crashed)
          | Ok out => let '(st'', l, f) := serve_list h p st' qs' in (st'', mkServed q out :: l, f)
          end
      end
  end.

(** ** One protocol for the whole connection *)
Definition parser (p : protocol) : reader srequest :=
  match p with ProtoAscii => read_ascii_request | ProtoBinary => read_binary_request end.
(** The protocol announced by a connection's first byte. *)
Definition announced (c : ascii) : protocol := if code c =? 128 then ProtoBinary else ProtoAscii.

(** A connection loop that never changes its protocol. *)
Fixpoint serve_as {H} (p : protocol) (h : handler H) (fuel : nat) (st : H) (s : bytes) : H * list served * fate :=
  match fuel with
  | O => (st, [], OutOfFuel)
  | S f =>
      match parser p s with
      | (Err e, _) => (st, [], Closed e)
      | (Panic, _) => (st, [], Crashed)
      | (Ok q, s') =>
          match h st q with
          | (st', Err e) => (st', [mkServed q []], Closed e)
          | (st', Panic) => (st', [mkServed q []], Crashed)
          | (st', Ok res) =>
              match write_response p q res with
              | Err e => (st', [mkServed q []], Closed e)
              | Panic => (st', [mkServed q []], Crashed)
              | Ok out => let '(st'', l, ft) := serve_as p h f st' s' in (st'', mkServed q out :: l, ft)
              end
          end
      end
  end.

(** Serving all of [s]; and serving [tail] after [x], unless [x] ended the connection. *)
Definition serve_rest {H} (p : protocol) (h : handler H) (st : H) (s : bytes) := serve_as p h (S (length s)) st s.
Definition then_serve {H} (h : handler H) (p : protocol) (x : H * list served * option fate) (tail : bytes) : H * list served * fate :=
  let '(st, l, f) := x in
  match f with
  | Some ft => (st, l, ft)
  | None => let '(st', l', ft) := serve_rest p h st tail in (st', l ++ l', ft)
  end.

(** [b] is exactly one request, [q], in protocol [p]. *)
Definition exactly (p : protocol) (b : bytes) (q : srequest) : Prop := parser p b = (Ok q, []).

(** ** Malformed requests *)
(** The text and meta commands and the numbers of fields (after the command) they may have. *)
Definition arity_ok (cmd : bytes) (n : nat) : bool :=
  if beq cmd (B "get") then Nat.eqb n 1
  else if beq cmd (B "gets") then Nat.leb 1 n
  else if beq cmd (B "set") || beq cmd (B "add") || beq cmd (B "replace") then Nat.eqb n 4
  else if beq cmd (B "delete") || beq cmd (B "md") then Nat.eqb n 1
  else if beq cmd (B "incr") || beq cmd (B "decr") || beq cmd (B "touch") then Nat.eqb n 2
  else if beq cmd (B "mg") || beq cmd (B "ms") then Nat.leb 2 n
  else if beq cmd (B "flush_all") || beq cmd (B "version") then Nat.eqb n 0
  else false.
Definition malformed_fields (fs : list bytes) : bool :=
  match fs with [] => true | cmd :: args => negb (arity_ok cmd (length args)) end.
(** Opcodes of the binary protocol this server knows. *)
Definition known_opcode (n : Z) : bool :=
  (n =? 0) || (n =? 1) || (n =? 2) || (n =? 3) || (n =? 4) || (n =? 5) || (n =? 6) || (n =? 8) || (n =? 10)
  || (n =? 11) || (n =? 13) || (n =? 28).
(** The fields of the first line: up to the first LF, without CRLF, split at single spaces. *)
Definition first_fields (s : bytes) : option (list bytes) :=
  match find_line s with Some (l, _) => Some (split_sp (trim_suffix crlf l)) | None => None end.
(** [s] starts with a malformed request: a complete line with a wrong command or number of fields; a
    complete 24-byte header with a wrong magic byte or an unknown opcode. *)
Definition malformed (p : protocol) (s : bytes) : Prop :=
  match p with
  | ProtoAscii => exists fs, first_fields s = Some fs /\ malformed_fields fs = true
  | ProtoBinary => 24 <= zlen s /\ (code (nth 0 s "000"%char) <> 128 \/ known_opcode (code (nth 1 s "000"%char)) = false)
  end.
(** The two places where this server is laxer than [arity_ok]: "gets" without a key, and fields after
    flush_all or version, are passed to the handler. *)
Definition lax (p : protocol) (s : bytes) : Prop :=
  p = ProtoAscii /\ exists cmd args, first_fields s = Some (cmd :: args)
    /\ (beq cmd (B "gets") || beq cmd (B "flush_all") || beq cmd (B "version")) = true.

(** ** Requests that crash the process *)
Definition is_store (cmd : bytes) : bool := beq cmd (B "set") || beq cmd (B "add") || beq cmd (B "replace").
Definition negative_number (b : bytes) : bool := match parse_int 32 b with Some n => n <? 0 | None => false end.
Definition hostile_token (t : bytes) : bool :=
  match t with [] => true | c :: n => Ascii.eqb c "S" && negative_number n end.
(** A negative data length; an empty token or a negative S token of "ms". *)
Definition hostile_fields (fs : list bytes) : bool :=
  match fs with
  | [cmd; k; f; e; n] => (is_store cmd && negative_number n) || (beq cmd (B "ms") && (hostile_token e || hostile_token n))
  | cmd :: k :: n :: tokens => beq cmd (B "ms") && existsb hostile_token tokens
  | _ => false
  end.
Definition field16 (s : bytes) (i : nat) : Z := code (nth i s "000"%char) * 256 + code (nth (S i) s "000"%char).
Definition hostile_header (s : bytes) : Prop :=
  let o := code (nth 1 s "000"%char) in
  let key_len := field16 s 2 in
  let extras := code (nth 4 s "000"%char) in
  let total := field16 s 8 * 65536 + field16 s 10 in
  24 <= zlen s /\
  ((1 <= o <= 3 /\ (extras < 8 \/ total < extras + key_len)) \/ (5 <= o <= 6 /\ extras < 20) \/ (o = 28 /\ extras < 4)).
Definition hostile (p : protocol) (s : bytes) : Prop :=
  match p with
  | ProtoAscii => exists fs, first_fields s = Some fs /\ hostile_fields fs = true
  | ProtoBinary => hostile_header s
  end.

(** ** Handlers *)
(** A handler that always answers: it never panics, and when it returns responses there is at least
    one unless the request is a get, with no flags or at least four bytes of flags. *)
Definition is_get (q : srequest) : bool := match q_opcode q with OpcGet => true | _ => false end.
Definition full_flags (r : sresponse) : Prop := match r_flags r with None => True | Some f => f = [] \/ 4 <= zlen f end.
Definition polite {H} (h : handler H) : Prop := forall st q,
  match snd (h st q) with
  | Ok res => (is_get q = false -> res <> []) /\ Forall full_flags res
  | Err _ => True
  | Panic => False
  end.
