(** * SPECIFICATION: exactly the requests that end the server process.

    Not repository code; server/server.go:134-167, 225-285 and 295-388 are the places meant. [rest] is all
    that the client sends after the line. *)
From Verif Require Import GoBytes GoNum GoIO ServerTypes ServerSpec.
Local Open Scope Z_scope.

(** An announced data length for which make([]byte, n+2) or buf[:n] panics. For -1 one more byte has to
    arrive first: io.ReadFull waits for it. *)
Definition fatal_length (n : Z) (rest : bytes) : Prop := n <= -2 \/ (n = -1 /\ rest <> []).
Definition number (bits : Z) (b : bytes) : Prop := exists n, parse_int bits b = Some n.
Definition unsigned_number (bits : Z) (b : bytes) : Prop := exists n, parse_uint bits b = Some n.
(** A token of "ms" that is accepted. *)
Definition token_ok (t : bytes) : Prop :=
  match t with
  | [] => False
  | c :: v =>
      (c = "C"%char -> unsigned_number 64 v) /\ (c = "O"%char -> number 64 v)
      /\ (c = "F"%char \/ c = "S"%char \/ c = "T"%char -> number 32 v)
  end.
(** The data length of an "ms" request: the field [n], unless S tokens follow; the last one wins. *)
Fixpoint ms_length (n : Z) (ts : list bytes) : Z :=
  match ts with
  | [] => n
  | (c :: v) :: ts' => ms_length (if Ascii.eqb c "S" then match parse_int 32 v with Some m => m | None => n end else n) ts'
  | [] :: ts' => ms_length n ts'
  end.
Definition fatal_line (fs : list bytes) (rest : bytes) : Prop :=
  (exists cmd k f e b n, fs = [cmd; k; f; e; b] /\ is_store cmd = true /\ number 32 f /\ number 32 e /\ parse_int 32 b = Some n /\ fatal_length n rest)
  \/ (exists k b n ts, fs = B "ms" :: k :: b :: ts /\ parse_uint 32 b = Some n
      /\ ((exists a z, ts = a ++ [] :: z /\ Forall token_ok a) \/ (Forall token_ok ts /\ fatal_length (ms_length n ts) rest))).
(** A complete header of a store, counter or touch whose extras are complete but too short for the fields
    the server takes from them, or a store whose key is complete and whose total length is too small. *)
Definition fatal_header (s : bytes) : Prop :=
  let o := code (nth 1 s "000"%char) in
  let key_len := field16 s 2 in
  let extras := code (nth 4 s "000"%char) in
  let total := field16 s 8 * 65536 + field16 s 10 in
  let body := zlen s - 24 in
  24 <= zlen s /\ code (nth 0 s "000"%char) = 128 /\ extras <= body /\
  ((1 <= o <= 3 /\ (extras < 8 \/ (total < extras + key_len /\ extras + key_len <= body)))
   \/ (5 <= o <= 6 /\ extras < 20) \/ (o = 28 /\ extras < 4)).
Definition fatal (p : protocol) (s : bytes) : Prop :=
  match p with
  | ProtoAscii => exists l rest, find_line s = Some (l, rest) /\ fatal_line (split_sp (trim_suffix crlf l)) rest
  | ProtoBinary => fatal_header s
  end.
