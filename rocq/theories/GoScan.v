(** * fmt.Fscanf as used by client/server.go:236 with the formats
      "VALUE %s %d %d %d" and "VALUE %s %d %d".

    Models Go's fmt/scan.go (doScanf, advance, SkipSpace, convertString, scanUint, scanInt) for
    formats made of literal text, single spaces and the verbs %s, %d. Input is read rune by rune:
    bytes are UTF-8 decoded, invalid bytes become U+FFFD, and %s re-encodes the runes. *)
From Verif Require Import GoBytes GoNum.
Local Open Scope Z_scope.

(** ** UTF-8 (unicode/utf8 DecodeRune / AppendRune) *)
Definition in_rng (lo hi x : Z) : bool := (lo <=? x) && (x <=? hi).
Definition rune_error : Z := 65533.

(** Decode one rune: its value and width. *)
Definition decode_rune (b0 : Z) (rest : list Z) : Z * nat :=
  if b0 <? 128 then (b0, 1%nat)
  else if in_rng 194 223 b0 then
    match rest with
    | b1 :: _ => if in_rng 128 191 b1 then ((b0 - 192) * 64 + (b1 - 128), 2%nat) else (rune_error, 1%nat)
    | _ => (rune_error, 1%nat)
    end
  else if in_rng 224 239 b0 then
    let lo := if b0 =? 224 then 160 else 128 in
    let hi := if b0 =? 237 then 159 else 191 in
    match rest with
    | b1 :: b2 :: _ =>
        if in_rng lo hi b1 && in_rng 128 191 b2
        then ((b0 - 224) * 4096 + (b1 - 128) * 64 + (b2 - 128), 3%nat) else (rune_error, 1%nat)
    | _ => (rune_error, 1%nat)
    end
  else if in_rng 240 244 b0 then
    let lo := if b0 =? 240 then 144 else 128 in
    let hi := if b0 =? 244 then 143 else 191 in
    match rest with
    | b1 :: b2 :: b3 :: _ =>
        if in_rng lo hi b1 && in_rng 128 191 b2 && in_rng 128 191 b3
        then ((b0 - 240) * 262144 + (b1 - 128) * 4096 + (b2 - 128) * 64 + (b3 - 128), 4%nat)
        else (rune_error, 1%nat)
    | _ => (rune_error, 1%nat)
    end
  else (rune_error, 1%nat).

(** [skip] counts the bytes already consumed by the previous multi-byte rune. *)
Fixpoint runes_from (skip : nat) (b : list Z) : list Z :=
  match b with
  | [] => []
  | c :: b' => match skip with
               | S k => runes_from k b'
               | O => let rw := decode_rune c b' in fst rw :: runes_from (pred (snd rw)) b'
               end
  end.
Definition runes (b : bytes) : list Z := runes_from 0 (map code b).

Definition encode_rune (r : Z) : bytes :=
  if r <? 128 then [byte_of r]
  else if r <? 2048 then [byte_of (192 + r / 64); byte_of (128 + r mod 64)]
  else if r <? 65536 then [byte_of (224 + r / 4096); byte_of (128 + r / 64 mod 64); byte_of (128 + r mod 64)]
  else [byte_of (240 + r / 262144); byte_of (128 + r / 4096 mod 64);
        byte_of (128 + r / 64 mod 64); byte_of (128 + r mod 64)].

(** fmt's isSpace. *)
Definition is_space (r : Z) : bool :=
  in_rng 9 13 r || (r =? 32) || (r =? 133) || (r =? 160) || (r =? 5760) || in_rng 8192 8202 r
  || in_rng 8232 8233 r || (r =? 8239) || (r =? 8287) || (r =? 12288).

Definition nl : Z := 10.

(** ss.SkipSpace with nlIsSpace = false: [None] is the "unexpected newline" error. *)
Fixpoint skip_space (s : list Z) : option (list Z) :=
  match s with
  | [] => Some []
  | r :: s' =>
      if r =? nl then None
      else if is_space r then skip_space s'     (* a '\r' before '\n' is skipped as well *)
      else Some s
  end.

(** Spaces other than newline, as consumed by a space in the format. *)
Fixpoint drop_spaces (s : list Z) : list Z :=
  match s with
  | r :: s' => if is_space r && negb (r =? nl) then drop_spaces s' else s
  | [] => []
  end.

(** ss.advance on one space of the format: at least one space and no newline in the input, or end
    of input. *)
Definition adv_space (s : list Z) : option (list Z) :=
  match s with
  | [] => Some []
  | r :: _ => if is_space r && negb (r =? nl) then Some (drop_spaces s) else None
  end.

(** ss.advance on literal text. *)
Fixpoint adv_lit (l s : list Z) : option (list Z) :=
  match l, s with
  | [], _ => Some s
  | x :: l', y :: s' => if x =? y then adv_lit l' s' else None
  | _ :: _, [] => None
  end.

(** ss.token(true, notSpace) after convertString's notEOF check. *)
Fixpoint take_word (s : list Z) : list Z * list Z :=
  match s with
  | [] => ([], [])
  | r :: s' => if is_space r then ([], s)
               else let wt := take_word s' in (r :: fst wt, snd wt)
  end.

Definition scan_string (s : list Z) : option (bytes * list Z) :=
  match skip_space s with
  | None | Some [] => None
  | Some s' => let wt := take_word s' in Some (flat_map encode_rune (fst wt), snd wt)
  end.

Fixpoint take_digits (s : list Z) : list Z * list Z :=
  match s with
  | [] => ([], [])
  | r :: s' => if in_rng 48 57 r then let wt := take_digits s' in (r :: fst wt, snd wt)
               else ([], s)
  end.

(** scanUint(verb 'd', bits): digits only, at least one, value below 2^bits. *)
Definition scan_uint (bits : Z) (s : list Z) : option (Z * list Z) :=
  match skip_space s with
  | None | Some [] => None
  | Some s' =>
      let wt := take_digits s' in
      match parse_uint 64 (map byte_of (fst wt)) with
      | Some n => if n <? 2 ^ bits then Some (n, snd wt) else None
      | None => None
      end
  end.

(** scanInt(verb 'd', 64): an optional sign, then digits. *)
Definition scan_int (s : list Z) : option (Z * list Z) :=
  match skip_space s with
  | None | Some [] => None
  | Some ((r :: s'') as s') =>
      let sg := if (r =? 43) || (r =? 45) then ([r], s'') else ([], s') in
      let wt := take_digits (snd sg) in
      match fst wt with
      | [] => None
      | _ => match parse_int 64 (map byte_of (fst sg ++ fst wt)) with
             | Some n => Some (n, snd wt)
             | None => None
             end
      end
  end.

(** client/server.go:229-238: the scan of a VALUE line. With [with_cas] the format is
    "VALUE %s %d %d %d" into key (string), flags (uint32), size (int), cas (uint64); otherwise
    the last field is absent and cas stays 0. Returns key, flags, size, cas. *)
Definition obind {A C} (o : option A) (f : A -> option C) : option C :=
  match o with Some a => f a | None => None end.
Notation "x <~ m ;; f" := (obind m (fun x => f)) (at level 61, m at next level, right associativity).

Definition fscanf_value (with_cas : bool) (line : bytes) : option (bytes * Z * Z * Z) :=
  s0 <~ adv_lit (map code (B "VALUE")) (runes line) ;;
  s1 <~ adv_space s0 ;;
  k  <~ scan_string s1 ;;
  s2 <~ adv_space (snd k) ;;
  f  <~ scan_uint 32 s2 ;;
  s3 <~ adv_space (snd f) ;;
  n  <~ scan_int s3 ;;
  if with_cas then
    s4 <~ adv_space (snd n) ;;
    c  <~ scan_uint 64 s4 ;;
    Some (fst k, fst f, fst n, fst c)
  else Some (fst k, fst f, fst n, 0).
