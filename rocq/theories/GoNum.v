(** * Go integers: conversions, encoding/binary (big endian) and strconv / fmt decimal forms. *)
From Verif Require Import GoBytes.
Local Open Scope Z_scope.

(** Go conversions to fixed-width integers (two's complement truncation). *)
Definition u8  (n : Z) : Z := n mod 2 ^ 8.
Definition u16 (n : Z) : Z := n mod 2 ^ 16.
Definition u32 (n : Z) : Z := n mod 2 ^ 32.
Definition u64 (n : Z) : Z := n mod 2 ^ 64.
Definition i64 (n : Z) : Z := (n + 2 ^ 63) mod 2 ^ 64 - 2 ^ 63.

(** encoding/binary BigEndian.PutUint16/32/64 with k = 2, 4, 8. *)
Fixpoint be (k : nat) (n : Z) : bytes :=
  match k with
  | O => []
  | S k' => byte_of (n / 2 ^ (8 * Z.of_nat k')) :: be k' n
  end.

(** encoding/binary BigEndian.Uint16/32/64 on a slice of exactly that length. *)
Definition unbe (b : bytes) : Z := fold_left (fun a c => a * 256 + code c) b 0.

(** ** Decimal output: fmt's %d and strconv.FormatInt(n, 10). *)
Definition digit (d : Z) : ascii := byte_of (48 + d).

Fixpoint dec_aux (fuel : nat) (n : Z) (acc : bytes) : bytes :=
  match fuel with
  | O => acc
  | S f => let acc' := digit (n mod 10) :: acc in
           if n <? 10 then acc' else dec_aux f (n / 10) acc'
  end.

(** The fuel (bit length + 1) always exceeds the number of decimal digits. *)
Definition dec_nonneg (n : Z) : bytes := dec_aux (S (Z.to_nat (Z.log2 n))) n [].

Definition dec (n : Z) : bytes :=
  if n <? 0 then "-"%char :: dec_nonneg (- n) else dec_nonneg n.

(** ** Decimal input: strconv.ParseUint / ParseInt / Atoi, base 10.
    The kind of error (syntax or range) is not distinguished: no caller looks at it. *)
Definition is_digit (c : ascii) : bool := (48 <=? code c) && (code c <=? 57).

Fixpoint parse_digits (acc : Z) (s : bytes) : option Z :=
  match s with
  | [] => Some acc
  | c :: s' => if is_digit c then parse_digits (acc * 10 + (code c - 48)) s' else None
  end.

(** strconv.ParseUint(s, 10, bits): no sign, at least one digit, value < 2^bits. *)
Definition parse_uint (bits : Z) (s : bytes) : option Z :=
  match s with
  | [] => None
  | _ => match parse_digits 0 s with
         | Some n => if n <? 2 ^ bits then Some n else None
         | None => None
         end
  end.

(** strconv.ParseInt(s, 10, bits): optional '+' or '-'. *)
Definition parse_int (bits : Z) (s : bytes) : option Z :=
  let body_neg := match s with
                  | c :: s' => if Ascii.eqb c "-"%char then (s', true)
                               else if Ascii.eqb c "+"%char then (s', false) else (s, false)
                  | [] => (s, false)
                  end in
  match fst body_neg with
  | [] => None
  | _ =>
      match parse_digits 0 (fst body_neg) with
      | Some n =>
          if snd body_neg then (if n <=? 2 ^ (bits - 1) then Some (- n) else None)
          else (if n <? 2 ^ (bits - 1) then Some n else None)
      | None => None
      end
  end.

(** strconv.Atoi on a 64-bit platform. *)
Definition atoi (s : bytes) : option Z := parse_int 64 s.
