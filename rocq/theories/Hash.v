(** * The hash functions of client/ring.go: crc32.ChecksumIEEE (line 53) and sha1.Sum (line 29).
    Executable models of Go's hash/crc32 and crypto/sha1 (CRC-32 IEEE 802.3, FIPS 180-4). *)
From Coq Require Import NArith.
From Verif Require Import GoBytes GoNum.

Local Open Scope N_scope.

(** ** CRC-32, reflected polynomial 0xEDB88320 *)
Definition crc_poly : N := 3988292384.
Definition w32 : N := 4294967296.
Definition ones32 : N := 4294967295.

Definition crc_bit (c : N) : N :=
  if N.odd c then N.lxor (N.div2 c) crc_poly else N.div2 c.
Definition crc_byte (c : N) (b : ascii) : N :=
  Nat.iter 8 crc_bit (N.lxor c (N_of_ascii b)).
Definition crc32N (s : bytes) : N := N.lxor (fold_left crc_byte s ones32) ones32.

(** The result is a uint32; the final reduction is the identity and makes the range evident. *)
Definition crc32 (s : bytes) : Z := Z.of_N (crc32N s mod w32).

(** ** SHA-1 *)
Definition add32 (a b : N) : N := N.land (a + b) ones32.
Definition rotl (k a : N) : N := N.lor (N.land (N.shiftl a k) ones32) (N.shiftr a (32 - k)).
Definition not32 (a : N) : N := N.lxor a ones32.

(** Padding to a multiple of 64 bytes: 0x80, zeros, 64-bit length in bits. *)
Definition sha1_pad (s : bytes) : bytes :=
  let l := length s in
  let z := ((119 - (l mod 64)) mod 64)%nat in
  s ++ "128"%char :: repeat "000"%char z ++ be 8 (8 * zlen s).

Fixpoint words (fuel : nat) (s : bytes) : list N :=
  match fuel with
  | O => []
  | S f => match s with
           | a :: b :: c :: d :: s' =>
               (((N_of_ascii a * 256 + N_of_ascii b) * 256 + N_of_ascii c) * 256 + N_of_ascii d)
               :: words f s'
           | _ => []
           end
  end.

(** The schedule is kept reversed (latest word first): w[t] = rotl 1 (w[t-3]^w[t-8]^w[t-14]^w[t-16]). *)
Definition sched_step (w : list N) : list N :=
  rotl 1 (N.lxor (N.lxor (nth 2 w 0) (nth 7 w 0)) (N.lxor (nth 13 w 0) (nth 15 w 0))) :: w.
Definition schedule (block : list N) : list N := rev (Nat.iter 64 sched_step (rev block)).

Definition sha_f (t : nat) (b c d : N) : N :=
  if (t <? 20)%nat then N.lor (N.land b c) (N.land (not32 b) d)
  else if (t <? 40)%nat then N.lxor (N.lxor b c) d
  else if (t <? 60)%nat then N.lor (N.lor (N.land b c) (N.land b d)) (N.land c d)
  else N.lxor (N.lxor b c) d.
Definition sha_k (t : nat) : N :=
  if (t <? 20)%nat then 1518500249
  else if (t <? 40)%nat then 1859775393
  else if (t <? 60)%nat then 2400959708
  else 3395469782.

Record sha_state := mkSha { sa : N; sb : N; sc : N; sd : N; se : N }.

Definition sha_init : sha_state :=
  mkSha 1732584193 4023233417 2562383102 271733878 3285377520.

Fixpoint sha_rounds (t : nat) (ws : list N) (h : sha_state) : sha_state :=
  match ws with
  | [] => h
  | w :: ws' =>
      let tmp := add32 (add32 (add32 (rotl 5 (sa h)) (sha_f t (sb h) (sc h) (sd h))) (add32 (se h) (sha_k t))) w in
      sha_rounds (S t) ws' (mkSha tmp (sa h) (rotl 30 (sb h)) (sc h) (sd h))
  end.

Definition sha_block (h : sha_state) (block : list N) : sha_state :=
  let r := sha_rounds 0 (schedule block) h in
  mkSha (add32 (sa h) (sa r)) (add32 (sb h) (sb r)) (add32 (sc h) (sc r))
        (add32 (sd h) (sd r)) (add32 (se h) (se r)).

Fixpoint sha_blocks (fuel : nat) (ws : list N) (h : sha_state) : sha_state :=
  match fuel with
  | O => h
  | S f => match ws with
           | [] => h
           | _ => sha_blocks f (skipn 16 ws) (sha_block h (firstn 16 ws))
           end
  end.

Definition sha1 (s : bytes) : sha_state :=
  let p := sha1_pad s in
  let ws := words (length p) p in
  sha_blocks (length ws) ws sha_init.

(** binary.BigEndian.Uint32(s[:4]) of the digest, client/ring.go:32: its first word. *)
Definition sha1_32 (s : bytes) : Z := Z.of_N (sa (sha1 s) mod w32).

(** Checks against published test vectors (tests, not proofs). *)
Example crc32_check : crc32 (B "123456789") = 3421780262%Z.
Proof. vm_compute. reflexivity. Qed.
Example crc32_test4 : crc32 (B "test4") = 4208470125%Z.   (* client/ring_test.go:9 *)
Proof. vm_compute. reflexivity. Qed.
Example sha1_abc : sha1_32 (B "abc") = 2845392438%Z.       (* a9993e36... *)
Proof. vm_compute. reflexivity. Qed.
Example sha1_two_blocks :
  sha1_32 (B "abcdbcdecdefdefgefghfghighijhijkijkljklmklmnlmnomnopnopq") = 2224569924%Z.  (* 84983e44... *)
Proof. vm_compute. reflexivity. Qed.
