(** * Go byte strings: the parts of packages bytes and strings the code calls.

    A Go [[]byte] or [string] is a [list ascii] (aliasing is modelled separately in GoSlice.v).
    These definitions model Go's standard library, not /repo; each says where /repo uses it. *)
From Coq Require Export String Ascii List ZArith Lia Bool.
Export ListNotations.
Local Open Scope Z_scope.

Definition bytes := list ascii.

(** String literals. *)
Definition B (s : string) : bytes := list_ascii_of_string s.
Arguments B _%string_scope.

Definition CR : ascii := "013"%char.
Definition LF : ascii := "010"%char.
Definition SP : ascii := " "%char.
(** client/server.go:22, server/server.go:59 [crlf]. *)
Definition crlf : bytes := [CR; LF].

(** Numeric value of a byte, and Go's conversion [byte(n)]. *)
Definition code (c : ascii) : Z := Z.of_N (N_of_ascii c).
Definition byte_of (n : Z) : ascii := ascii_of_N (Z.to_N (n mod 256)).

(** bytes.Equal / string equality. *)
Fixpoint beq (a b : bytes) : bool :=
  match a, b with
  | [], [] => true
  | x :: a', y :: b' => Ascii.eqb x y && beq a' b'
  | _, _ => false
  end.

(** bytes.HasPrefix (client/server.go:224, 773, 890-896, 993-997, 1070). *)
Fixpoint has_prefix (p b : bytes) : bool :=
  match p, b with
  | [], _ => true
  | x :: p', y :: b' => Ascii.eqb x y && has_prefix p' b'
  | _ :: _, [] => false
  end.

(** strings.TrimPrefix (client/server.go:629, 1126). *)
Definition trim_prefix (p b : bytes) : bytes :=
  if has_prefix p b then skipn (length p) b else b.

(** strings.TrimSuffix (client/server.go:629, 1126; server/server.go:121). *)
Definition trim_suffix (suf b : bytes) : bytes :=
  if has_prefix (rev suf) (rev b) then firstn (length b - length suf) b else b.

(** strings.Split(s, " ") / bytes.Split(b, []byte(" ")) (client/server.go:302,
    server/server.go:121). Never returns an empty list, as in Go for a non-empty separator. *)
Fixpoint split_sp (b : bytes) : list bytes :=
  match b with
  | [] => [[]]
  | c :: b' =>
      if Ascii.eqb c SP then [] :: split_sp b'
      else match split_sp b' with
           | w :: ws => (c :: w) :: ws
           | [] => [[c]]
           end
  end.

(** strings.Join(keys, " ") (client/server.go:274). *)
Fixpoint join_sp (ws : list bytes) : bytes :=
  match ws with
  | [] => []
  | [w] => w
  | w :: ws' => w ++ SP :: join_sp ws'
  end.

(** bytes.Count(b, []byte(" ")) (client/server.go:232). *)
Fixpoint count_sp (b : bytes) : Z :=
  match b with
  | [] => 0
  | c :: b' => (if Ascii.eqb c SP then 1 else 0) + count_sp b'
  end.

(** Go's built-in [len]. *)
Definition zlen {A} (l : list A) : Z := Z.of_nat (length l).
