(** * Slices, their backing arrays, and append (Go's built-ins).

    Elsewhere a []byte is its contents. Here it is a window on an array of the caller's memory, as
    needed to say what append(item.Value, crlf...) writes (client/server.go:476, 879). *)
From Verif Require Import GoBytes.
Local Open Scope nat_scope.

(** The arrays of the program's memory, by number. *)
Definition heap := list bytes.
(** A slice: the array, the offset of its first byte, its length and its capacity. *)
Record slice := mkSlice { s_arr : nat; s_off : nat; s_len : nat; s_cap : nat }.

Definition array (h : heap) (a : nat) : bytes := nth a h [].
Definition contents (h : heap) (s : slice) : bytes := firstn (s_len s) (skipn (s_off s) (array h (s_arr s))).
(** Go's invariant of every slice. *)
Definition valid (h : heap) (s : slice) : Prop :=
  s_arr s < length h /\ s_len s <= s_cap s /\ s_off s + s_cap s <= length (array h (s_arr s)).

(** Overwriting the array from an index on. *)
Definition write_at (b : bytes) (i : nat) (d : bytes) : bytes := firstn i b ++ d ++ skipn (i + length d) b.
Fixpoint set_array (h : heap) (a : nat) (b : bytes) : heap :=
  match h, a with
  | [], _ => []
  | _ :: h', O => b :: h'
  | x :: h', S a' => x :: set_array h' a' b
  end.

(** append(s, d...): in place when the capacity suffices, otherwise into a new array whose spare
    part [grown] the runtime chooses. *)
Definition append (grown : bytes) (h : heap) (s : slice) (d : bytes) : heap * slice :=
  if s_len s + length d <=? s_cap s then
    (set_array h (s_arr s) (write_at (array h (s_arr s)) (s_off s + s_len s) d),
     mkSlice (s_arr s) (s_off s) (s_len s + length d) (s_cap s))
  else
    (h ++ [contents h s ++ d ++ grown],
     mkSlice (length h) 0 (s_len s + length d) (s_len s + length d + length grown)).

(** What the storage calls hand to the connection and what they do to memory, for an item whose
    Value is the slice [s]. Set of the text and meta clients: s.conn.Write(append(item.Value,
    crlf...)), client/server.go:476, 879. Add and Replace write item.Value and crlf separately
    (517-518, 554-555, 921-922, 955-956); the binary client writes item.Value (1358, 1410, 1462). *)
Inductive store_call := TextSet | MetaSet | PlainStore | BinaryStore.
Definition store_writes (c : store_call) (grown : bytes) (h : heap) (s : slice) : heap * list bytes :=
  match c with
  | TextSet | MetaSet => let '(h', s') := append grown h s crlf in (h', [contents h' s'])
  | PlainStore => (h, [contents h s; crlf])
  | BinaryStore => (h, [contents h s])
  end.
