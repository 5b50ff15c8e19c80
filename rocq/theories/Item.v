(** * Items, operations and results of the client API. *)
From Verif Require Import GoBytes GoNum GoIO.
Local Open Scope Z_scope.

(** client/client.go:7-15. A nil Flags slice is [None]; Value's nil/empty difference is not
    observable through the calls modelled. *)
Record item := mkItem {
  it_key : bytes;
  it_value : bytes;
  it_flags : option bytes;
  it_exp : Z;                     (* int *)
  it_cas : Z;                     (* uint64 *)
  it_server : bytes
}.

Definition zero_item : item := mkItem [] [] None 0 0 [].

(** The operations of the Server interface (client/server.go:87-102) that exchange messages. *)
Inductive op :=
| OGet (k : bytes)
| OGetMulti (ks : list bytes)
| OSet (i : item)
| OAdd (i : item)
| OReplace (i : item)
| ODelete (k : bytes)
| OIncr (k : bytes) (delta expiration : Z)
| ODecr (k : bytes) (delta expiration : Z)
| OTouch (k : bytes) (expiration : Z)
| OFlush
| OVersion.

Inductive result :=
| RItem (i : item)
| RItems (l : list item)
| RUnit
| RInt (n : Z)                    (* int64 *)
| RStr (s : bytes).

(** Go's Fprintf writes; the request is a byte string or a panic while building it. *)
Definition request := outcome bytes.

(** [flags] argument of the text protocol commands, client/server.go:463-466, 510-513, 547-550,
    914-917, 948-951: the big-endian number when exactly four bytes are given, 0 otherwise. *)
Definition text_flags (i : item) : Z :=
  match it_flags i with
  | Some f => if zlen f =? 4 then unbe f else 0
  | None => 0
  end.
