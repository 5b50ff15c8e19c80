(** * Requests and responses of the server package, server/server.go:25-61, 396-459. *)
From Verif Require Import GoBytes GoNum GoIO.
Local Open Scope Z_scope.

(** server/server.go:25-43. The opcodes a request can carry; the Go type is a byte. *)
Inductive opcode :=
| OpcGet | OpcSet | OpcAdd | OpcReplace | OpcDelete | OpcIncrement | OpcDecrement
| OpcFlush | OpcNoop | OpcVersion | OpcTouch.

Definition opcode_byte (o : opcode) : Z :=
  match o with
  | OpcGet => 0 | OpcSet => 1 | OpcAdd => 2 | OpcReplace => 3 | OpcDelete => 4
  | OpcIncrement => 5 | OpcDecrement => 6 | OpcFlush => 8 | OpcNoop => 10 | OpcVersion => 11
  | OpcTouch => 28
  end.

(** server/server.go:423-437 (Opaque is never assigned). *)
Record get_opt := mkGetOpt {
  g_meta : bool; g_request_flag : bytes; g_cas : bool; g_flag : bool; g_key : bool;
  g_last_access : bool; g_hit : bool; g_noreply : bool; g_size : bool; g_ttl : bool;
  g_with_opaque : bool; g_value : bool
}.

(** server/server.go:439-450 *)
Record set_opt := mkSetOpt {
  s_meta : bool; s_cas : bool; s_cas_value : Z; s_flag : Z; s_invalidate : bool; s_key : bool;
  s_opaque : Z; s_noreply : bool; s_size : Z; s_exp : Z
}.
Definition exp_opt (e : Z) : set_opt := mkSetOpt false false 0 0 false false 0 false 0 e.

(** server/server.go:402-412; [None] is a nil pointer or slice. *)
Record srequest := mkReq {
  q_opcode : opcode;
  q_key : bytes;
  q_keys : list bytes;
  q_flags : option bytes;
  q_value : bytes;
  q_delta : Z;
  q_get : option get_opt;
  q_set : option set_opt;
  q_del : option bool              (* DelOpt.Meta *)
}.
Definition key_req (o : opcode) (k : bytes) : srequest := mkReq o k [] None [] 0 None None None.

(** server/server.go:414-421; the error is nil or not, its text is never written. *)
Record sresponse := mkRes {
  r_key : bytes; r_error : option err; r_flags : option bytes; r_value : bytes; r_cas : Z; r_ttl : Z
}.
Definition empty_response : sresponse := mkRes [] None None [] 0 0.

(** server/server.go:15-18 *)
Inductive protocol := ProtoAscii | ProtoBinary.
