(** * What a call writes and how it reads its reply, by protocol. *)
From Verif Require Import GoBytes GoNum GoIO GoBufio Item ClientText ClientMeta ClientBinary GoWriter ReadProg Spec Call Guard.

(** The write steps of a call (GoWriter.v). *)
Definition writes_of (pr : proto) (h : req_header) (o : op) : list wstep :=
  match pr with PText => text_writes o | PMeta => meta_writes o | PBinary => bin_writes h o end.

(** The reply-reading code of a call (GoBufio program, ReadProg.v). *)
Definition reply_prog (pr : proto) (name : bytes) (fuel : nat) (o : op) : rprog result :=
  match pr with PText => p_text_resp fuel name o | PMeta => p_meta_resp fuel o | PBinary => p_bin_resp fuel o end.
