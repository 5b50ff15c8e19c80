(** * A conversation: calls of this repository's client, one after the other, over one connection to this
    repository's server.

    The client side is the common shape of all operations in client/server.go: write the request and Flush
    (e.g. 211-216), then read the reply (217-257), under the mutex and without time-out. The server side is the
    loop of server/server.go:493-515 on the bytes received so far: where they do not hold a whole request it waits
    for more. Both sides keep what they have received and not yet used. *)
From Verif Require Import GoBytes GoNum GoIO Item ClientText ClientMeta ClientBinary Cache Daemon Spec Call Guard
  ServerTypes ServerParse ServerWrite Serve.
Local Open Scope Z_scope.

(** The loop, server/server.go:493-515, on the bytes [s] that have arrived: the handler's state, the protocol, the bytes
    it waits with, the bytes written and, when the loop has ended, how. A read that finds too few bytes ([EIO]) blocks;
    it starts again from the same bytes when more have come (the readers of ServerParse.v take the same decisions on the
    longer input: [local_parser] in PServe.v). *)
Fixpoint serve_live {H} (h : handler H) (fuel : nat) (p : option protocol) (st : H) (s : bytes)
  : H * option protocol * bytes * bytes * option fate :=
  match fuel with
  | O => (st, p, s, [], Some OutOfFuel)
  | S f =>
      match read_request p s with
      | ((Err EIO, _), _) => (st, p, s, [], None)                                 (* waiting for the client *)
      | ((Err e, s'), p') => (st, p', s', [], Some (Closed e))                    (* 495-498 *)
      | ((Panic, s'), p') => (st, p', s', [], Some Crashed)
      | ((Ok req, s'), p') =>
          match h st req with                                                     (* 509-512 *)
          | (st', Err e) => (st', p', s', [], Some (Closed e))
          | (st', Panic) => (st', p', s', [], Some Crashed)
          | (st', Ok res) =>
              match p' with
              | None => (st', p', s', [], Some OutOfFuel)     (* unreachable: a request was read *)
              | Some pr =>
                  match write_response pr req res with                            (* 514 *)
                  | Err e => (st', p', s', [], Some (Closed e))
                  | Panic => (st', p', s', [], Some Crashed)
                  | Ok out =>
                      let '(st'', p'', rest, o, ft) := serve_live h f p' st' s' in
                      (st'', p'', rest, out ++ o, ft)
                  end
              end
          end
      end
  end.

(** Both ends of the connection. *)
Record talk (H : Type) := mkTalk {
  tk_handler : H;                  (* the handler's state *)
  tk_proto : option protocol;      (* conn.proto, server/server.go:495 *)
  tk_left : bytes;                 (* at the server: not yet a whole request *)
  tk_over : option fate;           (* the server's loop has ended *)
  tk_unread : bytes;               (* at the client: not yet read *)
  tk_header : req_header           (* the binary client's request header, client/server.go:1177-1182 *)
}.
Arguments mkTalk {H}. Arguments tk_handler {H}. Arguments tk_proto {H}. Arguments tk_left {H}. Arguments tk_over {H}.
Arguments tk_unread {H}. Arguments tk_header {H}.

(** A new connection to a server whose handler is in state [st]. *)
Definition new_talk {H} (st : H) (hd : req_header) : talk H := mkTalk st None [] None [] hd.

(** One call. A request that cannot be built (client/server.go: Marshal) is not sent. *)
Definition talk_call {H} (cl : client) (h : handler H) (t : talk H) (o : op) : talk H * outcome result :=
  let rqh := cl_req cl (tk_header t) o in
  match fst rqh with
  | Ok rq =>
      let s := tk_left t ++ rq in
      let '(st', p', rest, out, over) :=
        match tk_over t with
        | Some _ => (tk_handler t, tk_proto t, s, [], tk_over t)
        | None => serve_live h (S (length s)) (tk_proto t) (tk_handler t) s
        end in
      let ru := cl_resp cl o (tk_unread t ++ out) in
      (mkTalk st' p' rest over (snd ru) (snd rqh), fst ru)
  | Err e => (mkTalk (tk_handler t) (tk_proto t) (tk_left t) (tk_over t) (tk_unread t) (snd rqh), Err e)
  | Panic => (mkTalk (tk_handler t) (tk_proto t) (tk_left t) (tk_over t) (tk_unread t) (snd rqh), Panic)
  end.

(** A history of calls and of time, which changes the handler's state by [pass]. *)
Fixpoint talk_run {H} (cl : client) (h : handler H) (pass : H -> Z -> H) (t : talk H) (evs : list event) : talk H * list (outcome result) :=
  match evs with
  | [] => (t, [])
  | Wait d :: evs' =>
      talk_run cl h pass (mkTalk (pass (tk_handler t) d) (tk_proto t) (tk_left t) (tk_over t) (tk_unread t) (tk_header t)) evs'
  | Do o :: evs' =>
      let tr := talk_call cl h t o in
      let trs := talk_run cl h pass (fst tr) evs' in (fst trs, snd tr :: snd trs)
  end.

(** Nothing outstanding in either direction. *)
Definition settled {H} (t : talk H) : Prop := tk_left t = [] /\ tk_over t = None /\ tk_unread t = [].
