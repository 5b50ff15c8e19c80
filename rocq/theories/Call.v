(** * A client connected to the conforming memcached: the synchronous call.

    Models the common shape of all operations in client/server.go: write the request and Flush
    (e.g. 211-216), then read the reply (217-257), under the mutex and without time-out or
    connection failure. [l_unread] are reply bytes the client has not consumed (in its bufio.Reader
    or in flight), [l_pending] bytes the daemon has received that do not yet form a command. *)
From Verif Require Import GoBytes GoNum GoIO Item ClientText ClientMeta ClientBinary Cache Daemon Spec.
Local Open Scope Z_scope.

Record client := mkClient {
  cl_wire : wire;
  cl_req : req_header -> op -> request * req_header;
  cl_resp : op -> reader result
}.

Definition text_client (name : bytes) : client :=
  mkClient WireAscii (fun h o => (text_req o, h)) (text_resp name).
Definition meta_client : client := mkClient WireAscii (fun h o => (meta_req o, h)) meta_resp.
(** The request header comes from a sync.Pool; here one header object is reused by all calls, the
    case in which the pool always has it ready (client/server.go:1177-1182, 1223-1224). *)
Definition bin_client : client := mkClient WireBinary bin_req bin_resp.

Record link := mkLink {
  l_cache : cache;
  l_pending : bytes;
  l_unread : bytes;
  l_header : req_header
}.

Definition fresh_link (c : cache) (h : req_header) : link := mkLink c [] [] h.

Definition call (cl : client) (l : link) (o : op) : link * outcome result :=
  let rqh := cl_req cl (l_header l) o in
  match fst rqh with
  | Ok rq =>
      let '(c', reply, pending') := daemon (cl_wire cl) (l_cache l) (l_pending l ++ rq) in
      let ru := cl_resp cl o (l_unread l ++ reply) in
      (mkLink c' pending' (snd ru) (snd rqh), fst ru)
  | Err e => (mkLink (l_cache l) (l_pending l) (l_unread l) (snd rqh), Err e)
  | Panic => (mkLink (l_cache l) (l_pending l) (l_unread l) (snd rqh), Panic)
  end.

Definition link_tick (l : link) (d : Z) : link :=
  mkLink (tick (l_cache l) d) (l_pending l) (l_unread l) (l_header l).

Fixpoint run (cl : client) (l : link) (evs : list event) : link * list (outcome result) :=
  match evs with
  | [] => (l, [])
  | Wait d :: evs' => run cl (link_tick l d) evs'
  | Do o :: evs' =>
      let lr := call cl l o in
      let lrs := run cl (fst lr) evs' in (fst lrs, snd lr :: snd lrs)
  end.

(** Nothing outstanding in either direction. *)
Definition clean (l : link) : Prop := l_pending l = [] /\ l_unread l = [].
