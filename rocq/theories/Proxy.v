(** * The proxy, proxy/replica_pool.go, as cmd/router/main.go runs it: a server whose handler passes
    requests on to a ReplicaPool of servers of the meta protocol. *)
From Verif Require Import GoBytes GoNum GoIO Item Ring Pool Replica ServerTypes ServerParse ServerWrite Serve.
Local Open Scope Z_scope.

(** proxy/replica_pool.go:48 *)
Definition proxy_unknown : err := EMsg (B "proxy: unknown opcode").

(** proxy/replica_pool.go:24-29, 40-45: a MemcachedError becomes a response, other errors end the connection. *)
Definition answer_error (e : err) : outcome (list sresponse) :=
  if is_memcached_error e then Ok [mkRes [] (Some e) None [] 0 0] else Err e.

(** The item built for the pool, proxy/replica_pool.go:32-38. *)
Definition proxy_item (q : srequest) (o : set_opt) : item :=
  mkItem (q_key q) (q_value q) (q_flags q) (s_exp o) (s_cas_value o) [].

Section Proxy.
Context {ST : Type}.
Variable step : ST -> op -> ST * outcome result.       (* one call on a backend *)
Variable pn sn : list node.                            (* the pool's rings *)

(** ServeRequest, proxy/replica_pool.go:20-50. The state is that of the backends. *)
Definition proxy : handler (world ST) := fun w q =>
  match q_opcode q with
  | OpcGet =>
      let wr := exec step (rp_prog pn sn (RGet (q_key q))) w in
      (fst wr, match snd wr with
               | Ok (RItem i) => Ok [mkRes (it_key i) None None (it_value i) 0 0]
               | Ok _ => Panic                         (* not a Get result: excluded by typing in Go *)
               | Err e => answer_error e
               | Panic => Panic
               end)
  | OpcSet =>
      match q_set q with
      | None => (w, Panic)                             (* req.SetOpt.Expiration on a nil pointer *)
      | Some o =>
          let wr := exec step (rp_prog pn sn (RSet (proxy_item q o))) w in
          (fst wr, match snd wr with
                   | Ok _ => Ok [empty_response]
                   | Err e => answer_error e
                   | Panic => Panic
                   end)
      end
  | _ => (w, Err proxy_unknown)
  end.
End Proxy.
