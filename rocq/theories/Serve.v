(** * The connection loop, server/server.go:493-515. *)
From Verif Require Import GoBytes GoNum GoIO ServerTypes ServerParse ServerWrite.
Local Open Scope Z_scope.

(** A handler (server/server.go:398-400) with its own state. *)
Definition handler (H : Type) := H -> srequest -> H * outcome (list sresponse).

(** How a connection ended. *)
Inductive fate :=
| Closed (e : err)        (* the goroutine's loop ended and the connection was closed *)
| Crashed                 (* a panic: the whole process ends *)
| OutOfFuel.              (* never the case for serve_conn, see serve_fuel in PServe.v *)

(** What a connection did: for each request handed to the handler, the request and the bytes
    written in reply (an [Ok] reply may be empty). *)
Record served := mkServed { sd_req : srequest; sd_reply : bytes }.

Fixpoint serve {H} (h : handler H) (fuel : nat) (p : option protocol) (st : H) (s : bytes)
  : H * list served * fate :=
  match fuel with
  | O => (st, [], OutOfFuel)
  | S f =>
      match read_request p s with
      | ((Err e, _), _) => (st, [], Closed e)                                     (* 495-498 *)
      | ((Panic, _), _) => (st, [], Crashed)
      | ((Ok req, s'), p') =>
          match h st req with                                                     (* 509-512 *)
          | (st', Err e) => (st', [mkServed req []], Closed e)
          | (st', Panic) => (st', [mkServed req []], Crashed)
          | (st', Ok res) =>
              match p' with
              | None => (st', [mkServed req []], OutOfFuel)   (* unreachable: a request was read *)
              | Some pr =>
                  match write_response pr req res with                            (* 514 *)
                  | Err e => (st', [mkServed req []], Closed e)
                  | Panic => (st', [mkServed req []], Crashed)
                  | Ok out =>
                      let '(st'', l, ft) := serve h f p' st' s' in
                      (st'', mkServed req out :: l, ft)
                  end
              end
          end
      end
  end.

(** A whole connection: [s] is everything the client sends before it closes. *)
Definition serve_conn {H} (h : handler H) (st : H) (s : bytes) : H * list served * fate :=
  serve h (S (length s)) None st s.

Definition replies (l : list served) : bytes := flat_map sd_reply l.
