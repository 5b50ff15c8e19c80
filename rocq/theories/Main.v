(** * The router's process: cmd/router/main.go, and what ends Serve, server/server.go:466-491. *)
From Verif Require Import GoBytes GoNum GoIO Item Ring Pool Replica ServerTypes ServerParse ServerWrite Serve ServerConc Proxy RouterConc.
Local Open Scope Z_scope.

(** ** Configuration, cmd/router/main.go:18-27. Reading the flags and the yaml file is not modelled. *)
Record backend := mkBackend { bk_name : bytes; bk_host : bytes; bk_port : Z }.
Record config := mkConf { cf_primary : list backend; cf_secondary : list backend }.

(** fmt.Sprintf("%s:%d", Host, Port), cmd/router/main.go:32. *)
Definition COLON : ascii := ":"%char.
Definition OPEN : ascii := "["%char.
Definition CLOSE : ascii := "]"%char.
Definition address (b : backend) : bytes := bk_host b ++ COLON :: dec (bk_port b).

(** ** net.SplitHostPort and the port of a dialled address (Go's net package, called by Dialer.DialContext,
    client/server.go:650-651). *)
Definition has (c : ascii) (s : bytes) : bool := existsb (Ascii.eqb c) s.
Fixpoint split_last (c : ascii) (s : bytes) : option (bytes * bytes) :=
  match s with
  | [] => None
  | x :: s' => match split_last c s' with
               | Some (a, b) => Some (x :: a, b)
               | None => if Ascii.eqb x c then Some ([], s') else None
               end
  end.
Fixpoint split_first (c : ascii) (s : bytes) : option (bytes * bytes) :=
  match s with
  | [] => None
  | x :: s' => if Ascii.eqb x c then Some ([], s')
               else match split_first c s' with Some (a, b) => Some (x :: a, b) | None => None end
  end.
Definition split_host_port (s : bytes) : option (bytes * bytes) :=
  match split_last COLON s with
  | None => None                                                   (* missing port *)
  | Some (before, port) =>
      match s with
      | [] => None
      | x :: t =>
          if Ascii.eqb x OPEN then
            match split_first CLOSE t with
            | None => None                                         (* missing ']' *)
            | Some (host, rest) =>
                if beq rest (COLON :: port)                        (* the first ']' is just before the last ':' *)
                then if has OPEN t || has CLOSE rest then None else Some (host, port)
                else None
            end
          else if has COLON before then None                       (* too many colons *)
          else if has OPEN s || has CLOSE s then None
          else Some (before, port)
      end
  end.
(** Resolver.LookupPort of a number; names of services do not occur here. *)
Definition port_number (s : bytes) : option Z :=
  match parse_int 64 s with
  | Some n => if (0 <=? n) && (n <=? 65535) then Some n else None
  | None => None
  end.

(** ** Start-up *)
Definition endpoint := (bytes * Z)%type.
(** A connected client object: its name and address, client/server.go:661-668. *)
Definition object := (bytes * bytes)%type.
Section Boot.
(** The network: does this connection attempt, made after those, succeed? *)
Variable reach : list endpoint -> endpoint -> bool.
(** Dialer.DialContext; the attempts made so far go along. *)
Definition dial (made : list endpoint) (addr : bytes) : list endpoint * bool :=
  match split_host_port addr with
  | None => (made, false)
  | Some (h, p) => match port_number p with
                   | None => (made, false)
                   | Some n => (made ++ [(h, n)], reach made (h, n))
                   end
  end.
(** connectServers, cmd/router/main.go:29-40; [None]: panic(err), line 34. *)
Fixpoint connect_servers (made : list endpoint) (bs : list backend) : list endpoint * option (list object) :=
  match bs with
  | [] => (made, Some [])
  | b :: bs' =>
      let '(made', ok) := dial made (address b) in
      if ok then let '(made'', r) := connect_servers made' bs' in
                 (made'', match r with Some l => Some ((bk_name b, address b) :: l) | None => None end)
      else (made', None)
  end.
Inductive booted :=
| Died (made : list endpoint)                                (* a panic, or log.Fatal *)
| Up (made : list endpoint) (primary secondary : list object).
(** main, cmd/router/main.go:42-64: the arguments of NewReplicaPool are evaluated from left to right (56);
    [listens]: net.Listen on :8090 succeeds, server/server.go:467-470. *)
Definition boot (listens : bool) (c : config) : booted :=
  let '(m1, r1) := connect_servers [] (cf_primary c) in
  match r1 with
  | None => Died m1
  | Some ps => let '(m2, r2) := connect_servers m1 (cf_secondary c) in
               match r2 with
               | None => Died m2
               | Some ss => if listens then Up m2 ps ss else Died m2
               end
  end.
End Boot.

(** ** The process from then on. The rings are made of the objects' names (client/ring.go:25-50). *)
Fixpoint numbered (n : nat) (l : list object) : list server :=
  match l with [] => [] | o :: l' => mkServer n (fst o) :: numbered (S n) l' end.
Inductive process (ST : Type) := Runs (v : router_state ST) | Exited.
Arguments Runs {ST}. Arguments Exited {ST}.
Section Process.
Context {ST : Type}.
Variable step : ST -> op -> ST * outcome result.
Variable later : ST -> Z -> ST.
Variable pn sn : list node.
(** Serve returned (server/server.go:479-481): log.Fatal ends the process, cmd/router/main.go:63; other goroutines may
    still take steps before. A panic in any goroutine ends it too. *)
Inductive pstep : process ST -> process ST -> Prop :=
| P_run : forall v v', rtstep step later pn sn v v' -> pstep (Runs v) (Runs v')
| P_fatal : forall v, rt_listening v = false -> pstep (Runs v) Exited
| P_panic : forall v, rt_down v = true -> pstep (Runs v) Exited.
Inductive psteps : process ST -> process ST -> Prop :=
| p_refl : forall x, psteps x x
| p_step : forall x y z, psteps x y -> pstep y z -> psteps x z.
End Process.

(** ** A limit on open connections (the process's file descriptors): Accept fails when it is reached. *)
Definition is_open (x : sconn) : bool :=
  match sc_phase x with Offered | Over _ | Lost => false | _ => true end.
Definition open_conns {ST} (clients : nat) (v : router_state ST) : nat :=
  length (filter (fun i => is_open (rt_conns v i)) (seq 0 clients)).
(** A step that the operating system allows: Accept succeeds below the limit and fails at it. *)
Definition allowed {ST} (limit clients : nat) (v v' : router_state ST) : Prop :=
  (forall i, sc_phase (rt_conns v i) = Offered -> sc_phase (rt_conns v' i) <> Offered -> (open_conns clients v < limit)%nat)
  /\ (rt_listening v = true -> rt_listening v' = false -> (limit <= open_conns clients v)%nat).
