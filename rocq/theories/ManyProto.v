(** * Many clients of one memcached that speak different protocols, with connections lost at any moment.

    ManyConc.v with a protocol for each server object (client/server.go:134-160, 649-675, 1154-1186: the
    three NewServerWith... constructors): [nsteps (speaking pr name)]. The daemon is one: memcached tells the
    protocol of a connection from what comes first on it. Here the calls that may be made, and the
    specification in terms of Exact.v. *)
From Verif Require Import GoBytes GoNum GoIO Item ClientText ClientMeta ClientBinary Cache Daemon Spec Call Guard Exact Conc TimeConc ManyConc.
Local Open Scope Z_scope.

Definition speaking (pr : nat -> proto) (name : nat -> bytes) (i : nat) : client := client_of (pr i) (name i).
(** Flags and expirations that all protocols can express. *)
Definition common (o : op) : Prop :=
  match o with
  | OSet i | OAdd i | OReplace i => legal_flags PMeta i /\ legal_exp PMeta (it_exp i)
  | OIncr _ d e | ODecr _ d e => 0 <= d /\ legal_exp PMeta e
  | OTouch _ e => legal_exp PMeta e
  | _ => True
  end.
(** Calls that put one command on the wire and read its reply to the end, whatever the daemon answers: with
    the text client all; with the meta client all but GetMulti; with the binary client also not Add, Touch,
    a Set that is refused, and a cas number in the item (client/server.go:1360-1382, 1411-1434, 1645-1663: the
    body of such a reply is left unread). *)
Definition whole (pr : proto) (c : cache) (o : op) : Prop :=
  legal pr o /\ one_command pr o /\
  (pr = PBinary -> match o with OAdd _ | OTouch _ _ => False | OSet i => it_cas i = 0 /\ too_large c (it_value i) = false | OReplace i => it_cas i = 0 | _ => True end).

(** ** Specification: the log with the moments at which the calls, each of a server object, take effect. *)
Inductive moment := Saw (e : nevent) | Took (n i : nat) (o : op) (r : outcome result).
Definition saw_only (M : list moment) : list nevent := flat_map (fun m => match m with Saw e => [e] | Took _ _ _ _ => [] end) M.
(** A call takes effect at most once and not before it begins; a call that returns something else than an io
    error has taken effect before it returns, and returns what it was to return then. *)
Definition moments_of (L : list nevent) (M : list moment) : Prop :=
  saw_only M = L
  /\ (forall M1 n i o r M2, M = M1 ++ Took n i o r :: M2 -> (exists t, In (Saw (NBegin n t i o)) M1) /\ forall i' o' r', ~ In (Took n i' o' r') M1)
  /\ (forall M1 n r M2, M = M1 ++ Saw (NEnd n r) :: M2 -> r = Err EIO \/ exists i o, In (Took n i o r) M1).
(** What the daemon makes of the effects, each in its protocol, and of the time that passes. *)
Fixpoint exact_moments (pr : nat -> proto) (name : nat -> bytes) (c : cache) (M : list moment) : cache * list sres :=
  match M with
  | [] => (c, [])
  | Took n i o r :: M' =>
      let cr := exact_step (pr i) (name i) 0 c o in
      let crs := exact_moments pr name (fst cr) M' in (fst crs, snd cr :: snd crs)
  | Saw (NTime d) :: M' => exact_moments pr name (tick c d) M'
  | Saw _ :: M' => exact_moments pr name c M'
  end.
Definition results (M : list moment) : list (outcome result) := flat_map (fun m => match m with Took _ _ _ r => [r] | Saw _ => [] end) M.
(** The same by the specification that does not know the clients (Spec.v). *)
Fixpoint plain_moments (pr : nat -> proto) (name : nat -> bytes) (c : cache) (M : list moment) : cache * list sres :=
  match M with
  | [] => (c, [])
  | Took n i o r :: M' =>
      let cr := spec_step (pr i) (name i) c o in
      let crs := plain_moments pr name (fst cr) M' in (fst crs, snd cr :: snd crs)
  | Saw (NTime d) :: M' => plain_moments pr name (tick c d) M'
  | Saw _ :: M' => plain_moments pr name c M'
  end.
