(** * What consistent hashing should do (specification, independent of the search in ring.go). *)
From Verif Require Import GoBytes GoNum Hash Ring.
Local Open Scope Z_scope.

(** The owner of a hash among a set of points: the greatest point at or below it, or the lowest
    point if there is none. *)
Definition owner (pts : list node) (h : Z) (n : node) : Prop :=
  In n pts
  /\ ((nd_hash n <= h /\ forall m, In m pts -> nd_hash m <= h -> nd_hash m <= nd_hash n)
      \/ ((forall m, In m pts -> h < nd_hash m) /\ forall m, In m pts -> nd_hash n <= nd_hash m)).

(** No two ring points coincide. *)
Definition distinct_points (servers : list server) : Prop := NoDup (map nd_hash (points servers)).

(** [key] does not hash exactly onto a ring point. *)
Definition off_points (servers : list server) (key : bytes) : Prop :=
  forall n, In n (points servers) -> nd_hash n <> crc32 key.
