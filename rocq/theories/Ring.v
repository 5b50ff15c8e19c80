(** * Consistent hashing, client/ring.go. *)
From Coq Require Export Permutation Sorted.
From Verif Require Import GoBytes GoNum GoIO Hash.
Local Open Scope Z_scope.

(** A Server value: its identity (which connection object) and its Name(). Two servers may carry
    the same name. *)
Record server := mkServer { sv_id : nat; sv_name : bytes }.

(** client/ring.go:15-18 *)
Record node := mkNode { nd_server : server; nd_hash : Z }.

(** client/ring.go:11-13 numberOfDivideServer *)
Definition divide : nat := 200.

(** client/ring.go:27-34: the points of one server. strconv.Itoa is [dec]. *)
Definition points_of (s : server) : list node :=
  map (fun i => mkNode s (sha1_32 (sv_name s ++ B "/" ++ dec (Z.of_nat i)))) (seq 0 divide).
Definition points (servers : list server) : list node := flat_map points_of servers.

Definition node_le (a b : node) : Prop := nd_hash a <= nd_hash b.

(** NewRing, client/ring.go:25-50. sort.Slice (lines 37-39) is unstable: the only thing known of
    [nodes] is that it is a permutation of the points in which no element is less than its
    predecessor. *)
Definition NewRing (servers : list server) (nodes : list node) : Prop :=
  Permutation nodes (points servers) /\ Sorted node_le nodes.

(** One possible outcome of the sort, used to run the model. *)
Fixpoint insert_node (n : node) (l : list node) : list node :=
  match l with
  | [] => [n]
  | m :: l' => if nd_hash n <=? nd_hash m then n :: l else m :: insert_node n l'
  end.
Definition sort_nodes (l : list node) : list node := fold_right insert_node [] l.
Definition new_ring (servers : list server) : list node := sort_nodes (points servers).

(** The search loop of Pick, client/ring.go:55-70. The result is the value of [upper] when the loop
    is left, by its condition or by [break Search] on an exact hit. *)
Fixpoint search (fuel : nat) (nodes : list node) (h lower upper : Z) : option (outcome Z) :=
  match fuel with
  | O => None
  | S f =>
      if lower <=? upper then
        let idx := (lower + upper) / 2 in
        if idx <? 0 then Some Panic
        else match nth_error nodes (Z.to_nat idx) with
             | None => Some Panic
             | Some n =>
                 let t := nd_hash n in
                 if t =? h then Some (Ok upper)
                 else if h <? t then search f nodes h lower (idx - 1)
                 else search f nodes h (idx + 1) upper
             end
      else Some (Ok upper)
  end.

(** Pick, client/ring.go:52-76, on a key hash. The range shrinks every round, so the fuel is never
    exhausted (pick_total in PRing.v); the out-of-fuel case is reported as Panic. *)
Definition pick_hash (nodes : list node) (h : Z) : outcome server :=
  match search (S (length nodes)) nodes h 0 (zlen nodes - 1) with
  | Some (Ok upper) =>
      let upper := if upper <? 0 then 0 else upper in
      match nth_error nodes (Z.to_nat upper) with
      | Some n => Ok (nd_server n)
      | None => Panic
      end
  | Some (Err e) => Err e
  | Some Panic => Panic
  | None => Panic
  end.

Definition pick (nodes : list node) (key : bytes) : outcome server := pick_hash nodes (crc32 key).

(** The servers map, client/ring.go:41-44: for every name the last server carrying it. *)
Definition find_server (servers : list server) (name : bytes) : option server :=
  find (fun s => beq (sv_name s) name) (rev servers).

(** The entries of that map, each once; ranging over the map visits them in some order. *)
Fixpoint map_entries (servers : list server) : list server :=
  match servers with
  | [] => []
  | s :: rest => if existsb (fun t => beq (sv_name t) (sv_name s)) rest then map_entries rest
                 else s :: map_entries rest
  end.
