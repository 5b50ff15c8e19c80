(** * SPECIFICATION: the calls for which each protocol's client is proved to be faithful.

    Every restriction here is a defect of the client shown by a [_refuted] theorem:
    - meta: Touch (sends md with I and T), Delete of an absent key (reports success), GetMulti with a
      miss (stops reading at the first EN);
    - binary: Set and Add when refused, Touch when refused or when the server sends flags back (the
      reply's body is not read), and counters after an item with a cas number (the pooled header is
      not reset). *)
From Verif Require Import GoBytes GoNum GoIO Item ClientText ClientMeta ClientBinary Cache Daemon Spec Call.
Local Open Scope Z_scope.

Definition meta_safe (c : cache) (o : op) : Prop :=
  match o with
  | OTouch _ _ => False
  | ODelete k => lookup c k <> None
  | OGetMulti ks => Forall (fun k => lookup c k <> None) ks
  | _ => True
  end.

(** [last] is the cas number the previous calls left in the pooled request header. *)
Definition bin_safe (last : Z) (c : cache) (o : op) : Prop :=
  match o with
  | OSet _ | OAdd _ => snd (spec_step PBinary [] c o) = SOk RUnit
  | OTouch _ _ => snd (spec_step PBinary [] c o) = SOk RUnit /\ cf_touch_extras (c_cfg c) = false
  | OIncr _ _ _ | ODecr _ _ _ => last = 0
  | _ => True
  end.

Definition safe (pr : proto) (last : Z) (c : cache) (o : op) : Prop :=
  match pr with PText => True | PMeta => meta_safe c o | PBinary => bin_safe last c o end.

(** The cas number the pooled header holds after a call. *)
Definition next_cas (last : Z) (o : op) : Z :=
  match o with
  | OSet i | OAdd i | OReplace i => it_cas i
  | OIncr _ _ _ | ODecr _ _ _ => last
  | _ => 0
  end.

(** A history all of whose calls are safe in the state the specification reaches before them. *)
Fixpoint safe_run (pr : proto) (name : bytes) (last : Z) (c : cache) (evs : list event) : Prop :=
  match evs with
  | [] => True
  | Wait d :: evs' => safe_run pr name last (tick c d) evs'
  | Do o :: evs' => safe pr last c o
                    /\ safe_run pr name (next_cas last o) (fst (spec_step pr name c o)) evs'
  end.

Definition client_of (pr : proto) (name : bytes) : client :=
  match pr with PText => text_client name | PMeta => meta_client | PBinary => bin_client end.
