(** * C75: where keys go that hash exactly onto a ring point, and rings with coinciding points. *)
From Verif Require Import GoBytes GoNum GoIO Hash Ring RingSpec RingData CollisionData PLib PRing PropRing.
Local Open Scope Z_scope.

(** SPECIFICATION. Halving the positions [lo..up] (at [(lo+up)/2], left part, right part) until the middle is
    [i]: the last position of the part in which [i] is the middle. Nothing of it depends on hashes. *)
Fixpoint part_end (fuel : nat) (lo up i : Z) : Z :=
  match fuel with
  | O => up
  | S f => let m := (lo + up) / 2 in
           if i =? m then up else if i <? m then part_end f lo (m - 1) i else part_end f (m + 1) up i
  end.
(** For position [i] of [n]. *)
Definition landing (n i : Z) : Z := part_end (Z.to_nat n) 0 (n - 1) i.

Lemma half : forall lo up, lo <= up -> lo <= (lo + up) / 2 <= up.
Proof. intros lo up L. split; [apply Z.div_le_lower_bound; lia|apply Z.div_le_upper_bound; lia]. Qed.
Lemma part_end_range : forall fuel lo up i, lo <= i <= up -> up - lo < Z.of_nat fuel -> i <= part_end fuel lo up i <= up.
Proof.
  induction fuel as [|f IH]; intros lo up i R F; [lia|]. cbn [part_end]. pose proof (half lo up ltac:(lia)) as H.
  destruct (Z.eqb_spec i ((lo + up) / 2)); [lia|]. destruct (Z.ltb_spec i ((lo + up) / 2)).
  - specialize (IH lo ((lo + up) / 2 - 1) i ltac:(lia) ltac:(lia)). lia.
  - specialize (IH ((lo + up) / 2 + 1) up i ltac:(lia) ltac:(lia)). lia.
Qed.
Lemma search_hit : forall nodes i n, NoDup (map nd_hash nodes) -> Sorted node_le nodes -> nth_error nodes i = Some n ->
  forall fuel lo up, 0 <= lo -> lo <= Z.of_nat i <= up -> up < zlen nodes -> up - lo < Z.of_nat fuel ->
  search (S fuel) nodes (nd_hash n) lo up = Some (Ok (part_end fuel lo up (Z.of_nat i))).
Proof.
  intros nodes i n ND So N. assert (St : forall j m, nth_error nodes j = Some m -> (nd_hash m = nd_hash n -> j = i)).
  { intros j m Hj Q. rewrite NoDup_nth_error in ND. apply ND; [rewrite map_length; apply nth_error_Some; congruence|]. rewrite !nth_error_map, Hj, N. cbn. congruence. }
  induction fuel as [|f IH]; intros lo up L R U F; [lia|].
  pose proof (half lo up ltac:(lia)) as H. cbn [part_end]. set (s := search (S f)) in *. change (search (S (S f)) nodes (nd_hash n) lo up) with
    (if lo <=? up then let idx := (lo + up) / 2 in if idx <? 0 then Some Panic else match nth_error nodes (Z.to_nat idx) with None => Some Panic | Some m =>
       if nd_hash m =? nd_hash n then Some (Ok up) else if nd_hash n <? nd_hash m then s nodes (nd_hash n) lo (idx - 1) else s nodes (nd_hash n) (idx + 1) up end else Some (Ok up)).
  cbv zeta. set (x := (lo + up) / 2) in *. destruct (Z.leb_spec lo up); [|lia]. destruct (Z.ltb_spec x 0); [lia|].
  destruct (nth_error nodes (Z.to_nat x)) as [m|] eqn:M; [|apply nth_error_None in M; unfold zlen in U; lia].
  destruct (Z.eqb_spec (nd_hash m) (nd_hash n)) as [Q|Q].
  - apply St in M; [|exact Q]. destruct (Z.eqb_spec (Z.of_nat i) x); [reflexivity|lia].
  - destruct (Z.eqb_spec (Z.of_nat i) x) as [E|E]; [exfalso; apply Q; subst x; rewrite <- E, Nat2Z.id in M; congruence|].
    destruct (Z.ltb_spec (nd_hash n) (nd_hash m)) as [Lt|Ge]; destruct (Z.ltb_spec (Z.of_nat i) x) as [Li|Gi].
    + apply IH; lia.
    + exfalso. pose proof (sorted_nth nodes So (Z.to_nat x) i m n ltac:(lia) M N). lia.
    + exfalso. pose proof (sorted_nth nodes So i (Z.to_nat x) n m ltac:(lia) N M). lia.
    + apply IH; lia.
Qed.

(** A key hashing exactly onto the point at position [i] of the [n] sorted points is routed to the server of
    the point at position [landing n i]. *)
Theorem C75_exact_hits : forall servers nodes key i p,
  NewRing servers nodes -> distinct_points servers -> nth_error nodes i = Some p -> nd_hash p = crc32 key ->
  exists q, nth_error nodes (Z.to_nat (landing (zlen nodes) (Z.of_nat i))) = Some q /\ pick nodes key = Ok (nd_server q)
    /\ Z.of_nat i <= landing (zlen nodes) (Z.of_nat i) < zlen nodes.
Proof.
  intros servers nodes key i p [P So] D N H. assert (ND : NoDup (map nd_hash nodes)) by (eapply Permutation_NoDup; [apply Permutation_map, Permutation_sym; exact P|exact D]).
  assert (Li : (i < length nodes)%nat) by (apply nth_error_Some; congruence).
  assert (R : Z.of_nat i <= landing (zlen nodes) (Z.of_nat i) <= zlen nodes - 1) by (apply part_end_range; unfold zlen; lia).
  destruct (nth_error nodes (Z.to_nat (landing (zlen nodes) (Z.of_nat i)))) as [q|] eqn:Q; [|apply nth_error_None in Q; unfold zlen in *; lia].
  exists q. split; [reflexivity|]. split; [|lia]. unfold pick, pick_hash. rewrite <- H.
  assert (E : search (S (length nodes)) nodes (nd_hash p) 0 (zlen nodes - 1) = Some (Ok (landing (zlen nodes) (Z.of_nat i)))).
  { unfold landing. replace (Z.to_nat (zlen nodes)) with (length nodes) by (unfold zlen; lia). apply search_hit; auto; unfold zlen; lia. }
  rewrite E. destruct (Z.ltb_spec (landing (zlen nodes) (Z.of_nat i)) 0); [lia|]. rewrite Q. reflexivity.
Qed.
Print Assumptions C75_exact_hits.

(** So it is routed to the point it hit, which is the owner, exactly if no later position is in the part:
    the middle point goes to the last one, and the points at the end of their part are routed as they should be. *)
Theorem C75_exact_hits_reach_the_owner_iff : forall servers nodes key i p,
  NewRing servers nodes -> distinct_points servers -> nth_error nodes i = Some p -> nd_hash p = crc32 key ->
  owner (points servers) (crc32 key) p
  /\ (landing (zlen nodes) (Z.of_nat i) = Z.of_nat i -> pick nodes key = Ok (nd_server p))
  /\ (forall q, nth_error nodes (Z.to_nat (landing (zlen nodes) (Z.of_nat i))) = Some q -> (pick nodes key = Ok (nd_server p) <-> nd_server q = nd_server p)).
Proof.
  intros servers nodes key i p R D N H. split.
  - split; [eapply Permutation_in; [apply (proj1 R)|]; eapply nth_error_In; exact N|]. left. rewrite <- H. split; [lia|]. auto.
  - destruct (C75_exact_hits servers nodes key i p R D N H) as (q & Q & Pk & _). split.
    + intro E. rewrite E, Nat2Z.id in Q. congruence.
    + intros q' Q'. rewrite Q in Q'. injection Q' as <-. rewrite Pk. split; [intro E; injection E; auto|intros ->; reflexivity].
Qed.
Print Assumptions C75_exact_hits_reach_the_owner_iff.

Theorem C75_the_middle_point_goes_to_the_last : forall servers nodes key i p q,
  NewRing servers nodes -> distinct_points servers -> nth_error nodes i = Some p -> nd_hash p = crc32 key ->
  i = ((length nodes - 1) / 2)%nat -> nth_error nodes (length nodes - 1) = Some q -> pick nodes key = Ok (nd_server q).
Proof.
  intros servers nodes key i p q R D N H Ei Q. assert (Li : (i < length nodes)%nat) by (apply nth_error_Some; congruence).
  destruct (C75_exact_hits servers nodes key i p R D N H) as (q' & Q' & Pk & _).
  assert (E : landing (zlen nodes) (Z.of_nat i) = zlen nodes - 1).
  { unfold landing. destruct (Z.to_nat (zlen nodes)) as [|f] eqn:F; [unfold zlen in F; lia|]. cbn [part_end].
    assert (X : Z.of_nat i = (0 + (zlen nodes - 1)) / 2) by (rewrite Ei, Nat2Z.inj_div; unfold zlen; f_equal; lia). rewrite <- X, Z.eqb_refl. reflexivity. }
  rewrite E in Q'. unfold zlen in Q'. replace (Z.to_nat (Z.of_nat (length nodes) - 1)) with (length nodes - 1)%nat in Q' by lia. congruence.
Qed.
Print Assumptions C75_the_middle_point_goes_to_the_last.

(** Every key, on any ring, coinciding points or not: the server is that of an owner, or of a point above
    the one that was hit (or coinciding with it). *)
Theorem C75_every_key : forall servers nodes key,
  servers <> [] -> NewRing servers nodes ->
  exists n, In n (points servers) /\ pick nodes key = Ok (nd_server n)
    /\ (owner (points servers) (crc32 key) n \/ (~ off_points servers key /\ crc32 key <= nd_hash n)).
Proof.
  intros servers nodes key N R. assert (NN := ring_nonempty _ _ R N). pose proof R as [P So].
  destruct (existsb (fun m => nd_hash m =? crc32 key) (points servers)) eqn:Ex.
  - destruct (pick_hash_spec nodes (crc32 key) So NN) as (u & n & E & Q & Ru & D). exists n.
    split; [eapply Permutation_in; [exact P|]; eapply nth_error_In; exact Q|]. split; [exact E|]. right.
    destruct D as [[B A]|[_ (i & m & Hi & Hm & L)]].
    + exfalso. apply existsb_exists in Ex. destruct Ex as (m & Im & Hm). apply Z.eqb_eq in Hm. eapply Permutation_in in Im; [|apply Permutation_sym; exact P].
      apply In_nth_error in Im. destruct Im as [j Hj]. destruct (Z_lt_ge_dec u (Z.of_nat j)) as [Lt|Ge]; [specialize (A j m Hj Lt)|specialize (B j m Hj ltac:(lia))]; lia.
    + split; [intro X; apply (X m); [eapply Permutation_in; [exact P|]; eapply nth_error_In; exact Hi|exact Hm]|].
      rewrite <- Hm. eapply sorted_nth with (i := i); [exact So| |exact Hi|exact Q]. lia.
  - destruct (C02_ownership_partial servers nodes key N R) as (n & E & O).
    + intros m Im Hm. assert (X : existsb (fun m => nd_hash m =? crc32 key) (points servers) = true) by (apply existsb_exists; exists m; split; [exact Im|apply Z.eqb_eq; exact Hm]). congruence.
    + exists n. split; [apply O|]. auto.
Qed.
Print Assumptions C75_every_key.

(** ** Coinciding points *)

(** The server named [x] is the only one with a point that owns the key. *)
Definition sole_owner (servers : list server) (key x : bytes) : Prop :=
  off_points servers key /\ forall n, owner (points servers) (crc32 key) n -> sv_name (nd_server n) = x.
Lemma strip_owner : forall servers h n, owner (points servers) h n -> owner (map strip (points servers)) h (strip n).
Proof.
  intros servers h n (I & D). split; [apply in_map; exact I|]. destruct D as [(D1 & D2)|(D1 & D2)]; [left|right]; (split; [|]); try exact D1;
    intros m Im; apply in_map_iff in Im; destruct Im as (m' & <- & Im'); cbn [strip nd_hash]; auto.
Qed.
Lemma unstrip_owner : forall servers h n, owner (map strip (points servers)) h n -> exists n', strip n' = n /\ owner (points servers) h n'.
Proof.
  intros servers h n (I & D). apply in_map_iff in I. destruct I as (n' & <- & I'). exists n'. split; [reflexivity|]. split; [exact I'|].
  destruct D as [(D1 & D2)|(D1 & D2)]; [left|right]; (split; [|]); try exact D1; intros m Im; try intro Hm; try apply (D2 (strip m)); try apply (D1 (strip m)); try (apply in_map; exact Im); exact Hm.
Qed.
Lemma names_owner : forall a b h, Permutation (map sv_name a) (map sv_name b) -> forall n, owner (points a) h n ->
  exists m, owner (points b) h m /\ sv_name (nd_server m) = sv_name (nd_server n).
Proof.
  intros a b h P n O. apply strip_owner in O. rewrite points_strip in O.
  assert (O2 : owner (points (map (fun n => mkServer 0 n) (map sv_name b))) h (strip n)) by (eapply owner_perm; [|exact O]; apply points_perm, Permutation_map; exact P).
  rewrite <- points_strip in O2. apply unstrip_owner in O2. destruct O2 as (m & E & O2). exists m. split; [exact O2|]. unfold strip in E. injection E as E _. exact E.
Qed.
Lemma names_off : forall a b key, Permutation (map sv_name a) (map sv_name b) -> off_points a key -> off_points b key.
Proof.
  intros a b key P X n I. apply (in_map strip) in I. rewrite points_strip in I.
  eapply Permutation_in in I; [|apply points_perm, Permutation_map, Permutation_sym; exact P]. rewrite <- points_strip in I.
  apply in_map_iff in I. destruct I as (m & E & I). specialize (X m I). unfold strip in E. injection E as _ E. congruence.
Qed.
(** C03 key by key, without any assumption on the other points: processes that list the servers in different
    orders agree on every key with a sole owner, whatever the unstable sort does. *)
Theorem C75_order_does_not_matter_for_keys_with_a_sole_owner : forall a b na nb key x,
  a <> [] -> Permutation (map sv_name a) (map sv_name b) -> sole_owner a key x -> NewRing a na -> NewRing b nb ->
  exists sa sb, pick na key = Ok sa /\ pick nb key = Ok sb /\ sv_name sa = x /\ sv_name sb = x.
Proof.
  intros a b na nb key x N P [X U] Ra Rb. assert (Nb : b <> []) by (intros ->; apply Permutation_sym, Permutation_nil in P; destruct a; [congruence|discriminate]).
  destruct (C02_ownership_partial a na key N Ra X) as (n & E & O). destruct (C02_ownership_partial b nb key Nb Rb (names_off _ _ _ P X)) as (m & E' & O').
  exists (nd_server n), (nd_server m). split; [exact E|]. split; [exact E'|]. split; [apply U; exact O|].
  destruct (names_owner b a _ (Permutation_sym P) m O') as (m' & Om & Em). rewrite <- Em. apply U. exact Om.
Qed.
Print Assumptions C75_order_does_not_matter_for_keys_with_a_sole_owner.

(** C04 the same way: removing a server does not move a key that another server owns alone. *)
Theorem C75_removal_keeps_keys_with_a_sole_owner : forall s rest all nodes nodes' key x,
  Permutation all (s :: rest) -> sole_owner all key x -> x <> sv_name s -> NewRing all nodes -> NewRing rest nodes' ->
  exists sv sv', pick nodes key = Ok sv /\ pick nodes' key = Ok sv' /\ sv_name sv = x /\ sv_name sv' = x.
Proof.
  intros s rest all nodes nodes' key x P [X U] Nx R R'. assert (Na : all <> []) by (intros ->; apply Permutation_nil in P; discriminate).
  destruct (C02_ownership_partial all nodes key Na R X) as (n & E & O). pose proof (U n O) as Un.
  assert (On : owner (points rest) (crc32 key) n).
  { apply owner_remove with (s := s); [intro Q; apply Nx; rewrite <- Un, Q; reflexivity|]. eapply owner_perm; [|exact O]. apply points_perm. exact P. }
  assert (Nr : rest <> []) by (intros ->; destruct On as [[] _]).
  assert (Xr : off_points rest key).
  { intros m Im. apply X. eapply Permutation_in; [apply points_perm, Permutation_sym; exact P|]. cbn [points flat_map]. apply in_or_app. right. exact Im. }
  destruct (C02_ownership_partial rest nodes' key Nr R' Xr) as (m & E' & O').
  exists (nd_server n), (nd_server m). split; [exact E|]. split; [exact E'|]. split; [exact Un|].
  (* m has the same hash as n, so it owns the key among all points as well *)
  apply U. assert (Im : In m (points all)).
  { eapply Permutation_in; [apply points_perm, Permutation_sym; exact P|]. cbn [points flat_map]. apply in_or_app. right. apply O'. }
  assert (Eh : nd_hash m = nd_hash n).
  { destruct On as (I1 & D1). destruct O' as (I2 & D2). destruct D1 as [(A1 & A2)|(A1 & A2)]; destruct D2 as [(B1 & B2)|(B1 & B2)].
    - specialize (A2 m I2 B1). specialize (B2 n I1 A1). lia.
    - specialize (B1 n I1). lia.
    - specialize (A1 m I2). lia.
    - specialize (A2 m I2). specialize (B2 n I1). lia. }
  destruct O as (I & D). split; [exact Im|]. rewrite Eh. exact D.
Qed.
Print Assumptions C75_removal_keeps_keys_with_a_sole_owner.

(** Desired: C03 without the assumption that no points coincide. It fails for two servers named ml and rc,
    whose points 139 and 145 coincide: the sort may leave these two in either order, and the key "59" goes to
    whichever comes last. *)
Definition C75_order_never_matters : Prop := forall a b na nb key,
  a <> [] -> NoDup (map sv_name a) -> Permutation (map sv_name a) (map sv_name b) -> NewRing a na -> NewRing b nb ->
  exists sa sb, pick na key = Ok sa /\ pick nb key = Ok sb /\ sv_name sa = sv_name sb.
Theorem C75_order_never_matters_refuted : ~ C75_order_never_matters.
Proof.
  intro H. destruct (H [sv_ml; sv_rc] [sv_rc; sv_ml] (new_ring [sv_ml; sv_rc]) (new_ring [sv_rc; sv_ml]) (B "59")) as (x & y & X & Y & E).
  - discriminate.
  - repeat constructor; cbn; intuition discriminate.
  - apply perm_swap.
  - apply new_ring_ok.
  - apply new_ring_ok.
  - rewrite ring_ml_rc in X. rewrite ring_rc_ml in Y.
    assert (X' : pick (sort_nodes (pts_ml ++ pts_rc)) (B "59") = Ok sv_rc) by (vm_compute; reflexivity).
    assert (Y' : pick (sort_nodes (pts_rc ++ pts_ml)) (B "59") = Ok sv_ml) by (vm_compute; reflexivity).
    rewrite X' in X. rewrite Y' in Y. clear -X Y E. injection X as <-. injection Y as <-. discriminate E.
Qed.
Print Assumptions C75_order_never_matters_refuted.

(** Met: the key of C02's refutation is such a hit, at a position that is not the end of its part; and "foo"
    has a sole owner. *)
Definition sole_b (servers : list server) (key x : bytes) : bool :=
  off_b servers key && match new_ring servers with [] => false | n0 :: _ => 
    let lower := filter (fun m => nd_hash m <=? crc32 key) (points servers) in
    negb (match lower with [] => true | _ => false end)
    && forallb (fun n => beq (sv_name (nd_server n)) x || existsb (fun m => nd_hash n <? nd_hash m) lower) lower end.
Lemma sole_b_ok : forall servers key x, sole_b servers key x = true -> sole_owner servers key x.
Proof.
  intros servers key x H. unfold sole_b in H. apply andb_prop in H. destruct H as [H1 H2]. split; [apply off_b_ok; exact H1|].
  intros n (I & D). destruct (new_ring servers) as [|n0 r]; [discriminate H2|]. apply andb_prop in H2. destruct H2 as [H2 H3].
  assert (Ne : exists m, In m (points servers) /\ nd_hash m <= crc32 key).
  { destruct (filter (fun m => nd_hash m <=? crc32 key) (points servers)) as [|m l] eqn:F; [discriminate H2|]. exists m.
    assert (Im : In m (m :: l)) by (left; reflexivity). rewrite <- F in Im. apply filter_In in Im. destruct Im as [Im L]. apply Z.leb_le in L. auto. }
  destruct D as [(D1 & D2)|(D1 & _)].
  - rewrite forallb_forall in H3. specialize (H3 n). rewrite orb_true_iff in H3. destruct H3 as [H3|H3].
    + apply filter_In. split; [exact I|]. apply Z.leb_le. exact D1.
    + apply beq_eq. exact H3.
    + apply existsb_exists in H3. destruct H3 as (m & Im & L). apply Z.ltb_lt in L. apply filter_In in Im. destruct Im as [Im Lm]. apply Z.leb_le in Lm. specialize (D2 m Im Lm). lia.
  - destruct Ne as (m & Im & L). specialize (D1 m Im). lia.
Qed.
Lemma ring_ab_len : zlen (new_ring [sv_a; sv_b]) = 400.
Proof. rewrite ring_ab. vm_compute. reflexivity. Qed.
Definition hit_position : nat := length (filter (fun n => nd_hash n <? crc32 (B "key85%Ky`")) (sort_nodes (pts_a ++ pts_b))).
Lemma hit_ok : forall (A C : Type) (nodes : list A) i (f : A -> C) (g : A -> Z) s h, forall (eqb : C -> bool), (forall c, eqb c = true -> c = s) ->
  match nth_error nodes i with Some p => eqb (f p) && (g p =? h) | None => false end = true -> exists p, nth_error nodes i = Some p /\ f p = s /\ g p = h.
Proof. intros A C nodes i f g s h eqb Q H. destruct (nth_error nodes i) as [p|]; [|discriminate H]. apply andb_prop in H. destruct H as [H1 H2]. exists p. split; [reflexivity|]. split; [apply Q; exact H1|apply Z.eqb_eq; exact H2]. Qed.
Definition is_b (s : server) : bool := Nat.eqb (sv_id s) 1 && beq (sv_name s) (B "b").
Lemma is_b_ok : forall s, is_b s = true -> s = sv_b.
Proof. intros [i n] H. apply andb_prop in H. destruct H as [H1 H2]. cbn [sv_id sv_name] in *. apply Nat.eqb_eq in H1. apply beq_eq in H2. subst. reflexivity. Qed.
Example C75_met : NewRing [sv_a; sv_b] (new_ring [sv_a; sv_b]) /\ distinct_points [sv_a; sv_b]
  /\ (exists p, nth_error (new_ring [sv_a; sv_b]) hit_position = Some p /\ nd_server p = sv_b /\ nd_hash p = crc32 (B "key85%Ky`"))
  /\ landing 400 (Z.of_nat hit_position) > Z.of_nat hit_position
  /\ sole_owner [sv_a; sv_b; sv_c] (B "foo") (B "a") /\ B "a" <> sv_name sv_c.
Proof.
  split; [apply new_ring_ok|]. split; [exact distinct_ab|]. split; [|split; [|split]].
  - rewrite ring_ab. apply (hit_ok _ _ _ _ nd_server nd_hash _ _ is_b is_b_ok); vm_compute; reflexivity.
  - vm_compute. reflexivity.
  - apply sole_b_ok. unfold sole_b, off_b. rewrite ring_abc, points_abc. vm_compute. reflexivity.
  - discriminate.
Qed.
