(** * Properties C01-C04: consistent hashing. Proofs in PRing.v, specification in RingSpec.v. *)
From Verif Require Import GoBytes GoNum GoIO Hash Ring RingSpec RingData PRing.
Local Open Scope Z_scope.

(** ** C01 *)
Theorem C01_routing_is_total : forall servers nodes key,
  servers <> [] -> NewRing servers nodes ->
  exists sv, pick nodes key = Ok sv /\ In sv servers.
Proof.
  intros servers nodes key N R. assert (NN := ring_nonempty _ _ R N). destruct R as [P S].
  destruct (pick_hash_in nodes (crc32 key) S NN) as (n & E & I). exists (nd_server n). split; [exact E|].
  apply points_server. eapply Permutation_in; eassumption.
Qed.
Print Assumptions C01_routing_is_total.

Theorem C01_empty_ring_panics : forall nodes key, NewRing [] nodes -> pick nodes key = Panic.
Proof. intros nodes key [P _]. apply Permutation_sym, Permutation_nil in P. subst. reflexivity. Qed.
Print Assumptions C01_empty_ring_panics.

Example C01_met : [sv_a; sv_b] <> [] /\ NewRing [sv_a; sv_b] (new_ring [sv_a; sv_b])
  /\ pick (new_ring [sv_a; sv_b]) (B "hello") = Ok sv_b /\ pick (new_ring [sv_a; sv_b]) (B "x") = Ok sv_a.
Proof. split; [discriminate|]. split; [apply new_ring_ok|]. rewrite ring_ab. split; vm_compute; reflexivity. Qed.

(** ** C02 *)
(** The full statement is [C02_ownership]; it is proved for keys that do not hash exactly onto a ring
    point and refuted for one that does. *)
Definition C02_ownership : Prop := forall servers nodes key,
  servers <> [] -> NewRing servers nodes -> distinct_points servers ->
  exists n, pick nodes key = Ok (nd_server n) /\ owner (points servers) (crc32 key) n.

Theorem C02_ownership_partial : forall servers nodes key,
  servers <> [] -> NewRing servers nodes -> off_points servers key ->
  exists n, pick nodes key = Ok (nd_server n) /\ owner (points servers) (crc32 key) n.
Proof.
  intros servers nodes key N R X. assert (NN := ring_nonempty _ _ R N). destruct R as [P S].
  destruct (pick_hash_owner nodes (crc32 key) S NN) as (n & E & O).
  - intros n I. apply X. eapply Permutation_in; eassumption.
  - exists n. split; [exact E|]. eapply owner_perm; eassumption.
Qed.
Print Assumptions C02_ownership_partial.

(** Deciders used on concrete rings. *)
Definition distinct_b (servers : list server) : bool :=
  let l := map nd_hash (new_ring servers) in
  (fix go (l : list Z) := match l with x :: ((y :: _) as r) => (x <? y) && go r | _ => true end) l.
Lemma distinct_b_ok : forall servers, distinct_b servers = true -> distinct_points servers.
Proof.
  intros servers. unfold distinct_b, distinct_points. destruct (new_ring_ok servers) as [P _]. intro H.
  eapply Permutation_NoDup; [apply Permutation_map; exact P|]. revert H. generalize (map nd_hash (new_ring servers)). clear.
  intro l. assert (G : forall l, (fix go (l : list Z) := match l with x :: ((y :: _) as r) => (x <? y) && go r | _ => true end) l = true ->
    StronglySorted Z.lt l).
  { clear. induction l as [|x l IH]; intro H; [constructor|]. destruct l as [|y l]; [repeat constructor|].
    apply andb_prop in H. destruct H as [L H]. specialize (IH H). constructor; [exact IH|]. apply Z.ltb_lt in L.
    inversion IH; subst. constructor; [exact L|]. eapply Forall_impl; [|eassumption]. intros z Hz. simpl in Hz. lia. }
  intro H. apply G in H. clear G. induction H as [|x l S IH F]; constructor; [|exact IH].
  intro I. rewrite Forall_forall in F. specialize (F x I). lia.
Qed.
Definition off_b (servers : list server) (key : bytes) : bool :=
  forallb (fun n => negb (nd_hash n =? crc32 key)) (points servers).
Lemma off_b_ok : forall servers key, off_b servers key = true -> off_points servers key.
Proof.
  intros servers key H n I. unfold off_b in H. rewrite forallb_forall in H. specialize (H n I).
  apply negb_true_iff, Z.eqb_neq in H. exact H.
Qed.

Lemma distinct_ab : distinct_points [sv_a; sv_b].
Proof. apply distinct_b_ok. unfold distinct_b. rewrite ring_ab. vm_compute. reflexivity. Qed.
Lemma distinct_abc : distinct_points [sv_a; sv_b; sv_c].
Proof. apply distinct_b_ok. unfold distinct_b. rewrite ring_abc. vm_compute. reflexivity. Qed.

Example C02_met : off_points [sv_a; sv_b] (B "hello") /\ distinct_points [sv_a; sv_b].
Proof. split; [apply off_b_ok; unfold off_b; rewrite points_ab; vm_compute; reflexivity|exact distinct_ab]. Qed.

(** The key "key85%Ky`" hashes exactly onto a point of server b and is routed to a. *)
Theorem C02_ownership_refuted : ~ C02_ownership.
Proof.
  intro H. destruct (H [sv_a; sv_b] (new_ring [sv_a; sv_b]) (B "key85%Ky`")) as (n & E & O).
  - discriminate.
  - apply new_ring_ok.
  - exact distinct_ab.
  - assert (Ea : nd_server n = sv_a).
    { assert (X : pick (new_ring [sv_a; sv_b]) (B "key85%Ky`") = Ok sv_a) by (rewrite ring_ab; vm_compute; reflexivity).
      rewrite X in E. inversion E. reflexivity. }
    assert (Ex : exists m, In m (points [sv_a; sv_b]) /\ nd_server m = sv_b /\ nd_hash m = crc32 (B "key85%Ky`")).
    { destruct (find (fun m => nd_hash m =? crc32 (B "key85%Ky`")) (points [sv_a; sv_b])) as [m|] eqn:F.
      - exists m. assert (F' := F). apply find_some in F. destruct F as [I F]. apply Z.eqb_eq in F. repeat split; auto.
        assert (X : option_map nd_server (find (fun m => nd_hash m =? crc32 (B "key85%Ky`")) (points [sv_a; sv_b])) = Some sv_b)
          by (rewrite points_ab; vm_compute; reflexivity).
        rewrite F' in X. inversion X. reflexivity.
      - exfalso. assert (X : (if find (fun m => nd_hash m =? crc32 (B "key85%Ky`")) (points [sv_a; sv_b]) then true else false) = true)
          by (rewrite points_ab; vm_compute; reflexivity). rewrite F in X. discriminate. }
    destruct Ex as (m & Im & Sm & Hm).
    assert (Om : owner (points [sv_a; sv_b]) (crc32 (B "key85%Ky`")) m).
    { split; [exact Im|]. left. rewrite <- Hm. split; [lia|]. intros k _ Hk. exact Hk. }
    assert (n = m).
    { eapply owner_unique; [|exact O|exact Om]. exact distinct_ab. }
    subst. rewrite Ea in Sm. discriminate Sm.
Qed.
Print Assumptions C02_ownership_refuted.

(** ** C03 *)
(** Two processes hold different server objects; what must agree is the name routed to. *)
Theorem C03_order_does_not_matter : forall a b na nb key,
  a <> [] -> Permutation (map sv_name a) (map sv_name b) -> distinct_points a -> NewRing a na -> NewRing b nb ->
  exists sa sb, pick na key = Ok sa /\ pick nb key = Ok sb /\ sv_name sa = sv_name sb.
Proof.
  intros a b na nb key N P ND Ra Rb. destruct (C01_routing_is_total a na key N Ra) as (sa & Ea & _).
  assert (Nb : b <> []).
  { intros ->. apply Permutation_sym, Permutation_nil in P. destruct a; [congruence|discriminate]. }
  destruct (C01_routing_is_total b nb key Nb Rb) as (sb & Eb & _). exists sa, sb. repeat split; auto.
  eapply names_order; eassumption.
Qed.
Print Assumptions C03_order_does_not_matter.

Example C03_met : [sv_a; sv_b; sv_c] <> []
  /\ Permutation (map sv_name [sv_a; sv_b; sv_c]) (map sv_name [mkServer 0 (B "c"); mkServer 1 (B "b"); mkServer 2 (B "a")])
  /\ distinct_points [sv_a; sv_b; sv_c].
Proof.
  split; [discriminate|]. split.
  - simpl. apply Permutation_rev with (l := [B "a"; B "b"; B "c"]).
  - exact distinct_abc.
Qed.

(** ** C04 *)
Definition C04_minimal_disruption : Prop := forall s rest all nodes nodes' key sv,
  Permutation all (s :: rest) -> distinct_points all -> NewRing all nodes -> NewRing rest nodes' ->
  pick nodes key = Ok sv -> sv <> s -> pick nodes' key = Ok sv.

Theorem C04_minimal_disruption_partial : forall s rest all nodes nodes' key sv,
  Permutation all (s :: rest) -> distinct_points all -> NewRing all nodes -> NewRing rest nodes' ->
  off_points all key ->
  pick nodes key = Ok sv -> sv <> s -> pick nodes' key = Ok sv.
Proof. intros. unfold pick in *. eapply remove_stable; eassumption. Qed.
Print Assumptions C04_minimal_disruption_partial.

Example C04_met : distinct_points [sv_a; sv_b; sv_c] /\ off_points [sv_a; sv_b; sv_c] (B "foo")
  /\ pick (new_ring [sv_a; sv_b; sv_c]) (B "foo") = Ok sv_a
  /\ Permutation [sv_a; sv_b; sv_c] (sv_c :: [sv_a; sv_b]).
Proof.
  split; [exact distinct_abc|]. split; [apply off_b_ok; unfold off_b; rewrite points_abc; vm_compute; reflexivity|].
  split; [rewrite ring_abc; vm_compute; reflexivity|]. apply Permutation_sym. apply (Permutation_middle [sv_a; sv_b] [] sv_c).
Qed.

(** Removing c moves the key "key9?+`d" from b to a: it hashes exactly onto a point. *)
Theorem C04_minimal_disruption_refuted : ~ C04_minimal_disruption.
Proof.
  intro H.
  assert (X : pick (new_ring [sv_a; sv_b]) (B "key9?+`d") = Ok sv_b).
  { apply (H sv_c [sv_a; sv_b] [sv_c; sv_a; sv_b] (new_ring [sv_c; sv_a; sv_b])).
    - apply Permutation_refl.
    - apply distinct_b_ok. unfold distinct_b. rewrite ring_cab. vm_compute. reflexivity.
    - apply new_ring_ok.
    - apply new_ring_ok.
    - rewrite ring_cab. vm_compute. reflexivity.
    - discriminate. }
  assert (Y : pick (new_ring [sv_a; sv_b]) (B "key9?+`d") = Ok sv_a) by (rewrite ring_ab; vm_compute; reflexivity).
  rewrite X in Y. discriminate Y.
Qed.
Print Assumptions C04_minimal_disruption_refuted.
