(** * Consistent hashing. *)
From Verif Require Import GoBytes GoNum GoIO Hash Ring RingSpec PLib.
Local Open Scope Z_scope.

(** [nodes] in positions: everything before [lo] is below [h], everything after [up] above. *)
Definition below (nodes : list node) (h lo : Z) : Prop :=
  forall i n, nth_error nodes i = Some n -> Z.of_nat i < lo -> nd_hash n < h.
Definition above (nodes : list node) (h up : Z) : Prop :=
  forall i n, nth_error nodes i = Some n -> up < Z.of_nat i -> h < nd_hash n.

Lemma node_le_trans : Relations_1.Transitive node_le.
Proof. intros a b c. unfold node_le. lia. Qed.

Lemma sorted_nth : forall nodes, Sorted node_le nodes -> forall i j a b, (i <= j)%nat ->
  nth_error nodes i = Some a -> nth_error nodes j = Some b -> nd_hash a <= nd_hash b.
Proof.
  intros nodes S. apply Sorted_StronglySorted in S; [|apply node_le_trans].
  induction S as [|x l S IH F]; intros i j a b L A B.
  - destruct i; discriminate.
  - destruct i as [|i].
    + destruct j as [|j]; simpl in A, B; [assert (a = b) by congruence; subst; lia|]. inversion A; subst. apply nth_error_In in B.
      rewrite Forall_forall in F. apply (F b). assumption.
    + destruct j as [|j]; [lia|]. simpl in A, B. apply (IH i j); [lia|assumption|assumption].
Qed.

Lemma search_spec : forall nodes h, Sorted node_le nodes ->
  forall fuel lo up, 0 <= lo -> up < zlen nodes -> lo <= up + 1 -> up - lo + 1 < Z.of_nat fuel ->
  below nodes h lo -> above nodes h up ->
  exists u, search fuel nodes h lo up = Some (Ok u) /\ -1 <= u < zlen nodes
    /\ ((below nodes h (u + 1) /\ above nodes h u)
        \/ (above nodes h u /\ exists i n, nth_error nodes i = Some n /\ nd_hash n = h /\ Z.of_nat i <= u)).
Proof.
  intros nodes h S. induction fuel as [|fuel IH]; intros lo up L U LU F B A; [simpl in F; lia|].
  cbn [search]. destruct (lo <=? up) eqn:E.
  - apply Z.leb_le in E. set (idx := (lo + up) / 2).
    assert (I : lo <= idx <= up).
    { unfold idx. split; [apply Z.div_le_lower_bound; lia|apply Z.div_le_upper_bound; lia]. }
    destruct (idx <? 0) eqn:I0; [apply Z.ltb_lt in I0; lia|].
    destruct (nth_error nodes (Z.to_nat idx)) as [n|] eqn:N.
    2:{ apply nth_error_None in N. unfold zlen in U. lia. }
    destruct (nd_hash n =? h) eqn:Eq.
    + apply Z.eqb_eq in Eq. exists up. split; [reflexivity|]. split; [lia|]. right. split; [assumption|].
      exists (Z.to_nat idx), n. repeat split; auto. lia.
    + apply Z.eqb_neq in Eq. destruct (h <? nd_hash n) eqn:Lt.
      * apply Z.ltb_lt in Lt. apply IH; auto; try lia.
        intros i m Hi Hlt. destruct (Z_lt_ge_dec up (Z.of_nat i)); [eapply A; eassumption|].
        assert (nd_hash n <= nd_hash m); [|lia].
        eapply sorted_nth with (i := Z.to_nat idx) (j := i); try eassumption. lia.
      * apply Z.ltb_ge in Lt. apply IH; auto; try lia.
        intros i m Hi Hlt. destruct (Z_lt_ge_dec (Z.of_nat i) lo); [eapply B; eassumption|].
        assert (nd_hash m <= nd_hash n); [|lia].
        eapply sorted_nth with (i := i) (j := Z.to_nat idx); try eassumption. lia.
  - apply Z.leb_gt in E. exists up. split; [reflexivity|]. split; [lia|]. left.
    replace (up + 1) with lo by lia. split; assumption.
Qed.

Lemma pick_hash_spec : forall nodes h, Sorted node_le nodes -> nodes <> [] ->
  exists u n, pick_hash nodes h = Ok (nd_server n) /\ nth_error nodes (Z.to_nat (Z.max u 0)) = Some n
    /\ -1 <= u < zlen nodes
    /\ ((below nodes h (u + 1) /\ above nodes h u)
        \/ (above nodes h u /\ exists i m, nth_error nodes i = Some m /\ nd_hash m = h /\ Z.of_nat i <= u)).
Proof.
  intros nodes h So N.
  destruct (search_spec nodes h So (S (length nodes)) 0 (zlen nodes - 1)) as (u & E & R & D); try lia.
  - unfold zlen. lia.
  - unfold zlen. lia.
  - intros i n Hi Hl. lia.
  - intros i n Hi Hl. assert (i < length nodes)%nat by (apply nth_error_Some; congruence). unfold zlen in Hl. lia.
  - unfold pick_hash. rewrite E.
    destruct (nth_error nodes (Z.to_nat (Z.max u 0))) as [n|] eqn:Q.
    + exists u, n. replace (if u <? 0 then 0 else u) with (Z.max u 0) by (destruct (u <? 0) eqn:L; [apply Z.ltb_lt in L|apply Z.ltb_ge in L]; lia).
      rewrite Q. repeat split; auto; lia.
    + apply nth_error_None in Q. destruct nodes; [congruence|]. unfold zlen in R. simpl in *. lia.
Qed.

Lemma pick_hash_in : forall nodes h, Sorted node_le nodes -> nodes <> [] ->
  exists n, pick_hash nodes h = Ok (nd_server n) /\ In n nodes.
Proof.
  intros nodes h S N. destruct (pick_hash_spec nodes h S N) as (u & n & E & Q & _). exists n. split; [assumption|].
  eapply nth_error_In. eassumption.
Qed.

Lemma pick_hash_owner : forall nodes h, Sorted node_le nodes -> nodes <> [] ->
  (forall n, In n nodes -> nd_hash n <> h) ->
  exists n, pick_hash nodes h = Ok (nd_server n) /\ owner nodes h n.
Proof.
  intros nodes h S N X. destruct (pick_hash_spec nodes h S N) as (u & n & E & Q & R & D). exists n. split; [assumption|].
  destruct D as [[Bl Ab]|[_ (i & m & Hi & Hm & _)]].
  2:{ apply nth_error_In in Hi. exfalso. eapply X; eassumption. }
  split; [eapply nth_error_In; eassumption|].
  destruct (Z_lt_ge_dec u 0) as [Un|Up].
  - right. rewrite Z.max_r in Q by lia.
    assert (G : forall m, In m nodes -> h < nd_hash m).
    { intros m I. apply In_nth_error in I. destruct I as [i Hi]. eapply Ab; [eassumption|lia]. }
    split; [exact G|]. intros m I. apply In_nth_error in I. destruct I as [i Hi].
    eapply sorted_nth with (i := Z.to_nat 0) (j := i); try eassumption. simpl. lia.
  - left. rewrite Z.max_l in Q by lia. split.
    + assert (nd_hash n < h); [|lia]. eapply Bl; [eassumption|lia].
    + intros m I Hm. apply In_nth_error in I. destruct I as [i Hi].
      destruct (Z_lt_ge_dec u (Z.of_nat i)) as [Lt|Ge].
      * specialize (Ab i m Hi Lt). lia.
      * eapply sorted_nth with (i := i) (j := Z.to_nat u); try eassumption. lia.
Qed.

Lemma ring_nonempty : forall servers nodes, NewRing servers nodes -> servers <> [] -> nodes <> [].
Proof.
  intros servers nodes [P _] N. destruct servers as [|s r]; [congruence|]. intros ->.
  apply Permutation_nil in P. discriminate.
Qed.
Lemma points_server : forall servers n, In n (points servers) -> In (nd_server n) servers.
Proof.
  intros servers n I. unfold points in I. apply in_flat_map in I. destruct I as (s & Is & I).
  unfold points_of in I. apply in_map_iff in I. destruct I as (i & E & _). subst. exact Is.
Qed.
Lemma owner_perm : forall a b h n, Permutation a b -> owner a h n -> owner b h n.
Proof.
  intros a b h n P (I & D). split; [eapply Permutation_in; eassumption|].
  apply Permutation_sym in P.
  destruct D as [(D1 & D2)|(D1 & D2)]; [left|right]; split; auto; intros m Im; [intro; apply D2; auto| |];
    try apply D1; try apply D2; eapply Permutation_in; eassumption.
Qed.

Lemma owner_unique : forall pts h a b, NoDup (map nd_hash pts) -> owner pts h a -> owner pts h b -> a = b.
Proof.
  intros pts h a b ND (Ia & Da) (Ib & Db).
  assert (E : nd_hash a = nd_hash b).
  { destruct Da as [(A1 & A2)|(A1 & A2)]; destruct Db as [(B1 & B2)|(B1 & B2)].
    - specialize (A2 b Ib B1). specialize (B2 a Ia A1). lia.
    - specialize (B1 a Ia). lia.
    - specialize (A1 b Ib). lia.
    - specialize (A2 b Ib). specialize (B2 a Ia). lia. }
  clear - ND E Ia Ib. induction pts as [|p pts IH]; [destruct Ia|]. inversion ND; subst.
  destruct Ia as [->|Ia]; destruct Ib as [->|Ib]; auto.
  - exfalso. apply H1. rewrite E. apply in_map. assumption.
  - exfalso. apply H1. rewrite <- E. apply in_map. assumption.
Qed.

(** ** Sorting with distinct hashes has one outcome. *)
Lemma sorted_unique : forall a b, Permutation a b -> Sorted node_le a -> Sorted node_le b ->
  NoDup (map nd_hash a) -> a = b.
Proof.
  intros a b P Sa. apply Sorted_StronglySorted in Sa; [|apply node_le_trans]. revert b P.
  induction Sa as [|x a Sa IH F]; intros b P Sb ND.
  - apply Permutation_nil in P. subst. reflexivity.
  - destruct b as [|y b]; [apply Permutation_sym, Permutation_nil in P; discriminate|].
    assert (Sb' := Sb). apply Sorted_StronglySorted in Sb'; [|apply node_le_trans]. inversion Sb' as [|? ? Sb2 Fb]; subst.
    assert (x = y).
    { assert (Ix : In x (y :: b)) by (eapply Permutation_in; [exact P|left; reflexivity]).
      assert (Iy : In y (x :: a)) by (eapply Permutation_in; [apply Permutation_sym; exact P|left; reflexivity]).
      destruct Iy as [->|Iy]; [reflexivity|]. destruct Ix as [->|Ix]; [reflexivity|].
      rewrite Forall_forall in F, Fb. specialize (F y Iy). specialize (Fb x Ix). unfold node_le in *.
      simpl in ND. inversion ND; subst. exfalso. apply H1. replace (nd_hash x) with (nd_hash y) by lia. apply in_map. assumption. }
    subst y. f_equal. apply IH.
    + eapply Permutation_cons_inv. eassumption.
    + inversion Sb; assumption.
    + simpl in ND. inversion ND; assumption.
Qed.

Lemma insert_perm : forall n l, Permutation (insert_node n l) (n :: l).
Proof.
  intros n l. induction l as [|m l IH]; [reflexivity|]. simpl. destruct (nd_hash n <=? nd_hash m); [reflexivity|].
  rewrite IH. apply perm_swap.
Qed.
Lemma insert_sorted : forall n l, Sorted node_le l -> Sorted node_le (insert_node n l).
Proof.
  intros n l S. induction S as [|m l S IH H]; [repeat constructor|]. simpl. destruct (nd_hash n <=? nd_hash m) eqn:E.
  - apply Z.leb_le in E. constructor; [constructor; assumption|]. constructor. assumption.
  - apply Z.leb_gt in E. constructor; [assumption|]. destruct l as [|k l]; simpl.
    + constructor. unfold node_le. lia.
    + inversion H; subst. destruct (nd_hash n <=? nd_hash k); constructor; unfold node_le in *; lia.
Qed.
Lemma new_ring_ok : forall servers, NewRing servers (new_ring servers).
Proof.
  intro servers. unfold NewRing, new_ring. generalize (points servers). intro l. unfold sort_nodes. split.
  - induction l as [|n l IH]; [reflexivity|]. simpl. rewrite insert_perm. constructor. exact IH.
  - induction l as [|n l IH]; [constructor|]. simpl. apply insert_sorted. exact IH.
Qed.
Lemma new_ring_unique : forall servers nodes, NewRing servers nodes -> NoDup (map nd_hash (points servers)) ->
  nodes = new_ring servers.
Proof.
  intros servers nodes [P S] ND. destruct (new_ring_ok servers) as [P' S'].
  apply sorted_unique; auto.
  - rewrite P. apply Permutation_sym. exact P'.
  - eapply Permutation_NoDup; [|exact ND]. apply Permutation_map. apply Permutation_sym. exact P.
Qed.

Lemma points_perm : forall a b, Permutation a b -> Permutation (points a) (points b).
Proof. intros a b P. unfold points. apply Permutation_flat_map. exact P. Qed.

Lemma ring_order : forall a b na nb, Permutation a b -> NewRing a na -> NewRing b nb ->
  NoDup (map nd_hash (points a)) -> na = nb.
Proof.
  intros a b na nb P [Pa Sa] [Pb Sb] ND. apply sorted_unique; auto.
  - rewrite Pa, Pb. apply points_perm. exact P.
  - eapply Permutation_NoDup; [|exact ND]. apply Permutation_map. apply Permutation_sym. exact Pa.
Qed.

Lemma NoDup_app_r : forall (A : Type) (a b : list A), NoDup (a ++ b) -> NoDup b.
Proof. intros A a b. induction a as [|x a IH]; intro H; [exact H|]. inversion H. auto. Qed.

(** Removing one server. *)
Lemma owner_remove : forall s rest h n, nd_server n <> s -> owner (points (s :: rest)) h n ->
  owner (points rest) h n.
Proof.
  intros s rest h n NS (I & D). cbn [points flat_map] in I. apply in_app_or in I.
  assert (I' : In n (points rest)).
  { destruct I as [I|I]; [|exact I]. exfalso. apply NS. unfold points_of in I. apply in_map_iff in I.
    destruct I as (i & E & _). subst. reflexivity. }
  split; [exact I'|].
  assert (Sub : forall m, In m (points rest) -> In m (points (s :: rest))) by (intros m Hm; cbn [points flat_map]; apply in_or_app; right; exact Hm).
  destruct D as [(D1 & D2)|(D1 & D2)]; [left|right]; split; auto.
Qed.

Lemma remove_stable : forall s rest all nodes nodes' h n,
  Permutation all (s :: rest) -> NewRing all nodes -> NewRing rest nodes' ->
  NoDup (map nd_hash (points all)) ->
  (forall m, In m (points all) -> nd_hash m <> h) ->
  pick_hash nodes h = Ok n -> n <> s -> pick_hash nodes' h = Ok n.
Proof.
  intros s rest all nodes nodes' h n P R R' ND X Pk NS.
  assert (Nall : all <> []) by (intros ->; apply Permutation_nil in P; discriminate).
  assert (NN := ring_nonempty _ _ R Nall). destruct R as [Pn Sn].
  destruct (pick_hash_owner nodes h Sn NN) as (m & Em & Om).
  { intros k Ik. apply X. eapply Permutation_in; eassumption. }
  rewrite Pk in Em. inversion Em; subst n.
  assert (Om' : owner (points (s :: rest)) h m) by (eapply owner_perm; [|exact Om]; rewrite Pn; apply points_perm; exact P).
  apply owner_remove in Om'; [|exact NS].
  assert (Nr : rest <> []) by (intros ->; destruct Om' as [[] _]).
  assert (NN' := ring_nonempty _ _ R' Nr). destruct R' as [Pn' Sn'].
  assert (Sub : forall k, In k nodes' -> In k (points all)).
  { intros k Ik. eapply Permutation_in; [apply Permutation_sym, points_perm; exact P|]. cbn [points flat_map]. apply in_or_app. right.
    eapply Permutation_in; eassumption. }
  destruct (pick_hash_owner nodes' h Sn' NN') as (m' & Em' & Om'').
  { intros k Ik. apply X. apply Sub. exact Ik. }
  assert (m' = m).
  { apply owner_unique with (pts := points rest) (h := h); auto.
    - assert (N2 : NoDup (map nd_hash (points (s :: rest)))).
      { eapply Permutation_NoDup; [|exact ND]. apply Permutation_map, points_perm. exact P. }
      cbn [points flat_map] in N2. rewrite map_app in N2. apply NoDup_app_r in N2. exact N2.
    - eapply owner_perm; [exact Pn'|exact Om'']. }
  subst. exact Em'.
Qed.

(** ** Names only: the node list up to the identity of the server objects. *)
Definition strip (n : node) : node := mkNode (mkServer 0 (sv_name (nd_server n))) (nd_hash n).
Lemma search_strip : forall nodes h fuel lo up, search fuel (map strip nodes) h lo up = search fuel nodes h lo up.
Proof.
  intros nodes h. induction fuel as [|fuel IH]; intros lo up; [reflexivity|]. cbn [search].
  rewrite nth_error_map. destruct (nth_error nodes (Z.to_nat ((lo + up) / 2))) as [n|]; cbn [option_map strip nd_hash]; rewrite ?IH; reflexivity.
Qed.
Lemma pick_strip : forall nodes h sv, pick_hash nodes h = Ok sv ->
  pick_hash (map strip nodes) h = Ok (mkServer 0 (sv_name sv)).
Proof.
  intros nodes h sv. unfold pick_hash, zlen. rewrite map_length, search_strip.
  destruct (search _ nodes h _ _) as [[u| |]|]; try discriminate.
  rewrite nth_error_map. destruct (nth_error nodes _); cbn [option_map]; [|discriminate]. intro E. inversion E; subst. reflexivity.
Qed.
Lemma points_strip : forall servers, map strip (points servers) = points (map (fun n => mkServer 0 n) (map sv_name servers)).
Proof.
  induction servers as [|s r IH]; [reflexivity|]. unfold points in *. cbn [flat_map map]. rewrite map_app, IH. f_equal.
Qed.
Lemma ring_strip : forall servers nodes, NewRing servers nodes ->
  NewRing (map (fun n => mkServer 0 n) (map sv_name servers)) (map strip nodes).
Proof.
  intros servers nodes [P S]. split.
  - rewrite <- points_strip. apply Permutation_map. exact P.
  - clear P. induction S as [|x l S IH H]; [constructor|]. cbn [map]. constructor; [exact IH|].
    destruct H; constructor. exact H.
Qed.
Lemma names_order : forall a b na nb key sa sb, Permutation (map sv_name a) (map sv_name b) ->
  NewRing a na -> NewRing b nb -> NoDup (map nd_hash (points a)) ->
  pick na key = Ok sa -> pick nb key = Ok sb -> sv_name sa = sv_name sb.
Proof.
  intros a b na nb key sa sb P Ra Rb ND Ea Eb. apply ring_strip in Ra, Rb. apply pick_strip in Ea, Eb.
  assert (X : map strip na = map strip nb).
  { eapply ring_order; [|exact Ra|exact Rb|].
    - apply Permutation_map. exact P.
    - rewrite <- points_strip, map_map. exact ND. }
  rewrite X, Eb in Ea. inversion Ea. reflexivity.
Qed.
