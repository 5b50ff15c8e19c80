(** * SinglePool.GetMulti: proofs. *)
From Verif Require Import GoBytes GoNum GoIO Item Cache Spec Hash Ring RingSpec Pool PoolSpec PLib PCache PRing PPool.
Local Open Scope Z_scope.

(** The keys of a request that Get would send to server [sv], in request order. *)
Definition own_keys (nodes : list node) (sv : server) (ks : list bytes) : list bytes :=
  filter (fun k => match pick nodes k with Ok t => Nat.eqb (sv_id t) (sv_id sv) | _ => false end) ks.

Definition named (nodes : list node) (n : bytes) (ks : list bytes) : list bytes :=
  filter (fun k => match pick nodes k with Ok t => beq (sv_name t) n | _ => false end) ks.

Lemma add_key_names : forall m n k, map fst (add_key m n k) = if existsb (beq n) (map fst m) then map fst m else map fst m ++ [n].
Proof.
  induction m as [|[a l] m IH]; intros n k; [reflexivity|]. cbn [add_key map fst existsb]. rewrite (beq_sym n a).
  destruct (beq a n) eqn:E; [reflexivity|]. cbn [map fst orb]. rewrite IH. destruct (existsb (beq n) (map fst m)); reflexivity.
Qed.
Lemma add_key_in : forall m n k a l, NoDup (map fst m) -> In (a, l) (add_key m n k) ->
  (a = n /\ ((exists l0, In (n, l0) m /\ l = l0 ++ [k]) \/ (~ In n (map fst m) /\ l = [k]))) \/ (a <> n /\ In (a, l) m).
Proof.
  induction m as [|[b x] m IH]; intros n k a l N I; cbn [add_key] in I.
  - destruct I as [I|[]]. inversion I; subst. left. split; [reflexivity|]. right. split; [intros []|reflexivity].
  - inversion N; subst. destruct (beq b n) eqn:E.
    + apply beq_eq in E. subst b. destruct I as [I|I].
      * inversion I; subst. left. split; [reflexivity|]. left. exists x. split; [left; reflexivity|reflexivity].
      * right. split; [|right; exact I]. intros ->. apply H1. apply (in_map fst) in I. exact I.
    + apply beq_neq in E. destruct I as [I|I].
      * inversion I; subst. right. split; [exact E|left; reflexivity].
      * destruct (IH n k a l H2 I) as [[-> [(l0 & I0 & ->)|[I0 ->]]]|[Q I0]].
        -- left. split; [reflexivity|]. left. exists l0. split; [right; exact I0|reflexivity].
        -- left. split; [reflexivity|]. right. split; [|reflexivity]. cbn. intros [X|X]; [congruence|contradiction].
        -- right. split; [exact Q|right; exact I0].
Qed.
Lemma NoDup_snoc : forall (A : Type) (l : list A) x, NoDup l -> ~ In x l -> NoDup (l ++ [x]).
Proof.
  intros A l x N I. apply Permutation_NoDup with (l := x :: l); [|constructor; assumption].
  change (x :: l) with ([x] ++ l). apply Permutation_app_comm.
Qed.
Lemma existsb_beq : forall n l, existsb (beq n) l = true <-> In n l.
Proof.
  intros n l. rewrite existsb_exists. split.
  - intros (x & I & E). apply beq_eq in E. subst. exact I.
  - intro I. exists n. split; [exact I|apply beq_refl].
Qed.

Definition grouped (nodes : list node) (pre : list bytes) (m : list (bytes * list bytes)) : Prop :=
  NoDup (map fst m) /\ (forall n l, In (n, l) m -> l = named nodes n pre /\ l <> [])
  /\ (forall k sv, In k pre -> pick nodes k = Ok sv -> In (sv_name sv) (map fst m)).
Lemma named_nil : forall nodes pre n, (forall k sv, In k pre -> pick nodes k = Ok sv -> sv_name sv <> n) -> named nodes n pre = [].
Proof.
  intros nodes pre n H. unfold named. induction pre as [|k pre IH]; [reflexivity|]. cbn [filter].
  destruct (pick nodes k) as [t|e|] eqn:P; try (apply IH; intros; eapply H; [right; eassumption|assumption]).
  destruct (beq (sv_name t) n) eqn:E.
  - apply beq_eq in E. exfalso. eapply H; [left; reflexivity|exact P|exact E].
  - apply IH. intros; eapply H; [right; eassumption|assumption].
Qed.
Lemma grouped_step : forall nodes pre m k sv, grouped nodes pre m -> pick nodes k = Ok sv ->
  grouped nodes (pre ++ [k]) (add_key m (sv_name sv) k).
Proof.
  intros nodes pre m k sv (G1 & G2 & G3) P. split; [|split].
  - rewrite add_key_names. destruct (existsb (beq (sv_name sv)) (map fst m)) eqn:E; [exact G1|].
    apply NoDup_snoc; [exact G1|]. intro I. apply existsb_beq in I. congruence.
  - intros n l I. unfold named. rewrite filter_app. cbn [filter]. rewrite P. fold (named nodes n pre).
    destruct (add_key_in m (sv_name sv) k n l G1 I) as [[-> [(l0 & I0 & ->)|[I0 ->]]]|[Q I0]].
    + rewrite beq_refl. destruct (G2 _ _ I0) as [-> N]. split; [reflexivity|]. destruct (named nodes (sv_name sv) pre); discriminate.
    + rewrite beq_refl. split; [|discriminate]. rewrite named_nil; [reflexivity|]. intros j t Ij Pj E. apply I0. rewrite <- E. eapply G3; eassumption.
    + destruct (beq (sv_name sv) n) eqn:E; [apply beq_eq in E; congruence|]. rewrite app_nil_r. apply G2. exact I0.
  - intros j t Ij Pj. rewrite add_key_names. apply in_app_or in Ij. destruct (existsb (beq (sv_name sv)) (map fst m)) eqn:E.
    + destruct Ij as [Ij|[<-|[]]]; [eapply G3; eassumption|]. rewrite P in Pj. inversion Pj; subst. apply existsb_beq. exact E.
    + apply in_or_app. destruct Ij as [Ij|[<-|[]]]; [left; eapply G3; eassumption|]. rewrite P in Pj. inversion Pj; subst. right. left. reflexivity.
Qed.
Lemma group_ok : forall nodes servers, servers <> [] -> NewRing servers nodes -> forall ks pre m, grouped nodes pre m ->
  exists m', group_keys nodes m ks = Ok m' /\ grouped nodes (pre ++ ks) m'.
Proof.
  intros nodes servers Ne R. induction ks as [|k ks IH]; intros pre m G; cbn [group_keys].
  - exists m. rewrite app_nil_r. auto.
  - destruct (ring_pick_in servers nodes k Ne R) as (sv & P & _). rewrite P.
    destruct (IH (pre ++ [k]) _ (grouped_step _ _ _ _ _ G P)) as (m' & E & G'). exists m'. split; [exact E|].
    rewrite <- app_assoc in G'. exact G'.
Qed.

Section Groups.
Context {ST : Type}.
Variable step : ST -> op -> ST * outcome result.
Variable servers : list server.
Variable nodes : list node.
Hypothesis Ne : servers <> [].
Hypothesis R : NewRing servers nodes.
Hypothesis Names : NoDup (map sv_name servers).
Hypothesis Ids : NoDup (map sv_id servers).

Lemma name_inj : forall a b, In a servers -> In b servers -> sv_name a = sv_name b -> a = b.
Proof.
  intros a b Ia Ib E. pose proof (find_server_ok servers a Names Ia) as Fa. rewrite E, (find_server_ok servers b Names Ib) in Fa.
  inversion Fa. reflexivity.
Qed.
Lemma pick_in : forall k sv, pick nodes k = Ok sv -> In sv servers.
Proof. intros k sv P. destruct (ring_pick_in servers nodes k Ne R) as (t & Pt & It). rewrite P in Pt. inversion Pt; subst. exact It. Qed.
Lemma named_own : forall sv ks, In sv servers -> named nodes (sv_name sv) ks = own_keys nodes sv ks.
Proof.
  intros sv ks Is. unfold named, own_keys. apply filter_ext. intro k. destruct (pick nodes k) as [t|e|] eqn:P; try reflexivity.
  pose proof (pick_in k t P) as It. destruct (beq (sv_name t) (sv_name sv)) eqn:E.
  - apply beq_eq in E. rewrite (name_inj t sv It Is E). symmetry. apply Nat.eqb_refl.
  - symmetry. apply Nat.eqb_neq. intro Q. apply beq_neq in E. apply E. rewrite (id_inj servers Ids t sv It Is Q). reflexivity.
Qed.

Definition asked (ks : list bytes) (sv : server) : bool := negb (match own_keys nodes sv ks with [] => true | _ => false end).
Lemma asked_spec : forall ks sv, asked ks sv = true <-> own_keys nodes sv ks <> [].
Proof. intros ks sv. unfold asked. destruct (own_keys nodes sv ks); cbn; split; congruence. Qed.

Lemma NoDup_filter' : forall (A : Type) (f : A -> bool) l, NoDup l -> NoDup (filter f l).
Proof.
  intros A f l N. induction N as [|x l I N IH]; [constructor|]. cbn. destruct (f x); [|exact IH]. constructor; [|exact IH].
  intro Q. apply filter_In in Q. apply I. apply Q.
Qed.
Lemma groups_perm : forall ks m, grouped nodes ks m ->
  Permutation m (map (fun sv => (sv_name sv, own_keys nodes sv ks)) (filter (asked ks) servers)).
Proof.
  intros ks m (G1 & G2 & G3).
  apply NoDup_Permutation.
  - apply NoDup_map_inv with (f := fst). exact G1.
  - assert (N : NoDup (map fst (map (fun sv => (sv_name sv, own_keys nodes sv ks)) (filter (asked ks) servers)))).
    { rewrite map_map. cbn [fst]. clear - Names. induction servers as [|s l IH]; [constructor|]. inversion Names; subst. cbn [filter].
      destruct (asked ks s); [|apply IH; assumption]. cbn [map]. constructor; [|apply IH; assumption].
      intro I. apply H1. apply in_map_iff in I. destruct I as (t & E & I). apply filter_In in I. rewrite <- E. apply in_map, I. }
    apply NoDup_map_inv in N. exact N.
  - intros [n l]. split.
    + intro I. destruct (G2 n l I) as [El Nl]. destruct l as [|k l']; [congruence|]. symmetry in El.
      assert (Ik : In k (named nodes n ks)) by (rewrite El; left; reflexivity).
      unfold named in Ik. apply filter_In in Ik. destruct Ik as [Ik Pk]. destruct (pick nodes k) as [sv|e|] eqn:P; try discriminate Pk.
      apply beq_eq in Pk. subst n. pose proof (pick_in k sv P) as Is. rewrite named_own in El by exact Is.
      apply in_map_iff. exists sv. split; [rewrite El; reflexivity|]. apply filter_In. split; [exact Is|]. apply asked_spec. rewrite El. discriminate.
    + intro I. apply in_map_iff in I. destruct I as (sv & E & I). inversion E; subst. apply filter_In in I. destruct I as [Is A]. apply asked_spec in A.
      destruct (own_keys nodes sv ks) as [|k l'] eqn:El; [congruence|].
      assert (Ik : In k (own_keys nodes sv ks)) by (rewrite El; left; reflexivity). unfold own_keys in Ik. apply filter_In in Ik. destruct Ik as [Ik Pk].
      destruct (pick nodes k) as [t|e|] eqn:P; try discriminate Pk. apply Nat.eqb_eq in Pk.
      assert (t = sv) by (apply (id_inj servers Ids); [eapply pick_in; exact P|exact Is|exact Pk]). subst t.
      pose proof (G3 k sv Ik P) as In1. apply in_map_iff in In1. destruct In1 as ([n' l2] & E1 & In1). cbn in E1. subst n'.
      destruct (G2 _ _ In1) as [El2 _]. rewrite named_own, El in El2 by exact Is. subst l2. exact In1.
Qed.

Lemma pool_getmulti_iff : forall w ks w' r, pool_getmulti step servers nodes w ks w' r <->
  exists order, Permutation order (filter (asked ks) servers)
    /\ run_groups step servers w (map (fun sv => (sv_name sv, own_keys nodes sv ks)) order) [] = (w', r).
Proof.
  intros w ks w' r. unfold pool_getmulti.
  assert (G0 : grouped nodes [] []) by (repeat split; try constructor; intros; contradiction).
  destruct (group_ok nodes servers Ne R ks [] [] G0) as (m & Em & G). rewrite Em. cbn [app] in G. pose proof (groups_perm ks m G) as Pm. split.
  - intros (groups & Pg & E). assert (P2 := Permutation_trans Pg Pm). apply Permutation_map_inv in P2. destruct P2 as (order & -> & Po).
    exists order. split; [apply Permutation_sym; exact Po|exact E].
  - intros (order & Po & E). exists (map (fun sv => (sv_name sv, own_keys nodes sv ks)) order). split; [|exact E].
    eapply Permutation_trans; [apply Permutation_map; exact Po|]. apply Permutation_sym. exact Pm.
Qed.

Definition answer (w : world ST) (ks : list bytes) (sv : server) : outcome result := snd (step (w (sv_id sv)) (OGetMulti (own_keys nodes sv ks))).
Definition items_in (o : outcome result) : list item := match o with Ok (RItems l) => l | _ => [] end.

Lemma run_groups_ok : forall ks order w acc w' r, NoDup order -> (forall sv, In sv order -> In sv servers) ->
  run_groups step servers w (map (fun sv => (sv_name sv, own_keys nodes sv ks)) order) acc = (w', r) ->
  (forall i, ~ In i (map sv_id order) -> w' i = w i)
  /\ match r with
     | Ok items => items = acc ++ flat_map (fun sv => items_in (answer w ks sv)) order
         /\ forall sv, In sv order -> (exists l, answer w ks sv = Ok (RItems l))
                        /\ w' (sv_id sv) = fst (step (w (sv_id sv)) (OGetMulti (own_keys nodes sv ks)))
     | Err e => exists sv, In sv order /\ answer w ks sv = Err e
     | Panic => exists sv, In sv order /\ ~ (exists l, answer w ks sv = Ok (RItems l)) /\ (forall e, answer w ks sv <> Err e)
     end.
Proof.
  intros ks. induction order as [|s order IH]; intros w acc w' r N Is E; cbn [map run_groups] in E.
  - inversion E; subst. split; [reflexivity|]. rewrite app_nil_r. split; [reflexivity|]. contradiction.
  - inversion N as [|? ? N1 N2]; subst. rewrite (find_server_ok servers s Names (Is s (or_introl eq_refl))) in E. unfold server_call in E.
    assert (D : forall sv, In sv order -> sv_id sv <> sv_id s).
    { intros sv I Q. apply N1. rewrite <- (id_inj servers Ids sv s); auto; [apply Is; right; exact I|apply Is; left; reflexivity]. }
    assert (A : forall st sv, In sv order -> answer (upd w (sv_id s) st) ks sv = answer w ks sv).
    { intros st sv I. unfold answer. rewrite upd_other by (apply D; exact I). reflexivity. }
    fold (answer w ks s) in E. set (st := fst (step (w (sv_id s)) (OGetMulti (own_keys nodes s ks)))) in *.
    destruct (answer w ks s) as [res|e|] eqn:An.
    + assert (F : (forall l, res <> RItems l) \/ exists l, res = RItems l) by (destruct res; [left; discriminate|right; eauto|left; discriminate..]).
      destruct F as [F|[l ->]].
      * assert (E' : (upd w (sv_id s) st, @Panic (list item)) = (w', r)) by (destruct res; try exact E; exfalso; eapply F; reflexivity). clear E.
        inversion E'; subst. split; [intros i I; apply upd_other; intro Q; apply I; left; auto|].
        exists s. split; [left; reflexivity|]. rewrite An. split; [intros [l El]; inversion El; eapply F; eassumption|discriminate].
      * destruct (IH _ _ _ _ N2 (fun sv I => Is sv (or_intror I)) E) as [U M]. split.
        -- intros i I. cbn [map In] in I. rewrite U by tauto. apply upd_other. intro Q. apply I. left. auto.
        -- destruct r as [items|e|].
           ++ destruct M as [Mi Ms]. split.
              ** rewrite Mi, <- app_assoc. f_equal. cbn [flat_map]. rewrite An. cbn [items_in]. f_equal. rewrite !flat_map_concat_map. f_equal.
                 apply map_ext_in. intros sv I. rewrite A by exact I. reflexivity.
              ** intros sv [<-|I].
                 --- split; [eauto|]. rewrite U; [apply upd_same|]. intro Q. apply in_map_iff in Q. destruct Q as (t & Et & It). exact (D t It Et).
                 --- destruct (Ms sv I) as [M1 M2]. rewrite A in M1 by exact I. split; [exact M1|]. rewrite upd_other in M2 by (apply D; exact I). exact M2.
           ++ destruct M as (sv & I & Ma). exists sv. split; [right; exact I|]. rewrite A in Ma by exact I. exact Ma.
           ++ destruct M as (sv & I & Ma & Mb). exists sv. split; [right; exact I|]. rewrite A in Ma, Mb by exact I. split; assumption.
    + inversion E; subst. split; [intros i I; apply upd_other; intro Q; apply I; left; auto|]. exists s. split; [left; reflexivity|exact An].
    + inversion E; subst. split; [intros i I; apply upd_other; intro Q; apply I; left; auto|].
      exists s. split; [left; reflexivity|]. rewrite An. split; [intros [l El]; discriminate El|discriminate].
Qed.
End Groups.

(** Partitioning the keys by owner loses nothing. *)
Lemma partition_perm : forall (nodes : list node) (servers : list server) (A : Type) (f : bytes -> list A) ks,
  NoDup (map sv_id servers) -> (forall k, In k ks -> exists sv, pick nodes k = Ok sv /\ In sv servers) ->
  Permutation (flat_map (fun sv => flat_map f (own_keys nodes sv ks)) servers) (flat_map f ks).
Proof.
  intros nodes servers A f. induction ks as [|k ks IH]; intros N H.
  - cbn. clear. induction servers as [|s l IHl]; [reflexivity|exact IHl].
  - assert (IH' := IH N (fun j I => H j (or_intror I))). clear IH. destruct (H k (or_introl eq_refl)) as (sv & P & Is). cbn [flat_map].
    rewrite <- IH'. clear IH' H.
    induction servers as [|s servers IHs]; [contradiction|]. inversion N; subst. cbn [flat_map]. unfold own_keys at 1. cbn [filter]. rewrite P.
    fold (own_keys nodes s ks). destruct (Nat.eqb (sv_id sv) (sv_id s)) eqn:E.
    + cbn [flat_map]. rewrite <- app_assoc. apply Permutation_app_head. apply Permutation_app_head.
      apply Nat.eqb_eq in E. assert (X : forall t, In t servers -> own_keys nodes t (k :: ks) = own_keys nodes t ks).
      { intros t It. unfold own_keys. cbn [filter]. rewrite P. destruct (Nat.eqb (sv_id sv) (sv_id t)) eqn:Q; [|reflexivity].
        apply Nat.eqb_eq in Q. exfalso. apply H1. rewrite <- E, Q. apply in_map. exact It. }
      rewrite !flat_map_concat_map. erewrite map_ext_in; [reflexivity|]. intros t It. cbn beta. rewrite X by exact It. reflexivity.
    + destruct Is as [->|Is]; [rewrite Nat.eqb_refl in E; discriminate|]. rewrite (IHs H2 Is).
      rewrite !app_assoc. apply Permutation_app_tail. apply Permutation_app_comm.
Qed.
