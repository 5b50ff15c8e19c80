(** * Properties C05-C08: SinglePool. Proofs in PPool.v and PMulti.v, specification in PoolSpec.v. *)
From Verif Require Import GoBytes GoNum GoIO Item ClientText ClientMeta ClientBinary Cache Daemon Spec Call Guard
  Hash Ring RingSpec RingData Pool PoolSpec PLib PCache PText PClient PRing PPool PMulti.
Local Open Scope Z_scope.

(** ** Two kinds of servers *)
(** A server object of the text protocol connected to its own conforming memcached. *)
Definition text_server (s : bytes * link) (o : op) : (bytes * link) * outcome result :=
  let lr := call (text_client (fst s)) (snd s) o in ((fst s, fst lr), snd lr).
Definition text_pass (s : bytes * link) (d : Z) : bytes * link := (fst s, link_tick (snd s) d).
(** Any implementation of the Server interface that answers as a cache does, with the conventions of
    protocol [pr]. *)
Definition some_error : err := EMsg (B "memcached: refused").
Definition cache_server (pr : proto) (s : bytes * cache) (o : op) : (bytes * cache) * outcome result :=
  let cr := spec_step pr (fst s) (snd s) o in
  ((fst s, fst cr), match snd cr with SOk r => Ok r | SErr e => Err e | SFail => Err some_error end).
Definition cache_pass (s : bytes * cache) (d : Z) : bytes * cache := (fst s, tick (snd s) d).

(** A correctly configured pool: at least one server, all names and all objects different. *)
Definition good_pool (servers : list server) (nodes : list node) : Prop :=
  servers <> [] /\ NewRing servers nodes /\ NoDup (map sv_name servers) /\ NoDup (map sv_id servers).

Lemma wf_empty : forall pr cf now, wf_config cf -> 0 <= now -> wf pr (empty_cache cf now).
Proof. intros pr cf now W N. unfold wf, empty_cache. cbn. repeat split; try apply W; try lia; discriminate. Qed.

(** ** C05 *)
Theorem C05_pool_of_text_servers_is_one_cache : forall servers nodes cf now w evs rs,
  good_pool servers nodes -> wf_config cf -> 0 <= now -> zlen evs < 2 ^ 64 ->
  (forall sv, In sv servers -> exists h, w (sv_id sv) = (sv_name sv, fresh_link (empty_cache cf now) h)) ->
  Forall (legal_event PText) evs ->
  pool_run text_server text_pass servers nodes w evs rs ->
  exists ss, one_cache PText (empty_cache cf now) (fun _ => 0) evs ss /\ Forall2 matches ss rs.
Proof.
  intros servers nodes cf now w evs rs (Ne & R & Nn & Ni) Wc Nw Le Hw L Run.
  apply (simulation PText text_server text_pass (fun name s c => exists h, s = (name, fresh_link c h))) with (nodes := nodes) (servers := servers) (w := w) (cw := fun _ => empty_cache cf now); auto.
  - intros name s c o [h ->] W C Lo. destruct (text_call_ok name c h o W) as (out & E & A); [cbn [cas_bound] in C; lia|exact Lo|].
    unfold text_server. cbn [fst snd]. unfold client_of in E. rewrite E. cbn [fst snd]. split; [exists h; reflexivity|]. apply agrees_matches. exact A.
  - intros name s c d [h ->]. exists h. reflexivity.
  - split; [|intros; split; [reflexivity|cbn; lia]]. intros sv Is. destruct (Hw sv Is) as [h E]. split; [exists h; exact E|].
    split; [apply wf_empty; assumption|]. cbn. repeat split; auto.
Qed.
Print Assumptions C05_pool_of_text_servers_is_one_cache.

(** The same for servers of any protocol that answer as caches, from any common state. *)
Theorem C05_pool_of_conforming_servers_is_one_cache : forall pr servers nodes cf now w evs rs,
  good_pool servers nodes -> wf_config cf -> 0 <= now -> zlen evs < cas_bound pr ->
  (forall sv, In sv servers -> w (sv_id sv) = (sv_name sv, empty_cache cf now)) ->
  Forall (legal_event pr) evs ->
  pool_run (cache_server pr) cache_pass servers nodes w evs rs ->
  exists ss, one_cache pr (empty_cache cf now) (fun _ => 0) evs ss /\ Forall2 matches ss rs.
Proof.
  intros pr servers nodes cf now w evs rs (Ne & R & Nn & Ni) Wc Nw Le Hw L Run.
  apply (simulation pr (cache_server pr) cache_pass (fun name s c => s = (name, c))) with (nodes := nodes) (servers := servers) (w := w) (cw := fun _ => empty_cache cf now); auto.
  - intros name s c o -> W C Lo. unfold cache_server. cbn [fst snd]. split; [reflexivity|].
    destruct (snd (spec_step pr name c o)); cbn; auto. apply completed_msg.
  - intros name s c d ->. reflexivity.
  - split; [|intros; split; [reflexivity|cbn; lia]]. intros sv Is. split; [exact (Hw sv Is)|].
    split; [apply wf_empty; assumption|]. cbn. repeat split; auto.
Qed.
Print Assumptions C05_pool_of_conforming_servers_is_one_cache.

(** No operation on a key touches a server other than the key's owner. *)
Theorem C05_only_the_owner_is_touched : forall ST (step : ST -> op -> ST * outcome result) servers nodes w k o w' r,
  servers <> [] -> NewRing servers nodes -> op_key o = Some k -> routed step nodes w k o = (w', r) ->
  exists sv, In sv servers /\ pick nodes k = Ok sv /\ (forall i, i <> sv_id sv -> w' i = w i)
    /\ w' (sv_id sv) = fst (step (w (sv_id sv)) o) /\ r = snd (step (w (sv_id sv)) o).
Proof.
  intros ST step servers nodes w k o w' r N R K E. destruct (ring_pick_in servers nodes k N R) as (sv & P & Is).
  exists sv. unfold routed, server_call in E. rewrite P in E. inversion E; subst. repeat split; auto.
  - intros i Hi. apply upd_other. exact Hi.
  - apply upd_same.
Qed.
Print Assumptions C05_only_the_owner_is_touched.

(** The hypotheses are met: a pool of two text servers and a history with a compare-and-swap. Every
    such history has a run. *)
Definition poolable (ev : event) : Prop := match ev with Do o => op_key o <> None \/ o = OFlush | Wait _ => True end.
Lemma pool_run_exists : forall ST (step : ST -> op -> ST * outcome result) pass servers nodes evs w,
  Forall poolable evs -> exists rs, pool_run step pass servers nodes w evs rs.
Proof.
  intros ST step pass servers nodes. induction evs as [|[o|d] evs IH]; intros w F; [exists []; constructor|inversion F; subst|inversion F; subst].
  - destruct (op_key o) as [k|] eqn:K.
    + destruct (routed step nodes w k o) as [w' r] eqn:E. destruct (IH w' H2) as [rs Hr]. exists (r :: rs). eapply pr_key; eassumption.
    + destruct H1 as [H1| ->]; [congruence|]. destruct (pool_flush step (map_entries servers) w) as [w' u] eqn:E.
      destruct (IH w' H2) as [rs Hr]. exists (unit_result u :: rs). eapply pr_flush; [apply Permutation_refl|exact E|exact Hr].
  - destruct (IH (fun i => pass (w i) d) H2) as [rs Hr]. exists rs. constructor. exact Hr.
Qed.
Definition demo_cfg := mkConfig 1048576 (B "1.6.9") true.
Definition demo_set (k v : string) (cas : Z) : op := OSet (mkItem (B k) (B v) None 0 cas []).
Definition pool_history : list event :=
  [Do (demo_set "x" "1" 0); Do (demo_set "hello" "2" 0); Do (OIncr (B "x") 5 0); Wait 3; Do (OGet (B "hello"));
   Do (demo_set "hello" "3" 1); Do OFlush; Do (OGet (B "x"))].
Example C05_met : good_pool [sv_a; sv_b] (new_ring [sv_a; sv_b]) /\ wf_config demo_cfg
  /\ Forall (legal_event PText) pool_history
  /\ exists rs, pool_run text_server text_pass [sv_a; sv_b] (new_ring [sv_a; sv_b])
       (fun i => (if Nat.eqb i 0 then B "a" else B "b", fresh_link (empty_cache demo_cfg 100) reset_header)) pool_history rs.
Proof.
  split; [|split; [|split]].
  - split; [discriminate|]. split; [apply new_ring_ok|]. split; repeat constructor; cbn; intuition discriminate.
  - repeat split; try (cbn; lia); try (vm_compute; congruence). repeat constructor; vm_compute; congruence.
  - apply legal_events_ok. vm_compute. reflexivity.
  - apply pool_run_exists. repeat constructor; cbn; try discriminate; auto; left; discriminate.
Qed.

(** ** C06 *)
(** [own_keys] (PMulti.v) are the requested keys Get would send to a server, in request order;
    [answer] is the server's answer to GetMulti of exactly those keys; [asked] says there are any. *)
Theorem C06_getmulti_asks_each_owner_once : forall ST (step : ST -> op -> ST * outcome result) servers nodes w ks w' r,
  good_pool servers nodes -> pool_getmulti step servers nodes w ks w' r ->
  (* a server that owns none of the keys is not contacted *)
  (forall sv, In sv servers -> own_keys nodes sv ks = [] -> w' (sv_id sv) = w (sv_id sv))
  (* on success every owner was asked once, and the result is exactly the union of the answers *)
  /\ (forall items, r = Ok items ->
        Permutation items (flat_map (fun sv => items_in (answer step nodes w ks sv)) (filter (asked nodes ks) servers))
        /\ forall sv, In sv servers -> own_keys nodes sv ks <> [] ->
             (exists l, answer step nodes w ks sv = Ok (RItems l))
             /\ w' (sv_id sv) = fst (step (w (sv_id sv)) (OGetMulti (own_keys nodes sv ks))))
  (* an error is the error of one of the owners *)
  /\ (forall e, r = Err e -> exists sv, In sv servers /\ own_keys nodes sv ks <> [] /\ answer step nodes w ks sv = Err e)
  (* if some owner fails, the call fails *)
  /\ (forall sv e, In sv servers -> own_keys nodes sv ks <> [] -> answer step nodes w ks sv = Err e -> forall items, r <> Ok items).
Proof.
  intros ST step servers nodes w ks w' r (Ne & R & Nn & Ni) H. apply (pool_getmulti_iff step servers nodes Ne R Nn Ni) in H.
  destruct H as (order & Po & E).
  assert (No : NoDup order).
  { apply Permutation_NoDup with (l := filter (asked nodes ks) servers); [apply Permutation_sym; exact Po|]. apply NoDup_filter'.
    eapply NoDup_map_inv. exact Ni. }
  assert (Io : forall sv, In sv order <-> In sv servers /\ own_keys nodes sv ks <> []).
  { intro sv. rewrite <- (asked_spec nodes ks sv), <- filter_In. split; apply Permutation_in; [exact Po|apply Permutation_sym; exact Po]. }
  destruct (run_groups_ok step servers nodes Nn Ni ks order w [] w' r No (fun sv I => proj1 (proj1 (Io sv) I)) E) as [U M].
  split; [|split; [|split]].
  - intros sv Is K. apply U. intro Q. apply in_map_iff in Q. destruct Q as (t & Et & It). apply Io in It. destruct It as [It Kt].
    rewrite (id_inj servers Ni t sv It Is Et) in Kt. contradiction.
  - intros items ->. destruct M as [Mi Ms]. split.
    + rewrite Mi. cbn [app]. apply Permutation_flat_map. exact Po.
    + intros sv Is K. apply Ms. apply Io. split; assumption.
  - intros e ->. destruct M as (sv & I & Ma). exists sv. apply Io in I. tauto.
  - intros sv e Is K An items ->. destruct M as [_ Ms]. destruct (Ms sv (proj2 (Io sv) (conj Is K))) as [[l El] _]. congruence.
Qed.
Print Assumptions C06_getmulti_asks_each_owner_once.

(** A result exists, and the call does not panic. *)
Theorem C06_getmulti_returns : forall ST (step : ST -> op -> ST * outcome result) servers nodes w ks,
  good_pool servers nodes -> (forall s l, match snd (step s (OGetMulti l)) with Ok (RItems _) | Err _ => True | _ => False end) ->
  (exists w' r, pool_getmulti step servers nodes w ks w' r)
  /\ forall w' r, pool_getmulti step servers nodes w ks w' r -> r <> Panic.
Proof.
  intros ST step servers nodes w ks (Ne & R & Nn & Ni) T. split.
  - destruct (run_groups step servers w (map (fun sv => (sv_name sv, own_keys nodes sv ks)) (filter (asked nodes ks) servers)) []) as [w' r] eqn:E.
    exists w', r. apply (pool_getmulti_iff step servers nodes Ne R Nn Ni). exists (filter (asked nodes ks) servers). split; [reflexivity|exact E].
  - intros w' r H ->. apply (pool_getmulti_iff step servers nodes Ne R Nn Ni) in H. destruct H as (order & Po & E).
    assert (No : NoDup order).
    { apply Permutation_NoDup with (l := filter (asked nodes ks) servers); [apply Permutation_sym; exact Po|]. apply NoDup_filter'. eapply NoDup_map_inv. exact Ni. }
    destruct (run_groups_ok step servers nodes Nn Ni ks order w [] w' Panic No) with (2 := E) as [_ (sv & I & M1 & M2)].
    + intros sv I. apply (Permutation_in _ Po) in I. apply filter_In in I. apply I.
    + unfold answer in *. specialize (T (w (sv_id sv)) (own_keys nodes sv ks)).
      destruct (snd (step (w (sv_id sv)) (OGetMulti (own_keys nodes sv ks)))) as [[]|e|]; try contradiction.
      * apply M1. eauto.
      * eapply M2. reflexivity.
Qed.
Print Assumptions C06_getmulti_returns.

(** With text servers: GetMulti returns exactly the items Get finds for the requested keys (without
    their cas numbers), in some order. *)
Definition got (name : bytes) (c : cache) (k : bytes) : list item :=
  match lookup c k with Some e => [item_view PText name true c k e] | None => [] end.
Theorem C06_getmulti_of_text_servers : forall servers nodes w ks w' r (cw : nat -> cache),
  good_pool servers nodes ->
  (forall sv, In sv servers -> wf PText (cw (sv_id sv)) /\ c_cas (cw (sv_id sv)) < 2 ^ 64
     /\ exists h, w (sv_id sv) = (sv_name sv, fresh_link (cw (sv_id sv)) h)) ->
  Forall (legal_key PText) ks ->
  pool_getmulti text_server servers nodes w ks w' r ->
  exists items, r = Ok items
    /\ Permutation items (flat_map (fun k => match pick nodes k with Ok sv => got (sv_name sv) (cw (sv_id sv)) k | _ => [] end) ks).
Proof.
  intros servers nodes w ks w' r cw GP Hw L H. assert (GP' := GP). destruct GP' as (Ne & R & Nn & Ni).
  assert (An : forall sv, In sv servers -> own_keys nodes sv ks <> [] ->
     answer text_server nodes w ks sv = Ok (RItems (flat_map (got (sv_name sv) (cw (sv_id sv))) (own_keys nodes sv ks)))).
  { intros sv Is K. destruct (Hw sv Is) as (W & C & h & E). unfold answer. rewrite E. unfold text_server. cbn [fst snd].
    assert (Lk : legal PText (OGetMulti (own_keys nodes sv ks))).
    { split; [exact K|]. apply Forall_forall. intros k I. unfold own_keys in I. apply filter_In in I. rewrite Forall_forall in L. apply L, I. }
    destruct (text_call_ok (sv_name sv) _ h _ W C Lk) as (out & Ec & A). rewrite Ec. cbn [snd]. cbn [spec_step snd agrees] in A.
    destruct out; try contradiction. subst. reflexivity. }
  destruct (C06_getmulti_asks_each_owner_once _ _ _ _ _ _ _ _ GP H) as (_ & Hok & Herr & _).
  destruct r as [items|e|].
  - exists items. split; [reflexivity|]. destruct (Hok items eq_refl) as [P _]. rewrite P.
    set (f := fun k => match pick nodes k with Ok sv => got (sv_name sv) (cw (sv_id sv)) k | _ => [] end).
    rewrite <- (partition_perm nodes servers item f ks Ni) by (intros k _; apply (ring_pick_in servers nodes k Ne R)).
    assert (X : flat_map (fun sv => items_in (answer text_server nodes w ks sv)) (filter (asked nodes ks) servers)
              = flat_map (fun sv => flat_map f (own_keys nodes sv ks)) servers).
    { assert (Y : forall sv, In sv servers -> flat_map f (own_keys nodes sv ks) = flat_map (got (sv_name sv) (cw (sv_id sv))) (own_keys nodes sv ks)).
      { intros sv Is. rewrite !flat_map_concat_map. f_equal. apply map_ext_in. intros k Ik. unfold own_keys in Ik. apply filter_In in Ik. destruct Ik as [_ Pk].
        unfold f. destruct (pick nodes k) as [t|e|] eqn:P1; try discriminate Pk. apply Nat.eqb_eq in Pk.
        rewrite (id_inj servers Ni t sv (pick_in servers nodes Ne R k t P1) Is Pk). reflexivity. }
      assert (Z : forall l, (forall sv, In sv l -> In sv servers) ->
        flat_map (fun sv => items_in (answer text_server nodes w ks sv)) (filter (asked nodes ks) l)
        = flat_map (fun sv => flat_map f (own_keys nodes sv ks)) l); [|apply Z; auto].
      induction l as [|sv l IH]; intro Il; [reflexivity|]. cbn [filter flat_map].
      rewrite <- IH by (intros; apply Il; right; assumption). rewrite (Y sv (Il sv (or_introl eq_refl))).
      destruct (asked nodes ks sv) eqn:A.
      - cbn [flat_map]. apply asked_spec in A. rewrite (An sv (Il sv (or_introl eq_refl)) A). reflexivity.
      - unfold asked in A. destruct (own_keys nodes sv ks); [reflexivity|discriminate A]. }
    rewrite X. reflexivity.
  - exfalso. destruct (Herr e eq_refl) as (sv & Is & K & Q). rewrite (An sv Is K) in Q. discriminate Q.
  - exfalso. apply (pool_getmulti_iff text_server servers nodes Ne R Nn Ni) in H. destruct H as (order & Po & E).
    assert (No : NoDup order).
    { apply Permutation_NoDup with (l := filter (asked nodes ks) servers); [apply Permutation_sym; exact Po|]. apply NoDup_filter'. eapply NoDup_map_inv. exact Ni. }
    assert (Io : forall sv, In sv order -> In sv servers /\ own_keys nodes sv ks <> []).
    { intros sv I. apply (Permutation_in _ Po) in I. apply filter_In in I. rewrite asked_spec in I. exact I. }
    destruct (run_groups_ok text_server servers nodes Nn Ni ks order w [] w' Panic No (fun sv I => proj1 (Io sv I)) E) as [_ (sv & I & M1 & _)].
    destruct (Io sv I) as [Is K]. apply M1. rewrite (An sv Is K). eauto.
Qed.
Print Assumptions C06_getmulti_of_text_servers.
Example C06_met : good_pool [sv_a; sv_b] (new_ring [sv_a; sv_b])
  /\ own_keys (new_ring [sv_a; sv_b]) sv_a [B "x"; B "hello"; B "x"] = [B "x"; B "x"]
  /\ own_keys (new_ring [sv_a; sv_b]) sv_b [B "x"; B "hello"; B "x"] = [B "hello"].
Proof. split; [apply C05_met|]. rewrite ring_ab. split; vm_compute; reflexivity. Qed.

(** Two servers configured with the same name: GetMulti asks a server that owns none of the keys. *)
Definition C06_asks_only_owners : Prop := forall ST (step : ST -> op -> ST * outcome result) servers nodes w ks w' r,
  servers <> [] -> NewRing servers nodes -> NoDup (map sv_id servers) -> pool_getmulti step servers nodes w ks w' r ->
  forall sv, In sv servers -> own_keys nodes sv ks = [] -> w' (sv_id sv) = w (sv_id sv).
Definition twin0 := mkServer 0 (B "a").
Definition twin1 := mkServer 1 (B "a").
Definition twin_ring : list node := sort_nodes (map (mkNode twin1) tab_a ++ map (mkNode twin0) tab_a).
Lemma twin_points : points [twin0; twin1] = map (mkNode twin0) tab_a ++ map (mkNode twin1) tab_a.
Proof.
  unfold points. cbn [flat_map]. rewrite app_nil_r.
  assert (E : forall s, sv_name s = B "a" -> points_of s = map (mkNode s) tab_a).
  { intros s Hs. assert (T : tab_a = map nd_hash (points_of sv_a)) by (rewrite points_a, map_map; cbn [nd_hash]; symmetry; apply map_id).
    rewrite T. unfold points_of. rewrite !map_map. apply map_ext. intro i. cbn [nd_hash]. rewrite Hs. reflexivity. }
  rewrite !E by reflexivity. reflexivity.
Qed.
Lemma twin_ring_ok : NewRing [twin0; twin1] twin_ring.
Proof.
  unfold NewRing. rewrite twin_points. split.
  - unfold twin_ring. eapply Permutation_trans; [|apply Permutation_app_comm].
    generalize (map (mkNode twin1) tab_a ++ map (mkNode twin0) tab_a). intro l. unfold sort_nodes.
    induction l as [|n l IH]; [reflexivity|]. simpl. rewrite insert_perm. constructor. exact IH.
  - unfold twin_ring. generalize (map (mkNode twin1) tab_a ++ map (mkNode twin0) tab_a). intro l. unfold sort_nodes.
    induction l as [|n l IH]; [constructor|]. simpl. apply insert_sorted. exact IH.
Qed.
Theorem C06_same_names_refuted : ~ C06_asks_only_owners.
Proof.
  intro H. set (step := fun (s : nat) (_ : op) => (S s, @Ok result (RItems []))).
  assert (P : pick twin_ring (B "x") = Ok twin0) by (vm_compute; reflexivity).
  assert (G : pool_getmulti step [twin0; twin1] twin_ring (fun _ => 0%nat) [B "x"] (upd (fun _ => 0%nat) 1 1%nat) (Ok [])).
  { unfold pool_getmulti. cbn [group_keys]. rewrite P. exists [(B "a", [B "x"])]. split; reflexivity. }
  assert (E := H nat step [twin0; twin1] twin_ring _ _ _ _ ltac:(discriminate) twin_ring_ok ltac:(repeat constructor; cbn; intuition discriminate) G
    twin1 ltac:(right; left; reflexivity)).
  unfold own_keys in E. cbn [filter] in E. rewrite P in E. cbn in E. specialize (E eq_refl). discriminate E.
Qed.
Print Assumptions C06_same_names_refuted.

(** ** C07 *)
(** [order] is the order in which Go ranges over the map of servers. *)
Section Each.
Context {ST : Type}.
Variable step : ST -> op -> ST * outcome result.
Variable close : ST -> ST * outcome unit.

Lemma order_props : forall servers nodes order, good_pool servers nodes -> Permutation order (map_entries servers) ->
  NoDup (map sv_id order) /\ (forall sv, In sv order <-> In sv servers).
Proof.
  intros servers nodes order (Ne & R & Nn & Ni) P. rewrite map_entries_nodup in P by exact Nn. split.
  - apply Permutation_NoDup with (l := map sv_id servers); [apply Permutation_map, Permutation_sym; exact P|exact Ni].
  - intro sv. split; apply Permutation_in; [exact P|apply Permutation_sym; exact P].
Qed.
Lemma unit_ok : forall o, unit_of o = Ok tt <-> exists r, o = Ok r.
Proof. intros [r|e|]; cbn; split; intro H; eauto; try discriminate H; destruct H as [x H]; discriminate H. Qed.

Theorem C07_flush_covers_every_server : forall servers nodes order w w' r,
  good_pool servers nodes -> Permutation order (map_entries servers) -> pool_flush step order w = (w', r) ->
  (r = Ok tt -> forall sv, In sv servers -> (exists x, snd (step (w (sv_id sv)) OFlush) = Ok x)
                                      /\ w' (sv_id sv) = fst (step (w (sv_id sv)) OFlush))
  /\ (r <> Ok tt -> exists sv, In sv servers /\ r = unit_of (snd (step (w (sv_id sv)) OFlush)))
  /\ ((exists sv, In sv servers /\ forall x, snd (step (w (sv_id sv)) OFlush) <> Ok x) -> r <> Ok tt).
Proof.
  intros servers nodes order w w' r GP P E. destruct (order_props _ _ _ GP P) as [No Io]. rewrite pool_flush_act in E.
  split; [|split].
  - intros -> sv Is. destruct (each_ok _ _ _ _ No E) as [G _]. destruct (G sv (proj2 (Io sv) Is)) as [G1 G2]. cbn [fst snd] in *.
    split; [apply unit_ok; exact G1|exact G2].
  - intro Nr. destruct (each_err (fun s => (fst (step s OFlush), unit_of (snd (step s OFlush)))) order w No) as (sv & I & Q); [rewrite E; exact Nr|].
    exists sv. split; [apply Io; exact I|]. rewrite E in Q. exact Q.
  - intros (sv & Is & Q) ->. destruct (each_ok _ _ _ _ No E) as [G _]. destruct (G sv (proj2 (Io sv) Is)) as [G1 _]. cbn [snd] in G1.
    apply unit_ok in G1. destruct G1 as [x G1]. exact (Q x G1).
Qed.

Theorem C07_close_covers_every_server : forall servers nodes order w w' r,
  good_pool servers nodes -> Permutation order (map_entries servers) -> pool_close close order w = (w', r) ->
  (r = Ok tt -> forall sv, In sv servers -> snd (close (w (sv_id sv))) = Ok tt /\ w' (sv_id sv) = fst (close (w (sv_id sv))))
  /\ (r <> Ok tt -> exists sv, In sv servers /\ r = snd (close (w (sv_id sv))))
  /\ ((exists sv, In sv servers /\ snd (close (w (sv_id sv))) <> Ok tt) -> r <> Ok tt).
Proof.
  intros servers nodes order w w' r GP P E. destruct (order_props _ _ _ GP P) as [No Io]. change (pool_close close order w) with (each (act close) order w) in E.
  split; [|split].
  - intros -> sv Is. destruct (each_ok _ _ _ _ No E) as [G _]. exact (G sv (proj2 (Io sv) Is)).
  - intro Nr. destruct (each_err close order w No) as (sv & I & Q); [rewrite E; exact Nr|].
    exists sv. split; [apply Io; exact I|]. rewrite E in Q. exact Q.
  - intros (sv & Is & Q) ->. destruct (each_ok _ _ _ _ No E) as [G _]. destruct (G sv (proj2 (Io sv) Is)) as [G1 _]. contradiction.
Qed.

Lemma version_ok : forall order w acc w' m r, NoDup (map sv_id order) -> pool_version step order w acc = (w', m, r) ->
  (r = Ok tt -> (exists vs, m = acc ++ combine (map sv_name order) vs /\ length vs = length order
                   /\ forall sv, In sv order -> exists v, snd (step (w (sv_id sv)) OVersion) = Ok (RStr v) /\ In (sv_name sv, v) m)
                /\ forall sv, In sv order -> w' (sv_id sv) = fst (step (w (sv_id sv)) OVersion))
  /\ (r <> Ok tt -> exists sv, In sv order /\ forall v, snd (step (w (sv_id sv)) OVersion) <> Ok (RStr v))
  /\ (forall i, ~ In i (map sv_id order) -> w' i = w i).
Proof.
  induction order as [|s order IH]; intros w acc w' m r N E; cbn [pool_version] in E.
  - inversion E; subst. split; [|split; [congruence|reflexivity]]. intros _. split; [|contradiction].
    exists []. rewrite app_nil_r. repeat split. contradiction.
  - inversion N; subst. unfold server_call in E.
    assert (D : forall sv, In sv order -> sv_id sv <> sv_id s) by (intros sv I Q; apply H1; rewrite <- Q; apply in_map; exact I).
    assert (Bad : (forall v, snd (step (w (sv_id s)) OVersion) <> Ok (RStr v)) -> forall x, r = x -> x <> Ok tt ->
      w' = upd w (sv_id s) (fst (step (w (sv_id s)) OVersion)) -> 
      (r = Ok tt -> (exists vs, m = acc ++ combine (map sv_name (s :: order)) vs /\ length vs = length (s :: order)
                   /\ forall sv, In sv (s :: order) -> exists v, snd (step (w (sv_id sv)) OVersion) = Ok (RStr v) /\ In (sv_name sv, v) m)
                /\ forall sv, In sv (s :: order) -> w' (sv_id sv) = fst (step (w (sv_id sv)) OVersion))
      /\ (r <> Ok tt -> exists sv, In sv (s :: order) /\ forall v, snd (step (w (sv_id sv)) OVersion) <> Ok (RStr v))
      /\ (forall i, ~ In i (map sv_id (s :: order)) -> w' i = w i)).
    { intros B x -> X ->. split; [contradiction|]. split; [intros _; exists s; split; [left; reflexivity|exact B]|].
      intros i I. apply upd_other. intro Q. apply I. left. auto. }
    destruct (step (w (sv_id s)) OVersion) as [st o] eqn:St. cbn [fst snd] in *. destruct o as [res|e|].
    + destruct res as [i|l| |n|v]; try (inversion E; subst; apply (Bad ltac:(discriminate) Panic); [reflexivity|discriminate|reflexivity]).
      destruct (IH _ _ _ _ _ H2 E) as (A1 & A2 & A3). split; [|split].
      * intros ->. destruct (A1 eq_refl) as [(vs & Em & Lv & Fv) Fw]. split.
        -- exists (v :: vs). split; [rewrite Em, <- app_assoc; reflexivity|]. split; [cbn; congruence|]. intros sv [<-|I].
           ++ exists v. rewrite St. split; [reflexivity|]. rewrite Em. apply in_or_app. left. apply in_or_app. right. left. reflexivity.
           ++ destruct (Fv sv I) as (x & Q & Ix). rewrite upd_other in Q by (apply D; exact I). eauto.
        -- intros sv [<-|I]; [rewrite St; cbn [fst]; rewrite A3 by assumption; apply upd_same|].
           rewrite (Fw sv I). rewrite upd_other by (apply D; exact I). reflexivity.
      * intro Nr. destruct (A2 Nr) as (sv & I & Q). exists sv. split; [right; exact I|]. rewrite upd_other in Q by (apply D; exact I). exact Q.
      * intros i I. cbn [map In] in I. rewrite A3 by tauto. apply upd_other. intro Q. apply I. left. auto.
    + inversion E; subst. apply (Bad ltac:(discriminate) (Err e)); [reflexivity|discriminate|reflexivity].
    + inversion E; subst. apply (Bad ltac:(discriminate) Panic); [reflexivity|discriminate|reflexivity].
Qed.
Lemma combine_fst : forall (A C : Type) (a : list A) (b : list C), length b = length a -> map fst (combine a b) = a.
Proof. intros A C a. induction a as [|x a IH]; intros [|y b] L; cbn in *; try discriminate; [reflexivity|]. f_equal. apply IH. congruence. Qed.

Theorem C07_version_covers_every_server : forall servers nodes order w w' m r,
  good_pool servers nodes -> Permutation order (map_entries servers) -> pool_version step order w [] = (w', m, r) ->
  (r = Ok tt -> Permutation (map fst m) (map sv_name servers)
     /\ forall sv, In sv servers -> exists v, snd (step (w (sv_id sv)) OVersion) = Ok (RStr v) /\ In (sv_name sv, v) m
                                    /\ w' (sv_id sv) = fst (step (w (sv_id sv)) OVersion))
  /\ (r <> Ok tt -> exists sv, In sv servers /\ forall v, snd (step (w (sv_id sv)) OVersion) <> Ok (RStr v))
  /\ ((exists sv, In sv servers /\ forall v, snd (step (w (sv_id sv)) OVersion) <> Ok (RStr v)) -> r <> Ok tt).
Proof.
  intros servers nodes order w w' m r GP P E. destruct (order_props _ _ _ GP P) as [No Io].
  destruct (version_ok _ _ _ _ _ _ No E) as (A1 & A2 & _). split; [|split].
  - intros ->. destruct (A1 eq_refl) as [(vs & Em & Lv & Fv) Fw]. cbn [app] in Em. split.
    + rewrite Em. rewrite combine_fst by (rewrite map_length; exact Lv). apply Permutation_map.
      destruct GP as (_ & _ & Nn & _). rewrite map_entries_nodup in P by exact Nn. exact P.
    + intros sv Is. destruct (Fv sv (proj2 (Io sv) Is)) as (v & Q & Iv). exists v. repeat split; auto. apply Fw. apply Io. exact Is.
  - intro Nr. destruct (A2 Nr) as (sv & I & Q). exists sv. split; [apply Io; exact I|exact Q].
  - intros (sv & Is & Q) ->. destruct (A1 eq_refl) as [(vs & Em & Lv & Fv) Fw]. destruct (Fv sv (proj2 (Io sv) Is)) as (v & Q' & _). exact (Q v Q').
Qed.

(** ** C08 *)
(** Ring.Close closes every server, and reports an error iff some close failed. *)
Lemma ring_close_ok : forall order w e w' r, NoDup (map sv_id order) -> (forall sv, In sv order -> snd (close (w (sv_id sv))) <> Panic) ->
  ring_close close order w e = (w', r) ->
  (forall sv, In sv order -> w' (sv_id sv) = fst (close (w (sv_id sv))))
  /\ (r = Ok tt <-> e = None /\ forall sv, In sv order -> snd (close (w (sv_id sv))) = Ok tt)
  /\ (r = Ok tt \/ exists x, r = Err x)
  /\ (forall i, ~ In i (map sv_id order) -> w' i = w i).
Proof.
  induction order as [|s order IH]; intros w e w' r N NP E; cbn [ring_close] in E.
  - inversion E; subst. split; [contradiction|]. split; [|split; [destruct e; eauto|reflexivity]]. destruct e; split; intro H; [discriminate H|destruct H; discriminate|split; [reflexivity|contradiction]|reflexivity].
  - inversion N; subst. unfold close_call in E.
    assert (D : forall sv, In sv order -> sv_id sv <> sv_id s) by (intros sv I Q; apply H1; rewrite <- Q; apply in_map; exact I).
    pose proof (NP s (or_introl eq_refl)) as Ns. destruct (close (w (sv_id s))) as [st o] eqn:C. cbn [fst snd] in *.
    assert (NP' : forall sv, In sv order -> snd (close (upd w (sv_id s) st (sv_id sv))) <> Panic).
    { intros sv I. rewrite upd_other by (apply D; exact I). apply NP. right. exact I. }
    destruct o as [[]|x|]; [| |congruence].
    + destruct (IH _ _ _ _ H2 NP' E) as (A1 & A2 & A3 & A4). split; [|split; [|split; [exact A3|]]].
      * intros sv [<-|I]; [rewrite C; cbn [fst]; rewrite A4 by assumption; apply upd_same|]. rewrite (A1 sv I), upd_other by (apply D; exact I). reflexivity.
      * rewrite A2. split; intros [Q1 Q2]; (split; [exact Q1|]).
        -- intros sv [<-|I]; [rewrite C; reflexivity|]. rewrite <- (Q2 sv I), upd_other by (apply D; exact I). reflexivity.
        -- intros sv I. rewrite upd_other by (apply D; exact I). apply Q2. right. exact I.
      * intros i I. cbn [map In] in I. rewrite A4 by tauto. apply upd_other. intro Q. apply I. left. auto.
    + destruct (IH _ _ _ _ H2 NP' E) as (A1 & A2 & A3 & A4). split; [|split; [|split; [exact A3|]]].
      * intros sv [<-|I]; [rewrite C; cbn [fst]; rewrite A4 by assumption; apply upd_same|]. rewrite (A1 sv I), upd_other by (apply D; exact I). reflexivity.
      * rewrite A2. split; intros [Q1 Q2]; [discriminate Q1|]. exfalso. specialize (Q2 s (or_introl eq_refl)). rewrite C in Q2. discriminate Q2.
      * intros i I. cbn [map In] in I. rewrite A4 by tauto. apply upd_other. intro Q. apply I. left. auto.
Qed.
Theorem C08_ring_close_closes_all : forall servers nodes order w w' r,
  good_pool servers nodes -> Permutation order (map_entries servers) ->
  (forall sv, In sv servers -> snd (close (w (sv_id sv))) <> Panic) ->
  ring_close close order w None = (w', r) ->
  (forall sv, In sv servers -> w' (sv_id sv) = fst (close (w (sv_id sv))))
  /\ (r = Ok tt <-> forall sv, In sv servers -> snd (close (w (sv_id sv))) = Ok tt)
  /\ (r = Ok tt \/ exists x, r = Err x).
Proof.
  intros servers nodes order w w' r GP P NP E. destruct (order_props _ _ _ GP P) as [No Io].
  destruct (ring_close_ok order w None w' r No (fun sv I => NP sv (proj1 (Io sv) I)) E) as (A1 & A2 & A3 & _).
  split; [intros sv Is; apply A1; apply Io; exact Is|]. split; [|exact A3]. rewrite A2. split.
  - intros [_ Q] sv Is. apply Q. apply Io. exact Is.
  - intro Q. split; [reflexivity|]. intros sv I. apply Q. apply Io. exact I.
Qed.
End Each.
Print Assumptions C07_flush_covers_every_server.
Print Assumptions C07_close_covers_every_server.
Print Assumptions C07_version_covers_every_server.
Print Assumptions C08_ring_close_closes_all.

(** With two servers of the same name, Flush reports success without having flushed the first. *)
Theorem C07_same_names_refuted : ~ (forall ST (step : ST -> op -> ST * outcome result) servers nodes order w w',
  servers <> [] -> NewRing servers nodes -> NoDup (map sv_id servers) -> Permutation order (map_entries servers) ->
  pool_flush step order w = (w', Ok tt) ->
  forall sv, In sv servers -> w' (sv_id sv) = fst (step (w (sv_id sv)) OFlush)).
Proof.
  intro H. specialize (H nat (fun (s : nat) (_ : op) => (S s, @Ok result RUnit)) [twin0; twin1] twin_ring [twin1] (fun _ => 0%nat) _ ltac:(discriminate)
    twin_ring_ok ltac:(repeat constructor; cbn; intuition discriminate) ltac:(reflexivity) eq_refl twin0 (or_introl eq_refl)).
  discriminate H.
Qed.
Print Assumptions C07_same_names_refuted.
(** The hypotheses are met: one pool where both servers do the operation, one where the second one fails. *)
Definition count_or_fail (s : nat * bool) (o : op) : (nat * bool) * outcome result :=
  if snd s then ((S (fst s), true), match o with OVersion => Ok (RStr (B "1.6")) | _ => Ok RUnit end) else (s, Err EIO).
Example C07_met : good_pool [sv_a; sv_b] (new_ring [sv_a; sv_b]) /\ Permutation [sv_b; sv_a] (map_entries [sv_a; sv_b])
  /\ (let x := pool_flush count_or_fail [sv_b; sv_a] (fun _ => (0%nat, true)) in snd x = Ok tt /\ fst x 0%nat = (1%nat, true) /\ fst x 1%nat = (1%nat, true))
  /\ snd (pool_flush count_or_fail [sv_b; sv_a] (fun i => (0%nat, Nat.eqb i 1))) = Err EIO
  /\ (let x := pool_version count_or_fail [sv_b; sv_a] (fun _ => (0%nat, true)) [] in snd x = Ok tt /\ length (snd (fst x)) = 2%nat).
Proof. split; [apply C05_met|]. split; [apply perm_swap|]. repeat split. Qed.

(** The full statement for SinglePool.Close, and its failure: the servers after the first one that
    fails to close stay open. *)
Definition C08_pool_close_closes_all : Prop := forall ST (close : ST -> ST * outcome unit) servers nodes order w w' r,
  good_pool servers nodes -> Permutation order (map_entries servers) ->
  (forall sv, In sv servers -> snd (close (w (sv_id sv))) <> Panic) ->
  pool_close close order w = (w', r) ->
  forall sv, In sv servers -> w' (sv_id sv) = fst (close (w (sv_id sv))).
(** A server is (fails to close?, open?). *)
Definition toy_close (s : bool * bool) : (bool * bool) * outcome unit := ((fst s, false), if fst s then Err EClosed else Ok tt).
Theorem C08_pool_close_refuted : ~ C08_pool_close_closes_all.
Proof.
  intro H. specialize (H (bool * bool)%type toy_close [sv_a; sv_b] (new_ring [sv_a; sv_b]) [sv_a; sv_b] (fun i => (Nat.eqb i 0, true))).
  assert (E := H _ _ (proj1 C05_met) (Permutation_refl _) ltac:(intros sv [<-|[<-|[]]]; discriminate) eq_refl sv_b (or_intror (or_introl eq_refl))).
  discriminate E.
Qed.
Print Assumptions C08_pool_close_refuted.
(** It holds when no close fails (C07_close_covers_every_server). *)
Theorem C08_pool_close_partial : forall ST (close : ST -> ST * outcome unit) servers nodes order w w' r,
  good_pool servers nodes -> Permutation order (map_entries servers) ->
  (forall sv, In sv servers -> snd (close (w (sv_id sv))) = Ok tt) ->
  pool_close close order w = (w', r) ->
  r = Ok tt /\ forall sv, In sv servers -> w' (sv_id sv) = fst (close (w (sv_id sv))).
Proof.
  intros ST close servers nodes order w w' r GP P H E.
  assert (r = Ok tt).
  { destruct (order_props _ _ _ GP P) as [No Io].
    pose proof (each_all_ok close order w No (fun sv I => H sv (proj1 (Io sv) I))) as G.
    change (each (act close) order w) with (pool_close close order w) in G. rewrite E in G. exact G. }
  subst r. split; [reflexivity|]. intros sv Is. destruct (C07_close_covers_every_server close _ _ _ _ _ _ GP P E) as (A & _).
  apply A; auto.
Qed.
Print Assumptions C08_pool_close_partial.
Example C08_met : good_pool [sv_a; sv_b] (new_ring [sv_a; sv_b]) /\ Permutation [sv_b; sv_a] (map_entries [sv_a; sv_b])
  /\ snd (ring_close toy_close [sv_b; sv_a] (fun i => (Nat.eqb i 0, true)) None) = Err EClosed
  /\ fst (ring_close toy_close [sv_b; sv_a] (fun i => (Nat.eqb i 0, true)) None) 1%nat = (false, false).
Proof. split; [apply C05_met|]. split; [apply perm_swap|]. split; reflexivity. Qed.
