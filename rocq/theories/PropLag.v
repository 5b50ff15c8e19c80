(** * Property C94: ReplicaPool.GetMulti and the calls after it (cluster/cluster.go:31-55,
    client/server.go:707-759, 829-904).

    A ReplicaPool talks to its servers in the meta protocol. The meta GetMulti takes the first "EN"
    (not found) for the end of the reply; the answers to the keys behind it, and the final "MN", stay
    in the connection, and every later call on that connection is given an answer to an earlier
    question. *)
From Verif Require Import GoBytes GoNum GoIO Item ClientText ClientMeta ClientBinary Cache Daemon Spec Call Guard Intent
  Hash Ring RingSpec RingData Pool PoolSpec Replica ReplicaSpec PLib PDaemon PCache PText PMeta PClient PRing PPool PMulti PReplica
  PropCalls PropPool PropReplica.
Local Open Scope Z_scope.

(** ** Specification *)
(** What the memcached holding [c] says about [j], as the caller sees it under the name [label]. *)
Definition said (c : cache) (j label : bytes) : outcome result :=
  match lookup c j with
  | Some e => Ok (RItem (mkItem label (e_value e) (Some (be 4 (e_flags e))) (ttl c e) (e_cas e) []))
  | None => Err ENotFound
  end.
(** A question asked on a connection: a key, put to a memcached that held [c] at that moment; or the
    no-op that ends a GetMulti. *)
Definition question := option (cache * bytes).
Definition answer_to (q : question) (label : bytes) : outcome result :=
  match q with Some (c, j) => said c j label | None => Err ENotFound end.

(** Other clients, over their own connections, have brought server [i]'s memcached to [c]. *)
Definition moved (w : world link) (i : nat) (c : cache) : world link :=
  upd w i (mkLink c (l_pending (w i)) (l_unread (w i)) (l_header (w i))).
(** A sequence of Gets on the pool for keys of one primary; before each one that primary's memcached
    is brought to the given contents. *)
Fixpoint later_gets (pn sn : list node) (i : nat) (w : world link) (evs : list (cache * bytes)) : world link * list (outcome result) :=
  match evs with
  | [] => (w, [])
  | (c, k) :: evs' =>
      let wr := exec meta_server (rp_prog pn sn (RGet k)) (moved w i c) in
      let wrs := later_gets pn sn i (fst wr) evs' in (fst wrs, snd wr :: snd wrs)
  end.
Definition fit (c : cache) : Prop := wf PMeta c /\ c_cas c < 2 ^ 63.

(** The keys up to the first one that is not there. *)
Fixpoint until_miss (c : cache) (ks : list bytes) : list bytes :=
  match ks with
  | [] => []
  | k :: ks' => match lookup c k with Some _ => k :: until_miss c ks' | None => [] end
  end.
Definition got_meta (c : cache) (k : bytes) : list item :=
  match said c k k with Ok (RItem i) => [i] | _ => [] end.

(** ** Proofs *)
Definition words (q : question) (b : bool) : bytes :=
  match q with Some (c, j) => meta_get_reply c j (meta_get_flags b) | None => B "MN" ++ eol end.
Definition fit_q (q : question) : Prop := match q with Some (c, j) => fit c /\ legal_key PMeta j | None => True end.

Lemma read_one : forall q b k rest, fit_q q -> meta_resp (OGet k) (words q b ++ rest) = (answer_to q k, rest).
Proof.
  intros [[c j]|] b k rest F; cbn [words answer_to meta_resp].
  - destruct F as [[W C] L]. unfold said. destruct (lookup c j) as [e|] eqn:E.
    + apply rmap_ok. unfold meta_get_resp. erewrite bind_ok by (apply meta_get_block_hit with (multi := b) (e := e); assumption). reflexivity.
    + apply rmap_err. unfold meta_get_resp, bind. rewrite meta_get_block_miss by assumption. reflexivity.
  - apply rmap_err. unfold meta_get_resp, bind. rewrite <- app_assoc, meta_get_block_noop. reflexivity.
Qed.

(** A Get on a connection with unread answers. *)
Lemma get_lags : forall c h q b u k, fit c -> legal_key PMeta k -> fit_q q ->
  call meta_client (mkLink c [] (words q b ++ u) h) (OGet k)
  = (mkLink c [] (u ++ words (Some (c, k)) false) h, answer_to q k).
Proof.
  intros c h q b u k [W C] L F. assert (Lo : legal PMeta (OGet k)) by exact L. destruct (meta_req_ok (OGet k) Lo) as [rq E].
  unfold call. cbn [meta_client cl_req cl_resp cl_wire fst snd l_cache l_pending l_unread l_header]. rewrite E. cbn [app].
  rewrite (meta_daemon c (OGet k) rq Lo E). cbn [meta_intent fst snd]. rewrite <- app_assoc, read_one by exact F. reflexivity.
Qed.
Fixpoint outstanding (qs : list (question * bool)) : bytes :=
  match qs with [] => [] | (q, b) :: qs' => words q b ++ outstanding qs' end.
Lemma outstanding_snoc : forall qs q b, outstanding (qs ++ [(q, b)]) = outstanding qs ++ words q b.
Proof. induction qs as [|[q' b'] qs IH]; intros q b; [cbn; apply app_nil_r|]. cbn [app outstanding]. rewrite IH, app_assoc. reflexivity. Qed.

Lemma gets_lag : forall ps ss pn sn p, two_rings ps ss pn sn -> In p ps ->
  forall later qs w h c, qs <> [] -> w (sv_id p) = mkLink c [] (outstanding qs) h -> Forall (fun x => fit_q (fst x)) qs ->
  Forall (fun x => fit (fst x) /\ legal_key PMeta (snd x) /\ pick pn (snd x) = Ok p) later ->
  snd (later_gets pn sn (sv_id p) w later) = map (fun x => answer_to (fst x) (snd (snd x))) (combine (map fst qs ++ map Some later) later)
  /\ exists qs' c', length qs' = length qs /\ fst (later_gets pn sn (sv_id p) w later) (sv_id p) = mkLink c' [] (outstanding qs') h.
Proof.
  intros ps ss pn sn p R Ip. induction later as [|[c' k] later IH]; intros qs w h c Ne Ew Fq Fl.
  - split; [cbn [later_gets snd map]; rewrite app_nil_r; destruct (map fst qs); reflexivity|]. cbn [later_gets fst]. eauto.
  - inversion Fl as [|x l (Fc & Lk & Pk) Fl']; subst. cbn [fst snd] in *. destruct qs as [|[q b] qs]; [congruence|]. cbn [outstanding] in Ew.
    inversion Fq as [|x l F1 Fq']; subst. cbn [fst] in F1. cbn [later_gets].
    destruct (exec meta_server (rp_prog pn sn (RGet k)) (moved w (sv_id p) c')) as [w1 r1] eqn:X. cbn [fst snd].
    destruct (C42_get_reads_only_the_primary _ _ _ _ _ _ _ _ _ _ R X) as (p' & _ & P' & Er & Ew1 & _).
    assert (p' = p) by congruence. subst p'. unfold moved in Er, Ew1. rewrite upd_same in Er, Ew1. rewrite Ew in Er, Ew1. cbn [l_pending l_unread l_header] in Er, Ew1.
    unfold meta_server in Er, Ew1. rewrite get_lags in Er, Ew1 by assumption. cbn [fst snd] in Er, Ew1. rewrite <- outstanding_snoc in Ew1.
    destruct (IH (qs ++ [(Some (c', k), false)]) w1 h c') as [I1 (qs' & c2 & Lq & I2)].
    + destruct qs; discriminate.
    + exact Ew1.
    + apply Forall_app. split; [exact Fq'|]. constructor; [|constructor]. split; assumption.
    + exact Fl'.
    + split.
      * rewrite Er. cbn [map app combine fst snd]. f_equal. rewrite I1. rewrite map_app, <- app_assoc. reflexivity.
      * exists qs', c2. split; [|exact I2]. rewrite Lq, app_length. cbn [length]. lia.
Qed.

(** ** C94 *)
(** GetMulti on a healthy pool: server [p] is asked for the keys pre ++ k :: post, all of pre are
    there, k is not. Then for EVER after (until something is written on that connection or it is
    closed) the n-th Get of a key of that server is given the answer to an earlier question: first
    the answers to post, then "not found" for the no-op, then the answers to the Gets themselves,
    length post + 1 calls late; each is labelled with the key asked for now. *)
Theorem C94_answers_lag : forall ps ss pn sn w ks w' items p c h pre k post later,
  two_rings ps ss pn sn -> rp_getmulti pn meta_server ps w ks w' (Ok items) ->
  In p ps -> w (sv_id p) = fresh_link c h -> fit c -> Forall (legal_key PMeta) ks ->
  own_keys pn p ks = pre ++ k :: post -> Forall (fun j => lookup c j <> None) pre -> lookup c k = None ->
  Forall (fun x => fit (fst x) /\ legal_key PMeta (snd x) /\ pick pn (snd x) = Ok p) later ->
  snd (later_gets pn sn (sv_id p) w' later)
  = map (fun x => answer_to (fst x) (snd (snd x)))
      (combine (map (fun j => Some (c, j)) post ++ None :: map Some later) later).
Proof.
  intros ps ss pn sn w ks w' items p c h pre k post later R H Ip Ew [W C] L Ok_ P M Fl. destruct (two_rings_good _ _ _ _ R) as [GP _].
  destruct (C06_getmulti_asks_each_owner_once _ _ _ _ _ _ _ _ GP H) as (_ & Hok & _). destruct (Hok items eq_refl) as [_ Hs].
  destruct (Hs p Ip) as [_ Ew']; [rewrite Ok_; destruct pre; discriminate|]. rewrite Ok_, Ew in Ew'.
  assert (Lk : Forall (legal_key PMeta) (pre ++ k :: post)).
  { rewrite <- Ok_. apply Forall_forall. intros j I. unfold own_keys in I. apply filter_In in I. rewrite Forall_forall in L. apply L, I. }
  destruct (C15_meta_getmulti_stops_at_first_miss [] c h pre k post W C Lk P M) as (l & its & E & _ & Ec & Ep & Eu).
  unfold meta_server in Ew'. cbn [client_of] in E. rewrite E in Ew'. cbn [fst] in Ew'.
  assert (Eh : l_header l = h).
  { apply (f_equal (fun x => l_header (fst x))) in E. cbn [fst] in E. rewrite <- E. unfold call. cbn [meta_client cl_req fst snd meta_req].
    destruct (daemon _ _ _) as [[x y] z]. reflexivity. }
  set (qs := map (fun j => (Some (c, j), true)) post ++ [(None, true)] : list (question * bool)).
  assert (El : l = mkLink c [] (outstanding qs) h).
  { destruct l as [a b d e]. cbn [l_cache l_pending l_unread l_header] in *. subst. f_equal. subst qs. rewrite outstanding_snoc. cbn [words].
    f_equal. clear. induction post as [|j post IH]; [reflexivity|]. cbn [flat_map map outstanding words]. rewrite IH. reflexivity. }
  destruct (gets_lag ps ss pn sn p R Ip later qs w' h c) as [G _].
  - subst qs. destruct post; discriminate.
  - rewrite Ew', El. reflexivity.
  - subst qs. apply Forall_app. split; [|constructor; [exact Logic.I|constructor]]. apply Forall_map. apply Forall_app in Lk. destruct Lk as [_ Lk].
    inversion Lk; subst. eapply Forall_impl; [|eassumption]. intros j Lj. cbn [fst fit_q]. split; [split; assumption|exact Lj].
  - exact Fl.
  - rewrite G. subst qs. rewrite map_app, map_map. cbn [map fst]. rewrite <- app_assoc. reflexivity.
Qed.
Print Assumptions C94_answers_lag.

(** The plainest consequence: GetMulti of one absent key, then Get x, then Get y. The Get of x, which
    is there, says not found; the Get of y returns x's value under y's name. *)
Theorem C94_get_returns_another_keys_value : forall ps ss pn sn w k w' items p c h x y e,
  two_rings ps ss pn sn -> rp_getmulti pn meta_server ps w [k] w' (Ok items) ->
  In p ps -> w (sv_id p) = fresh_link c h -> fit c -> legal_key PMeta k -> legal_key PMeta x -> legal_key PMeta y ->
  pick pn k = Ok p -> pick pn x = Ok p -> pick pn y = Ok p -> lookup c k = None -> lookup c x = Some e ->
  exists r1 r2, snd (later_gets pn sn (sv_id p) w' [(c, x); (c, y)]) = [r1; r2]
    /\ r1 = Err ENotFound
    /\ exists i, r2 = Ok (RItem i) /\ it_key i = y /\ it_value i = e_value e /\ it_cas i = e_cas e.
Proof.
  intros ps ss pn sn w k w' items p c h x y e R H Ip Ew F Lk Lx Ly Pk Px Py Mk Mx.
  assert (O : own_keys pn p [k] = [] ++ k :: []).
  { unfold own_keys. cbn [filter]. rewrite Pk, Nat.eqb_refl. reflexivity. }
  pose proof (C94_answers_lag ps ss pn sn w [k] w' items p c h [] k [] [(c, x); (c, y)] R H Ip Ew F (Forall_cons _ Lk (Forall_nil _)) O (Forall_nil _) Mk) as G.
  rewrite G by (apply Forall_cons; [split; [exact F|split; assumption]|]; apply Forall_cons; [split; [exact F|split; assumption]|]; apply Forall_nil). cbn [map app combine fst snd answer_to]. unfold said. rewrite Mx.
  eexists. eexists. split; [reflexivity|]. split; [reflexivity|]. eexists. split; [reflexivity|]. repeat split.
Qed.
Print Assumptions C94_get_returns_another_keys_value.

(** What the pool's GetMulti returns, for every mix of present and absent keys: from each primary its
    keys up to the first one missing there; it never fails. *)
Lemma live_until : forall c ks, map (fun ke => item_view PMeta [] true c (fst ke) (snd ke)) (fst (live_prefix c ks)) = flat_map (got_meta c) (until_miss c ks).
Proof.
  intros c. induction ks as [|k ks IH]; [reflexivity|]. cbn [live_prefix until_miss]. destruct (lookup c k) as [e|] eqn:E; [|reflexivity].
  cbn [fst map flat_map]. rewrite IH. unfold got_meta at 2, said. rewrite E. reflexivity.
Qed.
Theorem C94_getmulti_returns : forall ps pn w ks w' r (cw : nat -> cache),
  good_pool ps pn -> (forall p, In p ps -> fit (cw (sv_id p)) /\ exists h, w (sv_id p) = fresh_link (cw (sv_id p)) h) ->
  Forall (legal_key PMeta) ks -> rp_getmulti pn meta_server ps w ks w' r ->
  exists items, r = Ok items
    /\ Permutation items (flat_map (fun p => flat_map (got_meta (cw (sv_id p))) (until_miss (cw (sv_id p)) (own_keys pn p ks))) ps).
Proof.
  intros servers nodes w ks w' r cw GP Hw L H. unfold rp_getmulti in H. assert (GP' := GP). destruct GP' as (Ne & R & Nn & Ni).
  assert (An : forall sv, In sv servers -> own_keys nodes sv ks <> [] ->
     answer meta_server nodes w ks sv = Ok (RItems (flat_map (got_meta (cw (sv_id sv))) (until_miss (cw (sv_id sv)) (own_keys nodes sv ks))))).
  { intros sv Is K. destruct (Hw sv Is) as ([W C] & h & E). unfold answer. rewrite E. unfold meta_server.
    assert (Lk : legal PMeta (OGetMulti (own_keys nodes sv ks))).
    { split; [exact K|]. apply Forall_forall. intros k I. unfold own_keys in I. apply filter_In in I. rewrite Forall_forall in L. apply L, I. }
    unfold call. cbn [meta_client cl_req cl_resp cl_wire fst snd meta_req fresh_link l_cache l_pending l_unread l_header app].
    rewrite (meta_daemon (cw (sv_id sv)) (OGetMulti (own_keys nodes sv ks)) _ Lk eq_refl). cbn [meta_resp].
    pose proof (meta_getmulti_any (cw (sv_id sv)) (own_keys nodes sv ks) [] W C (proj2 Lk)) as G. rewrite app_nil_r in G.
    rewrite (rmap_ok _ RItems _ _ _ _ G). cbn [snd fst]. rewrite live_until. reflexivity. }
  destruct (C06_getmulti_asks_each_owner_once _ _ _ _ _ _ _ _ GP H) as (_ & Hok & Herr & _).
  destruct r as [items|e|].
  - exists items. split; [reflexivity|]. destruct (Hok items eq_refl) as [P _]. rewrite P.
    assert (Z : forall l, (forall sv, In sv l -> In sv servers) ->
      flat_map (fun sv => items_in (answer meta_server nodes w ks sv)) (filter (asked nodes ks) l)
      = flat_map (fun p => flat_map (got_meta (cw (sv_id p))) (until_miss (cw (sv_id p)) (own_keys nodes p ks))) l); [|rewrite Z by auto; reflexivity].
    induction l as [|sv l IH]; intro Il; [reflexivity|]. cbn [filter flat_map].
    rewrite <- IH by (intros; apply Il; right; assumption). destruct (asked nodes ks sv) eqn:A.
    + cbn [flat_map]. apply asked_spec in A. rewrite (An sv (Il sv (or_introl eq_refl)) A). reflexivity.
    + unfold asked in A. destruct (own_keys nodes sv ks); [reflexivity|discriminate A].
  - exfalso. destruct (Herr e eq_refl) as (sv & Is & K & Q). rewrite (An sv Is K) in Q. discriminate Q.
  - exfalso. apply (pool_getmulti_iff meta_server servers nodes Ne R Nn Ni) in H. destruct H as (order & Po & E).
    assert (No : NoDup order).
    { apply Permutation_NoDup with (l := filter (asked nodes ks) servers); [apply Permutation_sym; exact Po|]. apply NoDup_filter'. eapply NoDup_map_inv. exact Ni. }
    assert (Io : forall sv, In sv order -> In sv servers /\ own_keys nodes sv ks <> []).
    { intros sv I. apply (Permutation_in _ Po) in I. apply filter_In in I. rewrite asked_spec in I. exact I. }
    destruct (run_groups_ok meta_server servers nodes Nn Ni ks order w [] w' Panic No (fun sv I => proj1 (Io sv I)) E) as [_ (sv & I & M1 & _)].
    destruct (Io sv I) as [Is K]. apply M1. rewrite (An sv Is K). eauto.
Qed.
Print Assumptions C94_getmulti_returns.

(** The full property: whatever is present, GetMulti returns exactly the items that Get would find,
    and leaves every connection as it was, so that later calls are answered as if it had not been
    made. *)
Definition getmulti_is_the_gets (ps : list server) (pn : list node) (w : world link) (ks : list bytes) : Prop :=
  forall w' r, rp_getmulti pn meta_server ps w ks w' r ->
    exists items, r = Ok items
      /\ Permutation items (flat_map (fun k => match pick pn k with Ok p => got_meta (l_cache (w (sv_id p))) k | _ => [] end) ks)
      /\ forall p, In p ps -> w' (sv_id p) = w (sv_id p).
Definition all_idle (ps : list server) (w : world link) : Prop :=
  forall p, In p ps -> exists c h, w (sv_id p) = fresh_link c h /\ wf PMeta c /\ c_cas c + 1 < 2 ^ 63.

Lemma until_all : forall c ks, Forall (fun k => lookup c k <> None) ks -> until_miss c ks = ks.
Proof. intros c ks F. induction F as [|k ks H F IH]; [reflexivity|]. cbn [until_miss]. destruct (lookup c k); [|congruence]. rewrite IH. reflexivity. Qed.
(** It holds when every requested key is present. *)
Theorem C94_getmulti_is_the_gets_partial : forall ps pn w ks,
  good_pool ps pn -> all_idle ps w -> Forall (legal_key PMeta) ks -> Forall (fun k => held pn w k <> None) ks ->
  getmulti_is_the_gets ps pn w ks.
Proof.
  intros ps pn w ks GP Id L Pr w' r H. assert (GP' := GP). destruct GP' as (Ne & R & Nn & Ni).
  assert (Hw : forall p, In p ps -> fit (l_cache (w (sv_id p))) /\ exists h, w (sv_id p) = fresh_link (l_cache (w (sv_id p))) h).
  { intros p Ip. destruct (Id p Ip) as (c & h & E & W & C). rewrite E. cbn [fresh_link l_cache]. split; [split; [exact W|lia]|eauto]. }
  assert (Ow : forall p, In p ps -> Forall (fun k => lookup (l_cache (w (sv_id p))) k <> None) (own_keys pn p ks)).
  { intros p Ip. apply Forall_forall. intros k Ik. unfold own_keys in Ik. apply filter_In in Ik. destruct Ik as [Ik Pk].
    rewrite Forall_forall in Pr. specialize (Pr k Ik). unfold held in Pr. destruct (pick pn k) as [t|e|] eqn:P1; try discriminate Pk. apply Nat.eqb_eq in Pk.
    rewrite <- Pk. exact Pr. }
  destruct (C94_getmulti_returns ps pn w ks w' r (fun i => l_cache (w i)) GP Hw L H) as (items & -> & P). exists items. split; [reflexivity|].
  set (f := fun k => match pick pn k with Ok p => got_meta (l_cache (w (sv_id p))) k | _ => [] end).
  split.
  - rewrite P. rewrite <- (partition_perm pn ps item f ks Ni) by (intros k _; apply (ring_pick_in ps pn k Ne R)).
    assert (X : flat_map (fun p => flat_map (got_meta (l_cache (w (sv_id p)))) (until_miss (l_cache (w (sv_id p))) (own_keys pn p ks))) ps
              = flat_map (fun sv => flat_map f (own_keys pn sv ks)) ps); [|rewrite X; reflexivity].
    rewrite !flat_map_concat_map. f_equal. apply map_ext_in. intros sv Is. rewrite until_all by (apply Ow; exact Is).
    rewrite !flat_map_concat_map. f_equal. apply map_ext_in. intros k Ik. unfold own_keys in Ik. apply filter_In in Ik. destruct Ik as [_ Pk].
    unfold f. destruct (pick pn k) as [t|e|] eqn:P1; try discriminate Pk. apply Nat.eqb_eq in Pk. rewrite Pk. reflexivity.
  - intros p Ip. destruct (C06_getmulti_asks_each_owner_once _ _ _ _ _ _ _ _ GP H) as (Hn & Hok & _). destruct (Hok items eq_refl) as [_ Hs].
    destruct (own_keys pn p ks) as [|k0 ks0] eqn:O; [apply Hn; assumption|]. destruct (Hs p Ip) as [_ E]; [rewrite O; discriminate|]. rewrite E.
    destruct (Id p Ip) as (c & h & Ec & W & C). specialize (Ow p Ip). rewrite O in *. rewrite Ec in *. cbn [fresh_link l_cache] in Ow.
    assert (Lk : legal PMeta (OGetMulti (k0 :: ks0))).
    { split; [discriminate|]. rewrite <- O. apply Forall_forall. intros j I. unfold own_keys in I. apply filter_In in I. rewrite Forall_forall in L. apply L, I. }
    destruct (meta_call_ok c h (OGetMulti (k0 :: ks0)) W ltac:(lia) Lk Ow) as (out & E1 & _). unfold meta_server. rewrite E1. reflexivity.
Qed.
Print Assumptions C94_getmulti_is_the_gets_partial.

(** A pool of one primary that holds "b" but not "a". *)
Lemma ok_inj : forall A (a b : A), Ok a = Ok b -> a = b.
Proof. intros A a b H. inversion H. reflexivity. Qed.
Definition c_b := Cache.put (empty_cache demo_cfg 100) (B "b") (B "v") 0 None.
Definition w_b : world link := fun _ => fresh_link c_b reset_header.
Lemma c_b_wf : wf PMeta c_b.
Proof. apply wf_put; [apply wf_empty; [apply demo_cfg_ok|lia]|vm_compute; discriminate|split; vm_compute; congruence|auto]. Qed.
Lemma c_b_fit : fit c_b. Proof. split; [apply c_b_wf|reflexivity]. Qed.
Lemma legal_ab : legal_key PMeta (B "a") /\ legal_key PMeta (B "b").
Proof. split; apply PClient.legal_keyb_ok; reflexivity. Qed.
Lemma c_pool : good_pool [sv_c] prim_c. Proof. exact (proj1 (two_rings_good _ _ _ _ rings_c_ab)). Qed.
Lemma own_c : forall ks, own_keys prim_c sv_c ks = ks.
Proof. unfold own_keys. induction ks as [|k ks IH]; [reflexivity|]. cbn [filter]. rewrite pick_c, Nat.eqb_refl. f_equal. exact IH. Qed.
Lemma getmulti_c : exists w' items, rp_getmulti prim_c meta_server [sv_c] w_b [B "a"; B "b"] w' (Ok items).
Proof.
  assert (H : exists w' r, rp_getmulti prim_c meta_server [sv_c] w_b [B "a"; B "b"] w' r).
  { unfold rp_getmulti, pool_getmulti. cbn [group_keys]. rewrite !pick_c. cbn [add_key]. rewrite !beq_refl.
    destruct (run_groups meta_server [sv_c] w_b [(sv_name sv_c, [B "a"] ++ [B "b"])] []) as [w' r] eqn:E. exists w', r, [(sv_name sv_c, [B "a"] ++ [B "b"])].
    split; [reflexivity|exact E]. }
  destruct H as (w' & r & H). destruct legal_ab as [La Lb].
  destruct (C94_getmulti_returns [sv_c] prim_c w_b [B "a"; B "b"] w' r (fun _ => c_b) c_pool) as (items & -> & _).
  - intros p _. split; [apply c_b_fit|]. exists reset_header. reflexivity.
  - repeat (constructor; [assumption|]). constructor.
  - exact H.
  - exists w', items. exact H.
Qed.
Lemma flat_map_cons : forall A C (f : A -> list C) x l, flat_map f (x :: l) = f x ++ flat_map f l.
Proof. reflexivity. Qed.
Lemma idle_b : forall p, In p [sv_c] -> fit ((fun _ : nat => c_b) (sv_id p)) /\ exists h, w_b (sv_id p) = fresh_link ((fun _ : nat => c_b) (sv_id p)) h.
Proof. intros p _. split; [exact c_b_fit|exists reset_header; reflexivity]. Qed.
Lemma legal_ab_list : Forall (legal_key PMeta) [B "a"; B "b"].
Proof. destruct legal_ab as [La Lb]. constructor; [exact La|]. constructor; [exact Lb|]. constructor. Qed.
Lemma nothing_found : flat_map (got_meta c_b) (until_miss c_b [B "a"; B "b"]) = [].
Proof. reflexivity. Qed.
Lemma something_there : exists i, flat_map (got_meta c_b) [B "a"; B "b"] = [i].
Proof. eexists. cbn [flat_map app]. vm_compute. reflexivity. Qed.
Lemma items_of_c : forall w' items, rp_getmulti prim_c meta_server [sv_c] w_b [B "a"; B "b"] w' (Ok items) -> items = [].
Proof.
  intros w' items G. destruct (C94_getmulti_returns [sv_c] prim_c w_b _ w' _ (fun _ => c_b) c_pool idle_b legal_ab_list G) as (its & E & P).
  apply ok_inj in E. subst its. rewrite flat_map_cons, own_c, nothing_found in P. apply Permutation_sym, Permutation_nil in P. exact P.
Qed.
Lemma gets_of_c : forall ks, flat_map (fun k => match pick prim_c k with Ok p => got_meta (l_cache (w_b (sv_id p))) k | _ => [] end) ks = flat_map (got_meta c_b) ks.
Proof. intro ks. induction ks as [|k ks IH]; [cbn [flat_map]; reflexivity|]. rewrite !flat_map_cons, IH, pick_c. reflexivity. Qed.
Theorem C94_getmulti_is_the_gets_refuted : ~ forall ps pn w ks,
  good_pool ps pn -> all_idle ps w -> Forall (legal_key PMeta) ks -> getmulti_is_the_gets ps pn w ks.
Proof.
  intro H. destruct getmulti_c as (w' & items & G). assert (N := items_of_c _ _ G). subst items.
  assert (Id : all_idle [sv_c] w_b) by (intros p _; exists c_b, reset_header; split; [reflexivity|]; split; [exact c_b_wf|reflexivity]).
  destruct (H [sv_c] prim_c w_b _ c_pool Id legal_ab_list w' _ G) as (its & E & P & _). apply ok_inj in E. subst its.
  rewrite gets_of_c in P. destruct something_there as [i Q]. rewrite Q in P. apply Permutation_nil_cons in P. exact P.
Qed.
Print Assumptions C94_getmulti_is_the_gets_refuted.

(** GetMulti ["a"; "b"] on that pool finds nothing; the next Get of "a", which is not there, returns
    the value of "b", and the Get of "b" after it says not found. *)
Example C94_met : two_rings [sv_c] [sv_a; sv_b] prim_c sec_ab /\ good_pool [sv_c] prim_c /\ all_idle [sv_c] w_b /\ fit c_b
  /\ w_b (sv_id sv_c) = fresh_link c_b reset_header /\ own_keys prim_c sv_c [B "a"; B "b"] = [] ++ B "a" :: [B "b"]
  /\ lookup c_b (B "a") = None /\ lookup c_b (B "b") <> None /\ held prim_c w_b (B "b") <> None
  /\ exists w' items, rp_getmulti prim_c meta_server [sv_c] w_b [B "a"; B "b"] w' (Ok items)
     /\ exists r, snd (later_gets prim_c sec_ab (sv_id sv_c) w' [(c_b, B "a"); (c_b, B "b"); (c_b, B "b")]) = [Ok (RItem r); Err ENotFound; Err ENotFound]
        /\ it_key r = B "a" /\ it_value r = B "v".
Proof.
  destruct legal_ab as [La Lb].
  split; [apply rings_c_ab|]. split; [apply c_pool|]. split; [intros p _; exists c_b, reset_header; split; [reflexivity|split; [apply c_b_wf|reflexivity]]|].
  split; [apply c_b_fit|]. split; [reflexivity|]. split; [apply own_c|]. split; [reflexivity|]. split; [vm_compute; discriminate|].
  split; [unfold held; rewrite pick_c; vm_compute; discriminate|]. destruct getmulti_c as (w' & items & G). exists w', items. split; [exact G|].
  rewrite (C94_answers_lag _ _ _ _ _ _ _ _ _ c_b reset_header [] (B "a") [B "b"] [(c_b, B "a"); (c_b, B "b"); (c_b, B "b")] rings_c_ab G (or_introl eq_refl) eq_refl c_b_fit).
  - eexists. cbn [map app combine fst snd answer_to]. split; [vm_compute; reflexivity|]. split; reflexivity.
  - repeat (constructor; [assumption|]). constructor.
  - apply own_c.
  - constructor.
  - reflexivity.
  - apply Forall_cons; [|apply Forall_cons; [|apply Forall_cons; [|apply Forall_nil]]]; (split; [exact c_b_fit|]; split; [|apply pick_c]); [exact La|exact Lb|exact Lb].
Qed.
