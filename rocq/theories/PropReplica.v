(** * Properties C42-C47: ReplicaPool. Proofs in PReplica.v, specification in ReplicaSpec.v. *)
From Verif Require Import GoBytes GoNum GoIO Item ClientText ClientMeta ClientBinary Cache Daemon Spec Call Guard
  Hash Ring RingSpec RingData Pool PoolSpec Replica ReplicaSpec PLib PDaemon PCache PText PMeta PClient PRing PPool PMulti PReplica PropPool.
Local Open Scope Z_scope.

Lemma two_rings_good : forall ps ss pn sn, two_rings ps ss pn sn -> good_pool ps pn /\ good_pool ss sn.
Proof. intros ps ss pn sn (A & B & C & D & E & F & G & H & I). split; (split; [assumption|split; [assumption|split; assumption]]). Qed.

(** ** C42 *)
(** Whatever the servers are: a Get contacts the owner of the key in the primary ring, nobody else,
    and returns its answer. *)
Theorem C42_get_reads_only_the_primary : forall ST (step : ST -> op -> ST * outcome result) ps ss pn sn w k w' r,
  two_rings ps ss pn sn -> exec step (rp_prog pn sn (RGet k)) w = (w', r) ->
  exists p, In p ps /\ pick pn k = Ok p /\ r = snd (step (w (sv_id p)) (OGet k))
    /\ w' (sv_id p) = fst (step (w (sv_id p)) (OGet k))
    /\ (forall i, i <> sv_id p -> w' i = w i) /\ (forall s, In s ss -> w' (sv_id s) = w (sv_id s)).
Proof.
  intros ST step ps ss pn sn w k w' r R E. destruct (owner_p _ _ _ _ R k) as (p & P & Ip). cbn [rp_prog] in E. unfold rp_get, on_ring in E. rewrite P in E.
  cbn [exec] in E. unfold server_call in E. inversion E; subst. exists p. split; [exact Ip|]. split; [exact P|]. split; [reflexivity|]. split; [apply upd_same|].
  assert (O : forall i, i <> sv_id p -> upd w (sv_id p) (fst (step (w (sv_id p)) (OGet k))) i = w i) by (intros i Hi; apply upd_other; exact Hi).
  split; [exact O|]. intros s Is. apply O. intro Q. symmetry in Q. revert Q. eapply apart; eassumption.
Qed.
Print Assumptions C42_get_reads_only_the_primary.

(** The same for GetMulti, which visits the owners in any order: no secondary is contacted, and every
    result possible in [w] is possible in any world that differs only in the secondaries. The last
    part says what the results are: every owner is asked exactly once for exactly its keys. *)
Theorem C42_getmulti_reads_only_the_primary : forall ST (step : ST -> op -> ST * outcome result) ps ss pn sn w ks w' r,
  two_rings ps ss pn sn -> rp_getmulti pn step ps w ks w' r ->
  (forall s, In s ss -> w' (sv_id s) = w (sv_id s))
  /\ (forall v, (forall p, In p ps -> v (sv_id p) = w (sv_id p)) -> exists v', rp_getmulti pn step ps v ks v' r)
  /\ (forall items, r = Ok items ->
        Permutation items (flat_map (fun sv => items_in (answer step pn w ks sv)) (filter (asked pn ks) ps)))
  /\ (forall e, r = Err e -> exists sv, In sv ps /\ own_keys pn sv ks <> [] /\ answer step pn w ks sv = Err e).
Proof.
  intros ST step ps ss pn sn w ks w' r R H. destruct (two_rings_good _ _ _ _ R) as [GP _]. assert (GP' := GP). destruct GP' as (Ne & Rn & Nn & Ni).
  unfold rp_getmulti in *. destruct (C06_getmulti_asks_each_owner_once _ _ _ _ _ _ _ _ GP H) as (_ & Hok & Herr & _).
  split; [|split; [|split; [intros items Q; apply (Hok items Q)|exact Herr]]].
  - intros s Is. apply (pool_getmulti_iff step ps pn Ne Rn Nn Ni) in H. destruct H as (order & Po & E).
    assert (No : NoDup order) by (apply Permutation_NoDup with (l := filter (asked pn ks) ps); [apply Permutation_sym; exact Po|]; apply NoDup_filter'; eapply NoDup_map_inv; exact Ni).
    assert (Io : forall sv, In sv order -> In sv ps) by (intros sv I; apply (Permutation_in _ Po) in I; apply filter_In in I; apply I).
    destruct (run_groups_ok step ps pn Nn Ni ks order w [] w' r No Io E) as [U _]. apply U. intro Q. apply in_map_iff in Q. destruct Q as (t & Et & It).
    apply Io in It. revert Et. eapply apart; eassumption.
  - intros v V. unfold pool_getmulti in *. destruct (group_keys pn [] ks) as [m|e|].
    + destruct H as (groups & Pg & E). clear GP Hok Herr.
      assert (X : forall gs w v acc, (forall p, In p ps -> v (sv_id p) = w (sv_id p)) -> forall w' r, run_groups step ps w gs acc = (w', r) ->
        exists v', run_groups step ps v gs acc = (v', r)).
      { clear w v V E w' r. induction gs as [|[name l] gs IH]; intros w v acc V w' r E; cbn [run_groups] in *; [inversion E; subst; eauto|].
        destruct (find_server ps name) as [sv|] eqn:F; [|inversion E; subst; eauto].
        assert (Is : In sv ps) by (unfold find_server in F; apply find_some in F; apply in_rev; apply F).
        unfold server_call in *. rewrite (V sv Is). destruct (step (w (sv_id sv)) (OGetMulti l)) as [s' o]. cbn [fst snd] in *.
        destruct o as [[]|e|]; try (inversion E; subst; eauto; fail). eapply IH; [|exact E]. intros p Ip. unfold upd. destruct (Nat.eqb (sv_id p) (sv_id sv)); auto. }
      destruct (X groups w v [] V _ _ E) as [v' Ev]. exists v', groups. split; assumption.
    + destruct H as [_ ->]. exists v. auto.
    + destruct H as [_ ->]. exists v. auto.
Qed.
Print Assumptions C42_getmulti_reads_only_the_primary.


(** Two rings: primary c, secondaries a and b. *)
Definition sec_ab := new_ring [sv_a; sv_b].
Definition prim_c := new_ring [sv_c].
Lemma rings_c_ab : two_rings [sv_c] [sv_a; sv_b] prim_c sec_ab.
Proof.
  split; [discriminate|]. split; [discriminate|]. split; [apply new_ring_ok|]. split; [apply new_ring_ok|].
  split; [intros p s [<-|[]] [<-|[<-|[]]]; discriminate|].
  split; [|split; [|split]]; repeat constructor; cbn; intuition discriminate.
Qed.
Lemma pick_c : forall k, pick prim_c k = Ok sv_c.
Proof. intro k. destruct (owner_p _ _ _ _ rings_c_ab k) as (p & P & [<-|[]]). exact P. Qed.
(** Primary a, secondary b. *)
Definition prim_a := new_ring [sv_a].
Definition sec_b := new_ring [sv_b].
Lemma rings_a_b : two_rings [sv_a] [sv_b] prim_a sec_b.
Proof.
  split; [discriminate|]. split; [discriminate|]. split; [apply new_ring_ok|]. split; [apply new_ring_ok|].
  split; [intros p s [<-|[]] [<-|[]]; discriminate|].
  split; [|split; [|split]]; repeat constructor; cbn; intuition discriminate.
Qed.
Lemma pick_a : forall k, pick prim_a k = Ok sv_a.
Proof. intro k. destruct (owner_p _ _ _ _ rings_a_b k) as (p & P & [<-|[]]). exact P. Qed.
Lemma pick_b : forall k, pick sec_b k = Ok sv_b.
Proof. intro k. destruct (owner_s _ _ _ _ rings_a_b k) as (p & P & [<-|[]]). exact P. Qed.
Definition new_memcacheds : world link := fun _ => fresh_link (empty_cache demo_cfg 100) reset_header.
Lemma demo_cfg_ok : wf_config demo_cfg. Proof. apply C05_met. Qed.
Lemma new_good : forall n svs, 0 <= n < 2 ^ 63 -> good_world n svs new_memcacheds.
Proof.
  intros n svs Hn. exists 100. intros sv _. exists (empty_cache demo_cfg 100), reset_header. split; [reflexivity|].
  split; [apply wf_empty; [apply demo_cfg_ok|lia]|]. split; [reflexivity|]. cbn [empty_cache c_cas]. lia.
Qed.
Lemma new_empty : forall svs, all_empty svs new_memcacheds. Proof. intros svs sv k _. reflexivity. Qed.
Lemma empty_agree : forall ps ss pn sn w, two_rings ps ss pn sn -> all_empty (ps ++ ss) w -> replicas_agree pn sn w.
Proof.
  intros ps ss pn sn w R E k. destruct (owner_p _ _ _ _ R k) as (p & Pp & Ip). destruct (owner_s _ _ _ _ R k) as (s & Ps & Is).
  unfold held, lookup. rewrite Pp, Ps, !E by (apply in_or_app; auto). exact I.
Qed.
Lemma ring_c_ab_picks : pick sec_ab (B "x") = Ok sv_a /\ pick sec_ab (B "hello") = Ok sv_b.
Proof. unfold sec_ab. rewrite ring_ab. split; vm_compute; reflexivity. Qed.
Example C42_met : two_rings [sv_c] [sv_a; sv_b] prim_c sec_ab
  /\ (exists w' r, exec meta_server (rp_prog prim_c sec_ab (RGet (B "x"))) new_memcacheds = (w', r))
  /\ (exists w' r, rp_getmulti prim_c meta_server [sv_c] new_memcacheds [B "x"; B "hello"] w' r).
Proof.
  split; [apply rings_c_ab|]. split.
  - destruct (exec meta_server (rp_prog prim_c sec_ab (RGet (B "x"))) new_memcacheds) as [w' r]. eauto.
  - unfold rp_getmulti, pool_getmulti. cbn [group_keys]. rewrite !pick_c. cbn [add_key]. rewrite !beq_refl.
    destruct (run_groups meta_server [sv_c] new_memcacheds [(sv_name sv_c, [B "x"] ++ [B "hello"])] []) as [w' r] eqn:E. exists w', r, [(sv_name sv_c, [B "x"] ++ [B "hello"])].
    split; [reflexivity|exact E].
Qed.

(** ** C43 *)
(** Whatever the servers answer: [ms] are all calls a pool operation makes, in order. *)
Lemma behaves_ret : forall a ms r, behaves (Ret a) ms r -> ms = [] /\ r = a.
Proof. intros a ms r H. inversion H; subst. auto. Qed.
Lemma behaves_call : forall sv o k ms r, behaves (Call sv o k) ms r -> exists a t, ms = mkMade sv o a :: t /\ behaves (k a) t r.
Proof. intros sv o k ms r H. inversion H; subst. eauto. Qed.
Theorem C43_primary_first_then_secondary : forall ps ss pn sn o ms r,
  two_rings ps ss pn sn -> writes o = true -> behaves (rp_prog pn sn o) ms r ->
  exists p s a rest, In p ps /\ In s ss /\ pick pn (rop_key o) = Ok p /\ pick sn (rop_key o) = Ok s
    (* the first call is the operation itself, on the primary *)
    /\ ms = mkMade p (primary_op o) a :: rest
    (* if it fails, that is all, and its error is returned *)
    /\ (~ succeeded a -> rest = [] /\ r = a)
    (* nobody else is contacted; further calls on the primary only read *)
    /\ (forall m, In m rest -> (m_server m = p /\ m_op m = OGet (rop_key o)) \/ m_server m = s)
    (* the secondary gets at most one call, the last, a write of the same key; if it fails so does the operation *)
    /\ (forall m, In m rest -> m_server m = s -> succeeded a /\ is_write (m_op m) = true /\ op_key (m_op m) = Some (rop_key o)
          /\ (exists pre, rest = pre ++ [m] /\ forall m', In m' pre -> m_server m' = p) /\ (~ succeeded (m_answer m) -> r = m_answer m))
    (* success means the secondary acknowledged too *)
    /\ (succeeded r -> succeeded a /\ exists m, In m rest /\ m_server m = s /\ succeeded (m_answer m)).
Proof.
  intros ps ss pn sn o ms r R W H. destruct (owner_p _ _ _ _ R (rop_key o)) as (p & Pp & Ip). destruct (owner_s _ _ _ _ R (rop_key o)) as (s & Ps & Is).
  exists p, s. assert (D : p <> s) by (intros ->; exact (apart _ _ _ _ R s s Ip Is eq_refl)).
  assert (Nok : forall e, ~ succeeded (Err e)) by (intros e [x Q]; discriminate Q). assert (Npa : ~ succeeded Panic) by (intros [x Q]; discriminate Q).
  assert (Two : forall o2 fin, is_write o2 = true -> op_key o2 = Some (rop_key o) ->
     (forall b, match b with Ok _ => exists y, fin b = Ret (Ok y) | Err e => fin b = Ret (Err e) | Panic => fin b = Ret Panic end) ->
     forall t, behaves (Call s o2 fin) t r -> exists b, t = [mkMade s o2 b] /\ (succeeded r <-> succeeded b) /\ (~ succeeded b -> r = b)).
  { intros o2 fin _ _ F t B. destruct (behaves_call _ _ _ _ _ B) as (b & t' & -> & B'). specialize (F b). exists b. destruct b as [x|e|].
    - destruct F as [y F]. rewrite F in B'. destruct (behaves_ret _ _ _ B') as [-> ->]. split; [reflexivity|]. split; [split; intros _; eexists; reflexivity|]. intro Q. exfalso. apply Q. eexists; reflexivity.
    - rewrite F in B'. destruct (behaves_ret _ _ _ B') as [-> ->]. split; [reflexivity|]. split; [reflexivity|auto].
    - rewrite F in B'. destruct (behaves_ret _ _ _ B') as [-> ->]. split; [reflexivity|]. split; [reflexivity|auto]. }
  assert (Direct : forall o1 o2 t0, o1 = primary_op o -> is_write o2 = true -> op_key o2 = Some (rop_key o) ->
     behaves (Call p o1 (fun a => if_ok a (fun _ => Call s o2 Ret))) t0 r -> exists a rest,
     t0 = mkMade p (primary_op o) a :: rest /\ ((rest = [] /\ r = a /\ ~ succeeded a)
       \/ (exists b, rest = [mkMade s o2 b] /\ succeeded a /\ (succeeded r <-> succeeded b) /\ (~ succeeded b -> r = b)))).
  { intros o1 o2 t0 -> W2 K2 B. destruct (behaves_call _ _ _ _ _ B) as (a & t & -> & B'). exists a, t. split; [reflexivity|]. destruct a as [x|e|]; cbn [if_ok] in B'.
    - right. destruct (Two o2 Ret W2 K2 ltac:(intros [y|e|]; eauto) t B') as (b & -> & Q1 & Q2). exists b. split; [reflexivity|]. split; [eexists; reflexivity|]. auto.
    - left. destruct (behaves_ret _ _ _ B') as [-> ->]. auto.
    - left. destruct (behaves_ret _ _ _ B') as [-> ->]. auto. }
  assert (Fin : forall o2, is_write o2 = true -> op_key o2 = Some (rop_key o) ->
     behaves (Call p (primary_op o) (fun a => if_ok a (fun _ => Call s o2 Ret))) ms r -> exists a rest, In p ps /\ In s ss /\ pick pn (rop_key o) = Ok p /\ pick sn (rop_key o) = Ok s
    /\ ms = mkMade p (primary_op o) a :: rest /\ (~ succeeded a -> rest = [] /\ r = a)
    /\ (forall m, In m rest -> (m_server m = p /\ m_op m = OGet (rop_key o)) \/ m_server m = s)
    /\ (forall m, In m rest -> m_server m = s -> succeeded a /\ is_write (m_op m) = true /\ op_key (m_op m) = Some (rop_key o)
          /\ (exists pre, rest = pre ++ [m] /\ forall m', In m' pre -> m_server m' = p) /\ (~ succeeded (m_answer m) -> r = m_answer m))
    /\ (succeeded r -> succeeded a /\ exists m, In m rest /\ m_server m = s /\ succeeded (m_answer m))).
  { intros o2 W2 K2 B. destruct (Direct _ o2 ms eq_refl W2 K2 B) as (a & rest & E & [(-> & -> & Na)|(b & -> & Sa & Q1 & Q2)]); exists a; eexists;
      (split; [exact Ip|split; [exact Is|split; [exact Pp|split; [exact Ps|split; [exact E|]]]]]).
    - split; [auto|]. split; [intros m []|]. split; [intros m []|]. intro Q. contradiction.
    - split; [contradiction|]. split; [intros m [<-|[]]; right; reflexivity|]. split.
      + intros m [<-|[]] _. split; [exact Sa|]. split; [exact W2|]. split; [exact K2|]. split; [exists []; split; [reflexivity|intros ? []]|exact Q2].
      + intro Sr. split; [exact Sa|]. eexists. split; [left; reflexivity|]. split; [reflexivity|]. apply Q1. exact Sr. }
  assert (Delta : forall k, k = rop_key o -> behaves (rp_delta pn sn (primary_op o) k) ms r -> exists a rest, In p ps /\ In s ss /\ pick pn (rop_key o) = Ok p /\ pick sn (rop_key o) = Ok s
    /\ ms = mkMade p (primary_op o) a :: rest /\ (~ succeeded a -> rest = [] /\ r = a)
    /\ (forall m, In m rest -> (m_server m = p /\ m_op m = OGet (rop_key o)) \/ m_server m = s)
    /\ (forall m, In m rest -> m_server m = s -> succeeded a /\ is_write (m_op m) = true /\ op_key (m_op m) = Some (rop_key o)
          /\ (exists pre, rest = pre ++ [m] /\ forall m', In m' pre -> m_server m' = p) /\ (~ succeeded (m_answer m) -> r = m_answer m))
    /\ (succeeded r -> succeeded a /\ exists m, In m rest /\ m_server m = s /\ succeeded (m_answer m))).
  { intros k -> B. unfold rp_delta, on_ring in B. rewrite Pp in B. destruct (behaves_call _ _ _ _ _ B) as (a & t & E & B'). exists a, t.
    split; [exact Ip|]. split; [exact Is|]. split; [exact Pp|]. split; [exact Ps|]. split; [exact E|]. destruct a as [x|e|]; cbn [if_ok] in B'.
    2,3: destruct (behaves_ret _ _ _ B') as [-> ->]; split; [auto|]; split; [intros m []|]; split; [intros m []|]; intro Q; exfalso; revert Q; solve [apply Nok|exact Npa].
    assert (Sa : succeeded (@Ok result x)) by (eexists; reflexivity). split; [contradiction|].
    destruct (behaves_call _ _ _ _ _ B') as (g & t2 & -> & B2).
    assert (Stop : t2 = [] -> ~ succeeded r -> (forall m, In m (mkMade p (OGet (rop_key o)) g :: t2) -> (m_server m = p /\ m_op m = OGet (rop_key o)) \/ m_server m = s)
    /\ (forall m, In m (mkMade p (OGet (rop_key o)) g :: t2) -> m_server m = s -> succeeded (@Ok result x) /\ is_write (m_op m) = true /\ op_key (m_op m) = Some (rop_key o)
          /\ (exists pre, mkMade p (OGet (rop_key o)) g :: t2 = pre ++ [m] /\ forall m', In m' pre -> m_server m' = p) /\ (~ succeeded (m_answer m) -> r = m_answer m))
    /\ (succeeded r -> succeeded (@Ok result x) /\ exists m, In m (mkMade p (OGet (rop_key o)) g :: t2) /\ m_server m = s /\ succeeded (m_answer m))).
    { intros -> Nr. split; [intros m [<-|[]]; left; auto|]. split; [intros m [<-|[]] Q; cbn in Q; congruence|]. contradiction. }
    destruct g as [g|e|]; cbn [if_ok] in B2.
    2,3: destruct (behaves_ret _ _ _ B2) as [-> ->]; apply Stop; [reflexivity|solve [apply Nok|exact Npa]].
    destruct g as [i| | | |]; try (destruct (behaves_ret _ _ _ B2) as [-> ->]; apply Stop; [reflexivity|exact Npa]).
    rewrite Ps in B2. destruct (Two (OSet (replica_item (rop_key o) i)) (fun r => if_ok r (fun _ => Ret (Ok x))) eq_refl eq_refl ltac:(intros [y|e|]; cbn [if_ok]; eauto) t2 B2) as (b & -> & Q1 & Q2).
    split; [intros m [<-|[<-|[]]]; [left; auto|right; reflexivity]|]. split.
    - intros m [<-|[<-|[]]] Q; [cbn in Q; congruence|]. split; [exact Sa|]. split; [reflexivity|]. split; [reflexivity|]. split; [|exact Q2].
      exists [mkMade p (OGet (rop_key o)) (Ok (RItem i))]. split; [reflexivity|]. intros m' [<-|[]]. reflexivity.
    - intro Sr. split; [exact Sa|]. eexists. split; [right; left; reflexivity|]. split; [reflexivity|]. apply Q1. exact Sr. }
  destruct o as [k|i|i|i|k|k d e|k d e]; try discriminate W; cbn [rop_key] in Pp, Ps; cbn [rp_prog] in H;
    try (apply (Delta k eq_refl H)); unfold rp_store, rp_delete, on_ring in H; rewrite Pp, Ps in H; eapply Fin; try exact H; reflexivity.
Qed.
Print Assumptions C43_primary_first_then_secondary.

(** Running a pool operation is one such behaviour, and servers not called are not touched. *)
Theorem C43_runs_are_behaviours : forall ST (step : ST -> op -> ST * outcome result) p w w' r,
  exec step p w = (w', r) -> exists ms, behaves p ms r
    /\ (forall i, (forall m, In m ms -> sv_id (m_server m) <> i) -> w' i = w i).
Proof.
  intros ST step p. induction p as [a|sv o k IH]; intros w w' r E; cbn [exec] in E.
  - inversion E; subst. exists []. split; [constructor|reflexivity].
  - destruct (IH _ _ _ _ E) as (ms & B & U). exists (mkMade sv o (snd (server_call step w sv o)) :: ms). split; [constructor; exact B|].
    intros i Hi. rewrite U by (intros m Im; apply Hi; right; exact Im). unfold server_call. cbn [fst]. apply upd_other. intro Q. apply (Hi _ (or_introl eq_refl)). cbn. auto.
Qed.
Print Assumptions C43_runs_are_behaviours.
Example C43_met : writes (RIncr (B "x") 1 0) = true
  /\ behaves (rp_prog prim_c sec_ab (RIncr (B "x") 1 0))
       [mkMade sv_c (OIncr (B "x") 1 0) (Ok (RInt 2)); mkMade sv_c (OGet (B "x")) (Ok (RItem (mkItem (B "x") (B "2") None 7 3 [])));
        mkMade sv_a (OSet (mkItem (B "x") (B "2") None 7 0 [])) (Ok RUnit)] (Ok (RInt 2)).
Proof. split; [reflexivity|]. cbn [rp_prog]. unfold rp_delta, on_ring. rewrite pick_c, (proj1 ring_c_ab_picks). repeat constructor. Qed.

(** ** C44 *)
(** Sequential histories of successful calls starting from empty servers. Beyond the English property
    the history must use counters only on items that expire within 30 days ([counters_expire]) and be
    short enough for the servers' cas numbers to stay below 2^63. *)
Theorem C44_replicas_agree_partial : forall ps ss pn sn w evs w' rs,
  two_rings ps ss pn sn -> good_world (zlen evs) (ps ++ ss) w -> all_empty (ps ++ ss) w ->
  Forall legal_revent evs -> counters_expire pn sn w evs ->
  history pn sn w evs = (w', rs) -> Forall succeeded rs ->
  forall k, same_entry (held pn w' k) (held sn w' k).
Proof.
  intros ps ss pn sn w evs w' rs R G E L C H F. exact (proj1 (history_agree ps ss pn sn R evs w w' rs G (empty_agree _ _ _ _ _ R E) L C H F)).
Qed.
Print Assumptions C44_replicas_agree_partial.

(** Without the restriction on counters it is false: the first Increment of a counter that never
    expires removes it from the secondary. *)
Definition C44_replicas_agree : Prop := forall ps ss pn sn w evs w' rs,
  two_rings ps ss pn sn -> good_world (zlen evs) (ps ++ ss) w -> all_empty (ps ++ ss) w ->
  Forall legal_revent evs -> history pn sn w evs = (w', rs) -> Forall succeeded rs ->
  forall k, same_entry (held pn w' k) (held sn w' k).
Definition set_x (v : string) (ttl : Z) : rop := RSet (mkItem (B "x") (B v) None ttl 0 []).
(** A pool operation depends on the rings only through Pick: for running examples, rings of one
    server can be replaced by a single point. *)
Lemma rp_ext : forall pn pn' sn sn' o, (forall k, pick pn k = pick pn' k) -> (forall k, pick sn k = pick sn' k) -> rp_prog pn sn o = rp_prog pn' sn' o.
Proof. intros pn pn' sn sn' o A C. destruct o; cbn [rp_prog]; unfold rp_get, rp_store, rp_delete, rp_delta, on_ring; rewrite ?A, ?C; reflexivity. Qed.
Lemma history_ext : forall pn pn' sn sn' evs w, (forall k, pick pn k = pick pn' k) -> (forall k, pick sn k = pick sn' k) -> history pn sn w evs = history pn' sn' w evs.
Proof. intros pn pn' sn sn' evs. induction evs as [|[o|d] evs IH]; intros w A C; cbn [history]; [reflexivity|rewrite (rp_ext pn pn' sn sn' o A C), IH by assumption; reflexivity|apply IH; assumption]. Qed.
Definition one (sv : server) : list node := [mkNode sv 0].
Lemma pick_one : forall sv k, pick (one sv) k = Ok sv.
Proof.
  intros sv k. unfold pick. generalize (crc32 k). intro h. unfold pick_hash, one. change (zlen [mkNode sv 0] - 1) with 0. change (length [mkNode sv 0]) with 1%nat.
  cbn -[Z.eqb Z.ltb]. destruct (0 =? h); [reflexivity|]. destruct (h <? 0); reflexivity.
Qed.
Lemma as_one : (forall k, pick prim_a k = pick (one sv_a) k) /\ (forall k, pick sec_b k = pick (one sv_b) k).
Proof. split; intro k; rewrite pick_one; [apply pick_a|apply pick_b]. Qed.
Lemma history_one : forall w evs, history prim_a sec_b w evs = history (one sv_a) (one sv_b) w evs.
Proof. intros. apply history_ext; apply as_one. Qed.
Lemma prog_one : forall o, rp_prog prim_a sec_b o = rp_prog (one sv_a) (one sv_b) o.
Proof. intros. apply rp_ext; apply as_one. Qed.
Lemma held_a : forall w k, held prim_a w k = lookup (l_cache (w 0%nat)) k. Proof. intros. unfold held. rewrite pick_a. reflexivity. Qed.
Lemma held_b : forall w k, held sec_b w k = lookup (l_cache (w 1%nat)) k. Proof. intros. unfold held. rewrite pick_b. reflexivity. Qed.
Lemma legal_x : legal_key PMeta (B "x").
Proof. split; [cbn; lia|]. repeat constructor; vm_compute; congruence. Qed.
Lemma legal_set_x : forall v t, zlen (B v) < 2 ^ 31 -> - 2 ^ 31 <= t < 2 ^ 31 -> legal_rop (set_x v t).
Proof. intros v t Hv Ht. unfold legal_rop, set_x. cbn [primary_op legal]. split; [exact legal_x|]. split; [exact I|]. split; [exact Ht|]. cbn [it_cas it_value]. lia. Qed.
Lemma legal_incr_x : legal_rop (RIncr (B "x") 1 0).
Proof. split; [exact legal_x|]. split; [lia|]. discriminate. Qed.
Theorem C44_counter_without_expiry_refuted : ~ C44_replicas_agree.
Proof.
  intro H. specialize (H [sv_a] [sv_b] prim_a sec_b new_memcacheds [RDo (set_x "1" 0); RDo (RIncr (B "x") 1 0)] _ _ rings_a_b (new_good 2 _ ltac:(lia)) (new_empty _)
    ltac:(constructor; [apply legal_set_x; [vm_compute; reflexivity|lia]|constructor; [apply legal_incr_x|constructor]]) (surjective_pairing _)).
  rewrite history_one in H. specialize (H ltac:(vm_compute; repeat constructor; eexists; reflexivity) (B "x")). rewrite held_a, held_b in H. vm_compute in H. exact H.
Qed.
Print Assumptions C44_counter_without_expiry_refuted.
Example C44_met : two_rings [sv_a] [sv_b] prim_a sec_b /\ good_world 3 ([sv_a] ++ [sv_b]) new_memcacheds
  /\ counters_expire prim_a sec_b new_memcacheds [RDo (set_x "1" 60); RWait 5; RDo (RIncr (B "x") 1 0)]
  /\ exists w' rs, history prim_a sec_b new_memcacheds [RDo (set_x "1" 60); RWait 5; RDo (RIncr (B "x") 1 0)] = (w', rs) /\ Forall succeeded rs
     /\ held sec_b w' (B "x") = Some (mkEntry (B "2") 0 (Some 160) 2 false).
Proof.
  split; [apply rings_a_b|]. split; [apply new_good; lia|]. split.
  - cbn [counters_expire counter_guard]. split; [exact I|]. split; [|exact I]. unfold short_lived. rewrite pick_a, held_a, prog_one.
    match goal with |- match ?x with _ => _ end => replace x with (Some (mkEntry (B "1") 0 (Some 160) 1 false)) by (vm_compute; reflexivity) end.
    exists 160. split; [reflexivity|]. vm_compute. discriminate.
  - rewrite history_one. eexists. eexists. split; [apply surjective_pairing|]. rewrite held_b. split; [|vm_compute; reflexivity].
    vm_compute. repeat constructor; eexists; reflexivity.
Qed.

(** ** C45 *)
(** What a successful Increment or Decrement leaves behind, in any state: the new value on both
    sides; the secondary's expiry is right when the item expires within 30 days; when it never
    expires the secondary loses the item; when it expires later than that the remaining lifetime is
    taken for a Unix time. *)
Definition counter_call (o : rop) : Prop := exists k d e, o = RIncr k d e \/ o = RDecr k d e.
Theorem C45_counters_replicated_partial : forall ps ss pn sn w o w' r now,
  two_rings ps ss pn sn -> good_world 1 (ps ++ ss) w -> (forall sv, In sv ps -> c_now (l_cache (w (sv_id sv))) = now) ->
  legal_rop o -> counter_call o -> exec meta_server (rp_prog pn sn o) w = (w', Ok r) ->
  exists n e e', r = RInt n /\ held pn w (rop_key o) = Some e /\ held pn w' (rop_key o) = Some e'
    /\ e_value e' = counter_text (e_value e) n /\ e_flags e' = e_flags e /\ e_expire e' = e_expire e
    /\ match e_expire e with
       | None => held sn w' (rop_key o) = None
       | Some t => (t - now <= month -> same_entry (Some e') (held sn w' (rop_key o)))
                   /\ (month < t - now -> t - now <= now -> held sn w' (rop_key o) = None)
                   /\ (month < t - now -> now < t - now -> exists e2, held sn w' (rop_key o) = Some e2
                         /\ e_value e2 = e_value e' /\ e_flags e2 = e_flags e /\ e_expire e2 = Some (t - now))
       end.
Proof.
  intros ps ss pn sn w o w' r now R G Nw L Co E.
  destruct (pool_step ps ss pn sn R 0 w o w' (Ok r) ltac:(lia) G L E) as (_ & p & s & cp & cs & cp' & cs' & hp & hs & Pp & Ps & Ip & Is & Ep & Es & Wp & Ws & Ep' & Es' & N & Chp & Chs & Ot & Ef).
  specialize (Ef r eq_refl). pose proof (Nw p Ip) as Np. rewrite Ep in Np. cbn [fresh_link l_cache] in Np. subst now.
  rewrite (held_p pn w _ p cp hp Pp Ep), (held_p pn w' _ p cp' hp Pp Ep'), (held_s sn w' _ s cs' hs Ps Es').
  assert (X : exists e n, r = RInt n /\ lookup cp (rop_key o) = Some e /\ cp' = put cp (rop_key o) (counter_text (e_value e) n) (e_flags e) (e_expire e)
      /\ cs' = put cs (rop_key o) (counter_text (e_value e) n) (e_flags e) (expire_at (c_now cs) (ttl cp e))).
  { destruct Co as (k & d & ex & [-> | ->]); exact Ef. }
  destruct X as (e & n & Rn & Lk & Cp & Cs). exists n, e, (mkEntry (counter_text (e_value e) n) (e_flags e) (e_expire e) (c_cas cp + 1) false).
  split; [exact Rn|]. split; [exact Lk|]. pose proof (lookup_map _ _ _ Lk) as [_ Al].
  split; [rewrite Cp, lookup_put; cbv zeta; unfold alive in *; cbn [e_expire]; rewrite Al; reflexivity|]. cbn [e_value e_flags e_expire].
  split; [reflexivity|]. split; [reflexivity|]. split; [reflexivity|].
  rewrite Cs, lookup_put. cbv zeta. rewrite <- N. unfold ttl. unfold alive in Al. destruct (e_expire e) as [t|] eqn:Ex.
  - assert (Al' := Al). apply Z.ltb_lt in Al'. split; [|split].
    + intro M. rewrite expire_same by assumption. unfold alive. cbn [e_expire]. rewrite Al. cbn. auto.
    + intros M1 M2. unfold expire_at. replace (t - c_now cp =? 0) with false by (symmetry; apply Z.eqb_neq; lia).
      replace (t - c_now cp <? 0) with false by (symmetry; apply Z.ltb_ge; lia). replace (t - c_now cp <=? month) with false by (symmetry; apply Z.leb_gt; lia).
      unfold alive. cbn [e_expire]. replace (c_now cp <? t - c_now cp) with false by (symmetry; apply Z.ltb_ge; lia). reflexivity.
    + intros M1 M2. unfold expire_at. replace (t - c_now cp =? 0) with false by (symmetry; apply Z.eqb_neq; lia).
      replace (t - c_now cp <? 0) with false by (symmetry; apply Z.ltb_ge; lia). replace (t - c_now cp <=? month) with false by (symmetry; apply Z.leb_gt; lia).
      unfold alive. cbn [e_expire]. replace (c_now cp <? t - c_now cp) with true by (symmetry; apply Z.ltb_lt; lia). eexists. split; [reflexivity|]. auto.
  - change (expire_at (c_now cp) (-1)) with (Some (c_now cp)). unfold alive. cbn [e_expire]. rewrite Z.ltb_irrefl. reflexivity.
Qed.
Print Assumptions C45_counters_replicated_partial.

Definition C45_counters_replicated : Prop := forall ps ss pn sn w o w' r,
  two_rings ps ss pn sn -> good_world 1 (ps ++ ss) w -> replicas_agree pn sn w -> legal_rop o -> counter_call o ->
  exec meta_server (rp_prog pn sn o) w = (w', Ok r) -> same_entry (held pn w' (rop_key o)) (held sn w' (rop_key o)).
Definition counter_world (expire : option Z) : world link := fun _ =>
  fresh_link (put (empty_cache demo_cfg 100) (B "x") (B "1") 0 expire) reset_header.
Lemma counter_world_ok : forall expire, match expire with None => True | Some t => t < 2 ^ 31 end ->
  good_world 1 ([sv_a] ++ [sv_b]) (counter_world expire) /\ replicas_agree prim_a sec_b (counter_world expire)
  /\ legal_rop (RIncr (B "x") 1 0) /\ counter_call (RIncr (B "x") 1 0).
Proof.
  intros expire He. split; [|split; [|split; [apply legal_incr_x|repeat eexists; left; reflexivity]]].
  - exists 100. intros sv _. exists (put (empty_cache demo_cfg 100) (B "x") (B "1") 0 expire), reset_header. split; [reflexivity|].
    split; [|split; [reflexivity|cbn [put put_entry empty_cache c_cas]; lia]]. split; [exact demo_cfg_ok|]. split; [cbn; lia|]. split; [cbn; lia|].
    intros k e Hk. unfold put in Hk. cbn [c_map] in Hk. unfold put_entry in Hk. destruct (beq k (B "x")); [|discriminate Hk]. injection Hk as <-.
    split; [cbn; lia|]. split; [cbn [e_flags flags_bound]; lia|]. split; [cbn; lia|]. intros _. cbn [e_expire c_now put empty_cache]. destruct expire; lia.
  - intro k. unfold held. rewrite pick_a, pick_b. unfold counter_world. cbn [fresh_link l_cache]. destruct (lookup _ k); cbn; auto.
Qed.
Theorem C45_no_expiry_refuted : ~ C45_counters_replicated.
Proof.
  intro H. destruct (counter_world_ok None I) as (G & A & L & C).
  assert (E : exec meta_server (rp_prog prim_a sec_b (RIncr (B "x") 1 0)) (counter_world None) =
    (fst (exec meta_server (rp_prog (one sv_a) (one sv_b) (RIncr (B "x") 1 0)) (counter_world None)), Ok (RInt 2))).
  { rewrite prog_one. apply injective_projections; [reflexivity|]. vm_compute. reflexivity. }
  specialize (H _ _ _ _ _ _ _ _ rings_a_b G A L C E). rewrite held_a, held_b in H. vm_compute in H. exact H.
Qed.
Print Assumptions C45_no_expiry_refuted.
(** Expiry in 40 days at time 100: the secondary's copy lives until the Unix time 3456000, not 3456100. *)
Theorem C45_long_expiry_refuted : ~ (forall w o w' r, good_world 1 ([sv_a] ++ [sv_b]) w -> replicas_agree prim_a sec_b w -> legal_rop o -> counter_call o ->
  (forall e, held prim_a w (rop_key o) = Some e -> e_expire e <> None) ->
  exec meta_server (rp_prog prim_a sec_b o) w = (w', Ok r) -> same_entry (held prim_a w' (rop_key o)) (held sec_b w' (rop_key o))).
Proof.
  intro H. destruct (counter_world_ok (Some 3456100) ltac:(vm_compute; reflexivity)) as (G & A & L & C).
  assert (E : exec meta_server (rp_prog prim_a sec_b (RIncr (B "x") 1 0)) (counter_world (Some 3456100)) =
    (fst (exec meta_server (rp_prog (one sv_a) (one sv_b) (RIncr (B "x") 1 0)) (counter_world (Some 3456100))), Ok (RInt 2))).
  { rewrite prog_one. apply injective_projections; [reflexivity|]. vm_compute. reflexivity. }
  specialize (H _ _ _ _ G A L C ltac:(intros e Q X; rewrite held_a in Q; vm_compute in Q; injection Q as Q; rewrite <- Q in X; discriminate X) E).
  rewrite held_a, held_b in H. vm_compute in H. destruct H as (_ & _ & H). discriminate H.
Qed.
Print Assumptions C45_long_expiry_refuted.
Example C45_met : exists w' r, exec meta_server (rp_prog prim_a sec_b (RIncr (B "x") 1 0)) (counter_world (Some 160)) = (w', Ok r)
  /\ good_world 1 ([sv_a] ++ [sv_b]) (counter_world (Some 160)).
Proof.
  exists (fst (exec meta_server (rp_prog (one sv_a) (one sv_b) (RIncr (B "x") 1 0)) (counter_world (Some 160)))), (RInt 2).
  split; [|exact (proj1 (counter_world_ok (Some 160) ltac:(vm_compute; reflexivity)))]. rewrite prog_one. apply injective_projections; [reflexivity|]. vm_compute. reflexivity.
Qed.

(** ** C46 *)
(** [n] steps of any interleaving of the calls [os], one goroutine each, after which all have returned
    without error. Writers of different keys leave the replicas equal. (Beyond the English property:
    different keys, counters that expire within 30 days, cas numbers below 2^63.) *)
Theorem C46_concurrent_writers_partial : forall ps ss pn sn n w os w' ts',
  two_rings ps ss pn sn -> good_world (Z.of_nat n) (ps ++ ss) w -> replicas_agree pn sn w ->
  Forall legal_rop os -> different_keys os -> Forall (counter_guard pn w) os ->
  interleave meta_server n w (map (rp_prog pn sn) os) w' ts' -> (forall t, In t ts' -> exists x, t = Ret (Ok x)) ->
  replicas_agree pn sn w'.
Proof.
  intros ps ss pn sn n w os w' ts' R [now G] A L D C Il F.
  apply (interleave_agree ps ss pn sn R now n w os w' ts' Il); try assumption.
  intros o Io. rewrite Forall_forall in C. specialize (C o Io). destruct o; try exact I; cbn [counter_guard needs_soon] in *; unfold short_lived, soon in *;
    destruct (owner_p _ _ _ _ R k) as (p & P & Ip); rewrite P in C; destruct (G p ltac:(apply in_or_app; auto)) as (c & h & E & _ & Nc & _);
    rewrite E in C; cbn [fresh_link l_cache] in C; rewrite Nc in C; exact C.
Qed.
Print Assumptions C46_concurrent_writers_partial.

(** Running a given schedule. *)
Fixpoint schedule {ST} (step : ST -> op -> ST * outcome result) (is : list nat) (w : world ST) (ts : list prog) : world ST * list prog :=
  match is with
  | [] => (w, ts)
  | i :: is' => match nth_error ts i with
                | Some (Call sv o k) => let wr := server_call step w sv o in schedule step is' (fst wr) (set_nth i (k (snd wr)) ts)
                | _ => schedule step is' w ts
                end
  end.
Fixpoint runnable {ST} (step : ST -> op -> ST * outcome result) (is : list nat) (w : world ST) (ts : list prog) : bool :=
  match is with
  | [] => true
  | i :: is' => match nth_error ts i with
                | Some (Call sv o k) => let wr := server_call step w sv o in runnable step is' (fst wr) (set_nth i (k (snd wr)) ts)
                | _ => false
                end
  end.
Lemma schedule_ok : forall ST (step : ST -> op -> ST * outcome result) is w ts, runnable step is w ts = true ->
  interleave step (length is) w ts (fst (schedule step is w ts)) (snd (schedule step is w ts)).
Proof.
  intros ST step is. induction is as [|i is IH]; intros w ts Rn; cbn [runnable schedule length] in *; [constructor|].
  destruct (nth_error ts i) as [[r|sv o k]|] eqn:Q; try discriminate Rn. eapply il_step; [exact Q|]. apply IH. exact Rn.
Qed.
Lemma map_one : forall os, map (rp_prog prim_a sec_b) os = map (rp_prog (one sv_a) (one sv_b)) os.
Proof. intro os. apply map_ext. apply prog_one. Qed.
Definition all_ok (ts : list prog) : Prop := forall t, In t ts -> exists x, t = Ret (Ok x).

Definition C46_concurrent_writers : Prop := forall ps ss pn sn n w os w' ts',
  two_rings ps ss pn sn -> good_world (Z.of_nat n) (ps ++ ss) w -> replicas_agree pn sn w ->
  Forall legal_rop os -> Forall (counter_guard pn w) os ->
  interleave meta_server n w (map (rp_prog pn sn) os) w' ts' -> (forall t, In t ts' -> exists x, t = Ret (Ok x)) ->
  replicas_agree pn sn w'.
(** Two Sets of the same key whose secondary writes happen in the other order. *)
Theorem C46_set_set_refuted : ~ C46_concurrent_writers.
Proof.
  intro H. set (os := [set_x "1" 0; set_x "2" 0]). set (is := [0; 1; 1; 0]%nat).
  assert (Il := schedule_ok _ meta_server is new_memcacheds (map (rp_prog (one sv_a) (one sv_b)) os) ltac:(vm_compute; reflexivity)). rewrite <- map_one in Il at 1.
  specialize (H _ _ _ _ _ _ os _ _ rings_a_b (new_good (Z.of_nat (length is)) _ ltac:(vm_compute; split; [discriminate|reflexivity])) (empty_agree _ _ _ _ _ rings_a_b (new_empty _))
    ltac:(constructor; [apply legal_set_x; [vm_compute; reflexivity|lia]|constructor; [apply legal_set_x; [vm_compute; reflexivity|lia]|constructor]])
    ltac:(repeat constructor) Il).
  specialize (H ltac:(intros t Ht; vm_compute in Ht; destruct Ht as [<-|[<-|[]]]; eexists; reflexivity) (B "x")). rewrite held_a, held_b in H. vm_compute in H. destruct H as [H _]. discriminate H.
Qed.
Print Assumptions C46_set_set_refuted.
(** Two Increments of one counter: both succeed, the secondary keeps the result of the first. *)
Theorem C46_incr_incr_refuted : ~ C46_concurrent_writers.
Proof.
  intro H. set (os := [RIncr (B "x") 1 0; RIncr (B "x") 1 0]). set (is := [0; 0; 1; 1; 1; 0]%nat).
  destruct (counter_world_ok (Some 160) ltac:(vm_compute; reflexivity)) as (G & A & L & C).
  assert (G' : good_world (Z.of_nat (length is)) ([sv_a] ++ [sv_b]) (counter_world (Some 160))).
  { destruct G as [now G]. exists now. intros sv Is. destruct (G sv Is) as (c & h & E & W & Nc & Cc). exists c, h. split; [exact E|]. split; [exact W|]. split; [exact Nc|].
    unfold counter_world in E. apply (f_equal l_cache) in E. cbn [fresh_link l_cache] in E. rewrite <- E. cbn. lia. }
  assert (Il := schedule_ok _ meta_server is (counter_world (Some 160)) (map (rp_prog (one sv_a) (one sv_b)) os) ltac:(vm_compute; reflexivity)). rewrite <- map_one in Il at 1.
  assert (Cg : counter_guard prim_a (counter_world (Some 160)) (RIncr (B "x") 1 0)).
  { cbn [counter_guard]. unfold short_lived. rewrite pick_a, held_a. match goal with |- match ?x with _ => _ end => replace x with (Some (mkEntry (B "1") 0 (Some 160) 1 false)) by (vm_compute; reflexivity) end.
    exists 160. split; [reflexivity|]. vm_compute. discriminate. }
  specialize (H _ _ _ _ _ _ os _ _ rings_a_b G' A ltac:(constructor; [exact L|constructor; [exact L|constructor]]) ltac:(constructor; [exact Cg|constructor; [exact Cg|constructor]]) Il).
  specialize (H ltac:(intros t Ht; vm_compute in Ht; destruct Ht as [<-|[<-|[]]]; eexists; reflexivity) (B "x")). rewrite held_a, held_b in H. vm_compute in H. destruct H as [H _]. discriminate H.
Qed.
Print Assumptions C46_incr_incr_refuted.
(** Non-vacuity: a Set, a Delete and a Get interleaved, all returning without error. *)
Definition set_y : rop := RSet (mkItem (B "y") (B "1") None 0 0 []).
Example C46_met : let os := [set_y; RIncr (B "x") 1 0; RGet (B "x")] in
  different_keys os /\ exists w' ts', interleave meta_server 6 (counter_world (Some 160)) (map (rp_prog prim_a sec_b) os) w' ts' /\ all_ok ts'
    /\ good_world 1 ([sv_a] ++ [sv_b]) (counter_world (Some 160)) /\ replicas_agree prim_a sec_b (counter_world (Some 160)).
Proof.
  intro os. split.
  - intros i j a b Ha Hb Nij Wa Wb. destruct i as [|[|[|i]]], j as [|[|[|j]]]; cbn in Ha, Hb; try congruence; try (destruct i; discriminate Ha); try (destruct j; discriminate Hb);
      inversion Ha; inversion Hb; subst; cbn in *; discriminate.
  - assert (Il := schedule_ok _ meta_server [1; 0; 2; 1; 0; 1]%nat (counter_world (Some 160)) (map (rp_prog (one sv_a) (one sv_b)) os) ltac:(vm_compute; reflexivity)). rewrite <- map_one in Il at 1.
    eexists. eexists. split; [exact Il|]. destruct (counter_world_ok (Some 160) ltac:(vm_compute; reflexivity)) as (G & A & _). split; [|split; assumption].
    intros t Ht. vm_compute in Ht. destruct Ht as [<-|[<-|[<-|[]]]]; eexists; reflexivity.
Qed.

(** ** C47 *)
(** A compare-and-swap through the pool succeeds when the secondary ring mirrors the primary ring,
    owners have given out equally many cas numbers, and the history before it consists of successful
    calls with counters as in C44. *)
Theorem C47_cas_through_the_pool_partial : forall ps ss pn sn w evs w1 rs k i w2 v f ex,
  two_rings ps ss pn sn -> mirrored pn sn -> good_world (zlen evs + 2) (ps ++ ss) w -> all_empty (ps ++ ss) w -> equal_counters pn sn w ->
  Forall legal_revent evs -> counters_expire pn sn w evs -> history pn sn w evs = (w1, rs) -> Forall succeeded rs ->
  legal_key PMeta k -> exec meta_server (rp_prog pn sn (RGet k)) w1 = (w2, Ok (RItem i)) ->
  legal_item PMeta (mkItem k v f ex (it_cas i) []) ->
  (forall sv, In sv (ps ++ ss) -> too_large (l_cache (w2 (sv_id sv))) v = false) ->
  snd (exec meta_server (rp_prog pn sn (RSet (mkItem k v f ex (it_cas i) []))) w2) = Ok RUnit.
Proof.
  intros ps ss pn sn w evs w1 rs k i w2 v f ex R M G Em Eq L C H F Lk Eg Li Tl.
  assert (S0 : in_step pn sn w).
  { split; [exact Eq|]. intro j. destruct (owner_p _ _ _ _ R j) as (p & Pp & Ip). destruct (owner_s _ _ _ _ R j) as (s & Ps & Is).
    unfold held, lookup. rewrite Pp, Ps, !Em by (apply in_or_app; auto). split; [exact I|reflexivity]. }
  destruct (history_in_step ps ss pn sn R M evs 2 w w1 rs ltac:(lia) G S0 L C H F) as [S1 G1].
  pose proof (in_step_step ps ss pn sn R M 1 w1 (RGet k) w2 (RItem i) ltac:(lia) G1 Lk I S1 Eg) as S2.
  destruct (pool_step ps ss pn sn R 1 w1 (RGet k) w2 (Ok (RItem i)) ltac:(lia) G1 Lk Eg) as (G2 & p & s & cp & cs & cp' & cs' & hp & hs & Pp & Ps & Ip & Is & Ep & Es & Wp & Ws & Ep' & Es' & N & Chp & Chs & Ot & Ef).
  destruct (Ef _ eq_refl) as [-> ->]. cbn [rop_key] in Pp, Ps.
  destruct (C42_get_reads_only_the_primary _ _ _ _ _ _ _ _ _ _ R Eg) as (p' & _ & Pp' & Er & _). assert (p' = p) by congruence. subst p'. rewrite Ep in Er.
  destruct (good_at ps ss 1 w2 p G2 ltac:(apply in_or_app; auto)) as (c1 & h1 & Q1 & _ & Cc1). destruct (good_at ps ss 1 w2 s G2 ltac:(apply in_or_app; auto)) as (c2 & h2 & Q2 & _ & Cc2).
  assert (X1 : c1 = cp) by (rewrite Ep' in Q1; apply (f_equal l_cache) in Q1; exact (eq_sym Q1)). assert (X2 : c2 = cs) by (rewrite Es' in Q2; apply (f_equal l_cache) in Q2; exact (eq_sym Q2)). subst c1 c2.
  destruct (meta_answers cp hp (OGet k) k Wp ltac:(lia) Lk eq_refl eq_refl) as (out & Eo & Ag). rewrite Eo in Er. cbn [snd] in Er. subst out.
  destruct Ag as [Ag|[Q _]]; [|discriminate Q]. cbn [spec_step snd] in Ag. destruct (lookup cp k) as [e|] eqn:Le; [|contradiction]. cbn [agrees] in Ag. injection Ag as ->.
  cbn [item_view it_cas] in *. pose proof (Tl p ltac:(apply in_or_app; auto)) as Tp. pose proof (Tl s ltac:(apply in_or_app; auto)) as Ts. rewrite Ep' in Tp. rewrite Es' in Ts.
  apply (cas_set pn sn w2 k v f ex p s cp cs hp hs e S2 Pp Ps Ep' Es' Wp Ws Cc1 Cc2 ltac:(eapply apart; eassumption) Le Li Tp Ts).
Qed.
Print Assumptions C47_cas_through_the_pool_partial.

Definition C47_cas_through_the_pool : Prop := forall ps ss pn sn w evs w1 rs k i w2 v f ex,
  two_rings ps ss pn sn -> good_world (zlen evs + 2) (ps ++ ss) w -> all_empty (ps ++ ss) w -> equal_counters pn sn w ->
  Forall legal_revent evs -> counters_expire pn sn w evs -> history pn sn w evs = (w1, rs) -> Forall succeeded rs ->
  legal_key PMeta k -> exec meta_server (rp_prog pn sn (RGet k)) w1 = (w2, Ok (RItem i)) ->
  legal_item PMeta (mkItem k v f ex (it_cas i) []) ->
  (forall sv, In sv (ps ++ ss) -> too_large (l_cache (w2 (sv_id sv))) v = false) ->
  snd (exec meta_server (rp_prog pn sn (RSet (mkItem k v f ex (it_cas i) []))) w2) = Ok RUnit.
(** One primary, two secondaries: the second item's cas number is 2 on the primary and 1 on its
    secondary, so the Set succeeds on the primary, fails on the secondary and returns an error. *)
Definition set_hello (v : string) (cas : Z) : rop := RSet (mkItem (B "hello") (B v) None 0 cas []).
Definition small_ab : list node := [mkNode sv_b 0; mkNode sv_a 2000000000].
Definition known_key (ev : revent) : Prop := match ev with RDo o => rop_key o = B "x" \/ rop_key o = B "hello" | RWait _ => True end.
Lemma rp_small : forall o, rop_key o = B "x" \/ rop_key o = B "hello" -> rp_prog prim_c sec_ab o = rp_prog (one sv_c) small_ab o.
Proof.
  intros o K. assert (S : pick sec_ab (rop_key o) = pick small_ab (rop_key o)).
  { destruct ring_c_ab_picks as [Px Ph]. destruct K as [-> | ->]; [rewrite Px|rewrite Ph]; vm_compute; reflexivity. }
  assert (P : pick prim_c (rop_key o) = pick (one sv_c) (rop_key o)) by (rewrite pick_c, pick_one; reflexivity).
  destruct o; cbn [rp_prog rop_key] in *; unfold rp_get, rp_store, rp_delete, rp_delta, on_ring; rewrite ?S, ?P; reflexivity.
Qed.
Lemma history_small : forall evs w, Forall known_key evs -> history prim_c sec_ab w evs = history (one sv_c) small_ab w evs.
Proof.
  induction evs as [|[o|d] evs IH]; intros w F; inversion F; subst; cbn [history]; [reflexivity| |apply IH; assumption].
  rewrite (rp_small o) by assumption. rewrite IH by assumption. reflexivity.
Qed.
Lemma legal_hello : legal_key PMeta (B "hello").
Proof. split; [cbn; lia|]. repeat constructor; vm_compute; congruence. Qed.
Theorem C47_different_rings_refuted : ~ C47_cas_through_the_pool.
Proof.
  intro H. set (evs := [RDo (set_x "1" 0); RDo (set_hello "1" 0)]).
  set (w1 := fst (history (one sv_c) small_ab new_memcacheds evs)).
  set (w2 := fst (exec meta_server (rp_prog (one sv_c) small_ab (RGet (B "hello"))) w1)).
  set (i := mkItem (B "hello") (B "1") (Some [ascii_of_nat 0; ascii_of_nat 0; ascii_of_nat 0; ascii_of_nat 0]) (-1) 2 []).
  assert (Eh : history prim_c sec_ab new_memcacheds evs = (w1, [Ok RUnit; Ok RUnit])).
  { rewrite history_small by (repeat constructor; cbn; auto). apply injective_projections; [reflexivity|]. vm_compute. reflexivity. }
  assert (Eg : exec meta_server (rp_prog prim_c sec_ab (RGet (B "hello"))) w1 = (w2, Ok (RItem i))).
  { rewrite rp_small by (right; reflexivity). apply injective_projections; [reflexivity|]. vm_compute. reflexivity. }
  assert (Lh : forall c, 0 <= c < 2 ^ 64 -> legal_item PMeta (mkItem (B "hello") (B "1") None 0 c [])).
  { intros c Hc. split; [exact legal_hello|]. split; [exact I|]. split; [cbn [it_exp legal_exp]; lia|]. split; [exact Hc|vm_compute; reflexivity]. }
  assert (Q := H _ _ _ _ new_memcacheds evs w1 _ (B "hello") i w2 (B "1") None 0 rings_c_ab (new_good 4 _ ltac:(lia)) (new_empty _) ltac:(intros k p s _ _; reflexivity)
    ltac:(constructor; [apply legal_set_x; [vm_compute; reflexivity|lia]|constructor; [apply Lh; lia|constructor]]) ltac:(repeat constructor)
    Eh ltac:(repeat constructor; eexists; reflexivity) legal_hello Eg ltac:(apply Lh; cbn; lia)
    ltac:(intros sv [<-|[<-|[<-|[]]]]; vm_compute; reflexivity)).
  rewrite rp_small in Q by (right; reflexivity). vm_compute in Q. discriminate Q.
Qed.
Print Assumptions C47_different_rings_refuted.
Example C47_met : mirrored prim_a sec_b /\ equal_counters prim_a sec_b new_memcacheds
  /\ exists w1 w2 i, history prim_a sec_b new_memcacheds [RDo (set_x "1" 60); RDo (RIncr (B "x") 1 0)] = (w1, [Ok RUnit; Ok (RInt 2)])
     /\ exec meta_server (rp_prog prim_a sec_b (RGet (B "x"))) w1 = (w2, Ok (RItem i)) /\ it_cas i = 2.
Proof.
  split; [intros j k; rewrite (pick_a j), (pick_a k), (pick_b j), (pick_b k); split; intros _; reflexivity|]. split; [intros k p s _ _; reflexivity|].
  set (w1 := fst (history (one sv_a) (one sv_b) new_memcacheds [RDo (set_x "1" 60); RDo (RIncr (B "x") 1 0)])).
  exists w1, (fst (exec meta_server (rp_prog (one sv_a) (one sv_b) (RGet (B "x"))) w1)),
    (mkItem (B "x") (B "2") (Some [ascii_of_nat 0; ascii_of_nat 0; ascii_of_nat 0; ascii_of_nat 0]) 60 2 []).
  split; [rewrite history_one; apply injective_projections; [reflexivity|vm_compute; reflexivity]|].
  split; [rewrite prog_one; apply injective_projections; [reflexivity|vm_compute; reflexivity]|reflexivity].
Qed.
