(** * C78: when the replicas behind the router agree. *)
From Verif Require Import GoBytes GoNum GoIO Item ClientText ClientMeta Cache Daemon Spec Call Guard Hash Ring RingSpec RingData Pool PoolSpec Replica ReplicaSpec
  ServerTypes ServerParse ServerWrite Serve ServerConc ServerSpec Proxy RouterConc PLib PDaemon PCache PMeta PClient PRing PPool PMulti PReplica PServer PServe PropServer PropServerConc PropReplica PropProxy PropRouter PropRouterLin.
Local Open Scope Z_scope.

(** ** Definitions of the statements *)
(** Connection [i] has a set of key [k] that is not answered. *)
Definition setting (v : router_state link) (k : bytes) : Prop := exists i q, sc_phase (rt_conns v i) = Calling q /\ q_opcode q = OpcSet /\ q_key q = k.
(** All sets of [k] come over one connection and do not expire. *)
Definition one_writer (log : list rtevent) (k : bytes) : Prop :=
  exists j, forall m i q, at_ log m (ERead i q) -> q_opcode q = OpcSet -> q_key q = k -> i = j /\ sets_key k q.

Section Rest.
Variables (ps ss : list server) (pn sn : list node).
Hypothesis R : two_rings ps ss pn sn.
Variable w : world link.
Variable k : bytes.
Variable j : nat.

Definition fine (n : nat) (w1 : world link) : Prop := sec_ok (ps ++ ss) w n w1 /\ exists now, forall sv, In sv (ps ++ ss) -> c_now (l_cache (w1 (sv_id sv))) = now.
Definition ours (log : list rtevent) : Prop := forall m i q, at_ log m (ERead i q) -> q_opcode q = OpcSet -> q_key q = k -> i = j /\ sets_key k q.

(** Where a request is. *)
Inductive spot (q : srequest) : prog -> Prop :=
| Sp_start : spot q (proxy_prog pn sn q)
| Sp_between : forall o s, q_opcode q = OpcSet -> q_set q = Some o -> pick sn (q_key q) = Ok s -> spot q (Call s (OSet (proxy_item q o)) Ret)
| Sp_done : forall r, spot q (Ret r).
(** The set of [k] is between its two calls. *)
Definition pend (v : router_state link) (q : srequest) (o : set_opt) : Prop :=
  sc_phase (rt_conns v j) = Calling q /\ q_opcode q = OpcSet /\ q_key q = k /\ q_set q = Some o
  /\ exists s, pick sn k = Ok s /\ rt_prog v j = Call s (OSet (proxy_item q o)) Ret.
Definition has (e : option entry) (q : srequest) (o : set_opt) : Prop :=
  exists x, e = Some x /\ e_value x = q_value q /\ e_flags x = item_flags (proxy_item q o) /\ e_expire x = None.

Record rest (v : router_state link) : Prop := {
  r_fine : fine (length (rt_log v)) (rt_world v);
  r_spot : forall i q, sc_phase (rt_conns v i) = Calling q -> (exists m, at_ (rt_log v) m (ERead i q)) /\ spot q (rt_prog v i);
  r_pend : forall q o, pend v q o -> has (held pn (rt_world v) k) q o;
  r_agree : (exists q o, pend v q o) \/ same_entry (held pn (rt_world v) k) (held sn (rt_world v) k)
}.

Lemma fine_le : forall n m w1, (n <= m)%nat -> fine n w1 -> fine m w1.
Proof. intros n m w1 L [A B']. split; [eapply sec_ok_le; eassumption|exact B']. Qed.
Lemma fine_tick : forall n w1 d, 0 <= d -> fine n w1 -> fine n (fun i => link_tick (w1 i) d).
Proof. intros n w1 d D [A [now B']]. split; [apply sec_ok_tick; assumption|]. exists (now + d). intros sv Is. cbn [link_tick l_cache tick c_now]. rewrite (B' sv Is). reflexivity. Qed.
Lemma fine_same : forall n w1 w2, (forall i, w2 i = w1 i) -> fine n w1 -> fine n w2.
Proof.
  intros n w1 w2 E [A [now B']]. split.
  - intros s Is. destruct (A s Is) as (c & h & X). exists c, h. rewrite E. exact X.
  - exists now. intros sv Is. rewrite E. apply B'. exact Is.
Qed.
(** One plain set on one server. *)
Lemma fine_set : forall n w1 s i, room (ps ++ ss) w (S n) -> In s (ps ++ ss) -> fine n w1 -> legal_item PMeta i -> it_cas i = 0 -> zlen (it_value i) <= cf_limit (c_cfg (l_cache (w (sv_id s)))) ->
  snd (meta_server (w1 (sv_id s)) (OSet i)) = Ok RUnit /\ fine (S n) (upd w1 (sv_id s) (fst (meta_server (w1 (sv_id s)) (OSet i))))
  /\ exists c h, w1 (sv_id s) = fresh_link c h /\ fst (meta_server (w1 (sv_id s)) (OSet i)) = fresh_link (stored c i) h.
Proof.
  intros n w1 s i Rm Is [Sk [now Nw]] L K V. destruct (sec_ok_set (ps ++ ss) w n w1 s i Rm Is Sk L K V) as (A & S2). split; [exact A|].
  destruct (Sk s Is) as (c & h & Ew & Wf & Cf & Cc). specialize (Rm s Is). pose proof (plain_set_ok c h i Wf ltac:(lia) L K ltac:(rewrite Cf; exact V)) as E. rewrite <- Ew in E. split.
  - split; [exact S2|]. exists now. intros sv Isv. destruct (Nat.eq_dec (sv_id sv) (sv_id s)) as [Q|Q]; [|rewrite upd_other by exact Q; apply Nw; exact Isv].
    rewrite Q, upd_same, E. cbn [fst fresh_link l_cache]. pose proof (Nw s Is) as X. rewrite Ew in X. exact X.
  - exists c, h. split; [exact Ew|]. rewrite E. reflexivity.
Qed.
Lemma get_same : forall n w1 p key, room (ps ++ ss) w n -> In p (ps ++ ss) -> fine n w1 -> legal_key PMeta key -> fst (meta_server (w1 (sv_id p)) (OGet key)) = w1 (sv_id p).
Proof.
  intros n w1 p key Rm Ip [Sk _] L. destruct (Sk p Ip) as (c & h & Ew & Wf & Cf & Cc). specialize (Rm p Ip).
  destruct (meta_answers c h (OGet key) key Wf ltac:(lia) L eq_refl eq_refl) as (out & Em & _). rewrite Ew, Em. reflexivity.
Qed.
Lemma held_same : forall nodes w1 w2 key, (forall i, w2 i = w1 i) -> held nodes w2 key = held nodes w1 key.
Proof. intros nodes w1 w2 key E. unfold held. destruct (pick nodes key); [rewrite E|..]; reflexivity. Qed.
Lemma held_upd_other : forall nodes w1 s l key, (forall p, pick nodes key = Ok p -> sv_id p <> sv_id s) -> held nodes (upd w1 (sv_id s) l) key = held nodes w1 key.
Proof. intros nodes w1 s l key H. unfold held. destruct (pick nodes key) as [p| |]; [rewrite upd_other by (apply H; reflexivity)|..]; reflexivity. Qed.
Lemma held_upd_key : forall nodes w1 s c h i key, w1 (sv_id s) = fresh_link c h -> key <> it_key i -> held nodes (upd w1 (sv_id s) (fresh_link (stored c i) h)) key = held nodes w1 key.
Proof.
  intros nodes w1 s c h i key E N. unfold held. destruct (pick nodes key) as [p| |]; [|reflexivity|reflexivity]. destruct (Nat.eq_dec (sv_id p) (sv_id s)) as [Q|Q]; [|rewrite upd_other by exact Q; reflexivity].
  rewrite Q, upd_same, E. cbn [fresh_link l_cache]. unfold lookup, stored, Cache.put, put_entry. cbn [c_map c_now]. rewrite (proj2 (beq_neq _ _) N). reflexivity.
Qed.
Lemma held_upd_set : forall nodes w1 s c h q o, pick nodes (q_key q) = Ok s -> w1 (sv_id s) = fresh_link c h -> s_exp o = 0 ->
  has (held nodes (upd w1 (sv_id s) (fresh_link (stored c (proxy_item q o)) h)) (q_key q)) q o.
Proof.
  intros nodes w1 s c h q o Pk E E0. unfold held, has. rewrite Pk, upd_same. cbn [fresh_link l_cache]. unfold stored.
  change (it_key (proxy_item q o)) with (q_key q). change (it_exp (proxy_item q o)) with (s_exp o). change (it_value (proxy_item q o)) with (q_value q). rewrite E0, lookup_put. cbn. eexists. repeat split; reflexivity.
Qed.
Lemma has_agree : forall a b q o, has a q o -> has b q o -> same_entry a b.
Proof. intros a b q o (x & -> & A1 & A2 & A3) (y & -> & B1 & B2 & B3). cbn. split; [congruence|]. split; congruence. Qed.
Lemma agree_tick : forall n w1 d, 0 <= d -> fine n w1 -> same_entry (held pn w1 k) (held sn w1 k) ->
  same_entry (held pn (fun i => link_tick (w1 i) d) k) (held sn (fun i => link_tick (w1 i) d) k).
Proof.
  intros n w1 d D [_ [now Nw]]. unfold held. destruct (owner_p _ _ _ _ R k) as (p & Pp & Ip). destruct (owner_s _ _ _ _ R k) as (s & Ps & Is). rewrite Pp, Ps. cbn [link_tick l_cache].
  pose proof (Nw p ltac:(apply in_or_app; auto)) as Np. pose proof (Nw s ltac:(apply in_or_app; auto)) as Ns. revert Np Ns. generalize (l_cache (w1 (sv_id p))) (l_cache (w1 (sv_id s))). intros a b Na Nb.
  unfold lookup. cbn [tick c_map c_now]. rewrite Na, Nb.
  assert (Al : forall x, alive now x = false -> alive (now + d) x = false) by (intros x; unfold alive; destruct (e_expire x); [|discriminate]; intro H; apply Z.ltb_ge; apply Z.ltb_ge in H; lia).
  destruct (c_map a k) as [x|], (c_map b k) as [y|]; cbn.
  - destruct (alive now x) eqn:Ax, (alive now y) eqn:Ay; cbn; intro H; try contradiction.
    + destruct H as (V & F & E). assert (Q : alive (now + d) x = alive (now + d) y) by (unfold alive; rewrite E; reflexivity). rewrite Q. destruct (alive (now + d) y); cbn; auto.
    + rewrite (Al x Ax), (Al y Ay). exact Logic.I.
  - destruct (alive now x) eqn:Ax; cbn; intro H; [contradiction|]. rewrite (Al x Ax). exact Logic.I.
  - destruct (alive now y) eqn:Ay; cbn; intro H; [contradiction|]. rewrite (Al y Ay). exact Logic.I.
  - auto.
Qed.
Lemma has_tick : forall w1 d q o, has (held pn w1 k) q o -> has (held pn (fun i => link_tick (w1 i) d) k) q o.
Proof.
  intros w1 d q o (x & H & V & F & X). exists x. split; [|auto]. unfold held in *. destruct (pick pn k) as [p| |]; try discriminate H. cbn [link_tick l_cache]. unfold lookup in *. cbn [tick c_map c_now].
  destruct (c_map (l_cache (w1 (sv_id p))) k) as [e'|]; [|discriminate H]. destruct (alive (c_now (l_cache (w1 (sv_id p)))) e') eqn:Al; [|discriminate H]. injection H as ->. unfold alive. rewrite X. reflexivity.
Qed.

Lemma move_reading : forall x x' q, move no_handler tt x tt x' [] -> sc_phase x = Calling q -> False.
Proof. intros x x' q M P. inversion M; subst; cbn in P; try discriminate P. Qed.

(** A step of the connections alone, outside the handler. *)
Lemma rest_still : forall v conns ls dn, rest v -> (forall i q, sc_phase (conns i) = Calling q <-> sc_phase (rt_conns v i) = Calling q) ->
  rest (mkRt (rt_world v) conns (rt_prog v) (rt_log v) ls dn).
Proof.
  intros v conns ls dn [F S P A] H. constructor; cbn [rt_world rt_conns rt_prog rt_log].
  - exact F.
  - intros i q C. apply S. apply H. exact C.
  - intros q o (C & X). apply P. split; [apply H; exact C|exact X].
  - destruct A as [(q & o & C & X)|A]; [left; exists q, o; split; [apply H; exact C|exact X]|right; exact A].
Qed.
Lemma set_conn_calling : forall conns i x', calling (conns i) = false -> calling x' = false -> forall i' q, sc_phase (set_conn conns i x' i') = Calling q <-> sc_phase (conns i') = Calling q.
Proof.
  intros conns i x' C C' i' q. destruct (Nat.eq_dec i' i) as [->|N]; [rewrite set_conn_same|rewrite set_conn_other by exact N; reflexivity].
  unfold calling in *. destruct (sc_phase x'), (sc_phase (conns i)); try discriminate; split; intro; discriminate.
Qed.

Lemma start_is_not_pending : forall q s o, proxy_prog pn sn q = Call s (OSet (proxy_item q o)) Ret -> pick sn (q_key q) = Ok s -> False.
Proof.
  intros q s o E Pk. unfold proxy_prog in E. destruct (owner_p _ _ _ _ R (q_key q)) as (p & Pp & Ip). destruct (q_opcode q); try discriminate E.
  - cbn [rp_prog] in E. unfold rp_get, on_ring in E. rewrite Pp in E. discriminate E.
  - destruct (q_set q) as [so|]; [|discriminate E]. cbn [rp_prog] in E. unfold rp_store, on_ring in E. cbn [proxy_item it_key] in E. rewrite Pp in E. injection E as Q _.
    apply (apart _ _ _ _ R p s Ip (owner_in_s _ _ _ _ R _ _ Pk)). congruence.
Qed.

Lemma rest_step : forall v u, rest v -> room (ps ++ ss) w (S (length (rt_log v))) -> rtstep meta_server link_tick pn sn v u ->
  plain_requests (ps ++ ss) w (rt_log u) -> ours (rt_log u) -> rest u.
Proof.
  intros v u L Rm St [Pls Plg] Ou.
  destruct St as [v i s p out Dn Ls Hc|v Dn Ls|v i x' q Dn Mv Ph|v i s p out q sv o k' Dn Hc Hp|v i s p out q r Dn Hc Hp|v i x' Dn Mv Cl|v d Dn D].
  - apply rest_still; [exact L|]. apply set_conn_calling; [rewrite Hc; reflexivity|reflexivity].
  - apply rest_still; [exact L|reflexivity].
  - (* a request is read *)
    assert (Nc : forall q', sc_phase (rt_conns v i) = Calling q' -> False) by (intros q' H; eapply move_reading; eassumption).
    assert (Np : forall q' o', pend (mkRt (rt_world v) (set_conn (rt_conns v) i x') (set_prog (rt_prog v) i (proxy_prog pn sn q)) (rt_log v ++ [ERead i q]) (rt_listening v) false) q' o' <-> pend v q' o').
    { intros q' o'. unfold pend. cbn [rt_conns rt_prog]. destruct (Nat.eq_dec j i) as [->|N].
      - rewrite set_conn_same, set_prog_same. split.
        + intros (C & _ & K & _ & s9 & Ps & E). rewrite Ph in C. injection C as ->. exfalso. eapply start_is_not_pending; [exact E|rewrite K; exact Ps].
        + intros (C & _). destruct (Nc _ C).
      - rewrite set_conn_other, set_prog_other by exact N. reflexivity. }
    constructor; cbn [rt_world rt_conns rt_prog rt_log].
    + eapply fine_le; [|apply L]. rewrite app_length. lia.
    + intros i' q' C. destruct (Nat.eq_dec i' i) as [->|N].
      * rewrite set_conn_same, Ph in C. injection C as <-. rewrite set_prog_same. split; [exists (length (rt_log v)); apply at_last|apply Sp_start].
      * rewrite set_conn_other in C by exact N. rewrite set_prog_other by exact N. destruct (r_spot _ L i' q' C) as ((m & A) & S). split; [exists m; apply at_app; exact A|exact S].
    + intros q' o' P. apply (r_pend _ L). apply Np. exact P.
    + destruct (r_agree _ L) as [(q' & o' & P)|A]; [left; exists q', o'; apply Np; exact P|right; exact A].
  - (* a call on a backend *)
    subst wr. unfold server_call. cbn [fst snd]. set (a := snd (meta_server (rt_world v (sv_id sv)) o)) in *.
    assert (Cq : sc_phase (rt_conns v i) = Calling q) by (rewrite Hc; reflexivity). destruct (r_spot _ L i q Cq) as ((m & Am) & Sp). rewrite Hp in Sp.
    assert (Am' : at_ (rt_log v ++ [ECall i sv o (snd (server_call meta_server (rt_world v) sv o))]) m (ERead i q)) by (apply at_app; exact Am). cbn [rt_log] in Pls, Plg, Ou.
    assert (Sp1 : forall p', spot q p' -> forall i' q', sc_phase (rt_conns v i') = Calling q' -> (exists m', at_ (rt_log v ++ [ECall i sv o a]) m' (ERead i' q')) /\ spot q' (set_prog (rt_prog v) i p' i')).
    { intros p' S' i' q' C. destruct (r_spot _ L i' q' C) as ((m' & A) & S). split; [exists m'; apply at_app; exact A|]. destruct (Nat.eq_dec i' i) as [->|N]; [rewrite set_prog_same; assert (q' = q) by congruence; subst q'; exact S'|rewrite set_prog_other by exact N; exact S]. }
    assert (Len : length (rt_log v ++ [ECall i sv o a]) = S (length (rt_log v))) by (rewrite app_length; cbn; lia).
    assert (Pj : forall p' w1 q' o', i <> j -> (pend (mkRt w1 (rt_conns v) (set_prog (rt_prog v) i p') (rt_log v ++ [ECall i sv o a]) (rt_listening v) false) q' o' <-> pend v q' o')).
    { intros p' w1 q' o' N. unfold pend. cbn [rt_conns rt_prog]. rewrite set_prog_other by congruence. reflexivity. }
    remember (Call sv o k') as pr eqn:Epr. destruct Sp as [|o0 s0 Oq Qs Pk|r]; [|injection Epr as <- <- <-|discriminate Epr].
    + destruct (owner_p _ _ _ _ R (q_key q)) as (p0 & Pp & Ip). assert (I1 : In p0 (ps ++ ss)) by (apply in_or_app; auto). unfold proxy_prog in Epr. destruct (q_opcode q) eqn:Oq; try discriminate Epr.
      * (* a get *)
        cbn [rp_prog] in Epr. unfold rp_get, on_ring in Epr. rewrite Pp in Epr. injection Epr as <- <- <-.
        assert (Same : forall x, upd (rt_world v) (sv_id p0) (fst (meta_server (rt_world v (sv_id p0)) (OGet (q_key q)))) x = rt_world v x).
        { intro x. unfold upd. destruct (Nat.eqb_spec x (sv_id p0)) as [->|N]; [|reflexivity]. eapply get_same; [|exact I1|apply L|apply (Plg m i q Am' Oq)]. intros y Iy. specialize (Rm y Iy). lia. }
        assert (Np : forall q' o', pend (mkRt (upd (rt_world v) (sv_id p0) (fst (meta_server (rt_world v (sv_id p0)) (OGet (q_key q))))) (rt_conns v) (set_prog (rt_prog v) i (Ret a)) (rt_log v ++ [ECall i p0 (OGet (q_key q)) a]) (rt_listening v) false) q' o' <-> pend v q' o').
        { intros q' o'. destruct (Nat.eq_dec i j) as [->|N]; [|apply Pj; exact N]. unfold pend. cbn [rt_conns rt_prog]. rewrite set_prog_same, Cq. split; intros (C & O' & _); injection C as <-; congruence. }
        constructor; cbn [rt_world rt_conns rt_prog rt_log].
        -- eapply fine_same; [exact Same|]. eapply fine_le; [|apply L]. rewrite Len. lia.
        -- apply Sp1. apply Sp_done.
        -- intros q' o' P. rewrite (held_same _ _ _ _ Same). apply (r_pend _ L). apply Np. exact P.
        -- destruct (r_agree _ L) as [(q' & o' & P)|A]; [left; exists q', o'; apply Np; exact P|right; rewrite !(held_same _ _ _ _ Same); exact A].
      * (* a set: the call on the primary *)
        destruct (q_set q) as [so|] eqn:Qs; [|discriminate Epr]. cbn [rp_prog] in Epr. unfold rp_store, on_ring in Epr. cbn [proxy_item it_key] in Epr. rewrite Pp in Epr. injection Epr as <- <- <-.
        destruct (Pls m i q so Am' Oq Qs) as (Li & Ci & Fi). destruct (owner_s _ _ _ _ R (q_key q)) as (s1 & Ps1 & Is1).
        destruct (fine_set _ _ p0 (proxy_item q so) Rm I1 (r_fine _ L) Li Ci (Fi p0 I1)) as (A1 & F1 & c & h & Ew & Ef).
        change (mkItem (q_key q) (q_value q) (q_flags q) (s_exp so) (s_cas_value so) []) with (proxy_item q so) in *. unfold a in *. rewrite A1 in *. cbn [if_ok]. rewrite Ps1. rewrite Ef in *.
        assert (Hs : forall key, held sn (upd (rt_world v) (sv_id p0) (fresh_link (stored c (proxy_item q so)) h)) key = held sn (rt_world v) key).
        { intro key. apply held_upd_other. intros x Px Q. apply (apart _ _ _ _ R p0 x Ip (owner_in_s _ _ _ _ R _ _ Px)). congruence. }
        constructor; cbn [rt_world rt_conns rt_prog rt_log].
        -- rewrite Len. exact F1.
        -- apply Sp1. apply Sp_between; assumption.
        -- destruct (beq (q_key q) k) eqn:Bk.
           ++ apply beq_eq in Bk. destruct (Ou m i q Am' Oq Bk) as (-> & _ & _ & so' & Qs' & E0). assert (so' = so) by congruence. subst so'.
              intros q' o' (C & O' & K' & Qs2 & s9 & Ps & E). cbn [rt_conns rt_prog] in *. rewrite Cq in C. injection C as <-. assert (o' = so) by congruence. subst o'. rewrite <- Bk. apply held_upd_set; assumption.
           ++ apply beq_neq in Bk. intros q' o' P. rewrite (held_upd_key pn _ _ _ _ (proxy_item q so) k Ew (fun H => Bk (eq_sym H))). apply (r_pend _ L).
              destruct (Nat.eq_dec i j) as [->|N]; [|apply Pj in P; [exact P|exact N]]. destruct P as (C & _ & K' & _). cbn [rt_conns] in C. rewrite Cq in C. injection C as <-. congruence.
        -- destruct (beq (q_key q) k) eqn:Bk.
           ++ apply beq_eq in Bk. destruct (Ou m i q Am' Oq Bk) as (-> & _). left. exists q, so. split; [exact Cq|]. split; [exact Oq|]. split; [exact Bk|]. split; [exact Qs|]. exists s1. split; [congruence|]. cbn [rt_prog]. rewrite set_prog_same. reflexivity.
           ++ apply beq_neq in Bk. destruct (r_agree _ L) as [(q' & o' & P)|A].
              ** left. exists q', o'. destruct (Nat.eq_dec i j) as [->|N]; [|apply Pj; [exact N|exact P]]. destruct P as (C & _ & K' & _). rewrite Cq in C. injection C as <-. congruence.
              ** right. rewrite Hs, (held_upd_key pn _ _ _ _ (proxy_item q so) k Ew (fun H => Bk (eq_sym H))). exact A.
    + (* the call on the secondary *)
      assert (Is0 : In s0 ss) by (eapply owner_in_s; eassumption). assert (I1 : In s0 (ps ++ ss)) by (apply in_or_app; auto). destruct (Pls m i q o0 Am' Oq Qs) as (Li & Ci & Fi).
      destruct (fine_set _ _ s0 (proxy_item q o0) Rm I1 (r_fine _ L) Li Ci (Fi s0 I1)) as (A1 & F1 & c & h & Ew & Ef). unfold a in *. rewrite A1 in *. rewrite Ef in *.
      assert (Hs : forall key, held pn (upd (rt_world v) (sv_id s0) (fresh_link (stored c (proxy_item q o0)) h)) key = held pn (rt_world v) key).
      { intro key. apply held_upd_other. intros x Px Q. apply (apart _ _ _ _ R x s0 (owner_in_p _ _ _ _ R _ _ Px) Is0). exact Q. }
      constructor; cbn [rt_world rt_conns rt_prog rt_log].
      * rewrite Len. exact F1.
      * apply Sp1. apply Sp_done.
      * intros q' o' P. rewrite Hs. apply (r_pend _ L). destruct (Nat.eq_dec i j) as [->|N]; [|apply Pj in P; [exact P|exact N]]. destruct P as (_ & _ & _ & _ & s9 & _ & E). cbn [rt_prog] in E. rewrite set_prog_same in E. discriminate E.
      * destruct (beq (q_key q) k) eqn:Bk.
        -- apply beq_eq in Bk. destruct (Ou m i q Am' Oq Bk) as (-> & _ & _ & so' & Qs' & E0). assert (so' = o0) by congruence. subst so'. right.
           assert (Pd : pend v q o0). { split; [exact Cq|]. split; [exact Oq|]. split; [exact Bk|]. split; [exact Qs|]. exists s0. split; [congruence|exact Hp]. }
           eapply has_agree; [rewrite Hs; apply (r_pend _ L q o0 Pd)|]. rewrite <- Bk. apply held_upd_set; assumption.
        -- apply beq_neq in Bk. destruct (r_agree _ L) as [(q' & o' & P)|A].
           ++ left. exists q', o'. destruct (Nat.eq_dec i j) as [->|N]; [|apply Pj; [exact N|exact P]]. destruct P as (C & _ & K' & _). rewrite Cq in C. injection C as <-. congruence.
           ++ right. rewrite Hs, (held_upd_key sn _ _ _ _ (proxy_item q o0) k Ew (fun H => Bk (eq_sym H))). exact A.
  - (* an answer *)
    assert (Cq : sc_phase (rt_conns v i) = Calling q) by (rewrite Hc; reflexivity).
    assert (Np : forall q' o', pend (mkRt (rt_world v) (set_conn (rt_conns v) i (mkSC s p (Answered q (proxy_answer q r)) out)) (rt_prog v) (rt_log v ++ [EAnswer i q (proxy_answer q r)]) (rt_listening v) false) q' o' <-> pend v q' o').
    { intros q' o'. unfold pend. cbn [rt_conns rt_prog]. destruct (Nat.eq_dec j i) as [->|N]; [|rewrite set_conn_other by exact N; reflexivity].
      rewrite set_conn_same. split; [intros (C & _); discriminate C|]. intros (_ & _ & _ & _ & s' & _ & E). rewrite Hp in E. discriminate E. }
    constructor; cbn [rt_world rt_conns rt_prog rt_log].
    + eapply fine_le; [|apply L]. rewrite app_length. lia.
    + intros i' q' C. destruct (Nat.eq_dec i' i) as [->|N]; [rewrite set_conn_same in C; discriminate C|]. rewrite set_conn_other in C by exact N. destruct (r_spot _ L i' q' C) as ((m & A) & S). split; [exists m; apply at_app; exact A|exact S].
    + intros q' o' P. apply (r_pend _ L). apply Np. exact P.
    + destruct (r_agree _ L) as [(q' & o' & P)|A]; [left; exists q', o'; apply Np; exact P|right; exact A].
  - apply rest_still; [exact L|]. apply set_conn_calling; [|exact Cl]. unfold calling. destruct (sc_phase (rt_conns v i)) eqn:P; try reflexivity. exfalso. eapply move_reading; eassumption.
  - (* time passes *)
    constructor; cbn [rt_world rt_conns rt_prog rt_log].
    + apply fine_tick; [exact D|]. eapply fine_le; [|apply L]. rewrite app_length. lia.
    + intros i' q' C. destruct (r_spot _ L i' q' C) as ((m & A) & S). split; [exists m; apply at_app; exact A|exact S].
    + intros q' o' P. apply has_tick. apply (r_pend _ L). exact P.
    + destruct (r_agree _ L) as [P|A]; [left; exact P|right; eapply agree_tick; [exact D|apply L|exact A]].
Qed.
End Rest.

(** ** C78 *)
(** If all sets of a key come over one connection and do not expire, the replicas agree on the key whenever no set of it
    is in progress - whatever happens on other keys and connections, and whatever time passes. *)
Theorem C78_replicas_agree_partial : forall ps ss pn sn w streams v k,
  two_rings ps ss pn sn -> good_world (Z.of_nat (length (rt_log v))) (ps ++ ss) w -> plain_requests (ps ++ ss) w (rt_log v) -> one_writer (rt_log v) k ->
  same_entry (held pn w k) (held sn w k) -> rtsteps meta_server link_tick pn sn (router_started w streams) v -> ~ setting v k ->
  same_entry (held pn (rt_world v) k) (held sn (rt_world v) k).
Proof.
  intros ps ss pn sn w streams v k R G Pl [j Ou] Ag Sv Ns.
  assert (L : rest ps ss pn sn w k j v).
  { clear Ns. remember (router_started w streams) as v0 eqn:E0. induction Sv as [v|v u t Sv IH St]; subst.
    - cbn [router_started rt_log length] in *. destruct G as [now G]. constructor; cbn [router_started rt_world rt_conns rt_prog rt_log length].
      + split.
        * intros s Is. destruct (G s Is) as (c & h & A & W & _). exists c, h. rewrite A. cbn [fresh_link l_cache]. split; [reflexivity|]. split; [exact W|]. split; [reflexivity|lia].
        * exists now. intros s Is. destruct (G s Is) as (c & h & A & _ & N & _). rewrite A. exact N.
      + intros i q C. discriminate C.
      + intros q o (C & _). discriminate C.
      + right. exact Ag.
    - destruct (log_grows _ _ _ _ _ _ _ St) as (l & El & Ll). pose proof (f_equal (@length _) El) as Len. rewrite app_length in Len.
      assert (IHv : rest ps ss pn sn w k j u).
      { apply IH; [|destruct Pl as [P1 P2]; rewrite El in P1, P2; split; [apply plain_sets_old in P1; exact P1|intros m i q A; apply (P2 m i q); apply at_app; exact A]| |reflexivity].
        - destruct G as [now G]. exists now. intros s Is. destruct (G s Is) as (c & h & A & W & N & C). exists c, h. split; [exact A|]. split; [exact W|]. split; [exact N|lia].
        - intros m i q A. apply (Ou m i q). rewrite El. apply at_app. exact A. }
      destruct l as [|e l].
      + destruct St as [v i s p out Dn Ls Hc|v Dn Ls|v i x' q Dn Mv Ph|v i s p out q sv o k' Dn Hc Hp|v i s p out q r Dn Hc Hp|v i x' Dn Mv Cl|v d Dn D];
          cbn [rt_log] in El; try (exfalso; apply (f_equal (@length _)) in El; rewrite !app_length in El; cbn in El; lia).
        * apply rest_still; [exact IHv|]. apply set_conn_calling; [rewrite Hc; reflexivity|reflexivity].
        * apply rest_still; [exact IHv|reflexivity].
        * apply rest_still; [exact IHv|]. apply set_conn_calling; [|exact Cl]. unfold calling. destruct (sc_phase (rt_conns v i)) eqn:P; try reflexivity. exfalso. eapply move_reading; eassumption.
      + destruct l; [|cbn in Ll; lia]. eapply rest_step; [exact R|exact IHv| |exact St|exact Pl|exact Ou].
        destruct G as [now G]. intros s Is. destruct (G s Is) as (c & h & A & _ & _ & C). rewrite A. cbn [fresh_link l_cache]. cbn [length] in Len. lia. }
  destruct (r_agree _ _ _ _ _ _ _ _ L) as [(q & o & C & Oq & K & _)|A]; [|exact A]. exfalso. apply Ns. exists j, q. auto.
Qed.
Print Assumptions C78_replicas_agree_partial.

(** ** Without "one connection" or "does not expire" it is false *)
Definition no_sets_expire (log : list rtevent) (k : bytes) : Prop := forall m i q, at_ log m (ERead i q) -> q_opcode q = OpcSet -> q_key q = k -> sets_key k q.
Definition one_connection (log : list rtevent) (k : bytes) : Prop := exists j, forall m i q, at_ log m (ERead i q) -> q_opcode q = OpcSet -> q_key q = k -> i = j.
Lemma one_writer_is_both : forall log k, one_writer log k <-> no_sets_expire log k /\ one_connection log k.
Proof.
  intros log k. split.
  - intros [j H]. split; [intros m i q A O K; apply (H m i q A O K)|exists j; intros m i q A O K; apply (H m i q A O K)].
  - intros [H [j G]]. exists j. intros m i q A O K. split; [eapply G|eapply H]; eassumption.
Qed.

(** Two clients set x at the same time: the primary keeps what the one wrote, the secondary what the other did. Both
    clients were told STORED. *)
Definition two_writers (i : nat) : bytes :=
  match i with 0%nat => B "set x 0 0 1" ++ crlf ++ B "5" ++ crlf | 1%nat => B "set x 0 0 1" ++ crlf ++ B "7" ++ crlf | _ => [] end.
Theorem C78_concurrent_writers_refuted : ~ (forall ps ss pn sn w streams v k,
  two_rings ps ss pn sn -> good_world (Z.of_nat (length (rt_log v))) (ps ++ ss) w -> plain_requests (ps ++ ss) w (rt_log v) -> no_sets_expire (rt_log v) k ->
  same_entry (held pn w k) (held sn w k) -> rtsteps meta_server link_tick pn sn (router_started w streams) v -> ~ setting v k ->
  same_entry (held pn (rt_world v) k) (held sn (rt_world v) k)).
Proof.
  intro H. specialize (H [sv_a] [sv_b] prim_a sec_b new_memcacheds two_writers).
  cut (exists v, rtsteps meta_server link_tick prim_a sec_b (router_started new_memcacheds two_writers) v
     /\ (good_world (Z.of_nat (length (rt_log v))) ([sv_a] ++ [sv_b]) new_memcacheds /\ plain_requests ([sv_a] ++ [sv_b]) new_memcacheds (rt_log v)
         /\ no_sets_expire (rt_log v) (B "x") /\ ~ setting v (B "x") /\ ~ same_entry (lookup (l_cache (rt_world v 0%nat)) (B "x")) (lookup (l_cache (rt_world v 1%nat)) (B "x")))).
  { intros (v & Sv & G & P & N & Ns & D). apply D. rewrite <- held_a, <- held_b. apply (H v (B "x") rings_a_b G P N); [rewrite held_a, held_b; exact Logic.I|exact Sv|exact Ns]. }
  clear H.
  apply (ran _ _ [CAccept 0; CAccept 1; CRead 0; CRead 1; CCall 0; CCall 1; CCall 1; CCall 0; CReturn 0; CReturn 1; CReply 0; CReply 1]).
  set (r := ab_run _ _ _). vm_compute in r. subst r. cbn [rt_log].
  split; [apply new_good; cbn; lia|]. split; [split|split; [|split]].
  - intros m i q o A Oq Qs. each_moment m A; injection A as <- <-; cbn in Oq, Qs; try discriminate Oq; injection Qs as <-;
        (split; [split; [split; [cbn; lia|constructor; [cbn; lia|constructor]]|split; [cbn; split; [reflexivity|intros _; vm_compute; reflexivity]|split; [cbn; lia|split; [cbn; lia|cbn; lia]]]]|split; [reflexivity|intros s _; cbn; lia]]).
  - intros m i q A Oq. each_moment m A; injection A as <- <-; discriminate Oq.
  - intros m i q A Oq Kq. each_moment m A; injection A as <- <-; cbn in Oq; try discriminate Oq; (split; [reflexivity|split; [reflexivity|eexists; split; reflexivity]]).
  - intros (i & q & C & _). cbn in C. destruct i as [|[|i]]; cbn in C; discriminate C.
  - cbn [rt_world]. vm_compute. intros (V & _). discriminate V.
Qed.
Print Assumptions C78_concurrent_writers_refuted.

(** A set that expires: each server counts from when it got the set, so the replicas expire at different times; for
    a while one of them has the item and the other does not. *)
Definition expiring_writer (i : nat) : bytes := match i with 0%nat => B "set x 0 10 1" ++ crlf ++ B "5" ++ crlf | _ => [] end.
Theorem C78_expiring_items_refuted : ~ (forall ps ss pn sn w streams v k,
  two_rings ps ss pn sn -> good_world (Z.of_nat (length (rt_log v))) (ps ++ ss) w -> plain_requests (ps ++ ss) w (rt_log v) -> one_connection (rt_log v) k ->
  same_entry (held pn w k) (held sn w k) -> rtsteps meta_server link_tick pn sn (router_started w streams) v -> ~ setting v k ->
  (held pn (rt_world v) k = None <-> held sn (rt_world v) k = None)).
Proof.
  intro H. specialize (H [sv_a] [sv_b] prim_a sec_b new_memcacheds expiring_writer).
  cut (exists v, rtsteps meta_server link_tick prim_a sec_b (router_started new_memcacheds expiring_writer) v
     /\ (good_world (Z.of_nat (length (rt_log v))) ([sv_a] ++ [sv_b]) new_memcacheds /\ plain_requests ([sv_a] ++ [sv_b]) new_memcacheds (rt_log v)
         /\ one_connection (rt_log v) (B "x") /\ ~ setting v (B "x") /\ lookup (l_cache (rt_world v 0%nat)) (B "x") = None /\ lookup (l_cache (rt_world v 1%nat)) (B "x") <> None)).
  { intros (v & Sv & G & P & N & Ns & E & D). apply D. rewrite <- held_b. assert (X : same_entry (held prim_a new_memcacheds (B "x")) (held sec_b new_memcacheds (B "x"))) by (rewrite held_a, held_b; exact Logic.I).
    refine (proj1 (H v (B "x") rings_a_b G P N X Sv Ns) _). rewrite held_a. exact E. }
  clear H.
  apply (ran _ _ [CAccept 0; CRead 0; CCall 0; CTime 3; CCall 0; CReturn 0; CReply 0; CTime 8]).
  set (r := ab_run _ _ _). vm_compute in r. subst r. cbn [rt_log].
  split; [apply new_good; cbn; lia|]. split; [split|split; [|split; [|split]]].
  - intros m i q o A Oq Qs. each_moment m A; injection A as <- <-; cbn in Oq, Qs; try discriminate Oq; injection Qs as <-;
        (split; [split; [split; [cbn; lia|constructor; [cbn; lia|constructor]]|split; [cbn; split; [reflexivity|intros _; vm_compute; reflexivity]|split; [cbn; lia|split; [cbn; lia|cbn; lia]]]]|split; [reflexivity|intros s _; cbn; lia]]).
  - intros m i q A Oq. each_moment m A; injection A as <- <-; discriminate Oq.
  - exists 0%nat. intros m i q A Oq Kq. each_moment m A; injection A as <- <-; reflexivity.
  - intros (i & q & C & _). cbn in C. destruct i as [|i]; cbn in C; discriminate C.
  - vm_compute. reflexivity.
  - vm_compute. discriminate.
Qed.
Print Assumptions C78_expiring_items_refuted.

(** One writer of x, twice, while another client reads x and writes y. *)
Definition writer_and_reader (i : nat) : bytes :=
  match i with 0%nat => B "set x 0 0 1" ++ crlf ++ B "5" ++ crlf ++ B "set x 0 0 1" ++ crlf ++ B "7" ++ crlf | 1%nat => B "get x" ++ crlf ++ B "set y 0 0 1" ++ crlf ++ B "9" ++ crlf | _ => [] end.
Example C78_met : two_rings [sv_a] [sv_b] prim_a sec_b
  /\ exists v, rtsteps meta_server link_tick prim_a sec_b (router_started new_memcacheds writer_and_reader) v
     /\ good_world (Z.of_nat (length (rt_log v))) ([sv_a] ++ [sv_b]) new_memcacheds /\ plain_requests ([sv_a] ++ [sv_b]) new_memcacheds (rt_log v)
     /\ one_writer (rt_log v) (B "x") /\ ~ setting v (B "x") /\ setting v (B "y") /\ exists e, lookup (l_cache (rt_world v 0%nat)) (B "x") = Some e /\ e_value e = B "7".
Proof.
  split; [apply rings_a_b|].
  apply (ran _ _ [CAccept 0; CAccept 1; CRead 0; CRead 1; CCall 0; CCall 1; CCall 0; CReturn 0; CReturn 1; CReply 0; CReply 1; CRead 0; CTime 2; CRead 1; CCall 0; CCall 1; CCall 0; CReturn 0]).
  set (r := ab_run _ _ _). vm_compute in r. subst r. cbn [rt_log].
  split; [apply new_good; cbn; lia|]. split; [split|split; [|split; [|split]]].
  - intros m i q o A Oq Qs. each_moment m A; injection A as <- <-; cbn in Oq, Qs; try discriminate Oq; injection Qs as <-;
        (split; [split; [split; [cbn; lia|constructor; [cbn; lia|constructor]]|split; [cbn; split; [reflexivity|intros _; vm_compute; reflexivity]|split; [cbn; lia|split; [cbn; lia|cbn; lia]]]]|split; [reflexivity|intros s _; cbn; lia]]).
  - intros m i q A Oq. each_moment m A; injection A as <- <-; cbn in Oq; try discriminate Oq. split; [cbn; lia|constructor; [cbn; lia|constructor]].
  - exists 0%nat. intros m i q A Oq Kq. each_moment m A; injection A as <- <-; cbn in Oq, Kq; try discriminate Oq; try discriminate Kq;
     (split; [reflexivity|]; split; [reflexivity|split; [reflexivity|eexists; split; reflexivity]]).
  - intros (i & q & C & Oq & Kq). cbn in C. destruct i as [|[|i]]; cbn in C; try discriminate C. injection C as <-. discriminate Kq.
  - exists 1%nat. eexists. split; [reflexivity|split; reflexivity].
  - eexists. split; [vm_compute; reflexivity|reflexivity].
Qed.
