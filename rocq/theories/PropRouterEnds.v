(** * C86: when the router's process ends. *)
From Verif Require Import GoBytes GoNum GoIO Item ClientText ClientMeta Cache Daemon Spec Call Guard Hash Ring RingSpec RingData Pool PoolSpec Replica ReplicaSpec
  ServerTypes ServerParse ServerWrite Serve ServerConc ServerSpec ServerCrash Proxy RouterConc RouterFail PLib PDaemon PCache PMeta PClient PRing PPool PMulti PReplica PServer PServe PropRing PropServer PropServerConc PropServerCrash PropServerEnds
  PropReplica PropProxy PropRouter PropRouterLin PropRouterRest PropRouterSync PropRouterFail.
Local Open Scope Z_scope.

(** ** Definitions of the statements *)
(** A backend's client returned, and a Get returned an item or an error. *)
Definition returned (o : op) (a : outcome result) : Prop :=
  match a with
  | Ok r => match o with OGet _ => exists i, r = RItem i | _ => True end
  | Err _ => True
  | Panic => False
  end.
Definition calls_returned (log : list rtevent) : Prop := forall n i sv o a, at_ log n (ECall i sv o a) -> returned o a.

(** ** The invariant *)
(** What is left of ServeRequest answers without a panic as long as the backends' clients return. *)
Fixpoint calm (q : srequest) (p : prog) : Prop :=
  match p with
  | Ret r => decent_answer q (proxy_answer q r)
  | Call sv o k => forall a, returned o a -> calm q (k a)
  end.
Lemma exactly_sane : forall p b q, exactly p b q -> sane q.
Proof. intros p b q E. apply (read_flags (Some p) b q [] (Some p)). unfold exactly in E. destruct p; cbn [parser read_request] in *; rewrite E; reflexivity. Qed.
Lemma error_decent : forall q e, decent_answer q (answer_error e).
Proof. intros q e. unfold answer_error. destruct (is_memcached_error e); [|exact Logic.I]. split; [discriminate|]. constructor; [exact Logic.I|constructor]. Qed.
Lemma starts_calm : forall ps ss pn sn q, two_rings ps ss pn sn -> sane q -> calm q (proxy_prog pn sn q).
Proof.
  intros ps ss pn sn q R [_ Sq]. destruct (owner_p _ _ _ _ R (q_key q)) as (p0 & Pp & _). destruct (owner_s _ _ _ _ R (q_key q)) as (s0 & Ps & _).
  unfold proxy_prog. destruct (q_opcode q) eqn:Oq; try (cbn [calm]; unfold proxy_answer; rewrite Oq; exact Logic.I).
  - cbn [rp_prog]. unfold rp_get, on_ring. rewrite Pp. cbn [calm]. intros a Ra. unfold proxy_answer. rewrite Oq. destruct a as [r|e|]; [|apply error_decent|contradiction].
    destruct Ra as [i ->]. split; [discriminate|]. constructor; [exact Logic.I|constructor].
  - specialize (Sq eq_refl). destruct (q_set q) as [o|]; [|contradiction]. cbn [rp_prog]. unfold rp_store, on_ring. cbn [proxy_item it_key]. rewrite Pp. cbn [calm]. intros a Ra.
    destruct a as [r|e|]; [|cbn [if_ok calm]; unfold proxy_answer; rewrite Oq; apply error_decent|contradiction]. cbn [if_ok]. rewrite Ps. cbn [calm]. intros a2 Ra2. unfold proxy_answer. rewrite Oq.
    destruct a2 as [r2|e|]; [|apply error_decent|contradiction]. split; [discriminate|]. constructor; [exact Logic.I|constructor].
Qed.
Definition no_handler_polite : polite no_handler. Proof. intros st q. exact Logic.I. Qed.
Record orderly {ST} (streams : nat -> bytes) (v : router_state ST) : Prop := {
  o_up : rt_down v = false;
  o_tidy : forall i, tidy_conn (streams i) (rt_conns v i);
  o_calm : forall i q, sc_phase (rt_conns v i) = Calling q -> calm q (rt_prog v i)
}.
Lemma tidy_calling : forall s x q, tidy_conn s x -> sc_phase x = Calling q -> exists p b, exactly p b q.
Proof. intros s x q T P. unfold tidy_conn in T. rewrite P in T. destruct T as [(_ & _ & X)|(c & s' & msgs & _ & _ & _ & _ & b & X)]; [discriminate X|]. exists (announced c), b. exact X. Qed.

(** ** C86 *)
(** With servers in both rings, and as long as the calls on the backends return (none panics), the
    process ends only because a client sends a fatal request (C68) after complete ones. *)
Theorem C86_only_a_fatal_request_ends_the_router : forall ST (step : ST -> op -> ST * outcome result) later ps ss pn sn w streams v,
  two_rings ps ss pn sn -> rtsteps step later pn sn (router_started w streams) v -> calls_returned (rt_log v) -> rt_down v = true ->
  exists i, sends_fatal (streams i) /\ sc_phase (rt_conns v i) = Over Crashed.
Proof.
  intros ST step later ps ss pn sn w streams v R Sv Cr Dn.
  assert (G : orderly streams v \/ exists i, sends_fatal (streams i) /\ sc_phase (rt_conns v i) = Over Crashed).
  2: { destruct G as [[U _ _]|G]; [rewrite Dn in U; discriminate U|exact G]. }
  clear Dn. remember (router_started w streams) as v0 eqn:E0. induction Sv as [v|v u t Sv IH St]; subst.
  - left. constructor; [reflexivity| |].
    + intro i. split; reflexivity.
    + intros i q C. discriminate C.
  - destruct (log_grows _ _ _ _ _ _ _ St) as (l & El & _).
    assert (Cu : calls_returned (rt_log u)) by (intros n i sv o a A; apply (Cr n i sv o a); rewrite El; apply at_app; exact A).
    destruct (IH eq_refl Cu) as [[U T C]|(j & Fj & Cj)]; clear IH.
    + destruct St as [u i s p out D Ls Hc|u D Ls|u i x' q D Mv Ph|u i s p out q sv o k D Hc Hp|u i s p out q r D Hc Hp|u i x' D Mv Cl|u d D Dd].
      * left. constructor; cbn [rt_down rt_conns rt_prog]; [reflexivity| |].
        -- intro j. destruct (Nat.eq_dec j i) as [->|N]; [rewrite set_conn_same|rewrite set_conn_other by exact N; apply T]. specialize (T i). rewrite Hc in T. destruct T as [T1 T2]. left. split; [exact T1|]. split; [exact T2|reflexivity].
        -- intros j q P. destruct (Nat.eq_dec j i) as [->|N]; [rewrite set_conn_same in P; discriminate P|rewrite set_conn_other in P by exact N; apply C; exact P].
      * left. constructor; [reflexivity|exact T|exact C].
      * left. destruct (move_tidy _ no_handler (streams i) _ _ _ _ _ no_handler_polite (T i) Mv) as [Tx|[_ Cx]]; [|unfold crashed in Cx; rewrite Ph in Cx; discriminate Cx].
        destruct (tidy_calling _ _ _ Tx Ph) as (pr & b & Ex). pose proof (exactly_sane _ _ _ Ex) as Sq.
        constructor; cbn [rt_down rt_conns rt_prog]; [reflexivity| |].
        -- intro j. destruct (Nat.eq_dec j i) as [->|N]; [rewrite set_conn_same; exact Tx|rewrite set_conn_other by exact N; apply T].
        -- intros j q' P. destruct (Nat.eq_dec j i) as [->|N].
           ++ rewrite set_conn_same, Ph in P. injection P as <-. rewrite set_prog_same. exact (starts_calm ps ss pn sn q R Sq).
           ++ rewrite set_conn_other in P by exact N. rewrite set_prog_other by exact N. apply C. exact P.
      * left. assert (Ra : returned o (snd (server_call step (rt_world u) sv o))) by (apply (Cr (length (rt_log u)) i sv); cbn [rt_log]; apply at_last).
        assert (Ci : calm q (Call sv o k)) by (rewrite <- Hp; apply C; rewrite Hc; reflexivity).
        constructor; cbn [rt_down rt_conns rt_prog]; [reflexivity|exact T|]. intros j q' P. destruct (Nat.eq_dec j i) as [->|N]; [|rewrite set_prog_other by exact N; apply C; exact P].
        rewrite set_prog_same. rewrite Hc in P. injection P as <-. exact (Ci _ Ra).
      * left. assert (Ci : calm q (Ret r)) by (rewrite <- Hp; apply C; rewrite Hc; reflexivity). pose proof (T i) as Ti. rewrite Hc in Ti.
        constructor; cbn [rt_down rt_conns rt_prog]; [reflexivity| |].
        -- intro j. destruct (Nat.eq_dec j i) as [->|N]; [rewrite set_conn_same|rewrite set_conn_other by exact N; apply T].
           unfold tidy_conn in *. cbn [sc_phase sc_left sc_proto] in *. destruct Ti as [(_ & _ & X)|(c & s' & msgs & E1 & E2 & E3 & F & X)]; [discriminate X|]. right. exists c, s', msgs. split; [exact E1|]. split; [exact E2|]. split; [exact E3|]. split; [exact F|]. split; [exact X|exact Ci].
        -- intros j q' P. destruct (Nat.eq_dec j i) as [->|N]; [rewrite set_conn_same in P; discriminate P|rewrite set_conn_other in P by exact N; apply C; exact P].
      * destruct (move_tidy _ no_handler (streams i) _ _ _ _ _ no_handler_polite (T i) Mv) as [Tx|[Fx Cx]].
        -- left. constructor; cbn [rt_down rt_conns rt_prog].
           ++ unfold crashed. unfold tidy_conn in Tx. destruct (sc_phase x') as [| | | | |[]|]; try reflexivity. contradiction.
           ++ intro j. destruct (Nat.eq_dec j i) as [->|N]; [rewrite set_conn_same; exact Tx|rewrite set_conn_other by exact N; apply T].
           ++ intros j q P. destruct (Nat.eq_dec j i) as [->|N]; [rewrite set_conn_same in P; unfold calling in Cl; rewrite P in Cl; discriminate Cl|rewrite set_conn_other in P by exact N; apply C; exact P].
        -- right. exists i. split; [exact Fx|]. cbn [rt_conns]. rewrite set_conn_same. unfold crashed in Cx. destruct (sc_phase x') as [| | | | |[]|]; try discriminate. reflexivity.
      * left. constructor; [reflexivity|exact T|exact C].
    + right. exists j. split; [exact Fj|]. destruct St as [u i s p out D Ls Hc|u D Ls|u i x' q D Mv Ph|u i s p out q sv o k D Hc Hp|u i s p out q r D Hc Hp|u i x' D Mv Cl|u d D Dd]; cbn [rt_conns]; try exact Cj;
        (destruct (Nat.eq_dec j i) as [->|N]; [|rewrite set_conn_other by exact N; exact Cj]); exfalso; try (rewrite Hc in Cj; discriminate Cj); inversion Mv as [? ? ? ? ? ? ? ? X|? ? ? ? ? ? ? ? X|? ? ? ? ? ? ? X| | | | | | | | | ]; match goal with H : _ = rt_conns u i |- _ => rewrite <- H in Cj; discriminate Cj end.
Qed.
Print Assumptions C86_only_a_fatal_request_ends_the_router.

(** With conforming memcacheds behind it and clients whose requests are plain (as in C80), that is all. *)
Lemma get_gives_item : forall l k r, snd (meta_server l (OGet k)) = Ok r -> exists i, r = RItem i.
Proof.
  intros l k r E. unfold meta_server, call in E. cbn [meta_client cl_req cl_resp fst snd meta_req] in E. destruct (daemon _ _ _) as [[c' reply] pending']. cbn [snd] in E.
  cbn [meta_resp] in E. unfold rmap, bind in E. destruct (meta_get_resp k (l_unread l ++ reply)) as [[i|e|] s'] eqn:E1; cbn [fst] in E; try discriminate E. unfold ret in E. cbn [fst] in E. injection E as <-. exists i. reflexivity.
Qed.
Lemma plain_calls_return : forall ps ss pn sn w streams v,
  two_rings ps ss pn sn -> good_world (Z.of_nat (length (rt_log v))) (ps ++ ss) w -> plain_requests (ps ++ ss) w (rt_log v) ->
  rtsteps meta_server link_tick pn sn (router_started w streams) v -> calls_returned (rt_log v).
Proof.
  intros ps ss pn sn w streams v R G Pl Sv. remember (router_started w streams) as v0 eqn:E0. induction Sv as [v|v u t Sv IH St]; subst.
  - intros n i sv o a A. destruct n; discriminate A.
  - destruct (log_grows _ _ _ _ _ _ _ St) as (l & El & Ll). pose proof (f_equal (@length _) El) as Len. rewrite app_length in Len.
    assert (Gu : good_world (Z.of_nat (length (rt_log u))) (ps ++ ss) w).
    { destruct G as [now G]. exists now. intros s Is. destruct (G s Is) as (c & h & A & W & N & C). exists c, h. split; [exact A|]. split; [exact W|]. split; [exact N|lia]. }
    assert (Pu : plain_requests (ps ++ ss) w (rt_log u)).
    { destruct Pl as [P1 P2]. rewrite El in P1, P2. split; [apply plain_sets_old in P1; exact P1|intros m i q A; apply (P2 m i q); apply at_app; exact A]. }
    specialize (IH Gu Pu eq_refl). pose proof (synced_reached ps ss pn sn w streams u R Gu Pu Sv) as L.
    destruct St as [u i s p out D Ls Hc|u D Ls|u i x' q D Mv Ph|u i s p out q sv o k' D Hc Hp|u i s p out q r D Hc Hp|u i x' D Mv Cl|u d D Dd]; cbn [rt_log] in *; try exact IH;
      try (intros n i' sv' o' a A; destruct (at_snoc _ _ _ _ A) as [A'|[_ A']]; [exact (IH n i' sv' o' a A')|discriminate A']).
    intros n i' sv' o' a A. destruct (at_snoc _ _ _ _ A) as [A'|[_ A']]; [exact (IH n i' sv' o' a A')|]. injection A' as -> -> -> ->. cbn [server_call snd].
    assert (Cq : sc_phase (rt_conns u i) = Calling q) by (rewrite Hc; reflexivity). destruct (y_spot _ _ _ _ _ _ L i q Cq) as ((m & Am) & Sp). rewrite Hp in Sp.
    assert (Rm : room (ps ++ ss) w (S (length (rt_log u)))).
    { destruct G as [now G]. intros s0 Is. destruct (G s0 Is) as (c & h & A0 & _ & _ & C0). rewrite A0. cbn [fresh_link l_cache]. rewrite app_length in C0. cbn [length] in C0. lia. }
    destruct Pu as [Pls Plg]. remember (Call sv o k') as pr eqn:Epr. destruct Sp as [|o0 s0 Oq Qs Pk|r]; [|injection Epr as <- <- <-|discriminate Epr].
    + destruct (owner_p _ _ _ _ R (q_key q)) as (p0 & Pp & Ip). assert (I1 : In p0 (ps ++ ss)) by (apply in_or_app; auto). unfold proxy_prog in Epr. destruct (q_opcode q) eqn:Oq; try discriminate Epr.
      * cbn [rp_prog] in Epr. unfold rp_get, on_ring in Epr. rewrite Pp in Epr. injection Epr as <- <- <-. unfold returned.
        destruct (y_ok _ _ _ _ _ _ L p0 I1) as (c & h & Ew & Wf & Cf & Cc). pose proof (Rm p0 I1).
        destruct (meta_answers c h (OGet (q_key q)) (q_key q) Wf ltac:(lia) (Plg m i q Am Oq) eq_refl eq_refl) as (out' & Em & [Ag|(X & _)]); [|discriminate X].
        rewrite Ew. pose proof (get_gives_item (fresh_link c h) (q_key q)) as Gi. rewrite Em in *. cbn [snd] in *. destruct out' as [r|e|]; [exact (Gi r eq_refl)|exact Logic.I|]. destruct (snd (spec_step PMeta [] c (OGet (q_key q)))); exact Ag.
      * destruct (q_set q) as [so|] eqn:Qs; [|discriminate Epr]. cbn [rp_prog] in Epr. unfold rp_store, on_ring in Epr. cbn [proxy_item it_key] in Epr. rewrite Pp in Epr. injection Epr as <- <- <-.
        destruct (Pls m i q so Am Oq Qs) as (Li & Ci & Fi).
        destruct (sec_ok_set (ps ++ ss) w _ _ p0 (proxy_item q so) Rm I1 (y_ok _ _ _ _ _ _ L) Li Ci (Fi p0 I1)) as (A1 & _).
        change (mkItem (q_key q) (q_value q) (q_flags q) (s_exp so) (s_cas_value so) []) with (proxy_item q so). rewrite A1. exact Logic.I.
    + assert (Is0 : In s0 ss) by (eapply owner_in_s; eassumption). assert (I1 : In s0 (ps ++ ss)) by (apply in_or_app; auto). destruct (Pls m i q o0 Am Oq Qs) as (Li & Ci & Fi).
      destruct (sec_ok_set (ps ++ ss) w _ _ s0 (proxy_item q o0) Rm I1 (y_ok _ _ _ _ _ _ L) Li Ci (Fi s0 I1)) as (A1 & _). rewrite A1. exact Logic.I.
Qed.
Theorem C86_router_survives_plain_requests_partial : forall ps ss pn sn w streams v,
  two_rings ps ss pn sn -> good_world (Z.of_nat (length (rt_log v))) (ps ++ ss) w -> plain_requests (ps ++ ss) w (rt_log v) ->
  rtsteps meta_server link_tick pn sn (router_started w streams) v -> (forall i, ~ sends_fatal (streams i)) -> rt_down v = false.
Proof.
  intros ps ss pn sn w streams v R G Pl Sv N. destruct (rt_down v) eqn:D; [|reflexivity]. exfalso.
  destruct (C86_only_a_fatal_request_ends_the_router _ _ _ ps ss pn sn w streams v R Sv (plain_calls_return ps ss pn sn w streams v R G Pl Sv) D) as (i & F & _). exact (N i F).
Qed.
Print Assumptions C86_router_survives_plain_requests_partial.

(** ** A client whose requests are not plain *)
Definition fatal_in (p : protocol) (s : bytes) : Prop := exists (msgs : list (bytes * srequest)) tail, s = flat_map fst msgs ++ tail /\ Forall (fun m => exactly p (fst m) (snd m)) msgs /\ fatal p tail.
Lemma fatal_past : forall p s q s', parser p s = (Ok q, s') -> fatal_in p s -> fatal_in p s'.
Proof.
  intros p s q s' X (msgs & tail & Em & F & Ft). destruct msgs as [|[b1 q1] msgs].
  - apply C68_fatal_requests_exactly in Ft. destruct Ft as [s2 Ft]. cbn [flat_map app] in Em. rewrite <- Em, X in Ft. discriminate Ft.
  - inversion F as [|? ? F1 Fr]; subst. cbn [fst snd flat_map] in *. rewrite <- app_assoc in X. rewrite (exactly_app _ b1 q1 (flat_map fst msgs ++ tail) F1) in X. injection X as _ <-.
    exists msgs, tail. split; [reflexivity|]. split; [exact Fr|exact Ft].
Qed.
Lemma end_not_fatal : forall p, ~ fatal_in p [].
Proof.
  intros p (msgs & tail & Em & _ & Ft). symmetry in Em. apply app_eq_nil in Em. destruct Em as [_ ->]. apply C68_fatal_requests_exactly in Ft. destruct Ft as [s2 Ft]. destruct p; vm_compute in Ft; discriminate Ft.
Qed.
Lemma sends_fatal_in : forall s, sends_fatal s -> fatal_in (announced (hd "000"%char s)) s.
Proof. intros s (c & s' & msgs & tail & -> & Em & F & Ft). cbn [hd]. exists msgs, tail. auto. Qed.
Lemma one_request_not_fatal : forall s q, parser (announced (hd "000"%char s)) s = (Ok q, []) -> ~ sends_fatal s.
Proof. intros s q X F. apply sends_fatal_in in F. exact (end_not_fatal _ (fatal_past _ _ _ _ X F)). Qed.
Lemma two_requests_not_fatal : forall s q s' q', parser (announced (hd "000"%char s)) s = (Ok q, s') -> parser (announced (hd "000"%char s)) s' = (Ok q', []) -> ~ sends_fatal s.
Proof. intros s q s' q' X Y F. apply sends_fatal_in in F. exact (end_not_fatal _ (fatal_past _ _ _ _ Y (fatal_past _ _ _ _ X F))). Qed.
Lemma silence_not_fatal : ~ sends_fatal [].
Proof. intros (c & s' & msgs & tail & E & _). discriminate E. Qed.
(** Client 0 stores a value that looks like the head of an answer; client 1, by binary protocol, gets a
    key with line ends in it, which makes the backend send it; clients 2 and 3 get x. *)
Definition poisoning (i : nat) : bytes := match i with
  | 0%nat => B "set evil 0 0 6" ++ crlf ++ B "VA -5 " ++ crlf
  | 1%nat => binary_get (B "a v" ++ crlf ++ B "get evil" ++ crlf ++ B "mn")
  | 2%nat | 3%nat => B "get x" ++ crlf
  | _ => [] end.
Lemma poisoning_not_fatal : forall i, ~ sends_fatal (poisoning i).
Proof. intros [|[|[|[|i]]]]; [| | | |exact silence_not_fatal]; eapply one_request_not_fatal; vm_compute; reflexivity. Qed.
Lemma poisoned : exists v, rtsteps meta_server link_tick prim_a sec_b (router_started new_memcacheds poisoning) v
  /\ (length (rt_log v) = 11%nat /\ rt_down v = false /\ exists s p q out, rt_conns v 3%nat = mkSC s p (Answered q Panic) out).
Proof.
  apply (ran _ _ [CAccept 0; CRead 0; CCall 0; CCall 0; CReturn 0; CReply 0; CAccept 1; CRead 1; CCall 1; CAccept 2; CRead 2; CCall 2; CAccept 3; CRead 3; CCall 3; CReturn 3]%nat).
  set (r := ab_run _ _ _). vm_compute in r. subst r. cbn [rt_log rt_world rt_down rt_conns]. split; [reflexivity|]. split; [reflexivity|]. eexists. eexists. eexists. eexists. reflexivity.
Qed.
(** So the clients' requests being none of them fatal is not enough, with conforming memcacheds behind a
    router that has just been started. *)
Theorem C86_router_survives_refuted : ~ (forall ps ss pn sn w streams v,
  two_rings ps ss pn sn -> good_world (Z.of_nat (length (rt_log v))) (ps ++ ss) w ->
  rtsteps meta_server link_tick pn sn (router_started w streams) v -> (forall i, ~ sends_fatal (streams i)) -> rt_down v = false).
Proof.
  intro H. destruct poisoned as (v & Sv & L & Dn & s & p & q & out & Hc).
  pose (u := mkRt (rt_world v) (set_conn (rt_conns v) 3%nat (mkSC s p (Over Crashed) out)) (rt_prog v) (rt_log v) (rt_listening v) true).
  assert (Su : rtsteps meta_server link_tick prim_a sec_b (router_started new_memcacheds poisoning) u).
  { eapply rt_step; [exact Sv|]. apply (Rt_move meta_server link_tick prim_a sec_b v 3%nat (mkSC s p (Over Crashed) out) Dn); [|reflexivity]. rewrite Hc. apply M_handler_crash. }
  specialize (H [sv_a] [sv_b] prim_a sec_b new_memcacheds poisoning u rings_a_b (new_good (Z.of_nat (length (rt_log u))) ([sv_a] ++ [sv_b]) ltac:(unfold u; cbn [rt_log]; rewrite L; lia)) Su poisoning_not_fatal).
  discriminate H.
Qed.
Print Assumptions C86_router_survives_refuted.

(** ** A router without servers *)
(** connectServers and NewReplicaPool accept empty lists. Without a primary the first get or set ends the
    process, whatever state the router is in; no backend sees a request. *)
Lemma answered_panic : forall ST (step : ST -> op -> ST * outcome result) later pn sn v0 v i s p out q, rtsteps step later pn sn v0 v -> rt_down v = false ->
  rt_conns v i = mkSC s p (Calling q) out -> rt_prog v i = Ret Panic -> (q_opcode q = OpcGet \/ q_opcode q = OpcSet) ->
  exists u, rtsteps step later pn sn v0 u /\ rt_down u = true /\ rt_world u = rt_world v.
Proof.
  intros ST step later pn sn v0 v i s p out q Sv D Hc Hp Oq.
  pose proof (Rt_return step later pn sn v i s p out q Panic D Hc Hp) as S1. assert (Ep : proxy_answer q Panic = Panic) by (unfold proxy_answer; destruct Oq as [-> | ->]; reflexivity). rewrite Ep in S1.
  eexists. split; [eapply rt_step; [eapply rt_step; [exact Sv|exact S1]|]|].
  - apply (Rt_move step later pn sn _ i (mkSC s p (Over Crashed) out)); [reflexivity| |reflexivity]. cbn [rt_conns]. rewrite set_conn_same. apply M_handler_crash.
  - split; reflexivity.
Qed.
Theorem C86_no_primary : forall ST (step : ST -> op -> ST * outcome result) later pn sn v i s p out q s' p', NewRing [] pn ->
  rt_down v = false -> rt_conns v i = mkSC s p Reading out -> read_request p s = ((Ok q, s'), p') -> (q_opcode q = OpcGet \/ q_opcode q = OpcSet) ->
  exists u, rtsteps step later pn sn v u /\ rt_down u = true /\ rt_world u = rt_world v.
Proof.
  intros ST step later pn sn v i s p out q s' p' Np D Hc E Oq.
  assert (Ep : proxy_prog pn sn q = Ret Panic).
  { unfold proxy_prog. destruct Oq as [-> | ->]; [|destruct (q_set q); [|reflexivity]]; cbn [rp_prog]; unfold rp_get, rp_store, on_ring; rewrite (C01_empty_ring_panics pn _ Np); reflexivity. }
  assert (M : move no_handler tt (rt_conns v i) tt (mkSC s' p' (Calling q) out) []) by (rewrite Hc; apply M_read; exact E).
  pose proof (Rt_read step later pn sn v i _ q D M eq_refl) as S1. rewrite Ep in S1.
  destruct (answered_panic ST step later pn sn v _ i s' p' out q (rt_step _ _ _ _ _ _ _ (rt_refl _ _ _ _ v) S1) eq_refl) as (u & Su & Du & Wu).
  - cbn [rt_conns]. apply set_conn_same.
  - cbn [rt_prog]. apply set_prog_same.
  - exact Oq.
  - exists u. split; [exact Su|]. split; [exact Du|exact Wu].
Qed.
Print Assumptions C86_no_primary.
(** Without a secondary a get works, but the first set the primary accepts ends the process: after the
    primary has stored it, before the client is answered. *)
Theorem C86_no_secondary : forall ST (step : ST -> op -> ST * outcome result) later pn sn v i s p out q s' p' o sv r, NewRing [] sn ->
  rt_down v = false -> rt_conns v i = mkSC s p Reading out -> read_request p s = ((Ok q, s'), p') -> q_opcode q = OpcSet -> q_set q = Some o ->
  pick pn (q_key q) = Ok sv -> snd (step (rt_world v (sv_id sv)) (OSet (proxy_item q o))) = Ok r ->
  exists u, rtsteps step later pn sn v u /\ rt_down u = true /\ sc_out (rt_conns u i) = out
    /\ rt_world u (sv_id sv) = fst (step (rt_world v (sv_id sv)) (OSet (proxy_item q o))).
Proof.
  intros ST step later pn sn v i s p out q s' p' o sv r Ns D Hc E Oq Qs Pp Ok1.
  assert (M : move no_handler tt (rt_conns v i) tt (mkSC s' p' (Calling q) out) []) by (rewrite Hc; apply M_read; exact E).
  pose proof (Rt_read step later pn sn v i _ q D M eq_refl) as S1.
  pose (v1 := mkRt (rt_world v) (set_conn (rt_conns v) i (mkSC s' p' (Calling q) out)) (set_prog (rt_prog v) i (proxy_prog pn sn q)) (rt_log v ++ [ERead i q]) (rt_listening v) false).
  change (rtstep step later pn sn v v1) in S1.
  assert (C1 : rt_conns v1 i = mkSC s' p' (Calling q) out) by (cbn [v1 rt_conns]; apply set_conn_same).
  assert (P1 : rt_prog v1 i = Call sv (OSet (proxy_item q o)) (fun r0 => if_ok r0 (fun _ => Ret Panic))).
  { cbn [v1 rt_prog]. rewrite set_prog_same. unfold proxy_prog. rewrite Oq, Qs. cbn [rp_prog]. unfold rp_store, on_ring. cbn [proxy_item it_key]. rewrite Pp, (C01_empty_ring_panics sn _ Ns). reflexivity. }
  pose proof (Rt_call step later pn sn v1 i s' p' out q sv _ _ eq_refl C1 P1) as S2. cbn zeta in S2.
  assert (W2 : snd (server_call step (rt_world v1) sv (OSet (proxy_item q o))) = Ok r) by (unfold server_call; cbn [v1 rt_world snd]; exact Ok1).
  rewrite W2 in S2. cbn [if_ok] in S2.
  pose (v2 := mkRt (fst (server_call step (rt_world v1) sv (OSet (proxy_item q o)))) (rt_conns v1) (set_prog (rt_prog v1) i (Ret Panic)) (rt_log v1 ++ [ECall i sv (OSet (proxy_item q o)) (Ok r)]) (rt_listening v1) false).
  change (rtstep step later pn sn v1 v2) in S2.
  assert (C2 : rt_conns v2 i = mkSC s' p' (Calling q) out) by exact C1.
  assert (P2 : rt_prog v2 i = Ret Panic) by (cbn [v2 rt_prog]; apply set_prog_same).
  pose proof (Rt_return step later pn sn v2 i s' p' out q Panic eq_refl C2 P2) as S3.
  pose (v3 := mkRt (rt_world v2) (set_conn (rt_conns v2) i (mkSC s' p' (Answered q (proxy_answer q Panic)) out)) (rt_prog v2) (rt_log v2 ++ [EAnswer i q (proxy_answer q Panic)]) (rt_listening v2) false).
  change (rtstep step later pn sn v2 v3) in S3.
  assert (M4 : move no_handler tt (rt_conns v3 i) tt (mkSC s' p' (Over Crashed) out) []).
  { cbn [v3 rt_conns]. rewrite set_conn_same. unfold proxy_answer. rewrite Oq. apply M_handler_crash. }
  pose proof (Rt_move step later pn sn v3 i _ eq_refl M4 eq_refl) as S4.
  eexists. split; [exact (rt_step _ _ _ _ _ _ _ (rt_step _ _ _ _ _ _ _ (rt_step _ _ _ _ _ _ _ (rt_step _ _ _ _ _ _ _ (rt_refl _ _ _ _ v) S1) S2) S3) S4)|].
  split; [reflexivity|]. cbn [rt_conns rt_world v3 v2]. split; [rewrite set_conn_same; reflexivity|]. unfold server_call. cbn [fst v1 rt_world]. apply upd_same.
Qed.
Print Assumptions C86_no_secondary.

(** Conversely, a client that can send a fatal request ends the process, whatever the others are doing. *)
Theorem C86_a_fatal_request_ends_the_router : forall ST (step : ST -> op -> ST * outcome result) later pn sn v i s p out,
  rt_down v = false -> rt_conns v i = mkSC s (Some p) Reading out -> fatal p s ->
  exists u, rtsteps step later pn sn v u /\ rt_down u = true /\ rt_world u = rt_world v.
Proof.
  intros ST step later pn sn v i s p out D Hc F. apply C68_fatal_requests_exactly in F. destruct F as [s' E].
  eexists. split; [eapply rt_step; [apply rt_refl|]|].
  - apply (Rt_move step later pn sn v i (mkSC s' (Some p) (Over Crashed) out) D); [|reflexivity]. rewrite Hc. apply M_crash. destruct p; cbn [read_request parser] in *; rewrite E; reflexivity.
  - split; reflexivity.
Qed.
Print Assumptions C86_a_fatal_request_ends_the_router.

(** The hypotheses are met: the run of C78, with sets and gets from two clients, none of whom sends a fatal
    request; a router without servers; a fatal request. *)
Example C86_met : two_rings [sv_a] [sv_b] prim_a sec_b
  /\ (exists v, rtsteps meta_server link_tick prim_a sec_b (router_started new_memcacheds writer_and_reader) v
     /\ good_world (Z.of_nat (length (rt_log v))) ([sv_a] ++ [sv_b]) new_memcacheds /\ plain_requests ([sv_a] ++ [sv_b]) new_memcacheds (rt_log v)
     /\ calls_returned (rt_log v) /\ exists e, lookup (l_cache (rt_world v 0%nat)) (B "x") = Some e /\ e_value e = B "7")
  /\ (forall i, ~ sends_fatal (writer_and_reader i))
  /\ (exists q, read_request None (B "get x" ++ crlf) = ((Ok q, []), Some ProtoAscii) /\ q_opcode q = OpcGet) /\ NewRing [] []
  /\ fatal ProtoAscii (B "set k 0 0 -3" ++ crlf).
Proof.
  split; [apply rings_a_b|]. split; [|split; [|split; [|split]]].
  - destruct C78_met as (_ & v & Sv & G & P & _ & _ & _ & E). exists v. split; [exact Sv|]. split; [exact G|]. split; [exact P|].
    split; [exact (plain_calls_return [sv_a] [sv_b] prim_a sec_b new_memcacheds writer_and_reader v rings_a_b G P Sv)|exact E].
  - intros [|[|i]]; [| |exact silence_not_fatal]; (eapply two_requests_not_fatal; [vm_compute; reflexivity|]; vm_compute; reflexivity).
  - eexists. split; [vm_compute; reflexivity|reflexivity].
  - split; [apply Permutation_refl|constructor].
  - apply C68_fatal_requests_exactly. eexists. vm_compute. reflexivity.
Qed.
