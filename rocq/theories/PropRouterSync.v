(** * C80: one client of the router and the others. *)
From Verif Require Import GoBytes GoNum GoIO Item ClientText ClientMeta Cache Daemon Spec Call Guard Hash Ring RingSpec RingData Pool PoolSpec Replica ReplicaSpec
  ServerTypes ServerParse ServerWrite Serve ServerConc ServerSpec Proxy RouterConc PLib PDaemon PCache PMeta PClient PRing PPool PMulti PReplica PServer PServe PropServer PropServerConc PropReplica PropProxy PropRouter PropRouterLin PropRouterRest.
Local Open Scope Z_scope.

(** ** Definitions of the statements *)
(** Nothing is outstanding on a backend's connection: every reply has been read by the request it answers. *)
Definition in_sync (svs : list server) (w : world link) : Prop := forall s, In s svs -> clean (w (sv_id s)).

(** ** The invariant *)
Section Sync.
Variables (ps ss : list server) (pn sn : list node).
Hypothesis R : two_rings ps ss pn sn.
Variable w : world link.
Record synced (v : router_state link) : Prop := {
  y_ok : sec_ok (ps ++ ss) w (length (rt_log v)) (rt_world v);
  y_spot : forall i q, sc_phase (rt_conns v i) = Calling q -> (exists m, at_ (rt_log v) m (ERead i q)) /\ spot pn sn q (rt_prog v i)
}.
Lemma synced_still : forall v conns ls dn, synced v -> (forall i q, sc_phase (conns i) = Calling q <-> sc_phase (rt_conns v i) = Calling q) ->
  synced (mkRt (rt_world v) conns (rt_prog v) (rt_log v) ls dn).
Proof. intros v conns ls dn [O S] H. constructor; cbn [rt_world rt_conns rt_prog rt_log]; [exact O|]. intros i q C. apply S. apply H. exact C. Qed.
Lemma sec_same : forall n w1 w2, (forall i, w2 i = w1 i) -> sec_ok (ps ++ ss) w n w1 -> sec_ok (ps ++ ss) w n w2.
Proof. intros n w1 w2 E A s Is. destruct (A s Is) as (c & h & X). exists c, h. rewrite E. exact X. Qed.

Lemma synced_step : forall v u, synced v -> room (ps ++ ss) w (S (length (rt_log v))) -> rtstep meta_server link_tick pn sn v u ->
  plain_requests (ps ++ ss) w (rt_log u) -> synced u.
Proof.
  intros v u L Rm St [Pls Plg].
  destruct St as [v i s p out Dn Ls Hc|v Dn Ls|v i x' q Dn Mv Ph|v i s p out q sv o k' Dn Hc Hp|v i s p out q r Dn Hc Hp|v i x' Dn Mv Cl|v d Dn D].
  - apply synced_still; [exact L|]. apply set_conn_calling; [rewrite Hc; reflexivity|reflexivity].
  - apply synced_still; [exact L|reflexivity].
  - constructor; cbn [rt_world rt_conns rt_prog rt_log].
    + eapply sec_ok_le; [|apply L]. rewrite app_length. lia.
    + intros i' q' C. destruct (Nat.eq_dec i' i) as [->|N].
      * rewrite set_conn_same, Ph in C. injection C as <-. rewrite set_prog_same. split; [exists (length (rt_log v)); apply at_last|apply Sp_start].
      * rewrite set_conn_other in C by exact N. rewrite set_prog_other by exact N. destruct (y_spot _ L i' q' C) as ((m & A) & S). split; [exists m; apply at_app; exact A|exact S].
  - subst wr. unfold server_call. cbn [fst snd]. set (a := snd (meta_server (rt_world v (sv_id sv)) o)) in *.
    assert (Cq : sc_phase (rt_conns v i) = Calling q) by (rewrite Hc; reflexivity). destruct (y_spot _ L i q Cq) as ((m & Am) & Sp). rewrite Hp in Sp.
    assert (Am' : at_ (rt_log v ++ [ECall i sv o (snd (server_call meta_server (rt_world v) sv o))]) m (ERead i q)) by (apply at_app; exact Am). cbn [rt_log] in Pls, Plg.
    assert (Sp1 : forall p', spot pn sn q p' -> forall i' q', sc_phase (rt_conns v i') = Calling q' -> (exists m', at_ (rt_log v ++ [ECall i sv o a]) m' (ERead i' q')) /\ spot pn sn q' (set_prog (rt_prog v) i p' i')).
    { intros p' S' i' q' C. destruct (y_spot _ L i' q' C) as ((m' & A) & S). split; [exists m'; apply at_app; exact A|]. destruct (Nat.eq_dec i' i) as [->|N]; [rewrite set_prog_same; assert (q' = q) by congruence; subst q'; exact S'|rewrite set_prog_other by exact N; exact S]. }
    assert (Len : length (rt_log v ++ [ECall i sv o a]) = S (length (rt_log v))) by (rewrite app_length; cbn; lia).
    remember (Call sv o k') as pr eqn:Epr. destruct Sp as [|o0 s0 Oq Qs Pk|r]; [|injection Epr as <- <- <-|discriminate Epr].
    + destruct (owner_p _ _ _ _ R (q_key q)) as (p0 & Pp & Ip). assert (I1 : In p0 (ps ++ ss)) by (apply in_or_app; auto). unfold proxy_prog in Epr. destruct (q_opcode q) eqn:Oq; try discriminate Epr.
      * cbn [rp_prog] in Epr. unfold rp_get, on_ring in Epr. rewrite Pp in Epr. injection Epr as <- <- <-.
        assert (Same : forall x, upd (rt_world v) (sv_id p0) (fst (meta_server (rt_world v (sv_id p0)) (OGet (q_key q)))) x = rt_world v x).
        { intro x. unfold upd. destruct (Nat.eqb_spec x (sv_id p0)) as [->|N]; [|reflexivity]. destruct (y_ok _ L p0 I1) as (c & h & Ew & Wf & Cf & Cc). pose proof (Rm p0 I1).
          destruct (meta_answers c h (OGet (q_key q)) (q_key q) Wf ltac:(lia) (Plg m i q Am' Oq) eq_refl eq_refl) as (out' & Em & _). rewrite Ew, Em. reflexivity. }
        constructor; cbn [rt_world rt_conns rt_prog rt_log]; [|apply Sp1; apply Sp_done]. eapply sec_same; [exact Same|]. eapply sec_ok_le; [|apply L]. rewrite Len. lia.
      * destruct (q_set q) as [so|] eqn:Qs; [|discriminate Epr]. cbn [rp_prog] in Epr. unfold rp_store, on_ring in Epr. cbn [proxy_item it_key] in Epr. rewrite Pp in Epr. injection Epr as <- <- <-.
        destruct (Pls m i q so Am' Oq Qs) as (Li & Ci & Fi). destruct (owner_s _ _ _ _ R (q_key q)) as (s1 & Ps1 & Is1).
        destruct (sec_ok_set (ps ++ ss) w _ _ p0 (proxy_item q so) Rm I1 (y_ok _ L) Li Ci (Fi p0 I1)) as (A1 & S2).
        change (mkItem (q_key q) (q_value q) (q_flags q) (s_exp so) (s_cas_value so) []) with (proxy_item q so) in *. unfold a in *. rewrite A1 in *. cbn [if_ok]. rewrite Ps1.
        constructor; cbn [rt_world rt_conns rt_prog rt_log]; [rewrite Len; exact S2|apply Sp1; apply Sp_between; assumption].
    + assert (Is0 : In s0 ss) by (eapply owner_in_s; eassumption). assert (I1 : In s0 (ps ++ ss)) by (apply in_or_app; auto). destruct (Pls m i q o0 Am' Oq Qs) as (Li & Ci & Fi).
      destruct (sec_ok_set (ps ++ ss) w _ _ s0 (proxy_item q o0) Rm I1 (y_ok _ L) Li Ci (Fi s0 I1)) as (A1 & S2).
      constructor; cbn [rt_world rt_conns rt_prog rt_log]; [rewrite Len; exact S2|apply Sp1; apply Sp_done].
  - constructor; cbn [rt_world rt_conns rt_prog rt_log].
    + eapply sec_ok_le; [|apply L]. rewrite app_length. lia.
    + intros i' q' C. destruct (Nat.eq_dec i' i) as [->|N]; [rewrite set_conn_same in C; discriminate C|]. rewrite set_conn_other in C by exact N. destruct (y_spot _ L i' q' C) as ((m & A) & S). split; [exists m; apply at_app; exact A|exact S].
  - apply synced_still; [exact L|]. apply set_conn_calling; [|exact Cl]. unfold calling. destruct (sc_phase (rt_conns v i)) eqn:P; try reflexivity. exfalso. eapply move_reading; eassumption.
  - constructor; cbn [rt_world rt_conns rt_prog rt_log].
    + apply sec_ok_tick; [exact D|]. eapply sec_ok_le; [|apply L]. rewrite app_length. lia.
    + intros i' q' C. destruct (y_spot _ L i' q' C) as ((m & A) & S). split; [exists m; apply at_app; exact A|exact S].
Qed.
End Sync.

Lemma synced_reached : forall ps ss pn sn w streams v,
  two_rings ps ss pn sn -> good_world (Z.of_nat (length (rt_log v))) (ps ++ ss) w -> plain_requests (ps ++ ss) w (rt_log v) ->
  rtsteps meta_server link_tick pn sn (router_started w streams) v -> synced ps ss pn sn w v.
Proof.
  intros ps ss pn sn w streams v R G Pl Sv.
  remember (router_started w streams) as v0 eqn:E0. induction Sv as [v|v u t Sv IH St]; subst.
    - cbn [router_started rt_log length] in *. destruct G as [now G]. constructor; cbn [router_started rt_world rt_conns rt_prog rt_log length].
      + intros s Is. destruct (G s Is) as (c & h & A & W & _). exists c, h. rewrite A. cbn [fresh_link l_cache]. split; [reflexivity|]. split; [exact W|]. split; [reflexivity|lia].
      + intros i q C. discriminate C.
    - destruct (log_grows _ _ _ _ _ _ _ St) as (l & El & Ll). pose proof (f_equal (@length _) El) as Len. rewrite app_length in Len.
      assert (IHv : synced ps ss pn sn w u).
      { apply IH; [|destruct Pl as [P1 P2]; rewrite El in P1, P2; split; [apply plain_sets_old in P1; exact P1|intros m i q A; apply (P2 m i q); apply at_app; exact A]|reflexivity].
        destruct G as [now G]. exists now. intros s Is. destruct (G s Is) as (c & h & A & W & N & C). exists c, h. split; [exact A|]. split; [exact W|]. split; [exact N|lia]. }
      destruct l as [|e l].
      + destruct St as [v i s p out Dn Ls Hc|v Dn Ls|v i x' q Dn Mv Ph|v i s p out q sv o k' Dn Hc Hp|v i s p out q r Dn Hc Hp|v i x' Dn Mv Cl|v d Dn D];
          cbn [rt_log] in El; try (exfalso; apply (f_equal (@length _)) in El; rewrite !app_length in El; cbn in El; lia).
        * apply synced_still; [exact IHv|]. apply set_conn_calling; [rewrite Hc; reflexivity|reflexivity].
        * apply synced_still; [exact IHv|reflexivity].
        * apply synced_still; [exact IHv|]. apply set_conn_calling; [|exact Cl]. unfold calling. destruct (sc_phase (rt_conns v i)) eqn:P; try reflexivity. exfalso. eapply move_reading; eassumption.
      + destruct l; [|cbn in Ll; lia]. eapply synced_step; [exact R|exact IHv| |exact St|exact Pl].
        destruct G as [now G]. intros s Is. destruct (G s Is) as (c & h & A & _ & _ & C). rewrite A. cbn [fresh_link l_cache]. cbn [length] in Len. lia.
Qed.

(** ** C80 *)
(** As long as every get has a legal key and every set is legal, without a cas number and small enough, every backend's
    connection stays in sync, whatever the clients and the scheduler do: no answer is left over for another client. *)
Theorem C80_connections_stay_in_sync_partial : forall ps ss pn sn w streams v,
  two_rings ps ss pn sn -> good_world (Z.of_nat (length (rt_log v))) (ps ++ ss) w -> plain_requests (ps ++ ss) w (rt_log v) ->
  rtsteps meta_server link_tick pn sn (router_started w streams) v -> in_sync (ps ++ ss) (rt_world v).
Proof.
  intros ps ss pn sn w streams v R G Pl Sv.
  pose proof (synced_reached ps ss pn sn w streams v R G Pl Sv) as L.
  intros s Is. destruct (y_ok _ _ _ _ _ _ L s Is) as (c & h & E & _). rewrite E. split; reflexivity.
Qed.
Print Assumptions C80_connections_stay_in_sync_partial.

(** Without that proviso it fails. A client of the router ends its line with a bare line feed, as memcached allows:
    the router's server takes the line feed for a part of the key (it trims only CR LF), and sends it on to the
    backend, which sees two commands and answers two lines, of which the router reads one. *)
Definition bare_line_feed (i : nat) : bytes :=
  match i with
  | 0%nat => B "set x 0 0 1" ++ crlf ++ B "5" ++ crlf ++ B "get a" ++ [LF]
  | 1%nat => B "get x" ++ crlf
  | 2%nat => B "get y" ++ crlf
  | _ => []
  end.
Theorem C80_line_feed_in_key_refuted : ~ (forall ps ss pn sn w streams v,
  two_rings ps ss pn sn -> good_world (Z.of_nat (length (rt_log v))) (ps ++ ss) w ->
  rtsteps meta_server link_tick pn sn (router_started w streams) v -> in_sync (ps ++ ss) (rt_world v)).
Proof.
  intro H. specialize (H [sv_a] [sv_b] prim_a sec_b new_memcacheds bare_line_feed).
  cut (exists v, rtsteps meta_server link_tick prim_a sec_b (router_started new_memcacheds bare_line_feed) v
     /\ (good_world (Z.of_nat (length (rt_log v))) ([sv_a] ++ [sv_b]) new_memcacheds /\ l_unread (rt_world v 0%nat) <> [])).
  { intros (v & Sv & G & D). apply D. apply (proj2 (H v rings_a_b G Sv sv_a (or_introl eq_refl))). }
  clear H. apply (ran _ _ [CAccept 0; CRead 0; CCall 0; CCall 0; CReturn 0; CReply 0; CRead 0; CCall 0]).
  set (r := ab_run _ _ _). vm_compute in r. subst r. cbn [rt_log rt_world].
  split; [apply new_good; cbn; lia|]. vm_compute. discriminate.
Qed.
Print Assumptions C80_line_feed_in_key_refuted.

(** From then on the backend's answers go to the wrong requests, whoever made them. A value [v] a get of [k] is answered
    with has been set under [k] before, or was there at the start ... *)
Definition comes_from (pn : list node) (w : world link) (log : list rtevent) (n : nat) (k v : bytes) : Prop :=
  (exists m i q, (m < n)%nat /\ at_ log m (ERead i q) /\ q_opcode q = OpcSet /\ q_key q = k /\ q_value q = v)
  \/ (exists e, held pn w k = Some e /\ e_value e = v).
(** ... is what a client of the router would like to be able to say of its own well-formed requests. But client 2's get
    of y, which nobody ever set, is answered with the value of x, because of client 0's line feed. *)
Theorem C80_answers_reach_the_wrong_client_refuted : ~ (forall ps ss pn sn w streams v n i q r,
  two_rings ps ss pn sn -> good_world (Z.of_nat (length (rt_log v))) (ps ++ ss) w ->
  rtsteps meta_server link_tick pn sn (router_started w streams) v ->
  at_ (rt_log v) n (EAnswer i q (Ok [r])) -> q_opcode q = OpcGet -> legal_key PMeta (q_key q) -> r_key r = q_key q ->
  comes_from pn w (rt_log v) n (q_key q) (r_value r)).
Proof.
  intro H. specialize (H [sv_a] [sv_b] prim_a sec_b new_memcacheds bare_line_feed).
  cut (exists v, rtsteps meta_server link_tick prim_a sec_b (router_started new_memcacheds bare_line_feed) v
     /\ (good_world (Z.of_nat (length (rt_log v))) ([sv_a] ++ [sv_b]) new_memcacheds
         /\ (forall m i q, at_ (rt_log v) m (ERead i q) -> q_opcode q = OpcSet -> q_key q = B "x")
         /\ exists n q r, at_ (rt_log v) n (EAnswer 2 q (Ok [r])) /\ q = key_req OpcGet (B "y") /\ r_key r = B "y" /\ r_value r = B "5")).
  { intros (v & Sv & G & O & n & q & r & A & Eq & Kr & Vr).
    assert (Oq : q_opcode q = OpcGet) by (rewrite Eq; reflexivity). assert (Kq : q_key q = B "y") by (rewrite Eq; reflexivity).
    assert (Lq : legal_key PMeta (q_key q)) by (rewrite Kq; split; [cbn; lia|repeat constructor; vm_compute; congruence]).
    destruct (H v n 2%nat q r rings_a_b G Sv A Oq Lq ltac:(rewrite Kr, Kq; reflexivity)) as [(m & i & q' & _ & A' & O' & K' & _)|(e & E & _)].
    - specialize (O m i q' A' O'). rewrite O, Kq in K'. discriminate K'.
    - rewrite held_a, Kq in E. discriminate E. }
  clear H. apply (ran _ _ [CAccept 0; CAccept 1; CAccept 2; CRead 0; CCall 0; CCall 0; CReturn 0; CReply 0; CRead 0; CCall 0; CReturn 0; CReply 0; CRead 1; CCall 1; CReturn 1; CRead 2; CCall 2; CReturn 2; CReply 2]).
  set (r := ab_run _ _ _). vm_compute in r. subst r. cbn [rt_log].
  split; [apply new_good; cbn; lia|]. split.
  - intros m i q A Oq. each_moment m A; injection A as <- <-; cbn in Oq; try discriminate Oq; reflexivity.
  - exists 12%nat. eexists. eexists. split; [reflexivity|]. split; [reflexivity|]. split; reflexivity.
Qed.
Print Assumptions C80_answers_reach_the_wrong_client_refuted.

(** The binary protocol lets a key be any bytes. A get whose key holds a line end makes the backend run a command of the
    client's choice: here the get deletes x. *)
Definition injected_key : bytes := B "a v" ++ crlf ++ B "md x" ++ crlf ++ B "mn".
Definition binary_get (k : bytes) : bytes := be 1 128 ++ be 1 0 ++ be 2 (zlen k) ++ be 1 0 ++ be 1 0 ++ be 2 0 ++ be 4 (zlen k) ++ be 4 0 ++ be 8 0 ++ k.
Definition injecting (i : nat) : bytes := match i with 0%nat => binary_get injected_key | _ => [] end.
Theorem C80_gets_change_nothing_refuted : ~ (forall ps ss pn sn w streams v k,
  two_rings ps ss pn sn -> good_world (Z.of_nat (length (rt_log v))) (ps ++ ss) w ->
  rtsteps meta_server link_tick pn sn (router_started w streams) v ->
  (forall m i q, at_ (rt_log v) m (ERead i q) -> q_opcode q = OpcGet) -> (forall m d, ~ at_ (rt_log v) m (ETime d)) ->
  held pn (rt_world v) k = held pn w k).
Proof.
  intro H. specialize (H [sv_a] [sv_b] prim_a sec_b (counter_world None) injecting).
  cut (exists v, rtsteps meta_server link_tick prim_a sec_b (router_started (counter_world None) injecting) v
     /\ (length (rt_log v) = 2%nat /\ (forall m i q, at_ (rt_log v) m (ERead i q) -> q_opcode q = OpcGet) /\ (forall m d, ~ at_ (rt_log v) m (ETime d))
         /\ lookup (l_cache (rt_world v 0%nat)) (B "x") = None)).
  { intros (v & Sv & L & O & T & D). assert (G : good_world (Z.of_nat (length (rt_log v))) ([sv_a] ++ [sv_b]) (counter_world None)).
    { rewrite L. destruct (proj1 (counter_world_ok None Logic.I)) as [now G]. exists now. intros s Is. destruct (G s Is) as (c & h & A & W & N & C). exists c, h. split; [exact A|]. split; [exact W|]. split; [exact N|].
      destruct Is as [<-|[<-|[]]]; injection A as <- _; vm_compute; reflexivity. }
    specialize (H v (B "x") rings_a_b G Sv O T). rewrite !held_a, D in H. vm_compute in H. discriminate H. }
  clear H. apply (ran _ _ [CAccept 0; CRead 0; CCall 0]).
  set (r := ab_run _ _ _). vm_compute in r. subst r. cbn [rt_log rt_world].
  split; [reflexivity|]. split; [|split].
  - intros m i q A. each_moment m A; injection A as <- <-; reflexivity.
  - intros m d A. each_moment m A.
  - vm_compute. reflexivity.
Qed.
Print Assumptions C80_gets_change_nothing_refuted.

(** A text request line without control characters, ended by CR LF, is safe in that respect: the keys the router takes
    from it have neither a space nor a control character. *)
Lemma split_words : forall l, line l -> Forall word (split_sp l).
Proof.
  induction l as [|c l IH]; intro L; [repeat constructor|]. apply Forall_cons_iff in L. destruct L as [Lc L]. specialize (IH L). cbn [split_sp].
  destruct (Ascii.eqb_spec c SP) as [->|N]; [constructor; [constructor|exact IH]|].
  destruct (split_sp l) as [|w ws]; [repeat constructor|]; [|apply Forall_cons_iff in IH; destruct IH as [Hw Hs]; constructor; [|exact Hs]; constructor; [|exact Hw]];
    (assert (code c <> 32) by (intro E; apply N; apply code_inj; exact E); lia).
Qed.
Lemma command_words : forall f s q s', Forall word f -> ascii_command f s = (Ok q, s') -> word (q_key q) /\ Forall word (q_keys q).
Proof.
  intros f s q s' F E. unfold ascii_command in E. destruct f as [|cmd args]; [discriminate E|]. apply Forall_cons_iff in F. destruct F as [_ F].
  assert (W0 : word []) by constructor.
  repeat match type of E with
  | (if ?b then _ else _) _ = _ => destruct b
  | (match ?a with [] => _ | _ :: _ => _ end) _ = _ => let k := fresh "k" in let l := fresh "l" in destruct a as [|k l]; [|apply Forall_cons_iff in F; destruct F as [? F]]
  end; try discriminate E;
  unfold bind, ret, lift_opt, lift in E;
  repeat match type of E with
  | context [match ?x with _ => _ end] => destruct x; try discriminate E
  end; injection E as <- <-; cbn; auto.
Qed.
Theorem C80_printable_lines_deliver_words : forall l rest q s', line l -> read_ascii_request (l ++ crlf ++ rest) = (Ok q, s') ->
  word (q_key q) /\ Forall word (q_keys q).
Proof.
  intros l rest q s' L E. unfold read_ascii_request, bind in E. change (l ++ crlf ++ rest) with (l ++ CR :: LF :: rest) in E. rewrite read_bytes_line in E by exact L.
  rewrite trim_suffix_app in E. eapply command_words; [apply split_words; exact L|exact E].
Qed.
Print Assumptions C80_printable_lines_deliver_words.

(** One writer and one reader, both well-behaved, some of it still under way; and a request line. *)
Example C80_met : two_rings [sv_a] [sv_b] prim_a sec_b
  /\ (exists v, rtsteps meta_server link_tick prim_a sec_b (router_started new_memcacheds writer_and_reader) v
     /\ good_world (Z.of_nat (length (rt_log v))) ([sv_a] ++ [sv_b]) new_memcacheds /\ plain_requests ([sv_a] ++ [sv_b]) new_memcacheds (rt_log v)
     /\ exists e, lookup (l_cache (rt_world v 0%nat)) (B "x") = Some e /\ e_value e = B "7")
  /\ line (B "gets a b") /\ exists q, read_ascii_request (B "gets a b" ++ crlf ++ B "rest") = (Ok q, B "rest") /\ q_keys q = [B "a"; B "b"].
Proof.
  split; [apply rings_a_b|]. split.
  - destruct C78_met as (_ & v & Sv & G & P & _ & _ & _ & E). exists v. split; [exact Sv|]. split; [exact G|]. split; [exact P|exact E].
  - split; [repeat constructor; vm_compute; congruence|]. eexists. split; [vm_compute; reflexivity|reflexivity].
Qed.
