(** * C76-C78: the router with many clients at once. *)
From Verif Require Import GoBytes GoNum GoIO Item ClientText ClientMeta Cache Daemon Spec Call Guard Hash Ring RingSpec RingData Pool PoolSpec Replica ReplicaSpec
  ServerTypes ServerParse ServerWrite Serve ServerConc ServerSpec Proxy RouterConc PLib PDaemon PCache PMeta PClient PRing PPool PReplica PServer PServe PropServer PropServerConc PropReplica PropProxy.
Local Open Scope Z_scope.

(** ** Definitions of the statements *)

(** What happened at moment [n] of a log. *)
Definition at_ (log : list rtevent) (n : nat) (e : rtevent) : Prop := nth_error log n = Some e.
(** The connection an event belongs to. *)
Definition event_conn (e : rtevent) : option nat := match e with ERead i _ | ECall i _ _ _ | EAnswer i _ _ => Some i | ETime _ => None end.
(** Nothing of connection [i] happened strictly between two moments. *)
Definition quiet (log : list rtevent) (i m n : nat) : Prop :=
  forall x e, (m < x < n)%nat -> at_ log x e -> event_conn e <> Some i.

(** How request [q] of connection [i], read at [m], was dealt with before [n], and with what result. *)
Inductive handled (pn sn : list node) (log : list rtevent) (i : nat) (q : srequest) (m n : nat) : outcome result -> Prop :=
| H_get : forall c p a, q_opcode q = OpcGet -> pick pn (q_key q) = Ok p ->
    (m < c < n)%nat -> at_ log c (ECall i p (OGet (q_key q)) a) -> quiet log i m c -> quiet log i c n ->
    handled pn sn log i q m n a
| H_set_refused : forall c p o a, q_opcode q = OpcSet -> q_set q = Some o -> pick pn (q_key q) = Ok p ->
    (m < c < n)%nat -> at_ log c (ECall i p (OSet (proxy_item q o)) a) -> (forall x, a <> Ok x) -> quiet log i m c -> quiet log i c n ->
    handled pn sn log i q m n a
| H_set : forall c c2 p s o x a, q_opcode q = OpcSet -> q_set q = Some o -> pick pn (q_key q) = Ok p -> pick sn (q_key q) = Ok s ->
    (m < c < c2)%nat -> (c2 < n)%nat -> at_ log c (ECall i p (OSet (proxy_item q o)) (Ok x)) -> at_ log c2 (ECall i s (OSet (proxy_item q o)) a) ->
    quiet log i m c -> quiet log i c c2 -> quiet log i c2 n ->
    handled pn sn log i q m n a
| H_set_nothing : q_opcode q = OpcSet -> q_set q = None -> quiet log i m n -> handled pn sn log i q m n Panic
| H_unknown : passed_on (q_opcode q) = false -> quiet log i m n -> handled pn sn log i q m n (Err proxy_unknown).

(** A server alone: the calls on it that the log records, and the passing of time. *)
Inductive one_at_a_time {ST} (step : ST -> op -> ST * outcome result) (later : ST -> Z -> ST) (id : nat) : ST -> list rtevent -> ST -> Prop :=
| O_nil : forall st, one_at_a_time step later id st [] st
| O_call : forall st i sv o a st' log st'', sv_id sv = id -> step st o = (st', a) -> one_at_a_time step later id st' log st'' ->
    one_at_a_time step later id st (ECall i sv o a :: log) st''
| O_time : forall st d log st'', one_at_a_time step later id (later st d) log st'' -> one_at_a_time step later id st (ETime d :: log) st''
| O_other : forall st e log st'', match e with ECall _ sv _ _ => sv_id sv <> id | ETime _ => False | _ => True end ->
    one_at_a_time step later id st log st'' -> one_at_a_time step later id st (e :: log) st''.

(** The answers given to connection [i], with the requests. *)
Definition answers_to (i : nat) (log : list rtevent) : list (srequest * answer_of) :=
  flat_map (fun e => match e with EAnswer j q r => if Nat.eqb j i then [(q, r)] else [] | _ => [] end) log.

(** ** Logs grow at the end *)
Lemma at_app : forall log l n e, at_ log n e -> at_ (log ++ l) n e.
Proof. intros log l n e H. unfold at_ in *. rewrite nth_error_app1; [exact H|]. apply nth_error_Some. congruence. Qed.
Lemma at_lt : forall log n e, at_ log n e -> (n < length log)%nat.
Proof. intros log n e H. apply nth_error_Some. unfold at_ in H. congruence. Qed.
Lemma at_old : forall log l n e, (n < length log)%nat -> at_ (log ++ l) n e -> at_ log n e.
Proof. intros log l n e L H. unfold at_ in *. rewrite nth_error_app1 in H by exact L. exact H. Qed.
Lemma at_last : forall log e, at_ (log ++ [e]) (length log) e.
Proof. intros. unfold at_. rewrite nth_error_app2, Nat.sub_diag by lia. reflexivity. Qed.
Lemma at_snoc : forall log e n x, at_ (log ++ [e]) n x -> at_ log n x \/ (n = length log /\ x = e).
Proof.
  intros log e n x H. destruct (Nat.lt_ge_cases n (length log)) as [L|L]; [left; eapply at_old; eassumption|right].
  unfold at_ in H. rewrite nth_error_app2 in H by exact L. destruct (n - length log)%nat as [|k] eqn:E; [injection H as <-; split; [lia|reflexivity]|destruct k; discriminate H].
Qed.
Lemma quiet_app : forall log l i m n, (n <= length log)%nat -> quiet log i m n -> quiet (log ++ l) i m n.
Proof. intros log l i m n L Q x e R A. apply (Q x e R). eapply at_old; [lia|exact A]. Qed.
Lemma quiet_snoc : forall log e i m, event_conn e <> Some i -> quiet log i m (length log) -> quiet (log ++ [e]) i m (S (length log)).
Proof. intros log e i m N Q x y R A. apply at_snoc in A. destruct A as [A|[_ ->]]; [|exact N]. apply (Q x y); [|exact A]. pose proof (at_lt _ _ _ A). lia. Qed.
Lemma quiet_none : forall log i m, quiet log i m (S m).
Proof. intros log i m x e R. lia. Qed.
Lemma handled_app : forall pn sn log l i q m n r, (n <= length log)%nat -> handled pn sn log i q m n r -> handled pn sn (log ++ l) i q m n r.
Proof.
  intros pn sn log l i q m n r L H. destruct H.
  - eapply H_get; try eassumption; [apply at_app; assumption|apply quiet_app; [lia|assumption]|apply quiet_app; assumption].
  - eapply H_set_refused; try eassumption; [apply at_app; assumption|apply quiet_app; [lia|assumption]|apply quiet_app; assumption].
  - apply (H_set pn sn _ i q m n c c2 p s o x); try assumption; try (apply at_app; assumption); apply quiet_app; try assumption; lia.
  - eapply H_set_nothing; try assumption. apply quiet_app; assumption.
  - eapply H_unknown; try assumption. apply quiet_app; assumption.
Qed.
Lemma handled_snoc : forall pn sn log e i q m r, event_conn e <> Some i -> handled pn sn log i q m (length log) r -> handled pn sn (log ++ [e]) i q m (S (length log)) r.
Proof.
  intros pn sn log e i q m r N H. destruct H.
  - eapply H_get with (c := c); try eassumption; [lia|apply at_app; assumption|apply quiet_app; [lia|assumption]|apply quiet_snoc; assumption].
  - eapply H_set_refused with (c := c); try eassumption; [lia|apply at_app; assumption|apply quiet_app; [lia|assumption]|apply quiet_snoc; assumption].
  - apply (H_set pn sn _ i q m _ c c2 p s o x); try assumption; try (apply at_app; assumption); try (apply quiet_app; [lia|assumption]); [lia|apply quiet_snoc; assumption].
  - eapply H_set_nothing; try assumption. apply quiet_snoc; assumption.
  - eapply H_unknown; try assumption. apply quiet_snoc; assumption.
Qed.

Lemma one_app : forall ST (step : ST -> op -> ST * outcome result) later id st l1 st1, one_at_a_time step later id st l1 st1 ->
  forall l2 st2, one_at_a_time step later id st1 l2 st2 -> one_at_a_time step later id st (l1 ++ l2) st2.
Proof.
  intros ST step later id st l1 st1 H. induction H; intros l2 st2 H2; cbn [app]; [exact H2|eapply O_call; eauto|apply O_time; auto|apply O_other; auto].
Qed.

(** ** The invariant *)
Section Inv.
Context {ST : Type}.
Variable step : ST -> op -> ST * outcome result.
Variable later : ST -> Z -> ST.
Variable pn sn : list node.
Variable ps ss : list server.
Hypothesis R : two_rings ps ss pn sn.

(** Where the request [q] read at [m] is, when [prog] is left of it. *)
Inductive stage (log : list rtevent) (i : nat) (q : srequest) (m : nat) : prog -> Prop :=
| S_start : quiet log i m (length log) -> stage log i q m (proxy_prog pn sn q)
| S_between : forall c p s o x, q_opcode q = OpcSet -> q_set q = Some o -> pick pn (q_key q) = Ok p -> pick sn (q_key q) = Ok s ->
    (m < c < length log)%nat -> at_ log c (ECall i p (OSet (proxy_item q o)) (Ok x)) -> quiet log i m c -> quiet log i c (length log) ->
    stage log i q m (Call s (OSet (proxy_item q o)) Ret)
| S_done : forall r, handled pn sn log i q m (length log) r -> stage log i q m (Ret r).

Lemma stage_snoc : forall log e i q m p, event_conn e <> Some i -> stage log i q m p -> stage (log ++ [e]) i q m p.
Proof.
  intros log e i q m p N H. destruct H.
  - apply S_start. rewrite app_length. cbn [length]. rewrite Nat.add_1_r. apply quiet_snoc; assumption.
  - apply (S_between _ i q m c p s o x); try assumption; [rewrite app_length; cbn; lia|apply at_app; assumption|apply quiet_app; [lia|assumption]|].
    rewrite app_length. cbn [length]. rewrite Nat.add_1_r. apply quiet_snoc; assumption.
  - apply S_done. rewrite app_length. cbn [length]. rewrite Nat.add_1_r. apply handled_snoc; assumption.
Qed.
Definition in_flight (log : list rtevent) (i : nat) (q : srequest) (p : prog) : Prop :=
  exists m, (m < length log)%nat /\ at_ log m (ERead i q) /\ stage log i q m p.
Definition answers_ok (log : list rtevent) : Prop := forall n i q r, at_ log n (EAnswer i q r) ->
  exists m r0, (m < n)%nat /\ at_ log m (ERead i q) /\ handled pn sn log i q m n r0 /\ r = proxy_answer q r0.
(** Every call on a backend is made for a request that was read before and is not yet answered. *)
Definition calls_ok (log : list rtevent) : Prop := forall c i sv o a, at_ log c (ECall i sv o a) ->
  exists m q, (m < c)%nat /\ at_ log m (ERead i q)
    /\ ((quiet log i m c /\ pick pn (q_key q) = Ok sv /\ ((q_opcode q = OpcGet /\ o = OGet (q_key q)) \/ exists so, q_opcode q = OpcSet /\ q_set q = Some so /\ o = OSet (proxy_item q so)))
        \/ exists c1 p so x, (m < c1 < c)%nat /\ quiet log i m c1 /\ quiet log i c1 c /\ q_opcode q = OpcSet /\ q_set q = Some so /\ pick pn (q_key q) = Ok p
             /\ at_ log c1 (ECall i p (OSet (proxy_item q so)) (Ok x)) /\ pick sn (q_key q) = Ok sv /\ o = OSet (proxy_item q so)).
Lemma calls_snoc : forall log e, calls_ok log -> (forall i sv o a, e <> ECall i sv o a) -> calls_ok (log ++ [e]).
Proof.
  intros log e A N c i sv o a H. apply at_snoc in H. destruct H as [H|[_ H]]; [|exfalso; eapply N; eauto]. pose proof (at_lt _ _ _ H) as Lc.
  destruct (A c i sv o a H) as (m & q & L & Rd & D). exists m, q. split; [exact L|]. split; [apply at_app; exact Rd|].
  destruct D as [(Q & D)|(c1 & p & so & x & Lc1 & Q1 & Q2 & D1 & D2 & D3 & D4 & D5)]; [left; split; [apply quiet_app; [lia|exact Q]|exact D]|right].
  exists c1, p, so, x. split; [exact Lc1|]. split; [apply quiet_app; [lia|exact Q1]|]. split; [apply quiet_app; [lia|exact Q2]|]. split; [exact D1|]. split; [exact D2|]. split; [exact D3|]. split; [apply at_app; exact D4|exact D5].
Qed.
Lemma call_calls : forall log i q sv o k a, in_flight log i q (Call sv o k) -> calls_ok log -> calls_ok (log ++ [ECall i sv o a]).
Proof.
  intros log i q sv o k a (m & L & A & S) C c j sv' o' a' H. apply at_snoc in H. destruct H as [H|[-> H]].
  { pose proof (at_lt _ _ _ H) as Lc. destruct (C c j sv' o' a' H) as (m' & q' & L' & Rd & D). exists m', q'. split; [exact L'|]. split; [apply at_app; exact Rd|].
    destruct D as [(Q & D)|(c1 & p & so & x & Lc1 & Q1 & Q2 & D1 & D2 & D3 & D4 & D5)]; [left; split; [apply quiet_app; [lia|exact Q]|exact D]|right].
    exists c1, p, so, x. split; [exact Lc1|]. split; [apply quiet_app; [lia|exact Q1]|]. split; [apply quiet_app; [lia|exact Q2]|]. split; [exact D1|]. split; [exact D2|]. split; [exact D3|]. split; [apply at_app; exact D4|exact D5]. }
  injection H as -> -> -> ->. exists m, q. split; [exact L|]. split; [apply at_app; exact A|].
  remember (Call sv o k) as pr eqn:Epr. destruct S as [Q|c p s so x Oc Qs Pp Ps Rc Ac Q1 Q2|r Hd]; [|injection Epr as <- <- <-|discriminate Epr].
  - left. split; [apply quiet_app; [lia|exact Q]|]. unfold proxy_prog in Epr. destruct (q_opcode q) eqn:Oc; try discriminate Epr.
    + cbn [rp_prog] in Epr. unfold rp_get, on_ring in Epr. destruct (pick pn (q_key q)) as [p| |] eqn:Pp; try discriminate Epr. injection Epr as <- <- <-. auto.
    + destruct (q_set q) as [so|] eqn:Qs; [|discriminate Epr]. cbn [rp_prog] in Epr. unfold rp_store, on_ring in Epr. cbn [proxy_item it_key] in Epr.
      destruct (pick pn (q_key q)) as [p| |] eqn:Pp; try discriminate Epr. injection Epr as <- <- <-. split; [reflexivity|]. right. exists so. auto.
  - right. exists c, p, so, x. split; [exact Rc|]. split; [apply quiet_app; [lia|exact Q1]|]. split; [apply quiet_app; [lia|exact Q2]|]. split; [exact Oc|]. split; [exact Qs|]. split; [exact Pp|]. split; [apply at_app; exact Ac|auto].
Qed.
Lemma answers_snoc : forall log e, answers_ok log -> (forall i q r, e <> EAnswer i q r) -> answers_ok (log ++ [e]).
Proof.
  intros log e A N n i q r H. apply at_snoc in H. destruct H as [H|[_ H]]; [|exfalso; eapply N; eauto].
  destruct (A n i q r H) as (m & r0 & L & Rd & Hd & E). exists m, r0. split; [exact L|]. split; [apply at_app; exact Rd|]. split; [|exact E].
  apply handled_app; [|exact Hd]. pose proof (at_lt _ _ _ H). lia.
Qed.
Lemma in_flight_snoc : forall log e i q p, event_conn e <> Some i -> in_flight log i q p -> in_flight (log ++ [e]) i q p.
Proof. intros log e i q p N (m & L & A & S). exists m. split; [rewrite app_length; lia|]. split; [apply at_app; exact A|]. apply stage_snoc; assumption. Qed.

(** One call of a request. *)
Lemma call_stage : forall log i q sv o k a, in_flight log i q (Call sv o k) -> in_flight (log ++ [ECall i sv o a]) i q (k a).
Proof.
  intros log i q sv o k a (m & L & A & S). exists m. split; [rewrite app_length; lia|]. split; [apply at_app; exact A|].
  assert (Last : forall c, (m < c)%nat -> quiet (log ++ [ECall i sv o a]) i (length log) (length (log ++ [ECall i sv o a]))).
  { intros c _. rewrite app_length. cbn [length]. rewrite Nat.add_1_r. apply quiet_none. }
  remember (Call sv o k) as pr eqn:Epr. destruct S as [Q|c p s o' x Oc Qs Pp Ps Rc Ac Q1 Q2|r Hd]; [|injection Epr as <- <- <-|discriminate Epr].
  - unfold proxy_prog in Epr. destruct (q_opcode q) eqn:Oc; try discriminate Epr.
    + cbn [rp_prog] in Epr. unfold rp_get, on_ring in Epr. destruct (pick pn (q_key q)) as [p| |] eqn:Pp; try discriminate Epr. injection Epr as -> <- <-.
      apply S_done. eapply H_get with (c := length log); try eassumption; [rewrite app_length; cbn; lia|apply at_last|apply quiet_app; [lia|exact Q]|apply (Last (S m)); lia].
    + destruct (q_set q) as [so|] eqn:Qs; [|discriminate Epr]. cbn [rp_prog] in Epr. unfold rp_store, on_ring in Epr. cbn [proxy_item it_key] in Epr.
      destruct (pick pn (q_key q)) as [p| |] eqn:Pp; try discriminate Epr. injection Epr as -> <- <-. destruct (owner_s _ _ _ _ R (q_key q)) as (s & Ps & _). rewrite Ps.
      destruct a as [x|e|]; cbn [if_ok].
      * eapply (S_between _ i q m (length log) _ s so x); try assumption; [exact Pp|rewrite app_length; cbn; lia|apply at_last|apply quiet_app; [lia|exact Q]|apply (Last (S m)); lia].
      * apply S_done. eapply H_set_refused with (c := length log); try eassumption; [rewrite app_length; cbn; lia|apply at_last|discriminate|apply quiet_app; [lia|exact Q]|apply (Last (S m)); lia].
      * apply S_done. eapply H_set_refused with (c := length log); try eassumption; [rewrite app_length; cbn; lia|apply at_last|discriminate|apply quiet_app; [lia|exact Q]|apply (Last (S m)); lia].
  - apply S_done. apply (H_set pn sn _ i q m _ c (length log) p s o' x); try assumption; [rewrite app_length; cbn; lia|apply at_app; exact Ac|apply at_last|apply quiet_app; [lia|exact Q1]|apply quiet_app; [lia|exact Q2]|apply (Last (S m)); lia].
Qed.
(** Its return. *)
Lemma return_stage : forall log i q r, in_flight log i q (Ret r) ->
  exists m, (m < length log)%nat /\ at_ log m (ERead i q) /\ handled pn sn log i q m (length log) r.
Proof.
  intros log i q r (m & L & A & S). exists m. split; [exact L|]. split; [exact A|]. remember (Ret r) as pr eqn:Epr.
  destruct S as [Q|c p s o' x Oc Qs Pp Ps Rc Ac Q1 Q2|r' Hd]; [|discriminate Epr|injection Epr as <-; exact Hd].
  unfold proxy_prog in Epr. destruct (owner_p _ _ _ _ R (q_key q)) as (p & Pp & _).
  destruct (q_opcode q) eqn:Oc; try (injection Epr as <-; apply H_unknown; [rewrite Oc; reflexivity|exact Q]).
  - cbn [rp_prog] in Epr. unfold rp_get, on_ring in Epr. rewrite Pp in Epr. discriminate Epr.
  - destruct (q_set q) as [so|] eqn:Qs; [|injection Epr as <-; apply H_set_nothing; assumption].
    cbn [rp_prog] in Epr. unfold rp_store, on_ring in Epr. cbn [proxy_item it_key] in Epr. rewrite Pp in Epr. discriminate Epr.
Qed.

Definition flights_ok (v : router_state ST) : Prop := forall i q, sc_phase (rt_conns v i) = Calling q -> in_flight (rt_log v) i q (rt_prog v i).
Lemma set_prog_same : forall f i p, set_prog f i p i = p.
Proof. intros. unfold set_prog. rewrite Nat.eqb_refl. reflexivity. Qed.
Lemma set_prog_other : forall f i p j, j <> i -> set_prog f i p j = f j.
Proof. intros f i p j N. unfold set_prog. apply Nat.eqb_neq in N. rewrite N. reflexivity. Qed.

Lemma steps_inv : forall w streams v, rtsteps step later pn sn (router_started w streams) v ->
  flights_ok v /\ answers_ok (rt_log v) /\ calls_ok (rt_log v) /\ (forall i, conn_ok (streams i) (answers_to i (rt_log v)) (rt_conns v i))
  /\ (forall id, one_at_a_time step later id (w id) (rt_log v) (rt_world v id)).
Proof.
  intros w streams v Sv. remember (router_started w streams) as v0 eqn:E0. induction Sv as [v|v u t Sv IH St]; subst.
  - split; [intros i q H; discriminate H|]. split; [intros n i q r H; unfold at_ in H; destruct n; discriminate H|]. split; [intros c i sv o a H; unfold at_ in H; destruct c; discriminate H|]. split; [|intro id; constructor].
    intro i. exists []. cbn [router_started rt_conns rt_log answers_to flat_map to_come sc_phase sc_proto sc_left sc_out]. repeat split. intro as_. unfold put. cbn [map app fst snd]. destruct (onward None as_ (streams i)); reflexivity.
  - destruct (IH eq_refl) as (Fl & An & Ca & Co & Ow). clear IH.
    assert (Ato : forall i log e, answers_to i (log ++ [e]) = answers_to i log ++ match e with EAnswer j q r => if Nat.eqb j i then [(q, r)] else [] | _ => [] end).
    { intros i log e. unfold answers_to. rewrite flat_map_app. cbn [flat_map]. rewrite app_nil_r. reflexivity. }
    assert (Oth : forall e log w1 w2, match e with ECall _ _ _ _ | ETime _ => False | _ => True end -> (forall id, one_at_a_time step later id (w id) log (w1 id)) -> (forall id, w2 id = w1 id) ->
              forall id, one_at_a_time step later id (w id) (log ++ [e]) (w2 id)).
    { intros e log w1 w2 Ne Hl Hw id. rewrite Hw. eapply one_app; [apply Hl|]. apply O_other; [destruct e; try contradiction; exact I|constructor]. }
    destruct St as [v0 i s p out Dn Ls Hc|v0 Dn Ls|v0 i x' q Dn Mv Ph|v0 i s p out q sv o k Dn Hc Hp|v0 i s p out q r Dn Hc Hp|v0 i x' Dn Mv Cl|v0 d Dn D]; cbn [rt_world rt_conns rt_prog rt_log].
    + split; [|split; [exact An|split; [exact Ca|split; [|exact Ow]]]].
      * intros j q H. cbn [rt_conns rt_log rt_prog] in *. destruct (Nat.eq_dec j i) as [->|Nj]; [rewrite set_conn_same in H; discriminate H|rewrite set_conn_other in H by exact Nj; apply Fl; exact H].
      * intro j. destruct (Nat.eq_dec j i) as [->|Nj]; [rewrite set_conn_same|rewrite set_conn_other by exact Nj; apply Co].
        destruct (Co i) as (done & F & O & M & X). rewrite Hc in *. cbn [to_come unsent sc_phase sc_left sc_proto sc_out] in *. exists done. cbn [to_come unsent sc_phase sc_left sc_proto sc_out]. repeat split; assumption.
    + split; [exact Fl|split; [exact An|split; [exact Ca|split; [exact Co|exact Ow]]]].
    + split; [|split; [|split; [|split]]].
      * intros j q' H. cbn [rt_conns rt_log rt_prog] in *. destruct (Nat.eq_dec j i) as [->|Nj].
        -- rewrite set_conn_same, Ph in H. injection H as <-. rewrite set_prog_same. exists (length (rt_log v0)). split; [rewrite app_length; cbn; lia|]. split; [apply at_last|].
           apply S_start. rewrite app_length. cbn [length]. rewrite Nat.add_1_r. apply quiet_none.
        -- rewrite set_conn_other in H by exact Nj. rewrite set_prog_other by exact Nj. apply in_flight_snoc; [cbn; congruence|apply Fl; exact H].
      * apply answers_snoc; [exact An|discriminate].
      * apply calls_snoc; [exact Ca|discriminate].
      * intro j. rewrite Ato, app_nil_r. destruct (Nat.eq_dec j i) as [->|Nj]; [rewrite set_conn_same|rewrite set_conn_other by exact Nj; apply Co].
        rewrite <- (app_nil_r (answers_to i (rt_log v0))). eapply move_ok; [apply Co|exact Mv].
      * apply Oth with (w1 := rt_world v0); [exact I|exact Ow|reflexivity].
    + split; [|split; [|split; [|split]]].
      * intros j q' H. cbn [rt_conns rt_log rt_prog] in *. destruct (Nat.eq_dec j i) as [->|Nj].
        -- rewrite set_prog_same. apply call_stage. rewrite <- Hp. apply Fl. exact H.
        -- rewrite set_prog_other by exact Nj. apply in_flight_snoc; [cbn; congruence|apply Fl; exact H].
      * apply answers_snoc; [exact An|discriminate].
      * eapply call_calls; [|exact Ca]. rewrite <- Hp. apply Fl. rewrite Hc. reflexivity.
      * intro j. rewrite Ato, app_nil_r. apply Co.
      * intro id. eapply one_app; [apply Ow|]. subst wr. unfold server_call. cbn [fst snd]. unfold upd. destruct (Nat.eqb_spec id (sv_id sv)) as [->|N].
        -- eapply O_call; [reflexivity|apply surjective_pairing|constructor].
        -- apply O_other; [congruence|constructor].
    + split; [|split; [|split; [|split]]].
      * intros j q' H. cbn [rt_conns rt_log rt_prog] in *. destruct (Nat.eq_dec j i) as [->|Nj]; [rewrite set_conn_same in H; discriminate H|].
        rewrite set_conn_other in H by exact Nj. apply in_flight_snoc; [cbn; congruence|apply Fl; exact H].
      * intros n j q' r' H. apply at_snoc in H. destruct H as [H|[-> H]].
        -- destruct (An n j q' r' H) as (m & r0 & L & Rd & Hd & E). exists m, r0. split; [exact L|]. split; [apply at_app; exact Rd|]. split; [|exact E].
           apply handled_app; [|exact Hd]. pose proof (at_lt _ _ _ H). lia.
        -- injection H as -> -> ->. assert (Hi : in_flight (rt_log v0) i q (rt_prog v0 i)) by (apply Fl; rewrite Hc; reflexivity). rewrite Hp in Hi.
           destruct (return_stage _ _ _ _ Hi) as (m & L & A & Hd). exists m, r. split; [exact L|]. split; [apply at_app; exact A|]. split; [apply handled_app; [lia|exact Hd]|reflexivity].
      * apply calls_snoc; [exact Ca|discriminate].
      * intro j. rewrite Ato. destruct (Nat.eq_dec j i) as [->|Nj].
        -- rewrite set_conn_same, Nat.eqb_refl. pose proof (Co i) as Ci. rewrite Hc in Ci.
           eapply (move_ok unit (fun st _ => (st, proxy_answer q r))); [exact Ci|]. apply (M_handle (fun (st : unit) (_ : srequest) => (st, proxy_answer q r)) tt).
        -- rewrite set_conn_other by exact Nj. rewrite (proj2 (Nat.eqb_neq i j)) by congruence. rewrite app_nil_r. apply Co.
      * apply Oth with (w1 := rt_world v0); [exact I|exact Ow|reflexivity].
    + split; [|split; [exact An|split; [exact Ca|split; [|exact Ow]]]].
      * intros j q H. cbn [rt_conns rt_log rt_prog] in *. destruct (Nat.eq_dec j i) as [->|Nj]; [rewrite set_conn_same in H; unfold calling in Cl; rewrite H in Cl; discriminate Cl|].
        rewrite set_conn_other in H by exact Nj. apply Fl. exact H.
      * intro j. destruct (Nat.eq_dec j i) as [->|Nj]; [rewrite set_conn_same|rewrite set_conn_other by exact Nj; apply Co].
        rewrite <- (app_nil_r (answers_to i (rt_log v0))). eapply move_ok; [apply Co|exact Mv].
    + split; [|split; [|split; [|split]]].
      * intros j q' H. cbn [rt_conns rt_log rt_prog] in *. apply in_flight_snoc; [discriminate|apply Fl; exact H].
      * apply answers_snoc; [exact An|discriminate].
      * apply calls_snoc; [exact Ca|discriminate].
      * intro j. rewrite Ato, app_nil_r. apply Co.
      * intro id. eapply one_app; [apply Ow|]. apply O_time. constructor.
Qed.
End Inv.

(** ** C76 *)

(** Every request that has been answered made its one call on the primary, and a set that succeeded there its
    one call on the secondary, after it was read and before it was answered; the answer is the result of the
    last call. *)
Theorem C76_requests_take_effect_once : forall ST (step : ST -> op -> ST * outcome result) later ps ss pn sn w streams v,
  two_rings ps ss pn sn -> rtsteps step later pn sn (router_started w streams) v ->
  forall n i q r, at_ (rt_log v) n (EAnswer i q r) ->
  exists m r0, (m < n)%nat /\ at_ (rt_log v) m (ERead i q) /\ handled pn sn (rt_log v) i q m n r0 /\ r = proxy_answer q r0.
Proof. intros ST step later ps ss pn sn w streams v R Sv. apply (steps_inv step later pn sn ps ss R w streams v Sv). Qed.
Print Assumptions C76_requests_take_effect_once.

(** Every backend executed the calls on it one at a time, in the order of the log; nothing else touched it. *)
Theorem C76_backends_execute_one_call_at_a_time : forall ST (step : ST -> op -> ST * outcome result) later ps ss pn sn w streams v,
  two_rings ps ss pn sn -> rtsteps step later pn sn (router_started w streams) v ->
  forall id, one_at_a_time step later id (w id) (rt_log v) (rt_world v id).
Proof. intros ST step later ps ss pn sn w streams v R Sv. apply (steps_inv step later pn sn ps ss R w streams v Sv). Qed.
Print Assumptions C76_backends_execute_one_call_at_a_time.

(** Every client gets, in the order of its requests, the replies to the answers its requests got, and is
    otherwise treated as if it were alone (as C62). *)
Theorem C76_clients_get_their_answers : forall ST (step : ST -> op -> ST * outcome result) later ps ss pn sn w streams v i,
  two_rings ps ss pn sn -> rtsteps step later pn sn (router_started w streams) v ->
  exists st' l ft more, serve_conn replay (map snd (answers_to i (rt_log v))) (streams i) = (st', l, ft)
    /\ map fst (answers_to i (rt_log v)) = firstn (length (answers_to i (rt_log v))) (map sd_req l)
    /\ replies l = sc_out (rt_conns v i) ++ more
    /\ (forall ft', sc_phase (rt_conns v i) = Over ft' -> ft = ft' /\ more = [] /\ map sd_req l = map fst (answers_to i (rt_log v))).
Proof. intros ST step later ps ss pn sn w streams v i R Sv. apply as_if_alone. apply (steps_inv step later pn sn ps ss R w streams v Sv). Qed.
Print Assumptions C76_clients_get_their_answers.

(** And no other call is ever made: every call on a backend is the first call of a request read before it and
    not yet answered, or the call on the secondary that follows a success on the primary. *)
Theorem C76_no_other_calls : forall ST (step : ST -> op -> ST * outcome result) later ps ss pn sn w streams v,
  two_rings ps ss pn sn -> rtsteps step later pn sn (router_started w streams) v ->
  forall c i sv o a, at_ (rt_log v) c (ECall i sv o a) ->
  exists m q, (m < c)%nat /\ at_ (rt_log v) m (ERead i q)
    /\ ((quiet (rt_log v) i m c /\ pick pn (q_key q) = Ok sv /\ ((q_opcode q = OpcGet /\ o = OGet (q_key q)) \/ exists so, q_opcode q = OpcSet /\ q_set q = Some so /\ o = OSet (proxy_item q so)))
        \/ exists c1 p so x, (m < c1 < c)%nat /\ quiet (rt_log v) i m c1 /\ quiet (rt_log v) i c1 c /\ q_opcode q = OpcSet /\ q_set q = Some so /\ pick pn (q_key q) = Ok p
             /\ at_ (rt_log v) c1 (ECall i p (OSet (proxy_item q so)) (Ok x)) /\ pick sn (q_key q) = Ok sv /\ o = OSet (proxy_item q so)).
Proof. intros ST step later ps ss pn sn w streams v R Sv. apply (steps_inv step later pn sn ps ss R w streams v Sv). Qed.
Print Assumptions C76_no_other_calls.

(** Without others it is the handler of Proxy.v. *)
Theorem C76_alone_it_is_the_proxy : forall ST (step : ST -> op -> ST * outcome result) pn sn w q,
  proxy step pn sn w q = (fst (exec step (proxy_prog pn sn q) w), proxy_answer q (snd (exec step (proxy_prog pn sn q) w))).
Proof.
  intros ST step pn sn w q. unfold proxy, proxy_prog, proxy_answer. destruct (q_opcode q); try reflexivity. destruct (q_set q) as [o|]; reflexivity.
Qed.
Print Assumptions C76_alone_it_is_the_proxy.

(** ** A run *)
(** Choices of a scheduler, and what they do when they are possible. *)
Inductive choice := CAccept (i : nat) | CRead (i : nat) | CCall (i : nat) | CReturn (i : nat) | CReply (i : nat) | CTime (d : Z).
Section Runs.
Context {ST : Type}.
Variable step : ST -> op -> ST * outcome result.
Variable later : ST -> Z -> ST.
Variable pn sn : list node.
Definition choose (v : router_state ST) (a : choice) : option (router_state ST) :=
  if rt_down v then None else
  match a with
  | CAccept i => match rt_listening v, rt_conns v i with
      | true, mkSC s p Offered out => Some (mkRt (rt_world v) (set_conn (rt_conns v) i (mkSC s p Reading out)) (rt_prog v) (rt_log v) true false)
      | _, _ => None end
  | CRead i => match rt_conns v i with
      | mkSC s p Reading out => match read_request p s with
          | ((Ok q, s'), p') => Some (mkRt (rt_world v) (set_conn (rt_conns v) i (mkSC s' p' (Calling q) out)) (set_prog (rt_prog v) i (proxy_prog pn sn q)) (rt_log v ++ [ERead i q]) (rt_listening v) false)
          | _ => None end
      | _ => None end
  | CCall i => match rt_conns v i, rt_prog v i with
      | mkSC s p (Calling q) out, Call sv o k => let wr := server_call step (rt_world v) sv o in
          Some (mkRt (fst wr) (rt_conns v) (set_prog (rt_prog v) i (k (snd wr))) (rt_log v ++ [ECall i sv o (snd wr)]) (rt_listening v) false)
      | _, _ => None end
  | CReturn i => match rt_conns v i, rt_prog v i with
      | mkSC s p (Calling q) out, Ret r => Some (mkRt (rt_world v) (set_conn (rt_conns v) i (mkSC s p (Answered q (proxy_answer q r)) out)) (rt_prog v)
               (rt_log v ++ [EAnswer i q (proxy_answer q r)]) (rt_listening v) false)
      | _, _ => None end
  | CReply i => match rt_conns v i with
      | mkSC s (Some p) (Answered q (Ok res)) out => match write_response p q res with
          | Ok b => Some (mkRt (rt_world v) (set_conn (set_conn (set_conn (rt_conns v) i (mkSC s (Some p) (Writing b) out)) i (mkSC s (Some p) (Writing []) (out ++ b))) i (mkSC s (Some p) Reading (out ++ b))) (rt_prog v) (rt_log v) (rt_listening v) false)
          | _ => None end
      | _ => None end
  | CTime d => if 0 <=? d then Some (mkRt (fun n => later (rt_world v n) d) (rt_conns v) (rt_prog v) (rt_log v ++ [ETime d]) (rt_listening v) false) else None
  end.
Fixpoint chosen (v : router_state ST) (l : list choice) : option (router_state ST) :=
  match l with [] => Some v | a :: l' => match choose v a with Some u => chosen u l' | None => None end end.
Lemma mv : forall v0 v i x', rtsteps step later pn sn v0 v -> rt_down v = false -> move no_handler tt (rt_conns v i) tt x' [] -> calling x' = false -> crashed x' = false ->
  rtsteps step later pn sn v0 (mkRt (rt_world v) (set_conn (rt_conns v) i x') (rt_prog v) (rt_log v) (rt_listening v) false).
Proof. intros v0 v i x' Sv Dn M C Cr. eapply rt_step; [exact Sv|]. rewrite <- Cr. apply Rt_move; assumption. Qed.
Lemma choose_ok : forall v0 v a u, choose v a = Some u -> rtsteps step later pn sn v0 v -> rtsteps step later pn sn v0 u.
Proof.
  intros v0 v a u H Sv. unfold choose in H. destruct (rt_down v) eqn:Dn; [discriminate H|]. destruct a as [i|i|i|i|i|d].
  - destruct (rt_listening v) eqn:Ls; [|discriminate H]. destruct (rt_conns v i) as [s p [] out] eqn:Hc; try discriminate H. injection H as <-. eapply rt_step; [exact Sv|]. apply Rt_accept; assumption.
  - destruct (rt_conns v i) as [s p [] out] eqn:Hc; try discriminate H. destruct (read_request p s) as [[[q| |] s'] p'] eqn:E; try discriminate H. injection H as <-. eapply rt_step; [exact Sv|].
    apply Rt_read; [exact Dn| |reflexivity]. rewrite Hc. apply M_read. exact E.
  - destruct (rt_conns v i) as [s p [] out] eqn:Hc; try discriminate H. destruct (rt_prog v i) as [|sv o k] eqn:Hp; try discriminate H. injection H as <-. eapply rt_step; [exact Sv|].
    eapply Rt_call; eassumption.
  - destruct (rt_conns v i) as [s p [] out] eqn:Hc; try discriminate H. destruct (rt_prog v i) as [r|] eqn:Hp; try discriminate H. injection H as <-. eapply rt_step; [exact Sv|].
    eapply Rt_return; eassumption.
  - destruct (rt_conns v i) as [s p ph out] eqn:Hc. destruct p as [p|]; [|destruct ph as [| | |q r| | |]; discriminate H]. destruct ph as [| | |q r| | |]; try discriminate H. destruct r as [res| |]; try discriminate H.
    destruct (write_response p q res) as [b| |] eqn:E; try discriminate H. injection H as <-.
    assert (S1 := mv v0 v i (mkSC s (Some p) (Writing b) out) Sv Dn ltac:(rewrite Hc; apply M_reply; exact E) eq_refl eq_refl).
    assert (S2 := fun M => mv _ _ i (mkSC s (Some p) (Writing []) (out ++ b)) S1 eq_refl M eq_refl eq_refl). cbn [rt_world rt_conns rt_prog rt_log rt_listening] in S2.
    assert (M2 : move no_handler tt (set_conn (rt_conns v) i (mkSC s (Some p) (Writing b) out) i) tt (mkSC s (Some p) (Writing []) (out ++ b)) []).
    { rewrite set_conn_same. rewrite <- (app_nil_r b) at 1. apply M_write. }
    specialize (S2 M2). apply (mv _ _ i (mkSC s (Some p) Reading (out ++ b)) S2); try reflexivity. cbn [rt_conns]. rewrite set_conn_same. apply M_written.
  - destruct (0 <=? d) eqn:D; [|discriminate H]. injection H as <-. eapply rt_step; [exact Sv|]. apply Rt_time; [exact Dn|]. apply Z.leb_le. exact D.
Qed.
Lemma chosen_ok : forall l v0 v u, chosen v l = Some u -> rtsteps step later pn sn v0 v -> rtsteps step later pn sn v0 u.
Proof.
  induction l as [|a l IH]; intros v0 v u H Sv; cbn in H; [injection H as <-; exact Sv|]. destruct (choose v a) as [x|] eqn:E; [|discriminate H]. eapply IH; [exact H|]. eapply choose_ok; eassumption.
Qed.
End Runs.
Lemma rtsteps_ext : forall ST (step : ST -> op -> ST * outcome result) later pn sn pn' sn' v u, (forall q, proxy_prog pn sn q = proxy_prog pn' sn' q) ->
  rtsteps step later pn sn v u -> rtsteps step later pn' sn' v u.
Proof.
  intros ST step later pn sn pn' sn' v u E H. induction H as [|v u t H IH St]; [constructor|]. eapply rt_step; [exact IH|].
  destruct St; [apply Rt_accept; assumption|apply Rt_accept_fails; assumption|rewrite E; apply Rt_read; assumption|eapply Rt_call; eassumption|eapply Rt_return; eassumption|apply Rt_move; assumption|apply Rt_time; assumption].
Qed.
Lemma proxy_prog_ab : forall q, proxy_prog (one sv_a) (one sv_b) q = proxy_prog prim_a sec_b q.
Proof. intro q. unfold proxy_prog. destruct (q_opcode q); try reflexivity; [|destruct (q_set q); [|reflexivity]]; symmetry; apply prog_one. Qed.
Definition ab_run (w : world link) (streams : nat -> bytes) (l : list choice) : option (router_state link) :=
  chosen meta_server link_tick (one sv_a) (one sv_b) (router_started w streams) l.
Lemma ab_run_ok : forall w streams l v, ab_run w streams l = Some v -> rtsteps meta_server link_tick prim_a sec_b (router_started w streams) v.
Proof. intros w streams l v H. eapply rtsteps_ext; [apply proxy_prog_ab|]. eapply chosen_ok; [exact H|constructor]. Qed.
Lemma ran : forall w streams l (P : router_state link -> Prop), match ab_run w streams l with Some v => P v | None => False end ->
  exists v, rtsteps meta_server link_tick prim_a sec_b (router_started w streams) v /\ P v.
Proof. intros w streams l P H. destruct (ab_run w streams l) as [v|] eqn:E; [|contradiction]. exists v. split; [eapply ab_run_ok; exact E|exact H]. Qed.

(** Client 0 sets x while client 1 gets it: the get comes between the two calls of the set. *)
Definition set_and_get (i : nat) : bytes := match i with 0%nat => B "set x 0 0 1" ++ crlf ++ B "5" ++ crlf | 1%nat => B "get x" ++ crlf | _ => [] end.
Example C76_met : two_rings [sv_a] [sv_b] prim_a sec_b
  /\ exists v, rtsteps meta_server link_tick prim_a sec_b (router_started new_memcacheds set_and_get) v
     /\ (exists q s a, q_opcode q = OpcSet /\ s = OSet (mkItem (B "x") (B "5") (Some (be 4 0)) 0 0 []) /\ a = RItem (mkItem (B "x") (B "5") (Some (be 4 0)) (-1) 1 []) /\
         rt_log v = [ERead 0 q; ERead 1 (key_req OpcGet (B "x")); ECall 0 sv_a s (Ok RUnit); ETime 3; ECall 1 sv_a (OGet (B "x")) (Ok a);
                     EAnswer 1 (key_req OpcGet (B "x")) (Ok [mkRes (B "x") None None (B "5") 0 0]); ECall 0 sv_b s (Ok RUnit); EAnswer 0 q (Ok [empty_response])])
     /\ sc_out (rt_conns v 0) = B "STORED" ++ crlf
     /\ sc_out (rt_conns v 1) = B "VALUE x 0 1" ++ crlf ++ B "5" ++ crlf ++ B "END" ++ crlf.
Proof.
  split; [apply rings_a_b|].
  apply (ran _ _ [CAccept 0; CAccept 1; CRead 0; CRead 1; CCall 0; CTime 3; CCall 1; CReturn 1; CReply 1; CCall 0; CReturn 0; CReply 0]).
  set (r := ab_run _ _ _). vm_compute in r. subst r. cbn [rt_log rt_conns]. 
  split; [|split; [vm_compute; reflexivity|vm_compute; reflexivity]].
  eexists. eexists. eexists. split; [|split; [|split; [|reflexivity]]]; reflexivity.
Qed.
