(** * C77: the router is linearizable: its answers are those of one request at a time. *)
From Verif Require Import GoBytes GoNum GoIO Item ClientText ClientMeta Cache Daemon Spec Call Guard Hash Ring RingSpec RingData Pool PoolSpec Replica ReplicaSpec
  ServerTypes ServerParse ServerWrite Serve ServerConc ServerSpec Proxy RouterConc PLib PDaemon PCache PMeta PClient PRing PPool PMulti PReplica PServer PServe PropServer PropServerConc PropReplica PropProxy PropRouter.
Local Open Scope Z_scope.

(** ** Definitions of the statements *)

Definition is_request (i : nat) (e : rtevent) : bool := match e with ERead j _ | EAnswer j _ _ => Nat.eqb j i | _ => false end.
(** Connection [i] sent nothing to the handler and got nothing from it strictly between two moments. *)
Definition idle (log : list rtevent) (i m n : nat) : Prop := forall x e, (m < x < n)%nat -> at_ log x e -> is_request i e = false.
(** Request [q] of connection [i] was read at [m] and answered with [r] at [n]. *)
Definition answered (log : list rtevent) (i : nat) (q : srequest) (m n : nat) (r : answer_of) : Prop :=
  (m < n)%nat /\ at_ log m (ERead i q) /\ at_ log n (EAnswer i q r) /\ idle log i m n.
(** What began at [a], a request or the passing of time, was over at [n]. *)
Definition ends (log : list rtevent) (a n : nat) : Prop :=
  (exists d, at_ log a (ETime d) /\ n = a) \/ exists i q r, answered log i q a n r.

(** One thing at a time: requests, known by the moments they were read, and the passing of time. *)
Inductive sevent := SReq (m : nat) (q : srequest) | SWait (m : nat) (d : Z).
Definition moment (e : sevent) : nat := match e with SReq m _ | SWait m _ => m end.
Fixpoint one_by_one (pn sn : list node) (w : world link) (l : list sevent) : world link * list (nat * answer_of) :=
  match l with
  | [] => (w, [])
  | SReq m q :: l' => let wr := router pn sn w q in let x := one_by_one pn sn (fst wr) l' in (fst x, (m, snd wr) :: snd x)
  | SWait _ d :: l' => one_by_one pn sn (all_tick w d) l'
  end.
Definition before (l : list nat) (a b : nat) : Prop := exists l1 l2 l3, l = l1 ++ a :: l2 ++ b :: l3.

(** Sets the secondaries accept: legal, without a cas number, and not too large for them. *)
Definition plain_sets (ss : list server) (w : world link) (log : list rtevent) : Prop :=
  forall m i q o, at_ log m (ERead i q) -> q_opcode q = OpcSet -> q_set q = Some o ->
  legal_item PMeta (proxy_item q o) /\ s_cas_value o = 0 /\ forall s, In s ss -> zlen (q_value q) <= cf_limit (c_cfg (l_cache (w (sv_id s)))).

(** ** Lists *)
Lemma one_by_one_app : forall pn sn a w b, one_by_one pn sn w (a ++ b)
  = (fst (one_by_one pn sn (fst (one_by_one pn sn w a)) b), snd (one_by_one pn sn w a) ++ snd (one_by_one pn sn (fst (one_by_one pn sn w a)) b)).
Proof.
  induction a as [|[m q|m d] a IH]; intros w b; cbn [app one_by_one fst snd]; [apply surjective_pairing| |apply IH].
  rewrite IH. reflexivity.
Qed.
Lemma one_by_one_moments : forall pn sn l w m r, In (m, r) (snd (one_by_one pn sn w l)) -> In m (map moment l).
Proof.
  induction l as [|[x q|x d] l IH]; intros w m r H; cbn [one_by_one snd map moment] in *; [exact H| |right; eapply IH; exact H].
  destruct H as [H|H]; [left; congruence|right; eapply IH; exact H].
Qed.
Lemma before_snoc : forall l a b, In a l -> before (l ++ [b]) a b.
Proof. intros l a b H. apply in_split in H. destruct H as (l1 & l2 & ->). exists l1, l2, []. rewrite <- app_assoc. reflexivity. Qed.
Lemma before_app : forall l k a b, before l a b -> before (l ++ k) a b.
Proof. intros l k a b (l1 & l2 & l3 & ->). exists l1, l2, (l3 ++ k). rewrite <- app_assoc. cbn [app]. rewrite <- app_assoc. reflexivity. Qed.

Lemma idle_app : forall log l i m n, (n <= length log)%nat -> idle log i m n -> idle (log ++ l) i m n.
Proof. intros log l i m n L Q x e R A. apply (Q x e R). eapply at_old; [lia|exact A]. Qed.
Lemma idle_old : forall log l i m n, idle (log ++ l) i m n -> idle log i m n.
Proof. intros log l i m n Q x e R A. apply (Q x e R). apply at_app. exact A. Qed.
Lemma idle_snoc : forall log e i m, is_request i e = false -> idle log i m (length log) -> idle (log ++ [e]) i m (S (length log)).
Proof. intros log e i m N Q x y R A. apply at_snoc in A. destruct A as [A|[_ ->]]; [|exact N]. apply (Q x y); [|exact A]. pose proof (at_lt _ _ _ A). lia. Qed.
Lemma answered_app : forall log l i q m n r, answered log i q m n r -> answered (log ++ l) i q m n r.
Proof. intros log l i q m n r (A & B' & C & D). pose proof (at_lt _ _ _ C). split; [exact A|]. split; [apply at_app; exact B'|]. split; [apply at_app; exact C|]. apply idle_app; [lia|exact D]. Qed.
Lemma answered_old : forall log l i q m n r, (n < length log)%nat -> answered (log ++ l) i q m n r -> answered log i q m n r.
Proof. intros log l i q m n r L (A & B' & C & D). split; [exact A|]. split; [eapply at_old; [|exact B']; lia|]. split; [eapply at_old; [|exact C]; lia|]. eapply idle_old. exact D. Qed.
Lemma answered_snoc : forall log e i q m n r, answered (log ++ [e]) i q m n r -> answered log i q m n r \/ (n = length log /\ e = EAnswer i q r /\ at_ log m (ERead i q) /\ idle log i m (length log)).
Proof.
  intros log e i q m n r H. destruct H as (A & B' & C & D). pose proof C as C'. apply at_snoc in C'. destruct C' as [C'|[-> C']].
  - left. apply answered_old with (l := [e]); [eapply at_lt; exact C'|]. repeat split; assumption.
  - right. split; [reflexivity|]. split; [congruence|]. split; [eapply at_old; [|exact B']; lia|eapply idle_old; exact D].
Qed.
Lemma at_fun : forall log n e e', at_ log n e -> at_ log n e' -> e = e'.
Proof. intros log n e e' A A'. unfold at_ in *. congruence. Qed.

(** ** A plain set on a memcached *)
Lemma plain_set_ok : forall c h i, wf PMeta c -> c_cas c < 2 ^ 63 -> legal_item PMeta i -> it_cas i = 0 -> zlen (it_value i) <= cf_limit (c_cfg c) ->
  meta_server (fresh_link c h) (OSet i) = (fresh_link (stored c i) h, Ok RUnit).
Proof.
  intros c h i W C L K V. destruct (meta_answers c h (OSet i) (it_key i) W C L eq_refl eq_refl) as (out & E & [A|[A _]]); [|discriminate A].
  assert (S1 : snd (spec_step PMeta [] c (OSet i)) = SOk RUnit).
  { cbn [spec_step snd]. rewrite K. unfold cache_set, too_large. replace (cf_limit (c_cfg c) <? zlen (it_value i)) with false by (symmetry; apply Z.ltb_ge; exact V). reflexivity. }
  rewrite E. rewrite (store_effect c (OSet i) i ltac:(left; reflexivity) ltac:(eexists; exact S1)). rewrite S1 in A. destruct out; cbn in A; try contradiction. subst. reflexivity.
Qed.

Section Lin.
Variables (ps ss : list server) (pn sn : list node).
Hypothesis R : two_rings ps ss pn sn.
Variable w : world link.

(** The secondaries are idle memcacheds. *)
Definition sec_ok (n : nat) (w1 : world link) : Prop :=
  forall s, In s ss -> exists c h, w1 (sv_id s) = fresh_link c h /\ wf PMeta c /\ c_cfg c = c_cfg (l_cache (w (sv_id s))) /\ c_cas c <= c_cas (l_cache (w (sv_id s))) + Z.of_nat n.
Definition room (n : nat) : Prop := forall s, In s ss -> c_cas (l_cache (w (sv_id s))) + Z.of_nat n < 2 ^ 63.

Lemma sec_ok_le : forall n m w1, (n <= m)%nat -> sec_ok n w1 -> sec_ok m w1.
Proof. intros n m w1 L H s Is. destruct (H s Is) as (c & h & A & W & F & C). exists c, h. split; [exact A|]. split; [exact W|]. split; [exact F|lia]. Qed.
Lemma sec_ok_tick : forall n w1 d, 0 <= d -> sec_ok n w1 -> sec_ok n (fun i => link_tick (w1 i) d).
Proof.
  intros n w1 d D H s Is. destruct (H s Is) as (c & h & A & W & F & C). exists (tick c d), h. rewrite A. split; [reflexivity|]. split; [apply wf_tick; assumption|]. split; assumption.
Qed.
Lemma sec_ok_primary : forall n w1 p l, In p ps -> sec_ok n w1 -> sec_ok n (upd w1 (sv_id p) l).
Proof.
  intros n w1 p l Ip H s Is. destruct (H s Is) as (c & h & A). exists c, h. rewrite upd_other; [exact A|]. intro Q. apply (apart _ _ _ _ R p s Ip Is). congruence.
Qed.
Lemma sec_ok_set : forall n w1 s i, room (S n) -> In s ss -> sec_ok n w1 -> legal_item PMeta i -> it_cas i = 0 -> zlen (it_value i) <= cf_limit (c_cfg (l_cache (w (sv_id s)))) ->
  snd (meta_server (w1 (sv_id s)) (OSet i)) = Ok RUnit /\ sec_ok (S n) (upd w1 (sv_id s) (fst (meta_server (w1 (sv_id s)) (OSet i)))).
Proof.
  intros n w1 s i Rm Is H L K V. destruct (H s Is) as (c & h & A & W & F & C). specialize (Rm s Is).
  rewrite A, (plain_set_ok c h i W ltac:(lia) L K ltac:(rewrite F; exact V)). split; [reflexivity|]. cbn [fst]. intros s' Is'.
  destruct (Nat.eq_dec (sv_id s') (sv_id s)) as [Q|Q].
  - rewrite Q, upd_same. exists (stored c i), h. split; [reflexivity|]. split.
    + replace (stored c i) with (step1 c (OSet i)); [apply wf_spec_step; assumption|]. apply store_effect; [left; reflexivity|].
      exists RUnit. cbn [spec_step snd]. rewrite K. unfold cache_set, too_large. replace (cf_limit (c_cfg c) <? zlen (it_value i)) with false by (symmetry; apply Z.ltb_ge; rewrite F; exact V). reflexivity.
    + split; [exact F|]. change (c_cas (stored c i)) with (c_cas c + 1). lia.
  - rewrite upd_other by exact Q. destruct (H s' Is') as (c' & h' & A' & W' & F' & C'). exists c', h'. split; [exact A'|]. split; [exact W'|]. split; [exact F'|lia].
Qed.

(** Where a request is that was read at [m], when [prog] is left of it and the events [l] have been put in order. *)
Inductive place (l : list sevent) (q : srequest) (m : nat) : prog -> Prop :=
| P_start : passed_on (q_opcode q) = true -> (q_opcode q = OpcSet -> q_set q <> None) -> ~ In m (map moment l) -> place l q m (proxy_prog pn sn q)
| P_between : forall s o, q_opcode q = OpcSet -> q_set q = Some o -> pick sn (q_key q) = Ok s -> In (m, Ok [empty_response]) (snd (one_by_one pn sn w l)) ->
    place l q m (Call s (OSet (proxy_item q o)) Ret)
| P_done : forall r, In (m, proxy_answer q r) (snd (one_by_one pn sn w l)) -> place l q m (Ret r).
Definition flight (log : list rtevent) (l : list sevent) (i : nat) (q : srequest) (p : prog) : Prop :=
  exists m, at_ log m (ERead i q) /\ idle log i m (length log) /\ place l q m p.

Record lin (v : router_state link) (l : list sevent) : Prop := {
  l_req : forall m q, In (SReq m q) l -> exists i, at_ (rt_log v) m (ERead i q);
  l_wait : forall m d, In (SWait m d) l <-> at_ (rt_log v) m (ETime d);
  l_once : NoDup (map moment l);
  l_short : (length l <= length (rt_log v))%nat;
  l_prim : forall p, In p ps -> fst (one_by_one pn sn w l) (sv_id p) = rt_world v (sv_id p);
  l_seq : sec_ok (length (rt_log v)) (fst (one_by_one pn sn w l));
  l_con : sec_ok (length (rt_log v)) (rt_world v);
  l_flight : forall i q, sc_phase (rt_conns v i) = Calling q -> flight (rt_log v) l i q (rt_prog v i);
  l_ans : forall m n i q r, answered (rt_log v) i q m n r -> In (m, r) (snd (one_by_one pn sn w l));
  l_order : forall a n b, ends (rt_log v) a n -> (n < b)%nat -> In b (map moment l) -> before (map moment l) a b
}.

Lemma moment_lt : forall v l m, lin v l -> In m (map moment l) -> (m < length (rt_log v))%nat.
Proof.
  intros v l m L H. apply in_map_iff in H. destruct H as ([x q|x d] & <- & H); cbn [moment].
  - destruct (l_req _ _ L x q H) as [i A]. eapply at_lt. exact A.
  - apply (l_wait _ _ L) in H. eapply at_lt. exact H.
Qed.
Lemma ended_in : forall v l a n, lin v l -> ends (rt_log v) a n -> In a (map moment l).
Proof.
  intros v l a n L [(d & A & _)|(i & q & r & A)]; [apply (l_wait _ _ L) in A; apply (in_map moment) in A; exact A|]. eapply one_by_one_moments. eapply (l_ans _ _ L). exact A.
Qed.
Lemma place_more : forall l e q m p, (moment e <> m) -> place l q m p -> place (l ++ [e]) q m p.
Proof.
  intros l e q m p N H. assert (X : forall r, In (m, r) (snd (one_by_one pn sn w l)) -> In (m, r) (snd (one_by_one pn sn w (l ++ [e])))).
  { intros r Hr. rewrite one_by_one_app. cbn [snd]. apply in_or_app. left. exact Hr. }
  destruct H; [apply P_start; [assumption|assumption|]|eapply P_between; eauto|apply P_done; auto].
  rewrite map_app. intro Q. apply in_app_or in Q. destruct Q as [Q|[Q|[]]]; [contradiction|]. cbn in Q. congruence.
Qed.
Lemma flight_more : forall log l e x i q p, is_request i e = false -> (forall y, x = Some y -> forall m, at_ log m (ERead i q) -> moment y <> m) ->
  flight log l i q p -> flight (log ++ [e]) (l ++ match x with Some y => [y] | None => [] end) i q p.
Proof.
  intros log l e x i q p N X (m & A & I' & P). exists m. split; [apply at_app; exact A|]. split; [rewrite app_length; cbn [length]; rewrite Nat.add_1_r; apply idle_snoc; assumption|].
  destruct x as [y|]; [apply place_more; [eapply X; [reflexivity|exact A]|exact P]|rewrite app_nil_r; exact P].
Qed.

(** The order grows as the log does. *)
Lemma order_more : forall v l log' e x, lin v l -> log' = rt_log v ++ [e] ->
  (forall y, x = Some y -> ~ In (moment y) (map moment l) /\ (forall n, ends (rt_log v) (moment y) n -> False)) ->
  (match e with EAnswer _ _ _ => False | _ => True end) ->
  forall a n b, ends log' a n -> (n < b)%nat -> In b (map moment (l ++ match x with Some y => [y] | None => [] end)) -> (b <= length (rt_log v))%nat ->
  before (map moment (l ++ match x with Some y => [y] | None => [] end)) a b.
Proof.
  intros v l log' e x L -> X Ne a n b En Lt Ib Lb.
  assert (En' : ends (rt_log v) a n).
  { destruct En as [(d & A & ->)|(i & q & r & A)].
    - left. exists d. split; [|reflexivity]. eapply at_old; [|exact A]. lia.
    - right. exists i, q, r. apply answered_snoc in A. destruct A as [A|(_ & -> & _)]; [exact A|contradiction]. }
  destruct x as [y|]; [|rewrite app_nil_r in *; eapply (l_order _ _ L); eassumption].
  rewrite map_app in *. cbn [map] in *. apply in_app_or in Ib. destruct Ib as [Ib|[<-|[]]].
  - apply before_app. eapply (l_order _ _ L); eassumption.
  - apply before_snoc. eapply ended_in; eassumption.
Qed.

Lemma router_alone : forall w1 q, router pn sn w1 q = (fst (exec meta_server (proxy_prog pn sn q) w1), proxy_answer q (snd (exec meta_server (proxy_prog pn sn q) w1))).
Proof. intros. apply C76_alone_it_is_the_proxy. Qed.

(** Nothing happens but in the connections. *)
Lemma lin_still : forall v l conns ls dn, lin v l -> (forall i q, sc_phase (conns i) = Calling q -> sc_phase (rt_conns v i) = Calling q) ->
  lin (mkRt (rt_world v) conns (rt_prog v) (rt_log v) ls dn) l.
Proof.
  intros v l conns ls dn L H. destruct L. constructor; cbn [rt_world rt_conns rt_prog rt_log]; try assumption. intros i q C. apply l_flight0. apply H. exact C.
Qed.

Lemma lin_step : forall v l u, lin v l -> room (S (length (rt_log v))) -> rtstep meta_server link_tick pn sn v u -> plain_sets ss w (rt_log u) -> exists l', lin u l'.
Proof.
  intros v l u L Rm St Pl.
  destruct St as [v i s p out Dn Ls Hc|v Dn Ls|v i x' q Dn Mv Ph|v i s p out q sv o k Dn Hc Hp|v i s p out q r Dn Hc Hp|v i x' Dn Mv Cl|v d Dn D].
  - exists l. apply lin_still; [exact L|]. intros j q H. destruct (Nat.eq_dec j i) as [->|Nj]; [rewrite set_conn_same in H; discriminate H|rewrite set_conn_other in H by exact Nj; exact H].
  - exists l. apply lin_still; [exact L|auto].
  - (* a request is read *)
    assert (Other : forall j q' y, j <> i -> (forall e, y = Some e -> moment e = length (rt_log v)) -> sc_phase (set_conn (rt_conns v) i x' j) = Calling q' ->
              flight (rt_log v ++ [ERead i q]) (l ++ match y with Some e => [e] | None => [] end) j q' (set_prog (rt_prog v) i (proxy_prog pn sn q) j)).
    { intros j q' y Nj Y H. rewrite set_conn_other in H by exact Nj. rewrite set_prog_other by exact Nj. apply flight_more; [cbn; apply Nat.eqb_neq; congruence| |apply (l_flight _ _ L); exact H].
      intros e Ey m A. rewrite (Y e Ey). pose proof (at_lt _ _ _ A). lia. }
    assert (Idle : idle (rt_log v ++ [ERead i q]) i (length (rt_log v)) (length (rt_log v ++ [ERead i q]))).
    { intros z e Rz. rewrite app_length in Rz. cbn in Rz. lia. }
    assert (Ans : forall m n j q' r, answered (rt_log v ++ [ERead i q]) j q' m n r -> answered (rt_log v) j q' m n r).
    { intros m n j q' r A. apply answered_snoc in A. destruct A as [A|(_ & A & _)]; [exact A|discriminate A]. }
    destruct (andb (passed_on (q_opcode q)) (match q_opcode q, q_set q with OpcSet, None => false | _, _ => true end)) eqn:Ok1.
    + apply andb_true_iff in Ok1. destruct Ok1 as [Ps Os]. exists l. constructor; cbn [rt_world rt_conns rt_prog rt_log].
      * intros m q' H. destruct (l_req _ _ L m q' H) as [j A]. exists j. apply at_app. exact A.
      * intros m d. rewrite (l_wait _ _ L). split; [apply at_app|]. intro A. apply at_snoc in A. destruct A as [A|[_ A]]; [exact A|discriminate A].
      * apply L.
      * rewrite app_length. cbn [length]. pose proof (l_short _ _ L). lia.
      * apply L.
      * eapply sec_ok_le; [|apply (l_seq _ _ L)]. rewrite app_length. lia.
      * eapply sec_ok_le; [|apply (l_con _ _ L)]. rewrite app_length. lia.
      * intros j q' H. destruct (Nat.eq_dec j i) as [->|Nj]; [|specialize (Other j q' None Nj ltac:(discriminate) H); rewrite app_nil_r in Other; exact Other].
        rewrite set_conn_same, Ph in H. injection H as <-. rewrite set_prog_same. exists (length (rt_log v)). split; [apply at_last|]. split; [exact Idle|].
        apply P_start; [exact Ps|intros Oq Qn; rewrite Oq, Qn in Os; discriminate Os|]. intro Q. pose proof (moment_lt _ _ _ L Q). lia.
      * intros m n j q' r A. apply (l_ans _ _ L m n j q' r). apply Ans. exact A.
      * intros a n b En Lt Ib. pose proof (order_more v l _ (ERead i q) None L eq_refl ltac:(discriminate) Logic.I a n b En Lt) as O. rewrite app_nil_r in O. apply O; [exact Ib|]. pose proof (moment_lt _ _ _ L Ib). lia.
    + assert (Alone : exists r, proxy_prog pn sn q = Ret r /\ forall w1, router pn sn w1 q = (w1, proxy_answer q r)).
      { assert (X : exists r, proxy_prog pn sn q = Ret r).
        { unfold proxy_prog. destruct (q_opcode q); try (eexists; reflexivity); [discriminate Ok1|]. destruct (q_set q); [discriminate Ok1|]. eexists; reflexivity. }
        destruct X as [r X]. exists r. split; [exact X|]. intro w1. rewrite router_alone, X. reflexivity. }
      destruct Alone as (r & Pr & Al). set (ev := SReq (length (rt_log v)) q). exists (l ++ [ev]).
      assert (Run : one_by_one pn sn w (l ++ [ev]) = (fst (one_by_one pn sn w l), snd (one_by_one pn sn w l) ++ [(length (rt_log v), proxy_answer q r)])).
      { rewrite one_by_one_app. cbn [one_by_one ev fst snd]. rewrite Al. reflexivity. }
      constructor; cbn [rt_world rt_conns rt_prog rt_log].
      * intros m q' H. apply in_app_or in H. destruct H as [H|[H|[]]]; [destruct (l_req _ _ L m q' H) as [j A]; exists j; apply at_app; exact A|]. unfold ev in H. injection H as <- <-. exists i. apply at_last.
      * intros m d. split; [intro H; apply in_app_or in H; destruct H as [H|[H|[]]]; [apply at_app, (l_wait _ _ L); exact H|discriminate H]|].
        intro A. apply at_snoc in A. destruct A as [A|[_ A]]; [apply in_or_app; left; apply (l_wait _ _ L); exact A|discriminate A].
      * rewrite map_app. cbn [map]. apply NoDup_snoc; [apply L|]. intro Q. pose proof (moment_lt _ _ _ L Q). cbn [ev moment] in *. lia.
      * rewrite !app_length. cbn [length]. pose proof (l_short _ _ L). lia.
      * intros p0 Ip. rewrite Run. cbn [fst]. apply L. exact Ip.
      * rewrite Run. cbn [fst]. eapply sec_ok_le; [|apply (l_seq _ _ L)]. rewrite app_length. lia.
      * eapply sec_ok_le; [|apply (l_con _ _ L)]. rewrite app_length. lia.
      * intros j q' H. destruct (Nat.eq_dec j i) as [->|Nj]; [|apply (Other j q' (Some ev) Nj ltac:(intros e Ee; injection Ee as <-; reflexivity) H)].
        rewrite set_conn_same, Ph in H. injection H as <-. rewrite set_prog_same, Pr. exists (length (rt_log v)). split; [apply at_last|]. split; [exact Idle|].
        apply P_done. rewrite Run. cbn [snd]. apply in_or_app. right. left. reflexivity.
      * intros m n j q' r' A. rewrite Run. cbn [snd]. apply in_or_app. left. apply (l_ans _ _ L m n j q' r'). apply Ans. exact A.
      * intros a n b En Lt Ib. assert (Lb : (b <= length (rt_log v))%nat).
        { rewrite map_app in Ib. apply in_app_or in Ib. destruct Ib as [Ib|[<-|[]]]; [pose proof (moment_lt _ _ _ L Ib); lia|cbn [ev moment]; lia]. }
        apply (order_more v l _ (ERead i q) (Some ev) L eq_refl) with (n := n); try assumption; [|exact Logic.I]. intros y Y. injection Y as <-. cbn [ev moment]. split; [intro Q; pose proof (moment_lt _ _ _ L Q); lia|].
        intros n' [(d & A & ->)|(j & q' & r' & (A1 & A2 & A3 & A4))]; [pose proof (at_lt _ _ _ A); lia|pose proof (at_lt _ _ _ A2); lia].
  - (* a call on a backend *)
    assert (F : flight (rt_log v) l i q (rt_prog v i)) by (apply (l_flight _ _ L); rewrite Hc; reflexivity). rewrite Hp in F. destruct F as (m & Am & Im & Pm).
    assert (Rm' : room (S (length (rt_log v)))) by exact Rm.
    assert (Idle : forall a, idle (rt_log v ++ [ECall i sv o a]) i m (length (rt_log v ++ [ECall i sv o a]))).
    { intro a. rewrite app_length. cbn [length]. rewrite Nat.add_1_r. apply idle_snoc; [reflexivity|exact Im]. }
    assert (Ans : forall a m' n j q' r, answered (rt_log v ++ [ECall i sv o a]) j q' m' n r -> answered (rt_log v) j q' m' n r).
    { intros a m' n j q' r A. apply answered_snoc in A. destruct A as [A|(_ & A & _)]; [exact A|discriminate A]. }
    remember (Call sv o k) as pr eqn:Epr. destruct Pm as [Ps Os Nm|s0 o0 Oq Qs Pk Inm|r Inm]; [| |discriminate Epr].
    + (* the primary *)
      assert (Other : forall j q' a, j <> i -> sc_phase (rt_conns v j) = Calling q' ->
              flight (rt_log v ++ [ECall i sv o a]) (l ++ [SReq m q]) j q' (set_prog (rt_prog v) i (k a) j)).
      { intros j q' a Nj H. rewrite set_prog_other by exact Nj. apply (flight_more _ _ _ (Some (SReq m q))); [reflexivity| |apply (l_flight _ _ L); exact H].
        intros e Ey m' A. injection Ey as <-. cbn [moment]. intros <-. pose proof (at_fun _ _ _ _ Am A). congruence. }
      destruct (owner_p _ _ _ _ R (q_key q)) as (p0 & Pp & Ip).
      assert (Two : sv = p0 /\ forall w1, sec_ok (length (rt_log v)) w1 -> w1 (sv_id p0) = rt_world v (sv_id p0) ->
                exists w2, router pn sn w1 q = (w2, match k (snd (meta_server (rt_world v (sv_id p0)) o)) with Ret r => proxy_answer q r | Call _ _ _ => Ok [empty_response] end)
                  /\ (forall p', In p' ps -> w2 (sv_id p') = upd w1 (sv_id p0) (fst (meta_server (rt_world v (sv_id p0)) o)) (sv_id p')) /\ sec_ok (S (length (rt_log v))) w2
                  /\ (forall s1 o1 k1, k (snd (meta_server (rt_world v (sv_id p0)) o)) = Call s1 o1 k1 -> exists so, q_opcode q = OpcSet /\ q_set q = Some so /\ pick sn (q_key q) = Ok s1 /\ o1 = OSet (proxy_item q so) /\ k1 = Ret)).
      { unfold proxy_prog in Epr. destruct (q_opcode q) eqn:Oq; try discriminate Ps.
        - cbn [rp_prog] in Epr. unfold rp_get, on_ring in Epr. rewrite Pp in Epr. injection Epr as <- <- <-. split; [reflexivity|]. intros w1 S1 E1. rewrite router_alone. unfold proxy_prog. rewrite Oq. cbn [rp_prog]. unfold rp_get, on_ring. rewrite Pp. cbn [exec].
          unfold server_call. cbn [fst snd]. rewrite E1. eexists. split; [reflexivity|]. split; [reflexivity|]. split; [apply sec_ok_primary; [exact Ip|]; eapply sec_ok_le; [|exact S1]; lia|]. discriminate.
        - destruct (q_set q) as [so|] eqn:Qs; [|exfalso; apply Os; reflexivity]. cbn [rp_prog] in Epr. unfold rp_store, on_ring in Epr. cbn [proxy_item it_key] in Epr. rewrite Pp in Epr. injection Epr as <- <- <-. split; [reflexivity|].
          intros w1 S1 E1. rewrite router_alone. unfold proxy_prog. rewrite Oq, Qs. cbn [rp_prog]. unfold rp_store, on_ring. cbn [proxy_item it_key]. rewrite Pp. cbn [exec]. unfold server_call. cbn [fst snd]. rewrite E1.
          destruct (owner_s _ _ _ _ R (q_key q)) as (s1 & Ps1 & Is1). rewrite Ps1.
          assert (Np : sv_id s1 <> sv_id p0) by (intro Q; apply (apart _ _ _ _ R p0 s1 Ip Is1); congruence).
          destruct (Pl m i q so ltac:(cbn [rt_log]; apply at_app; exact Am) Oq Qs) as (Li & Ci & Fi).
          destruct (snd (meta_server (rt_world v (sv_id p0)) (OSet (proxy_item q so)))) as [x|e|] eqn:Ea; cbn [if_ok exec fst snd].
          + assert (S2 : sec_ok (length (rt_log v)) (upd w1 (sv_id p0) (fst (meta_server (rt_world v (sv_id p0)) (OSet (proxy_item q so)))))) by (apply sec_ok_primary; assumption).
            destruct (sec_ok_set _ _ s1 (proxy_item q so) Rm' Is1 S2 Li Ci (Fi s1 Is1)) as (A2 & S3). unfold server_call. cbn [fst snd]. change (mkItem (q_key q) (q_value q) (q_flags q) (s_exp so) (s_cas_value so) []) with (proxy_item q so).
            eexists. split; [f_equal; unfold proxy_answer; rewrite Oq, A2; reflexivity|]. split; [|split; [exact S3|]].
            * intros p' Ip'. rewrite upd_other; [reflexivity|]. intro Q. apply (apart _ _ _ _ R p' s1 Ip' Is1). exact Q.
            * intros s2 o2 k2 Q. injection Q as <- <- <-. exists so. repeat split; assumption.
          + eexists. split; [reflexivity|]. split; [reflexivity|]. split; [apply sec_ok_primary; [exact Ip|]; eapply sec_ok_le; [|exact S1]; lia|]. discriminate.
          + eexists. split; [reflexivity|]. split; [reflexivity|]. split; [apply sec_ok_primary; [exact Ip|]; eapply sec_ok_le; [|exact S1]; lia|]. discriminate. }
      destruct Two as (-> & Two). destruct (Two (fst (one_by_one pn sn w l)) (l_seq _ _ L) (l_prim _ _ L p0 Ip)) as (w2 & Er & Pw & Sw & Nx).
      set (ev := SReq m q) in *. exists (l ++ [ev]). subst wr. unfold server_call. cbn [fst snd].
      assert (Run : one_by_one pn sn w (l ++ [ev]) = (w2, snd (one_by_one pn sn w l) ++ [(m, match k (snd (meta_server (rt_world v (sv_id p0)) o)) with Ret r => proxy_answer q r | Call _ _ _ => Ok [empty_response] end)])).
      { rewrite one_by_one_app. cbn [one_by_one ev fst snd]. rewrite Er. reflexivity. }
      constructor; cbn [rt_world rt_conns rt_prog rt_log].
      * intros m' q' H. apply in_app_or in H. destruct H as [H|[H|[]]]; [destruct (l_req _ _ L m' q' H) as [j A]; exists j; apply at_app; exact A|]. unfold ev in H. injection H as <- <-. exists i. apply at_app. exact Am.
      * intros m' d. split; [intro H; apply in_app_or in H; destruct H as [H|[H|[]]]; [apply at_app, (l_wait _ _ L); exact H|discriminate H]|].
        intro A. apply at_snoc in A. destruct A as [A|[_ A]]; [apply in_or_app; left; apply (l_wait _ _ L); exact A|discriminate A].
      * rewrite map_app. cbn [map]. apply NoDup_snoc; [apply L|exact Nm].
      * rewrite !app_length. cbn [length]. pose proof (l_short _ _ L). lia.
      * intros p' Ip'. rewrite Run. cbn [fst]. rewrite Pw by exact Ip'. unfold upd. destruct (Nat.eqb (sv_id p') (sv_id p0)); [reflexivity|apply L; exact Ip'].
      * rewrite Run. cbn [fst]. eapply sec_ok_le; [|exact Sw]. rewrite app_length. cbn. lia.
      * apply sec_ok_primary; [exact Ip|]. eapply sec_ok_le; [|apply (l_con _ _ L)]. rewrite app_length. lia.
      * intros j q' H. destruct (Nat.eq_dec j i) as [->|Nj]; [|apply Other; assumption].
        rewrite Hc in H. cbn in H. injection H as <-. rewrite set_prog_same. exists m. split; [apply at_app; exact Am|]. split; [apply Idle|].
        assert (In1 : forall r, (match k (snd (meta_server (rt_world v (sv_id p0)) o)) with Ret r => proxy_answer q r | Call _ _ _ => Ok [empty_response] end) = r -> In (m, r) (snd (one_by_one pn sn w (l ++ [ev])))).
        { intros r <-. rewrite Run. cbn [snd]. apply in_or_app. right. left. reflexivity. }
        destruct (k (snd (meta_server (rt_world v (sv_id p0)) o))) as [r|s1 o1 k1] eqn:Ek.
        -- apply P_done. apply In1. reflexivity.
        -- destruct (Nx s1 o1 k1 eq_refl) as (so & Oq & Qs & Ps1 & -> & ->). apply P_between; try assumption. apply In1. reflexivity.
      * intros m' n j q' r' A. rewrite Run. cbn [snd]. apply in_or_app. left. apply (l_ans _ _ L m' n j q' r'). eapply Ans. exact A.
      * intros a n b En Lt Ib. assert (Lb : (b <= length (rt_log v))%nat).
        { rewrite map_app in Ib. apply in_app_or in Ib. destruct Ib as [Ib|[<-|[]]]; [pose proof (moment_lt _ _ _ L Ib); lia|cbn [ev moment]; pose proof (at_lt _ _ _ Am); lia]. }
        eapply (order_more v l _ _ (Some ev) L eq_refl) with (n := n); try eassumption; [|exact Logic.I]. intros y Y. injection Y as <-. cbn [ev moment]. split; [exact Nm|].
        intros n' En'. apply Nm. eapply ended_in; eassumption.
    + (* the secondary *)
      injection Epr as <- <- <-. exists l. subst wr. unfold server_call. cbn [fst snd].
      assert (Is0 : In s0 ss) by (eapply owner_in_s; eassumption).
      destruct (Pl m i q o0 ltac:(cbn [rt_log]; apply at_app; exact Am) Oq Qs) as (Li & Ci & Fi).
      destruct (sec_ok_set _ _ s0 (proxy_item q o0) Rm' Is0 (l_con _ _ L) Li Ci (Fi s0 Is0)) as (A2 & S3).
      constructor; cbn [rt_world rt_conns rt_prog rt_log].
      * intros m' q' H. destruct (l_req _ _ L m' q' H) as [j A]. exists j. apply at_app. exact A.
      * intros m' d. rewrite (l_wait _ _ L). split; [apply at_app|]. intro A. apply at_snoc in A. destruct A as [A|[_ A]]; [exact A|discriminate A].
      * apply L.
      * rewrite app_length. pose proof (l_short _ _ L). lia.
      * intros p' Ip'. rewrite upd_other; [apply L; exact Ip'|]. apply (apart _ _ _ _ R p' s0 Ip' Is0).
      * eapply sec_ok_le; [|apply (l_seq _ _ L)]. rewrite app_length. lia.
      * eapply sec_ok_le; [|exact S3]. rewrite app_length. cbn. lia.
      * intros j q' H. destruct (Nat.eq_dec j i) as [->|Nj].
        -- rewrite Hc in H. cbn in H. injection H as <-. rewrite set_prog_same. exists m. split; [apply at_app; exact Am|]. split; [apply Idle|]. rewrite A2. apply P_done. unfold proxy_answer. rewrite Oq. exact Inm.
        -- rewrite set_prog_other by exact Nj. pose proof (flight_more (rt_log v) l (ECall i s0 (OSet (proxy_item q o0)) (snd (meta_server (rt_world v (sv_id s0)) (OSet (proxy_item q o0))))) None j q' (rt_prog v j) eq_refl ltac:(discriminate)) as Fm.
           rewrite app_nil_r in Fm. apply Fm. apply (l_flight _ _ L). exact H.
      * intros m' n j q' r' A. apply (l_ans _ _ L m' n j q' r'). eapply Ans. exact A.
      * intros a n b En Lt Ib. pose proof (order_more v l _ (ECall i s0 (OSet (proxy_item q o0)) (snd (meta_server (rt_world v (sv_id s0)) (OSet (proxy_item q o0))))) None L eq_refl ltac:(discriminate) Logic.I a n b En Lt) as O. rewrite app_nil_r in O. apply O; [exact Ib|]. pose proof (moment_lt _ _ _ L Ib). lia.
  - (* an answer *)
    assert (F : flight (rt_log v) l i q (rt_prog v i)) by (apply (l_flight _ _ L); rewrite Hc; reflexivity). rewrite Hp in F. destruct F as (m & Am & Im & Pm).
    assert (Inm : In (m, proxy_answer q r) (snd (one_by_one pn sn w l))).
    { remember (Ret r) as pr eqn:Epr. destruct Pm as [Ps Os Nm|s0 o0 Oq Qs Pk Inm|r0 Inm]; [|discriminate Epr|injection Epr as <-; exact Inm].
      exfalso. destruct (owner_p _ _ _ _ R (q_key q)) as (p0 & Pp & Ip). unfold proxy_prog in Epr. destruct (q_opcode q); try discriminate Ps.
      - cbn [rp_prog] in Epr. unfold rp_get, on_ring in Epr. rewrite Pp in Epr. discriminate Epr.
      - destruct (q_set q) as [so|]; [|apply Os; reflexivity]. cbn [rp_prog] in Epr. unfold rp_store, on_ring in Epr. cbn [proxy_item it_key] in Epr. rewrite Pp in Epr. discriminate Epr. }
    exists l. constructor; cbn [rt_world rt_conns rt_prog rt_log].
    * intros m' q' H. destruct (l_req _ _ L m' q' H) as [j A]. exists j. apply at_app. exact A.
    * intros m' d. rewrite (l_wait _ _ L). split; [apply at_app|]. intro A. apply at_snoc in A. destruct A as [A|[_ A]]; [exact A|discriminate A].
    * apply L.
    * rewrite app_length. pose proof (l_short _ _ L). lia.
    * apply L.
    * eapply sec_ok_le; [|apply (l_seq _ _ L)]. rewrite app_length. lia.
    * eapply sec_ok_le; [|apply (l_con _ _ L)]. rewrite app_length. lia.
    * intros j q' H. destruct (Nat.eq_dec j i) as [->|Nj]; [rewrite set_conn_same in H; discriminate H|]. rewrite set_conn_other in H by exact Nj.
      pose proof (flight_more (rt_log v) l (EAnswer i q (proxy_answer q r)) None j q' (rt_prog v j) ltac:(cbn; apply Nat.eqb_neq; congruence) ltac:(discriminate)) as Fm. rewrite app_nil_r in Fm. apply Fm. apply (l_flight _ _ L). exact H.
    * intros m' n j q' r' A. apply answered_snoc in A. destruct A as [A|(-> & A & Am' & Im')]; [apply (l_ans _ _ L m' n j q' r'); exact A|]. injection A as <- <- <-.
      assert (Q : m' = m); [|subst; exact Inm]. destruct (Nat.lt_trichotomy m' m) as [Lt|[E|Gt]]; [|exact E|].
      -- specialize (Im' m (ERead i q) ltac:(pose proof (at_lt _ _ _ Am); lia) Am). cbn in Im'. rewrite Nat.eqb_refl in Im'. discriminate Im'.
      -- specialize (Im m' (ERead i q) ltac:(pose proof (at_lt _ _ _ Am'); lia) Am'). cbn in Im. rewrite Nat.eqb_refl in Im. discriminate Im.
    * intros a n b En Lt Ib. pose proof (moment_lt _ _ _ L Ib) as Lb. apply (l_order _ _ L a n b); [|exact Lt|exact Ib].
      destruct En as [(d & A & ->)|(j & q' & r' & A)]; [left; exists d; split; [eapply at_old; [|exact A]; lia|reflexivity]|].
      right. exists j, q', r'. eapply answered_old; [|exact A]. lia.
  - exists l. apply lin_still; [exact L|]. intros j q H. destruct (Nat.eq_dec j i) as [->|Nj]; [rewrite set_conn_same in H; unfold calling in Cl; rewrite H in Cl; discriminate Cl|rewrite set_conn_other in H by exact Nj; exact H].
  - (* time passes *)
    set (ev := SWait (length (rt_log v)) d). exists (l ++ [ev]).
    assert (Run : one_by_one pn sn w (l ++ [ev]) = (all_tick (fst (one_by_one pn sn w l)) d, snd (one_by_one pn sn w l))).
    { rewrite one_by_one_app. cbn [one_by_one ev fst snd]. rewrite app_nil_r. reflexivity. }
    constructor; cbn [rt_world rt_conns rt_prog rt_log].
    * intros m q' H. apply in_app_or in H. destruct H as [H|[H|[]]]; [destruct (l_req _ _ L m q' H) as [j A]; exists j; apply at_app; exact A|discriminate H].
    * intros m d'. split; [intro H; apply in_app_or in H; destruct H as [H|[H|[]]]; [apply at_app, (l_wait _ _ L); exact H|unfold ev in H; injection H as <- <-; apply at_last]|].
      intro A. apply in_or_app. apply at_snoc in A. destruct A as [A|[-> A]]; [left; apply (l_wait _ _ L); exact A|injection A as ->; right; left; reflexivity].
    * rewrite map_app. cbn [map]. apply NoDup_snoc; [apply L|]. intro Q. pose proof (moment_lt _ _ _ L Q). cbn [ev moment] in *. lia.
    * rewrite !app_length. cbn [length]. pose proof (l_short _ _ L). lia.
    * intros p0 Ip. rewrite Run. cbn [fst]. unfold all_tick. rewrite (l_prim _ _ L p0 Ip). reflexivity.
    * rewrite Run. cbn [fst]. apply sec_ok_tick; [exact D|]. eapply sec_ok_le; [|apply (l_seq _ _ L)]. rewrite app_length. lia.
    * apply sec_ok_tick; [exact D|]. eapply sec_ok_le; [|apply (l_con _ _ L)]. rewrite app_length. lia.
    * intros j q' H. apply (flight_more _ _ _ (Some ev)); [reflexivity| |apply (l_flight _ _ L); exact H]. intros y Y m A. injection Y as <-. cbn [ev moment]. pose proof (at_lt _ _ _ A). lia.
    * intros m n j q' r' A. rewrite Run. cbn [snd]. apply (l_ans _ _ L m n j q' r'). apply answered_snoc in A. destruct A as [A|(_ & A & _)]; [exact A|discriminate A].
    * intros a n b En Lt Ib. assert (Lb : (b <= length (rt_log v))%nat).
      { rewrite map_app in Ib. apply in_app_or in Ib. destruct Ib as [Ib|[<-|[]]]; [pose proof (moment_lt _ _ _ L Ib); lia|cbn [ev moment]; lia]. }
      apply (order_more v l _ (ETime d) (Some ev) L eq_refl) with (n := n); try assumption; [|exact Logic.I]. intros y Y. injection Y as <-. cbn [ev moment]. split; [intro Q; pose proof (moment_lt _ _ _ L Q); lia|].
      intros n' [(d' & A & ->)|(j & q' & r' & (A1 & A2 & A3 & A4))]; [pose proof (at_lt _ _ _ A); lia|pose proof (at_lt _ _ _ A2); lia].
Qed.
End Lin.

Lemma log_grows : forall ST (step : ST -> op -> ST * outcome result) later pn sn v u, rtstep step later pn sn v u -> exists l, rt_log u = rt_log v ++ l /\ (length l <= 1)%nat.
Proof.
  intros ST step later pn sn v u H. destruct H; cbn [rt_log]; try (exists []; split; [symmetry; apply app_nil_r|cbn; lia]); eexists; (split; [reflexivity|cbn; lia]).
Qed.
Lemma plain_sets_old : forall ss w a b, plain_sets ss w (a ++ b) -> plain_sets ss w a.
Proof. intros ss w a b H m i q o A. apply H with (m := m) (i := i). apply at_app. exact A. Qed.
Lemma linear : forall ps ss pn sn w streams v, two_rings ps ss pn sn -> good_world (Z.of_nat (length (rt_log v))) ss w ->
  rtsteps meta_server link_tick pn sn (router_started w streams) v -> plain_sets ss w (rt_log v) -> exists l, lin ps ss pn sn w v l.
Proof.
  intros ps ss pn sn w streams v R G Sv. remember (router_started w streams) as v0 eqn:E0. induction Sv as [v|v u t Sv IH St]; intro Pl; subst.
  - exists []. cbn [router_started rt_log length] in *. destruct G as [now G].
    assert (Z0 : sec_ok ss w 0 w). { intros s Is. destruct (G s Is) as (c & h & A & W & _). exists c, h. rewrite A. cbn [fresh_link l_cache]. split; [reflexivity|]. split; [exact W|]. split; [reflexivity|lia]. }
    constructor; cbn [router_started rt_world rt_conns rt_prog rt_log one_by_one fst snd map length]; try assumption.
    + intros m q [].
    + intros m d. split; [intros []|]. intro A. unfold at_ in A. destruct m; discriminate A.
    + constructor.
    + lia.
    + reflexivity.
    + intros i q H. discriminate H.
    + intros m n i q r (_ & A & _). unfold at_ in A. destruct m; discriminate A.
    + intros a n b _ _ [].
  - destruct (log_grows _ _ _ _ _ _ _ St) as (k & Ek & Lk). rewrite Ek in Pl. pose proof (f_equal (@length _) Ek) as Len. rewrite app_length in Len.
    assert (G' : good_world (Z.of_nat (length (rt_log u))) ss w).
    { destruct G as [now G]. exists now. intros s Is. destruct (G s Is) as (c & h & A & W & N & C). exists c, h. split; [exact A|]. split; [exact W|]. split; [exact N|lia]. }
    destruct (IH G' eq_refl (plain_sets_old _ _ _ _ Pl)) as (l & L). rewrite <- Ek in Pl.
    destruct k as [|e k].
    + (* nothing was recorded *)
      destruct St; cbn [rt_log] in Ek; try (exfalso; apply (f_equal (@length _)) in Ek; rewrite !app_length in Ek; cbn in Ek; lia).
      * exists l. apply lin_still; [exact L|]. intros j q H'. destruct (Nat.eq_dec j i) as [->|Nj]; [rewrite set_conn_same in H'; discriminate H'|rewrite set_conn_other in H' by exact Nj; exact H'].
      * exists l. apply lin_still; [exact L|auto].
      * exists l. apply lin_still; [exact L|]. intros j q H'. destruct (Nat.eq_dec j i) as [->|Nj]; [rewrite set_conn_same in H'; unfold calling in *; rewrite H' in *; discriminate|rewrite set_conn_other in H' by exact Nj; exact H'].
    + destruct k; [|cbn in Lk; lia]. eapply lin_step; [exact R|exact L| |exact St|exact Pl].
      destruct G as [now G]. intros s Is. destruct (G s Is) as (c & h & A & _ & _ & C). rewrite A. cbn [fresh_link l_cache]. cbn [length] in Len. lia.
Qed.

(** ** C77 *)
(** Linearizability. The answers are those of the same requests given to a router that deals with one at a time
    ([one_by_one]; C48-C51 say what it answers), in an order that respects time: whatever was over before
    something else began comes before it. Requests not yet answered may be in the order or not. *)
Theorem C77_linearizable : forall ps ss pn sn w streams v,
  two_rings ps ss pn sn -> good_world (Z.of_nat (length (rt_log v))) ss w -> plain_sets ss w (rt_log v) ->
  rtsteps meta_server link_tick pn sn (router_started w streams) v ->
  exists l, NoDup (map moment l)
    /\ (forall m q, In (SReq m q) l -> exists i, at_ (rt_log v) m (ERead i q))
    /\ (forall m d, In (SWait m d) l <-> at_ (rt_log v) m (ETime d))
    /\ (forall i q m n r, answered (rt_log v) i q m n r -> In (SReq m q) l /\ In (m, r) (snd (one_by_one pn sn w l)))
    /\ (forall a n b, ends (rt_log v) a n -> (n < b)%nat -> In b (map moment l) -> before (map moment l) a b)
    /\ (forall p, In p ps -> fst (one_by_one pn sn w l) (sv_id p) = rt_world v (sv_id p)).
Proof.
  intros ps ss pn sn w streams v R G Pl Sv. destruct (linear ps ss pn sn w streams v R G Sv Pl) as (l & L). exists l.
  split; [apply L|]. split; [apply L|]. split; [apply L|]. split; [|split; [apply L|apply L]].
  intros i q m n r A. pose proof (l_ans _ _ _ _ _ _ _ L m n i q r A) as H. split; [|exact H].
  apply one_by_one_moments in H. apply in_map_iff in H. destruct H as ([x q'|x d] & <- & H); cbn [moment] in *.
  - destruct (l_req _ _ _ _ _ _ _ L x q' H) as (j & B'). destruct A as (_ & A & _). pose proof (at_fun _ _ _ _ A B') as Q. injection Q as _ <-. exact H.
  - apply (l_wait _ _ _ _ _ _ _ L) in H. destruct A as (_ & A & _). pose proof (at_fun _ _ _ _ A H) as Q. discriminate Q.
Qed.
Print Assumptions C77_linearizable.

(** Every answer is the answer to some request read before. *)
Theorem C77_answers_are_answers : forall ST (step : ST -> op -> ST * outcome result) later ps ss pn sn w streams v,
  two_rings ps ss pn sn -> rtsteps step later pn sn (router_started w streams) v ->
  forall n i q r, at_ (rt_log v) n (EAnswer i q r) -> exists m, answered (rt_log v) i q m n r.
Proof.
  intros ST step later ps ss pn sn w streams v R Sv n i q r A. destruct (C76_requests_take_effect_once _ _ _ _ _ _ _ _ _ _ R Sv n i q r A) as (m & r0 & L & Rd & H & _).
  exists m. split; [exact L|]. split; [exact Rd|]. split; [exact A|]. intros x e Rx Ax.
  assert (Q : forall a b, quiet (rt_log v) i a b -> (a < x < b)%nat -> is_request i e = false).
  { intros a b Q Rab. specialize (Q x e Rab Ax). destruct e; cbn in *; try reflexivity; apply Nat.eqb_neq; congruence. }
  destruct H as [c p a Oq Pk Rc Ac Q1 Q2|c p o a Oq Qs Pk Rc Ac Na Q1 Q2|c c2 p s o y a Oq Qs Pk Ps Rc Rc2 Ac Ac2 Q1 Q2 Q3|Oq Qs Q1|Ps Q1].
  - destruct (Nat.lt_trichotomy x c) as [?|[->|?]]; [apply (Q m c); [exact Q1|lia]|rewrite (at_fun _ _ _ _ Ax Ac); reflexivity|apply (Q c n); [exact Q2|lia]].
  - destruct (Nat.lt_trichotomy x c) as [?|[->|?]]; [apply (Q m c); [exact Q1|lia]|rewrite (at_fun _ _ _ _ Ax Ac); reflexivity|apply (Q c n); [exact Q2|lia]].
  - destruct (Nat.lt_trichotomy x c) as [?|[->|?]]; [apply (Q m c); [exact Q1|lia]|rewrite (at_fun _ _ _ _ Ax Ac); reflexivity|].
    destruct (Nat.lt_trichotomy x c2) as [?|[->|?]]; [apply (Q c c2); [exact Q2|lia]|rewrite (at_fun _ _ _ _ Ax Ac2); reflexivity|apply (Q c2 n); [exact Q3|lia]].
  - apply (Q m n); assumption.
  - apply (Q m n); assumption.
Qed.
Print Assumptions C77_answers_are_answers.

(** ** What was stored is seen *)
(** Requests the backends accept: gets of legal keys, and sets as above. *)
Definition plain_requests (svs : list server) (w : world link) (log : list rtevent) : Prop :=
  plain_sets svs w log /\ forall m i q, at_ log m (ERead i q) -> q_opcode q = OpcGet -> legal_key PMeta (q_key q).
(** A set of key [k] that does not expire. *)
Definition sets_key (k : bytes) (q : srequest) : Prop := q_opcode q = OpcSet /\ q_key q = k /\ exists o, q_set q = Some o /\ s_exp o = 0.

Section Seen.
Variables (ps ss : list server) (pn sn : list node).
Hypothesis R : two_rings ps ss pn sn.
Variable w : world link.

Definition plain (q : srequest) : Prop :=
  (q_opcode q = OpcGet -> legal_key PMeta (q_key q)) /\
  forall o, q_opcode q = OpcSet -> q_set q = Some o ->
    legal_item PMeta (proxy_item q o) /\ s_cas_value o = 0 /\ forall s, In s (ps ++ ss) -> zlen (q_value q) <= cf_limit (c_cfg (l_cache (w (sv_id s)))).
Definition plain_event (e : sevent) : Prop := match e with SReq _ q => plain q | SWait _ d => 0 <= d end.
(** [held] on the primary, without expiry. *)
Definition stays (w1 : world link) (k v : bytes) : Prop := exists e, held pn w1 k = Some e /\ e_value e = v /\ e_expire e = None.

Lemma get_alone : forall n w1 q, sec_ok (ps ++ ss) w n w1 -> room (ps ++ ss) w n -> q_opcode q = OpcGet -> legal_key PMeta (q_key q) ->
  snd (router pn sn w1 q) = Ok [match held pn w1 (q_key q) with Some e => mkRes (q_key q) None None (e_value e) 0 0 | None => mkRes [] (Some ENotFound) None [] 0 0 end]
  /\ forall i, fst (router pn sn w1 q) i = w1 i.
Proof.
  intros n w1 q Sk Rm Oq Lk. rewrite router_alone. unfold proxy_prog, proxy_answer. rewrite Oq. cbn [rp_prog]. destruct (owner_p _ _ _ _ R (q_key q)) as (p & Pp & Ip).
  unfold rp_get, on_ring. rewrite Pp. cbn [exec]. unfold server_call. cbn [fst snd].
  destruct (Sk p ltac:(apply in_or_app; auto)) as (c & h & Ew & Wf & _ & Cc). specialize (Rm p ltac:(apply in_or_app; auto)).
  destruct (meta_answers c h (OGet (q_key q)) (q_key q) Wf ltac:(lia) Lk eq_refl eq_refl) as (out & Em & A). rewrite Ew, Em. cbn [fst snd]. split.
  - destruct A as [A|[A _]]; [|discriminate A]. cbn [spec_step snd] in A. unfold held. rewrite Pp, Ew. cbn [fresh_link l_cache].
    destruct (lookup c (q_key q)) as [e|]; destruct out; cbn in A; try contradiction; subst; reflexivity.
  - intro i. unfold upd. destruct (Nat.eqb_spec i (sv_id p)) as [->|N]; [rewrite Ew; reflexivity|reflexivity].
Qed.

Lemma set_alone : forall n w1 q o, sec_ok (ps ++ ss) w n w1 -> room (ps ++ ss) w (S (S n)) -> q_opcode q = OpcSet -> q_set q = Some o -> plain q ->
  snd (router pn sn w1 q) = Ok [empty_response] /\ sec_ok (ps ++ ss) w (S (S n)) (fst (router pn sn w1 q))
  /\ (s_exp o = 0 -> stays (fst (router pn sn w1 q)) (q_key q) (q_value q)) /\ forall k, k <> q_key q -> held pn (fst (router pn sn w1 q)) k = held pn w1 k.
Proof.
  intros n w1 q o Sk Rm Oq Qs [_ Pl]. destruct (Pl o Oq Qs) as (Li & Ci & Fi). rewrite router_alone. unfold proxy_prog, proxy_answer. rewrite Oq, Qs. cbn [rp_prog].
  destruct (owner_p _ _ _ _ R (q_key q)) as (p & Pp & Ip). destruct (owner_s _ _ _ _ R (q_key q)) as (s & Ps & Is). unfold rp_store, on_ring. cbn [proxy_item it_key]. change (mkItem (q_key q) (q_value q) (q_flags q) (s_exp o) (s_cas_value o) []) with (proxy_item q o). rewrite Pp. cbn [exec].
  pose proof (apart _ _ _ _ R p s Ip Is) as Ap.
  assert (I1 : In p (ps ++ ss)) by (apply in_or_app; auto). assert (I2 : In s (ps ++ ss)) by (apply in_or_app; auto).
  assert (Rm1 : room (ps ++ ss) w (S n)) by (intros x Ix; specialize (Rm x Ix); lia).
  destruct (sec_ok_set (ps ++ ss) w n w1 p (proxy_item q o) Rm1 I1 Sk Li Ci (Fi p I1)) as (A1 & S1).
  destruct (sec_ok_set (ps ++ ss) w (S n) _ s (proxy_item q o) Rm I2 S1 Li Ci (Fi s I2)) as (A2 & S2).
  unfold server_call. cbn [fst snd]. rewrite A1. cbn [if_ok]. rewrite Ps. cbn [exec]. unfold server_call. cbn [fst snd].
  set (w2 := upd w1 (sv_id p) (fst (meta_server (w1 (sv_id p)) (OSet (proxy_item q o))))) in *. rewrite A2. split; [reflexivity|]. split; [exact S2|].
  destruct (Sk p I1) as (c & h & Ew & Wf & Cf & Cc). specialize (Rm1 p I1).
  assert (Ew2 : w2 (sv_id p) = fresh_link (stored c (proxy_item q o)) h).
  { unfold w2. rewrite upd_same, Ew, (plain_set_ok c h _ Wf ltac:(lia) Li Ci ltac:(rewrite Cf; apply (Fi p I1))). reflexivity. }
  split.
  - intro E0. unfold stays, held. rewrite Pp, upd_other, Ew2 by exact Ap. cbn [fresh_link l_cache]. unfold stored. cbn [proxy_item it_key it_value it_exp]. rewrite E0, lookup_put. cbn. eexists. repeat split; reflexivity.
  - intros k Nk. unfold held. destruct (pick pn k) as [p'| |] eqn:Pk; [|reflexivity|reflexivity]. assert (Ip' : In p' ps) by (eapply owner_in_p; eassumption).
    rewrite upd_other by (apply (apart _ _ _ _ R p' s Ip' Is)). destruct (Nat.eq_dec (sv_id p') (sv_id p)) as [Q|Q]; [|unfold w2; rewrite upd_other by exact Q; reflexivity].
    rewrite Q, Ew2, Ew. cbn [fresh_link l_cache]. unfold lookup, stored, Cache.put, put_entry. cbn [c_map c_now]. change (it_key (proxy_item q o)) with (q_key q). rewrite (proj2 (beq_neq _ _) Nk). reflexivity.
Qed.

Lemma event_alone : forall n w1 e k, sec_ok (ps ++ ss) w n w1 -> room (ps ++ ss) w (S (S n)) -> plain_event e ->
  let w2 := fst (one_by_one pn sn w1 [e]) in
  sec_ok (ps ++ ss) w (S (S n)) w2
  /\ (forall m q, e = SReq m q -> sets_key k q -> stays w2 k (q_value q))
  /\ (forall v, (forall m q, e = SReq m q -> q_opcode q = OpcSet -> q_key q <> k) -> stays w1 k v -> stays w2 k v).
Proof.
  intros n w1 e k Sk Rm Pl. destruct e as [m q|m d]; cbn [one_by_one fst plain_event] in *.
  - destruct (passed_on (q_opcode q)) eqn:Po.
    + destruct (q_opcode q) eqn:Oq; try discriminate Po.
      * assert (Rm1 : room (ps ++ ss) w n) by (intros x Ix; specialize (Rm x Ix); lia). destruct (get_alone n w1 q Sk Rm1 Oq (proj1 Pl Oq)) as (_ & Same).
        split; [intros s Is; destruct (Sk s Is) as (c & h & A & B' & C & D); exists c, h; rewrite Same; split; [exact A|]; split; [exact B'|]; split; [exact C|lia]|].
        split; [intros m' q' E (O' & _); injection E as <- <-; congruence|]. intros v _ (e & H & V). exists e. split; [|exact V]. unfold held in *. destruct (pick pn k); [rewrite Same|..]; exact H.
      * destruct (q_set q) as [o|] eqn:Qs.
        -- destruct (set_alone n w1 q o Sk Rm Oq Qs Pl) as (_ & S2 & Hk & Ot). split; [exact S2|]. split.
           ++ intros m' q' E (_ & Kq & o' & Qs' & E0). injection E as <- <-. rewrite <- Kq. apply Hk. congruence.
           ++ intros v Nk (e & H & V). exists e. rewrite Ot; [split; assumption|]. intro Q. apply (Nk m q eq_refl Oq). congruence.
        -- assert (E : fst (router pn sn w1 q) = w1) by (rewrite router_alone; unfold proxy_prog; rewrite Oq, Qs; reflexivity). rewrite E. split; [eapply sec_ok_le; [|exact Sk]; lia|].
           split; [intros m' q' E' (_ & _ & o' & Qs' & _); injection E' as <- <-; congruence|auto].
    + assert (E : fst (router pn sn w1 q) = w1) by (rewrite router_alone; unfold proxy_prog; destruct (q_opcode q); try discriminate Po; reflexivity). rewrite E. split; [eapply sec_ok_le; [|exact Sk]; lia|].
      split; [intros m' q' E' (O' & _); injection E' as <- <-; rewrite O' in Po; discriminate Po|auto].
  - split; [apply sec_ok_tick; [exact Pl|]; eapply sec_ok_le; [|exact Sk]; lia|]. split; [discriminate|]. intros v _ (e & H & V & X). exists e. split; [|split; assumption].
    unfold held in *. destruct (pick pn k) as [p| |]; try discriminate H. unfold all_tick, link_tick. cbn [l_cache]. unfold lookup in *. cbn [tick c_map c_now].
    destruct (c_map (l_cache (w1 (sv_id p))) k) as [e'|]; [|discriminate H]. destruct (alive (c_now (l_cache (w1 (sv_id p)))) e') eqn:Al; [|discriminate H]. injection H as ->. unfold alive. rewrite X. reflexivity.
Qed.

(** A run that keeps what the last set stored. *)
Lemma run_alone : forall l n w1, sec_ok (ps ++ ss) w n w1 -> room (ps ++ ss) w (n + 2 * length l) -> Forall plain_event l -> sec_ok (ps ++ ss) w (n + 2 * length l) (fst (one_by_one pn sn w1 l)).
Proof.
  induction l as [|e l IH]; intros n w1 Sk Rm F; cbn [length] in *; [rewrite Nat.mul_0_r, Nat.add_0_r; exact Sk|]. inversion F as [|? ? Pe Fl]; subst.
  destruct (event_alone n w1 e [] Sk ltac:(intros x Ix; specialize (Rm x Ix); lia) Pe) as (S2 & _).
  change (e :: l) with ([e] ++ l). rewrite one_by_one_app. cbn [fst]. replace (n + 2 * S (length l))%nat with (S (S n) + 2 * length l)%nat in * by lia. apply IH; assumption.
Qed.
Lemma run_keeps : forall k l n w1 v, sec_ok (ps ++ ss) w n w1 -> room (ps ++ ss) w (n + 2 * length l) -> Forall plain_event l -> 
  (forall m q, In (SReq m q) l -> q_opcode q = OpcSet -> q_key q = k -> sets_key k q) -> stays w1 k v ->
  exists v', stays (fst (one_by_one pn sn w1 l)) k v' /\ (v' = v \/ exists m q, In (SReq m q) l /\ sets_key k q /\ v' = q_value q).
Proof.
  intro k. induction l as [|e l IH]; intros n w1 v Sk Rm F Sets St; cbn [length] in *; [exists v; split; [exact St|left; reflexivity]|]. inversion F as [|? ? Pe Fl]; subst.
  destruct (event_alone n w1 e k Sk ltac:(intros x Ix; specialize (Rm x Ix); lia) Pe) as (S2 & Hs & Hk).
  change (e :: l) with ([e] ++ l). rewrite one_by_one_app. cbn [fst]. replace (n + 2 * S (length l))%nat with (S (S n) + 2 * length l)%nat in * by lia.
  assert (D : (exists m q, e = SReq m q /\ sets_key k q) \/ forall m q, e = SReq m q -> q_opcode q = OpcSet -> q_key q <> k).
  { destruct e as [m q|m d]; [|right; discriminate]. destruct (q_opcode q) eqn:Oq; try (right; intros m' q' E; injection E as <- <-; congruence).
    destruct (beq (q_key q) k) eqn:Bk; [left|right; intros m' q' E _ Q; injection E as <- <-; rewrite Q, beq_refl in Bk; discriminate Bk].
    exists m, q. split; [reflexivity|]. apply (Sets m q); [left; reflexivity|exact Oq|apply beq_eq; exact Bk]. }
  assert (Sets' : forall m q, In (SReq m q) l -> q_opcode q = OpcSet -> q_key q = k -> sets_key k q) by (intros m q I0; apply (Sets m q); right; exact I0).
  destruct D as [(m & q & -> & Sk')|Nk].
  - destruct (IH (S (S n)) _ (q_value q) S2 Rm Fl Sets' (Hs m q eq_refl Sk')) as (v' & St' & X). exists v'. split; [exact St'|]. right.
    destruct X as [->|(m' & q' & I' & X)]; [exists m, q; split; [left; reflexivity|split; [exact Sk'|reflexivity]]|exists m', q'; split; [right; exact I'|exact X]].
  - destruct (IH (S (S n)) _ v S2 Rm Fl Sets' (Hk v Nk St)) as (v' & St' & X). exists v'. split; [exact St'|].
    destruct X as [->|(m' & q' & I' & X)]; [left; reflexivity|right; exists m', q'; split; [right; exact I'|exact X]].
Qed.
End Seen.

Lemma times_ok : forall ST (step : ST -> op -> ST * outcome result) later pn sn w streams v, rtsteps step later pn sn (router_started w streams) v ->
  forall m d, at_ (rt_log v) m (ETime d) -> 0 <= d.
Proof.
  intros ST step later pn sn w streams v Sv. remember (router_started w streams) as v0 eqn:E0. induction Sv as [v|v u t Sv IH St]; intros m d A; subst; [unfold at_ in A; destruct m; discriminate A|].
  specialize (IH eq_refl). destruct St; cbn [rt_log] in A; try (eapply IH; exact A); apply at_snoc in A; destruct A as [A|[_ A]]; try (eapply IH; exact A); try discriminate A. injection A as <-. assumption.
Qed.
Lemma before_once : forall l a b, NoDup l -> before l a b -> before l b a -> False.
Proof.
  intros l a b N (l1 & l2 & l3 & E1) (k1 & k2 & k3 & E2). 
  assert (Pos : forall x (y1 y2 z1 z2 : list nat), l = y1 ++ x :: y2 -> l = z1 ++ x :: z2 -> length y1 = length z1).
  { intros x y1 y2 z1 z2 A C. pose proof (NoDup_nth_error l) as [P _]. apply (P N).
    - rewrite A, app_length. cbn. lia.
    - rewrite A at 1. rewrite C. rewrite !nth_error_app2, !Nat.sub_diag by lia. reflexivity. }
  assert (A1 := Pos a l1 (l2 ++ b :: l3) (k1 ++ b :: k2) k3 E1 ltac:(rewrite E2, <- app_assoc; reflexivity)).
  assert (A2 := Pos b k1 (k2 ++ a :: k3) (l1 ++ a :: l2) l3 E2 ltac:(rewrite E1, <- app_assoc; reflexivity)).
  rewrite app_length in *. cbn in *. lia.
Qed.
Lemma in_order : forall l a b, NoDup (map moment l) -> before (map moment l) (moment a) (moment b) -> In a l -> In b l -> exists l1 l2 l3, l = l1 ++ a :: l2 ++ b :: l3.
Proof.
  intros l a b N Bf Ia Ib. assert (Uq : forall x y, In x l -> In y l -> moment x = moment y -> x = y).
  { clear Bf Ia Ib. induction l as [|z l IH]; intros x y Hx Hy E; [destruct Hx|]. inversion N as [|? ? Nz Nl]; subst. destruct Hx as [<-|Hx], Hy as [<-|Hy]; [reflexivity| | |apply IH; assumption].
    - exfalso. apply Nz. rewrite E. apply in_map. exact Hy.
    - exfalso. apply Nz. rewrite <- E. apply in_map. exact Hx. }
  destruct Bf as (m1 & m2 & m3 & E).
  assert (Sp : forall (f : sevent -> nat) l k1 k2, map f l = k1 ++ k2 -> exists l1 l2, l = l1 ++ l2 /\ map f l1 = k1 /\ map f l2 = k2).
  { intros f. induction l0 as [|z l0 IH]; intros k1 k2 E0; [destruct k1; [|discriminate E0]; exists [], []; auto|]. destruct k1 as [|y k1]; [exists [], (z :: l0); auto|].
    cbn in E0. injection E0 as <- E0. destruct (IH k1 k2 E0) as (l1 & l2 & -> & <- & <-). exists (z :: l1), l2. auto. }
  destruct (Sp moment l m1 _ E) as (l1 & r1 & E1 & _ & F1). destruct r1 as [|x r1]; [discriminate F1|]. cbn in F1. injection F1 as Fx F1.
  destruct (Sp moment r1 m2 _ F1) as (l2 & r2 & E2 & _ & F2). destruct r2 as [|y r2]; [discriminate F2|]. cbn in F2. injection F2 as Fy _.
  exists l1, l2, r2. rewrite E1, E2. assert (x = a) by (apply Uq; [rewrite E1; apply in_or_app; right; left; reflexivity|exact Ia|exact Fx]).
  assert (y = b) by (apply Uq; [rewrite E1, E2; apply in_or_app; right; right; apply in_or_app; right; left; reflexivity|exact Ib|exact Fy]). subst. reflexivity.
Qed.

(** A get that is read after a set of its key was acknowledged returns the value of that set, or of another set of
    the key that was not over when that set was read. *)
Theorem C77_acknowledged_sets_are_seen : forall ps ss pn sn w streams v,
  two_rings ps ss pn sn -> good_world (2 * Z.of_nat (length (rt_log v))) (ps ++ ss) w -> plain_requests (ps ++ ss) w (rt_log v) ->
  rtsteps meta_server link_tick pn sn (router_started w streams) v ->
  forall k i1 q1 m1 n1 r1 i2 q2 m2 n2 r2,
  (forall m i q, at_ (rt_log v) m (ERead i q) -> q_opcode q = OpcSet -> q_key q = k -> sets_key k q) ->
  answered (rt_log v) i1 q1 m1 n1 r1 -> q_opcode q1 = OpcSet -> q_key q1 = k ->
  (n1 < m2)%nat -> answered (rt_log v) i2 q2 m2 n2 r2 -> q_opcode q2 = OpcGet -> q_key q2 = k ->
  r1 = Ok [empty_response] /\ exists i3 q3 m3, at_ (rt_log v) m3 (ERead i3 q3) /\ sets_key k q3 /\ r2 = Ok [mkRes k None None (q_value q3) 0 0]
    /\ (m3 = m1 \/ ~ exists n3 r3, answered (rt_log v) i3 q3 m3 n3 r3 /\ (n3 < m1)%nat).
Proof.
  intros ps ss pn sn w streams v R G [Pls Plg] Sv k i1 q1 m1 n1 r1 i2 q2 m2 n2 r2 Ks A1 O1 K1 Lt A2 O2 K2.
  assert (Gs : good_world (Z.of_nat (length (rt_log v))) ss w).
  { destruct G as [now G]. exists now. intros s Is. destruct (G s ltac:(apply in_or_app; auto)) as (c & h & A & W & N & C). exists c, h. split; [exact A|]. split; [exact W|]. split; [exact N|lia]. }
  assert (Ps' : plain_sets ss w (rt_log v)).
  { intros m i q o A Oq Qs. destruct (Pls m i q o A Oq Qs) as (X & Y & Z0). split; [exact X|]. split; [exact Y|]. intros s Is. apply Z0. apply in_or_app. auto. }
  destruct (linear ps ss pn sn w streams v R Gs Sv Ps') as (l & L).
  assert (Inl : forall i q m n r, answered (rt_log v) i q m n r -> In (SReq m q) l).
  { intros i q m n r A. pose proof (l_ans _ _ _ _ _ _ _ L m n i q r A) as H. apply one_by_one_moments in H. apply in_map_iff in H. destruct H as ([x q'|x d] & <- & H); cbn [moment] in *.
    - destruct (l_req _ _ _ _ _ _ _ L x q' H) as (j & B'). destruct A as (_ & A & _). pose proof (at_fun _ _ _ _ A B') as Q. injection Q as _ <-. exact H.
    - apply (l_wait _ _ _ _ _ _ _ L) in H. destruct A as (_ & A & _). pose proof (at_fun _ _ _ _ A H) as Q. discriminate Q. }
  pose proof (Inl _ _ _ _ _ A1) as I1. pose proof (Inl _ _ _ _ _ A2) as I2.
  assert (Bf : before (map moment l) m1 m2) by (apply (l_order _ _ _ _ _ _ _ L m1 n1 m2); [right; exists i1, q1, r1; exact A1|exact Lt|apply (in_map moment) in I2; exact I2]).
  destruct (in_order l (SReq m1 q1) (SReq m2 q2) (l_once _ _ _ _ _ _ _ L) Bf I1 I2) as (l1 & l2 & l3 & El).
  assert (Fp : Forall (plain_event ps ss w) l).
  { apply Forall_forall. intros [m q|m d] H; cbn [plain_event].
    - destruct (l_req _ _ _ _ _ _ _ L m q H) as (i & A). split; [apply (Plg m i q A)|]. intros o Oq Qs. apply (Pls m i q o A Oq Qs).
    - apply (l_wait _ _ _ _ _ _ _ L) in H. eapply times_ok; eassumption. }
  assert (Rm : room (ps ++ ss) w (2 * length l)).
  { destruct G as [now G]. intros s Is. destruct (G s Is) as (c & h & A & _ & _ & C). rewrite A. cbn [fresh_link l_cache]. pose proof (l_short _ _ _ _ _ _ _ L). lia. }
  assert (S0 : sec_ok (ps ++ ss) w 0 w).
  { destruct G as [now G]. intros s Is. destruct (G s Is) as (c & h & A & W & _). exists c, h. rewrite A. cbn [fresh_link l_cache]. split; [reflexivity|]. split; [exact W|]. split; [reflexivity|lia]. }
  rewrite El in Fp. apply Forall_app in Fp. destruct Fp as [F1 Fp]. inversion Fp as [|? ? P1 Fp']; subst x l0. apply Forall_app in Fp'. destruct Fp' as [F2 Fp']. inversion Fp' as [|? ? P2 F3]; subst x l0.
  assert (Len : (length l = length l1 + (1 + (length l2 + (1 + length l3))))%nat) by (rewrite El, !app_length; cbn [length]; rewrite app_length; cbn [length]; lia).
  assert (Rle : forall n, (n <= 2 * length l)%nat -> room (ps ++ ss) w n) by (intros n Ln s Is; specialize (Rm s Is); lia).
  set (a1 := (0 + 2 * length l1)%nat). pose proof (run_alone ps ss pn sn R w l1 0 w S0 (Rle a1 ltac:(unfold a1; lia)) F1) as S1. set (w1 := fst (one_by_one pn sn w l1)) in *.
  destruct (Ks m1 i1 q1 (proj1 (proj2 A1)) O1 K1) as (_ & _ & o1 & Qs1 & E1).
  destruct (set_alone ps ss pn sn R w a1 w1 q1 o1 S1 (Rle (S (S a1)) ltac:(unfold a1; lia)) O1 Qs1 P1) as (Ans1 & S2 & St1 & _). specialize (St1 E1). rewrite K1 in St1. set (w2 := fst (router pn sn w1 q1)) in *.
  assert (Sets2 : forall m q, In (SReq m q) l2 -> q_opcode q = OpcSet -> q_key q = k -> sets_key k q).
  { intros m q H Oq Kq. assert (Hl : In (SReq m q) l) by (rewrite El; apply in_or_app; right; right; apply in_or_app; left; exact H). destruct (l_req _ _ _ _ _ _ _ L m q Hl) as (i & A). apply (Ks m i q A Oq Kq). }
  set (a2 := (S (S a1) + 2 * length l2)%nat). destruct (run_keeps ps ss pn sn R w k l2 _ w2 _ S2 (Rle a2 ltac:(unfold a2, a1; lia)) F2 Sets2 St1) as (v' & (e & He & Ve & _) & V').
  pose proof (run_alone ps ss pn sn R w l2 _ w2 S2 (Rle a2 ltac:(unfold a2, a1; lia)) F2) as S3. set (w3 := fst (one_by_one pn sn w2 l2)) in *.
  destruct (get_alone ps ss pn sn R w a2 w3 q2 S3 (Rle a2 ltac:(unfold a2, a1; lia)) O2 ltac:(apply (Plg m2 i2 q2 (proj1 (proj2 A2)) O2))) as (Ans2 & _). rewrite K2, He, Ve in Ans2.
  assert (Run : snd (one_by_one pn sn w l) = snd (one_by_one pn sn w l1) ++ (m1, snd (router pn sn w1 q1)) :: snd (one_by_one pn sn w2 l2) ++ (m2, snd (router pn sn w3 q2)) :: snd (one_by_one pn sn (fst (router pn sn w3 q2)) l3)).
  { rewrite El, one_by_one_app. cbn [snd one_by_one fst]. rewrite one_by_one_app. reflexivity. }
  assert (Uq : forall l0 w0 m r r', NoDup (map moment l0) -> In (m, r) (snd (one_by_one pn sn w0 l0)) -> In (m, r') (snd (one_by_one pn sn w0 l0)) -> r = r').
  { induction l0 as [|[x q|x d] l0 IH]; intros w0 m r r' N H H'; cbn [one_by_one snd map] in *; [destruct H| |inversion N; subst; eapply IH; eassumption].
    inversion N as [|? ? Nx Nl]; subst. destruct H as [H|H], H' as [H'|H']; [congruence| | |eapply IH; eassumption].
    - injection H as <- _. exfalso. apply Nx. eapply one_by_one_moments. exact H'.
    - injection H' as <- _. exfalso. apply Nx. eapply one_by_one_moments. exact H. }
  assert (R1 : r1 = snd (router pn sn w1 q1)).
  { apply (Uq l w m1); [apply L|apply (l_ans _ _ _ _ _ _ _ L m1 n1 i1 q1 r1 A1)|]. rewrite Run. apply in_or_app. right. left. reflexivity. }
  assert (R2 : r2 = snd (router pn sn w3 q2)).
  { apply (Uq l w m2); [apply L|apply (l_ans _ _ _ _ _ _ _ L m2 n2 i2 q2 r2 A2)|]. rewrite Run. apply in_or_app. right. right. apply in_or_app. right. left. reflexivity. }
  split; [rewrite R1; exact Ans1|]. destruct V' as [->|(m3 & q3 & I3 & Sk3 & ->)].
  - exists i1, q1, m1. split; [apply A1|]. split; [apply (Ks m1 i1 q1 (proj1 (proj2 A1)) O1 K1)|]. split; [rewrite R2; exact Ans2|left; reflexivity].
  - assert (Hl : In (SReq m3 q3) l) by (rewrite El; apply in_or_app; right; right; apply in_or_app; left; exact I3). destruct (l_req _ _ _ _ _ _ _ L m3 q3 Hl) as (i3 & A3).
    exists i3, q3, m3. split; [exact A3|]. split; [exact Sk3|]. split; [rewrite R2; exact Ans2|]. right. intros (n3 & r3 & A3' & Lt3).
    assert (B3 : before (map moment l) m3 m1) by (apply (l_order _ _ _ _ _ _ _ L m3 n3 m1); [right; exists i3, q3, r3; exact A3'|exact Lt3|apply (in_map moment) in I1; exact I1]).
    apply (before_once (map moment l) m1 m3); [apply L| |exact B3]. apply in_split in I3. destruct I3 as (a & b & ->).
    exists (map moment l1), (map moment a), (map moment (b ++ SReq m2 q2 :: l3)). rewrite El, !map_app. cbn [map moment]. rewrite !map_app. cbn [map moment]. rewrite <- app_assoc. reflexivity.
Qed.
Print Assumptions C77_acknowledged_sets_are_seen.

(** So if that set is the only one of its key, or all others were over before it was read, the get returns its value. *)
Theorem C77_last_set_is_seen : forall ps ss pn sn w streams v,
  two_rings ps ss pn sn -> good_world (2 * Z.of_nat (length (rt_log v))) (ps ++ ss) w -> plain_requests (ps ++ ss) w (rt_log v) ->
  rtsteps meta_server link_tick pn sn (router_started w streams) v ->
  forall k i1 q1 m1 n1 r1 i2 q2 m2 n2 r2,
  (forall m i q, at_ (rt_log v) m (ERead i q) -> q_opcode q = OpcSet -> q_key q = k -> sets_key k q /\ (m = m1 \/ exists n r, answered (rt_log v) i q m n r /\ (n < m1)%nat)) ->
  answered (rt_log v) i1 q1 m1 n1 r1 -> q_opcode q1 = OpcSet -> q_key q1 = k ->
  (n1 < m2)%nat -> answered (rt_log v) i2 q2 m2 n2 r2 -> q_opcode q2 = OpcGet -> q_key q2 = k ->
  r2 = Ok [mkRes k None None (q_value q1) 0 0].
Proof.
  intros ps ss pn sn w streams v R G Pl Sv k i1 q1 m1 n1 r1 i2 q2 m2 n2 r2 Ks A1 O1 K1 Lt A2 O2 K2.
  destruct (C77_acknowledged_sets_are_seen ps ss pn sn w streams v R G Pl Sv k i1 q1 m1 n1 r1 i2 q2 m2 n2 r2 ltac:(intros m i q A Oq Kq; apply (Ks m i q A Oq Kq)) A1 O1 K1 Lt A2 O2 K2)
    as (_ & i3 & q3 & m3 & A3 & Sk & E & D). destruct (Ks m3 i3 q3 A3 (proj1 Sk) (proj1 (proj2 Sk))) as (_ & D').
  assert (m3 = m1) as -> by (destruct D as [D|D]; [exact D|]; destruct D' as [D'|D']; [exact D'|]; exfalso; apply D; exact D').
  pose proof (at_fun _ _ _ _ A3 (proj1 (proj2 A1))) as Q. injection Q as _ ->. exact E.
Qed.
Print Assumptions C77_last_set_is_seen.

(** Client 0 stores 5 and is answered; client 2's set is between its two calls when client 1 gets the key. *)
Definition three_clients (i : nat) : bytes :=
  match i with 0%nat => B "set x 0 0 1" ++ crlf ++ B "5" ++ crlf | 1%nat => B "get x" ++ crlf | 2%nat => B "set x 0 0 1" ++ crlf ++ B "7" ++ crlf | _ => [] end.
Ltac each_moment m A := destruct m as [|m]; [unfold at_ in A; cbn in A; try discriminate A|first [solve [destruct m; discriminate A]|each_moment m A]].
Example C77_met : two_rings [sv_a] [sv_b] prim_a sec_b
  /\ exists v, rtsteps meta_server link_tick prim_a sec_b (router_started new_memcacheds three_clients) v
     /\ good_world (2 * Z.of_nat (length (rt_log v))) ([sv_a] ++ [sv_b]) new_memcacheds /\ plain_requests ([sv_a] ++ [sv_b]) new_memcacheds (rt_log v)
     /\ (forall m i q, at_ (rt_log v) m (ERead i q) -> q_opcode q = OpcSet -> q_key q = B "x" -> sets_key (B "x") q)
     /\ exists q1 q2 q3, answered (rt_log v) 0 q1 0 3 (Ok [empty_response]) /\ q_opcode q1 = OpcSet /\ q_key q1 = B "x" /\ q_value q1 = B "5"
        /\ answered (rt_log v) 1 q2 6 9 (Ok [mkRes (B "x") None None (B "7") 0 0]) /\ q_opcode q2 = OpcGet /\ q_key q2 = B "x"
        /\ at_ (rt_log v) 4 (ERead 2 q3) /\ sets_key (B "x") q3 /\ q_value q3 = B "7" /\ ~ exists n r, answered (rt_log v) 2 q3 4 n r.
Proof.
  split; [apply rings_a_b|].
  apply (ran _ _ [CAccept 0; CAccept 1; CAccept 2; CRead 0; CCall 0; CCall 0; CReturn 0; CReply 0; CRead 2; CTime 3; CRead 1; CCall 2; CCall 1; CReturn 1]).
  set (r := ab_run _ _ _). vm_compute in r. subst r. cbn [rt_log].
  split; [apply new_good; cbn; lia|]. split; [|split].
  - split.
    + intros m i q o A Oq Qs. each_moment m A; injection A as <- <-; cbn in Oq, Qs; try discriminate Oq; injection Qs as <-;
        (split; [split; [split; [cbn; lia|constructor; [cbn; lia|constructor]]|split; [cbn; split; [reflexivity|intros _; vm_compute; reflexivity]|split; [cbn; lia|split; [cbn; lia|cbn; lia]]]]|split; [reflexivity|intros s _; cbn; lia]]).
    + intros m i q A Oq. each_moment m A; injection A as <- <-; cbn in Oq; try discriminate Oq. split; [cbn; lia|constructor; [cbn; lia|constructor]].
  - intros m i q A Oq Kq. each_moment m A; injection A as <- <-; cbn in Oq; try discriminate Oq; (split; [reflexivity|split; [reflexivity|eexists; split; reflexivity]]).
  - eexists _, _, _. split; [split; [lia|split; [reflexivity|split; [reflexivity|]]]|].
    { intros m e Rm A. do 3 (destruct m as [|m]; [try lia; injection A as <-; reflexivity|]). lia. }
    do 3 (split; [reflexivity|]). split; [split; [lia|split; [reflexivity|split; [reflexivity|]]]|].
    { intros m e Rm A. do 9 (destruct m as [|m]; [try lia; injection A as <-; reflexivity|]). lia. }
    do 2 (split; [reflexivity|]). split; [reflexivity|]. split; [split; [reflexivity|split; [reflexivity|eexists; split; reflexivity]]|]. split; [reflexivity|].
    intros (n & r & _ & _ & A & _). each_moment n A.
Qed.
