(** * C81: the router when a backend's connection is lost. *)
From Verif Require Import GoBytes GoNum GoIO GoBufio GoWriter Item ClientText ClientMeta ClientBinary Cache Daemon Spec Call Guard Transport Hash Ring RingSpec RingData Pool PoolSpec Replica ReplicaSpec
  ServerTypes ServerParse ServerWrite Serve ServerConc ServerSpec Proxy RouterConc RouterFail PLib PDaemon PCache PMeta PClient PRing PPool PMulti PReplica PServer PServe PropServer PropServerConc PropReplica PropProxy PropRouter PropRouterLin PropRouterRest.
From Verif Require PropPool PropPool PropReply Lifecycle PWriter PLifecycle PropLifecycle.
Local Open Scope Z_scope.

(** ** The connection *)
(** After its connection broke, a server object of any protocol on which nobody calls Reconnect or Close fails every call
    with an input/output error, for ever (calls that cannot even build their request panic instead, C57). *)
Definition calls_and_time (pr : proto) (e : Lifecycle.levent) : Prop :=
  match e with Lifecycle.LCall o _ => PropReply.crashing_arguments pr o = false | Lifecycle.LWait _ | Lifecycle.LBreak => True | _ => False end.
Definition broken (w : Lifecycle.world) : Prop :=
  (exists b, Lifecycle.so_raw (Lifecycle.w_obj w) = Some b) /\ PLifecycle.sound (Lifecycle.so_writer (Lifecycle.w_obj w)) /\ wc_room (bw_conn (Lifecycle.so_writer (Lifecycle.w_obj w))) = 0%nat.
Lemma broken_life : forall pr name evs w, broken w -> Forall (calls_and_time pr) evs -> Forall (eq (Err EIO)) (snd (Lifecycle.life pr name w evs)).
Proof.
  intros pr name. induction evs as [|e evs IH]; intros w Bk F; [constructor|]. apply Forall_cons_iff in F. destruct F as [C F]. cbn [Lifecycle.life snd fst].
  destruct Bk as ((b & Er) & Sw & Rm).
  destruct e as [o sched| |d| |d]; cbn [calls_and_time] in C; try contradiction; cbn [Lifecycle.lstep].
  - destruct (PropLifecycle.not_crashing pr name (Lifecycle.so_header (Lifecycle.w_obj w)) o C) as [rq E].
    destruct (PLifecycle.send_no_room pr name _ o rq _ E Sw Rm) as [Es Ec]. pose proof (PLifecycle.send_sound (writes_of pr (Lifecycle.so_header (Lifecycle.w_obj w)) o) _ Sw) as Ss.
    assert (G : exists w', broken w' /\ Lifecycle.do_call pr name w o sched = (w', Err EIO)).
    { unfold Lifecycle.do_call. rewrite Er. destruct (send (Lifecycle.so_writer (Lifecycle.w_obj w)) (writes_of pr (Lifecycle.so_header (Lifecycle.w_obj w)) o)) as [r bw]. cbn [fst snd] in *. subst r.
      destruct (daemon _ _ _) as [[c' reply] pend']. eexists. split; [|destruct pr; reflexivity].
      split; [eexists; reflexivity|]. cbn [Lifecycle.w_obj Lifecycle.so_writer]. rewrite Ec. auto. }
    destruct G as (w' & Bk & ->). cbn [fst snd app]. constructor; [reflexivity|]. apply IH; assumption.
  - cbn [fst snd app]. apply IH; [|exact F]. split; [exists b; exact Er|]. cbn [Lifecycle.do_break Lifecycle.w_obj Lifecycle.so_writer]. split; [apply PLifecycle.dead_sound; exact Sw|reflexivity].
  - cbn [fst snd app]. apply IH; [|exact F]. split; [exists b; exact Er|split; assumption].
Qed.
Theorem C81_a_lost_connection_stays_lost : forall pr name room h c before after,
  Forall (calls_and_time pr) before -> Forall (calls_and_time pr) after ->
  Forall (eq (Err EIO)) (snd (Lifecycle.life pr name (Lifecycle.do_break (fst (Lifecycle.life pr name (Lifecycle.opened room h c) before))) after)).
Proof.
  intros pr name room h c before after Fb Fa. apply broken_life; [|exact Fa]. set (w := fst (Lifecycle.life pr name (Lifecycle.opened room h c) before)).
  assert (T : PropLifecycle.tidy pr w) by (apply PropLifecycle.tidy_life; apply PropLifecycle.tidy_open).
  assert (Er : exists b, Lifecycle.so_raw (Lifecycle.w_obj w) = Some b).
  { clear T Fa. subst w. set (w0 := Lifecycle.opened room h c). assert (E0 : exists b, Lifecycle.so_raw (Lifecycle.w_obj w0) = Some b) by (eexists; reflexivity). clearbody w0. clear room h c after. revert w0 E0.
    induction Fb as [|e evs C F IH]; intros w0 E0; [exact E0|]. cbn [Lifecycle.life fst]. apply IH. destruct E0 as [b E0].
    destruct e as [o sched| |d| |d]; cbn [calls_and_time] in C; try contradiction; cbn [Lifecycle.lstep fst]; try (exists b; exact E0).
    exists b. unfold Lifecycle.do_call. rewrite E0. destruct (send _ _) as [r bw]. destruct (daemon _ _ _) as [[c' reply] pend']. destruct r; [destruct (run_bufio _ _)| |]; destruct pr; reflexivity. }
  split; [exact Er|]. cbn [Lifecycle.do_break Lifecycle.w_obj Lifecycle.so_writer]. split; [apply PLifecycle.dead_sound; exact (proj1 T)|reflexivity].
Qed.
Print Assumptions C81_a_lost_connection_stays_lost.

(** ** The router *)
Definition flags4 (q : srequest) : Prop := forall f, q_flags q = Some f -> zlen f = 4.
Lemma bind_inv : forall A C (m : reader A) (f : A -> reader C) s b s', bind m f s = (Ok b, s') -> exists a s1, m s = (Ok a, s1) /\ f a s1 = (Ok b, s').
Proof. intros A C m f s b s' E. unfold bind in E. destruct (m s) as [[a|e|] s1]; try discriminate E. exists a, s1. auto. Qed.
Definition sane (q : srequest) : Prop := flags4 q /\ (q_opcode q = OpcSet -> q_set q <> None).
Lemma ascii_flags : forall f s q s', ascii_command f s = (Ok q, s') -> sane q.
Proof.
  intros f s q s' E. unfold ascii_command in E. destruct f as [|cmd args]; [discriminate E|].
  repeat match type of E with
  | (if ?b then _ else _) _ = _ => destruct b
  | (match ?a with [] => _ | _ :: _ => _ end) _ = _ => destruct a
  end; try discriminate E;
  repeat (apply bind_inv in E; destruct E as (? & ? & _ & E)); try injection E as <- <-; (split; [intros f Ef; try discriminate Ef|let H := fresh in cbn; intro H; try discriminate; repeat match type of H with context [if ?b then _ else _] => destruct b end; discriminate H]). cbn in Ef. injection Ef as <-. reflexivity.
Qed.
Lemma binary_flags : forall s q s', read_binary_request s = (Ok q, s') -> sane q.
Proof.
  intros s q s' E. unfold read_binary_request in E. apply bind_inv in E. destruct E as (h & s1 & _ & E). destruct (negb _); [discriminate E|].
  repeat match type of E with (if ?b then _ else _) _ = _ => destruct b end; try discriminate E;
  repeat (apply bind_inv in E; let H := fresh in destruct E as (? & ? & H & E)); try injection E as <- <-; (split; [intros f Ef; try discriminate Ef|let H := fresh in cbn; intro H; try discriminate; repeat match type of H with context [if ?b then _ else _] => destruct b end; discriminate H]).
  cbn [q_flags] in Ef. injection Ef as <-.
  match goal with H : go_sub _ 0 4 _ = (Ok ?x, _) |- _ => unfold go_sub, go_slice in H; match type of H with context [if ?c then _ else _] => destruct c eqn:G end; [|discriminate H]; injection H as <- _ end.
  rewrite ?andb_true_iff, ?Z.leb_le in G. unfold zlen in *. destruct x as [|a [|b [|d [|e x]]]]; cbn in *; lia.
Qed.
Lemma read_flags : forall p s q s' p', read_request p s = ((Ok q, s'), p') -> sane q.
Proof.
  intros p s q s' p' E. unfold read_request in E. assert (A : forall s1 s2, read_ascii_request s1 = (Ok q, s2) -> sane q).
  { intros s1 s2 Ea. unfold read_ascii_request in Ea. apply bind_inv in Ea. destruct Ea as (l & s3 & _ & Ea). eapply ascii_flags. exact Ea. }
  destruct p as [[|]|]; [| |destruct s as [|c s0]; [discriminate E|destruct (code c =? magic_request)]]; injection E as E _; try (eapply A; exact E); eapply binary_flags; exact E.
Qed.

(** A call made for such a request can build its bytes. *)
Lemma get_builds : forall h k, fst (cl_req meta_client h (OGet k)) <> Panic.
Proof. intros h k. discriminate. Qed.
Lemma set_builds : forall h q so, flags4 q -> fst (cl_req meta_client h (OSet (proxy_item q so))) <> Panic.
Proof.
  intros h q so F. cbn [meta_client cl_req fst meta_req]. unfold meta_set_req. cbn [proxy_item it_flags]. destruct (q_flags q) as [f|] eqn:Ef; [|discriminate].
  rewrite (F f Ef). discriminate.
Qed.
Lemma back_down : forall b o, bk_up b = false -> bk_up (fst (back_call b o)) = false /\ bk_link (fst (back_call b o)) = bk_link b
  /\ (fst (cl_req meta_client (l_header (bk_link b)) o) <> Panic -> snd (back_call b o) = Err EIO).
Proof. intros b o D. unfold back_call. rewrite D. cbn [fst snd bk_up bk_link]. split; [reflexivity|]. split; [reflexivity|]. destruct (fst (cl_req _ _ _)); congruence. Qed.

Section Lost.
Variables (ps ss : list server) (pn sn : list node).
Hypothesis R : two_rings ps ss pn sn.
Notation steps := (rtsteps back_call back_tick pn sn).

Lemma down_stays : forall id v u, rtstep back_call back_tick pn sn v u -> bk_up (rt_world v id) = false -> bk_up (rt_world u id) = false.
Proof.
  intros id v u St D. destruct St; cbn [rt_world]; try exact D. subst wr. unfold server_call, upd. cbn [fst]. destruct (Nat.eqb_spec id (sv_id sv)) as [->|N]; [apply back_down; exact D|exact D].
Qed.

Lemma step_sane : forall v u, rtstep back_call back_tick pn sn v u -> (forall i q, sc_phase (rt_conns v i) = Calling q -> sane q) -> forall i q, sc_phase (rt_conns u i) = Calling q -> sane q.
Proof.
  intros v u St H i0 q0 C. destruct St as [v i s p out Dn Ls Hc|v Dn Ls|v i x' q Dn Mv Ph|v i s p out q sv o k' Dn Hc Hp|v i s p out q r Dn Hc Hp|v i x' Dn Mv Cl|v d Dn D]; cbn [rt_conns] in C;
    try (eapply H; exact C); (destruct (Nat.eq_dec i0 i) as [->|N]; [rewrite set_conn_same in C|rewrite set_conn_other in C by exact N; eapply H; exact C]); try discriminate C.
  - rewrite Ph in C. injection C as <-. inversion Mv; subst; cbn in Ph; try discriminate Ph. injection Ph as <-. eapply read_flags. eassumption.
  - unfold calling in Cl. rewrite C in Cl. discriminate Cl.
Qed.
Lemma steps_sane : forall w streams v, steps (router_started w streams) v -> forall i q, sc_phase (rt_conns v i) = Calling q -> sane q.
Proof.
  intros w streams v Sv. remember (router_started w streams) as v0 eqn:E0. induction Sv as [v|v u t Sv IH St]; subst; [intros i q C; discriminate C|]. eapply step_sane; [exact St|]. apply IH. reflexivity.
Qed.

(** Where a request may be, when it was read after the connection to the primary (or secondary) owner of its key was lost. *)
Variable id : nat.
Definition nowhere (q : srequest) (p : prog) : Prop :=
  (forall sv, pick pn (q_key q) = Ok sv -> sv_id sv = id -> passed_on (q_opcode q) = true -> p = proxy_prog pn sn q \/ p = Ret (Err EIO))
  /\ (forall sv, pick sn (q_key q) = Ok sv -> sv_id sv = id -> q_opcode q = OpcSet ->
        p = proxy_prog pn sn q \/ (exists so, p = Call sv (OSet (proxy_item q so)) Ret) \/ exists r, p = Ret r /\ forall x, r <> Ok x).
Record adrift (v1 v : router_state backend) : Prop := {
  a_down : bk_up (rt_world v id) = false;
  a_sane : forall i q, sc_phase (rt_conns v i) = Calling q -> sane q;
  a_prog : forall i q, (forall q', sc_phase (rt_conns v1 i) <> Calling q') -> sc_phase (rt_conns v i) = Calling q -> nowhere q (rt_prog v i);
  a_log : forall n i q r, (length (rt_log v1) <= n)%nat -> at_ (rt_log v) n (EAnswer i q r) -> (forall q', sc_phase (rt_conns v1 i) <> Calling q') ->
    (forall sv, pick pn (q_key q) = Ok sv -> sv_id sv = id -> passed_on (q_opcode q) = true -> r = Err EIO)
    /\ (forall sv, pick sn (q_key q) = Ok sv -> sv_id sv = id -> q_opcode q = OpcSet -> r <> Ok [empty_response])
}.
Lemma nowhere_call : forall (w : world backend) q sv o k, bk_up (w id) = false -> sane q -> nowhere q (Call sv o k) -> nowhere q (k (snd (server_call back_call w sv o))).
Proof.
  intros w q sv o k D [Fq Sq] [N1 N2]. unfold server_call. cbn [snd]. split.
  - intros p Pp Ip Pq. destruct (N1 p Pp Ip Pq) as [E|E]; [|discriminate E]. right. unfold proxy_prog in E. destruct (q_opcode q) eqn:Oq; try discriminate Pq.
    + cbn [rp_prog] in E. unfold rp_get, on_ring in E. rewrite Pp in E. injection E as -> -> ->. rewrite Ip. f_equal. apply back_down; [exact D|apply get_builds].
    + destruct (q_set q) as [so|] eqn:Qs; [|exfalso; apply (Sq eq_refl eq_refl)]. cbn [rp_prog] in E. unfold rp_store, on_ring in E. cbn [proxy_item it_key] in E. rewrite Pp in E. injection E as -> -> ->.
      change (mkItem (q_key q) (q_value q) (q_flags q) (s_exp so) (s_cas_value so) []) with (proxy_item q so). rewrite Ip. rewrite (proj2 (proj2 (back_down _ (OSet (proxy_item q so)) D))); [reflexivity|apply set_builds; exact Fq].
  - intros s Ps Is Oq. destruct (N2 s Ps Is Oq) as [E|[(so & E)|(r & E & _)]]; [| |discriminate E].
    + unfold proxy_prog in E. rewrite Oq in E. destruct (q_set q) as [so|] eqn:Qs; [|discriminate E]. cbn [rp_prog] in E. unfold rp_store, on_ring in E. cbn [proxy_item it_key] in E.
      destruct (pick pn (q_key q)) as [p| |] eqn:Pp; try discriminate E. injection E as -> -> ->. rewrite Ps. cbn [if_ok]. right.
      change (mkItem (q_key q) (q_value q) (q_flags q) (s_exp so) (s_cas_value so) []) with (proxy_item q so).
      destruct (snd (back_call (w (sv_id p)) (OSet (proxy_item q so)))) as [x|e|]; cbn [if_ok]; [left; exists so; reflexivity|right; eexists; split; [reflexivity|discriminate]|right; eexists; split; [reflexivity|discriminate]].
    + injection E as -> -> ->. right. right. eexists. split; [reflexivity|]. rewrite Is. rewrite (proj2 (proj2 (back_down _ (OSet (proxy_item q so)) D))); [discriminate|apply set_builds; exact Fq].
Qed.
Lemma adrift_step : forall v1 v u, adrift v1 v -> (length (rt_log v1) <= length (rt_log v))%nat -> rtstep back_call back_tick pn sn v u -> adrift v1 u.
Proof.
  intros v1 v u [D Sn P G] Len St. pose proof (down_stays id _ _ St D) as D'. pose proof (step_sane _ _ St Sn) as Sn'.
  assert (Oth : forall e, (forall i q r, e <> EAnswer i q r) -> forall n i q r, (length (rt_log v1) <= n)%nat -> at_ (rt_log v ++ [e]) n (EAnswer i q r) -> (forall q', sc_phase (rt_conns v1 i) <> Calling q') ->
     (forall sv, pick pn (q_key q) = Ok sv -> sv_id sv = id -> passed_on (q_opcode q) = true -> r = Err EIO)
     /\ (forall sv, pick sn (q_key q) = Ok sv -> sv_id sv = id -> q_opcode q = OpcSet -> r <> Ok [empty_response])).
  { intros e Ne n i q r L A F. apply at_snoc in A. destruct A as [A|[_ A]]; [eapply G; eassumption|exfalso; eapply Ne; symmetry; exact A]. }
  constructor; [exact D'|exact Sn'| |]; clear D' Sn';
  destruct St as [v i s p out Dn Ls Hc|v Dn Ls|v i x' q Dn Mv Ph|v i s p out q sv o k' Dn Hc Hp|v i s p out q r Dn Hc Hp|v i x' Dn Mv Cl|v d Dn D0]; cbn [rt_conns rt_log rt_prog rt_world] in *;
    try exact G; try (apply Oth; discriminate).
  - intros j q F C. destruct (Nat.eq_dec j i) as [->|N]; [rewrite set_conn_same in C; discriminate C|rewrite set_conn_other in C by exact N; apply P; assumption].
  - exact P.
  - intros j q' F C. destruct (Nat.eq_dec j i) as [->|N]; [rewrite set_conn_same, Ph in C; injection C as <-; rewrite set_prog_same; split; intros; left; reflexivity|].
    rewrite set_conn_other in C by exact N. rewrite set_prog_other by exact N. apply P; assumption.
  - intros j q' F C. destruct (Nat.eq_dec j i) as [->|N]; [|rewrite set_prog_other by exact N; apply P; assumption]. rewrite set_prog_same. apply nowhere_call; [exact D|apply (Sn i); exact C|]. rewrite <- Hp. apply P; assumption.
  - intros j q' F C. destruct (Nat.eq_dec j i) as [->|N]; [rewrite set_conn_same in C; discriminate C|rewrite set_conn_other in C by exact N; apply P; assumption].
  - intros j q F C. destruct (Nat.eq_dec j i) as [->|N]; [rewrite set_conn_same in C; unfold calling in Cl; rewrite C in Cl; discriminate Cl|rewrite set_conn_other in C by exact N; apply P; assumption].
  - exact P.
  - intros n j q' r' L A F. apply at_snoc in A. destruct A as [A|[-> A]]; [eapply G; eassumption|]. injection A as -> -> ->.
    assert (Cq : sc_phase (rt_conns v i) = Calling q) by (rewrite Hc; reflexivity). destruct (P i q F Cq) as [P1 P2]. destruct (Sn i q Cq) as [Fq Sq]. rewrite Hp in P1, P2. split.
    + intros sv Pp Ip Pq. assert (E : r = Err EIO).
      { destruct (P1 sv Pp Ip Pq) as [E|E]; [|injection E as ->; reflexivity]. exfalso. unfold proxy_prog in E. destruct (q_opcode q); try discriminate Pq; [|destruct (q_set q); [|apply (Sq eq_refl eq_refl)]];
          cbn [rp_prog] in E; unfold rp_get, rp_store, on_ring in E; cbn [proxy_item it_key] in E; rewrite Pp in E; discriminate E. }
      subst r. unfold proxy_answer. destruct (q_opcode q); try discriminate Pq; reflexivity.
    + intros sv Ps Is Oq. destruct (owner_p _ _ _ _ R (q_key q)) as (p0 & Pp & _). assert (E : forall x, r <> Ok x).
      { destruct (P2 sv Ps Is Oq) as [E|[(so & E)|(r0 & E & Ne)]]; [|discriminate E|injection E as ->; exact Ne]. unfold proxy_prog in E. rewrite Oq in E.
        destruct (q_set q); [|injection E as ->; discriminate]. cbn [rp_prog] in E. unfold rp_store, on_ring in E. cbn [proxy_item it_key] in E. rewrite Pp in E. discriminate E. }
      unfold proxy_answer. rewrite Oq. destruct r as [x|e|]; [exfalso; exact (E x eq_refl)| |discriminate]. unfold answer_error. destruct (is_memcached_error e); discriminate.
Qed.
Lemma adrift_steps : forall v1 v, steps v1 v -> adrift v1 v1 -> adrift v1 v /\ (length (rt_log v1) <= length (rt_log v))%nat.
Proof.
  intros v1 v Sv. induction Sv as [v|v u t Sv IH St]; intro A1; [split; [exact A1|lia]|]. destruct (IH A1) as [A L]. split; [eapply adrift_step; eassumption|].
  destruct (log_grows _ _ _ _ _ _ _ St) as (l & El & _). rewrite El, app_length. lia.
Qed.
End Lost.

(** ** C81 *)
(** From the moment [v1] on, the router has no connection to backend [id] any more. Then, for ever: every get and every set
    of a key whose primary is that backend fails, and no set of a key whose secondary it is is answered positively. (Except
    for requests that were already under way at [v1].) *)
Theorem C81_its_keys_are_lost_for_ever : forall ps ss pn sn w streams v1 v2 id,
  two_rings ps ss pn sn -> rtsteps back_call back_tick pn sn (router_started w streams) v1 -> bk_up (rt_world v1 id) = false ->
  rtsteps back_call back_tick pn sn v1 v2 ->
  forall n i q r, (length (rt_log v1) <= n)%nat -> at_ (rt_log v2) n (EAnswer i q r) -> (forall q', sc_phase (rt_conns v1 i) <> Calling q') ->
  (forall sv, pick pn (q_key q) = Ok sv -> sv_id sv = id -> q_opcode q = OpcGet \/ q_opcode q = OpcSet -> r = Err EIO)
  /\ (forall sv, pick sn (q_key q) = Ok sv -> sv_id sv = id -> q_opcode q = OpcSet -> r <> Ok [empty_response]).
Proof.
  intros ps ss pn sn w streams v1 v2 id R S1 D S2 n i q r L A F.
  assert (A1 : adrift pn sn id v1 v1).
  { constructor; [exact D|eapply steps_sane; eassumption| |].
    - intros j q' F' C. exfalso. exact (F' q' C).
    - intros n' j q' r' L' A' _. apply at_lt in A'. lia. }
  destruct (adrift_steps ps ss pn sn R id v1 v2 S2 A1) as [A2 _]. destruct (a_log _ _ _ _ _ A2 n i q r L A F) as [X Y]. split; [|exact Y].
  intros sv Pp Ip O. apply (X sv Pp Ip). destruct O as [-> | ->]; reflexivity.
Qed.
Print Assumptions C81_its_keys_are_lost_for_ever.

(** A failed request ends its client's connection, and nothing is written to it. *)
Theorem C81_a_failed_request_ends_the_connection : forall ST (step : ST -> op -> ST * outcome result) later pn sn v u i s p out q e,
  rt_conns v i = mkSC s p (Answered q (Err e)) out -> rtstep step later pn sn v u ->
  rt_conns u i = rt_conns v i \/ rt_conns u i = mkSC s p (Over (Closed e)) out.
Proof.
  intros ST step later pn sn v u i s p out q e Hi St.
  destruct St as [v j s1 p1 out1 Dn Ls Hc|v Dn Ls|v j x' q1 Dn Mv Ph|v j s1 p1 out1 q1 sv o k' Dn Hc Hp|v j s1 p1 out1 q1 r Dn Hc Hp|v j x' Dn Mv Cl|v d Dn D0]; cbn [rt_conns];
    try (left; reflexivity); (destruct (Nat.eq_dec i j) as [<-|N]; [|left; apply set_conn_other; exact N]); try congruence; rewrite Hi in Mv; inversion Mv; subst; [discriminate Ph|]; right; apply set_conn_same.
Qed.
Print Assumptions C81_a_failed_request_ends_the_connection.

(** The other backends are not affected: a backend whose connection meets no fault executes and answers the calls made on
    it exactly as a memcached whose connection is used by one client, whatever happens to the others. *)
Theorem C81_other_backends_work_on_partial : forall ps ss pn sn w faults streams v id,
  two_rings ps ss pn sn -> rtsteps back_call back_tick pn sn (router_started (backends w faults) streams) v -> faults id = [] ->
  one_at_a_time meta_server link_tick id (w id) (rt_log v) (bk_link (rt_world v id)) /\ bk_up (rt_world v id) = true.
Proof.
  intros ps ss pn sn w faults streams v id R Sv Fid.
  pose proof (C76_backends_execute_one_call_at_a_time _ _ _ _ _ _ _ _ _ _ R Sv id) as H. unfold backends in H. rewrite Fid in H.
  remember (mkBack (w id) true []) as b eqn:Eb. assert (U : bk_up b = true /\ bk_faults b = [] /\ bk_link b = w id) by (subst b; auto). clear Eb. revert U. generalize (w id). 
  induction H as [b|b i sv o a b' log b'' Is Es H IH|b d log b'' H IH|b e log b'' Ne H IH]; intros l (U & F & E).
  - rewrite <- E. split; [constructor|exact U].
  - unfold back_call in Es. rewrite U, F in Es. injection Es as <- <-. destruct (IH (fst (meta_server l o))) as [I1 I2]; [cbn [bk_up bk_faults bk_link]; rewrite E; auto|].
    split; [|exact I2]. eapply O_call; [exact Is|rewrite E; apply surjective_pairing|exact I1].
  - destruct (IH (link_tick l d)) as [I1 I2]; [cbn [back_tick bk_up bk_faults bk_link]; rewrite E; auto|]. split; [|exact I2]. apply O_time. exact I1.
  - destruct (IH l) as [I1 I2]; [auto|]. split; [|exact I2]. apply O_other; assumption.
Qed.
Print Assumptions C81_other_backends_work_on_partial.

(** When only the secondary is lost, a set is done by half: the primary stores the item, the secondary keeps what it has,
    and the client is told nothing but the end of its connection. *)
Theorem C81_sets_are_done_by_half : forall ps ss pn sn w q o p s c h now,
  two_rings ps ss pn sn -> q_opcode q = OpcSet -> q_set q = Some o -> legal_item PMeta (proxy_item q o) -> s_cas_value o = 0 ->
  pick pn (q_key q) = Ok p -> pick sn (q_key q) = Ok s ->
  w (sv_id p) = mkBack (fresh_link c h) true [] -> wf PMeta c -> c_cas c < 2 ^ 63 -> c_now c = now -> zlen (q_value q) <= cf_limit (c_cfg c) ->
  bk_up (w (sv_id s)) = false ->
  let w' := fst (exec back_call (proxy_prog pn sn q) w) in
  proxy_answer q (snd (exec back_call (proxy_prog pn sn q) w)) = Err EIO
  /\ same_entry (lookup (l_cache (bk_link (w' (sv_id p)))) (q_key q)) (set_entry now (proxy_item q o))
  /\ (forall id, id <> sv_id p -> bk_link (w' id) = bk_link (w id)) /\ bk_up (w' (sv_id p)) = true.
Proof.
  intros ps ss pn sn w q o p s c h now R Oq Qs Li Ci Pp Ps Ep Wf Cc Nw V D w'.
  assert (Ap : sv_id p <> sv_id s) by (eapply apart; [exact R|eapply owner_in_p; eassumption|eapply owner_in_s; eassumption]).
  assert (Fl : flags4 q).
  { intros f Ef. destruct Li as (_ & Lf & _). unfold legal_flags in Lf. cbn [proxy_item it_flags] in Lf. rewrite Ef in Lf. unfold zlen. rewrite (proj1 Lf). reflexivity. }
  assert (E1 : server_call back_call w p (OSet (proxy_item q o)) = (upd w (sv_id p) (mkBack (fresh_link (stored c (proxy_item q o)) h) true []), Ok RUnit)).
  { unfold server_call. rewrite Ep. unfold back_call. cbn [bk_up bk_faults bk_link tl]. rewrite (plain_set_ok c h (proxy_item q o) Wf Cc Li Ci V). reflexivity. }
  set (w1 := upd w (sv_id p) (mkBack (fresh_link (stored c (proxy_item q o)) h) true [])) in *.
  assert (D1 : bk_up (w1 (sv_id s)) = false) by (unfold w1; rewrite upd_other by congruence; exact D).
  destruct (back_down (w1 (sv_id s)) (OSet (proxy_item q o)) D1) as (_ & L2 & A2). specialize (A2 (set_builds _ q o Fl)).
  assert (E2 : exec back_call (proxy_prog pn sn q) w = (upd w1 (sv_id s) (fst (back_call (w1 (sv_id s)) (OSet (proxy_item q o)))), Err EIO)).
  { unfold proxy_prog. rewrite Oq, Qs. cbn [rp_prog]. unfold rp_store, on_ring. change (it_key (proxy_item q o)) with (q_key q). rewrite Pp. cbn [exec]. rewrite E1. cbn [fst snd if_ok]. rewrite Ps. cbn [exec]. unfold server_call. rewrite A2. reflexivity. }
  subst w'. rewrite E2. cbn [fst snd]. split; [unfold proxy_answer; rewrite Oq; reflexivity|].
  rewrite !(upd_other _ (sv_id s)) by exact Ap. unfold w1 at 1 4. rewrite !upd_same. cbn [bk_link fresh_link l_cache bk_up]. split; [|split; [|reflexivity]].
  - pose proof (stored_as now c (proxy_item q o) Nw) as X. exact X.
  - intros id N. destruct (Nat.eq_dec id (sv_id s)) as [->|N2]; [rewrite upd_same, L2; unfold w1; rewrite upd_other by congruence; reflexivity|]. rewrite upd_other by exact N2. unfold w1. rewrite upd_other by exact N. reflexivity.
Qed.
Print Assumptions C81_sets_are_done_by_half.

(** The set during which the connection to the primary is lost: its client is told nothing but the end of its connection, the
    secondary is not asked, and whether the item was stored depends on when the connection was lost, which nobody is told:
    not at all if the backend had not got the whole request, completely if it had. *)
Theorem C81_a_set_cut_off : forall ps ss pn sn w q o p c h now f fs,
  two_rings ps ss pn sn -> q_opcode q = OpcSet -> q_set q = Some o -> legal_item PMeta (proxy_item q o) -> s_cas_value o = 0 ->
  pick pn (q_key q) = Ok p ->
  w (sv_id p) = mkBack (fresh_link c h) true (f :: fs) -> f <> Fine -> wf PMeta c -> c_cas c < 2 ^ 63 -> c_now c = now -> zlen (q_value q) <= cf_limit (c_cfg c) ->
  let w' := fst (exec back_call (proxy_prog pn sn q) w) in
  proxy_answer q (snd (exec back_call (proxy_prog pn sn q) w)) = Err EIO
  /\ bk_up (w' (sv_id p)) = false /\ (forall id, id <> sv_id p -> w' id = w id)
  /\ (f = LostBefore -> bk_link (w' (sv_id p)) = bk_link (w (sv_id p)))
  /\ (f = LostAfter -> same_entry (lookup (l_cache (bk_link (w' (sv_id p)))) (q_key q)) (set_entry now (proxy_item q o))
        /\ forall k, k <> q_key q -> lookup (l_cache (bk_link (w' (sv_id p)))) k = lookup c k).
Proof.
  intros ps ss pn sn w q o p c h now f fs R Oq Qs Li Ci Pp Ep Nf Wf Cc Nw V w'.
  assert (Fl : flags4 q).
  { intros g Ef. destruct Li as (_ & Lf & _). unfold legal_flags in Lf. cbn [proxy_item it_flags] in Lf. rewrite Ef in Lf. unfold zlen. rewrite (proj1 Lf). reflexivity. }
  pose proof (set_builds (l_header (fresh_link c h)) q o Fl) as Sb.
  set (l' := match f with LostAfter => fresh_link (stored c (proxy_item q o)) h | _ => fresh_link c h end).
  assert (E1 : server_call back_call w p (OSet (proxy_item q o)) = (upd w (sv_id p) (mkBack l' false fs), Err EIO)).
  { unfold server_call. rewrite Ep. unfold back_call. cbn [bk_up bk_faults bk_link tl]. rewrite (plain_set_ok c h (proxy_item q o) Wf Cc Li Ci V). cbn [fst].
    destruct (fst (cl_req meta_client (l_header (fresh_link c h)) (OSet (proxy_item q o)))); try congruence; (destruct f; [congruence|reflexivity|reflexivity]). }
  assert (E2 : exec back_call (proxy_prog pn sn q) w = (upd w (sv_id p) (mkBack l' false fs), Err EIO)).
  { unfold proxy_prog. rewrite Oq, Qs. cbn [rp_prog]. unfold rp_store, on_ring. change (it_key (proxy_item q o)) with (q_key q). rewrite Pp. cbn [exec]. rewrite E1. reflexivity. }
  subst w'. rewrite E2. cbn [fst snd]. split; [unfold proxy_answer; rewrite Oq; reflexivity|]. rewrite upd_same, Ep. cbn [bk_up bk_link]. split; [reflexivity|].
  split; [intros id N; apply upd_other; exact N|]. unfold l'. split; intros ->; [reflexivity|]. cbn [fresh_link l_cache]. split; [exact (stored_as now c (proxy_item q o) Nw)|].
  intros k N. unfold lookup, stored, Cache.put, put_entry. cbn [c_map c_now proxy_item it_key]. rewrite (proj2 (beq_neq _ _) N). reflexivity.
Qed.
Print Assumptions C81_a_set_cut_off.

(** The replica does not help: a get of a key whose primary is lost fails although the secondary has the item. *)
Definition ab_lost (w : world link) (faults : nat -> list call_fault) (streams : nat -> bytes) (l : list choice) : option (router_state backend) :=
  chosen back_call back_tick (one sv_a) (one sv_b) (router_started (backends w faults) streams) l.
Lemma ran_lost : forall w faults streams l (P : router_state backend -> Prop), match ab_lost w faults streams l with Some v => P v | None => False end ->
  exists v, rtsteps back_call back_tick prim_a sec_b (router_started (backends w faults) streams) v /\ P v.
Proof.
  intros w faults streams l P H. destruct (ab_lost w faults streams l) as [v|] eqn:E; [|contradiction]. exists v. split; [|exact H].
  eapply rtsteps_ext; [apply proxy_prog_ab|]. eapply chosen_ok; [exact E|constructor].
Qed.
Definition links (v : router_state backend) : world link := fun n => bk_link (rt_world v n).
Definition second_call_lost (n : nat) : list call_fault := match n with 0%nat => [Fine; LostBefore] | _ => [] end.
Theorem C81_the_secondary_takes_over_refuted : ~ (forall ps ss pn sn w faults streams v i q r n s e,
  two_rings ps ss pn sn -> good_world (Z.of_nat (length (rt_log v))) (ps ++ ss) w ->
  rtsteps back_call back_tick pn sn (router_started (backends w faults) streams) v -> plain_requests (ps ++ ss) w (rt_log v) ->
  at_ (rt_log v) n (EAnswer i q r) -> S n = length (rt_log v) -> q_opcode q = OpcGet ->
  pick sn (q_key q) = Ok s -> faults (sv_id s) = [] -> held sn (links v) (q_key q) = Some e ->
  exists res, r = Ok res).
Proof.
  intro H. specialize (H [sv_a] [sv_b] prim_a sec_b new_memcacheds second_call_lost set_and_get).
  cut (exists v, rtsteps back_call back_tick prim_a sec_b (router_started (backends new_memcacheds second_call_lost) set_and_get) v
     /\ (good_world (Z.of_nat (length (rt_log v))) ([sv_a] ++ [sv_b]) new_memcacheds /\ plain_requests ([sv_a] ++ [sv_b]) new_memcacheds (rt_log v)
         /\ exists n e, at_ (rt_log v) n (EAnswer 1 (key_req OpcGet (B "x")) (Err EIO)) /\ S n = length (rt_log v) /\ lookup (l_cache (links v 1%nat)) (B "x") = Some e)).
  { intros (v & Sv & G & P & n & e & A & L & E). destruct (H v 1%nat (key_req OpcGet (B "x")) (Err EIO) n sv_b e rings_a_b G Sv P A L eq_refl (pick_b (B "x")) eq_refl ltac:(rewrite held_b; exact E)) as (res & X). discriminate X. }
  clear H. apply (ran_lost _ _ _ [CAccept 0; CAccept 1; CRead 0; CCall 0; CCall 0; CReturn 0; CReply 0; CRead 1; CCall 1; CReturn 1]).
  set (r := ab_lost _ _ _ _). vm_compute in r. subst r. cbn [rt_log].
  split; [apply new_good; cbn; lia|]. split; [split|].
  - intros m i q o A Oq Qs. each_moment m A; injection A as <- <-; cbn in Oq, Qs; try discriminate Oq; injection Qs as <-;
        (split; [split; [split; [cbn; lia|constructor; [cbn; lia|constructor]]|split; [cbn; split; [reflexivity|intros _; vm_compute; reflexivity]|split; [cbn; lia|split; [cbn; lia|cbn; lia]]]]|split; [reflexivity|intros s _; cbn; lia]]).
  - intros m i q A Oq. each_moment m A; injection A as <- <-; cbn in Oq; try discriminate Oq. split; [cbn; lia|constructor; [cbn; lia|constructor]].
  - exists 6%nat. eexists. split; [reflexivity|]. split; [reflexivity|]. vm_compute. reflexivity.
Qed.
Print Assumptions C81_the_secondary_takes_over_refuted.

(** The connection to a is lost when client 1 first asks for x; client 1's connection ends, and when client 2 asks later, so does its;
    b, which has lost nothing, executed the set. And the set of x by half, when b is lost. *)
Definition set_and_two_gets (i : nat) : bytes := match i with 0%nat => B "set x 0 0 1" ++ crlf ++ B "5" ++ crlf | _ => B "get x" ++ crlf end.
Definition set_req (k v : bytes) : srequest := mkReq OpcSet k [] (Some (be 4 0)) v 0 None (Some (exp_opt 0)) None.
Example C81_met : two_rings [sv_a] [sv_b] prim_a sec_b
  /\ (exists v1 v2, rtsteps back_call back_tick prim_a sec_b (router_started (backends new_memcacheds second_call_lost) set_and_two_gets) v1 /\ bk_up (rt_world v1 0%nat) = false
      /\ rtsteps back_call back_tick prim_a sec_b v1 v2 /\ sc_phase (rt_conns v1 2) = Reading
      /\ at_ (rt_log v2) (length (rt_log v1) + 2) (EAnswer 2 (key_req OpcGet (B "x")) (Err EIO)))
  /\ (second_call_lost 1 = [])
  /\ exists w c h, w (sv_id sv_a) = mkBack (fresh_link c h) true [] /\ wf PMeta c /\ c_cas c < 2 ^ 63 /\ zlen (B "5") <= cf_limit (c_cfg c) /\ bk_up (w (sv_id sv_b)) = false
      /\ q_set (set_req (B "x") (B "5")) = Some (exp_opt 0) /\ legal_item PMeta (proxy_item (set_req (B "x") (B "5")) (exp_opt 0))
      /\ backends new_memcacheds (fun _ => [LostAfter]) (sv_id sv_a) = mkBack (fresh_link c h) true [LostAfter].
Proof.
  split; [apply rings_a_b|]. split; [|split; [reflexivity|]].
  - set (first := [CAccept 0; CAccept 1; CAccept 2; CRead 0; CCall 0; CCall 0; CReturn 0; CReply 0; CRead 1; CCall 1; CReturn 1]).
    destruct (ab_lost new_memcacheds second_call_lost set_and_two_gets first) as [v1|] eqn:E1; [|vm_compute in E1; discriminate E1].
    destruct (chosen back_call back_tick (one sv_a) (one sv_b) v1 [CRead 2; CCall 2; CReturn 2]) as [v2|] eqn:E2.
    + exists v1, v2. split; [eapply rtsteps_ext; [apply proxy_prog_ab|]; eapply chosen_ok; [exact E1|constructor]|].
      assert (S2 : rtsteps back_call back_tick prim_a sec_b v1 v2) by (eapply rtsteps_ext; [apply proxy_prog_ab|]; eapply chosen_ok; [exact E2|constructor]).
      vm_compute in E1. injection E1 as <-. vm_compute in E2. injection E2 as <-. split; [vm_compute; reflexivity|]. split; [exact S2|]. split; reflexivity.
    + exfalso. vm_compute in E1. injection E1 as <-. vm_compute in E2. discriminate E2.
  - exists (fun n => match n with 0%nat => mkBack (new_memcacheds 0%nat) true [] | _ => mkBack (new_memcacheds 1%nat) false [] end), (empty_cache PropPool.demo_cfg 100), reset_header.
    split; [reflexivity|]. split; [apply PropPool.wf_empty; [apply demo_cfg_ok|lia]|]. split; [reflexivity|]. split; [vm_compute; discriminate|]. split; [reflexivity|]. split; [reflexivity|].
    split; [split; [split; [cbn; lia|constructor; [cbn; lia|constructor]]|split; [cbn; split; [reflexivity|intros _; vm_compute; reflexivity]|split; [cbn; lia|split; [cbn; lia|cbn; lia]]]]|].
    reflexivity.
Qed.
