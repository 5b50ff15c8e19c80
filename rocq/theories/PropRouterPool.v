(** * C87: the clients of the router share one ReplicaPool; and what follows for the replicas (C78). *)
From Verif Require Import GoBytes GoNum GoIO Item ClientText ClientMeta Cache Daemon Spec Call Guard Hash Ring RingSpec RingData Pool PoolSpec Replica ReplicaSpec ReplicaConc
  ServerTypes ServerParse ServerWrite Serve ServerConc ServerSpec Proxy RouterConc PLib PDaemon PCache PMeta PClient PRing PPool PMulti PReplica PServer PServe PropRing PropServer PropServerConc
  PropReplica PropProxy PropRouter PropRouterLin PropRouterRest PropRouterSync PropReplicaConc PropFollow.
Local Open Scope Z_scope.

(** ** Definitions of the statements *)
(** The call on the pool that a request amounts to, if any. *)
Definition pool_call (q : srequest) : option rop :=
  match q_opcode q with
  | OpcGet => Some (RGet (q_key q))
  | OpcSet => option_map (fun o => RSet (proxy_item q o)) (q_set q)
  | _ => None
  end.
(** What an event of the router is for the pool: reading a request is the beginning of the call, the
    answer its return; other requests are nothing. *)
Inductive shown : rtevent -> list gevent -> Prop :=
| Sh_begin : forall i q o, pool_call q = Some o -> shown (ERead i q) [GBegin i o]
| Sh_other : forall i q, pool_call q = None -> shown (ERead i q) []
| Sh_call : forall i sv o a, shown (ECall i sv o a) [GCall i sv o a]
| Sh_return : forall i q o r, pool_call q = Some o -> shown (EAnswer i q (proxy_answer q r)) [GReturn i o r]
| Sh_refused : forall i q r, pool_call q = None -> shown (EAnswer i q r) []
| Sh_time : forall d, shown (ETime d) [GTime d].

Lemma proxy_prog_call : forall pn sn q, match pool_call q with Some o => proxy_prog pn sn q = rp_prog pn sn o | None => exists r, proxy_prog pn sn q = Ret r end.
Proof. intros pn sn q. unfold pool_call, proxy_prog. destruct (q_opcode q); try reflexivity; try (eexists; reflexivity). destruct (q_set q); cbn [option_map]; [reflexivity|eexists; reflexivity]. Qed.
Lemma move_not_calling : forall s p ph out x' q, move no_handler tt (mkSC s p ph out) tt x' [] -> ph = Calling q -> False.
Proof. intros s p ph out x' q M E. subst ph. inversion M. Qed.
Lemma now_ext : forall (f g : nat -> option (rop * prog)) t x, (forall j, f j = g j) -> forall j, set_now f t x j = set_now g t x j.
Proof. intros f g t x H j. unfold set_now. destruct (Nat.eqb j t); [reflexivity|apply H]. Qed.

Record same_pool {ST} (v : router_state ST) (g : pool_state ST) (gs : list (list gevent)) : Prop := {
  sp_world : g_world g = rt_world v;
  sp_log : Forall2 shown (rt_log v) gs;
  sp_glog : g_log g = concat gs;
  sp_in : forall i q o, sc_phase (rt_conns v i) = Calling q -> pool_call q = Some o -> g_now g i = Some (o, rt_prog v i);
  sp_none : forall i q, sc_phase (rt_conns v i) = Calling q -> pool_call q = None -> g_now g i = None /\ exists r, rt_prog v i = Ret r;
  sp_out : forall i, calling (rt_conns v i) = false -> g_now g i = None
}.

(** ** C87 *)
(** Whatever the backends are, every run of the router is, for the backends, a run of one ReplicaPool shared
    by a goroutine per connection: the same calls on the backends in the same order, with the same answers. *)
Lemma router_shares_a_pool : forall ST (step : ST -> op -> ST * outcome result) later pn sn w streams v,
  rtsteps step later pn sn (router_started w streams) v -> exists g gs, gsteps step later pn sn (pool_fresh w) g /\ same_pool v g gs.
Proof.
  intros ST step later pn sn w streams v Sv. remember (router_started w streams) as v0 eqn:E0. induction Sv as [v|v u t Sv IH St]; subst.
  - exists (pool_fresh w), []. split; [apply g_refl|]. constructor; try reflexivity; try constructor; cbn; intros; discriminate.
  - destruct (IH eq_refl) as (g & gs & Sg & [W L GL In_ No Out]). clear IH.
    assert (Idle : forall i s p ph out, rt_conns u i = mkSC s p ph out -> (forall q, ph <> Calling q) -> g_now g i = None).
    { intros i s p ph out Hc N. apply Out. rewrite Hc. unfold calling. cbn [sc_phase]. destruct ph; try reflexivity. exfalso. eapply N. reflexivity. }
    (* a step of a connection outside a request *)
    assert (Quiet : forall i x' ls dn, g_now g i = None -> calling x' = false ->
      same_pool (mkRt (rt_world u) (set_conn (rt_conns u) i x') (rt_prog u) (rt_log u) ls dn) g gs).
    { intros i x' ls dn Ni Cx. constructor; cbn [rt_world rt_conns rt_prog rt_log]; try assumption.
      - intros j q o P Pc. destruct (Nat.eq_dec j i) as [->|N]; [rewrite set_conn_same in P; unfold calling in Cx; rewrite P in Cx; discriminate Cx|rewrite set_conn_other in P by exact N; eapply In_; eassumption].
      - intros j q P Pc. destruct (Nat.eq_dec j i) as [->|N]; [rewrite set_conn_same in P; unfold calling in Cx; rewrite P in Cx; discriminate Cx|rewrite set_conn_other in P by exact N; eapply No; eassumption].
      - intros j P. destruct (Nat.eq_dec j i) as [->|N]; [exact Ni|rewrite set_conn_other in P by exact N; apply Out; exact P]. }
    destruct St as [u i s p out D Ls Hc|u D Ls|u i x' q D Mv Ph|u i s p out q sv o k D Hc Hp|u i s p out q r D Hc Hp|u i x' D Mv Cl|u d D Dd].
    + exists g, gs. split; [exact Sg|]. apply Quiet; [|reflexivity]. eapply Idle; [exact Hc|discriminate].
    + exists g, gs. split; [exact Sg|]. constructor; assumption.
    + assert (Ni : g_now g i = None).
      { apply Out. unfold calling. destruct (sc_phase (rt_conns u i)) eqn:P; try reflexivity. exfalso. destruct (rt_conns u i) as [s p ph out]. eapply move_not_calling; [exact Mv|exact P]. }
      pose proof (proxy_prog_call pn sn q) as Pp. destruct (pool_call q) as [o|] eqn:Pc.
      * exists (mkG (g_world g) (set_now (g_now g) i (Some (o, rp_prog pn sn o))) (g_log g ++ [GBegin i o])), (gs ++ [[GBegin i o]]).
        split; [eapply g_step; [exact Sg|apply G_begin; exact Ni]|]. constructor; cbn [rt_world rt_conns rt_prog rt_log g_world g_now g_log].
        -- exact W.
        -- apply Forall2_app; [exact L|constructor; [apply Sh_begin; exact Pc|constructor]].
        -- rewrite concat_app, GL. reflexivity.
        -- intros j q' o' P Pc'. destruct (Nat.eq_dec j i) as [->|N].
           ++ rewrite set_conn_same, Ph in P. injection P as <-. rewrite Pc in Pc'. injection Pc' as <-. rewrite set_now_same, set_prog_same, Pp. reflexivity.
           ++ rewrite set_conn_other in P by exact N. rewrite set_now_other, set_prog_other by exact N. eapply In_; eassumption.
        -- intros j q' P Pc'. destruct (Nat.eq_dec j i) as [->|N].
           ++ rewrite set_conn_same, Ph in P. injection P as <-. rewrite Pc in Pc'. discriminate Pc'.
           ++ rewrite set_conn_other in P by exact N. rewrite set_now_other, set_prog_other by exact N. eapply No; eassumption.
        -- intros j P. destruct (Nat.eq_dec j i) as [->|N]; [rewrite set_conn_same in P; unfold calling in P; rewrite Ph in P; discriminate P|rewrite set_conn_other in P by exact N; rewrite set_now_other by exact N; apply Out; exact P].
      * destruct Pp as [r Pp]. exists g, (gs ++ [[]]). split; [exact Sg|]. constructor; cbn [rt_world rt_conns rt_prog rt_log].
        -- exact W.
        -- apply Forall2_app; [exact L|constructor; [apply Sh_other; exact Pc|constructor]].
        -- rewrite concat_app, GL. cbn. rewrite app_nil_r. reflexivity.
        -- intros j q' o' P Pc'. destruct (Nat.eq_dec j i) as [->|N].
           ++ rewrite set_conn_same, Ph in P. injection P as <-. rewrite Pc in Pc'. discriminate Pc'.
           ++ rewrite set_conn_other in P by exact N. rewrite set_prog_other by exact N. eapply In_; eassumption.
        -- intros j q' P Pc'. destruct (Nat.eq_dec j i) as [->|N].
           ++ rewrite set_prog_same. split; [exact Ni|exists r; exact Pp].
           ++ rewrite set_conn_other in P by exact N. rewrite set_prog_other by exact N. eapply No; eassumption.
        -- intros j P. destruct (Nat.eq_dec j i) as [->|N]; [exact Ni|rewrite set_conn_other in P by exact N; apply Out; exact P].
    + assert (P : sc_phase (rt_conns u i) = Calling q) by (rewrite Hc; reflexivity). destruct (pool_call q) as [o'|] eqn:Pc.
      2: { destruct (No i q P Pc) as [_ [r X]]. rewrite Hp in X. discriminate X. }
      pose proof (In_ i q o' P Pc) as Nw. rewrite Hp in Nw. pose proof (G_call step later pn sn g i o' sv o k Nw) as Sc. cbn zeta in Sc. rewrite W in Sc.
      eexists. exists (gs ++ [[GCall i sv o (snd (server_call step (rt_world u) sv o))]]). split; [eapply g_step; [exact Sg|exact Sc]|].
      constructor; cbn [rt_world rt_conns rt_prog rt_log g_world g_now g_log].
      * reflexivity.
      * apply Forall2_app; [exact L|constructor; [apply Sh_call|constructor]].
      * rewrite concat_app, GL. reflexivity.
      * intros j q' o2 P' Pc'. destruct (Nat.eq_dec j i) as [->|N]; [|rewrite set_now_other, set_prog_other by exact N; eapply In_; eassumption].
        rewrite P in P'. injection P' as <-. rewrite Pc in Pc'. injection Pc' as <-. rewrite set_now_same, set_prog_same. reflexivity.
      * intros j q' P' Pc'. destruct (Nat.eq_dec j i) as [->|N]; [|rewrite set_now_other, set_prog_other by exact N; eapply No; eassumption].
        rewrite P in P'. injection P' as <-. rewrite Pc in Pc'. discriminate Pc'.
      * intros j P'. destruct (Nat.eq_dec j i) as [->|N]; [|rewrite set_now_other by exact N; apply Out; exact P']. unfold calling in P'. rewrite P in P'. discriminate P'.
    + assert (P : sc_phase (rt_conns u i) = Calling q) by (rewrite Hc; reflexivity). destruct (pool_call q) as [o'|] eqn:Pc.
      * pose proof (In_ i q o' P Pc) as Nw. rewrite Hp in Nw. exists (mkG (g_world g) (set_now (g_now g) i None) (g_log g ++ [GReturn i o' r])), (gs ++ [[GReturn i o' r]]).
        split; [eapply g_step; [exact Sg|apply G_return; exact Nw]|]. constructor; cbn [rt_world rt_conns rt_prog rt_log g_world g_now g_log].
        -- exact W.
        -- apply Forall2_app; [exact L|constructor; [apply Sh_return; exact Pc|constructor]].
        -- rewrite concat_app, GL. reflexivity.
        -- intros j q' o2 P' Pc'. destruct (Nat.eq_dec j i) as [->|N]; [rewrite set_conn_same in P'; discriminate P'|rewrite set_conn_other in P' by exact N; rewrite set_now_other by exact N; eapply In_; eassumption].
        -- intros j q' P' Pc'. destruct (Nat.eq_dec j i) as [->|N]; [rewrite set_conn_same in P'; discriminate P'|rewrite set_conn_other in P' by exact N; rewrite set_now_other by exact N; eapply No; eassumption].
        -- intros j P'. destruct (Nat.eq_dec j i) as [->|N]; [apply set_now_same|rewrite set_conn_other in P' by exact N; rewrite set_now_other by exact N; apply Out; exact P'].
      * destruct (No i q P Pc) as [Ni _]. exists g, (gs ++ [[]]). split; [exact Sg|]. constructor; cbn [rt_world rt_conns rt_prog rt_log].
        -- exact W.
        -- apply Forall2_app; [exact L|constructor; [apply Sh_refused; exact Pc|constructor]].
        -- rewrite concat_app, GL. cbn. rewrite app_nil_r. reflexivity.
        -- intros j q' o2 P' Pc'. destruct (Nat.eq_dec j i) as [->|N]; [rewrite set_conn_same in P'; discriminate P'|rewrite set_conn_other in P' by exact N; eapply In_; eassumption].
        -- intros j q' P' Pc'. destruct (Nat.eq_dec j i) as [->|N]; [rewrite set_conn_same in P'; discriminate P'|rewrite set_conn_other in P' by exact N; eapply No; eassumption].
        -- intros j P'. destruct (Nat.eq_dec j i) as [->|N]; [exact Ni|rewrite set_conn_other in P' by exact N; apply Out; exact P'].
    + exists g, gs. split; [exact Sg|]. apply Quiet; [|exact Cl]. apply Out. unfold calling. destruct (sc_phase (rt_conns u i)) eqn:P; try reflexivity. exfalso. destruct (rt_conns u i) as [s p ph out]. eapply move_not_calling; [exact Mv|exact P].
    + exists (mkG (fun n => later (g_world g n) d) (g_now g) (g_log g ++ [GTime d])), (gs ++ [[GTime d]]). split; [eapply g_step; [exact Sg|apply G_time; exact Dd]|].
      constructor; cbn [rt_world rt_conns rt_prog rt_log g_world g_now g_log]; try assumption.
      * rewrite W. reflexivity.
      * apply Forall2_app; [exact L|constructor; [apply Sh_time|constructor]].
      * rewrite concat_app, GL. reflexivity.
Qed.
Theorem C87_the_clients_share_one_pool : forall ST (step : ST -> op -> ST * outcome result) later pn sn w streams v,
  rtsteps step later pn sn (router_started w streams) v ->
  exists g gs, gsteps step later pn sn (pool_fresh w) g /\ g_world g = rt_world v /\ Forall2 shown (rt_log v) gs /\ g_log g = concat gs.
Proof.
  intros ST step later pn sn w streams v Sv. destruct (router_shares_a_pool ST step later pn sn w streams v Sv) as (g & gs & Sg & [W L GL _ _ _]). exists g, gs. auto.
Qed.
Print Assumptions C87_the_clients_share_one_pool.

(** ** Moments of the two logs *)
Definition pos (gs : list (list gevent)) (n : nat) : nat := length (concat (firstn n gs)).
Lemma shown_short : forall log gs, Forall2 shown log gs -> Forall (fun l => l = [] \/ exists e, l = [e]) gs.
Proof. intros log gs H. induction H as [|x l log gs S H IH]; constructor; [|exact IH]. destruct S; eauto. Qed.
Lemma shown_len : forall log gs, Forall2 shown log gs -> (length (concat gs) <= length log)%nat.
Proof. intros log gs H. induction H as [|x l log gs S H IH]; [reflexivity|]. cbn [concat length]. rewrite app_length. destruct S; cbn [length]; lia. Qed.
Lemma gat_pos : forall gs m e, Forall (fun l => l = [] \/ exists e, l = [e]) gs -> gat (concat gs) m e -> exists n, nth_error gs n = Some [e] /\ m = pos gs n.
Proof.
  intros gs m e F. revert m. induction F as [|l gs Hl F IH]; intros m A; [destruct m; discriminate A|].
  destruct Hl as [->|[e' ->]]; cbn [concat app] in A.
  - destruct (IH m A) as (n & N & ->). exists (S n). split; [exact N|reflexivity].
  - destruct m as [|m]; [exists 0%nat; unfold gat in A; cbn in A; injection A as ->; split; reflexivity|]. destruct (IH m A) as (n & N & ->). exists (S n). split; [exact N|]. unfold pos. cbn [firstn concat]. rewrite app_length. reflexivity.
Qed.
Lemma pos_gat : forall gs n e, nth_error gs n = Some [e] -> gat (concat gs) (pos gs n) e.
Proof.
  intros gs n e. revert n. induction gs as [|l gs IH]; intros [|n] N; try discriminate N.
  - injection N as ->. reflexivity.
  - unfold gat, pos. cbn [firstn concat]. rewrite app_length, nth_error_app2 by lia. replace (length l + length (concat (firstn n gs)) - length l)%nat with (length (concat (firstn n gs))) by lia. exact (IH n N).
Qed.
Lemma pos_lt : forall gs n n' e, nth_error gs n = Some [e] -> (n < n')%nat -> (pos gs n < pos gs n')%nat.
Proof.
  intros gs n n' e. revert n n'. induction gs as [|l gs IH]; intros [|n] [|n'] N L; try discriminate N; try lia.
  - injection N as ->. unfold pos. cbn [firstn concat]. rewrite app_length. cbn. lia.
  - unfold pos. cbn [firstn concat]. rewrite !app_length. pose proof (IH n n' N ltac:(lia)) as X. unfold pos in X. lia.
Qed.
Lemma pos_back : forall gs n n' e', nth_error gs n' = Some [e'] -> (pos gs n < pos gs n')%nat -> (n < n')%nat.
Proof.
  intros gs n n' e' N L. destruct (Nat.lt_ge_cases n n') as [X|X]; [exact X|]. exfalso. destruct (Nat.eq_dec n n') as [->|Ne]; [lia|]. pose proof (pos_lt gs n' n e' N ltac:(lia)). lia.
Qed.
Lemma shown_at : forall log gs n l, Forall2 shown log gs -> nth_error gs n = Some l -> exists x, at_ log n x /\ shown x l.
Proof.
  intros log gs n l H. revert n. induction H as [|x l' log gs S H IH]; intros [|n] N; try discriminate N; [injection N as ->; exists x; split; [reflexivity|exact S]|]. destruct (IH n N) as (y & A & Sy). exists y. split; [exact A|exact Sy].
Qed.
Lemma at_shown : forall log gs n x, Forall2 shown log gs -> at_ log n x -> exists l, nth_error gs n = Some l /\ shown x l.
Proof.
  intros log gs n x H. revert n. induction H as [|y l' log gs S H IH]; intros [|n] N; try discriminate N; [injection N as ->; exists l'; split; [reflexivity|exact S]|]. destruct (IH n N) as (l & A & Sy). exists l. split; [exact A|exact Sy].
Qed.
(** An answered request is a call that returned. *)
Lemma answered_called : forall log gs i q o m n r, Forall2 shown log gs -> pool_call q = Some o -> answered log i q m n r ->
  exists r', called (concat gs) i o (pos gs m) (pos gs n) r' /\ nth_error gs n = Some [GReturn i o r'].
Proof.
  intros log gs i q o m n r H Pc (L & Am & An & Id). pose proof (shown_short _ _ H) as Sh.
  destruct (at_shown _ _ _ _ H Am) as (l1 & N1 & S1). destruct (at_shown _ _ _ _ H An) as (l2 & N2 & S2).
  inversion S1 as [? ? o1 P1|? ? P1| | | |]; subst; [|congruence]. inversion S2 as [| | |? ? o2 r' P2|? ? ? P2|]; subst; [|congruence].
  assert (o1 = o) by congruence. assert (o2 = o) by congruence. subst o1 o2. exists r'. split; [|exact N2]. split; [eapply pos_lt; eassumption|]. split; [apply pos_gat; exact N1|]. split; [apply pos_gat; exact N2|].
  intros x e [X1 X2] A. destruct (gat_pos _ _ _ Sh A) as (nx & Nx & ->). pose proof (pos_back _ _ _ _ Nx X1) as Y1. pose proof (pos_back _ _ _ _ N2 X2) as Y2.
  destruct (shown_at _ _ _ _ H Nx) as (ex & Ax & Sx). pose proof (Id nx ex (conj Y1 Y2) Ax) as Z. inversion Sx; subst; cbn [own is_request] in *; try reflexivity; exact Z.
Qed.

(** ** C78 for several writers *)
Definition set_of (k : bytes) (q : srequest) : Prop := q_opcode q = OpcSet /\ q_key q = k.
(** Sets of [k], whoever sends them, do not overlap: each is read after the ones before it have been answered. *)
Definition one_set_at_a_time (log : list rtevent) (k : bytes) : Prop :=
  forall m i q m' i' q', at_ log m (ERead i q) -> at_ log m' (ERead i' q') -> set_of k q -> set_of k q' -> (m < m')%nat ->
  exists n r, answered log i q m n r /\ (n < m')%nat.
(** No time passes during a set of [k] with an expiration. *)
Definition no_time_during_sets (log : list rtevent) (k : bytes) : Prop :=
  forall m i q o x d, at_ log m (ERead i q) -> set_of k q -> q_set q = Some o -> s_exp o <> 0 -> at_ log x (ETime d) -> (m < x)%nat ->
  exists n r, answered log i q m n r /\ (n < x)%nat.

Lemma pool_call_write : forall k q o, pool_call q = Some o -> write_of k o -> exists so, set_of k q /\ q_set q = Some so /\ o = RSet (proxy_item q so).
Proof.
  intros k q o Pc [W K]. unfold pool_call in Pc. destruct (q_opcode q) eqn:Oq; try discriminate Pc; [injection Pc as <-; discriminate W|].
  destruct (q_set q) as [so|]; [|discriminate Pc]. injection Pc as <-. exists so. split; [split; [exact Oq|exact K]|]. split; reflexivity.
Qed.
Theorem C78_replicas_agree_several_writers_partial : forall ps ss pn sn w streams v k,
  two_rings ps ss pn sn -> good_world (Z.of_nat (length (rt_log v))) (ps ++ ss) w -> as_large ps ss w -> plain_requests (ps ++ ss) w (rt_log v) ->
  one_set_at_a_time (rt_log v) k -> no_time_during_sets (rt_log v) k ->
  same_entry (held pn w k) (held sn w k) -> rtsteps meta_server link_tick pn sn (router_started w streams) v -> ~ setting v k ->
  same_entry (held pn (rt_world v) k) (held sn (rt_world v) k).
Proof.
  intros ps ss pn sn w streams v k R G Al [Pls Plg] One Tim Ag Sv Ns.
  destruct (router_shares_a_pool _ meta_server link_tick pn sn w streams v Sv) as (g & gs & Sg & [W L GL In_ No Out]).
  pose proof (shown_short _ _ L) as Sh. pose proof (shown_len _ _ L) as Len.
  assert (Beg : forall m t o, gat (g_log g) m (GBegin t o) -> exists n q, at_ (rt_log v) n (ERead t q) /\ pool_call q = Some o /\ nth_error gs n = Some [GBegin t o] /\ m = pos gs n).
  { intros m t o A. rewrite GL in A. destruct (gat_pos _ _ _ Sh A) as (n & N & ->). destruct (shown_at _ _ _ _ L N) as (x & Ax & Sx). inversion Sx as [? q ? P| | | | |]; subst. exists n, q. auto. }
  rewrite <- W. apply (C83_secondary_follows_partial ps ss pn sn w g k R); try assumption.
  - destruct G as [now G]. exists now. intros s Is. destruct (G s Is) as (c & h & A & Wf & N & C). exists c, h. split; [exact A|]. split; [exact Wf|]. split; [exact N|]. rewrite GL. unfold zlen. lia.
  - intros m t o A. destruct (Beg m t o A) as (n & q & Aq & Pc & _). unfold pool_call in Pc. destruct (q_opcode q) eqn:Oq; try discriminate Pc.
    + injection Pc as <-. split; [exact (Plg n t q Aq Oq)|]. intros [X _]. discriminate X.
    + destruct (q_set q) as [so|] eqn:Qs; [|discriminate Pc]. injection Pc as <-. destruct (Pls n t q so Aq Oq Qs) as (Li & Ci & _). split; [exact Li|]. intros _. split; [exact Li|exact Ci].
  - intros m t i p A Ki Pp. destruct (Beg m t _ A) as (n & q & Aq & Pc & _). destruct (pool_call_write k q _ Pc (conj eq_refl Ki)) as (so & [Oq Kq] & Qs & E). injection E as ->.
    destruct (Pls n t q so Aq Oq Qs) as (_ & _ & Fi). apply (Fi p). apply in_or_app. left. eapply owner_in_p; eassumption.
  - intros m t o m' t' o' A A' Wo Wo' Lt. destruct (Beg m t o A) as (n & q & Aq & Pc & N1 & ->). destruct (Beg m' t' o' A') as (n' & q' & Aq' & Pc' & N2 & ->).
    destruct (pool_call_write k q o Pc Wo) as (so & Sq & _). destruct (pool_call_write k q' o' Pc' Wo') as (so' & Sq' & _).
    destruct (One n t q n' t' q' Aq Aq' Sq Sq' (pos_back _ _ _ _ N2 Lt)) as (x & r & An & Lx). destruct (answered_called _ _ _ _ _ _ _ _ L Pc An) as (r' & C & N3).
    exists (pos gs x), r'. rewrite GL. split; [exact C|]. eapply pos_lt; eassumption.
  - intros m t o x d A Wo Nl A' Lt. destruct (Beg m t o A) as (n & q & Aq & Pc & N1 & ->). rewrite GL in A'. destruct (gat_pos _ _ _ Sh A') as (n' & N2 & ->). destruct (shown_at _ _ _ _ L N2) as (y & Ay & Sy). inversion Sy; subst.
    destruct (pool_call_write k q o Pc Wo) as (so & Sq & Qs & ->).
    destruct (Tim n t q so n' d Aq Sq Qs ltac:(intro E; apply Nl; exact E) Ay (pos_back _ _ _ _ N2 Lt)) as (x & r & An & Lx). destruct (answered_called _ _ _ _ _ _ _ _ L Pc An) as (r' & C & N3).
    exists (pos gs x), r'. rewrite GL. split; [exact C|]. eapply pos_lt; eassumption.
  - left. intros m t o A Co. destruct (Beg m t o A) as (n & q & Aq & Pc & _). exfalso. unfold pool_call in Pc. destruct (q_opcode q); try discriminate Pc; [injection Pc as <-; exact Co|]. destruct (q_set q); [|discriminate Pc]. injection Pc as <-. exact Co.
  - intros (t & o & p & Nw & Wo). apply Ns. destruct (calling (rt_conns v t)) eqn:Ct; [|rewrite (Out t Ct) in Nw; discriminate Nw]. unfold calling in Ct. destruct (sc_phase (rt_conns v t)) as [| |q| | | |] eqn:Ph; try discriminate Ct.
    destruct (pool_call q) as [o'|] eqn:Pc; [|destruct (No t q Ph Pc) as [X _]; rewrite X in Nw; discriminate Nw]. rewrite (In_ t q o' Ph Pc) in Nw. injection Nw as <- _.
    destruct (pool_call_write k q o' Pc Wo) as (so & [Oq Kq] & _). exists t, q. auto.
Qed.
Print Assumptions C78_replicas_agree_several_writers_partial.

(** The hypotheses are met: two clients set x one after the other, the first for ten seconds, of which three
    pass in between; a third client sends a delete, which is refused. *)
Definition in_turns (i : nat) : bytes :=
  match i with 0%nat => B "set x 0 10 1" ++ crlf ++ B "5" ++ crlf | 1%nat => B "set x 0 0 1" ++ crlf ++ B "7" ++ crlf | 2%nat => B "delete x" ++ crlf | _ => [] end.
Example C87_met : two_rings [sv_a] [sv_b] prim_a sec_b /\ as_large [sv_a] [sv_b] new_memcacheds
  /\ exists v, rtsteps meta_server link_tick prim_a sec_b (router_started new_memcacheds in_turns) v
     /\ (good_world (Z.of_nat (length (rt_log v))) ([sv_a] ++ [sv_b]) new_memcacheds /\ plain_requests ([sv_a] ++ [sv_b]) new_memcacheds (rt_log v)
     /\ one_set_at_a_time (rt_log v) (B "x") /\ no_time_during_sets (rt_log v) (B "x") /\ ~ setting v (B "x")
     /\ (exists m n q q' o, at_ (rt_log v) m (ERead 0 q) /\ at_ (rt_log v) n (ERead 1 q') /\ set_of (B "x") q /\ set_of (B "x") q' /\ q_set q = Some o /\ s_exp o = 10)
     /\ exists e, lookup (l_cache (rt_world v 0%nat)) (B "x") = Some e /\ e_value e = B "7").
Proof.
  split; [apply rings_a_b|]. split; [intros p s [<-|[]] [<-|[]]; apply Z.le_refl|].
  apply (ran _ _ [CAccept 0; CAccept 1; CAccept 2; CRead 0; CCall 0; CCall 0; CReturn 0; CTime 3; CRead 1; CCall 1; CRead 2; CCall 1; CReturn 1; CReturn 2]%nat).
  set (r := ab_run _ _ _). vm_compute in r. subst r. cbn [rt_log].
  split; [apply new_good; cbn; lia|]. split; [split|split; [|split; [|split; [|split]]]].
  - intros m i q o A Oq Qs. each_moment m A; injection A as <- <-; cbn in Oq, Qs; try discriminate Oq; injection Qs as <-;
        (split; [split; [split; [cbn; lia|constructor; [cbn; lia|constructor]]|split; [cbn; split; [reflexivity|intros _; vm_compute; reflexivity]|split; [cbn; lia|split; [cbn; lia|cbn; lia]]]]|split; [reflexivity|intros s _; cbn; lia]]).
  - intros m i q A Oq. each_moment m A; injection A as <- <-; discriminate Oq.
  - intros m i q m' i' q' A A' [Oq _] [Oq' _] L. each_moment m A; injection A as <- <-; try discriminate Oq; each_moment m' A'; try (exfalso; lia); injection A' as <- <-; try discriminate Oq'.
    eexists 3%nat, _. split; [|lia]. split; [lia|]. split; [reflexivity|]. split; [reflexivity|]. intros x e Rx Ax. each_moment x Ax; try (exfalso; lia); injection Ax as <-; reflexivity.
  - intros m i q o x d A [Oq _] Qs Ex A' L. each_moment m A; injection A as <- <-; try discriminate Oq; each_moment x A'; try (exfalso; lia); injection A' as <-.
    eexists 3%nat, _. split; [|lia]. split; [lia|]. split; [reflexivity|]. split; [reflexivity|]. intros x e Rx Ax. each_moment x Ax; try (exfalso; lia); injection Ax as <-; reflexivity.
  - intros (i & q & C & _). cbn in C. destruct i as [|[|[|i]]]; cbn in C; discriminate C.
  - eexists 0%nat, 5%nat, _, _, _. split; [reflexivity|]. split; [reflexivity|]. split; [split; reflexivity|]. split; [split; reflexivity|]. split; reflexivity.
  - eexists. split; [vm_compute; reflexivity|reflexivity].
Qed.
