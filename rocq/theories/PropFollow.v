(** * C83: the secondary follows the primary, also when calls fail and goroutines share the ReplicaPool. *)
From Verif Require Import GoBytes GoNum GoIO Item ClientText ClientMeta ClientBinary Cache Daemon Spec Intent Call Guard Hash Ring RingSpec RingData Pool PoolSpec Replica ReplicaSpec ReplicaConc
  ServerTypes ServerParse ServerWrite Serve ServerConc ServerSpec Proxy RouterConc PLib PDaemon PCache PText PMeta PClient PRing PPool PMulti PReplica PServer PServe PropPool PropServer PropServerConc PropReplica PropProxy PropRouter PropRouterLin PropReplicaConc.
Local Open Scope Z_scope.

(** ** Definitions of the statement *)
Definition write_of (k : bytes) (o : rop) : Prop := writes o = true /\ rop_key o = k.
(** Some goroutine is in a call that writes [k]. *)
Definition being_written (v : pool_state link) (k : bytes) : Prop := exists t o p, g_now v t = Some (o, p) /\ write_of k o.
(** Writes of [k] do not overlap: each begins after the ones before it have returned. *)
Definition one_at_a_time (log : list gevent) (k : bytes) : Prop :=
  forall m t o m' t' o', gat log m (GBegin t o) -> gat log m' (GBegin t' o') -> write_of k o -> write_of k o' -> (m < m')%nat ->
  exists n r, called log t o m n r /\ (n < m')%nat.
(** A write whose effect has nothing to do with time: a Delete, or an item without expiration. *)
Definition lasting (o : rop) : Prop := match o with RDelete _ => True | RSet i | RAdd i | RReplace i => it_exp i = 0 | _ => False end.
(** No time passes while another write of [k] is under way. *)
Definition no_time_during (log : list gevent) (k : bytes) : Prop :=
  forall m t o x d, gat log m (GBegin t o) -> write_of k o -> ~ lasting o -> gat log x (GTime d) -> (m < x)%nat ->
  exists n r, called log t o m n r /\ (n < x)%nat.
(** [k] is not counted, or it always expires within 30 days. *)
Definition stored_item (o : rop) (i : item) : Prop := o = RSet i \/ o = RAdd i \/ o = RReplace i.
Definition always_expires (pn : list node) (w : world link) (log : list gevent) (k : bytes) : Prop :=
  short_lived w pn k /\ forall m t o i, gat log m (GBegin t o) -> stored_item o i -> it_key i = k -> it_exp i <> 0 /\ it_exp i <= month.
Definition not_counted (log : list gevent) (k : bytes) : Prop := forall m t o, gat log m (GBegin t o) -> counter o -> rop_key o <> k.
(** An Increment or Decrement of [k] fails only because there is no such item. *)
Definition counters_in_range (log : list gevent) (k : bytes) : Prop :=
  forall t o m n e, called log t o m n (Err e) -> counter o -> rop_key o = k -> e = ENotFound.
(** A Set of [k] has a value that its server on the primary ring takes. *)
Definition sets_fit (pn : list node) (w : world link) (log : list gevent) (k : bytes) : Prop :=
  forall m t i p, gat log m (GBegin t (RSet i)) -> it_key i = k -> pick pn k = Ok p -> zlen (it_value i) <= cf_limit (c_cfg (l_cache (w (sv_id p)))).
Definition legal_calls (log : list gevent) (k : bytes) : Prop :=
  forall m t o, gat log m (GBegin t o) -> legal_rop o /\ (write_of k o -> plain_rop o).
Definition agree_on (pn sn : list node) (w : world link) (k : bytes) : Prop := same_entry (held pn w k) (held sn w k).

(** ** Prefixes of logs *)
Lemma called_keep : forall log l t o m n r, called log t o m n r -> called (log ++ l) t o m n r.
Proof.
  intros log l t o m n r (A & B' & C & D). pose proof (gat_lt _ _ _ C). split; [exact A|]. split; [apply gat_app; exact B'|]. split; [apply gat_app; exact C|].
  intros x y Rx Ax. apply (D x y Rx). eapply gat_old; [|exact Ax]. lia.
Qed.
Lemma called_old : forall log l t o m n r, (n < length log)%nat -> called (log ++ l) t o m n r -> called log t o m n r.
Proof.
  intros log l t o m n r L (A & B' & C & D). split; [exact A|]. split; [eapply gat_old; [|exact B']; lia|]. split; [eapply gat_old; [exact L|exact C]|].
  intros x y Rx Ax. apply (D x y Rx). apply gat_app. exact Ax.
Qed.
Lemma one_old : forall log l k, one_at_a_time (log ++ l) k -> one_at_a_time log k.
Proof.
  intros log l k H m t o m' t' o' A A' W W' Lt. destruct (H m t o m' t' o' (gat_app _ _ _ _ A) (gat_app _ _ _ _ A') W W' Lt) as (n & r & C & Ln).
  exists n, r. split; [|exact Ln]. eapply called_old; [|exact C]. pose proof (gat_lt _ _ _ A'). lia.
Qed.
Lemma time_old : forall log l k, no_time_during (log ++ l) k -> no_time_during log k.
Proof.
  intros log l k H m t o x d A W Nl A' Lt. destruct (H m t o x d (gat_app _ _ _ _ A) W Nl (gat_app _ _ _ _ A') Lt) as (n & r & C & Ln).
  exists n, r. split; [|exact Ln]. eapply called_old; [|exact C]. pose proof (gat_lt _ _ _ A'). lia.
Qed.
Lemma range_old : forall log l k, counters_in_range (log ++ l) k -> counters_in_range log k.
Proof. intros log l k H t o m n e C. apply (H t o m n e). apply called_keep. exact C. Qed.
Lemma legal_old : forall log l k, legal_calls (log ++ l) k -> legal_calls log k.
Proof. intros log l k H m t o A. apply (H m t o). apply gat_app. exact A. Qed.

(** ** How a counter fails *)
Lemma delta_resp_fail : forall r rest e, match r with DeltaOk n => 0 <= n < 2 ^ 64 | DeltaMismatch => False | _ => True end ->
  fst (rmap RInt text_incr_resp (text_delta_reply r ++ rest)) = Err e -> e = ENotFound -> r = DeltaMissing.
Proof.
  intros r rest e H Q ->. destruct r as [| | |n]; [reflexivity| |contradiction|].
  - exfalso. revert Q. cbn [text_delta_reply]. unfold rmap, text_incr_resp. unfold bind at 1 2. repeat rewrite <- app_assoc. rewrite concrete_line by reflexivity. cbn. discriminate.
  - exfalso. revert Q. cbn [text_delta_reply]. rewrite <- app_assoc. unfold rmap, text_incr_resp. unfold bind at 1 2.
    rewrite read_line; [|apply word_line, dec_word|pose proof (dec_len n ltac:(lia)); lia].
    assert (NF : beq (dec n ++ crlf) msg_not_found = false).
    { pose proof (dec_digits n ltac:(lia)) as D. pose proof (dec_nonempty n).
      destruct (dec n) as [|c w]; [congruence|]. inversion D as [|? ? Dc Dw]; subst. apply is_digit_code in Dc.
      cbn [app beq msg_not_found B list_ascii_of_string]. rewrite eqb_neq_code; [reflexivity|]. change (code "N") with 78. lia. }
    rewrite NF. rewrite zlen_app. change (zlen crlf) with 2. replace (zlen (dec n) + 2 - 2) with (zlen (dec n)) by lia.
    unfold bind at 1. rewrite go_sub_prefix by reflexivity.
    destruct (n <? 2 ^ 63) eqn:L.
    + apply Z.ltb_lt in L. rewrite parse_int_dec by (simpl; lia). discriminate.
    + apply Z.ltb_ge in L. rewrite parse_int_dec_big by (simpl; lia). discriminate.
Qed.
Lemma counter_fails : forall c h o k, wf PMeta c -> legal PMeta o -> counts o k -> snd (meta_server (fresh_link c h) o) = Err ENotFound -> lookup c k = None.
Proof.
  intros c h o k W L (d & x & Q) E. unfold meta_server, call in E. cbn [meta_client cl_req cl_resp cl_wire fst snd fresh_link l_cache l_pending l_unread l_header] in E.
  destruct (meta_req_ok o L) as [rq Er]. rewrite Er in E. cbn [app] in E. rewrite (meta_daemon c o rq L Er) in E. cbn [snd] in E.
  assert (Z : forall up, 0 <= d -> fst (rmap RInt text_incr_resp (text_delta_reply (snd (cache_delta up c k d)) ++ [])) = Err ENotFound -> lookup c k = None).
  { intros up D Hf. pose proof (delta_resp_fail _ [] _ (delta_range up c k d D) Hf eq_refl) as M. unfold cache_delta in M. destruct (lookup c k); [|reflexivity].
    destruct (counter_value (e_value e)); discriminate M. }
  assert (X : exists up, 0 <= d /\ fst (rmap RInt text_incr_resp (text_delta_reply (snd (cache_delta up c k d)) ++ [])) = Err ENotFound).
  { destruct Q as [->| ->]; [exists true|exists false]; cbn [legal] in L; (split; [apply L|]);
      cbn [meta_intent text_intent snd meta_resp] in E; rewrite app_nil_r;
      match type of E with context [rmap RInt text_incr_resp ?b] => destruct (rmap RInt text_incr_resp b) as [out rest]; cbn [fst snd] in *; exact E end. }
  destruct X as (up & D & X). exact (Z up D X).
Qed.

Lemma is_not_found : forall e, {e = ENotFound} + {e <> ENotFound}.
Proof. intros []; try (right; discriminate); left; reflexivity. Qed.

Section Follow.
Variables (ps ss : list server) (pn sn : list node).
Hypothesis R : two_rings ps ss pn sn.
Variable w : world link.
Hypothesis Lim : as_large ps ss w.
Variable k : bytes.
(** Whether [k] always expires. *)
Variable short : bool.

Definition clocked (now n : Z) (w1 : world link) : Prop :=
  forall sv, In sv (ps ++ ss) -> exists c h, w1 (sv_id sv) = fresh_link c h /\ wf PMeta c /\ c_now c = now /\ c_cas c + n < 2 ^ 63 /\ c_cfg c = c_cfg (l_cache (w (sv_id sv))).

Lemma call_one : forall now n w1 sv c j, clocked now (n + 1) w1 -> 0 <= n -> In sv (ps ++ ss) -> legal PMeta c -> op_key c = Some j -> replica_op c = true ->
  exists cc h a, w1 (sv_id sv) = fresh_link cc h /\ wf PMeta cc /\ c_now cc = now /\ c_cfg cc = c_cfg (l_cache (w (sv_id sv))) /\ c_cas cc + 1 < 2 ^ 63
    /\ meta_server (w1 (sv_id sv)) c = (fresh_link (step1 cc c) h, a)
    /\ (agrees (snd (spec_step PMeta [] cc c)) a \/ (c = ODelete j /\ lookup cc j = None /\ a = Ok RUnit))
    /\ clocked now n (upd w1 (sv_id sv) (fresh_link (step1 cc c) h))
    /\ (forall nodes i, i <> j -> held nodes (upd w1 (sv_id sv) (fresh_link (step1 cc c) h)) i = held nodes w1 i)
    /\ (forall nodes i t, pick nodes i = Ok t -> sv_id t <> sv_id sv -> held nodes (upd w1 (sv_id sv) (fresh_link (step1 cc c) h)) i = held nodes w1 i).
Proof.
  intros now n w1 sv c j G Hn Is L K T. destruct (G sv Is) as (cc & h & E & W & N & C & F). destruct (meta_answers cc h c j W ltac:(lia) L K T) as (a & Em & A).
  exists cc, h, a. split; [exact E|]. split; [exact W|]. split; [exact N|]. split; [exact F|]. split; [lia|]. split; [rewrite E; exact Em|]. split; [exact A|]. pose proof (chg_step cc c j W L K) as Ch. split; [|split].
  - intros t It. unfold upd. destruct (Nat.eqb_spec (sv_id t) (sv_id sv)) as [Q|Q].
    + rewrite Q. destruct Ch as (C1 & C2 & C3 & C4 & C5). exists (step1 cc c), h. split; [reflexivity|]. split; [exact C1|]. split; [congruence|]. split; [lia|congruence].
    + destruct (G t It) as (c' & h' & E' & W' & N' & C' & F'). exists c', h'. split; [exact E'|]. split; [exact W'|]. split; [exact N'|]. split; [lia|exact F'].
  - intros nodes i Ni. unfold held. destruct (pick nodes i) as [t|e|]; [|reflexivity|reflexivity]. unfold upd. destruct (Nat.eqb_spec (sv_id t) (sv_id sv)) as [Q|]; [|reflexivity].
    rewrite Q, E. cbn [fresh_link l_cache]. apply chg_lookup with (k := j); assumption.
  - intros nodes i t Pt Nt. unfold held. rewrite Pt, upd_other by exact Nt. reflexivity.
Qed.
Lemma clocked_tick : forall now n w1 d, 0 <= d -> clocked now n w1 -> clocked (now + d) n (fun i => link_tick (w1 i) d).
Proof.
  intros now n w1 d D G sv Is. destruct (G sv Is) as (c & h & E & W & N & C & F). exists (tick c d), h. rewrite E. split; [reflexivity|]. split; [apply wf_tick; assumption|].
  cbn. split; [congruence|]. split; [exact C|exact F].
Qed.
Lemma clocked_le : forall now n m w1, m <= n -> clocked now n w1 -> clocked now m w1.
Proof. intros now n m w1 H G sv Is. destruct (G sv Is) as (c & h & E & W & N & C & F). exists c, h. split; [exact E|]. split; [exact W|]. split; [exact N|]. split; [lia|exact F]. Qed.

(** Programs that call the servers legally and only for key [j]. *)
Inductive tame (j : bytes) : prog -> Prop :=
| T_ret : forall r, tame j (Ret r)
| T_call : forall sv c kk, In sv (ps ++ ss) -> legal PMeta c -> op_key c = Some j -> replica_op c = true ->
    (forall cc a, wf PMeta cc -> agrees (snd (spec_step PMeta [] cc c)) a \/ (c = ODelete j /\ lookup cc j = None /\ a = Ok RUnit) -> tame j (kk a)) ->
    tame j (Call sv c kk).
Lemma rp_tame : forall o, legal_rop o -> tame (rop_key o) (rp_prog pn sn o).
Proof.
  intros o L. destruct (owner_p _ _ _ _ R (rop_key o)) as (p & Pp & Ip). destruct (owner_s _ _ _ _ R (rop_key o)) as (s & Ps & Is).
  assert (Ips : In p (ps ++ ss)) by (apply in_or_app; auto). assert (Iss : In s (ps ++ ss)) by (apply in_or_app; auto). unfold legal_rop in L.
  assert (Store : forall first i, legal_item PMeta i -> legal PMeta (first i) -> op_key (first i) = Some (it_key i) -> replica_op (first i) = true -> rop_key o = it_key i -> tame (it_key i) (rp_store pn sn first i)).
  { intros first i Li Lf K T Kk. rewrite Kk in *. unfold rp_store, on_ring at 1. rewrite Pp. apply T_call; auto. intros cc a Wc _. destruct a; cbn [if_ok]; [|apply T_ret|apply T_ret].
    unfold on_ring. rewrite Ps. apply T_call; auto. intros. apply T_ret. }
  assert (Delta : forall od j, legal PMeta od -> legal_key PMeta j -> op_key od = Some j -> replica_op od = true -> rop_key o = j -> tame j (rp_delta pn sn od j)).
  { intros od j Lo Lj K T Kk. rewrite Kk in *. unfold rp_delta. rewrite Pp. apply T_call; auto. intros cc a Wc _. destruct a as [x| |]; cbn [if_ok]; [|apply T_ret|apply T_ret].
    apply T_call; auto. intros c2 a2 W2 A2. destruct a2 as [y| |]; cbn [if_ok]; [|apply T_ret|apply T_ret]. destruct A2 as [A2|[Q _]]; [|discriminate Q].
    cbn [spec_step snd] in A2. destruct (lookup c2 j) as [e|] eqn:Le; cbn in A2; [|contradiction]. subst y. unfold on_ring. rewrite Ps. apply T_call; auto; [apply replica_item_legal; assumption|].
    intros c3 a3 _ _. destruct a3; cbn [if_ok]; apply T_ret. }
  destruct o as [j|i|i|i|j|j d e|j d e]; cbn [rp_prog rop_key primary_op] in *.
  - unfold rp_get, on_ring. rewrite Pp. apply T_call; auto. intros. apply T_ret.
  - apply Store; auto.
  - apply Store; auto. apply L.
  - apply Store; auto. apply L.
  - unfold rp_delete, on_ring at 1. rewrite Pp. apply T_call; auto. intros cc a Wc _. destruct a; cbn [if_ok]; [|apply T_ret|apply T_ret]. unfold on_ring. rewrite Ps. apply T_call; auto. intros. apply T_ret.
  - apply Delta; auto. apply L.
  - apply Delta; auto. apply L.
Qed.

(** ** The write of [k] that is under way *)
Local Notation agree w1 := (agree_on pn sn w1 k).
Local Notation limit sv := (cf_limit (c_cfg (l_cache (w (sv_id sv))))).
Definition soon_gone (now : Z) (w1 : world link) : Prop := match held pn w1 k with Some e => exists t, e_expire e = Some t /\ t - now <= month | None => True end.
Inductive stage (now : Z) (w1 : world link) (o : rop) : prog -> Prop :=
| S_start : agree w1 -> stage now w1 o (rp_prog pn sn o)
| S_copy : forall s i fin, pick sn k = Ok s -> it_key i = k -> legal_item PMeta i -> it_cas i = 0 -> zlen (it_value i) <= limit s ->
    (lasting o -> it_exp i = 0) -> same_entry (held pn w1 k) (as_stored now i) -> (exists r, fin (Ok RUnit) = Ret r) -> stage now w1 o (Call s (OSet i) fin)
| S_del : forall s, pick sn k = Ok s -> held pn w1 k = None -> stage now w1 o (Call s (ODelete k) Ret)
| S_get : forall p n e, pick pn k = Ok p -> counter o -> held pn w1 k = Some e ->
    stage now w1 o (Call p (OGet k) (fun r => if_ok r (fun g => match g with
          | RItem i => on_ring sn k (OSet (replica_item k i)) (fun r => if_ok r (fun _ => Ret (Ok n)))
          | _ => Ret Panic end)))
| S_end : forall r, agree w1 \/ (counter o /\ exists e, r = Err e /\ e <> ENotFound) -> stage now w1 o (Ret r).
Definition fit_call (o : rop) : Prop :=
  legal_rop o /\ (write_of k o -> plain_rop o /\ (forall i p, o = RSet i -> pick pn k = Ok p -> zlen (it_value i) <= limit p) /\ (counter o -> short = true) /\ (short = true -> forall i, stored_item o i -> it_exp i <> 0 /\ it_exp i <= month)).
Definition soon (now : Z) (w1 : world link) : Prop := short = true -> soon_gone now w1.

Lemma soon_stored : forall now c i, c_now c = now -> it_exp i <> 0 -> it_exp i <= month -> match lookup (stored c i) (it_key i) with Some e => exists t, e_expire e = Some t /\ t - now <= month | None => True end.
Proof.
  intros now c i N X M. unfold stored. rewrite lookup_put. cbv zeta. destruct (alive _ _) eqn:Al; [|exact Logic.I]. cbn [e_expire] in *. unfold expire_at. rewrite N.
  apply Z.eqb_neq in X. rewrite X. destruct (it_exp i <? 0); [exists now; split; [reflexivity|pose proof (eq_refl : month = 2592000); lia]|]. replace (it_exp i <=? month) with true by (symmetry; apply Z.leb_le; exact M).
  exists (now + it_exp i). split; [reflexivity|lia].
Qed.

Lemma stage_step : forall now n w1 o sv c kk, clocked now (n + 1) w1 -> 0 <= n -> fit_call o -> write_of k o -> soon now w1 -> stage now w1 o (Call sv c kk) ->
  let l := fst (meta_server (w1 (sv_id sv)) c) in let a := snd (meta_server (w1 (sv_id sv)) c) in
  clocked now n (upd w1 (sv_id sv) l) /\ stage now (upd w1 (sv_id sv) l) o (kk a) /\ soon now (upd w1 (sv_id sv) l)
  /\ forall nodes j, j <> k -> held nodes (upd w1 (sv_id sv) l) j = held nodes w1 j.
Proof.
  intros now n w1 o sv c kk G Hn [L Fc] Wo So P. destruct (Fc Wo) as ([_ Pl] & Fs & Cs & Ex). destruct Wo as [Wr Ko].
  destruct (owner_p _ _ _ _ R k) as (p & Pp & Ip). destruct (owner_s _ _ _ _ R k) as (s & Ps & Is).
  assert (Ips : In p (ps ++ ss)) by (apply in_or_app; auto). assert (Iss : In s (ps ++ ss)) by (apply in_or_app; auto).
  assert (D : sv_id p <> sv_id s) by (eapply apart; eassumption).
  assert (Lk : legal_key PMeta k) by (unfold legal_rop, primary_op in L; rewrite <- Ko; destruct o; cbn [legal rop_key] in *; apply L).
  (* the first call of a store *)
  assert (Store : forall first i, stored_item o i -> (first i = OSet i -> o = RSet i) -> stores (first i) i -> legal PMeta (first i) -> legal_item PMeta i -> it_cas i = 0 -> op_key (first i) = Some k -> it_key i = k -> replica_op (first i) = true -> agree w1 ->
     clocked now n (upd w1 (sv_id p) (fst (meta_server (w1 (sv_id p)) (first i)))) /\ stage now (upd w1 (sv_id p) (fst (meta_server (w1 (sv_id p)) (first i)))) o (if_ok (snd (meta_server (w1 (sv_id p)) (first i))) (fun _ => on_ring sn k (OSet i) Ret))
     /\ soon now (upd w1 (sv_id p) (fst (meta_server (w1 (sv_id p)) (first i))))
     /\ forall nodes j, j <> k -> held nodes (upd w1 (sv_id p) (fst (meta_server (w1 (sv_id p)) (first i)))) j = held nodes w1 j).
  { intros first i Oi Os Si Lf Li Ci K Ki T Ag. destruct (call_one now n w1 p (first i) k G Hn Ips Lf K T) as (cc & h & a & E & W & N & F & C & Em & A & G' & O1 & O2).
    rewrite Em. cbn [fst snd]. split; [exact G'|]. assert (Hp : held pn (upd w1 (sv_id p) (fresh_link (step1 cc (first i)) h)) k = lookup (step1 cc (first i)) k) by (unfold held; rewrite Pp, upd_same; reflexivity).
    assert (Hold : held pn w1 k = lookup cc k) by (unfold held; rewrite Pp, E; reflexivity).
    destruct A as [A|[Q _]]; [|destruct Si as [Si|[Si|Si]]; rewrite Si in Q; discriminate Q].
    destruct a as [x|e|]; cbn [if_ok]; [| |destruct (snd (spec_step PMeta [] cc (first i))); contradiction A].
    - apply agrees_ok in A. assert (Ax : exists y, snd (spec_step PMeta [] cc (first i)) = SOk y) by eauto. pose proof (store_effect cc _ i Si Ax) as Es.
      destruct (store_fits cc _ i x Si Ci A) as [-> Fit]. split; [|split; [|exact O1]].
      + unfold on_ring. rewrite Ps. apply S_copy; auto; [pose proof (limit_s ps ss w Lim p s cc Ip Is F); lia|intro La; destruct Oi as [->|[->| ->]]; exact La| |eexists; reflexivity].
        rewrite Hp, Es, <- Ki. apply stored_as. exact N.
      + intro Sh. unfold soon_gone. rewrite Hp, Es. destruct (Ex Sh i Oi) as [X1 X2]. pose proof (soon_stored now cc i N X1 X2) as X. rewrite Ki in X. exact X.
    - (* nothing happened *)
      assert (Es : lookup (step1 cc (first i)) k = lookup cc k).
      { unfold step1. destruct Si as [Si|[Si|Si]].
        - exfalso. pose proof (Fs i p (Os Si) Pp) as Fit. rewrite Si in A. cbn [spec_step snd] in A. rewrite Ci in A. cbn [Z.eqb] in A. unfold cache_set, too_large in A. rewrite F in A.
          replace (limit p <? zlen (it_value i)) with false in A by (symmetry; apply Z.ltb_ge; exact Fit). exact A.
        - rewrite Si in A |- *. cbn [spec_step fst snd] in A |- *. unfold cache_add in *. destruct (too_large cc (it_value i)); [reflexivity|]. destruct (lookup cc (it_key i)); [reflexivity|]. destruct A.
        - rewrite Si in A |- *. cbn [spec_step fst snd] in A |- *. unfold cache_replace in *. destruct (too_large cc (it_value i)); [reflexivity|]. destruct (lookup cc (it_key i)); [destruct A|reflexivity]. }
      split; [|split; [|exact O1]].
      + apply S_end. left. unfold agree_on. rewrite Hp, Es, <- Hold, (O2 sn k s Ps ltac:(congruence)). exact Ag.
      + intro Sh. unfold soon_gone. rewrite Hp, Es, <- Hold. apply So. exact Sh. }
  (* the first call of a counter *)
  assert (Delta : forall od, counter o -> counts od k -> legal PMeta od -> agree w1 ->
     clocked now n (upd w1 (sv_id p) (fst (meta_server (w1 (sv_id p)) od))) /\ stage now (upd w1 (sv_id p) (fst (meta_server (w1 (sv_id p)) od))) o
       (if_ok (snd (meta_server (w1 (sv_id p)) od)) (fun n => Call p (OGet k) (fun r => if_ok r (fun g => match g with
          | RItem i => on_ring sn k (OSet (replica_item k i)) (fun r => if_ok r (fun _ => Ret (Ok n)))
          | _ => Ret Panic end))))
     /\ soon now (upd w1 (sv_id p) (fst (meta_server (w1 (sv_id p)) od)))
     /\ forall nodes j, j <> k -> held nodes (upd w1 (sv_id p) (fst (meta_server (w1 (sv_id p)) od))) j = held nodes w1 j).
  { intros od Co Ct Lo Ag. assert (K : op_key od = Some k) by (destruct Ct as (d & ex & [->| ->]); reflexivity).
    assert (T : replica_op od = true) by (destruct Ct as (d & ex & [->| ->]); reflexivity).
    destruct (call_one now n w1 p od k G Hn Ips Lo K T) as (cc & h & a & E & W & N & F & C & Em & A & G' & O1 & O2).
    assert (Hold : held pn w1 k = lookup cc k) by (unfold held; rewrite Pp, E; reflexivity).
    assert (Fail : a = Err ENotFound -> lookup cc k = None) by (intros ->; rewrite E in Em; apply (counter_fails cc h od k W Lo Ct); rewrite Em; reflexivity).
    rewrite Em. cbn [fst snd]. split; [exact G'|]. assert (Hp : held pn (upd w1 (sv_id p) (fresh_link (step1 cc od) h)) k = lookup (step1 cc od) k) by (unfold held; rewrite Pp, upd_same; reflexivity).
    assert (Eff : match lookup cc k with None => step1 cc od = cc | Some e => exists v, step1 cc od = Cache.put cc k v (e_flags e) (e_expire e) \/ step1 cc od = cc end).
    { unfold step1. destruct Ct as (d & ex & [->| ->]); cbn [spec_step fst]; unfold spec_delta, cache_delta; destruct (lookup cc k) as [e|]; try reflexivity; destruct (counter_value (e_value e)); cbn [fst];
        try (eexists; left; reflexivity); exists []; right; reflexivity. }
    assert (So' : soon now (upd w1 (sv_id p) (fresh_link (step1 cc od) h))).
    { intro Sh. specialize (So Sh). unfold soon_gone in *. rewrite Hp. rewrite Hold in So. destruct (lookup cc k) as [e|] eqn:Le; [|rewrite Eff, Le; exact Logic.I].
      destruct Eff as (v & [->| ->]); [|rewrite Le; exact So]. rewrite lookup_put. cbv zeta. destruct (alive _ _); [exact So|exact Logic.I]. }
    split; [|split; [exact So'|exact O1]].
    destruct A as [A|[Q _]]; [|destruct Ct as (d & ex & [Q1|Q1]); rewrite Q1 in Q; discriminate Q].
    destruct a as [x|e|]; cbn [if_ok]; [| |destruct (snd (spec_step PMeta [] cc od)); contradiction A].
    - apply agrees_ok in A. destruct (delta_effect cc od k x Ct A) as (e & v & _ & Le & P1).
      assert (Lke : exists e', lookup (step1 cc od) k = Some e').
      { rewrite P1, lookup_put. cbv zeta. destruct (lookup_map _ _ _ Le) as [_ Al]. unfold alive in *. cbn [e_expire]. rewrite Al. eexists. reflexivity. }
      destruct Lke as [e' Lke]. apply (S_get now _ o p x e'); [exact Pp|exact Co|rewrite Hp; exact Lke].
    - apply S_end. destruct (is_not_found e) as [->|Ne]; [left|right; split; [exact Co|exists e; auto]].
      rewrite (Fail eq_refl) in Eff. unfold agree_on. rewrite Hp, (O2 sn k s Ps ltac:(congruence)), Eff, <- Hold. exact Ag. }
  cbv zeta. remember (Call sv c kk) as q eqn:Eq. destruct P as [Ag|s' i fin Ps' Ki Li Ci Vi Xi Sm [rf Rf]|s' Ps' Hd|p' nr e Pp' Co He|r Hr].
  - destruct o as [j|i|i|i|j|j d e|j d e]; try discriminate Wr; cbn [rp_prog rop_key] in *; unfold legal_rop in L; cbn [primary_op] in L; try subst j.
    + unfold rp_store in Eq. rewrite Ko in Eq. unfold on_ring at 1 in Eq. rewrite Pp in Eq. injection Eq as <- <- <-. apply (Store OSet i); auto. * left; reflexivity. * left; reflexivity. * cbn; congruence.
    + unfold rp_store in Eq. rewrite Ko in Eq. unfold on_ring at 1 in Eq. rewrite Pp in Eq. injection Eq as <- <- <-. apply (Store OAdd i); auto; try discriminate. * right; left; reflexivity. * right; left; reflexivity. * apply L. * cbn; congruence.
    + unfold rp_store in Eq. rewrite Ko in Eq. unfold on_ring at 1 in Eq. rewrite Pp in Eq. injection Eq as <- <- <-. apply (Store OReplace i); auto; try discriminate. * right; right; reflexivity. * right; right; reflexivity. * apply L. * cbn; congruence.
    + unfold rp_delete, on_ring at 1 in Eq. rewrite Pp in Eq. injection Eq as <- <- <-.
      destruct (call_one now n w1 p (ODelete k) k G Hn Ips Lk eq_refl eq_refl) as (cc & h & a & E & W & N & F & C & Em & A & G' & O1 & O2).
      assert (a = Ok RUnit) as -> by (rewrite E, (meta_delete_ok cc h k W ltac:(lia) Lk) in Em; congruence).
      assert (Hp : held pn (upd w1 (sv_id p) (fresh_link (step1 cc (ODelete k)) h)) k = None) by (unfold held; rewrite Pp, upd_same; apply delete_effect).
      rewrite Em. cbn [fst snd if_ok]. split; [exact G'|]. split; [|split; [intro Sh; unfold soon_gone; rewrite Hp; exact Logic.I|exact O1]].
      unfold on_ring. rewrite Ps. apply S_del; assumption.
    + unfold rp_delta in Eq. rewrite Pp in Eq. injection Eq as <- <- <-. apply (Delta (OIncr k d e)); try exact Logic.I; auto; exists d, e; left; reflexivity.
    + unfold rp_delta in Eq. rewrite Pp in Eq. injection Eq as <- <- <-. apply (Delta (ODecr k d e)); try exact Logic.I; auto; exists d, e; right; reflexivity.
  - injection Eq as <- <- <-. rewrite Ps in Ps'. injection Ps' as <-.
    destruct (call_one now n w1 s (OSet i) k G Hn Iss Li ltac:(cbn; congruence) eq_refl) as (cc & h & a & E & W & N & F & C & Em & A & G' & O1 & O2).
    assert (Sx : snd (spec_step PMeta [] cc (OSet i)) = SOk RUnit).
    { cbn [spec_step snd]. rewrite Ci. cbn [Z.eqb]. unfold cache_set, too_large. rewrite F. replace (limit s <? zlen (it_value i)) with false by (symmetry; apply Z.ltb_ge; exact Vi). reflexivity. }
    destruct A as [A|[Q _]]; [|discriminate Q]. rewrite Sx in A. destruct a; cbn in A; try contradiction. subst a.
    rewrite Em. cbn [fst snd]. split; [exact G'|]. split; [|split; [|exact O1]].
    + rewrite Rf. apply S_end. left. unfold agree_on. rewrite (O2 pn k p Pp D). unfold held at 2. rewrite Ps, upd_same. cbn [fresh_link l_cache].
      rewrite (store_effect cc (OSet i) i ltac:(left; reflexivity) ltac:(eauto)). eapply same_trans; [exact Sm|]. apply same_sym. rewrite <- Ki. apply stored_as. exact N.
    + intro Sh. unfold soon_gone. rewrite (O2 pn k p Pp D). apply So. exact Sh.
  - injection Eq as <- <- <-. rewrite Ps in Ps'. injection Ps' as <-.
    destruct (call_one now n w1 s (ODelete k) k G Hn Iss Lk eq_refl eq_refl) as (cc & h & a & E & W & N & F & C & Em & A & G' & O1 & O2).
    rewrite Em. cbn [fst snd]. split; [exact G'|]. split; [|split; [|exact O1]].
    + apply S_end. left. unfold agree_on. rewrite (O2 pn k p Pp D), Hd. unfold held. rewrite Ps, upd_same. cbn [fresh_link l_cache]. rewrite (proj1 (delete_effect cc k)). exact Logic.I.
    + intro Sh. unfold soon_gone. rewrite (O2 pn k p Pp D). apply So. exact Sh.
  - injection Eq as <- <- <-. rewrite Pp in Pp'. injection Pp' as <-.
    destruct (call_one now n w1 p (OGet k) k G Hn Ips Lk eq_refl eq_refl) as (cc & h & a & E & W & N & F & C & Em & A & G' & O1 & O2).
    assert (Hold : held pn w1 k = lookup cc k) by (unfold held; rewrite Pp, E; reflexivity). rewrite Hold in He.
    destruct A as [A|[Q _]]; [|discriminate Q]. cbn [spec_step snd] in A. rewrite He in A. destruct a; cbn in A; try contradiction. subst a.
    assert (Hp : held pn (upd w1 (sv_id p) (fresh_link (step1 cc (OGet k)) h)) k = Some e) by (unfold held; rewrite Pp, upd_same; exact He).
    specialize (So (Cs Co)). unfold soon_gone in So. rewrite Hold, He in So. destruct So as (t & Et & M).
    rewrite Em. cbn [fst snd if_ok]. split; [exact G'|]. split; [|split; [intro Sh; unfold soon_gone; rewrite Hp; exists t; auto|exact O1]].
    unfold on_ring. rewrite Ps. apply S_copy; [exact Ps|reflexivity|apply replica_item_legal; assumption|reflexivity| | | |eexists; reflexivity].
    + cbn [replica_item item_view it_value]. destruct (wf_lookup _ _ _ _ W He) as (E1 & _). pose proof (limit_s ps ss w Lim p s cc Ip Is F). lia.
    + intro La. destruct o; contradiction.
    + rewrite Hp. destruct (lookup_map _ _ _ He) as [_ Al]. unfold as_stored. rewrite (replica_item_flags cc k e W He). cbn [replica_item item_view it_value it_exp].
      unfold ttl. rewrite Et, N. unfold alive in Al. rewrite Et, N in Al. assert (Al' := Al). apply Z.ltb_lt in Al'. rewrite expire_same by assumption.
      unfold alive. cbn [e_expire]. rewrite Al. cbn. auto.
  - discriminate Eq.
Qed.

(** ** Everything else *)
Definition flight (now : Z) (w1 : world link) (o : rop) (p : prog) : Prop :=
  (rop_key o <> k /\ tame (rop_key o) p) \/ (writes o = false /\ rop_key o = k /\ (p = rp_prog pn sn o \/ exists r, p = Ret r)) \/ (write_of k o /\ stage now w1 o p).
Lemma stage_other : forall now w1 w2 o p, held pn w2 k = held pn w1 k -> held sn w2 k = held sn w1 k -> stage now w1 o p -> stage now w2 o p.
Proof.
  intros now w1 w2 o p Hp Hs P. destruct P as [Ag|s' i fin Ps' Ki Li Ci Vi Xi Sm Rf|s' Ps' Hd|p' nr e Pp' Co He|r Hr].
  - apply S_start. unfold agree_on. rewrite Hp, Hs. exact Ag.
  - apply S_copy; auto. rewrite Hp. exact Sm.
  - apply S_del; auto. rewrite Hp. exact Hd.
  - apply (S_get now w2 o p' nr e); auto. rewrite Hp. exact He.
  - apply S_end. unfold agree_on. rewrite Hp, Hs. exact Hr.
Qed.
Lemma agree_later : forall now n w1 d, 0 <= d -> clocked now n w1 -> agree w1 -> agree (fun i => link_tick (w1 i) d).
Proof.
  intros now n w1 d D G A. destruct (owner_p _ _ _ _ R k) as (p & Pp & Ip). destruct (owner_s _ _ _ _ R k) as (s & Ps & Is). unfold agree_on, held in *. rewrite Pp, Ps in *.
  destruct (G p ltac:(apply in_or_app; auto)) as (cp & hp & Ep & _ & Np & _). destruct (G s ltac:(apply in_or_app; auto)) as (cs & hs & Es & _ & Ns & _). rewrite Ep, Es in *. cbn [link_tick fresh_link l_cache] in *.
  apply lookup_tick_agree; [exact D|congruence|exact A].
Qed.
Lemma held_later : forall nodes w1 d e, 0 <= d -> held nodes (fun i => link_tick (w1 i) d) k = Some e -> held nodes w1 k = Some e.
Proof. intros nodes w1 d e D H. unfold held in *. destruct (pick nodes k); try discriminate H. cbn [link_tick l_cache] in H. apply lookup_tick in H; assumption. Qed.
Lemma held_lasting : forall nodes w1 d e, held nodes w1 k = Some e -> e_expire e = None -> held nodes (fun i => link_tick (w1 i) d) k = Some e.
Proof.
  intros nodes w1 d e H X. unfold held in *. destruct (pick nodes k); try discriminate H. cbn [link_tick l_cache]. destruct (lookup_map _ _ _ H) as [M _]. unfold lookup, tick. cbn [c_map]. rewrite M. unfold alive. rewrite X. reflexivity.
Qed.
Lemma stage_later : forall now n w1 o p d, 0 <= d -> clocked now n w1 -> lasting o -> stage now w1 o p -> stage (now + d) (fun i => link_tick (w1 i) d) o p.
Proof.
  intros now n w1 o p d D G La P. destruct P as [Ag|s' i fin Ps' Ki Li Ci Vi Xi Sm Rf|s' Ps' Hd|p' nr e Pp' Co He|r Hr].
  - apply S_start. eapply agree_later; eassumption.
  - apply S_copy; auto. unfold as_stored, alive in *. cbn [e_expire] in *. rewrite (Xi La) in *. cbn [expire_at Z.eqb] in *. destruct (held pn w1 k) as [e|] eqn:He; [|contradiction Sm].
    rewrite (held_lasting pn w1 d e He ltac:(apply Sm)). exact Sm.
  - apply S_del; auto. destruct (held pn (fun i => link_tick (w1 i) d) k) as [e|] eqn:He; [|reflexivity]. apply held_later in He; [|exact D]. congruence.
  - destruct o; contradiction.
  - apply S_end. destruct Hr as [Hr|Hr]; [left; eapply agree_later; eassumption|right; exact Hr].
Qed.
Lemma soon_later : forall now w1 d, 0 <= d -> soon now w1 -> soon (now + d) (fun i => link_tick (w1 i) d).
Proof.
  intros now w1 d D So Sh. specialize (So Sh). unfold soon_gone in *. destruct (held pn (fun i => link_tick (w1 i) d) k) as [e|] eqn:He; [|exact Logic.I]. apply held_later in He; [|exact D].
  rewrite He in So. destruct So as (t & Et & M). exists t. split; [exact Et|lia].
Qed.
Lemma soon_other : forall now w1 w2, held pn w2 k = held pn w1 k -> soon now w1 -> soon now w2.
Proof. intros now w1 w2 H So Sh. specialize (So Sh). unfold soon_gone in *. rewrite H. exact So. Qed.

Record follow (now N : Z) (v : pool_state link) : Prop := {
  fo_clock : clocked now (N - zlen (g_log v)) (g_world v);
  fo_soon : soon now (g_world v);
  fo_flight : forall t o p, g_now v t = Some (o, p) -> fit_call o /\ flight now (g_world v) o p /\ exists m, gat (g_log v) m (GBegin t o) /\ gidle (g_log v) t m;
  fo_one : forall t o p t' o' p', g_now v t = Some (o, p) -> g_now v t' = Some (o', p') -> write_of k o -> write_of k o' -> t = t';
  fo_rest : ~ being_written v k -> agree (g_world v)
}.
Lemma not_over : forall log e t o m n r, gidle log t m -> called (log ++ [e]) t o m n r -> (n < length log)%nat -> False.
Proof. intros log e t o m n r I' C L. apply called_old in C; [|exact L]. destruct C as (Lt & _ & A & _). specialize (I' n _ Lt A). cbn [own] in I'. rewrite Nat.eqb_refl in I'. discriminate I'. Qed.

Lemma follow_step : forall now N v u, follow now N v -> zlen (g_log u) <= N -> gstep meta_server link_tick pn sn v u ->
  (forall m t o, gat (g_log u) m (GBegin t o) -> fit_call o) -> one_at_a_time (g_log u) k -> no_time_during (g_log u) k -> counters_in_range (g_log u) k ->
  exists now', follow now' N u.
Proof.
  intros now N v u F HN St Fit One Tim Rng.
  assert (Zl : forall e, zlen (g_log v ++ [e]) = zlen (g_log v) + 1) by (intro e; rewrite zlen_app; reflexivity).
  destruct St as [v t o Nw|v t o sv c kk Nw wr|v t o r Nw|v d D]; cbn [g_log g_world g_now] in *.
  - (* a call begins *)
    assert (Fo : fit_call o) by (apply (Fit (length (g_log v)) t); apply gat_last).
    assert (Alone : write_of k o -> ~ being_written v k).
    { intros Wo (t' & o' & p' & Nw' & Wo'). destruct (fo_flight _ _ _ F t' o' p' Nw') as (_ & _ & m & A & I').
      destruct (One m t' o' (length (g_log v)) t o (gat_app _ _ _ _ A) (gat_last _ _) Wo' Wo (gat_lt _ _ _ A)) as (n & r & C & Ln). eapply not_over; eassumption. }
    exists now. constructor; cbn [g_log g_world g_now].
    + eapply clocked_le; [|apply F]. rewrite Zl. lia.
    + apply F.
    + intros j o' p H. destruct (Nat.eq_dec j t) as [->|Nj].
      * rewrite set_now_same in H. injection H as <- <-. split; [exact Fo|]. split.
        -- destruct (beq (rop_key o) k) eqn:Ek; [apply beq_eq in Ek|left; split; [intro Q; rewrite Q, beq_refl in Ek; discriminate Ek|apply rp_tame; exact (proj1 Fo)]].
           right. destruct (writes o) eqn:Wo; [right; split; [split; assumption|]|left; split; [first [reflexivity|exact Wo]|split; [exact Ek|left; reflexivity]]]. apply S_start. apply (fo_rest _ _ _ F). exact (Alone (conj Wo Ek)).
        -- exists (length (g_log v)). split; [apply gat_last|]. intros x e Lx A. apply gat_lt in A. rewrite app_length in A. cbn in A. lia.
      * rewrite set_now_other in H by exact Nj. destruct (fo_flight _ _ _ F j o' p H) as (Fj & Pj & m & A & I'). split; [exact Fj|]. split; [exact Pj|]. exists m. split; [apply gat_app; exact A|].
        apply gidle_snoc; [|exact I']. cbn [own]. apply Nat.eqb_neq. congruence.
    + intros j o' p j' o'' p' H H' W' W''. destruct (Nat.eq_dec j t) as [->|Nj], (Nat.eq_dec j' t) as [->|Nj']; [reflexivity| | |].
      * exfalso. rewrite set_now_same in H. injection H as <- _. rewrite set_now_other in H' by exact Nj'. apply (Alone W'). exists j', o'', p'. auto.
      * exfalso. rewrite set_now_same in H'. injection H' as <- _. rewrite set_now_other in H by exact Nj. apply (Alone W''). exists j, o', p. auto.
      * rewrite set_now_other in H, H' by assumption. apply (fo_one _ _ _ F j o' p j' o'' p'); assumption.
    + intro Nb. apply (fo_rest _ _ _ F). intros (j & o' & p & H & W'). apply Nb. exists j, o', p. split; [|exact W']. cbn [g_now]. rewrite set_now_other; [exact H|]. intros ->. congruence.
  - (* a server is called *)
    destruct (fo_flight _ _ _ F t o _ Nw) as (Fo & Pt & m & A & I'). assert (G : clocked now (N - zlen (g_log v) - 1 + 1) (g_world v)) by (replace (N - zlen (g_log v) - 1 + 1) with (N - zlen (g_log v)) by lia; apply F).
    assert (Hn : 0 <= N - zlen (g_log v) - 1) by (rewrite Zl in HN; lia).
    assert (Other : ~ write_of k o -> clocked now (N - zlen (g_log v) - 1) (fst wr) -> (held pn (fst wr) k = held pn (g_world v) k /\ held sn (fst wr) k = held sn (g_world v) k) -> flight now (fst wr) o (kk (snd wr)) ->
      exists now', follow now' N (mkG (fst wr) (set_now (g_now v) t (Some (o, kk (snd wr)))) (g_log v ++ [GCall t sv c (snd wr)]))).
    { intros Nwo G' [Hp Hs] Fl. exists now. constructor; cbn [g_log g_world g_now].
      - rewrite Zl. replace (N - (zlen (g_log v) + 1)) with (N - zlen (g_log v) - 1) by lia. exact G'.
      - eapply soon_other; [exact Hp|]. apply F.
      - intros j o' p H. destruct (Nat.eq_dec j t) as [->|Nj].
        + rewrite set_now_same in H. injection H as <- <-. split; [exact Fo|]. split; [exact Fl|]. exists m. split; [apply gat_app; exact A|]. apply gidle_snoc; [reflexivity|exact I'].
        + rewrite set_now_other in H by exact Nj. destruct (fo_flight _ _ _ F j o' p H) as (Fj & Pj & mj & Aj & Ij). split; [exact Fj|]. split; [|exists mj; split; [apply gat_app; exact Aj|apply gidle_snoc; [reflexivity|exact Ij]]].
          destruct Pj as [Pj|[Pj|[W' Pj]]]; [left; exact Pj|right; left; exact Pj|right; right; split; [exact W'|eapply stage_other; eassumption]].
      - intros j o' p j' o'' p' H H' W' W''. assert (Nj : j <> t) by (intros ->; rewrite set_now_same in H; injection H as <- _; contradiction). assert (Nj' : j' <> t) by (intros ->; rewrite set_now_same in H'; injection H' as <- _; contradiction).
        rewrite set_now_other in H, H' by assumption. apply (fo_one _ _ _ F j o' p j' o'' p'); assumption.
      - intro Nb. unfold agree_on. rewrite Hp, Hs. apply (fo_rest _ _ _ F). intros (j & o' & p & H & W'). apply Nb. exists j, o', p. split; [|exact W']. cbn [g_now]. rewrite set_now_other; [exact H|]. intros ->. rewrite Nw in H. injection H as <- _. contradiction. }
    destruct Pt as [[Nk Tm]|[(Wo & Ko & Sh)|[Wo Sg]]].
    + apply Other; [intros [_ Q]; contradiction| | |]; remember (Call sv c kk) as q eqn:Eq; destruct Tm as [r|sv' c' kk' Is Lc Kc Tc Hk]; try discriminate Eq; injection Eq as -> -> ->;
        destruct (call_one now _ (g_world v) sv c (rop_key o) G Hn Is Lc Kc Tc) as (cc & h & a & E & W & Nn & Fc & C & Em & Ag & G' & O1 & O2); unfold wr, server_call; rewrite Em; cbn [fst snd].
      * exact G'.
      * split; apply O1; congruence.
      * left. split; [exact Nk|]. apply (Hk cc a W Ag).
    + destruct o as [j|i|i|i|j|j dd ee|j dd ee]; try discriminate Wo. cbn [rop_key] in Ko. subst j. destruct (owner_p _ _ _ _ R k) as (p & Pp & Ip).
      destruct Sh as [Sh|[r Sh]]; [|discriminate Sh]. cbn [rp_prog] in Sh. unfold rp_get, on_ring in Sh. rewrite Pp in Sh. injection Sh as -> -> ->.
      destruct (call_one now _ (g_world v) p (OGet k) k G Hn ltac:(apply in_or_app; auto) (proj1 Fo) eq_refl eq_refl) as (cc & h & a & E & W & Nn & Fc & C & Em & Ag & G' & O1 & O2).
      assert (Wx : forall i, upd (g_world v) (sv_id p) (fresh_link (step1 cc (OGet k)) h) i = g_world v i) by (intro i; unfold upd; destruct (Nat.eqb_spec i (sv_id p)) as [->|]; [symmetry; exact E|reflexivity]).
      apply Other; [intros [Q _]; discriminate Q| | |]; unfold wr, server_call; rewrite Em; cbn [fst snd].
      * exact G'.
      * unfold held. split; [destruct (pick pn k)|destruct (pick sn k)]; try reflexivity; rewrite Wx; reflexivity.
      * right. left. split; [reflexivity|]. split; [reflexivity|]. right. eexists. reflexivity.
    + destruct (stage_step now _ (g_world v) o sv c kk G Hn Fo Wo (fo_soon _ _ _ F) Sg) as (G' & Sg' & So' & Oth). exists now. constructor; cbn [g_log g_world g_now].
      * rewrite Zl. replace (N - (zlen (g_log v) + 1)) with (N - zlen (g_log v) - 1) by lia. exact G'.
      * exact So'.
      * intros j o' p H. destruct (Nat.eq_dec j t) as [->|Nj].
        -- rewrite set_now_same in H. injection H as <- <-. split; [exact Fo|]. split; [right; right; split; [exact Wo|exact Sg']|]. exists m. split; [apply gat_app; exact A|]. apply gidle_snoc; [reflexivity|exact I'].
        -- rewrite set_now_other in H by exact Nj. destruct (fo_flight _ _ _ F j o' p H) as (Fj & Pj & mj & Aj & Ij). split; [exact Fj|]. split; [|exists mj; split; [apply gat_app; exact Aj|apply gidle_snoc; [reflexivity|exact Ij]]].
           destruct Pj as [Pj|[Pj|[W' Pj]]]; [left; exact Pj|right; left; exact Pj|]. exfalso. apply Nj. apply (fo_one _ _ _ F j o' p t o (Call sv c kk)); assumption.
      * intros j o' p j' o'' p' H H' W' W''. assert (X : forall y z q, set_now (g_now v) t (Some (o, kk (snd wr))) y = Some (z, q) -> write_of k z -> y = t).
        { intros y z q Hy Wz. destruct (Nat.eq_dec y t) as [->|Ny]; [reflexivity|]. rewrite set_now_other in Hy by exact Ny. apply (fo_one _ _ _ F y z q t o (Call sv c kk)); assumption. }
        rewrite (X j o' p H W'), (X j' o'' p' H' W''). reflexivity.
      * intro Nb. exfalso. apply Nb. exists t, o, (kk (snd wr)). split; [apply set_now_same|exact Wo].
  - (* a call returns *)
    destruct (fo_flight _ _ _ F t o _ Nw) as (Fo & Pt & m & A & I').
    exists now. constructor; cbn [g_log g_world g_now].
    + eapply clocked_le; [|apply F]. rewrite Zl. lia.
    + apply F.
    + intros j o' p H. destruct (Nat.eq_dec j t) as [->|Nj]; [rewrite set_now_same in H; discriminate H|]. rewrite set_now_other in H by exact Nj.
      destruct (fo_flight _ _ _ F j o' p H) as (Fj & Pj & mj & Aj & Ij). split; [exact Fj|]. split; [exact Pj|]. exists mj. split; [apply gat_app; exact Aj|]. apply gidle_snoc; [|exact Ij]. cbn [own]. apply Nat.eqb_neq. congruence.
    + intros j o' p j' o'' p' H H' W' W''. assert (Nj : j <> t) by (intros ->; rewrite set_now_same in H; discriminate H). assert (Nj' : j' <> t) by (intros ->; rewrite set_now_same in H'; discriminate H').
      rewrite set_now_other in H, H' by assumption. apply (fo_one _ _ _ F j o' p j' o'' p'); assumption.
    + intro Nb. assert (Rest : ~ write_of k o -> agree (g_world v)).
      { intro Nwo. apply (fo_rest _ _ _ F). intros (j & o' & p & H & W'). apply Nb. exists j, o', p. split; [|exact W']. cbn [g_now]. rewrite set_now_other; [exact H|]. intros ->. rewrite Nw in H. injection H as <- _. contradiction. }
      destruct Pt as [[Nk _]|[(Wo & _)|[Wo Sg]]]; [apply Rest; intros [_ Q]; contradiction|apply Rest; intros [Q _]; congruence|].
      remember (Ret r) as q eqn:Eq. destruct Sg as [Ag|s' i fin Ps' Ki Li Ci Vi Xi Sm Rf|s' Ps' Hd|p' nr e Pp' Co He|r' Hr]; try discriminate Eq; [exact Ag|].
      injection Eq as ->. destruct Hr as [Hr|(Co & e & -> & Ne)]; [exact Hr|]. exfalso. apply Ne. apply (Rng t o m (length (g_log v)) e); [|exact Co|apply Wo].
      split; [eapply gat_lt; exact A|]. split; [apply gat_app; exact A|]. split; [apply gat_last|]. intros x y Rx Ax. apply (I' x y); [lia|]. eapply gat_old; [|exact Ax]. lia.
  - (* time passes *)
    exists (now + d). constructor; cbn [g_log g_world g_now].
    + apply clocked_tick; [exact D|]. eapply clocked_le; [|apply F]. rewrite Zl. lia.
    + apply soon_later; [exact D|apply F].
    + intros j o p H. destruct (fo_flight _ _ _ F j o p H) as (Fj & Pj & m & A & I'). split; [exact Fj|]. split; [|exists m; split; [apply gat_app; exact A|apply gidle_snoc; [reflexivity|exact I']]].
      destruct Pj as [Pj|[Pj|[W' Pj]]]; [left; exact Pj|right; left; exact Pj|right; right; split; [exact W'|]].
      eapply stage_later; [exact D|apply F| |exact Pj].
      assert (La : lasting o \/ ~ lasting o) by (destruct o as [j0|i|i|i|j0|j0 d0 e0|j0 d0 e0]; cbn [lasting]; try (destruct (Z.eq_dec (it_exp i) 0); auto; fail); auto).
      destruct La as [La|La]; [exact La|]. exfalso. destruct (Tim m j o (length (g_log v)) d (gat_app _ _ _ _ A) W' La (gat_last _ _) (gat_lt _ _ _ A)) as (n & r & C & Ln). eapply not_over; eassumption.
    + apply F.
    + intro Nb. eapply agree_later; [exact D|apply F|]. apply (fo_rest _ _ _ F). exact Nb.
Qed.
End Follow.

(** ** C83 *)
(** Goroutines share a ReplicaPool in any way, with any keys. Whenever no write of [k] is under way, the servers of
    [k] on the two rings hold the same item, or both none. (Beyond the English property: writes of [k] do not
    overlap and have no cas number; no time passes during a write that expires; if [k] is counted it always expires
    within 30 days and the counter stays below 2^63; values of Sets fit.) *)
Theorem C83_secondary_follows_partial : forall ps ss pn sn w v k,
  two_rings ps ss pn sn -> good_world (zlen (g_log v)) (ps ++ ss) w -> as_large ps ss w -> agree_on pn sn w k ->
  gsteps meta_server link_tick pn sn (pool_fresh w) v ->
  legal_calls (g_log v) k -> sets_fit pn w (g_log v) k -> one_at_a_time (g_log v) k -> no_time_during (g_log v) k ->
  not_counted (g_log v) k \/ (always_expires pn w (g_log v) k /\ counters_in_range (g_log v) k) ->
  ~ being_written v k -> agree_on pn sn (g_world v) k.
Proof.
  intros ps ss pn sn w v k R [now0 G] Lim Ag Sv Lg Sf One Tim Cn.
  assert (X : exists short : bool, (forall m t o, gat (g_log v) m (GBegin t o) -> fit_call pn w k short o) /\ soon pn k short now0 w /\ counters_in_range (g_log v) k).
  { destruct Cn as [Cn|[[Sl Ex] Rng]].
    - exists false. split; [|split; [intro Q; discriminate Q|]].
      + intros m t o A. destruct (Lg m t o A) as [L P]. split; [exact L|]. intro Wo. split; [apply P; exact Wo|]. split; [intros i p -> Pk; destruct Wo; eapply Sf; eassumption|]. split; [|intro Q; discriminate Q].
        intro Co. exfalso. apply (Cn m t o A Co). apply Wo.
      + intros t o m n e C Co Ko. exfalso. destruct C as (_ & A & _). apply (Cn m t o A Co Ko).
    - exists true. split; [|split; [|exact Rng]].
      + intros m t o A. destruct (Lg m t o A) as [L P]. split; [exact L|]. intro Wo. split; [apply P; exact Wo|]. split; [intros i p -> Pk; destruct Wo; eapply Sf; eassumption|]. split; [reflexivity|].
        intros _ i Si. apply (Ex m t o i A Si). destruct Wo as [_ Ko]. destruct Si as [->|[->| ->]]; exact Ko.
      + intros _. unfold soon_gone, short_lived in *. destruct (owner_p _ _ _ _ R k) as (p & Pp & Ip). rewrite Pp in Sl. destruct (held pn w k); [|exact Logic.I].
        destruct (G p ltac:(apply in_or_app; auto)) as (c & h & E & _ & N & _). rewrite E in Sl. cbn [fresh_link l_cache] in Sl. rewrite N in Sl. exact Sl. }
  destruct X as (short & Fit & So & Rng). clear Cn.
  assert (Gen : forall N0 u, gsteps meta_server link_tick pn sn (pool_fresh w) u -> clocked ps ss w now0 N0 w -> zlen (g_log u) <= N0 -> (forall m t o, gat (g_log u) m (GBegin t o) -> fit_call pn w k short o) ->
    one_at_a_time (g_log u) k -> no_time_during (g_log u) k -> counters_in_range (g_log u) k -> exists now, follow ps ss pn sn w k short now N0 u).
  { clear - R Lim So Ag. intros N0 u Su G0. remember (pool_fresh w) as v0 eqn:E0. induction Su as [u|v u x Su IH St]; intros Le Fit One Tim Rng; subst.
    - exists now0. constructor; cbn [pool_fresh g_log g_world g_now].
      + change (zlen []) with 0. rewrite Z.sub_0_r. exact G0.
      + exact So.
      + intros t o p Q. discriminate Q.
      + intros t o p t' o' p' Q. discriminate Q.
      + intros _. exact Ag.
    - assert (Pre : exists e, g_log x = g_log u ++ [e]) by (destruct St; eexists; reflexivity). destruct Pre as [e Pre].
      destruct IH as [now F]; try reflexivity.
      + rewrite Pre, zlen_app in Le. change (zlen [e]) with 1 in Le. lia.
      + intros m t o A. apply (Fit m t o). rewrite Pre. apply gat_app. exact A.
      + rewrite Pre in One. eapply one_old. exact One.
      + rewrite Pre in Tim. eapply time_old. exact Tim.
      + rewrite Pre in Rng. eapply range_old. exact Rng.
      + eapply (follow_step ps ss pn sn R w Lim k short now N0 u x F Le St); eassumption. }
  destruct (Gen (zlen (g_log v)) v Sv) as [now F]; [|lia|assumption..|].
  { intros sv Is. destruct (G sv Is) as (c & h & E & W & N & C). exists c, h. split; [exact E|]. split; [exact W|]. split; [exact N|]. split; [exact C|]. rewrite E. reflexivity. }
  intro Nb. apply (fo_rest _ _ _ _ _ _ _ _ _ _ F). exact Nb.
Qed.
Print Assumptions C83_secondary_follows_partial.

(** What is read is the same: Get on the pool and Get on a pool with the rings exchanged. *)
Definition same_answer (r r' : outcome result) : Prop :=
  (r = Err ENotFound /\ r' = Err ENotFound)
  \/ exists i i', r = Ok (RItem i) /\ r' = Ok (RItem i') /\ it_key i = it_key i' /\ it_value i = it_value i' /\ it_flags i = it_flags i' /\ it_exp i = it_exp i'.
Theorem C83_failover_reads_the_same_partial : forall ps ss pn sn w v k,
  two_rings ps ss pn sn -> good_world (zlen (g_log v)) (ps ++ ss) w -> as_large ps ss w -> agree_on pn sn w k ->
  gsteps meta_server link_tick pn sn (pool_fresh w) v ->
  legal_calls (g_log v) k -> sets_fit pn w (g_log v) k -> one_at_a_time (g_log v) k -> no_time_during (g_log v) k ->
  not_counted (g_log v) k \/ (always_expires pn w (g_log v) k /\ counters_in_range (g_log v) k) ->
  ~ being_written v k -> legal_key PMeta k ->
  same_answer (snd (exec meta_server (rp_prog pn sn (RGet k)) (g_world v))) (snd (exec meta_server (rp_prog sn pn (RGet k)) (g_world v))).
Proof.
  intros ps ss pn sn w v k R G Lim Ag Sv Lg Sf One Tim Cn Nb Lk. pose proof (C83_secondary_follows_partial ps ss pn sn w v k R G Lim Ag Sv Lg Sf One Tim Cn Nb) as A.
  assert (Ck : exists now, clocked ps ss w now 0 (g_world v)).
  { clear - R G Sv Lg. destruct G as [now0 G].
    assert (Gen : forall N0 u, gsteps meta_server link_tick pn sn (pool_fresh w) u -> clocked ps ss w now0 N0 w -> zlen (g_log u) <= N0 -> (forall m t o, gat (g_log u) m (GBegin t o) -> legal_rop o) ->
      (exists now, clocked ps ss w now (N0 - zlen (g_log u)) (g_world u)) /\ forall t o p, g_now u t = Some (o, p) -> tame ps ss (rop_key o) p).
    { clear - R. intros N0 u Su G0. remember (pool_fresh w) as v0 eqn:E0. induction Su as [u|v u x Su IH St]; intros Le Lg; subst.
      - cbn [pool_fresh g_log g_world g_now]. split; [exists now0; change (zlen []) with 0; rewrite Z.sub_0_r; exact G0|]. intros t o p Q. discriminate Q.
      - assert (Pre : exists e, g_log x = g_log u ++ [e]) by (destruct St; eexists; reflexivity). destruct Pre as [e Pre].
        rewrite Pre, zlen_app in Le. change (zlen [e]) with 1 in Le.
        destruct (IH eq_refl ltac:(lia) ltac:(intros m t o A; apply (Lg m t o); rewrite Pre; apply gat_app; exact A)) as [[now G] T]. rewrite Pre, zlen_app. change (zlen [e]) with 1.
        destruct St as [v t o Nw|v t o sv c kk Nw wr|v t o r Nw|v d D]; cbn [g_log g_world g_now] in *.
        + split; [exists now; eapply clocked_le; [|exact G]; lia|]. intros j o' p H. destruct (Nat.eq_dec j t) as [->|Nj]; [|rewrite set_now_other in H by exact Nj; apply (T j o' p H)].
          rewrite set_now_same in H. injection H as <- <-. apply (rp_tame ps ss pn sn R). apply (Lg (length (g_log v)) t). apply gat_last.
        + pose proof (T t o _ Nw) as Tm. remember (Call sv c kk) as q eqn:Eq. destruct Tm as [r|sv' c' kk' Is Lc Kc Tc Hk]; [discriminate Eq|]. injection Eq as -> -> ->.
          destruct (call_one ps ss w now (N0 - (zlen (g_log v) + 1)) (g_world v) sv c (rop_key o)) as (cc & h & a & E & W & Nn & Fc & C & Em & Ag & G' & _); [eapply clocked_le; [|exact G]; lia|lia|assumption..|].
          unfold wr, server_call. rewrite Em. cbn [fst snd]. split; [exists now; exact G'|]. intros j o' p H. destruct (Nat.eq_dec j t) as [->|Nj]; [|rewrite set_now_other in H by exact Nj; apply (T j o' p H)].
          rewrite set_now_same in H. injection H as <- <-. apply (Hk cc a W Ag).
        + split; [exists now; eapply clocked_le; [|exact G]; lia|]. intros j o' p H. destruct (Nat.eq_dec j t) as [->|Nj]; [rewrite set_now_same in H; discriminate H|rewrite set_now_other in H by exact Nj; apply (T j o' p H)].
        + split; [|exact T]. exists (now + d). apply clocked_tick; [exact D|]. eapply clocked_le; [|exact G]. lia. }
    destruct (Gen (zlen (g_log v)) v Sv) as [[now Gv] _]; [|lia|intros m t o Q; exact (proj1 (Lg m t o Q))|].
    { intros sv Is. destruct (G sv Is) as (c & h & E & W & N & C). exists c, h. split; [exact E|]. split; [exact W|]. split; [exact N|]. split; [exact C|]. rewrite E. reflexivity. }
    exists now. rewrite Z.sub_diag in Gv. exact Gv. }
  destruct Ck as [now Ck]. destruct (owner_p _ _ _ _ R k) as (p & Pp & Ip). destruct (owner_s _ _ _ _ R k) as (s & Ps & Is).
  destruct (Ck p ltac:(apply in_or_app; auto)) as (cp & hp & Ep & Wp & Np & Cp & _). destruct (Ck s ltac:(apply in_or_app; auto)) as (cs & hs & Es & Ws & Ns & Cs & _).
  unfold agree_on, held in A. rewrite Pp, Ps, Ep, Es in A. cbn [fresh_link l_cache] in A.
  cbn [rp_prog]. unfold rp_get, on_ring. rewrite Pp, Ps. cbn [exec]. unfold server_call. rewrite Ep, Es. cbn [snd].
  destruct (meta_answers cp hp (OGet k) k Wp ltac:(lia) Lk eq_refl eq_refl) as (o1 & -> & A1). destruct (meta_answers cs hs (OGet k) k Ws ltac:(lia) Lk eq_refl eq_refl) as (o2 & -> & A2). cbn [snd].
  destruct A1 as [A1|[Q _]]; [|discriminate Q]. destruct A2 as [A2|[Q _]]; [|discriminate Q]. cbn [spec_step snd] in A1, A2.
  destruct (lookup cp k) as [e1|], (lookup cs k) as [e2|]; cbn [same_entry] in A; try contradiction; destruct o1; cbn in A1; try contradiction; destruct o2; cbn in A2; try contradiction; subst; [right|left; auto].
  destruct A as (Av & Af & Ax). eexists _, _. split; [reflexivity|]. split; [reflexivity|]. cbn [item_view it_key it_value it_flags it_exp]. split; [reflexivity|]. split; [exact Av|]. split; [rewrite Af; reflexivity|].
  unfold ttl. rewrite Ax. destruct (e_expire e2); [|reflexivity]. f_equal. congruence.
Qed.
Print Assumptions C83_failover_reads_the_same_partial.

(** ** Each condition is needed *)
(** The replicas agree whenever the given condition holds of the initial servers and the run. *)
Definition follows_if (P : list node -> world link -> list gevent -> bytes -> Prop) : Prop := forall ps ss pn sn w v k,
  two_rings ps ss pn sn -> good_world (zlen (g_log v)) (ps ++ ss) w -> as_large ps ss w -> agree_on pn sn w k ->
  gsteps meta_server link_tick pn sn (pool_fresh w) v -> legal_calls (g_log v) k -> P pn w (g_log v) k ->
  ~ being_written v k -> agree_on pn sn (g_world v) k.
(** The full statement. *)
Definition C83_secondary_follows : Prop := follows_if (fun _ _ _ _ => True).

Definition x_world (v : string) (expire : option Z) : world link := fun _ => fresh_link (Cache.put (empty_cache demo_cfg 100) (B "x") (B v) 0 expire) reset_header.
Lemma x_world_ok : forall v expire n, zlen (B v) <= 1000 -> match expire with None => True | Some t => t < 2 ^ 31 end -> 0 <= n < 2 ^ 62 ->
  good_world n ([sv_a] ++ [sv_b]) (x_world v expire) /\ agree_on prim_a sec_b (x_world v expire) (B "x") /\ as_large [sv_a] [sv_b] (x_world v expire).
Proof.
  intros v expire n Lv He Hn. split; [|split].
  - exists 100. intros sv _. exists (Cache.put (empty_cache demo_cfg 100) (B "x") (B v) 0 expire), reset_header. split; [reflexivity|].
    split; [|split; [reflexivity|cbn [Cache.put put_entry empty_cache c_cas]; lia]]. split; [exact demo_cfg_ok|]. split; [cbn; lia|]. split; [cbn; lia|].
    intros k e Hk. unfold Cache.put in Hk. cbn [c_map] in Hk. unfold put_entry in Hk. destruct (beq k (B "x")); [|discriminate Hk]. injection Hk as <-.
    split; [cbn [e_value Cache.put c_cfg empty_cache]; change (cf_limit demo_cfg) with 1048576; lia|]. split; [cbn [e_flags flags_bound]; lia|]. split; [cbn; lia|]. intros _. cbn [e_expire c_now Cache.put empty_cache]. destruct expire; lia.
  - unfold agree_on. rewrite held_a, held_b. unfold x_world. cbn [fresh_link l_cache]. destruct (lookup _ _); cbn; auto.
  - intros p s _ _. unfold x_world. cbn. lia.
Qed.
Lemma x_world_fits : forall v expire log, (forall m t i, gat log m (GBegin t (RSet i)) -> zlen (it_value i) <= 1000) -> sets_fit prim_a (x_world v expire) log (B "x").
Proof. intros v expire log H m t i p A _ _. specialize (H m t i A). unfold x_world. cbn [fresh_link l_cache Cache.put c_cfg empty_cache]. change (cf_limit demo_cfg) with 1048576. lia. Qed.
Lemma plain_set_x : forall v t, zlen (B v) < 2 ^ 31 -> - 2 ^ 31 <= t < 2 ^ 31 -> legal_rop (set_x v t) /\ (write_of (B "x") (set_x v t) -> plain_rop (set_x v t)).
Proof. intros v t Lv Lt. pose proof (legal_set_x v t Lv Lt). split; [assumption|]. intros _. split; [assumption|reflexivity]. Qed.

Lemma agree_x : forall w, agree_on prim_a sec_b w (B "x") <-> same_entry (lookup (l_cache (w 0%nat)) (B "x")) (lookup (l_cache (w 1%nat)) (B "x")).
Proof. intro w. unfold agree_on. rewrite held_a, held_b. split; intro X; exact X. Qed.

Definition fine_call (o : rop) : Prop := legal_rop o /\ (write_of (B "x") o -> plain_rop o).
Lemma plain_x1 : fine_call (set_x "1" 0). Proof. apply (plain_set_x "1" 0); [vm_compute; reflexivity|lia]. Qed.
Lemma plain_x2 : fine_call (set_x "2" 0). Proof. apply (plain_set_x "2" 0); [vm_compute; reflexivity|lia]. Qed.
Lemma plain_x10 : fine_call (set_x "1" 10). Proof. apply (plain_set_x "1" 10); [vm_compute; reflexivity|lia]. Qed.

(** Two Sets that overlap. *)
Definition crossing : list gchoice := [HBegin 0 (set_x "1" 0); HBegin 1 (set_x "2" 0); HCall 0; HCall 1; HCall 1; HReturn 1; HCall 0; HReturn 0].
Theorem C83_overlapping_writes_refuted : ~ follows_if (fun pn w log k => sets_fit pn w log k /\ no_time_during log k /\ not_counted log k).
Proof.
  intro H. destruct (gran (x_world "0" None) crossing (fun v => (forall t, g_now v t = None) /\ ~ same_entry (lookup (l_cache (g_world v 0%nat)) (B "x")) (lookup (l_cache (g_world v 1%nat)) (B "x"))
    /\ exists a b c d, g_log v = [GBegin 0 (set_x "1" 0); GBegin 1 (set_x "2" 0); GCall 0 sv_a a c; GCall 1 sv_a b c; GCall 1 sv_b b c; GReturn 1 (set_x "2" 0) d; GCall 0 sv_b a c; GReturn 0 (set_x "1" 0) d])) as (v & Sv & Dn & Bad & a & b & c & d & Lg).
  { set (r := ab_pool _ _). vm_compute in r. subst r. cbn [g_log g_now g_world]. split; [intros [|[|t]]; reflexivity|]. split; [vm_compute; intros [Q _]; discriminate Q|]. eexists _, _, _, _. reflexivity. }
  destruct (x_world_ok "0" None (zlen (g_log v)) ltac:(vm_compute; discriminate) Logic.I ltac:(rewrite Lg; vm_compute; split; [discriminate|reflexivity])) as (G & Ag & La).
  apply Bad. apply (proj1 (agree_x (g_world v))). apply (H [sv_a] [sv_b] prim_a sec_b (x_world "0" None) v (B "x") rings_a_b G La Ag Sv); cbv beta; clear H.
  - rewrite Lg. intros m t o A. each_turn m A; injection A as <- <-; first [exact plain_x1|exact plain_x2|exact plain_x10].
  - split; [|split].
    + apply x_world_fits. rewrite Lg. intros m t i A. each_turn m A; injection A as <- <-; vm_compute; discriminate.
    + rewrite Lg. intros m t o x dd _ _ _ A. each_turn x A.
    + rewrite Lg. intros m t o A Co. each_turn m A; injection A as <- <-; destruct Co.
  - intros (t & o & p & Q & _). rewrite Dn in Q. discriminate Q.
Qed.
Print Assumptions C83_overlapping_writes_refuted.

(** So the full statement is false. *)
Theorem C83_secondary_follows_refuted : ~ C83_secondary_follows.
Proof.
  intro H. apply C83_overlapping_writes_refuted. intros ps ss pn sn w v k R G La Ag Sv Lc _ Nb. exact (H ps ss pn sn w v k R G La Ag Sv Lc Logic.I Nb).
Qed.
Print Assumptions C83_secondary_follows_refuted.

(** Time passes between the two calls of a Set with an expiration: the copies expire at different times. *)
Definition delayed : list gchoice := [HBegin 0 (set_x "1" 10); HCall 0; HTime 5; HCall 0; HReturn 0].
Theorem C83_time_during_a_write_refuted : ~ follows_if (fun pn w log k => sets_fit pn w log k /\ one_at_a_time log k /\ not_counted log k).
Proof.
  intro H. destruct (gran (x_world "0" None) delayed (fun v => (forall t, g_now v t = None) /\ ~ same_entry (lookup (l_cache (g_world v 0%nat)) (B "x")) (lookup (l_cache (g_world v 1%nat)) (B "x"))
    /\ exists a c d, g_log v = [GBegin 0 (set_x "1" 10); GCall 0 sv_a a c; GTime 5; GCall 0 sv_b a c; GReturn 0 (set_x "1" 10) d])) as (v & Sv & Dn & Bad & a & c & d & Lg).
  { set (r := ab_pool _ _). vm_compute in r. subst r. cbn [g_log g_now g_world]. split; [intros [|t]; reflexivity|]. split; [vm_compute; intros (_ & _ & Q); discriminate Q|]. eexists _, _, _. reflexivity. }
  destruct (x_world_ok "0" None (zlen (g_log v)) ltac:(vm_compute; discriminate) Logic.I ltac:(rewrite Lg; vm_compute; split; [discriminate|reflexivity])) as (G & Ag & La).
  apply Bad. apply (proj1 (agree_x (g_world v))). apply (H [sv_a] [sv_b] prim_a sec_b (x_world "0" None) v (B "x") rings_a_b G La Ag Sv); cbv beta; clear H.
  - rewrite Lg. intros m t o A. each_turn m A; injection A as <- <-; first [exact plain_x1|exact plain_x2|exact plain_x10].
  - split; [|split].
    + apply x_world_fits. rewrite Lg. intros m t i A. each_turn m A; injection A as <- <-; vm_compute; discriminate.
    + rewrite Lg. intros m t o m' t' o' A A'. each_turn m A; each_turn m' A'; lia.
    + rewrite Lg. intros m t o A Co. each_turn m A; injection A as <- <-; destruct Co.
  - intros (t & o & p & Q & _). rewrite Dn in Q. discriminate Q.
Qed.
Print Assumptions C83_time_during_a_write_refuted.

(** An Increment to 2^63: the primary counts, the client cannot represent the number and returns an error, and the
    secondary is not told. *)
Definition past_the_end : list gchoice := [HBegin 0 (RIncr (B "x") 1 0); HCall 0; HReturn 0].
Theorem C83_counter_out_of_range_refuted : ~ follows_if (fun pn w log k => sets_fit pn w log k /\ one_at_a_time log k /\ no_time_during log k /\ always_expires pn w log k).
Proof.
  intro H. set (w0 := x_world "9223372036854775807" (Some 160)). destruct (gran w0 past_the_end (fun v => (forall t, g_now v t = None) /\ ~ same_entry (lookup (l_cache (g_world v 0%nat)) (B "x")) (lookup (l_cache (g_world v 1%nat)) (B "x"))
    /\ g_log v = [GBegin 0 (RIncr (B "x") 1 0); GCall 0 sv_a (OIncr (B "x") 1 0) (Err EParse); GReturn 0 (RIncr (B "x") 1 0) (Err EParse)])) as (v & Sv & Dn & Bad & Lg).
  { unfold w0. set (r := ab_pool _ _). vm_compute in r. subst r. cbn [g_log g_now g_world]. split; [intros [|t]; reflexivity|]. split; [vm_compute; intros (Q & _); discriminate Q|]. reflexivity. }
  destruct (x_world_ok "9223372036854775807" (Some 160) (zlen (g_log v)) ltac:(vm_compute; discriminate) ltac:(vm_compute; reflexivity) ltac:(rewrite Lg; vm_compute; split; [discriminate|reflexivity])) as (G & Ag & La). fold w0 in G, Ag, La.
  apply Bad. apply (proj1 (agree_x (g_world v))). apply (H [sv_a] [sv_b] prim_a sec_b w0 v (B "x") rings_a_b G La Ag Sv); cbv beta; clear H.
  - rewrite Lg. intros m t o A. each_turn m A; injection A as <- <-. split; [apply legal_incr_x|]. intros _. split; [apply legal_incr_x|exact Logic.I].
  - split; [|split; [|split]].
    + apply x_world_fits. rewrite Lg. intros m t i A. each_turn m A.
    + rewrite Lg. intros m t o m' t' o' A A'. each_turn m A; each_turn m' A'; lia.
    + rewrite Lg. intros m t o x dd _ _ _ A. each_turn x A.
    + split; [|rewrite Lg; intros m t o i A [->|[->| ->]]; each_turn m A]. unfold short_lived. rewrite pick_a, held_a. unfold w0.
      assert (Eq : lookup (l_cache (x_world "9223372036854775807" (Some 160) 0%nat)) (B "x") = Some (mkEntry (B "9223372036854775807") 0 (Some 160) 1 false)) by (vm_compute; reflexivity). rewrite Eq. exists 160. split; [reflexivity|]. vm_compute. discriminate.
  - intros (t & o & p & Q & _). rewrite Dn in Q. discriminate Q.
Qed.
Print Assumptions C83_counter_out_of_range_refuted.

(** An Increment of an item that does not expire: the copy on the secondary is dead on arrival. *)
Definition plain_count : list gchoice := [HBegin 0 (RIncr (B "x") 1 0); HCall 0; HCall 0; HCall 0; HReturn 0].
Theorem C83_counter_without_expiry_refuted : ~ follows_if (fun pn w log k => sets_fit pn w log k /\ one_at_a_time log k /\ no_time_during log k /\ counters_in_range log k).
Proof.
  intro H. set (w0 := x_world "1" None). destruct (gran w0 plain_count (fun v => (forall t, g_now v t = None) /\ ~ same_entry (lookup (l_cache (g_world v 0%nat)) (B "x")) (lookup (l_cache (g_world v 1%nat)) (B "x"))
    /\ exists a b c, g_log v = [GBegin 0 (RIncr (B "x") 1 0); GCall 0 sv_a (OIncr (B "x") 1 0) (Ok (RInt 2)); GCall 0 sv_a (OGet (B "x")) a; GCall 0 sv_b b c; GReturn 0 (RIncr (B "x") 1 0) (Ok (RInt 2))])) as (v & Sv & Dn & Bad & a & b & c & Lg).
  { unfold w0. set (r := ab_pool _ _). vm_compute in r. subst r. cbn [g_log g_now g_world]. split; [intros [|t]; reflexivity|]. split; [vm_compute; intros Q; exact Q|]. eexists _, _, _. reflexivity. }
  destruct (x_world_ok "1" None (zlen (g_log v)) ltac:(vm_compute; discriminate) Logic.I ltac:(rewrite Lg; vm_compute; split; [discriminate|reflexivity])) as (G & Ag & La). fold w0 in G, Ag, La.
  apply Bad. apply (proj1 (agree_x (g_world v))). apply (H [sv_a] [sv_b] prim_a sec_b w0 v (B "x") rings_a_b G La Ag Sv); cbv beta; clear H.
  - rewrite Lg. intros m t o A. each_turn m A; injection A as <- <-. split; [apply legal_incr_x|]. intros _. split; [apply legal_incr_x|exact Logic.I].
  - split; [|split; [|split]].
    + apply x_world_fits. rewrite Lg. intros m t i A. each_turn m A.
    + rewrite Lg. intros m t o m' t' o' A A'. each_turn m A; each_turn m' A'; lia.
    + rewrite Lg. intros m t o x dd _ _ _ A. each_turn x A.
    + rewrite Lg. intros t o m n e (_ & _ & A & _). each_turn n A.
  - intros (t & o & p & Q & _). rewrite Dn in Q. discriminate Q.
Qed.
Print Assumptions C83_counter_without_expiry_refuted.

(** A Set whose value is too large: memcached drops the old item on the primary, the Set fails, and the old item
    stays on the secondary. *)
Lemma some_large_value : exists v : bytes, zlen v = 1048577.
Proof. exists (repeat SP (Z.to_nat 1048577)). unfold zlen. rewrite repeat_length, Z2Nat.id; [reflexivity|lia]. Qed.
Theorem C83_value_too_large_refuted : ~ follows_if (fun pn w log k => one_at_a_time log k /\ no_time_during log k /\ not_counted log k).
Proof.
  intro H. destruct some_large_value as [big Lb]. set (i := mkItem (B "x") big None 0 0 []). set (w0 := x_world "1" None).
  assert (Li : legal_item PMeta i) by (split; [exact legal_x|]; split; [exact Logic.I|]; cbn [i it_exp it_cas it_value]; split; [cbn; lia|]; split; [lia|]; rewrite Lb; lia).
  set (kk := fun r : outcome result => if_ok r (fun _ => on_ring sec_b (B "x") (OSet i) Ret)).
  assert (E : rp_prog prim_a sec_b (RSet i) = Call sv_a (OSet i) kk) by (cbn [rp_prog]; unfold rp_store, on_ring at 1; rewrite pick_a; reflexivity).
  destruct (x_world_ok "1" None 3 ltac:(vm_compute; discriminate) Logic.I ltac:(lia)) as (G & Ag & La). fold w0 in G, Ag, La.
  set (cc := Cache.put (empty_cache demo_cfg 100) (B "x") (B "1") 0 None).
  assert (W : wf PMeta cc).
  { destruct G as [now G]. destruct (G sv_a ltac:(left; reflexivity)) as (c & h & Ec & Wc & _). unfold w0, x_world in Ec. fold cc in Ec. apply (f_equal l_cache) in Ec. cbn [fresh_link l_cache] in Ec. rewrite Ec. exact Wc. }
  destruct (meta_answers cc reset_header (OSet i) (B "x") W ltac:(cbn; lia) Li eq_refl eq_refl) as (out & Em & A).
  assert (Sp : spec_step PMeta [] cc (OSet i) = (drop cc (B "x"), SFail)).
  { cbn [spec_step i it_cas Z.eqb it_key it_value it_exp]. unfold cache_set, too_large. rewrite Lb. change (cf_limit (c_cfg cc)) with 1048576. reflexivity. }
  destruct A as [A|[Q _]]; [|discriminate Q]. rewrite Sp in A. cbn [snd] in A. destruct out as [r|e|]; [destruct A| |destruct A]. unfold step1 in Em. rewrite Sp in Em. cbn [fst] in Em.
  set (v0 := pool_fresh w0). assert (S0 : gsteps meta_server link_tick prim_a sec_b v0 v0) by constructor.
  assert (S1 := g_step meta_server link_tick prim_a sec_b v0 v0 _ S0 (G_begin meta_server link_tick prim_a sec_b v0 0 (RSet i) eq_refl)). rewrite E in S1.
  match type of S1 with gsteps _ _ _ _ _ ?x => set (v1 := x) in * end.
  assert (S2 := g_step meta_server link_tick prim_a sec_b v0 v1 _ S1 (G_call meta_server link_tick prim_a sec_b v1 0 (RSet i) sv_a (OSet i) kk eq_refl)). cbv zeta in S2.
  assert (Ew : server_call meta_server (g_world v1) sv_a (OSet i) = (upd w0 0 (fresh_link (drop cc (B "x")) reset_header), Err e)).
  { unfold server_call. cbn [v1 v0 pool_fresh g_world sv_a sv_id]. change (w0 0%nat) with (fresh_link cc reset_header). rewrite Em. reflexivity. }
  rewrite Ew in S2. cbn [fst snd] in S2.
  match type of S2 with gsteps _ _ _ _ _ ?x => set (v2 := x) in * end.
  assert (S3 := g_step meta_server link_tick prim_a sec_b v0 v2 _ S2 (G_return meta_server link_tick prim_a sec_b v2 0 (RSet i) (Err e) eq_refl)).
  match type of S3 with gsteps _ _ _ _ _ ?x => set (v3 := x) in * end.
  assert (Lg : g_log v3 = [GBegin 0 (RSet i); GCall 0 sv_a (OSet i) (Err e); GReturn 0 (RSet i) (Err e)]) by reflexivity.
  specialize (H [sv_a] [sv_b] prim_a sec_b w0 v3 (B "x") rings_a_b). rewrite Lg in H. specialize (H G La Ag S3). 
  assert (E0 : lookup (l_cache (g_world v3 0%nat)) (B "x") = None) by (vm_compute; reflexivity).
  assert (E1 : lookup (l_cache (g_world v3 1%nat)) (B "x") = Some (mkEntry (B "1") 0 None 1 false)) by (vm_compute; reflexivity).
  assert (Y : agree_on prim_a sec_b (g_world v3) (B "x")); [|pose proof (proj1 (agree_x (g_world v3)) Y) as Z; rewrite E0, E1 in Z; exact Z].
  apply H; cbv beta; clear H.
  - intros m t o Am. each_turn m Am; injection Am as <- <-. split; [exact Li|]. intros _. split; [exact Li|reflexivity].
  - split; [|split].
    + intros m t o m' t' o' Am Am'. each_turn m Am; each_turn m' Am'; lia.
    + intros m t o x dd _ _ _ Am. each_turn x Am.
    + intros m t o Am Co. each_turn m Am; injection Am as <- <-; destruct Co.
  - intros (t & o & p & Q & _). cbn [v3 g_now] in Q. unfold set_now in Q. destruct t as [|t]; discriminate Q.
Qed.
Print Assumptions C83_value_too_large_refuted.

(** ** The hypotheses are met *)
(** An Increment, a failing Add and a Set of x one after another, a Get of x during the Increment, time between the
    writes of x, and a Set of another key under way all the time. *)
Definition other_set : rop := RSet (mkItem (B "y") (B "5") None 10 0 []).
Definition add_x : rop := RAdd (mkItem (B "x") (B "9") None 10 0 []).
Definition busy : list gchoice := [HBegin 3 other_set; HCall 3; HBegin 0 (RIncr (B "x") 1 0); HBegin 1 (RGet (B "x")); HCall 0; HCall 0; HCall 1; HCall 0; HReturn 0; HReturn 1; HTime 20;
  HBegin 2 add_x; HCall 2; HReturn 2; HBegin 0 (set_x "1" 10); HCall 0; HCall 0; HReturn 0; HTime 3].
Lemma busy_run : exists v, gsteps meta_server link_tick prim_a sec_b (pool_fresh (x_world "7" (Some 160))) v /\ (forall t, t <> 3%nat -> g_now v t = None) /\ (exists p, g_now v 3%nat = Some (other_set, p)) /\ lookup (l_cache (g_world v 0%nat)) (B "x") = Some (mkEntry (B "1") 0 (Some 130) 4 false)
    /\ exists a b c d e f g, g_log v = [GBegin 3 other_set; GCall 3 sv_a a b; GBegin 0 (RIncr (B "x") 1 0); GBegin 1 (RGet (B "x")); GCall 0 sv_a (OIncr (B "x") 1 0) (Ok (RInt 8)); GCall 0 sv_a (OGet (B "x")) c; GCall 1 sv_a (OGet (B "x")) d; GCall 0 sv_b e b;
         GReturn 0 (RIncr (B "x") 1 0) (Ok (RInt 8)); GReturn 1 (RGet (B "x")) d; GTime 20; GBegin 2 add_x; GCall 2 sv_a f (Err g); GReturn 2 add_x (Err g); GBegin 0 (set_x "1" 10); GCall 0 sv_a (OSet (mkItem (B "x") (B "1") None 10 0 [])) b; GCall 0 sv_b (OSet (mkItem (B "x") (B "1") None 10 0 [])) b; GReturn 0 (set_x "1" 10) b; GTime 3].
Proof.
  apply (gran (x_world "7" (Some 160)) busy). set (r := ab_pool _ _). vm_compute in r. subst r. cbn [g_log g_now g_world].
  split; [intros [|[|[|[|t]]]] N; try reflexivity; destruct (N eq_refl)|]. split; [eexists; reflexivity|]. split; [vm_compute; reflexivity|]. eexists _, _, _, _, _, _, _. reflexivity.
Qed.
Lemma legal_y : legal_key PMeta (B "y").
Proof. split; [cbn; lia|]. repeat constructor; vm_compute; congruence. Qed.
Lemma legal_other_set : legal_rop other_set.
Proof. split; [exact legal_y|]. split; [exact Logic.I|]. split; [cbn; lia|]. split; [cbn; lia|]. vm_compute. reflexivity. Qed.
Lemma legal_add_x : legal_rop add_x.
Proof. split; [|cbn; lia]. split; [exact legal_x|]. split; [exact Logic.I|]. split; [cbn; lia|]. split; [cbn; lia|]. vm_compute. reflexivity. Qed.
Ltac is_called := split; [split; [lia|]; split; [reflexivity|]; split; [reflexivity|]; let y := fresh in let u := fresh in let R := fresh in let A := fresh in
  intros y u R A; each_turn y A; try lia; injection A as <-; reflexivity|lia].
Ltac not_a_write W := solve [destruct W as [W _]; discriminate W|destruct W as [_ W]; discriminate W].
Example C83_met : two_rings [sv_a] [sv_b] prim_a sec_b /\ as_large [sv_a] [sv_b] (x_world "7" (Some 160)) /\ agree_on prim_a sec_b (x_world "7" (Some 160)) (B "x")
  /\ exists v, gsteps meta_server link_tick prim_a sec_b (pool_fresh (x_world "7" (Some 160))) v /\ good_world (zlen (g_log v)) ([sv_a] ++ [sv_b]) (x_world "7" (Some 160))
  /\ legal_calls (g_log v) (B "x") /\ sets_fit prim_a (x_world "7" (Some 160)) (g_log v) (B "x") /\ one_at_a_time (g_log v) (B "x") /\ no_time_during (g_log v) (B "x")
  /\ always_expires prim_a (x_world "7" (Some 160)) (g_log v) (B "x") /\ counters_in_range (g_log v) (B "x") /\ ~ being_written v (B "x")
  /\ being_written v (B "y") /\ (exists m n e, called (g_log v) 2 add_x m n (Err e)) /\ exists e, held prim_a (g_world v) (B "x") = Some e.
Proof.
  split; [exact rings_a_b|]. destruct busy_run as (v & Sv & Dn & [p3 N3] & Hx & a & b & c & d & e & f & g & Lg).
  destruct (x_world_ok "7" (Some 160) (zlen (g_log v)) ltac:(vm_compute; discriminate) ltac:(vm_compute; reflexivity) ltac:(rewrite Lg; vm_compute; split; [discriminate|reflexivity])) as (G & Ag & La).
  split; [exact La|]. split; [exact Ag|]. exists v. split; [exact Sv|]. split; [exact G|].
  split; [|split; [|split; [|split; [|split; [|split; [|split; [|split; [|split]]]]]]]].
  - rewrite Lg. intros m t o A. each_turn m A; injection A as <- <-.
    + split; [exact legal_other_set|]. intros [_ Q]. discriminate Q.
    + split; [exact legal_incr_x|]. intros _. split; [exact legal_incr_x|exact Logic.I].
    + split; [exact legal_x|]. intros [Q _]. discriminate Q.
    + split; [exact legal_add_x|]. intros _. split; [exact legal_add_x|reflexivity].
    + exact plain_x10.
  - apply x_world_fits. rewrite Lg. intros m t i A. each_turn m A; injection A as <- <-; vm_compute; discriminate.
  - rewrite Lg. intros m t o m' t' o' A A' W W' Lt.
    each_turn m A; injection A as <- <-; try (not_a_write W); each_turn m' A'; try lia; injection A' as <- <-; try (not_a_write W');
      first [exists 8%nat; eexists; is_called|exists 13%nat; eexists; is_called].
  - rewrite Lg. intros m t o x dd A W _ A' Lt. each_turn m A; injection A as <- <-; try (not_a_write W); each_turn x A'; try lia; clear A';
      first [exists 8%nat; eexists; is_called|exists 13%nat; eexists; is_called|exists 17%nat; eexists; is_called].
  - split.
    + unfold short_lived. rewrite pick_a, held_a.
      assert (Eq : lookup (l_cache (x_world "7" (Some 160) 0%nat)) (B "x") = Some (mkEntry (B "7") 0 (Some 160) 1 false)) by (vm_compute; reflexivity). rewrite Eq. exists 160. split; [reflexivity|]. vm_compute. discriminate.
    + rewrite Lg. intros m t o i A Si _. each_turn m A; injection A as <- <-; destruct Si as [Si|[Si|Si]]; try discriminate Si; injection Si as <-; cbn [it_exp]; (split; [discriminate|vm_compute; discriminate]).
  - rewrite Lg. intros t o m n x (_ & _ & A & _) Co _. each_turn n A; injection A as <- <- A; try discriminate A; destruct Co.
  - intros (t & o & p & Q & W). destruct (Nat.eq_dec t 3) as [->|N]; [rewrite N3 in Q; injection Q as <- <-; not_a_write W|rewrite Dn in Q by exact N; discriminate Q].
  - exists 3%nat, other_set, p3. split; [exact N3|]. split; reflexivity.
  - exists 11%nat, 13%nat, g. rewrite Lg. assert (X : called (g_log v) 2 add_x 11 13 (Err g) /\ (0 < 1)%nat) by (rewrite Lg; is_called). rewrite Lg in X. exact (proj1 X).
  - rewrite held_a, Hx. eexists. reflexivity.
Qed.
