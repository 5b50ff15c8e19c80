(** * C85: the Timeout of a server object. *)
From Verif Require Import GoBytes GoNum GoIO Item ClientText ClientMeta ClientBinary Cache Daemon Spec Call Guard Deadline PLib PReader PropReply.
Local Open Scope Z_scope.

(** ** Definitions of the statements *)
(** The request of this call can be built (C57). *)
Definition can_send (pr : proto) (name : bytes) (o : op) (c : tconn) : Prop := exists rq, fst (cl_req (client_of pr name) (t_header c) o) = Ok rq.
(** What the client makes of some bytes: [receive] (PropReply.v); [Err EIO] when they are no complete reply. *)
Definition arrived_by (d : Z) (a : list (Z * ascii)) : Prop := Forall (fun x => fst x <= d) a.
Definition text_of (a : list (Z * ascii)) : bytes := map snd a.

(** ** Lemmas *)
Lemma in_time_by : forall d a, arrived_by d (in_time d a).
Proof. induction a as [|[t b] a IH]; cbn [in_time]; [constructor|]. destruct (t <=? d) eqn:E; [|constructor]. constructor; [apply Z.leb_le in E; exact E|exact IH]. Qed.
Lemma in_time_all : forall d p q, arrived_by d p -> exists r, in_time d (p ++ q) = p ++ r /\ exists r', q = r ++ r'.
Proof.
  intros d p q F. induction F as [|[t b] p E F IH]; cbn [app].
  - induction q as [|[t b] q IHq]; cbn [in_time]; [exists []; split; [reflexivity|exists []; reflexivity]|]. destruct (t <=? d); [|exists []; split; [reflexivity|exists ((t, b) :: q); reflexivity]].
    destruct IHq as (r & -> & r' & ->). exists ((t, b) :: r). split; [reflexivity|exists r'; reflexivity].
  - cbn [in_time]. cbn [fst] in E. apply Z.leb_le in E. rewrite E. destruct IH as (r & -> & Q). exists r. split; [reflexivity|exact Q].
Qed.
Lemma all_there_le : forall a now d, now <= d -> arrived_by d a -> now <= all_there now a <= d.
Proof.
  unfold all_there. induction a as [|[t b] a IH]; intros now d L F; cbn [fold_left fst]; [lia|]. inversion F as [|? ? F1 Fr]; subst. cbn [fst] in F1.
  specialize (IH (Z.max now t) d ltac:(lia) Fr). lia.
Qed.
Lemma all_there_ge : forall a now, now <= all_there now a.
Proof. unfold all_there. induction a as [|[t b] a IH]; intro now; cbn [fold_left fst]; [lia|]. specialize (IH (Z.max now t)). lia. Qed.
Lemma by_firstn : forall d n a, arrived_by d a -> arrived_by d (firstn n a).
Proof. intros d n a F. rewrite <- (firstn_skipn n a) in F. apply Forall_app in F. apply F. Qed.
Lemma sets_pos : forall pr o T, 0 < T -> sets_deadline pr o T = true.
Proof. intros pr o T P. assert (A : (0 <? T) = true) by (apply Z.ltb_lt; lia). assert (C : negb (T =? 0) = true) by (rewrite negb_true_iff; apply Z.eqb_neq; lia). destruct pr, o; assumption. Qed.
Lemma sets_zero : forall pr o, sets_deadline pr o 0 = false.
Proof. intros [] []; reflexivity. Qed.

(** ** C85: no call outlasts its Timeout *)
(** With a positive Timeout an operation returns at most Timeout after it gets the connection, whatever
    the peer does: does not take the request, sends nothing, sends a byte now and then, or closes. *)
Theorem C85_no_call_outlasts_its_timeout : forall pr name T now o taken c, 0 < T ->
  exists t r c', timed_call pr name T now o taken c = Some (t, r, c') /\ now <= t <= now + T.
Proof.
  intros pr name T now o taken c P. unfold timed_call, deadline_of. rewrite (sets_pos pr o T P). destruct (cl_req _ _ o) as [[rq|e|] h]; [|eexists; eexists; eexists; split; [reflexivity|lia]|eexists; eexists; eexists; split; [reflexivity|lia]].
  cbn [expired]. assert (X : (now + T <=? now) = false) by (apply Z.leb_gt; lia). rewrite X. destruct (t_broken c); cbn [orb]; [eexists; eexists; eexists; split; [reflexivity|lia]|].
  destruct taken as [w|]; [|eexists; eexists; eexists; split; [reflexivity|lia]].
  destruct (now + T <? w) eqn:W; [eexists; eexists; eexists; split; [reflexivity|lia]|]. apply Z.ltb_ge in W. cbn [in_time_for].
  pose proof (in_time_by (now + T) (t_in c)) as F. set (there := in_time (now + T) (t_in c)) in *. destruct (cl_resp _ o (map snd there)) as [out rest].
  pose proof (all_there_le there (Z.max now w) (now + T) ltac:(lia) F) as A1.
  pose proof (all_there_le _ (Z.max now w) (now + T) ltac:(lia) (by_firstn _ (length there - length rest) _ F)) as A2.
  assert (G : exists t, gives_up (all_there (Z.max now w) there) (Some (now + T)) (t_end c) = Some t /\ now <= t <= now + T).
  { destruct (t_end c); cbn [gives_up]; (eexists; split; [reflexivity|lia]). }
  destruct G as (t & G & B1). rewrite G. destruct out as [r|[]|]; (eexists; eexists; eexists; split; [reflexivity|lia]).
Qed.
Print Assumptions C85_no_call_outlasts_its_timeout.

(** When the peer closes the connection, a call waiting for more of its reply ends then, not at the
    Timeout, and also when there is no Timeout. *)
Theorem C85_a_closed_connection_ends_the_call : forall pr name T now o w c d, now <= d -> w <= d -> t_end c = Some d -> arrived_by d (t_in c) ->
  exists t r c', timed_call pr name T now o (Some w) c = Some (t, r, c') /\ t <= d.
Proof.
  intros pr name T now o w c d Ln Lw E F. unfold timed_call. set (dl := deadline_of pr o T now (t_deadline c)).
  destruct (cl_req _ _ o) as [[rq|e|] h]; [|eexists; eexists; eexists; split; [reflexivity|lia]|eexists; eexists; eexists; split; [reflexivity|lia]].
  destruct (t_broken c || expired now dl); [eexists; eexists; eexists; split; [reflexivity|lia]|].
  destruct (match dl with Some d0 => d0 <? w | None => false end) eqn:X.
  { destruct dl as [d0|]; [|discriminate X]. apply Z.ltb_lt in X. eexists; eexists; eexists; split; [reflexivity|lia]. }
  assert (F' : arrived_by d (in_time_for dl (t_in c))).
  { destruct dl as [d0|]; [|exact F]. cbn [in_time_for]. clear - F. unfold arrived_by in *. induction F as [|[t b] a L F IH]; cbn [in_time]; [constructor|]. destruct (t <=? d0); constructor; assumption. }
  set (there := in_time_for dl (t_in c)) in *. destruct (cl_resp _ o (map snd there)) as [out rest].
  pose proof (all_there_le there (Z.max now w) d ltac:(lia) F') as A1.
  pose proof (all_there_le _ (Z.max now w) d ltac:(lia) (by_firstn _ (length there - length rest) _ F')) as A2.
  assert (G : exists t, gives_up (all_there (Z.max now w) there) dl (t_end c) = Some t /\ t <= d).
  { rewrite E. destruct dl; cbn [gives_up]; (eexists; split; [reflexivity|lia]). }
  destruct G as (t & G & B1). rewrite G. destruct out as [r|[]|]; (eexists; eexists; eexists; split; [reflexivity|lia]).
Qed.
Print Assumptions C85_a_closed_connection_ends_the_call.

(** Calls waiting for one another (s.mu): the last of [n] returns within [n] Timeouts. *)
Theorem C85_waiting_calls : forall pr name T calls now c, 0 < T ->
  exists l t c', timed_run pr name T now c (map (fun x => TCall (fst x) (snd x)) calls) = (l, Some (t, c'))
    /\ length l = length calls /\ t <= now + Z.of_nat (length calls) * T
    /\ forall n t' r, nth_error l n = Some (t', r) -> now <= t' <= now + (Z.of_nat n + 1) * T.
Proof.
  intros pr name T calls now c P. revert now c. induction calls as [|[o taken] calls IH]; intros now c; cbn [map timed_run fst snd].
  - exists [], now, c. split; [reflexivity|]. split; [reflexivity|]. split; [cbn [length]; lia|]. intros [|n] t' r E; discriminate E.
  - destruct (C85_no_call_outlasts_its_timeout pr name T now o taken c P) as (t & r & c1 & -> & L).
    destruct (IH t c1) as (l & t2 & c2 & -> & Ln & L2 & N). exists ((t, r) :: l), t2, c2. split; [reflexivity|]. split; [cbn [length]; lia|]. split; [cbn [length]; lia|].
    intros [|n] t' r' E; cbn [nth_error] in E; [injection E as <- <-; lia|]. specialize (N n t' r' E). lia.
Qed.
Print Assumptions C85_waiting_calls.

(** ** C85: a Timeout does no harm to an answer that is in time *)
(** If the peer takes the request and the bytes [a] of a complete reply are there before the Timeout is
    over, the call returns what they say, as soon as they are there, and leaves the rest unread. *)
Theorem C85_an_answer_in_time_is_returned : forall pr name T now o w a more c out rest, 0 < T ->
  t_broken c = false -> can_send pr name o c -> w <= now + T -> t_in c = a ++ more -> arrived_by (now + T) a ->
  receive pr name o (text_of a) = (out, rest) -> out <> Err EIO ->
  exists t c', timed_call pr name T now o (Some w) c = Some (t, out, c')
    /\ (forall d, now <= d -> w <= d -> arrived_by d a -> t <= d)
    /\ text_of (t_in c') = rest ++ text_of more /\ t_broken c' = false.
Proof.
  intros pr name T now o w a more c out rest P Br [rq Rq] W Ea Fa R N. unfold timed_call, deadline_of. rewrite (sets_pos pr o T P).
  destruct (cl_req _ _ o) as [rq0 h]. cbn [fst] in Rq. subst rq0. rewrite Br. cbn [expired orb].
  assert (X : (now + T <=? now) = false) by (apply Z.leb_gt; lia). rewrite X. assert (W' : (now + T <? w) = false) by (apply Z.ltb_ge; lia). rewrite W'. cbn [in_time_for].
  rewrite Ea. destruct (in_time_all (now + T) a more Fa) as (r & Er & r' & Em). rewrite Er.
  destruct (local_receive pr name o _ _ _ R N) as (u & Eu & Fu & _). unfold text_of in Eu.
  assert (R2 : cl_resp (client_of pr name) o (map snd (a ++ r)) = (out, rest ++ map snd r)).
  { rewrite map_app, Eu, <- app_assoc. apply Fu. }
  rewrite R2. assert (La : (length a = length u + length rest)%nat) by (rewrite <- (map_length snd a), Eu, app_length; reflexivity).
  assert (Lu : (length (a ++ r) - length (rest ++ map snd r) = length u)%nat) by (rewrite !app_length, map_length; lia). rewrite Lu.
  assert (Ef : firstn (length u) (a ++ r) = firstn (length u) a) by (rewrite firstn_app; replace (length u - length a)%nat with 0%nat by lia; cbn [firstn]; apply app_nil_r). rewrite Ef.
  assert (Es : map snd (skipn (length u) (a ++ more)) = rest ++ map snd more).
  { rewrite skipn_app. replace (length u - length a)%nat with 0%nat by lia. cbn [skipn]. rewrite map_app. f_equal.
    rewrite <- skipn_map, Eu, skipn_app, skipn_all, Nat.sub_diag. reflexivity. }
  assert (Go : exists t c', Some (all_there (Z.max now w) (firstn (length u) a), out, mkTconn (Some (now + T)) false (skipn (length u) (a ++ more)) (t_end c) h) = Some (t, out, c')
    /\ (forall d, now <= d -> w <= d -> arrived_by d a -> t <= d) /\ text_of (t_in c') = rest ++ text_of more /\ t_broken c' = false).
  { eexists. eexists. split; [reflexivity|]. split; [|split; [exact Es|reflexivity]].
    intros d L1 L2 Fd. apply all_there_le; [lia|]. apply by_firstn. exact Fd. }
  destruct out as [x|[]|]; try exact Go. elim N. reflexivity.
Qed.
Print Assumptions C85_an_answer_in_time_is_returned.

(** What the call returns in any case is decided by the bytes that arrive by the deadline: what [receive]
    makes of them, an input/output error when they are no complete reply. It then returns at the deadline,
    or as soon as the peer closes the connection. *)
Theorem C85_returns_what_arrived_in_time : forall pr name T now o w c t r c', 0 < T ->
  t_broken c = false -> can_send pr name o c -> w <= now + T ->
  timed_call pr name T now o (Some w) c = Some (t, r, c') ->
  r = fst (receive pr name o (text_of (in_time (now + T) (t_in c)))) /\ (r = Err EIO -> t_end c = None -> t = now + T).
Proof.
  intros pr name T now o w c t r c' P Br [rq Rq] W. unfold timed_call, deadline_of. rewrite (sets_pos pr o T P).
  destruct (cl_req _ _ o) as [rq0 h]. cbn [fst] in Rq. subst rq0. rewrite Br. cbn [expired orb].
  assert (X : (now + T <=? now) = false) by (apply Z.leb_gt; lia). rewrite X. assert (W' : (now + T <? w) = false) by (apply Z.ltb_ge; lia). rewrite W'. cbn [in_time_for].
  change (cl_resp (client_of pr name) o (map snd (in_time (now + T) (t_in c)))) with (receive pr name o (text_of (in_time (now + T) (t_in c)))).
  pose proof (all_there_le _ (Z.max now w) (now + T) ltac:(lia) (in_time_by (now + T) (t_in c))) as A1.
  destruct (receive pr name o _) as [out rest]. cbn [fst]. intro E.
  destruct out as [x|[]|]; try (injection E as <- <- <-; split; [reflexivity|intro Y; discriminate Y]).
  destruct (t_end c) as [e|]; cbn [gives_up] in E; injection E as <- <- <-; (split; [reflexivity|]); intros _ Y; [discriminate Y|lia].
Qed.
Print Assumptions C85_returns_what_arrived_in_time.

(** ** C85: Timeout 0 *)
(** On a connection that never had a deadline, a call with Timeout 0 waits as long as it takes. *)
Theorem C85_without_timeout : forall pr name now o taken c, t_deadline c = None -> t_broken c = false -> can_send pr name o c ->
  let got := receive pr name o (text_of (t_in c)) in
  match timed_call pr name 0 now o taken c with
  | Some (t, r, c') => r = fst got /\ t_deadline c' = None
  | None => taken = None \/ (fst got = Err EIO /\ t_end c = None)
  end.
Proof.
  intros pr name now o taken c Dn Br [rq Rq] got. unfold timed_call, deadline_of. rewrite sets_zero, Dn, Br. destruct (cl_req _ _ o) as [rq0 h]. cbn [fst] in Rq. subst rq0. cbn [expired orb in_time_for].
  destruct taken as [w|]; [|left; reflexivity]. change (cl_resp (client_of pr name) o (map snd (t_in c))) with (receive pr name o (text_of (t_in c))).
  subst got. destruct (receive pr name o _) as [out rest]. cbn [fst]. destruct out as [x|[]|]; try (split; reflexivity).
  destruct (t_end c); cbn [gives_up]; [split; reflexivity|right; split; reflexivity].
Qed.
Print Assumptions C85_without_timeout.

(** But on one that had: the deadline of the last call with a Timeout still holds. Before it, a call with
    Timeout 0 is a call with the remaining time as Timeout ... *)
Theorem C85_timeout_zero_keeps_the_old_deadline : forall pr name now o taken c d, t_deadline c = Some d -> now < d ->
  timed_call pr name 0 now o taken c = timed_call pr name (d - now) now o taken c.
Proof.
  intros pr name now o taken c d E L. unfold timed_call, deadline_of. rewrite sets_zero, (sets_pos pr o (d - now)) by lia. replace (now + (d - now)) with d by lia. rewrite E. reflexivity.
Qed.
Print Assumptions C85_timeout_zero_keeps_the_old_deadline.

(** ... and from it on every call fails at once, and so do all later ones on this connection, whatever
    the peer does and whatever Timeout is set to. *)
Theorem C85_old_deadline_ends_the_connection : forall pr name now o taken c d, t_deadline c = Some d -> d <= now -> can_send pr name o c ->
  exists c', timed_call pr name 0 now o taken c = Some (now, Err EIO, c')
    /\ forall T later o' taken', can_send pr name o' c' -> exists c'', timed_call pr name T later o' taken' c' = Some (later, Err EIO, c'') /\ t_broken c'' = true.
Proof.
  intros pr name now o taken c d E L [rq Rq]. unfold timed_call at 1, deadline_of. rewrite sets_zero, E. destruct (cl_req _ _ o) as [rq0 h]. cbn [fst] in Rq. subst rq0.
  assert (X : expired now (Some d) = true) by (apply Z.leb_le; exact L). rewrite X, orb_true_r. eexists. split; [reflexivity|].
  intros T later o' taken' [rq' Rq']. unfold timed_call. cbn [t_header] in *. destruct (cl_req _ _ o') as [rq1 h']. cbn [fst] in Rq'. subst rq1. cbn [t_broken orb]. eexists. split; [reflexivity|reflexivity].
Qed.
Print Assumptions C85_old_deadline_ends_the_connection.

(** The property as a user reads the field's zero value: with Timeout 0, an answer that comes at all is
    returned, on every connection that has not failed. *)
Definition C85_zero_means_no_timeout : Prop := forall pr name T0 now c evs l t c', 0 <= T0 ->
  t_deadline c = None -> t_broken c = false -> timed_run pr name T0 now c evs = (l, Some (t, c')) -> (forall n t' r, nth_error l n = Some (t', r) -> r <> Err EIO) ->
  forall later o a, t <= later -> can_send pr name o c' -> t_in c' = a -> fst (receive pr name o (text_of a)) <> Err EIO ->
  exists t2 c2, timed_call pr name 0 later o (Some later) c' = Some (t2, fst (receive pr name o (text_of a)), c2).
Definition stamp (t : Z) (b : bytes) : list (Z * ascii) := map (pair t) b.
Definition version_reply : bytes := B "VERSION 1" ++ crlf.
Definition two_versions : tconn := mkTconn None false (stamp 2 version_reply ++ stamp 21 version_reply) None reset_header.
Theorem C85_zero_means_no_timeout_refuted : ~ C85_zero_means_no_timeout.
Proof.
  intro F. specialize (F PText [] 5 0 two_versions [TCall OVersion (Some 1)]
    [(2, Ok (RStr (B "1")))] 2 (mkTconn (Some 5) false (stamp 21 version_reply) None reset_header) ltac:(lia) eq_refl eq_refl ltac:(vm_compute; reflexivity)).
  destruct (F ltac:(intros [|[|n]] t' r E; [injection E as <- <-; discriminate|discriminate E|discriminate E]) 20 OVersion (stamp 21 version_reply) ltac:(lia)
    ltac:(eexists; vm_compute; reflexivity) eq_refl ltac:(vm_compute; discriminate)) as (t2 & c2 & E). vm_compute in E. discriminate E.
Qed.
Print Assumptions C85_zero_means_no_timeout_refuted.

(** ** C85: negative Timeouts *)
(** A negative Timeout makes every call fail at once (time.Now().Add of it has passed), except Version of
    the meta client, which leaves the deadlines alone (its condition is [> 0], client/server.go:1109). *)
Theorem C85_negative_timeout : forall pr name T now o taken c, T < 0 -> can_send pr name o c ->
  (~ (pr = PMeta /\ o = OVersion) -> exists c', timed_call pr name T now o taken c = Some (now, Err EIO, c') /\ t_broken c' = true)
  /\ (pr = PMeta -> o = OVersion -> timed_call pr name T now o taken c = timed_call pr name 0 now o taken c).
Proof.
  intros pr name T now o taken c L [rq Rq]. split.
  - intro Nv. unfold timed_call, deadline_of.
    assert (Sd : sets_deadline pr o T = true).
    { assert (C : negb (T =? 0) = true) by (rewrite negb_true_iff; apply Z.eqb_neq; lia). destruct pr, o; try exact C. elim Nv. split; reflexivity. }
    rewrite Sd. destruct (cl_req _ _ o) as [rq0 h]. cbn [fst] in Rq. subst rq0. assert (X : expired now (Some (now + T)) = true) by (apply Z.leb_le; lia). rewrite X, orb_true_r. eexists. split; reflexivity.
  - intros -> ->. unfold timed_call, deadline_of, sets_deadline. assert (X : (0 <? T) = false) by (apply Z.ltb_ge; lia). rewrite X. reflexivity.
Qed.
Print Assumptions C85_negative_timeout.

(** ** C85: Reconnect *)
(** A new connection has no deadline: after a Reconnect, whatever happened before, Timeout 0 means no
    timeout (until Timeout is set again). *)
Lemma timed_run_app : forall pr name evs evs' T now c l t c', timed_run pr name T now c evs = (l, Some (t, c')) ->
  exists T', timed_run pr name T now c (evs ++ evs') = (l ++ fst (timed_run pr name T' t c' evs'), snd (timed_run pr name T' t c' evs')).
Proof.
  intros pr name evs evs'. induction evs as [|ev evs IH]; intros T now c l t c' E; cbn [app timed_run] in *.
  - injection E as <- <- <-. exists T. destruct (timed_run pr name T now c evs'); reflexivity.
  - destruct ev as [o taken|d|d|[t0|] a e]; try exact (IH _ _ _ _ _ _ E); [|discriminate E].
    destruct (timed_call pr name T now o taken c) as [[[t1 r] c1]|]; [|discriminate E]. destruct (timed_run pr name T t1 c1 evs) as [l1 fin] eqn:E1. injection E as <- ->.
    destruct (IH T t1 c1 l1 t c' E1) as [T' ->]. exists T'. reflexivity.
Qed.
Theorem C85_reconnect_clears_the_deadline : forall pr name T now c evs l t c' done a e o w, timed_run pr name T now c evs = (l, Some (t, c')) ->
  can_send pr name o c' -> fst (receive pr name o (text_of a)) <> Err EIO ->
  exists t2, fst (timed_run pr name T now c (evs ++ [TReconnect (Some done) a e; TTimeout 0; TCall o (Some w)])) = l ++ [(t2, fst (receive pr name o (text_of a)))].
Proof.
  intros pr name T now c evs l t c' done a e o w E Cs N. destruct (timed_run_app pr name evs [TReconnect (Some done) a e; TTimeout 0; TCall o (Some w)] T now c l t c' E) as [T' ->].
  cbn [fst timed_run]. pose proof (C85_without_timeout pr name (Z.max t done) o (Some w) (mkTconn None false a e (t_header c')) eq_refl eq_refl Cs) as X. cbv zeta in X. cbn [t_in t_end] in X.
  destruct (timed_call pr name 0 (Z.max t done) o (Some w) _) as [[[t2 r] c2]|].
  - destruct X as [-> _]. exists t2. reflexivity.
  - destruct X as [X|[X _]]; [discriminate X|contradiction].
Qed.
Print Assumptions C85_reconnect_clears_the_deadline.
(** But Reconnect is not bounded by the Timeout: it dials without a time limit while it has the lock, so
    the bound of [C85_waiting_calls] does not extend to calls waiting behind a Reconnect. *)
Definition C85_waiting_is_bounded : Prop := forall pr name T evs now c, 0 < T ->
  (forall ev, In ev evs -> match ev with TCall _ _ | TReconnect _ _ _ => True | _ => False end) ->
  exists l t c', timed_run pr name T now c evs = (l, Some (t, c')) /\ t <= now + Z.of_nat (length evs) * T.
Theorem C85_waiting_is_bounded_refuted : ~ C85_waiting_is_bounded.
Proof.
  intro F. destruct (F PText [] 5 [TReconnect None [] None; TCall OVersion (Some 1)] 0 two_versions ltac:(lia)) as (l & t & c' & E & _); [|discriminate E].
  intros ev [<-|[<-|[]]]; exact I.
Qed.
Print Assumptions C85_waiting_is_bounded_refuted.

Example C85_closed_met : t_end (mkTconn None false (stamp 2 (B "VERS")) (Some 7) reset_header) = Some 7
  /\ timed_call PText [] 50 0 OVersion (Some 1) (mkTconn None false (stamp 2 (B "VERS")) (Some 7) reset_header)
     = Some (7, Err EIO, mkTconn (Some 50) false [] (Some 7) reset_header).
Proof. split; vm_compute; reflexivity. Qed.
(** The hypotheses are met: a reply in two pieces, the second after the deadline of the first call. *)
Example C85_met : can_send PText [] OVersion two_versions
  /\ receive PText [] OVersion (text_of (stamp 2 version_reply)) = (Ok (RStr (B "1")), [])
  /\ timed_run PText [] 5 0 two_versions [TCall OVersion (Some 1); TTimeout 0; TPass 10; TCall OVersion (Some 12)]
     = ([(2, Ok (RStr (B "1"))); (12, Err EIO)], Some (12, mkTconn (Some 5) true (stamp 21 version_reply) None reset_header))
  /\ fst (timed_run PText [] 5 0 two_versions [TCall OVersion (Some 1); TTimeout 9; TPass 10; TCall OVersion (Some 12)]) = [(2, Ok (RStr (B "1"))); (21, Ok (RStr (B "1")))]
  /\ fst (timed_run PText [] 5 0 two_versions [TCall OVersion (Some 1); TPass 10; TCall OVersion (Some 12)]) = [(2, Ok (RStr (B "1"))); (17, Err EIO)].
Proof. split; [eexists; vm_compute; reflexivity|]. split; [vm_compute; reflexivity|]. split; [vm_compute; reflexivity|]. split; vm_compute; reflexivity. Qed.
