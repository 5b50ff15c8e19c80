(** * Proofs about Lifecycle.v. *)
From Verif Require Import GoBytes GoNum GoIO GoBufio Item ClientText ClientMeta ClientBinary GoWriter ReadProg Cache Daemon Spec Call Guard Transport.
From Verif Require Import PLib PReader PBufio PReadProg PropReply PropBufio PWriter PropWriter Lifecycle.
Local Open Scope nat_scope.

(** ** The writer is always in order or failed *)
Definition sound (b : bwriter) : Prop := bw_err b = true \/ healthy b.
Lemma wrote_sound : forall lim out ok b, wrote lim out ok b -> sound b.
Proof. intros lim out [|] b W; [right|left]; apply W. Qed.
Lemma write_step_stuck : forall b p, bw_err b = true -> write_step b p = (false, b).
Proof. intros b p E. unfold write_step. rewrite Nat.add_comm. cbn [Nat.add]. rewrite write_done by exact E. reflexivity. Qed.
Lemma write_step_sound : forall b p, sound b -> sound (snd (write_step b p)).
Proof.
  intros b p [E|H].
  - rewrite write_step_stuck by exact E. left. exact E.
  - pose proof (write_step_spec b p H) as W. destruct (write_step b p) as [ok b']. exact (wrote_sound _ _ _ _ W).
Qed.
Lemma flush_sound : forall b, sound b -> sound (snd (bw_flush b)).
Proof.
  intros b [E|H].
  - unfold bw_flush. rewrite E. left. exact E.
  - pose proof (flush_spec b H) as W. destruct (bw_flush b) as [ok b']. exact (wrote_sound _ _ _ _ (proj1 W)).
Qed.
Lemma send_sound : forall ws b, sound b -> sound (snd (send b ws)).
Proof.
  induction ws as [|[p|p|] ws IH]; intros b H; cbn [send].
  - pose proof (flush_sound b H) as F. destruct (bw_flush b) as [ok b']. exact F.
  - pose proof (write_step_sound b p H) as F. destruct (write_step b p) as [[|] b']; [apply IH|]; exact F.
  - apply IH. apply write_step_sound. exact H.
  - exact H.
Qed.
Lemma dead_sound : forall b, sound b -> sound (dead_writer b).
Proof. intros b [E|H]; [left|right]; assumption. Qed.

(** ** Requests are not empty *)
Lemma app_not_nil_r : forall A (a b : list A), b <> [] -> a ++ b <> [].
Proof. intros A [|x a] b H; [exact H|discriminate]. Qed.
Lemma app_not_nil_l : forall A (a b : list A), a <> [] -> a ++ b <> [].
Proof. intros A [|x a] b H; [congruence|discriminate]. Qed.
Lemma payload_not_nil : forall pr name h o rq, fst (cl_req (client_of pr name) h o) = Ok rq -> rq <> [].
Proof.
  intros pr name h o rq E. destruct pr; cbn [client_of cl_req text_client meta_client bin_client fst] in E.
  - destruct o; apply ok_inj in E; subst rq; try discriminate. unfold text_set_req, text_store_req. destruct (0 <? it_cas i)%Z; discriminate.
  - destruct o; try (apply ok_inj in E; subst rq; discriminate).
    + apply ok_inj in E. subst rq. apply app_not_nil_r. discriminate.
    + cbn [meta_req] in E. unfold meta_set_req in E. destruct (it_flags i) as [f|]; [destruct (zlen f <? 4)%Z; [discriminate|]|]; apply ok_inj in E; subst rq; discriminate.
  - destruct o; try (apply ok_inj in E; subst rq; discriminate).
    + apply ok_inj in E. subst rq. apply app_not_nil_r. discriminate.
    + cbn [bin_req] in E. unfold bin_store_req in E. cbn [fst] in E. destruct (it_flags i) as [f|]; [destruct (zlen f <? 4)%Z; [discriminate|]|]; apply ok_inj in E; subst rq; discriminate.
    + cbn [bin_req] in E. unfold bin_store_req in E. cbn [fst] in E. destruct (it_flags i) as [f|]; [destruct (zlen f <? 4)%Z; [discriminate|]|]; apply ok_inj in E; subst rq; discriminate.
    + cbn [bin_req] in E. unfold bin_store_req in E. cbn [fst] in E. destruct (it_flags i) as [f|]; [destruct (zlen f <? 4)%Z; [discriminate|]|]; apply ok_inj in E; subst rq; discriminate.
Qed.
(** A connection that takes no byte: every call fails and the writer's connection stays so. *)
Lemma send_no_room : forall pr name h o rq b, fst (cl_req (client_of pr name) h o) = Ok rq -> sound b -> wc_room (bw_conn b) = 0 ->
  fst (send b (writes_of pr h o)) = Err EIO /\ bw_conn (snd (send b (writes_of pr h o))) = bw_conn b.
Proof.
  intros pr name h o rq b E Sb R. destruct (writes_are_the_request pr name h o rq E) as [N P]. destruct Sb as [Eb|Hb].
  - rewrite (send_stuck _ _ Eb N). auto.
  - pose proof (payload_not_nil _ _ _ _ _ E) as Ne. destruct (send_spec _ b Hb N) as [(-> & (Hh & Lm & Wb) & Bb)|(-> & Er & Lm & Sn & Lt)]; rewrite P in *.
    + exfalso. unfold wout in Wb. rewrite Bb, app_nil_r in Wb. apply (f_equal (@length ascii)) in Wb. unfold limit in Lm. rewrite !app_length in Wb. destruct rq; [congruence|]. cbn [length] in Wb. lia.
    + split; [reflexivity|]. destruct (bw_conn (snd (send b (writes_of pr h o)))) as [s r] eqn:Ec. unfold limit in *. rewrite Ec in *. cbn [wc_sent wc_room] in *. rewrite R, Nat.add_0_r in *.
      unfold wout in Sn. rewrite <- app_assoc, firstn_app, Nat.sub_diag, firstn_all, firstn_O, app_nil_r in Sn. subst s. destruct (bw_conn b) as [s' r']. cbn [wc_sent wc_room] in *. f_equal. lia.
Qed.

(** ** A call on a connection in order *)
Lemma unread_later : forall b, unread b = avail b ++ in_flight (onwards (later (br_net b))).
Proof.
  intro b. unfold unread, avail. rewrite <- app_assoc. f_equal. induction (br_net b) as [|[d|] a IH]; [reflexivity| |reflexivity].
  cbn [in_flight before later]. rewrite IH, app_assoc. reflexivity.
Qed.
Lemma later_app_none : forall a c, later a = None -> later (a ++ c) = later c.
Proof. induction a as [|[b|] a IH]; intros c H; [reflexivity|exact (IH c H)|discriminate]. Qed.

(** Reading a reply from a reader that may meet stalls: an input/output error, or exactly the outcome
    on the undivided bytes with the same bytes left. *)
Lemma read_reply : forall pr name o b, ready b ->
  let x := run_bufio (reply_prog pr name (S (length (unread b))) o) b in
  ready (snd x)
  /\ (fst x = Err EIO \/ (fst x = fst (cl_resp (client_of pr name) o (unread b)) /\ unread (snd x) = snd (cl_resp (client_of pr name) o (unread b)) /\ later (br_net (snd x)) = later (br_net b)))
  /\ (later (br_net b) = None -> fst x = fst (cl_resp (client_of pr name) o (unread b)) /\ unread (snd x) = snd (cl_resp (client_of pr name) o (unread b)) /\ later (br_net (snd x)) = None).
Proof.
  intros pr name o b R x. destruct (run_bufio_spec _ (reply_prog pr name (S (length (unread b))) o) b R) as (E & R' & Q). fold x in E, R', Q.
  assert (Lf : length (avail b) < S (length (unread b))) by (rewrite unread_later, app_length; lia).
  rewrite (reply_prog_is pr name _ o (avail b) Lf) in E, Q. split; [exact R'|]. split.
  - destruct (fst x) as [v|e|] eqn:Ex.
    + right. destruct Q as [[Q1 Q2]|(Q & _)]; [|congruence]. pose proof (C17_cut_reply_is_an_error_or_complete pr name o (avail b) (in_flight (onwards (later (br_net b)))) (fst (cl_resp (client_of pr name) o (avail b))) (snd (cl_resp (client_of pr name) o (avail b)))) as C.
      unfold receive in C. rewrite <- unread_later in C. rewrite C; [|destruct (cl_resp _ _ _); reflexivity|rewrite <- E; discriminate]. cbn [fst snd]. split; [exact E|]. split; [|exact Q2]. rewrite unread_later, Q1, Q2. reflexivity.
    + assert (De : e = EIO \/ e <> EIO) by (destruct e; try (right; discriminate); left; reflexivity). destruct De as [->|De]; [left; reflexivity|].
      right. destruct Q as [[Q1 Q2]|(Q & _)]; [|congruence]. pose proof (C17_cut_reply_is_an_error_or_complete pr name o (avail b) (in_flight (onwards (later (br_net b)))) (fst (cl_resp (client_of pr name) o (avail b))) (snd (cl_resp (client_of pr name) o (avail b)))) as C.
      unfold receive in C. rewrite <- unread_later in C. rewrite C; [|destruct (cl_resp _ _ _); reflexivity|rewrite <- E; congruence]. cbn [fst snd]. split; [exact E|]. split; [|exact Q2]. rewrite unread_later, Q1, Q2. reflexivity.
    + right. destruct Q as [[Q1 Q2]|(Q & _)]; [|congruence]. pose proof (C17_cut_reply_is_an_error_or_complete pr name o (avail b) (in_flight (onwards (later (br_net b)))) (fst (cl_resp (client_of pr name) o (avail b))) (snd (cl_resp (client_of pr name) o (avail b)))) as C.
      unfold receive in C. rewrite <- unread_later in C. rewrite C; [|destruct (cl_resp _ _ _); reflexivity|rewrite <- E; discriminate]. cbn [fst snd]. split; [exact E|]. split; [|exact Q2]. rewrite unread_later, Q1, Q2. reflexivity.
  - intro L. assert (U : unread b = avail b) by (apply unread_avail; exact L). rewrite U. rewrite L in Q. split; [exact E|]. destruct Q as [[Q1 Q2]|(_ & Q1 & Q2)].
    + split; [|exact Q2]. rewrite unread_later, Q2. cbn [onwards in_flight]. rewrite app_nil_r. exact Q1.
    + rewrite Q2. cbn [onwards]. split; [symmetry; exact Q1|reflexivity].
Qed.

Definition in_order (ch : bool) (sent : bytes) (room : nat) (rd : breader) (l : link) : world :=
  mkWorld (mkSobj (Some true) ch (idle sent room) rd (l_header l)) (l_cache l) (l_pending l).
Lemma do_call_spec : forall pr name ch sent room rd l o sched rq,
  fst (cl_req (client_of pr name) (l_header l) o) = Ok rq -> length rq <= room -> ready rd -> unread rd = l_unread l -> (forall b, in_flight (sched b) = b) ->
  let l' := fst (call (client_of pr name) l o) in let r := snd (call (client_of pr name) l o) in
  exists rd' r', do_call pr name (in_order ch sent room rd l) o sched = (in_order ch (sent ++ rq) (room - length rq) rd' l', r') /\ ready rd'
    /\ (r' = Err EIO \/ (r' = r /\ unread rd' = l_unread l'))
    /\ (later (br_net rd) = None -> (forall b, later (sched b) = None) -> r' = r /\ unread rd' = l_unread l' /\ later (br_net rd') = None).
Proof.
  intros pr name ch sent room rd l o sched rq E L R U Hs.
  pose proof (C58_request_is_sent_whole_or_the_call_fails_partial pr name (l_header l) o rq sent room E) as S.
  unfold do_call, call, in_order. cbn [w_obj so_raw so_header so_writer so_reader so_chan w_cache w_pending]. rewrite E.
  assert (M : forall A (x y : A), match pr with PText => y | _ => y end = y) by (intros; destruct pr; reflexivity).
  destruct (send (idle sent room) (writes_of pr (l_header l) o)) as [r b]. destruct S as [Sn S]. destruct (Nat.leb_spec (length rq) room); [|lia]. destruct S as [-> ->]. cbn [idle new_bwriter bw_conn wc_sent].
  assert (G : skipn (length sent) (sent ++ rq) = rq) by (rewrite skipn_app, skipn_all, Nat.sub_diag; reflexivity). rewrite G.
  destruct (daemon (cl_wire (client_of pr name)) (l_cache l) (l_pending l ++ rq)) as [[c' reply] pend']. cbn [fst snd].
  set (br := mkBR _ _ _). assert (Ub : unread br = l_unread l ++ reply).
  { unfold unread, br. cbn [br_buf br_net]. rewrite in_flight_app, Hs, app_assoc. fold (unread rd). rewrite U. reflexivity. }
  destruct (read_reply pr name o br) as (R' & Q & Q'); [exact R|]. rewrite Ub in *.
  destruct (run_bufio (reply_prog pr name (S (length (l_unread l ++ reply))) o) br) as [res br']. cbn [fst snd] in *.
  exists br', res. cbn [l_header l_cache l_pending l_unread].
  split; [destruct pr; reflexivity|]. split; [exact R'|]. split.
  - destruct Q as [->|(-> & Q & _)]; [left; reflexivity|right; auto].
  - intros Lr Ls. assert (Lb : later (br_net br) = None) by (unfold br; cbn [br_net]; rewrite later_app_none by exact Lr; apply Ls). exact (Q' Lb).
Qed.
