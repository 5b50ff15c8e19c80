(** * C18, C29-C32, C60: time-outs, Close, Reconnect, heartbeat. *)
From Verif Require Import GoBytes GoNum GoIO GoBufio Item ClientText ClientMeta ClientBinary GoWriter ReadProg Cache Daemon Spec Call Guard Transport.
From Verif Require Import PLib PCache PReader PBufio PropReply PropBufio PWriter PropWriter PClient PropClient Lifecycle PLifecycle.
Local Open Scope nat_scope.

Definition is_err {A} (r : outcome A) : Prop := exists e, r = Err e.
Lemma not_crashing : forall pr name h o, crashing_arguments pr o = false -> exists rq, fst (cl_req (client_of pr name) h o) = Ok rq.
Proof.
  intros pr name h o H. pose proof (C57_request_panics_exactly pr name h o) as P. rewrite H in P.
  destruct (fst (cl_req (client_of pr name) h o)) as [rq|e|] eqn:E; [exists rq; reflexivity| |destruct P as [P _]; discriminate (P eq_refl)].
  exfalso. revert E. clear. destruct pr, o; cbn [client_of text_client meta_client bin_client cl_req fst bin_req text_req meta_req]; try discriminate;
    unfold meta_set_req, bin_store_req, bin_incr_req, bin_touch_req; cbn [fst]; try discriminate; destruct (it_flags i) as [f|]; try discriminate; destruct (zlen f <? 4)%Z; discriminate.
Qed.

(** ** C29: Close is final *)
(** After a Close: any calls whose request can be built (C57), Closes, time, failures, and attempts to
    Reconnect while the server is unreachable. *)
Definition after_close (pr : proto) (e : levent) : Prop :=
  match e with LCall o _ => crashing_arguments pr o = false | LReconnect (Some _) => False | _ => True end.
Definition C29_close_is_final (pr : proto) : Prop := forall name room h c evs evs', Forall (after_close pr) evs' ->
  Forall is_err (snd (life pr name (fst (do_close pr (fst (life pr name (opened room h c) evs)))) evs')).

(** Room never grows back. *)
Lemma net_write_room : forall w p, wc_room (snd (net_write w p)) <= wc_room w.
Proof. intros w p. unfold net_write. destruct (length p <=? wc_room w); cbn [snd wc_room]; lia. Qed.
Lemma flush_room : forall b, wc_room (bw_conn (snd (bw_flush b))) <= wc_room (bw_conn b).
Proof.
  intro b. unfold bw_flush. destruct (bw_err b); [reflexivity|]. destruct (bw_buf b) as [|x s]; [reflexivity|].
  pose proof (net_write_room (bw_conn b) (x :: s)) as N. destruct (net_write _ _) as [[n [|]] w]; exact N.
Qed.
Lemma write_room : forall f b p ok b', bw_write f b p = Some (ok, b') -> wc_room (bw_conn b') <= wc_room (bw_conn b).
Proof.
  induction f as [|f IH]; intros b p ok b' E; cbn [bw_write] in E; [discriminate|].
  destruct ((available b <? length p) && negb (bw_err b)).
  - destruct (bw_buf b) as [|c s] eqn:Em.
    + pose proof (net_write_room (bw_conn b) p) as N. destruct (net_write (bw_conn b) p) as [[n k] w]. apply IH in E. cbn [bw_conn snd] in *. lia.
    + apply IH in E. etransitivity; [exact E|]. etransitivity; [apply flush_room|]. reflexivity.
  - destruct (bw_err b); injection E as _ <-; reflexivity.
Qed.
Lemma write_step_room : forall b p, wc_room (bw_conn (snd (write_step b p))) <= wc_room (bw_conn b).
Proof. intros b p. unfold write_step. destruct (bw_write (length p + 3) b p) as [[ok b']|] eqn:E; [|reflexivity]. exact (write_room _ _ _ _ _ E). Qed.
Lemma send_room : forall ws b, wc_room (bw_conn (snd (send b ws))) <= wc_room (bw_conn b).
Proof.
  induction ws as [|[p|p|] ws IH]; intro b; cbn [send].
  - pose proof (flush_room b) as F. destruct (bw_flush b) as [ok b']. exact F.
  - pose proof (write_step_room b p) as F. destruct (write_step b p) as [[|] b']; cbn [snd] in *; [etransitivity; [apply IH|]|]; exact F.
  - etransitivity; [apply IH|]. apply write_step_room.
  - reflexivity.
Qed.

(** Reachable states: the writer is sound, and s.raw is nil only after a text Close. *)
Definition tidy (pr : proto) (w : world) : Prop :=
  sound (so_writer (w_obj w))
  /\ match so_raw (w_obj w) with
     | None => pr = PText /\ so_chan (w_obj w) = false
     | Some live => live = true \/ wc_room (bw_conn (so_writer (w_obj w))) = 0
     end.
Lemma tidy_open : forall pr room h c, tidy pr (opened room h c).
Proof. intros pr room h c. split; [right; apply (idle_healthy [] room)|]. cbn. auto. Qed.
Lemma tidy_step : forall pr name w e, tidy pr w -> tidy pr (fst (lstep pr name w e)).
Proof.
  intros pr name w e [Sw T]. destruct e as [o sched| |d| |d]; cbn [lstep].
  - unfold do_call. destruct (so_raw (w_obj w)) as [live|] eqn:Er.
    + assert (G : forall x y : world * outcome result, y = x -> tidy pr (fst x) -> tidy pr (fst (let '(w', r) := match pr with PText => y | _ => y end in (w', Some r)))).
      { intros x y -> H. destruct pr; destruct x; exact H. }
      eapply G; [reflexivity|]. clear G. pose proof (send_sound (writes_of pr (so_header (w_obj w)) o) _ Sw) as Ss. pose proof (send_room (writes_of pr (so_header (w_obj w)) o) (so_writer (w_obj w))) as Sr.
      destruct (send (so_writer (w_obj w)) (writes_of pr (so_header (w_obj w)) o)) as [r b]. cbn [snd] in *. destruct (daemon _ _ _) as [[c' reply] pend'].
      assert (Q : forall br, tidy pr (mkWorld (mkSobj (Some live) (so_chan (w_obj w)) b br (snd (cl_req (client_of pr name) (so_header (w_obj w)) o))) c' pend')).
      { intro br. split; [exact Ss|]. cbn [w_obj so_raw so_writer]. destruct T as [T|T]; [left; exact T|right; lia]. }
      destruct r as [u|e|]; [destruct (run_bufio _ _) as [res br']| |]; apply Q.
    + destruct T as [-> T]. cbn [fst]. split; [exact Sw|]. rewrite Er. auto.
  - unfold do_close. destruct pr.
    + destruct (so_chan (w_obj w)) eqn:Ec; cbn [negb].
      * destruct (so_raw (w_obj w)) as [live|] eqn:Er; [|destruct T; congruence]. cbn [fst]. split; [apply dead_sound; exact Sw|]. cbn. auto.
      * cbn [fst]. split; [exact Sw|rewrite Ec; exact T].
    + destruct (so_raw (w_obj w)) as [live|] eqn:Er; [|destruct T; congruence]. cbn [fst]. split; [apply dead_sound; exact Sw|]. cbn. auto.
    + destruct (so_raw (w_obj w)) as [live|] eqn:Er; [|destruct T; congruence]. cbn [fst]. split; [apply dead_sound; exact Sw|]. cbn. auto.
  - unfold do_reconnect. destruct (so_raw (w_obj w)) as [[|]|] eqn:Er; destruct d as [room|]; cbn [fst].
    + split; [right; apply (idle_healthy [] room)|]. cbn. auto.
    + split; [apply dead_sound; exact Sw|]. cbn. auto.
    + split; [exact Sw|]. rewrite Er. exact T.
    + split; [exact Sw|]. rewrite Er. exact T.
    + split; [right; apply (idle_healthy [] room)|]. cbn. auto.
    + split; [exact Sw|]. cbn. rewrite Er. exact T.
  - cbn [fst]. split; [apply dead_sound; exact Sw|]. cbn. destruct (so_raw (w_obj w)) as [live|]; auto.
  - cbn [fst]. split; [exact Sw|exact T].
Qed.
Lemma tidy_life : forall pr name evs w, tidy pr w -> tidy pr (fst (life pr name w evs)).
Proof. intros pr name. induction evs as [|e evs IH]; intros w T; [exact T|]. cbn [life]. apply IH. apply tidy_step. exact T. Qed.

(** A closed object. *)
Definition shut (pr : proto) (w : world) : Prop :=
  match pr with
  | PText => so_raw (w_obj w) = None /\ so_chan (w_obj w) = false
  | _ => so_raw (w_obj w) = Some false /\ sound (so_writer (w_obj w)) /\ wc_room (bw_conn (so_writer (w_obj w))) = 0
  end.
Lemma shut_step : forall pr name w e, shut pr w -> after_close pr e ->
  shut pr (fst (lstep pr name w e)) /\ match snd (lstep pr name w e) with Some r => is_err r | None => True end.
Proof.
  intros pr name w e Sh A. destruct e as [o sched| |d| |d]; cbn [lstep after_close] in *.
  - destruct (not_crashing pr name (so_header (w_obj w)) o A) as [rq E]. unfold do_call. destruct pr.
    + destruct Sh as [Er Ec]. rewrite Er. cbn [fst snd]. split; [split; assumption|]. eexists; reflexivity.
    + destruct Sh as (Er & Sw & R). rewrite Er. destruct (send_no_room PMeta name _ o rq _ E Sw R) as [Es Ec]. pose proof (send_sound (writes_of PMeta (so_header (w_obj w)) o) _ Sw) as Ss.
      destruct (send (so_writer (w_obj w)) (writes_of PMeta (so_header (w_obj w)) o)) as [r b]. cbn [fst snd] in *. subst r. destruct (daemon _ _ _) as [[c' reply] pend']. cbn [fst snd].
      split; [|eexists; reflexivity]. cbn. rewrite Ec. auto.
    + destruct Sh as (Er & Sw & R). rewrite Er. destruct (send_no_room PBinary name _ o rq _ E Sw R) as [Es Ec]. pose proof (send_sound (writes_of PBinary (so_header (w_obj w)) o) _ Sw) as Ss.
      destruct (send (so_writer (w_obj w)) (writes_of PBinary (so_header (w_obj w)) o)) as [r b]. cbn [fst snd] in *. subst r. destruct (daemon _ _ _) as [[c' reply] pend']. cbn [fst snd].
      split; [|eexists; reflexivity]. cbn. rewrite Ec. auto.
  - unfold do_close. destruct pr.
    + destruct Sh as [Er Ec]. rewrite Ec. cbn. split; [split; assumption|eexists; reflexivity].
    + destruct Sh as (Er & Sw & R). rewrite Er. cbn. split; [split; [reflexivity|split; [apply dead_sound; exact Sw|reflexivity]]|eexists; reflexivity].
    + destruct Sh as (Er & Sw & R). rewrite Er. cbn. split; [split; [reflexivity|split; [apply dead_sound; exact Sw|reflexivity]]|eexists; reflexivity].
  - destruct d as [room|]; [contradiction|]. unfold do_reconnect. destruct pr.
    + destruct Sh as [Er Ec]. rewrite Er. cbn. rewrite Er. split; [split; [reflexivity|exact Ec]|eexists; reflexivity].
    + destruct Sh as (Er & Sw & R). rewrite Er. cbn [fst snd]. split; [split; [exact Er|split; assumption]|eexists; reflexivity].
    + destruct Sh as (Er & Sw & R). rewrite Er. cbn [fst snd]. split; [split; [exact Er|split; assumption]|eexists; reflexivity].
  - cbn [fst snd]. split; [|exact Logic.I]. destruct pr; cbn; try exact Sh; destruct Sh as (Er & Sw & R); (split; [exact Er|split; [apply dead_sound; exact Sw|reflexivity]]).
  - cbn [fst snd]. split; [|exact Logic.I]. destruct pr; exact Sh.
Qed.
Lemma shut_life : forall pr name evs w, shut pr w -> Forall (after_close pr) evs -> Forall is_err (snd (life pr name w evs)) /\ shut pr (fst (life pr name w evs)).
Proof.
  intros pr name. induction evs as [|e evs IH]; intros w Sh F; [split; [constructor|exact Sh]|]. inversion F as [|x l A F']; subst. cbn [life fst snd].
  destruct (shut_step pr name w e Sh A) as [Sh' R]. destruct (IH _ Sh' F') as [I1 I2]. split; [|exact I2]. destruct (snd (lstep pr name w e)); [constructor; assumption|assumption].
Qed.

(** The text client keeps its close channel as long as Close has not been called. *)
Lemma chan_step : forall name w e, e <> LClose -> so_chan (w_obj w) = true -> so_chan (w_obj (fst (lstep PText name w e))) = true.
Proof.
  intros name w e N H. destruct e as [o sched| |d| |d]; cbn [lstep].
  - unfold do_call. destruct (so_raw (w_obj w)) as [live|]; [|exact H]. destruct (send _ _) as [r b]. destruct (daemon _ _ _) as [[c' reply] pend']. destruct r; [destruct (run_bufio _ _)| |]; exact H.
  - congruence.
  - unfold do_reconnect. destruct (so_raw (w_obj w)) as [[|]|]; destruct d; exact H.
  - exact H.
  - exact H.
Qed.
Lemma chan_life : forall name evs w, ~ In LClose evs -> so_chan (w_obj w) = true -> so_chan (w_obj (fst (life PText name w evs))) = true.
Proof.
  intros name. induction evs as [|e evs IH]; intros w N H; [exact H|]. cbn [life fst]. apply IH; [intro Q; apply N; right; exact Q|]. apply chan_step; [intro Q; apply N; left; exact Q|exact H].
Qed.
Lemma close_shuts : forall pr w, tidy pr w -> (pr = PText -> so_chan (w_obj w) = true) -> shut pr (fst (do_close pr w)) /\ snd (do_close pr w) <> Panic.
Proof.
  intros pr w [Sw T] H. unfold do_close. destruct pr.
  - rewrite (H eq_refl). cbn [negb]. destruct (so_raw (w_obj w)) as [[|]|]; [| |destruct T as [_ T]; rewrite (H eq_refl) in T; discriminate]; (split; [split; reflexivity|discriminate]).
  - destruct (so_raw (w_obj w)) as [[|]|]; [| |destruct T; discriminate]; (split; [split; [reflexivity|split; [apply dead_sound; exact Sw|reflexivity]]|discriminate]).
  - destruct (so_raw (w_obj w)) as [[|]|]; [| |destruct T; discriminate]; (split; [split; [reflexivity|split; [apply dead_sound; exact Sw|reflexivity]]|discriminate]).
Qed.

(** Whatever happened to the object before: after a Close, every further Close and every call returns
    an error. For the text client this needs that Close was not called before. *)
Theorem C29_close_is_final_partial : forall pr name room h c evs evs', (pr = PText -> ~ In LClose evs) -> Forall (after_close pr) evs' ->
  Forall is_err (snd (life pr name (fst (do_close pr (fst (life pr name (opened room h c) evs)))) evs')).
Proof.
  intros pr name room h c evs evs' N F. eapply shut_life; [|exact F]. apply close_shuts; [apply tidy_life; apply tidy_open|]. intros ->. apply chan_life; [apply N; reflexivity|reflexivity].
Qed.
Print Assumptions C29_close_is_final_partial.
Theorem C29_meta_and_binary_close_is_final : forall pr, pr <> PText -> C29_close_is_final pr.
Proof. intros pr Hp name room h c evs evs' F. apply C29_close_is_final_partial; [congruence|exact F]. Qed.
Print Assumptions C29_meta_and_binary_close_is_final.
(** Close hangs up: from then on the connection takes no more bytes, and whatever the caller does
    afterwards (without a Reconnect that succeeds) nothing more reaches the server. *)
Lemma shut_conn_step : forall pr name w e, shut pr w -> wc_room (bw_conn (so_writer (w_obj w))) = 0 -> after_close pr e ->
  bw_conn (so_writer (w_obj (fst (lstep pr name w e)))) = bw_conn (so_writer (w_obj w)).
Proof.
  intros pr name w e Sh R0 A.
  assert (Dw : bw_conn (dead_writer (so_writer (w_obj w))) = bw_conn (so_writer (w_obj w))).
  { unfold dead_writer. cbn [bw_conn]. destruct (bw_conn (so_writer (w_obj w))) as [sn rm]. cbn in *. subst rm. reflexivity. }
  destruct e as [o sched| |d| |d]; cbn [lstep after_close] in *.
  - destruct (not_crashing pr name (so_header (w_obj w)) o A) as [rq E]. unfold do_call. destruct pr.
    + destruct Sh as [Er Ec]. rewrite Er. reflexivity.
    + destruct Sh as (Er & Sw & R). rewrite Er. destruct (send_no_room PMeta name _ o rq _ E Sw R) as [Es Ec].
      destruct (send (so_writer (w_obj w)) (writes_of PMeta (so_header (w_obj w)) o)) as [r b]. cbn [fst snd] in *. subst r. destruct (daemon _ _ _) as [[c' reply] pend']. exact Ec.
    + destruct Sh as (Er & Sw & R). rewrite Er. destruct (send_no_room PBinary name _ o rq _ E Sw R) as [Es Ec].
      destruct (send (so_writer (w_obj w)) (writes_of PBinary (so_header (w_obj w)) o)) as [r b]. cbn [fst snd] in *. subst r. destruct (daemon _ _ _) as [[c' reply] pend']. exact Ec.
  - unfold do_close. destruct pr.
    + destruct Sh as [Er Ec]. rewrite Ec. reflexivity.
    + destruct Sh as (Er & Sw & R). rewrite Er. exact Dw.
    + destruct Sh as (Er & Sw & R). rewrite Er. exact Dw.
  - destruct d as [room|]; [contradiction|]. unfold do_reconnect. destruct pr; destruct Sh as [Er _]; rewrite Er; reflexivity.
  - exact Dw.
  - reflexivity.
Qed.
Theorem C29_close_hangs_up : forall pr name room h c evs evs', (pr = PText -> ~ In LClose evs) -> Forall (after_close pr) evs' ->
  let before := fst (life pr name (opened room h c) evs) in
  let after := fst (life pr name (fst (do_close pr before)) evs') in
  wc_sent (bw_conn (so_writer (w_obj after))) = wc_sent (bw_conn (so_writer (w_obj before)))
  /\ wc_room (bw_conn (so_writer (w_obj after))) = 0.
Proof.
  intros pr name room h c evs evs' N F before after.
  assert (T : tidy pr before) by (apply tidy_life; apply tidy_open).
  assert (Ch : pr = PText -> so_chan (w_obj before) = true) by (intros ->; apply chan_life; [apply N; reflexivity|reflexivity]).
  destruct (close_shuts pr before T Ch) as [Sh _].
  assert (Cc : bw_conn (so_writer (w_obj (fst (do_close pr before)))) = mkWconn (wc_sent (bw_conn (so_writer (w_obj before)))) 0).
  { unfold do_close. destruct pr; [rewrite (Ch eq_refl); cbn [negb]| |];
      (destruct (so_raw (w_obj before)) as [[|]|] eqn:Er; [reflexivity|reflexivity|]).
    - destruct T as [_ T]. rewrite Er in T. destruct T as [_ T]. rewrite (Ch eq_refl) in T. discriminate T.
    - destruct T as [_ T]. rewrite Er in T. destruct T as [T _]. discriminate T.
    - destruct T as [_ T]. rewrite Er in T. destruct T as [T _]. discriminate T. }
  assert (G : forall evs w, shut pr w -> wc_room (bw_conn (so_writer (w_obj w))) = 0 -> Forall (after_close pr) evs ->
     bw_conn (so_writer (w_obj (fst (life pr name w evs)))) = bw_conn (so_writer (w_obj w))).
  { clear. induction evs as [|e evs IH]; intros w Sh R F; [reflexivity|]. inversion F as [|x l A F']; subst. cbn [life fst].
    pose proof (shut_conn_step pr name w e Sh R A) as C. destruct (shut_step pr name w e Sh A) as [Sh' _].
    rewrite IH; [exact C|exact Sh'|rewrite C; exact R|exact F']. }
  unfold after. rewrite G; [rewrite Cc; split; reflexivity|exact Sh|rewrite Cc; reflexivity|exact F].
Qed.
Print Assumptions C29_close_hangs_up.
(** Close and Reconnect never panic, in any history. *)
Theorem C29_close_and_reconnect_never_panic : forall pr name room h c evs dial,
  let w := fst (life pr name (opened room h c) evs) in snd (do_close pr w) <> Panic /\ snd (do_reconnect w dial) <> Panic.
Proof.
  intros pr name room h c evs dial w. assert (T : tidy pr w) by (apply tidy_life; apply tidy_open). split.
  - destruct T as [_ T]. unfold do_close. destruct pr.
    + destruct (so_chan (w_obj w)); cbn [negb]; [|discriminate]. destruct (so_raw (w_obj w)) as [[|]|]; [discriminate|discriminate|destruct T; discriminate].
    + destruct (so_raw (w_obj w)) as [[|]|]; [discriminate|discriminate|destruct T; discriminate].
    + destruct (so_raw (w_obj w)) as [[|]|]; [discriminate|discriminate|destruct T; discriminate].
  - unfold do_reconnect. destruct (so_raw (w_obj w)) as [[|]|]; destruct dial; discriminate.
Qed.
Print Assumptions C29_close_and_reconnect_never_panic.

(** The text client: Close, Reconnect, Close. The second Close reports "already closed" and leaves the
    new connection open; calls go on working. *)
Definition at_once (b : bytes) : list arrival := [Seg b].
Theorem C29_text_close_after_reconnect_refuted : ~ C29_close_is_final PText.
Proof.
  intro H. specialize (H [] 100 reset_header demo_c [LClose; LReconnect (Some 100)] [LCall OVersion at_once] ltac:(repeat constructor)).
  vm_compute in H. inversion H as [|x l [e E] _]; subst. discriminate E.
Qed.
Print Assumptions C29_text_close_after_reconnect_refuted.
Example C29_met : Forall (after_close PBinary) [LClose; LCall (OGet (B "k")) at_once; LReconnect None; LBreak; LWait 5; LClose]
  /\ snd (life PBinary [] (opened 1000 reset_header demo_c) [LCall OVersion at_once; LClose; LCall (OGet (B "k")) at_once; LClose])
     = [Ok (RStr (cf_version (c_cfg demo_c))); Ok RUnit; Err EIO; Err EClosed].
Proof. split; [repeat constructor|]. vm_compute. reflexivity. Qed.

(** ** C30: a successful Reconnect gives a clean connection *)
(** Calls whose replies arrive whole but arbitrarily cut. *)
Fixpoint cut_calls (cut : nat -> bytes -> list bytes) (n : nat) (evs : list event) : list levent :=
  match evs with
  | [] => []
  | Do o :: evs' => LCall o (fun b => map Seg (cut n b)) :: cut_calls cut (S n) evs'
  | Wait d :: evs' => LWait d :: cut_calls cut n evs'
  end.
(** The number of bytes the calls will write. *)
Fixpoint written (pr : proto) (name : bytes) (h : req_header) (evs : list event) : nat :=
  match evs with
  | [] => 0
  | Do o :: evs' => match fst (cl_req (client_of pr name) h o) with Ok rq => length rq | _ => 0 end + written pr name (snd (cl_req (client_of pr name) h o)) evs'
  | Wait _ :: evs' => written pr name h evs'
  end.
Definition buildable (pr : proto) (e : event) : Prop := match e with Do o => crashing_arguments pr o = false | Wait _ => True end.

Lemma life_is_run : forall pr name ch cut, (forall n b, concat (cut n b) = b) -> forall evs n sent room rd l, ready rd -> unread rd = l_unread l -> later (br_net rd) = None ->
  Forall (buildable pr) evs -> written pr name (l_header l) evs <= room ->
  snd (life pr name (in_order ch sent room rd l) (cut_calls cut n evs)) = snd (run (client_of pr name) l evs)
  /\ w_cache (fst (life pr name (in_order ch sent room rd l) (cut_calls cut n evs))) = l_cache (fst (run (client_of pr name) l evs)).
Proof.
  intros pr name ch cut Hc. induction evs as [|[o|d] evs IH]; intros n sent room rd l R U L F W; [split; reflexivity| |].
  - inversion F as [|x y Bo F']; subst. cbn [buildable] in Bo. destruct (not_crashing pr name (l_header l) o Bo) as [rq E]. cbn [written] in W. rewrite E in W. cbn [cut_calls life run lstep fst snd].
    destruct (do_call_spec pr name ch sent room rd l o (fun b => map Seg (cut n b)) rq E ltac:(lia) R U) as (rd' & r' & Ec & R' & _ & Q); [intro b; rewrite in_flight_segs; apply Hc|].
    destruct (Q L) as (-> & U' & L'); [intro b; apply later_segs|]. rewrite Ec. cbn [fst snd app].
    assert (Hh : l_header (fst (call (client_of pr name) l o)) = snd (cl_req (client_of pr name) (l_header l) o)).
    { unfold call. rewrite E. destruct (daemon _ _ _) as [[c' reply] p']. reflexivity. }
    destruct (IH (S n) (sent ++ rq) (room - length rq) rd' (fst (call (client_of pr name) l o)) R' U' L' F') as [I1 I2]; [rewrite Hh; lia|]. rewrite I1, I2. split; reflexivity.
  - inversion F as [|x y Bo F']; subst. cbn [cut_calls life run lstep fst snd app]. exact (IH n sent room rd (link_tick l d) R U L F' W).
Qed.
(** Whatever state the object was in - unread bytes, a failed or half-filled write buffer, closed or
    not: the calls after a successful Reconnect behave as those of a client on a fresh connection. *)
Theorem C30_reconnected_is_fresh : forall pr name w room w' cut evs, do_reconnect w (Some room) = (w', Ok RUnit) ->
  (forall n b, concat (cut n b) = b) -> Forall (buildable pr) evs -> written pr name (so_header (w_obj w)) evs <= room ->
  snd (life pr name w' (cut_calls cut 0 evs)) = snd (run (client_of pr name) (fresh_link (w_cache w) (so_header (w_obj w))) evs)
  /\ w_cache (fst (life pr name w' (cut_calls cut 0 evs))) = l_cache (fst (run (client_of pr name) (fresh_link (w_cache w) (so_header (w_obj w))) evs)).
Proof.
  intros pr name w room w' cut evs E Hc F W.
  assert (Q : w' = in_order (so_chan (w_obj w)) [] room (new_breader []) (fresh_link (w_cache w) (so_header (w_obj w)))).
  { unfold do_reconnect in E. destruct (so_raw (w_obj w)) as [[|]|]; try discriminate E; injection E as <-; reflexivity. }
  rewrite Q. apply life_is_run; [exact Hc|apply ready_new|reflexivity|reflexivity|exact F|exact W].
Qed.
Print Assumptions C30_reconnected_is_fresh.
(** With C09-C11: the calls return what the specification of memcached says. *)
Theorem C30_reconnected_calls_are_faithful : forall pr name w room w' cut evs, do_reconnect w (Some room) = (w', Ok RUnit) ->
  (forall n b, concat (cut n b) = b) -> written pr name (so_header (w_obj w)) evs <= room ->
  wf pr (w_cache w) -> (c_cas (w_cache w) + zlen evs < cas_bound pr)%Z -> Forall (legal_event pr) evs -> safe_run pr name (rq_cas (so_header (w_obj w))) (w_cache w) evs ->
  Forall2 Spec.agrees (snd (spec_run pr name (w_cache w) evs)) (snd (life pr name w' (cut_calls cut 0 evs))).
Proof.
  intros pr name w room w' cut evs E Hc W Wf C Lg S. destruct (C30_reconnected_is_fresh pr name w room w' cut evs E Hc) as [-> _]; [|exact W|].
  - revert Lg. apply Forall_impl. intros [o|d] H; [|exact Logic.I]. cbn [legal_event buildable] in *. destruct (crashing_arguments pr o) eqn:Cr; [|reflexivity]. exfalso.
    apply (C57_no_argument_panics_partial pr name reset_header o H). apply C57_request_panics_exactly. exact Cr.
  - destruct (run_ok pr name evs _ (so_header (w_obj w)) Wf C Lg S) as (h' & outs & -> & A). exact A.
Qed.
Print Assumptions C30_reconnected_calls_are_faithful.
Definition half_read : world := (* three replies unread, a dead writer *)
  mkWorld (mkSobj (Some true) true (mkBW 4096 (B "ge") true (mkWconn (B "x") 0)) (mkBR (B "VALUE z 0 1" ++ crlf) false [Stall; Seg (B "q" ++ crlf ++ B "END" ++ crlf)]) reset_header) demo_c (B "get").
Example C30_met : exists w', do_reconnect half_read (Some 1000) = (w', Ok RUnit)
  /\ snd (life PText (B "s") w' [LCall (OSet (demo_item "a" "one" 7 0 0)) (fun b => map Seg (one_by_one 0 b)); LCall (OGet (B "a")) at_once])
     = [Ok RUnit; Ok (RItem (mkItem (B "a") (B "one") (Some (be 4 7)) 0 1 (B "s")))].
Proof. eexists. split; [reflexivity|]. vm_compute. reflexivity. Qed.

(** ** C31: Reconnect can be retried *)
(** The statement: starting from an open connection, after any number of failed attempts one with a
    reachable server succeeds. *)
Definition C31_retry (pr : proto) : Prop := forall name w k room, tidy pr w -> so_raw (w_obj w) = Some true ->
  snd (do_reconnect (fst (life pr name w (repeat (LReconnect None) k))) (Some room)) = Ok RUnit.
(** One failed attempt is enough to break it, for every protocol: the connection Reconnect closed stays
    in s.raw, and closing it again fails. From then on no Reconnect succeeds, whatever the server
    does. *)
Definition no_close (e : levent) : Prop := e <> LClose.
Definition reconnect_results (pr : proto) (name : bytes) : world -> list levent -> list (outcome result) :=
  fix go w evs := match evs with
    | [] => []
    | e :: evs' => match e with LReconnect d => [snd (do_reconnect w d)] | _ => [] end ++ go (fst (lstep pr name w e)) evs'
    end.
Lemma raw_call : forall pr name w o sched, so_raw (w_obj w) = Some false -> so_raw (w_obj (fst (do_call pr name w o sched))) = Some false.
Proof.
  intros pr name w o sched H. unfold do_call. rewrite H. assert (G : forall x : world * outcome result, so_raw (w_obj (fst x)) = Some false -> so_raw (w_obj (fst (match pr with PText => x | _ => x end))) = Some false) by (intros x Q; destruct pr; exact Q).
  apply G. destruct (send _ _) as [r b]. destruct (daemon _ _ _) as [[c' reply] pend']. destruct r; [destruct (run_bufio _ _)| |]; reflexivity.
Qed.
Theorem C31_one_failure_is_for_ever : forall pr name w evs, so_raw (w_obj w) = Some true -> Forall no_close evs \/ pr <> PText ->
  Forall is_err (reconnect_results pr name (fst (do_reconnect w None)) evs).
Proof.
  intros pr name w evs H Hn. assert (Q : so_raw (w_obj (fst (do_reconnect w None))) = Some false) by (unfold do_reconnect; rewrite H; reflexivity).
  revert Q. generalize (fst (do_reconnect w None)) as v. clear H w. induction evs as [|e evs IH]; intros v Q; [constructor|]. cbn [reconnect_results]. apply Forall_app. split.
  - destruct e; try constructor. unfold do_reconnect. rewrite Q. eexists. reflexivity. constructor.
  - apply IH; [destruct Hn as [Hn|Hn]; [left; inversion Hn; assumption|right; exact Hn]|]. destruct e as [o sched| |d| |d]; cbn [lstep].
    + pose proof (raw_call pr name v o sched Q) as R. destruct (do_call pr name v o sched) as [w' r]. exact R.
    + destruct Hn as [Hn|Hn]; [inversion Hn as [|x y N _]; exfalso; apply N; reflexivity|]. unfold do_close. rewrite Q. destruct pr; [congruence|reflexivity|reflexivity].
    + unfold do_reconnect. rewrite Q. exact Q.
    + exact Q.
    + exact Q.
Qed.
Print Assumptions C31_one_failure_is_for_ever.
Theorem C31_retry_refuted : forall pr, ~ C31_retry pr.
Proof.
  intros pr H. specialize (H [] (opened 10 reset_header demo_c) 1 10 (tidy_open _ _ _ _) eq_refl). discriminate H.
Qed.
Print Assumptions C31_retry_refuted.
(** The meta and binary clients cannot Reconnect after Close either. *)
Theorem C31_no_reconnect_after_close : forall pr name w evs, pr <> PText -> tidy pr w -> Forall is_err (reconnect_results pr name (fst (do_close pr w)) evs).
Proof.
  intros pr name w evs Hp [_ T]. assert (Q : so_raw (w_obj (fst (do_close pr w))) = Some false).
  { unfold do_close. destruct pr; [congruence| |]; (destruct (so_raw (w_obj w)) as [live|]; [reflexivity|destruct T; discriminate]). }
  revert Q. generalize (fst (do_close pr w)) as v. clear T w. induction evs as [|e evs IH]; intros v Q; [constructor|]. cbn [reconnect_results]. apply Forall_app. split.
  - destruct e; try constructor. unfold do_reconnect. rewrite Q. eexists. reflexivity. constructor.
  - apply IH. destruct e as [o sched| |d| |d]; cbn [lstep].
    + pose proof (raw_call pr name v o sched Q) as R. destruct (do_call pr name v o sched) as [w' r]. exact R.
    + unfold do_close. rewrite Q. destruct pr; [congruence|reflexivity|reflexivity].
    + unfold do_reconnect. rewrite Q. exact Q.
    + exact Q.
    + exact Q.
Qed.
Print Assumptions C31_no_reconnect_after_close.
(** What does hold: the first attempt on an open connection succeeds when the server is reachable, and
    the text client can retry any number of times once it has been closed. *)
Theorem C31_first_attempt_partial : forall w room, so_raw (w_obj w) = Some true -> snd (do_reconnect w (Some room)) = Ok RUnit.
Proof. intros w room H. unfold do_reconnect. rewrite H. reflexivity. Qed.
Print Assumptions C31_first_attempt_partial.
Theorem C31_text_retry_after_close_partial : forall name w k room, shut PText w ->
  snd (do_reconnect (fst (life PText name w (repeat (LReconnect None) k))) (Some room)) = Ok RUnit.
Proof.
  intros name w k room Sh. assert (F : Forall (after_close PText) (repeat (LReconnect None) k)) by (apply Forall_forall; intros x I; apply repeat_spec in I; subst; exact Logic.I).
  destruct (proj2 (shut_life PText name _ w Sh F)) as [R _]. unfold do_reconnect. rewrite R. reflexivity.
Qed.
Print Assumptions C31_text_retry_after_close_partial.
Example C31_met : shut PText (fst (do_close PText (fst (do_reconnect (opened 10 reset_header demo_c) None))))
  /\ so_raw (w_obj (opened 10 reset_header demo_c)) = Some true.
Proof. repeat split. Qed.

(** ** C18: time-outs *)
(** Calls whose replies arrive completely, but cut and delayed in any way: [sched n] contains a [Stall]
    wherever a read of a call meets its deadline. *)
Fixpoint slow_calls (sched : nat -> bytes -> list arrival) (n : nat) (evs : list event) : list levent :=
  match evs with
  | [] => []
  | Do o :: evs' => LCall o (sched n) :: slow_calls sched (S n) evs'
  | Wait d :: evs' => LWait d :: slow_calls sched n evs'
  end.
(** The statement: every call fails with a time-out or returns what it returns without delays. *)
Definition C18_no_poisoning (pr : proto) : Prop := forall name c h room sched evs,
  (forall n b, in_flight (sched n b) = b) -> Forall (buildable pr) evs -> written pr name h evs <= room ->
  Forall2 (fun got want => got = Err EIO \/ got = want)
    (snd (life pr name (opened room h c) (slow_calls sched 0 evs))) (snd (run (client_of pr name) (fresh_link c h) evs)).

(** Two items are stored, then Get "a" times out before its reply arrives, and Get "b" reads it. *)
Definition late (n : nat) (b : bytes) : list arrival := if n =? 2 then [Stall; Seg b] else [Seg b].
Lemma late_delivers : forall n b, in_flight (late n b) = b.
Proof. intros n b. unfold late. destruct (n =? 2); cbn; apply app_nil_r. Qed.
Definition two_gets : list event := [Do (OSet (demo_item "a" "one" 0 0 0)); Do (OSet (demo_item "b" "two" 0 0 0)); Do (OGet (B "a")); Do (OGet (B "b"))].
(** The item the second Get returns: the value of "a"; the meta and the binary client even label it
    with the key "b". *)
Theorem C18_stale_reply : forall pr, exists i, nth_error (snd (life pr [] (opened 1000 reset_header demo_c) (slow_calls late 0 two_gets))) 3 = Some (Ok (RItem i))
  /\ it_value i = B "one" /\ (pr <> PText -> it_key i = B "b").
Proof. intros []; eexists; (split; [vm_compute; reflexivity|split; [reflexivity|intro N; try congruence; reflexivity]]). Qed.
Print Assumptions C18_stale_reply.
Theorem C18_late_reply_refuted : forall pr, ~ C18_no_poisoning pr.
Proof.
  intros pr H. specialize (H [] demo_c reset_header 1000 late two_gets late_delivers).
  destruct pr; (specialize (H ltac:(repeat constructor) ltac:(vm_compute; repeat constructor)); vm_compute in H;
    inversion H as [|? ? ? ? _ H1]; subst; inversion H1 as [|? ? ? ? _ H2]; subst; inversion H2 as [|? ? ? ? _ H3]; subst; inversion H3 as [|? ? ? ? [Q|Q] _]; subst; discriminate Q).
Qed.
Print Assumptions C18_late_reply_refuted.

(** Up to and including the first time-out every result is right. *)
Theorem C18_right_until_a_timeout_partial : forall pr name c h room sched evs,
  (forall n b, in_flight (sched n b) = b) -> Forall (buildable pr) evs -> written pr name h evs <= room ->
  forall i got, nth_error (snd (life pr name (opened room h c) (slow_calls sched 0 evs))) i = Some got ->
  (forall j, j < i -> nth_error (snd (life pr name (opened room h c) (slow_calls sched 0 evs))) j <> Some (Err EIO)) ->
  got = Err EIO \/ nth_error (snd (run (client_of pr name) (fresh_link c h) evs)) i = Some got.
Proof.
  intros pr name c h room sched evs Hs.
  assert (G : forall n sent room rd l, ready rd -> unread rd = l_unread l -> Forall (buildable pr) evs -> written pr name (l_header l) evs <= room ->
    forall i got, nth_error (snd (life pr name (in_order true sent room rd l) (slow_calls sched n evs))) i = Some got ->
    (forall j, j < i -> nth_error (snd (life pr name (in_order true sent room rd l) (slow_calls sched n evs))) j <> Some (Err EIO)) ->
    got = Err EIO \/ nth_error (snd (run (client_of pr name) l evs)) i = Some got).
  2: { intros F W. exact (G 0 [] room (new_breader []) (fresh_link c h) (ready_new _) eq_refl F W). }
  clear room c h. induction evs as [|[o|d] evs IH]; intros n sent room rd l R U F W i got Hi Hj.
  - destruct i; discriminate Hi.
  - inversion F as [|x y Bo F']; subst. cbn [buildable] in Bo. destruct (not_crashing pr name (l_header l) o Bo) as [rq E]. cbn [written] in W. rewrite E in W.
    cbn [slow_calls life run lstep fst snd] in *.
    destruct (do_call_spec pr name true sent room rd l o (sched n) rq E ltac:(lia) R U (Hs n)) as (rd' & r' & Ec & R' & Q & _). rewrite Ec in Hi, Hj. cbn [fst snd app] in Hi, Hj.
    assert (Hh : l_header (fst (call (client_of pr name) l o)) = snd (cl_req (client_of pr name) (l_header l) o)).
    { unfold call. rewrite E. destruct (daemon _ _ _) as [[c' reply] p']. reflexivity. }
    destruct i as [|i]; cbn [nth_error] in Hi |- *.
    + injection Hi as <-. destruct Q as [->|[-> _]]; [left; reflexivity|right; reflexivity].
    + destruct Q as [->|[-> U']]; [exfalso; apply (Hj 0 ltac:(lia)); reflexivity|].
      apply (IH (S n) (sent ++ rq) (room - length rq) rd' _ R' U' F' ltac:(rewrite Hh; lia) i got Hi).
      intros j Lj. apply (Hj (S j)). lia.
  - inversion F as [|x y Bo F']; subst. cbn [slow_calls life run lstep fst snd app] in *. exact (IH n sent room rd (link_tick l d) R U F' W i got Hi Hj).
Qed.
Print Assumptions C18_right_until_a_timeout_partial.

(** A Reconnect after the time-out repairs it: the calls after it see the cache as all calls before it
    have left it, and return what a fresh client returns. *)
Definition same_but_unread (a b : link) : Prop := l_cache a = l_cache b /\ l_pending a = l_pending b /\ l_header a = l_header b.
Lemma call_but_unread : forall cl a b o, same_but_unread a b -> same_but_unread (fst (call cl a o)) (fst (call cl b o)).
Proof.
  intros cl [ca pa ua ha] [cb pb ub hb] o (E1 & E2 & E3). cbn [l_cache l_pending l_header] in *. subst. unfold call. cbn [l_cache l_pending l_unread l_header].
  destruct (fst (cl_req cl hb o)); [destruct (daemon _ _ _) as [[c' reply] p']| |]; repeat split.
Qed.
Lemma life_cache : forall pr name sched, (forall n b, in_flight (sched n b) = b) -> forall evs n sent room rd l, ready rd ->
  Forall (buildable pr) evs -> written pr name (l_header l) evs <= room ->
  exists sent' room' rd' l', fst (life pr name (in_order true sent room rd l) (slow_calls sched n evs)) = in_order true sent' room' rd' l'
    /\ same_but_unread l' (fst (run (client_of pr name) l evs)).
Proof.
  intros pr name sched Hs. induction evs as [|[o|d] evs IH]; intros n sent room rd l R F W.
  - exists sent, room, rd, l. split; [reflexivity|repeat split].
  - inversion F as [|x y Bo F']; subst. cbn [buildable] in Bo. destruct (not_crashing pr name (l_header l) o Bo) as [rq E]. cbn [written] in W. rewrite E in W.
    cbn [slow_calls life run lstep fst]. set (l0 := mkLink (l_cache l) (l_pending l) (unread rd) (l_header l)).
    destruct (do_call_spec pr name true sent room rd l0 o (sched n) rq E ltac:(lia) R eq_refl (Hs n)) as (rd' & r' & Ec & R' & _ & _).
    change (in_order true sent room rd l) with (in_order true sent room rd l0). rewrite Ec. cbn [fst].
    assert (Sm : same_but_unread (fst (call (client_of pr name) l0 o)) (fst (call (client_of pr name) l o))) by (apply call_but_unread; repeat split).
    assert (Hh : l_header (fst (call (client_of pr name) l o)) = snd (cl_req (client_of pr name) (l_header l) o)).
    { unfold call. rewrite E. destruct (daemon _ _ _) as [[c' reply] p']. reflexivity. }
    destruct (IH (S n) (sent ++ rq) (room - length rq) rd' (fst (call (client_of pr name) l o)) R' F' ltac:(rewrite Hh; lia)) as (s' & m' & d' & l' & E' & Sm').
    exists s', m', d', l'. split; [|exact Sm']. rewrite <- E'. destruct Sm as (S1 & S2 & S3). unfold in_order. rewrite S1, S2, S3. reflexivity.
  - inversion F as [|x y Bo F']; subst. cbn [slow_calls life run lstep fst]. exact (IH n sent room rd (link_tick l d) R F' W).
Qed.
Theorem C18_reconnect_repairs_partial : forall pr name c h room sched evs room' cut evs',
  (forall n b, in_flight (sched n b) = b) -> (forall n b, concat (cut n b) = b) -> Forall (buildable pr) evs -> Forall (buildable pr) evs' ->
  let before := fst (run (client_of pr name) (fresh_link c h) evs) in
  written pr name h evs <= room -> written pr name (l_header before) evs' <= room' ->
  exists rs, snd (life pr name (opened room h c) (slow_calls sched 0 evs ++ LReconnect (Some room') :: cut_calls cut 0 evs'))
             = rs ++ Ok RUnit :: snd (run (client_of pr name) (fresh_link (l_cache before) (l_header before)) evs').
Proof.
  intros pr name c h room sched evs room' cut evs' Hs Hc F F' before W W'.
  assert (App : forall a b w, snd (life pr name w (a ++ b)) = snd (life pr name w a) ++ snd (life pr name (fst (life pr name w a)) b)).
  { induction a as [|e a IH]; intros b w; [reflexivity|]. cbn [app life fst snd]. rewrite IH, app_assoc. reflexivity. }
  rewrite App. eexists. f_equal. destruct (life_cache pr name sched Hs evs 0 [] room (new_breader []) (fresh_link c h) (ready_new _) F W) as (s & m & rd & l & E & S1 & S2 & S3).
  change (opened room h c) with (in_order true [] room (new_breader []) (fresh_link c h)). rewrite E. cbn [life lstep fst snd app].
  unfold do_reconnect. cbn [in_order w_obj so_raw]. cbn [fst snd app]. f_equal. unfold before in *.
  destruct (C30_reconnected_is_fresh pr name (in_order true s m rd l) room' _ cut evs' eq_refl Hc F') as [Q _].
  { cbn [in_order w_obj so_header]. rewrite S3. exact W'. }
  cbn [in_order w_obj so_raw so_chan so_header w_cache fst snd] in Q. rewrite S1, S3 in Q. cbn [in_order w_obj so_raw so_chan so_header w_cache fst snd]. rewrite S1, S3. exact Q.
Qed.
Print Assumptions C18_reconnect_repairs_partial.
Example C18_met : (forall n b, in_flight (late n b) = b) /\ Forall (buildable PBinary) two_gets /\ written PBinary [] reset_header two_gets <= 1000
  /\ nth_error (snd (life PBinary [] (opened 1000 reset_header demo_c) (slow_calls late 0 two_gets))) 2 = Some (Err EIO).
Proof. split; [exact late_delivers|]. split; [repeat constructor|]. split; [vm_compute; repeat constructor|]. vm_compute. reflexivity. Qed.

(** ** C32: the heartbeat *)
(** The statement: on an open, working connection every interval has its check. *)
Definition C32_every_interval_is_checked (pr : proto) : Prop := forall name reconnect c h n room, n * 24 <= room ->
  length (snd (hlife pr name (heartbeat_started reconnect (opened room h c)) (repeat (HInterval at_once None) n))) = n.
Lemma beat_disarms : forall pr name h sched dial, length (snd (beat pr name h sched dial)) <= 1 /\ (hw_beat h = HbWait true -> length (snd (beat pr name h sched dial)) = 1) /\ hw_beat (fst (beat pr name h sched dial)) <> HbWait true.
Proof.
  intros pr name h sched dial. unfold beat. destruct (hw_beat h) as [|[|]] eqn:Eb.
  - cbn. rewrite Eb. split; [lia|split; discriminate].
  - destruct (do_call pr name (hw_world h) OVersion sched) as [w r]. destruct r as [v|e|].
    + cbn. split; [lia|split; [reflexivity|discriminate]].
    + destruct (hw_reconnect h); [destruct (do_reconnect w dial) as [w' [v'|e'|]]|]; cbn; (split; [lia|split; [reflexivity|discriminate]]).
    + destruct (hw_reconnect h); [destruct (do_reconnect w dial) as [w' [v'|e'|]]|]; cbn; (split; [lia|split; [reflexivity|discriminate]]).
  - cbn. rewrite Eb. split; [lia|split; discriminate].
Qed.
Lemma beat_idle : forall pr name h sched dial, hw_beat h <> HbWait true -> beat pr name h sched dial = (h, []).
Proof. intros pr name h sched dial N. unfold beat. destruct (hw_beat h) as [|[|]]; [reflexivity|congruence|reflexivity]. Qed.
Lemma no_more_checks : forall pr name evs h, hw_beat h <> HbWait true -> snd (hlife pr name h evs) = [] .
Proof.
  intros pr name. induction evs as [|e evs IH]; intros h N; [reflexivity|]. cbn [hlife snd]. destruct e as [u|sched dial|]; cbn [hstep].
  - cbn [fst snd app]. apply IH. exact N.
  - rewrite beat_idle by exact N. cbn [fst snd app]. apply IH. exact N.
  - cbn [fst snd app]. apply IH. unfold notice. destruct (so_chan (w_obj (hw_world h))); [exact N|]. discriminate.
Qed.
(** In every history - however long, whatever the user does - the connection is checked at most once. *)
Theorem C32_at_most_one_check : forall pr name reconnect w evs, length (snd (hlife pr name (heartbeat_started reconnect w) evs)) <= 1.
Proof.
  intros pr name reconnect w evs. generalize (heartbeat_started reconnect w) as h. clear w. induction evs as [|e evs IH]; intro h; [cbn; lia|]. cbn [hlife snd]. rewrite app_length. destruct e as [u|sched dial|]; cbn [hstep].
  - cbn [fst snd length]. apply IH.
  - destruct (beat_disarms pr name h sched dial) as (L & _ & N). rewrite (no_more_checks pr name evs _ N). cbn [length]. lia.
  - cbn [fst snd length]. apply IH.
Qed.
Print Assumptions C32_at_most_one_check.
Theorem C32_heartbeat_stops_refuted : forall pr, ~ C32_every_interval_is_checked pr.
Proof. intros pr H. pose proof (C32_at_most_one_check pr [] false (opened 48 reset_header demo_c) (repeat (HInterval at_once None) 2)) as L. rewrite (H [] false demo_c reset_header 2 48 ltac:(lia)) in L. lia. Qed.
Print Assumptions C32_heartbeat_stops_refuted.
(** The first interval is checked by a call of Version, whatever the user did before it (as long as
    the text client was not closed); if it fails, the object is reconnected or closed as asked. *)
Definition quiet (pr : proto) (e : hevent) : Prop :=
  match e with HUser LClose => pr <> PText | HInterval _ _ => False | _ => True end.
Lemma quiet_life : forall pr name evs h, Forall (quiet pr) evs -> (so_chan (w_obj (hw_world h)) = true) ->
  snd (hlife pr name h evs) = [] /\ hw_beat (fst (hlife pr name h evs)) = hw_beat h /\ hw_reconnect (fst (hlife pr name h evs)) = hw_reconnect h.
Proof.
  intros pr name. induction evs as [|e evs IH]; intros h F Hc; [repeat split|]. inversion F as [|x y Q F']; subst. cbn [hlife snd fst]. destruct e as [u|sched dial|]; cbn [hstep].
  - cbn [fst snd app]. destruct (IH (mkHW (fst (lstep pr name (hw_world h) u)) (hw_beat h) (hw_reconnect h)) F') as (I1 & I2 & I3); [|rewrite I1, I2, I3; repeat split].
    cbn [hw_world]. destruct pr.
    + apply chan_step; [intros ->; apply Q; reflexivity|exact Hc].
    + destruct u as [o sched| |d| |d]; cbn [lstep]; [unfold do_call; destruct (send _ _) as [r b]; destruct (daemon _ _ _) as [[c' reply] pend']; destruct r; [destruct (run_bufio _ _)| |]; exact Hc|unfold do_close; destruct (so_raw _); exact Hc|unfold do_reconnect; destruct (so_raw _) as [[|]|]; destruct d; exact Hc|exact Hc|exact Hc].
    + destruct u as [o sched| |d| |d]; cbn [lstep]; [unfold do_call; destruct (send _ _) as [r b]; destruct (daemon _ _ _) as [[c' reply] pend']; destruct r; [destruct (run_bufio _ _)| |]; exact Hc|unfold do_close; destruct (so_raw _); exact Hc|unfold do_reconnect; destruct (so_raw _) as [[|]|]; destruct d; exact Hc|exact Hc|exact Hc].
  - contradiction.
  - unfold notice. rewrite Hc. cbn [fst snd app]. exact (IH h F' Hc).
Qed.
Theorem C32_first_interval_is_checked_partial : forall pr name reconnect room h c evs sched dial, Forall (quiet pr) evs ->
  let h1 := fst (hlife pr name (heartbeat_started reconnect (opened room h c)) evs) in
  let '(w, r) := do_call pr name (hw_world h1) OVersion sched in
  snd (hstep pr name h1 (HInterval sched dial)) = [r]
  /\ hw_world (fst (hstep pr name h1 (HInterval sched dial)))
     = match r with Ok _ => w | _ => if reconnect then fst (do_reconnect w dial) else fst (do_close pr w) end.
Proof.
  intros pr name reconnect room h c evs sched dial F h1. destruct (quiet_life pr name evs (heartbeat_started reconnect (opened room h c)) F eq_refl) as (_ & Hb & Hr). fold h1 in Hb, Hr. cbn in Hb, Hr.
  cbn [hstep]. unfold beat. rewrite Hb. destruct (do_call pr name (hw_world h1) OVersion sched) as [w r]. rewrite Hr. destruct r as [v|e|].
  - split; reflexivity.
  - destruct reconnect; [destruct (do_reconnect w dial) as [w' [v'|e'|]]|]; split; reflexivity.
  - destruct reconnect; [destruct (do_reconnect w dial) as [w' [v'|e'|]]|]; split; reflexivity.
Qed.
Print Assumptions C32_first_interval_is_checked_partial.
Example C32_met : Forall (quiet PMeta) [HUser (LCall (OGet (B "k")) at_once); HSched; HUser LBreak]
  /\ snd (hlife PMeta [] (heartbeat_started true (opened 1000 reset_header demo_c)) [HInterval at_once None; HInterval at_once None]) = [Ok (RStr (B "1.6.9"))].
Proof. split; [repeat constructor|]. vm_compute. reflexivity. Qed.

(** ** C60: Close ends the heartbeat *)
Definition C60_close_ends_the_heartbeat (pr : proto) : Prop := forall name reconnect room h c evs,
  let h1 := fst (hlife pr name (heartbeat_started reconnect (opened room h c)) evs) in
  hw_beat (fst (hlife pr name h1 [HUser LClose; HSched])) = HbOff.
Lemma tidy_hlife : forall pr name evs h, tidy pr (hw_world h) -> tidy pr (hw_world (fst (hlife pr name h evs))).
Proof.
  intros pr name. induction evs as [|e evs IH]; intros h T; [exact T|]. cbn [hlife fst]. apply IH. destruct e as [u|sched dial|]; cbn [hstep fst].
  - cbn [hw_world]. apply tidy_step. exact T.
  - assert (Tc : tidy pr (fst (do_call pr name (hw_world h) OVersion sched))).
    { pose proof (tidy_step pr name (hw_world h) (LCall OVersion sched) T) as Q. cbn [lstep] in Q. destruct (do_call pr name (hw_world h) OVersion sched). exact Q. }
    unfold beat. destruct (hw_beat h) as [|[|]]; [exact T| |exact T]. destruct (do_call pr name (hw_world h) OVersion sched) as [w r]. cbn [fst] in Tc.
    assert (Tr : tidy pr (fst (do_reconnect w dial))).
    { pose proof (tidy_step pr name w (LReconnect dial) Tc) as Q. cbn [lstep] in Q. destruct (do_reconnect w dial). exact Q. }
    assert (Td : tidy pr (fst (do_close pr w))).
    { pose proof (tidy_step pr name w LClose Tc) as Q. cbn [lstep] in Q. destruct (do_close pr w). exact Q. }
    destruct r as [v|e|]; [exact Tc| |]; (destruct (hw_reconnect h); [destruct (do_reconnect w dial) as [w' [v'|e'|]]; exact Tr|exact Td]).
  - unfold notice. destruct (so_chan (w_obj (hw_world h))); exact T.
Qed.
Theorem C60_text_close_ends_the_heartbeat : C60_close_ends_the_heartbeat PText.
Proof.
  intros name reconnect room h c evs h1. assert (T : tidy PText (hw_world h1)) by (apply tidy_hlife; apply tidy_open).
  cbn [hlife hstep fst lstep]. unfold notice. cbn [hw_world hw_beat hw_reconnect].
  assert (Q : so_chan (w_obj (fst (do_close PText (hw_world h1)))) = false).
  { unfold do_close. destruct (so_chan (w_obj (hw_world h1))) eqn:Ec; cbn [negb]; [|exact Ec]. destruct T as [_ T]. destruct (so_raw (w_obj (hw_world h1))) as [live|]; [reflexivity|]. destruct T; congruence. }
  destruct (do_close PText (hw_world h1)) as [w r]. cbn [fst] in *. rewrite Q. reflexivity.
Qed.
Print Assumptions C60_text_close_ends_the_heartbeat.
(** The meta and the binary client's goroutine stays in its select for ever. *)
Theorem C60_heartbeat_leaks_refuted : forall pr, pr <> PText -> ~ C60_close_ends_the_heartbeat pr.
Proof. intros pr Hp H. specialize (H [] false 100 reset_header demo_c []). destruct pr; [congruence|discriminate H|discriminate H]. Qed.
Print Assumptions C60_heartbeat_leaks_refuted.
Theorem C60_leak_is_for_ever : forall pr name w reconnect evs, pr <> PText -> so_chan (w_obj w) = true ->
  hw_beat (fst (hlife pr name (mkHW w (HbWait false) reconnect) evs)) = HbWait false.
Proof.
  intros pr name w reconnect evs Hp. revert w. induction evs as [|e evs IH]; intros w Hc; [reflexivity|]. cbn [hlife fst]. destruct e as [u|sched dial|]; cbn [hstep fst hw_world hw_beat hw_reconnect].
  - apply IH. destruct pr; [congruence| |];
      (destruct u as [o sched| |d| |d]; cbn [lstep]; [unfold do_call; destruct (send _ _) as [r b]; destruct (daemon _ _ _) as [[c' reply] pend']; destruct r; [destruct (run_bufio _ _)| |]; exact Hc|unfold do_close; destruct (so_raw _); exact Hc|unfold do_reconnect; destruct (so_raw _) as [[|]|]; destruct d; exact Hc|exact Hc|exact Hc]).
  - exact (IH w Hc).
  - unfold notice. cbn [hw_world]. rewrite Hc. exact (IH w Hc).
Qed.
Print Assumptions C60_leak_is_for_ever.
Example C60_met : hw_beat (fst (hlife PMeta [] (heartbeat_started false (opened 100 reset_header demo_c)) [HInterval at_once None; HUser LClose; HSched])) = HbWait false.
Proof. vm_compute. reflexivity. Qed.
