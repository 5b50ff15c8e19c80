(** * Properties C17, C20, C22, C57: what the client makes of an arbitrary byte stream from the server. *)
From Verif Require Import GoBytes GoNum GoIO GoScan Item ClientText ClientMeta ClientBinary Cache Daemon Spec Call
  Guard PLib PText PBinary PClient PReader.
Local Open Scope Z_scope.

(** The reply reader of operation [o] of a client of protocol [pr]. Its argument is everything that
    arrives before the connection fails, its result the call's result and the bytes left unread. *)
Definition receive (pr : proto) (name : bytes) (o : op) : reader result := cl_resp (client_of pr name) o.

Lemma local_receive : forall pr name o, local (receive pr name o).
Proof. intros [] name o; [apply local_text|apply local_meta|apply local_bin]. Qed.

(** ** C17 *)
(** If the bytes [p] that arrived before the failure give any result other than an input/output
    error, then the same result is given whatever [t] would have followed: what was returned was the
    complete reply. *)
Theorem C17_cut_reply_is_an_error_or_complete : forall pr name o p t out rest,
  receive pr name o p = (out, rest) -> out <> Err EIO ->
  receive pr name o (p ++ t) = (out, rest ++ t).
Proof.
  intros pr name o p t out rest E N. destruct (local_receive pr name o p out rest E N) as (u & -> & F & _).
  rewrite <- app_assoc. apply F.
Qed.
Print Assumptions C17_cut_reply_is_an_error_or_complete.

(** Whatever the call makes of a stream, cutting the stream at any byte the call consumed gives an
    input/output error. *)
Theorem C17_every_cut_is_an_error : forall pr name o s out rest,
  receive pr name o s = (out, rest) -> out <> Err EIO ->
  exists used, s = used ++ rest
    /\ forall p q, used = p ++ q -> q <> [] -> receive pr name o p = (Err EIO, []).
Proof.
  intros pr name o s out rest E N. destruct (local_receive pr name o s out rest E N) as (u & Es & _ & P).
  exists u. split; [exact Es|exact P].
Qed.
Print Assumptions C17_every_cut_is_an_error.

(** Against a conforming memcached: for every legal call, every strict prefix of the reply. *)
Lemma spec_not_io : forall pr name c o out, agrees (snd (spec_step pr name c o)) out -> out <> Err EIO.
Proof.
  intros pr name c o out A E. subst out.
  assert (G : forall s, agrees s (Err EIO) -> s = SErr EIO).
  { intros [r|e|] H; cbn in H; [contradiction|subst; reflexivity|]. destruct H as [H _]. congruence. }
  apply G in A.
  assert (D : forall pr r, delta_outcome pr r <> SErr EIO).
  { intros p r Q. destruct r; cbn [delta_outcome] in Q; try discriminate Q. destruct p; try destruct (n <? 2 ^ 63); discriminate Q. }
  assert (S : forall x r, x <> SErr EIO -> store_outcome x r <> SErr EIO) by (intros x [] Hx; try exact Hx; intro Q; discriminate Q).
  destruct o; cbn [spec_step snd] in A.
  - destruct (lookup c k); discriminate A.
  - discriminate A.
  - revert A. apply S. discriminate.
  - revert A. apply S. discriminate.
  - revert A. apply S. discriminate.
  - destruct (snd (cache_delete c k)); discriminate A.
  - unfold spec_delta in A. destruct pr, (lookup c k); cbn [snd] in A; try discriminate A; eapply D; exact A.
  - unfold spec_delta in A. destruct pr, (lookup c k); cbn [snd] in A; try discriminate A; eapply D; exact A.
  - destruct (snd (cache_touch c k expiration)); discriminate A.
  - discriminate A.
  - discriminate A.
Qed.
Theorem C17_cut_daemon_reply_is_an_error : forall pr name c h o rq c' reply pending,
  wf pr c -> c_cas c + 1 < cas_bound pr -> legal pr o -> safe pr (rq_cas h) c o ->
  fst (cl_req (client_of pr name) h o) = Ok rq ->
  daemon (cl_wire (client_of pr name)) c rq = (c', reply, pending) ->
  forall p q, reply = p ++ q -> q <> [] -> receive pr name o p = (Err EIO, []).
Proof.
  intros pr name c h o rq c' reply pending W C L S R D p q E Q.
  destruct (call_ok pr name c h o W C L S) as (h' & out & Ec & A & _).
  unfold call in Ec. cbn [fresh_link l_cache l_pending l_unread l_header app] in Ec. rewrite R in Ec. rewrite D in Ec.
  fold (receive pr name o) in Ec. destruct (receive pr name o reply) as [out' rest] eqn:X. cbn [fst snd] in Ec.
  apply (f_equal (fun x => (snd x, l_unread (fst x)))) in Ec. cbn in Ec. inversion Ec; subst out' rest. clear Ec.
  destruct (C17_every_cut_is_an_error pr name o reply out [] X (spec_not_io _ _ _ _ _ A)) as (u & Eu & P).
  rewrite app_nil_r in Eu. subst u. eapply P; eassumption.
Qed.
Print Assumptions C17_cut_daemon_reply_is_an_error.

(** The text client accepts an item or a list of items only with its terminator: the bytes it consumed
    end in END CR LF. *)
Lemma local_used : forall A (m : reader A) s a rest, local m -> m s = (Ok a, rest) -> exists u, s = u ++ rest.
Proof. intros A m s a rest L E. destruct (L s (Ok a) rest E ltac:(discriminate)) as (u & Eu & _). exists u. exact Eu. Qed.
Lemma slice_used : forall s b rest, read_slice s = (Ok b, rest) -> s = b ++ rest.
Proof.
  intros s b rest E. unfold read_slice in E. destruct (find_line s) as [[l r]|] eqn:F; [|destruct (buf_size <=? zlen s); discriminate E].
  destruct (zlen l <=? buf_size); [|discriminate E]. inversion E; subst. apply find_line_some in F. tauto.
Qed.
Theorem C17_text_reads_to_the_terminator : forall name o s r rest, (exists k, o = OGet k) \/ (exists ks, o = OGetMulti ks) ->
  receive PText name o s = (Ok r, rest) -> exists u, s = u ++ (B "END" ++ eol) ++ rest.
Proof.
  intros name o s r rest [[k ->]|[ks ->]] E; unfold receive in E; cbn [client_of text_client cl_resp text_resp] in E.
  - unfold text_get_resp, rmap, bind in E. destruct (read_slice s) as [[b|e|] s1] eqn:X1; [|discriminate E|discriminate E]. apply slice_used in X1. subst s.
    destruct (beq b msg_end); [discriminate E|]. destruct (negb (has_prefix (B "VALUE") b)); [discriminate E|].
    destruct (fscanf_value (negb (count_sp b =? 3)) b) as [[[[key flags] size] cas]|]; [|discriminate E]. cbn [lift_opt] in E. unfold ret in E at 1.
    destruct (make_read_full (i64 (size + 2)) s1) as [[buf|e|] s2] eqn:X2; [|discriminate E|discriminate E].
    destruct (local_used _ _ _ _ _ (local_make_read _) X2) as [u2 ->].
    destruct (go_sub buf 0 size s2) as [[value|e|] s3] eqn:X3; [|discriminate E|discriminate E].
    destruct (local_used _ _ _ _ _ (local_sub _ _ _) X3) as [u3 ->].
    destruct (read_slice s3) as [[e|e|] s4] eqn:X4; [|discriminate E|discriminate E]. apply slice_used in X4. subst s3.
    destruct (beq e msg_end) eqn:Q; cbn [negb] in E; [|discriminate E]. apply beq_eq in Q. subst e. unfold ret in E. inversion E; subst.
    exists (b ++ u2 ++ u3). rewrite <- !app_assoc. reflexivity.
  - assert (G : forall f acc s l rest, text_values f acc s = Some (Ok l, rest) -> exists u, s = u ++ (B "END" ++ eol) ++ rest).
    { clear. induction f as [|f IH]; intros acc s l rest E; [discriminate E|]. cbn [text_values] in E.
      destruct (read_slice s) as [[b|e|] s1] eqn:X1; [|discriminate E|discriminate E]. apply slice_used in X1. subst s.
      destruct (beq b (B "END" ++ crlf)) eqn:Q.
      - apply beq_eq in Q. subst b. inversion E; subst. exists []. reflexivity.
      - destruct (text_value_block b s1) as [[i|e|] s2] eqn:X2; [|discriminate E|discriminate E].
        destruct (local_used _ _ _ _ _ (local_text_block b) X2) as [u2 ->]. destruct (IH _ _ _ _ E) as [u ->].
        exists (b ++ u2 ++ u). rewrite <- !app_assoc. reflexivity. }
    unfold rmap, bind, text_getmulti_resp in E. destruct (text_values (S (length s)) [] s) as [[[l|e|] s']|] eqn:X; try discriminate E.
    inversion E; subst. eapply G. exact X.
Qed.
Print Assumptions C17_text_reads_to_the_terminator.

Example C17_met : fst (receive PText [] (OGet (B "k")) (B "VALUE k 7 5 12" ++ crlf ++ B "hello" ++ crlf ++ B "END" ++ crlf))
    = Ok (RItem (mkItem (B "k") (B "hello") (Some (be 4 7)) 0 12 []))
  /\ receive PText [] (OGet (B "k")) (B "VALUE k 7 5 12" ++ crlf ++ B "hel") = (Err EIO, [])
  /\ receive PText [] (OGetMulti [B "k"; B "l"]) (B "VALUE k 7 5 12" ++ crlf ++ B "hello" ++ crlf) = (Err EIO, []).
Proof. vm_compute. auto. Qed.

(** ** C20 *)
Definition nopanic {A} (m : reader A) : Prop := forall s, fst (m s) <> Panic.
Lemma np_ret : forall A (a : A), nopanic (ret a). Proof. intros A a s. discriminate. Qed.
Lemma np_fail : forall A e, nopanic (@fail A e). Proof. intros A e s. discriminate. Qed.
Lemma np_bind : forall A C (m : reader A) (f : A -> reader C), nopanic m -> (forall a, nopanic (f a)) -> nopanic (bind m f).
Proof.
  intros A C m f Hm Hf s. unfold bind. specialize (Hm s). destruct (m s) as [[a|e|] s']; [apply Hf|discriminate|exfalso; apply Hm; reflexivity].
Qed.
Lemma np_if : forall A (b : bool) (m n : reader A), nopanic m -> nopanic n -> nopanic (if b then m else n).
Proof. intros A [] m n H1 H2; assumption. Qed.
Lemma np_rmap : forall A (f : A -> result) (m : reader A), nopanic m -> nopanic (rmap f m).
Proof. intros A f m H. apply np_bind; [exact H|intro; apply np_ret]. Qed.
Lemma np_slice : nopanic read_slice.
Proof. intro s. unfold read_slice. destruct (find_line s) as [[l r]|]; [destruct (zlen l <=? buf_size)|destruct (buf_size <=? zlen s)]; discriminate. Qed.
Lemma np_full : forall n, nopanic (read_full n).
Proof. intros n s. unfold read_full. destruct (n <=? zlen s); discriminate. Qed.
Lemma np_header : nopanic read_res_header.
Proof. apply np_bind; [apply np_full|]. intro b. apply np_if; [apply np_fail|apply np_ret]. Qed.
Lemma unbe4 : forall b, zlen b <= 4 -> 0 <= unbe b < 2 ^ 32.
Proof.
  intros b Z4. pose proof (unbe_range b) as R. pose proof (zlen_nonneg _ b).
  assert (2 ^ (8 * zlen b) <= 2 ^ 32) by (apply Z.pow_le_mono_r; lia). lia.
Qed.
(** A body length is an unsigned 32-bit number. *)
Lemma header_total : forall s h rest, read_res_header s = (Ok h, rest) -> 0 <= rs_total h < 2 ^ 32.
Proof.
  intros s h rest E. unfold read_res_header, bind, read_full in E. destruct (24 <=? zlen s) eqn:L; [|discriminate E].
  destruct (negb _); [discriminate E|]. unfold ret in E. inversion E; subst. cbn [rs_total].
  apply unbe4. unfold sub, zlen. rewrite firstn_length. lia.
Qed.
Lemma np_header_bind : forall A (f : res_header -> reader A),
  (forall h, 0 <= rs_total h < 2 ^ 32 -> nopanic (f h)) -> nopanic (h <- read_res_header ;; f h).
Proof.
  intros A f Hf s. unfold bind. destruct (read_res_header s) as [[h|e|] s'] eqn:E.
  - apply Hf. eapply header_total. exact E.
  - discriminate.
  - exfalso. apply (np_header s). rewrite E. reflexivity.
Qed.
Lemma np_make_read : forall n, 0 <= n < 2 ^ 32 -> nopanic (make_read_full n).
Proof.
  intros n T. unfold make_read_full, go_make. destruct (n <? 0) eqn:X; [apply Z.ltb_lt in X; lia|].
  destruct (max_alloc <? n) eqn:Y.
  - apply Z.ltb_lt in Y. unfold max_alloc in Y. assert (2 ^ 32 < 2 ^ 48) by reflexivity. lia.
  - cbn [orb]. apply np_bind; [apply np_ret|intro; apply np_full].
Qed.
Lemma np_bin_body : forall opc, nopanic (bin_body_resp opc).
Proof.
  intros opc. apply np_header_bind. intros h T. apply np_if; [apply np_fail|]. apply np_bind; [apply np_make_read; exact T|].
  intro. apply np_if; [apply np_fail|apply np_ret].
Qed.
Lemma np_bin_version : nopanic bin_version_resp.
Proof. apply np_header_bind. intros h T. apply np_if; [apply np_fail|apply np_make_read; exact T]. Qed.
Ltac np := repeat first [ apply np_header | apply np_slice | apply np_full | apply np_if | apply np_bind; [|intro] | apply np_ret | apply np_fail | apply np_slice | apply np_header ].

(** The operations whose reply parser can panic. *)
Definition can_panic (pr : proto) (o : op) : bool :=
  match o with
  | OGet _ | OGetMulti _ | OIncr _ _ _ | ODecr _ _ _ => true
  | OFlush => match pr with PBinary => false | _ => true end
  | _ => false
  end.

(** The full statement: no byte stream makes a call panic. *)
Definition C20_no_reply_panics : Prop := forall pr name o s, fst (receive pr name o s) <> Panic.

Theorem C20_no_reply_panics_partial : forall pr name o s, can_panic pr o = false -> fst (receive pr name o s) <> Panic.
Proof.
  intros pr name o s H. revert s. change (nopanic (receive pr name o)). unfold receive.
  destruct pr, o; try discriminate H; cbn [client_of text_client meta_client bin_client cl_resp text_resp meta_resp bin_resp]; unfold runit;
    apply np_rmap; try apply np_bin_body; try apply np_bin_version;
    unfold text_set_resp, text_add_resp, text_replace_resp, text_delete_resp, text_touch_resp, text_version_resp, meta_set_resp,
      meta_delete_resp, meta_touch_resp, bin_store_resp, bin_touch_resp, bin_flush_resp; np.
Qed.
Print Assumptions C20_no_reply_panics_partial.
Example C20_met : can_panic PMeta (OSet zero_item) = false /\ can_panic PBinary (ODelete []) = false /\ can_panic PText (OTouch [] 0) = false.
Proof. repeat split. Qed.

(** A byte stream that makes the call panic: a negative length, an empty line, a short body. *)
Definition crash (pr : proto) (o : op) : bytes :=
  match pr, o with
  | PText, OGet _ => B "VALUE k 0 -5" ++ crlf
  | PText, OGetMulti _ => B "VALUE k 0 -5" ++ crlf
  | PMeta, OGet _ | PMeta, OGetMulti _ => B "VA -5 t0" ++ crlf
  | PBinary, OGet _ => [byte_of 129; byte_of 0] ++ be 2 9 ++ be 2 0 ++ be 2 0 ++ be 4 0 ++ be 4 0 ++ be 8 0
  | PBinary, OGetMulti _ => [byte_of 129; byte_of 13] ++ be 2 9 ++ be 2 0 ++ be 2 0 ++ be 4 0 ++ be 4 0 ++ be 8 0
  | PBinary, OIncr _ _ _ => [byte_of 129; byte_of 5] ++ be 2 0 ++ be 2 0 ++ be 2 0 ++ be 4 0 ++ be 4 0 ++ be 8 0
  | PBinary, ODecr _ _ _ => [byte_of 129; byte_of 6] ++ be 2 0 ++ be 2 0 ++ be 2 0 ++ be 4 0 ++ be 4 0 ++ be 8 0
  | _, _ => [LF]
  end.
(** Every other operation can be made to panic. *)
Theorem C20_no_reply_panics_refuted : forall pr name o, can_panic pr o = true ->
  exists s, fst (receive pr name o s) = Panic.
Proof.
  intros pr name o H. exists (crash pr o). unfold receive. destruct pr, o; try discriminate H; reflexivity.
Qed.
Print Assumptions C20_no_reply_panics_refuted.
Theorem C20_refuted : ~ C20_no_reply_panics.
Proof.
  intro H. destruct (C20_no_reply_panics_refuted PText [] (OGet (B "k")) eq_refl) as [s E]. exact (H _ _ _ _ E).
Qed.
Print Assumptions C20_refuted.

(** Against a conforming memcached no call panics. *)
Theorem C20_conforming_server_never_panics : forall pr name c h o,
  wf pr c -> c_cas c + 1 < cas_bound pr -> legal pr o -> safe pr (rq_cas h) c o ->
  snd (call (client_of pr name) (fresh_link c h) o) <> Panic.
Proof.
  intros pr name c h o W C L S. destruct (call_ok pr name c h o W C L S) as (h' & out & Ec & A & _).
  rewrite Ec. cbn [snd]. intros ->. destruct (snd (spec_step pr name c o)); exact A.
Qed.
Print Assumptions C20_conforming_server_never_panics.

(** ** C57: no argument crashes the client, except flags (not nil) of fewer than four bytes. *)
Definition short_flags (i : item) : bool := match it_flags i with Some f => zlen f <? 4 | None => false end.
Definition crashing_arguments (pr : proto) (o : op) : bool :=
  match pr, o with
  | PMeta, OSet i | PBinary, OSet i | PBinary, OAdd i | PBinary, OReplace i => short_flags i
  | _, _ => false
  end.
Theorem C57_request_panics_exactly : forall pr name h o,
  fst (cl_req (client_of pr name) h o) = Panic <-> crashing_arguments pr o = true.
Proof.
  intros pr name h o. destruct pr, o; cbn [client_of text_client meta_client bin_client cl_req fst bin_req text_req meta_req crashing_arguments];
    try (split; discriminate); unfold meta_set_req, bin_store_req, bin_incr_req, bin_touch_req, short_flags; cbn [fst snd];
    try (split; discriminate); destruct (it_flags i) as [f|]; try (split; intro Q; discriminate Q); destruct (zlen f <? 4); split; intro Q; try discriminate Q; reflexivity.
Qed.
Print Assumptions C57_request_panics_exactly.
Theorem C57_no_argument_panics_partial : forall pr name h o, legal pr o -> fst (cl_req (client_of pr name) h o) <> Panic.
Proof.
  intros pr name h o L E. apply C57_request_panics_exactly in E.
  assert (G : forall i, legal_flags pr i -> short_flags i = true -> False).
  { intros i F H. unfold legal_flags, short_flags in *. destruct (it_flags i) as [f|]; [|discriminate H].
    destruct F as [F _]. unfold zlen in H. rewrite F in H. discriminate H. }
  destruct pr, o; cbn [crashing_arguments] in E; try discriminate E; cbn [legal] in L; unfold legal_item in L; eapply G; try exact E; tauto.
Qed.
Print Assumptions C57_no_argument_panics_partial.
Theorem C57_no_argument_panics_refuted : ~ forall pr name h o, fst (cl_req (client_of pr name) h o) <> Panic.
Proof. intro H. apply (H PMeta [] reset_header (OSet (mkItem (B "k") (B "v") (Some [LF]) 0 0 []))). reflexivity. Qed.
Print Assumptions C57_no_argument_panics_refuted.
Example C57_met : legal PBinary (OSet (mkItem (B "k") (B "v") (Some (be 4 7)) 0 0 []))
  /\ crashing_arguments PBinary (OSet (mkItem (B "k") (B "v") (Some (be 4 7)) 0 0 [])) = false
  /\ crashing_arguments PBinary (OAdd (mkItem (B "k") (B "v") (Some (be 3 7)) 0 0 [])) = true /\ crashing_arguments PText (OAdd (mkItem (B "k") (B "v") (Some (be 3 7)) 0 0 [])) = false.
Proof. split; [|repeat split]. split; [split; [cbn; lia|exact Logic.I]|]. split; [split; [reflexivity|intro; discriminate]|]. cbn; repeat split; lia. Qed.

(** ** C22 *)
(** The positive acknowledgement of a mutation: the exact line of the classic protocol; a line whose
    status code is HD for the meta commands; a response packet with the operation's opcode and status
    0 (bytes 6 and 7) for the binary protocol. *)
Definition mutation (o : op) : bool :=
  match o with OSet _ | OAdd _ | OReplace _ | ODelete _ | OTouch _ _ | OFlush => true | _ => false end.
Definition classic_ack (o : op) : bytes :=
  match o with
  | ODelete _ => B "DELETED" ++ eol
  | OTouch _ _ => B "TOUCHED" ++ eol
  | OFlush => B "OK" ++ eol
  | _ => B "STORED" ++ eol
  end.
Definition opcode_of (o : op) : Z :=
  match o with
  | OSet _ => 1 | OAdd _ => 2 | OReplace _ => 3 | ODelete _ => 4 | OTouch _ _ => 28 | OFlush => 8 | _ => 0
  end.
Definition acknowledged (pr : proto) (o : op) (s : bytes) : Prop :=
  match pr, o with
  | PText, _ | PMeta, OAdd _ | PMeta, OReplace _ | PMeta, OFlush => exists t, s = classic_ack o ++ t
  | PMeta, _ => exists t, s = B "HD" ++ t
  | PBinary, _ => 24 <= zlen s /\ num_at s 0 1 = 129 /\ num_at s 1 1 = opcode_of o /\ num_at s 6 2 = 0
  end.
(** The full statement. *)
Definition C22_only_if_confirmed (pr : proto) (o : op) : Prop := forall name s r rest,
  receive pr name o s = (Ok r, rest) -> acknowledged pr o s.
(** The mutations for which it holds. *)
Definition confirmed_only (pr : proto) (o : op) : bool :=
  match pr, o with
  | PText, ODelete _ | PText, OTouch _ _ | PMeta, ODelete _ | PBinary, OTouch _ _ | PBinary, OFlush => false
  | _, _ => mutation o
  end.

Lemma slice_app : forall s b rest, read_slice s = (Ok b, rest) -> s = b ++ rest.
Proof.
  intros s b rest E. unfold read_slice in E. destruct (find_line s) as [[l r]|] eqn:F; [|destruct (buf_size <=? zlen s); discriminate E].
  destruct (zlen l <=? buf_size); [|discriminate E]. inversion E; subst. apply find_line_some in F. tauto.
Qed.
Lemma line_resp : forall (f : bytes -> reader unit) s r rest, runit (b <- read_slice ;; f b) s = (Ok r, rest) ->
  exists b s', s = b ++ s' /\ exists u, f b s' = (Ok u, rest).
Proof.
  intros f s r rest E. unfold runit, rmap, bind in E. destruct (read_slice s) as [[b|e|] s'] eqn:X; [|discriminate E|discriminate E].
  exists b, s'. split; [apply slice_app; exact X|]. destruct (f b s') as [[u|e|] s'']; [|discriminate E|discriminate E].
  exists u. unfold ret in E. inversion E; subst. reflexivity.
Qed.
Lemma header_fields : forall s h rest, read_res_header s = (Ok h, rest) -> 24 <= zlen s
  /\ num_at s 0 1 = 129 /\ num_at s 1 1 = rs_opcode h /\ num_at s 6 2 = rs_status h.
Proof.
  intros s h rest E. unfold read_res_header, bind, read_full in E. destruct (24 <=? zlen s) eqn:L; [|discriminate E].
  apply Z.leb_le in L. split; [exact L|].
  destruct (byte_at (firstn (Z.to_nat 24) s) 0 =? magic_response) eqn:M; cbn [negb] in E; [|discriminate E]. apply Z.eqb_eq in M.
  unfold ret in E. inversion E; subst. cbn [rs_opcode rs_status]. clear E.
  assert (E : exists a b, s = a ++ b /\ length a = 24%nat).
  { exists (firstn 24 s), (skipn 24 s). split; [symmetry; apply firstn_skipn|]. rewrite firstn_length. unfold zlen in L. lia. }
  destruct E as (a & b & -> & La). change (Z.to_nat 24) with 24%nat in *. rewrite <- La in *. rewrite firstn_app_exact in *.
  do 24 (destruct a as [|? a]; [discriminate La|]). destruct a; [|discriminate La]. clear L La. cbn in M.
  unfold num_at, sub, byte_at. cbn. unfold unbe. cbn [fold_left]. unfold magic_response in M.
  repeat split; try lia. exact M.
Qed.

Theorem C22_only_if_confirmed_partial : forall pr o, confirmed_only pr o = true -> C22_only_if_confirmed pr o.
Proof.
  intros pr o H name s r rest E. unfold receive in E.
  destruct pr, o; try discriminate H; cbn [client_of text_client meta_client bin_client cl_resp text_resp meta_resp bin_resp] in E;
    cbn [acknowledged opcode_of].
  (* text *)
  1-4: unfold text_set_resp, text_add_resp, text_replace_resp, text_flush_resp in E; apply line_resp in E;
    destruct E as (b & s' & -> & u & E); exists s'; f_equal; revert E.
  - destruct (beq b msg_stored) eqn:Q; [intros _; apply beq_eq in Q; exact Q|]. destruct (beq b msg_exists); discriminate.
  - destruct (beq b msg_stored) eqn:Q; [intros _; apply beq_eq in Q; exact Q|discriminate].
  - destruct (beq b msg_stored) eqn:Q; [intros _; apply beq_eq in Q; exact Q|discriminate].
  - destruct (beq b msg_ok) eqn:Q; [intros _; apply beq_eq in Q; exact Q|].
    unfold bind. destruct (go_sub b 0 (zlen b - 2) s') as [[m|e|] s'']; discriminate.
  (* meta *)
  - unfold meta_set_resp in E. apply line_resp in E. destruct E as (b & s' & -> & u & E).
    destruct (has_prefix meta_hd b) eqn:Q; [apply has_prefix_spec in Q; destruct Q as [t ->]; exists (t ++ s'); rewrite <- app_assoc; reflexivity|].
    destruct (has_prefix meta_ns b); [discriminate E|]. destruct (has_prefix meta_ex b); [discriminate E|]. destruct (has_prefix meta_nf b); discriminate E.
  - unfold text_add_resp in E. apply line_resp in E. destruct E as (b & s' & -> & u & E); exists s'; f_equal; revert E.
    destruct (beq b msg_stored) eqn:Q; [intros _; apply beq_eq in Q; exact Q|discriminate].
  - unfold text_replace_resp in E. apply line_resp in E. destruct E as (b & s' & -> & u & E); exists s'; f_equal; revert E.
    destruct (beq b msg_stored) eqn:Q; [intros _; apply beq_eq in Q; exact Q|discriminate].
  - unfold meta_touch_resp in E. apply line_resp in E. destruct E as (b & s' & -> & u & E).
    destruct (has_prefix meta_hd b) eqn:Q; [apply has_prefix_spec in Q; destruct Q as [t ->]; exists (t ++ s'); rewrite <- app_assoc; reflexivity|discriminate E].
  - unfold text_flush_resp in E. apply line_resp in E. destruct E as (b & s' & -> & u & E); exists s'; f_equal; revert E.
    destruct (beq b msg_ok) eqn:Q; [intros _; apply beq_eq in Q; exact Q|].
    unfold bind. destruct (go_sub b 0 (zlen b - 2) s') as [[m|e|] s'']; discriminate.
  (* binary *)
  - unfold runit, rmap, bin_store_resp, bind in E. destruct (read_res_header s) as [[h|e|] s'] eqn:X; [|discriminate E|discriminate E].
    apply header_fields in X. destruct X as (X1 & X2 & X3 & X4). repeat split; try assumption.
    + rewrite X3. destruct (rs_opcode h =? op_set) eqn:Q; [apply Z.eqb_eq in Q; exact Q|discriminate E].
    + rewrite X4. destruct (rs_opcode h =? op_set); [|discriminate E]. destruct (rs_status h =? 0) eqn:Q; [apply Z.eqb_eq in Q; exact Q|discriminate E].
  - unfold runit, rmap, bin_store_resp, bind in E. destruct (read_res_header s) as [[h|e|] s'] eqn:X; [|discriminate E|discriminate E].
    apply header_fields in X. destruct X as (X1 & X2 & X3 & X4). repeat split; try assumption.
    + rewrite X3. destruct (rs_opcode h =? op_add) eqn:Q; [apply Z.eqb_eq in Q; exact Q|discriminate E].
    + rewrite X4. destruct (rs_opcode h =? op_add); [|discriminate E]. destruct (rs_status h =? 0) eqn:Q; [apply Z.eqb_eq in Q; exact Q|discriminate E].
  - unfold runit, rmap, bin_body_resp, bind in E. destruct (read_res_header s) as [[h|e|] s'] eqn:X; [|discriminate E|discriminate E].
    apply header_fields in X. destruct X as (X1 & X2 & X3 & X4). repeat split; try assumption.
    + rewrite X3. destruct (rs_opcode h =? op_replace) eqn:Q; [apply Z.eqb_eq in Q; exact Q|discriminate E].
    + rewrite X4. destruct (rs_opcode h =? op_replace); [|discriminate E]. cbn [negb] in E.
      destruct (make_read_full (rs_total h) s') as [[x|e|] s'']; [|discriminate E|discriminate E].
      destruct (rs_status h =? 0) eqn:Q; [apply Z.eqb_eq in Q; exact Q|discriminate E].
  - unfold runit, rmap, bin_body_resp, bind in E. destruct (read_res_header s) as [[h|e|] s'] eqn:X; [|discriminate E|discriminate E].
    apply header_fields in X. destruct X as (X1 & X2 & X3 & X4). repeat split; try assumption.
    + rewrite X3. destruct (rs_opcode h =? op_delete) eqn:Q; [apply Z.eqb_eq in Q; exact Q|discriminate E].
    + rewrite X4. destruct (rs_opcode h =? op_delete); [|discriminate E]. cbn [negb] in E.
      destruct (make_read_full (rs_total h) s') as [[x|e|] s'']; [|discriminate E|discriminate E].
      destruct (rs_status h =? 0) eqn:Q; [apply Z.eqb_eq in Q; exact Q|discriminate E].
Qed.
Print Assumptions C22_only_if_confirmed_partial.

Example C22_met : fst (receive PText [] (OSet zero_item) (B "STORED" ++ eol)) = Ok RUnit
  /\ confirmed_only PText (OSet zero_item) = true
  /\ fst (receive PBinary [] (ODelete []) (packet 4 0 9 [] [] [])) = Ok RUnit /\ confirmed_only PBinary (ODelete []) = true.
Proof. vm_compute. auto. Qed.

(** For the calls outside [confirmed_only], exactly when they report success: the text client's Delete
    and Touch on every line but NOT_FOUND, the meta Delete on HD and NF, the binary Touch on every
    response packet of status 0, of whatever opcode, the binary Flush on every response packet of its
    opcode, of whatever status. *)
Definition not_refused (pr : proto) (o : op) (s : bytes) : Prop :=
  match pr, o with
  | PText, _ => exists l t, s = l ++ LF :: t /\ ~ In LF l /\ zlen l < 4096 /\ l <> B "NOT_FOUND" ++ [CR]
  | PMeta, _ => exists l t, s = l ++ LF :: t /\ ~ In LF l /\ zlen l < 4096 /\ (exists u, l = B "HD" ++ u \/ l = B "NF" ++ u)
  | PBinary, OTouch _ _ => 24 <= zlen s /\ num_at s 0 1 = 129 /\ num_at s 6 2 = 0
  | PBinary, _ => 24 <= zlen s /\ num_at s 0 1 = 129 /\ num_at s 1 1 = opcode_of o
  end.
Lemma find_line_iff : forall s b t, find_line s = Some (b, t) <-> exists l, b = l ++ [LF] /\ s = l ++ LF :: t /\ ~ In LF l.
Proof.
  induction s as [|c s IH]; intros b t; cbn [find_line].
  - split; [discriminate|]. intros (l & _ & E & _). destruct l; discriminate E.
  - destruct (Ascii.eqb_spec c LF) as [->|N].
    + split.
      * intro E. injection E as <- <-. exists []. repeat split. intros [].
      * intros (l & -> & E & Nl). destruct l as [|x l]; [injection E as ->; reflexivity|]. injection E as <- E. exfalso. apply Nl. left. reflexivity.
    + split.
      * destruct (find_line s) as [[l r]|] eqn:F; [|discriminate]. intro E. injection E as <- <-. destruct (proj1 (IH l r) eq_refl) as (l' & -> & -> & Nl).
        exists (c :: l'). repeat split. intros [->|H]; [congruence|exact (Nl H)].
      * intros (l & -> & E & Nl). destruct l as [|x l]; [injection E as -> _; congruence|]. injection E as <- E.
        rewrite (proj2 (IH (l ++ [LF]) t)); [reflexivity|]. exists l. repeat split; [exact E|]. intro H. apply Nl. right. exact H.
Qed.
Lemma line_read_iff : forall s b t, read_slice s = (Ok b, t) <-> exists l, b = l ++ [LF] /\ s = l ++ LF :: t /\ ~ In LF l /\ zlen l < 4096.
Proof.
  intros s b t. unfold read_slice. split.
  - destruct (find_line s) as [[l r]|] eqn:F; [|destruct (buf_size <=? zlen s); discriminate]. destruct (Z.leb_spec (zlen l) buf_size) as [L|L]; [|discriminate].
    intro E. injection E as -> ->. apply find_line_iff in F. destruct F as (l & -> & -> & Nl). exists l. repeat split; [exact Nl|]. rewrite zlen_app in L. change (zlen [LF]) with 1 in L. unfold buf_size in L. lia.
  - intros (l & -> & -> & Nl & Ll). rewrite (proj2 (find_line_iff (l ++ LF :: t) (l ++ [LF]) t)) by (exists l; repeat split; exact Nl).
    destruct (Z.leb_spec (zlen (l ++ [LF])) buf_size) as [L|L]; [reflexivity|]. rewrite zlen_app in L. change (zlen [LF]) with 1 in L. unfold buf_size in L. lia.
Qed.
Lemma header_ok : forall s, 24 <= zlen s -> num_at s 0 1 = 129 -> exists h rest, read_res_header s = (Ok h, rest).
Proof.
  intros s L M. unfold read_res_header, bind, read_full. destruct (Z.leb_spec 24 (zlen s)) as [_|Q]; [|lia].
  assert (E : byte_at (firstn (Z.to_nat 24) s) 0 = magic_response).
  { destruct s as [|x s]; [discriminate M|]. change (0 * 256 + code x = 129) in M. change (code x = 129). lia. }
  rewrite E, Z.eqb_refl. cbn [negb]. eexists. eexists. reflexivity.
Qed.
Theorem C22_success_exactly : forall pr o name s, mutation o = true -> confirmed_only pr o = false ->
  (exists r rest, receive pr name o s = (Ok r, rest)) <-> not_refused pr o s.
Proof.
  intros pr o name s M H. unfold receive.
  destruct pr, o; try discriminate M; try discriminate H; cbn [client_of text_client meta_client bin_client cl_resp text_resp meta_resp bin_resp];
    cbn [not_refused opcode_of]; unfold text_delete_resp, text_touch_resp, meta_delete_resp.
  1-3: split;
    [intros (r & rest & E); unfold runit, rmap, bind in E; destruct (read_slice s) as [[b|e|] s'] eqn:X; [|discriminate E|discriminate E];
     apply line_read_iff in X; destruct X as (l & -> & -> & Nl & Ll); exists l, s'; split; [reflexivity|split; [exact Nl|split; [exact Ll|]]]
    |intros (l & t & -> & Nl & Ll & Q); unfold runit, rmap, bind; rewrite (proj2 (line_read_iff (l ++ LF :: t) (l ++ [LF]) t)) by (exists l; repeat split; assumption)].
  - intros ->. discriminate E.
  - destruct (beq (l ++ [LF]) msg_deleted); [eexists; eexists; reflexivity|]. destruct (beq (l ++ [LF]) msg_not_found) eqn:Z; [|eexists; eexists; reflexivity].
    exfalso. apply beq_eq in Z. apply Q. change msg_not_found with ((B "NOT_FOUND" ++ [CR]) ++ [LF]) in Z. apply app_inj_tail in Z. tauto.
  - intros ->. discriminate E.
  - destruct (beq (l ++ [LF]) msg_touched); [eexists; eexists; reflexivity|]. destruct (beq (l ++ [LF]) msg_not_found) eqn:Z; [|eexists; eexists; reflexivity].
    exfalso. apply beq_eq in Z. apply Q. change msg_not_found with ((B "NOT_FOUND" ++ [CR]) ++ [LF]) in Z. apply app_inj_tail in Z. tauto.
  - assert (P : forall a b, (a = "H"%char \/ a = "N"%char) -> (b = "D"%char \/ b = "F"%char) -> has_prefix [a; b] (l ++ [LF]) = true -> exists u, l = [a; b] ++ u).
    { intros a b Ha Hb P. apply has_prefix_spec in P. destruct P as [t P]. destruct l as [|x [|y l]].
      - destruct t; discriminate P.
      - cbn in P. injection P as -> <- _. destruct Hb as [Hb|Hb]; discriminate Hb.
      - cbn in P. injection P as -> -> _. exists l. reflexivity. }
    destruct (has_prefix meta_hd (l ++ [LF])) eqn:P1; [destruct (P "H"%char "D"%char ltac:(auto) ltac:(auto) P1) as [u ->]; exists u; left; reflexivity|].
    destruct (has_prefix meta_nf (l ++ [LF])) eqn:P2; [destruct (P "N"%char "F"%char ltac:(auto) ltac:(auto) P2) as [u ->]; exists u; right; reflexivity|].
    destruct (has_prefix meta_ex (l ++ [LF])); discriminate E.
  - destruct Q as [u [-> | ->]]; cbn; eexists; eexists; reflexivity.
  - split.
    + intros (r & rest & E). unfold runit, rmap, bin_touch_resp, bind in E. destruct (read_res_header s) as [[h|e|] s'] eqn:X; [|discriminate E|discriminate E].
      apply header_fields in X. destruct X as (X1 & X2 & X3 & X4). rewrite X4. destruct (Z.eqb_spec (rs_status h) 0) as [Q|Q]; [auto|discriminate E].
    + intros (L & Mg & St). destruct (header_ok s L Mg) as (h & rest & X). unfold runit, rmap, bin_touch_resp, bind. rewrite X.
      apply header_fields in X. destruct X as (_ & _ & _ & X4). rewrite <- X4, St. eexists; eexists; reflexivity.
  - split.
    + intros (r & rest & E). unfold runit, rmap, bin_flush_resp, bind in E. destruct (read_res_header s) as [[h|e|] s'] eqn:X; [|discriminate E|discriminate E].
      apply header_fields in X. destruct X as (X1 & X2 & X3 & X4). rewrite X3. destruct (Z.eqb_spec (rs_opcode h) op_flush) as [Q|Q]; [auto|discriminate E].
    + intros (L & Mg & St). destruct (header_ok s L Mg) as (h & rest & X). unfold runit, rmap, bin_flush_resp, bind. rewrite X.
      apply header_fields in X. destruct X as (_ & _ & X3 & _). rewrite <- X3, St. eexists; eexists; reflexivity.
Qed.
Print Assumptions C22_success_exactly.

(** A reply that is not the acknowledgement and is nevertheless reported as success. *)
Definition false_ack (pr : proto) (o : op) : bytes :=
  match pr, o with
  | PMeta, _ => B "NF" ++ eol
  | PBinary, OTouch _ _ => packet 11 0 0 [] [] []
  | PBinary, _ => packet 8 4 0 [] [] []
  | _, _ => B "SERVER_ERROR out of memory" ++ eol
  end.
Theorem C22_only_if_confirmed_refuted : forall pr o, mutation o = true -> confirmed_only pr o = false ->
  ~ C22_only_if_confirmed pr o.
Proof.
  intros pr o M H X. destruct pr, o; try discriminate M; try discriminate H;
    match goal with |- False => match type of X with C22_only_if_confirmed ?p ?o => specialize (X [] (false_ack p o) _ _ eq_refl) end end;
    cbn [acknowledged classic_ack opcode_of false_ack] in X.
  - destruct X as [t X]. discriminate X.
  - destruct X as [t X]. discriminate X.
  - destruct X as [t X]. discriminate X.
  - destruct X as (_ & _ & X & _). discriminate X.
  - destruct X as (_ & _ & _ & X). discriminate X.
Qed.
Print Assumptions C22_only_if_confirmed_refuted.
