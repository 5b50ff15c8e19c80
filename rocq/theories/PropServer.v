(** * Properties C34, C35, C36, C37, C39, C40, C41: the server package. *)
From Verif Require Import GoBytes GoNum GoIO Item ClientText ClientMeta ClientBinary Cache Spec Call Guard
  ServerTypes ServerParse ServerWrite Serve ServerSpec PLib PCache PText PReader PBinary PServer PServe PReply.
From Verif Require PClient.
Local Open Scope Z_scope.

(** ** C34 *)
(** The full property is this without [supported]; the next theorems show what is missing. *)
Theorem C34_request_is_delivered_partial : forall pr name h o rq,
  legal pr o -> supported pr o -> fst (cl_req (client_of pr name) h o) = Ok rq ->
  forall p rest, p = None \/ p = Some (proto_of pr) ->
  exists qs, reads p (rq ++ rest) qs (Some (proto_of pr)) rest /\ map understood qs = intended pr o.
Proof.
  intros pr name h o rq L S R p rest P. destruct (request_delivered pr name h o rq L S R p rest P) as (qs & Rd & U & _). exists qs. split; assumption.
Qed.
Print Assumptions C34_request_is_delivered_partial.

(** Every legal text call the server does not support is refused before the handler sees it. *)
Theorem C34_unsupported_text_is_refused : forall name h o rq,
  legal PText o -> ~ supported PText o -> fst (cl_req (client_of PText name) h o) = Ok rq ->
  forall p rest, p = None \/ p = Some ProtoAscii ->
  exists e s, read_request p (rq ++ rest) = ((Err e, s), Some ProtoAscii).
Proof.
  intros name h o rq L S R p rest P. cbn [client_of text_client cl_req fst] in R.
  assert (G : forall ws tail, ws <> [] -> Forall word ws -> rq = join_sp ws ++ crlf ++ tail ->
      (match rq with [] => False | c :: _ => code c <> 128 end) -> (exists e s, ascii_command ws (tail ++ rest) = (Err e, s)) ->
      exists e s, read_request p (rq ++ rest) = ((Err e, s), Some ProtoAscii)).
  { intros ws tail N F E C (e & s & X). exists e, s.
    assert (Y : read_ascii_request (rq ++ rest) = (Err e, s)) by (rewrite E, <- !app_assoc, ascii_words by assumption; exact X).
    destruct P as [-> | ->]; cbn [read_request]; [|rewrite Y; reflexivity].
    destruct rq as [|c b]; [contradiction|]. cbn [app]. cbn [app] in Y. destruct (code c =? magic_request) eqn:Q; [apply Z.eqb_eq in Q; contradiction|].
    rewrite Y. reflexivity. }
  assert (KW : forall k, legal_key PText k -> word k).
  { intros k K. apply (legal_key_props k K). }
  assert (ST : forall cmd i, (cmd = B "set" \/ cmd = B "add" \/ cmd = B "replace") -> legal_item PText i -> 2 ^ 31 <= item_flags i ->
      Ok (text_store_req cmd i) = Ok rq -> exists e s, read_request p (rq ++ rest) = ((Err e, s), Some ProtoAscii)).
  { intros cmd i C LI F Rq. assert (Er : rq = text_store_req cmd i) by (injection Rq; auto). destruct LI as (K & Fl & _).
    assert (Tf : text_flags i = item_flags i).
    { unfold text_flags, item_flags, legal_flags in *. destruct (it_flags i) as [f|]; [|reflexivity]. unfold zlen. destruct Fl as [-> _]. reflexivity. }
    apply (G [cmd; it_key i; dec (item_flags i); dec (it_exp i); dec (zlen (it_value i))] (it_value i ++ crlf)).
    - discriminate.
    - words; [|exact (KW _ K)]. destruct C as [->|[->| ->]]; apply wordb_word; reflexivity.
    - rewrite Er. unfold text_store_req. rewrite Tf. cbn [join_sp]. repeat (rewrite <- app_assoc; cbn [app]). reflexivity.
    - rewrite Er. destruct C as [->|[->| ->]]; cbn; discriminate.
    - eexists EParse, _. unfold ascii_command.
      replace (beq cmd (B "get")) with false by (destruct C as [->|[->| ->]]; reflexivity).
      replace (beq cmd (B "gets")) with false by (destruct C as [->|[->| ->]]; reflexivity).
      replace (beq cmd (B "set") || beq cmd (B "add") || beq cmd (B "replace")) with true by (destruct C as [->|[->| ->]]; reflexivity).
      rewrite (parse_int_dec_big 32) by (change (2 ^ (32 - 1)) with (2 ^ 31); lia). reflexivity. }
  assert (DT : forall cmd k d, (cmd = B "incr" \/ cmd = B "decr") -> legal_key PText k -> 2 ^ 31 <= d ->
      Ok (cmd ++ B " " ++ k ++ B " " ++ dec d ++ crlf) = Ok rq -> exists e s, read_request p (rq ++ rest) = ((Err e, s), Some ProtoAscii)).
  { intros cmd k d C K D Rq. assert (Er : rq = cmd ++ B " " ++ k ++ B " " ++ dec d ++ crlf) by (injection Rq; auto).
    apply (G [cmd; k; dec d] []).
    - discriminate.
    - words; [|exact (KW _ K)]. destruct C as [->| ->]; apply wordb_word; reflexivity.
    - rewrite Er. cbn [join_sp]. rewrite app_nil_r. repeat (rewrite <- app_assoc; cbn [app]). reflexivity.
    - rewrite Er. destruct C as [->| ->]; cbn; discriminate.
    - eexists EParse, _. unfold ascii_command.
      rewrite (parse_int_dec_big 32) by (change (2 ^ (32 - 1)) with (2 ^ 31); lia).
      destruct C as [->| ->]; reflexivity. }
  destruct o; cbn [supported legal text_req] in *; try (exfalso; apply S; exact I).
  - unfold text_set_req in R. destruct (0 <? it_cas i) eqn:C.
    + assert (Er : rq = B "cas " ++ it_key i ++ B " " ++ dec (text_flags i) ++ B " " ++ dec (it_exp i)
    ++ B " " ++ dec (zlen (it_value i)) ++ B " " ++ dec (it_cas i) ++ crlf ++ it_value i ++ crlf) by (injection R; auto).
      apply (G [B "cas"; it_key i; dec (text_flags i); dec (it_exp i); dec (zlen (it_value i)); dec (it_cas i)] (it_value i ++ crlf)).
      * discriminate.
      * words. apply KW. exact (proj1 L).
      * rewrite Er. cbn [join_sp]. repeat (rewrite <- app_assoc; cbn [app]). reflexivity.
      * rewrite Er. cbn. discriminate.
      * eexists _, _. reflexivity.
    + apply Z.ltb_ge in C. destruct L as (K & Fl & Ex & Ca & V). apply (ST (B "set") i); [left; reflexivity|repeat (split; [assumption|]); assumption| |exact R].
      destruct (Z_lt_dec (item_flags i) (2 ^ 31)); [|lia]. exfalso. apply S. split; [lia|assumption].
  - destruct L as [L _]. apply (ST (B "add") i); [right; left; reflexivity|exact L|lia|exact R].
  - destruct L as [L _]. apply (ST (B "replace") i); [right; right; reflexivity|exact L|lia|exact R].
  - destruct L as [L _]. apply (DT (B "incr") k delta); [left; reflexivity|exact L|lia|exact R].
  - destruct L as [L _]. apply (DT (B "decr") k delta); [right; reflexivity|exact L|lia|exact R].
Qed.
Print Assumptions C34_unsupported_text_is_refused.

(** The full property fails: a text compare-and-swap, a text set with flags 2^31, a text increment by
    2^31 and a meta touch close the connection; a binary compare-and-swap reaches the handler without
    its cas number, so a handler cannot refuse it. *)
Definition c34_cas_item : item := mkItem (B "k") (B "v") None 0 7 [].
Definition c34_flag_item : item := mkItem (B "k") (B "v") (Some (be 4 (2 ^ 31))) 0 0 [].
Definition closes (pr : proto) (o : op) : Prop :=
  exists rq e s, fst (cl_req (client_of pr []) reset_header o) = Ok rq
    /\ read_request None rq = ((Err e, s), Some (proto_of pr)).
Theorem C34_request_is_delivered_refuted :
  (legal PText (OSet c34_cas_item) /\ closes PText (OSet c34_cas_item))
  /\ (legal PText (OSet c34_flag_item) /\ closes PText (OSet c34_flag_item))
  /\ (legal PText (OIncr (B "k") (2 ^ 31) 0) /\ closes PText (OIncr (B "k") (2 ^ 31) 0))
  /\ (legal PMeta (OTouch (B "k") 60) /\ closes PMeta (OTouch (B "k") 60))
  /\ (legal PBinary (OSet c34_cas_item) /\
      exists rq q, fst (cl_req (client_of PBinary []) reset_header (OSet c34_cas_item)) = Ok rq
        /\ read_request None rq = ((Ok q, []), Some ProtoBinary) /\ w_cas (understood q) = 0).
Proof.
  assert (K : forall pr, legal_key pr (B "k")).
  { intro pr. apply PClient.legal_keyb_ok. destruct pr; reflexivity. }
  assert (Li : forall pr, legal_item pr c34_cas_item) by (intro pr; split; [apply K|]; split; [exact I|]; split; [destruct pr; unfold legal_exp; cbn [it_exp c34_cas_item]; lia|]; split; [cbn [it_cas c34_cas_item]; lia|cbn [it_value c34_cas_item]; change (zlen (B "v")) with 1; lia]).
  assert (Lf : legal_item PText c34_flag_item) by (split; [apply K|]; split; [split; [reflexivity|discriminate]|]; split; [unfold legal_exp; cbn [it_exp c34_flag_item]; lia|]; split; [cbn [it_cas c34_flag_item]; lia|cbn [it_value c34_flag_item]; change (zlen (B "v")) with 1; lia]).
  split; [split; [apply Li|]|split; [split; [exact Lf|]|split; [split; [split; [apply K|split; [lia|discriminate]]|]|split; [split; [split; [apply K|unfold legal_exp; lia]|]|split; [apply Li|]]]]].
  - eexists _, _, _. split; [vm_compute; reflexivity|vm_compute; reflexivity].
  - eexists _, _, _. split; [vm_compute; reflexivity|vm_compute; reflexivity].
  - eexists _, _, _. split; [vm_compute; reflexivity|vm_compute; reflexivity].
  - eexists _, _, _. split; [vm_compute; reflexivity|vm_compute; reflexivity].
  - eexists _, _. split; [vm_compute; reflexivity|]. split; [vm_compute; reflexivity|vm_compute; reflexivity].
Qed.
Print Assumptions C34_request_is_delivered_refuted.

Example C34_met : legal PText (OSet (mkItem (B "k") (B "v") (Some (be 4 7)) 60 0 []))
  /\ supported PText (OSet (mkItem (B "k") (B "v") (Some (be 4 7)) 60 0 []))
  /\ fst (read_request None (B "set k 7 60 1" ++ crlf ++ B "v" ++ crlf ++ B "gets k"))
     = (Ok (mkReq OpcSet (B "k") [] (Some (be 4 7)) (B "v") 0 None (Some (exp_opt 60)) None), B "gets k").
Proof.
  split; [|split; [split; [reflexivity|vm_compute; reflexivity]|vm_compute; reflexivity]].
  split; [apply PClient.legal_keyb_ok; reflexivity|]. split; [split; [reflexivity|discriminate]|]. split; [unfold legal_exp; cbn [it_exp]; lia|]. split; [cbn [it_cas]; lia|]. cbn [it_value]. change (zlen (B "v")) with 1. lia.
Qed.

(** ** C35 *)
(** Whatever the handler: on a connection that carries any well-formed requests back to back and then
    [tail], the handler sees exactly these requests, once each, in order, the replies are the ones
    written for its answers in that order ([serve_list]), and serving goes on with [tail] unless the
    handler ended the connection. *)
Theorem C35_pipelined_requests_in_order : forall H (h : handler H) st p msgs tail,
  Forall (fun m => exactly p (fst m) (snd m)) msgs ->
  (exists c s, flat_map fst msgs ++ tail = c :: s /\ announced c = p) ->
  serve_conn h st (flat_map fst msgs ++ tail) = then_serve h p (serve_list h p st (map snd msgs)) tail.
Proof.
  intros H h st p msgs tail F (c & s & E & A). rewrite E, serve_conn_as, A, <- E. apply serve_pieces. exact F.
Qed.
Print Assumptions C35_pipelined_requests_in_order.

(** Conversely: whatever a connection carries, the requests its handler saw are the first requests of
    the stream, in order and without gaps. *)
Theorem C35_only_requests_of_the_stream : forall H (h : handler H) st c s,
  exists msgs tail, c :: s = flat_map fst msgs ++ tail
    /\ Forall (fun m => exactly (announced c) (fst m) (snd m)) msgs
    /\ map sd_req (snd (fst (serve_conn h st (c :: s)))) = map snd msgs.
Proof.
  intros H h st c s. rewrite serve_conn_as. unfold serve_rest.
  destruct (serve_decompose H h (announced c) (S (length (c :: s))) st (c :: s) ltac:(lia)) as (msgs & tail & E & F & M & _).
  exists msgs, tail. repeat split; assumption.
Qed.
Print Assumptions C35_only_requests_of_the_stream.

(** For the client of this repository: any number of supported calls sent down one connection without
    waiting arrive at the handler in that order with their meaning intact. *)
Theorem C35_client_calls_in_order : forall H (h : handler H) st pr name msgs,
  msgs <> [] ->
  Forall (fun m => legal pr (fst m) /\ supported pr (fst m) /\ exists hd, fst (cl_req (client_of pr name) hd (fst m)) = Ok (snd m)) msgs ->
  exists qs, map understood qs = flat_map (fun m => intended pr (fst m)) msgs
    /\ serve_conn h st (flat_map snd msgs) = then_serve h (proto_of pr) (serve_list h (proto_of pr) st qs) [].
Proof.
  intros H h st pr name msgs N F.
  assert (G : forall msgs p tail, (p = None \/ p = Some (proto_of pr)) -> msgs <> [] ->
    Forall (fun m => legal pr (fst m) /\ supported pr (fst m) /\ exists hd, fst (cl_req (client_of pr name) hd (fst m)) = Ok (snd m)) msgs ->
    exists qs, map understood qs = flat_map (fun m => intended pr (fst m)) msgs /\ reads p (flat_map snd msgs ++ tail) qs (Some (proto_of pr)) tail).
  { clear msgs N F. induction msgs as [|[o rq] msgs IH]; intros p tail P N F; [congruence|]. inversion F as [|? ? (L & S & hd & R) F']; subst.
    cbn [fst snd] in *. cbn [flat_map fst snd]. rewrite <- app_assoc.
    destruct (C34_request_is_delivered_partial pr name hd o rq L S R p (flat_map snd msgs ++ tail) P) as (qs & Rd & U).
    destruct msgs as [|m msgs].
    - exists qs. split; [cbn; rewrite app_nil_r; exact U|exact Rd].
    - destruct (IH (Some (proto_of pr)) tail (or_intror eq_refl) ltac:(discriminate) F') as (qs' & U' & Rd').
      exists (qs ++ qs'). split; [rewrite map_app, U, U'; reflexivity|]. eapply reads_app; eassumption. }
  destruct (G msgs None [] (or_introl eq_refl) N F) as (qs & U & R). rewrite app_nil_r in R. exists qs. split; [exact U|].
  inversion R as [|p0 s0 q p1 s1 qs1 p2 s2 E R' E1 E2 E3 E4]; subst.
  destruct (flat_map snd msgs) as [|c s] eqn:Es; [discriminate E|]. rewrite serve_conn_as. rewrite read_first in E.
  assert (p1 = Some (announced c)) by congruence. subst p1.
  destruct (reads_serve H h _ _ _ _ _ R' (announced c) st eq_refl) as [A _].
  assert (A1 : announced c = proto_of pr) by congruence. rewrite A1 in *.
  assert (R2 : reads (Some (proto_of pr)) (c :: s) (q :: qs1) (Some (proto_of pr)) []).
  { econstructor; [|exact R']. destruct pr; cbn [proto_of read_request parser] in *; exact E. }
  exact (proj2 (reads_serve H h _ _ _ _ _ R2 (proto_of pr) st eq_refl)).
Qed.
Print Assumptions C35_client_calls_in_order.

(** A handler that counts requests and answers every one of them with its number as the value. *)
Definition counter_handler : handler Z := fun n q => (n + 1, Ok [mkRes (q_key q) None (Some (be 4 7)) (dec n) 0 0]).
Example C35_met :
  exactly ProtoAscii (B "incr k 5" ++ crlf) (mkReq OpcIncrement (B "k") [] None [] 5 None None None)
  /\ let '(st, l, f) := serve_conn counter_handler 10 (B "incr k 5" ++ crlf ++ B "get k" ++ crlf ++ B "version" ++ crlf) in
     st = 13 /\ f = Closed EIO /\ map sd_reply l = [B "10" ++ crlf; B "VALUE k 7 2" ++ crlf ++ B "11" ++ crlf ++ B "END" ++ crlf; B "12" ++ crlf].
Proof. split; [vm_compute; reflexivity|]. vm_compute. repeat split. Qed.

(** ** C36 *)
(** With a handler that does its part, only a request of the kinds listed in [hostile] can crash the
    process; the full property, that no request can, fails. *)
Theorem C36_only_hostile_requests_crash_partial : forall H (h : handler H) st s st' l,
  polite h -> serve_conn h st s = (st', l, Crashed) ->
  exists p msgs tail, s = flat_map fst msgs ++ tail
    /\ Forall (fun m => exactly p (fst m) (snd m)) msgs /\ map sd_req l = map snd msgs
    /\ hostile p tail.
Proof.
  intros H h st s st' l Po E. destruct s as [|c s]; [discriminate E|]. rewrite serve_conn_as in E. unfold serve_rest in E.
  destruct (serve_decompose H h (announced c) (S (length (c :: s))) st (c :: s) ltac:(lia)) as (msgs & tail & Es & F & M & C).
  rewrite E in M, C. cbn [fst snd] in M, C. exists (announced c), msgs, tail. split; [exact Es|]. split; [exact F|]. split; [exact M|].
  destruct (C eq_refl) as [(s' & P)|(st0 & q & x & I & <- & X)]; [eapply parser_panic; exact P|]. exfalso.
  apply in_map_iff in I. destruct I as ([b q'] & Q & I). cbn [snd] in Q. subst q'. rewrite Forall_forall in F. specialize (F _ I). cbn [fst snd] in F.
  cbn [serve_list] in X. pose proof (Po st0 q) as Pq. destruct (h st0 q) as [st1 [res|e|]]; cbn [snd] in *; [|discriminate X|contradiction].
  destruct Pq as [N Fl]. pose proof (writer_safe _ _ _ _ res F N Fl) as W. destruct (write_response (announced c) q res); [discriminate X|discriminate X|contradiction].
Qed.
Print Assumptions C36_only_hostile_requests_crash_partial.

(** Any stream none of whose suffixes starts with a hostile request is safe. *)
Theorem C36_no_hostile_request_no_crash_partial : forall H (h : handler H) st s,
  polite h -> (forall a b p, s = a ++ b -> ~ hostile p b) ->
  exists st' l e, serve_conn h st s = (st', l, Closed e).
Proof.
  intros H h st s Po N. destruct (serve_conn h st s) as [[st' l] ft] eqn:E. destruct ft as [e| |].
  - exists st', l, e. reflexivity.
  - exfalso. destruct (C36_only_hostile_requests_crash_partial H h st s st' l Po E) as (p & msgs & tail & Es & _ & _ & X). exact (N _ _ _ Es X).
  - exfalso. destruct s as [|c s]; [discriminate E|]. rewrite serve_conn_as in E. unfold serve_rest in E.
    apply (serve_as_not_oof H h (announced c) (S (length (c :: s))) st (c :: s)); [lia|]. rewrite E. reflexivity.
Qed.
Print Assumptions C36_no_hostile_request_no_crash_partial.

(** The counterexamples, for every handler, including the polite ones: a data length of -3 or less, an
    empty field in "ms", and binary headers that announce too few extras. *)
Definition bin_head (o kl ex total : Z) : bytes :=
  byte_of 128 :: byte_of o :: be 2 kl ++ byte_of ex :: byte_of 0 :: be 2 0 ++ be 4 total ++ be 4 0 ++ be 8 0.
Theorem C36_no_request_crashes_refuted : forall H (h : handler H) st,
  (forall n, - 2 ^ 31 <= n <= -3 -> serve_conn h st (B "set k 0 0 " ++ dec n ++ crlf) = (st, [], Crashed))
  /\ serve_conn h st (B "ms k 1  T0" ++ crlf) = (st, [], Crashed)
  /\ serve_conn h st (B "ms k 1 S-9" ++ crlf) = (st, [], Crashed)
  /\ serve_conn h st (bin_head 1 1 0 1 ++ B "k") = (st, [], Crashed)
  /\ serve_conn h st (bin_head 1 9 8 1 ++ be 8 0 ++ B "123456789") = (st, [], Crashed)
  /\ serve_conn h st (bin_head 5 1 0 1 ++ B "k") = (st, [], Crashed)
  /\ serve_conn h st (bin_head 28 1 0 1 ++ B "k") = (st, [], Crashed).
Proof.
  intros H h st. split.
  { intros n Hn.
    assert (X : read_ascii_request (B "set k 0 0 " ++ dec n ++ crlf) = (Panic, [])).
    { assert (Ew : B "set k 0 0 " ++ dec n ++ crlf = join_sp [B "set"; B "k"; B "0"; B "0"; dec n] ++ crlf ++ []).
      { cbn [join_sp]. rewrite app_nil_r. repeat (rewrite <- app_assoc; cbn [app]). reflexivity. }
      rewrite Ew, ascii_words by (try discriminate; words). cbn [ascii_command beq]. 
      unfold ascii_command. cbn [beq orb]. change (parse_int 32 (B "0")) with (Some 0). unfold lift_opt, bind at 1 2, ret at 1 2.
      rewrite parse_int_dec by lia. unfold ret, bind at 1. unfold make_read_full, bind at 1. unfold go_make.
      replace (n + 2 <? 0) with true by (symmetry; apply Z.ltb_lt; lia). reflexivity. }
    remember (B "set k 0 0 " ++ dec n ++ crlf) as s. destruct s as [|c s]; [discriminate|]. rewrite serve_conn_as.
    assert (A : announced c = ProtoAscii) by (inversion Heqs; reflexivity). rewrite A. unfold serve_rest. cbn [serve_as parser]. rewrite X. reflexivity. }
  do 5 (split; [vm_compute; reflexivity|]). vm_compute; reflexivity.
Qed.
Print Assumptions C36_no_request_crashes_refuted.

Example C36_met : polite counter_handler /\ ~ hostile ProtoAscii (B "get k" ++ crlf) /\ hostile ProtoAscii (B "set k 0 0 -3" ++ crlf).
Proof.
  split; [|split].
  - intros st q. cbn. split; [discriminate|]. constructor; [|constructor]. right. vm_compute. discriminate.
  - intros (fs & E & X). vm_compute in E. inversion E; subst. discriminate X.
  - exists [B "set"; B "k"; B "0"; B "0"; B "-3"]. split; [vm_compute; reflexivity|vm_compute; reflexivity].
Qed.

(** ** C37 *)
(** Answers for which the server writes something: the first response carries no error, and for a
    binary get there is one. *)
Definition frank (p : protocol) (q : srequest) (res : list sresponse) : Prop :=
  match res with [] => True | r :: _ => q_opcode q = OpcGet \/ r_error r = None end
  /\ (p = ProtoBinary -> q_opcode q = OpcGet -> res <> []).
Theorem C37_request_is_answered_partial : forall H (h : handler H) p st q,
  (forall res, snd (h st q) = Ok res -> frank p q res) ->
  match serve_list h p st [q] with
  | (_, _, Some ft) => ft = Crashed \/ exists e, ft = Closed e
  | (_, l, None) => exists out, l = [mkServed q out] /\ out <> []
  end.
Proof.
  intros H h p st q F. cbn [serve_list]. destruct (h st q) as [st' [res|e|]] eqn:E; cbn [snd] in F; [|right; eexists; reflexivity|left; reflexivity].
  destruct (F res eq_refl) as [F1 F2]. destruct (write_response p q res) as [out|e|] eqn:W; [|right; eexists; reflexivity|left; reflexivity].
  exists out. split; [reflexivity|]. intros ->. revert W.
  assert (OF : forall g, q_opcode q <> OpcGet -> (forall r b, g r = Ok b -> b <> []) -> on_first res g <> Ok []).
  { intros g N G Q. unfold on_first in Q. destruct res as [|r ?]; [discriminate|]. destruct F1 as [F1|F1]; [contradiction|]. rewrite F1 in Q. exact (G _ _ Q eq_refl). }
  assert (AP : forall a t, t <> [] -> oapp a t <> Ok []).
  { intros [x| |] t Nt Q; try discriminate. cbn in Q. injection Q. intro Z. apply app_eq_nil in Z. tauto. }
  destruct p; cbn [write_response].
  - unfold write_ascii_response. destruct (q_opcode q) eqn:O.
    + destruct (q_get q) as [g|]; [|apply AP; discriminate]. destruct res as [|r res]; [discriminate|]. cbn [map concat_outcomes].
      unfold meta_get_block_bytes at 1. destruct (flag_number r); [|discriminate|discriminate].
      destruct (concat_outcomes _); [|discriminate|discriminate]. discriminate.
    + apply OF; [discriminate|]. intros r b. destruct (q_set q) as [o|]; [|discriminate]. intro Q. injection Q as <-. destruct (s_meta o); discriminate.
    + apply OF; [discriminate|]. intros r b. destruct (q_set q) as [o|]; [|discriminate]. intro Q. injection Q as <-. destruct (s_meta o); discriminate.
    + apply OF; [discriminate|]. intros r b. destruct (q_set q) as [o|]; [|discriminate]. intro Q. injection Q as <-. destruct (s_meta o); discriminate.
    + apply OF; [discriminate|]. intros r b. destruct (q_del q) as [[]|]; [| |discriminate]; intro Q; injection Q as <-; discriminate.
    + apply OF; [discriminate|]. intros r b Q. injection Q as <-. intro Z. apply app_eq_nil in Z. destruct Z as [_ Z]. discriminate Z.
    + apply OF; [discriminate|]. intros r b Q. injection Q as <-. intro Z. apply app_eq_nil in Z. destruct Z as [_ Z]. discriminate Z.
    + apply OF; [discriminate|]. intros r b Q. injection Q as <-. discriminate.
    + discriminate.
    + apply OF; [discriminate|]. intros r b Q. injection Q as <-. intro Z. apply app_eq_nil in Z. destruct Z as [_ Z]. discriminate Z.
    + apply OF; [discriminate|]. intros r b Q. injection Q as <-. discriminate.
  - unfold write_binary_response. destruct (q_opcode q) eqn:O; try (apply OF; [discriminate|]; intros r b Q; injection Q as <-; discriminate).
    destruct res as [|r res]; [exfalso; exact (F2 eq_refl eq_refl eq_refl)|discriminate].
Qed.
Print Assumptions C37_request_is_answered_partial.

(** The full property fails: an answer that carries an error, and a binary get answered with no item,
    make the server write nothing and go on reading. The client waits. *)
Definition refusing : handler unit := fun _ q => (tt, Ok [mkRes (q_key q) (Some ENotFound) None [] 0 0]).
Definition missing : handler unit := fun _ q => (tt, Ok []).
Theorem C37_request_is_answered_refuted :
  (exists q1 q2, serve_conn refusing tt (B "delete k" ++ crlf ++ B "touch k 5" ++ crlf) = (tt, [mkServed q1 []; mkServed q2 []], Closed EIO))
  /\ (exists q1 q2, serve_conn missing tt (bin_head 0 1 0 1 ++ B "k" ++ bin_head 0 1 0 1 ++ B "l") = (tt, [mkServed q1 []; mkServed q2 []], Closed EIO)).
Proof. split; eexists _, _; vm_compute; reflexivity. Qed.
Print Assumptions C37_request_is_answered_refuted.

Example C37_met : frank ProtoBinary (key_req OpcGet (B "k")) [mkRes (B "k") None None (B "v") 0 0]
  /\ ~ frank ProtoBinary (key_req OpcGet (B "k")) [].
Proof. split; [split; [left; reflexivity|discriminate]|]. intros [_ X]. exact (X eq_refl eq_refl eq_refl). Qed.

(** ** C39 *)
Theorem C39_protocol_is_fixed_by_the_first_byte : forall H (h : handler H) st c s,
  serve_conn h st (c :: s)
  = serve_as (if code c =? 128 then ProtoBinary else ProtoAscii) h (S (length (c :: s))) st (c :: s).
Proof. intros. rewrite serve_conn_as. reflexivity. Qed.
Print Assumptions C39_protocol_is_fixed_by_the_first_byte.

(** After every request, wherever it stands in the connection. *)
Theorem C39_protocol_stays : forall s qs p' s' c t, s = c :: t -> qs <> [] -> reads None s qs p' s' ->
  p' = Some (announced c) /\ forall s'' r, snd (read_request p' s'') = r -> r = Some (announced c).
Proof.
  intros s qs p' s' c t -> N R. inversion R as [|p0 s0 q p1 s1 qs1 p2 s2 E R' E1 E2 E3 E4]; subst; [congruence|].
  rewrite read_first in E. assert (p1 = Some (announced c)) by congruence. subst p1.
  destruct (reads_serve unit refusing _ _ _ _ _ R' (announced c) tt eq_refl) as [-> _]. split; [reflexivity|].
  intros s'' r <-. destruct (announced c); reflexivity.
Qed.
Print Assumptions C39_protocol_stays.
Example C39_met : exists l, serve_conn refusing tt (B "delete k" ++ crlf ++ bin_head 4 1 0 1 ++ B "k" ++ crlf) = (tt, l, Closed invalid_request) /\ length l = 1%nat.
Proof. eexists. split; [vm_compute; reflexivity|vm_compute; reflexivity]. Qed.

(** ** C40 *)
(** After any well-formed requests, a malformed one: the handler sees only the former, and the
    connection is closed with an error unless it ended before. [lax] lists the exceptions. *)
Theorem C40_malformed_request_is_refused_partial : forall H (h : handler H) st p msgs tail,
  Forall (fun m => exactly p (fst m) (snd m)) msgs ->
  (exists c s, flat_map fst msgs ++ tail = c :: s /\ announced c = p) ->
  malformed p tail -> ~ lax p tail ->
  serve_conn h st (flat_map fst msgs ++ tail)
  = match serve_list h p st (map snd msgs) with
    | (st', l, Some ft) => (st', l, ft)
    | (st', l, None) => (st', l, Closed invalid_request)
    end.
Proof.
  intros H h st p msgs tail F A M L. rewrite (C35_pipelined_requests_in_order H h st p msgs tail F A).
  destruct (malformed_refused p tail M L) as (rest & P). unfold then_serve.
  destruct (serve_list h p st (map snd msgs)) as [[st' l] [ft|]]; [reflexivity|]. unfold serve_rest. cbn [serve_as]. rewrite P, app_nil_r. reflexivity.
Qed.
Print Assumptions C40_malformed_request_is_refused_partial.

Theorem C40_malformed_request_is_refused_refuted :
  (malformed ProtoAscii (B "gets" ++ crlf) /\ exists q out, snd (fst (serve_conn refusing tt (B "gets" ++ crlf))) = [mkServed q out])
  /\ (malformed ProtoAscii (B "flush_all 10" ++ crlf) /\ exists q out, snd (fst (serve_conn refusing tt (B "flush_all 10" ++ crlf))) = [mkServed q out]).
Proof.
  split; (split; [eexists; split; [vm_compute; reflexivity|vm_compute; reflexivity]|]); eexists _, _; vm_compute; reflexivity.
Qed.
Print Assumptions C40_malformed_request_is_refused_refuted.

Example C40_met : malformed ProtoAscii (B "prepend k 0 0 1" ++ crlf ++ B "x" ++ crlf) /\ ~ lax ProtoAscii (B "prepend k 0 0 1" ++ crlf ++ B "x" ++ crlf)
  /\ malformed ProtoAscii (B "get a b" ++ crlf) /\ malformed ProtoBinary (bin_head 14 1 0 1 ++ B "k") /\ ~ malformed ProtoBinary (bin_head 0 1 0 1 ++ B "k").
Proof.
  split; [eexists; split; [vm_compute; reflexivity|vm_compute; reflexivity]|]. split; [intros (_ & cmd & args & E & X); vm_compute in E; inversion E; subst; discriminate X|].
  split; [eexists; split; [vm_compute; reflexivity|vm_compute; reflexivity]|]. split; [split; [vm_compute; discriminate|right; vm_compute; reflexivity]|].
  intros [_ [X|X]]; [apply X; vm_compute; reflexivity|vm_compute in X; discriminate X].
Qed.

(** ** C41 *)
(** The letters and the option each stands for. *)
Definition mg_letters : list (ascii * (get_opt -> bool)) :=
  [("c", g_cas); ("f", g_flag); ("h", g_hit); ("k", g_key); ("l", g_last_access); ("o", g_with_opaque);
   ("q", g_noreply); ("s", g_size); ("t", g_ttl); ("v", g_value)]%char.

Lemma mg_fold : forall c get, In (c, get) mg_letters -> forall flags o, get (fold_left mg_flag flags o) = true <-> get o = true \/ In c flags.
Proof.
  intros c get I. assert (St : forall o a, get (mg_flag o a) = true <-> get o = true \/ a = c).
  { intros [me rf cas fl ke la hi no si tl op va] a.
    assert (D : forall x : ascii, a = x \/ a <> x) by (intro x; destruct (ascii_dec a x); auto).
    assert (Cs : a = "c"%char \/ a = "f"%char \/ a = "h"%char \/ a = "k"%char \/ a = "l"%char \/ a = "o"%char \/ a = "q"%char \/ a = "s"%char \/ a = "t"%char \/ a = "v"%char
      \/ (a <> "c" /\ a <> "f" /\ a <> "h" /\ a <> "k" /\ a <> "l" /\ a <> "o" /\ a <> "q" /\ a <> "s" /\ a <> "t" /\ a <> "v")%char).
    { destruct (D "c"%char), (D "f"%char), (D "h"%char), (D "k"%char), (D "l"%char), (D "o"%char), (D "q"%char), (D "s"%char), (D "t"%char), (D "v"%char); tauto. }
    cbn [In mg_letters] in I.
    repeat (destruct I as [I|I]; [inversion I; subst c get; clear I;
      (repeat (destruct Cs as [-> | Cs]; [cbn; first [tauto | split; [left; assumption|intros [X|X]; [exact X|discriminate X]]]|]));
      destruct Cs as (? & ? & ? & ? & ? & ? & ? & ? & ? & ?); unfold mg_flag;
      repeat match goal with Hn : a <> ?x |- _ => rewrite (proj2 (Ascii.eqb_neq a x) Hn) end; cbn; tauto|]).
    destruct I. }
  induction flags as [|a flags IH]; intro o; cbn [fold_left In]; [tauto|]. rewrite IH, St. tauto.
Qed.

(** For the line "mg <key> <flags>", whatever follows the flags field on the line: option [get] is set
    exactly if its letter occurs in the flags. *)
Theorem C41_meta_get_options : forall k flags more rest,
  word k -> word flags -> Forall word more ->
  exists q g, read_request (Some ProtoAscii) (join_sp (B "mg" :: k :: flags :: more) ++ crlf ++ rest) = ((Ok q, rest), Some ProtoAscii)
    /\ q_opcode q = OpcGet /\ q_key q = k /\ q_get q = Some g /\ g_meta g = true
    /\ forall c get, In (c, get) mg_letters -> (get g = true <-> In c flags).
Proof.
  intros k flags more rest K F M. exists (mkReq OpcGet k [] None [] 0 (Some (mg_opt flags)) None None), (mg_opt flags). cbn [read_request].
  rewrite ascii_words; [|discriminate|repeat first [apply Forall_cons; [first [assumption|apply wordb_word; reflexivity]|]|assumption]].
  split; [reflexivity|]. split; [reflexivity|]. split; [reflexivity|]. split; [reflexivity|].
  assert (Me : forall l o, g_meta (fold_left mg_flag l o) = g_meta o).
  { induction l as [|a l IH]; intro o; [reflexivity|]. cbn [fold_left]. rewrite IH. destruct o. unfold mg_flag.
    repeat match goal with |- context [if ?b then _ else _] => destruct b end; reflexivity. }
  split; [unfold mg_opt; rewrite Me; reflexivity|]. intros c get I. unfold mg_opt. rewrite (mg_fold c get I). split; [intros [X|X]; [|exact X]|auto].
  cbn [In mg_letters] in I. repeat (destruct I as [I|I]; [inversion I; subst; discriminate X|]). destruct I.
Qed.
Print Assumptions C41_meta_get_options.

(** Neither order nor repetition of the letters matters. *)
Theorem C41_order_and_repetition_do_not_matter : forall f1 f2, (forall c, In c f1 <-> In c f2) ->
  forall c get, In (c, get) mg_letters -> get (mg_opt f1) = get (mg_opt f2).
Proof.
  intros f1 f2 S c get I. unfold mg_opt. pose proof (mg_fold c get I f1) as A. pose proof (mg_fold c get I f2) as A2. specialize (S c).
  set (o1 := mkGetOpt true f1 false false false false false false false false false false) in *.
  set (o2 := mkGetOpt true f2 false false false false false false false false false false) in *.
  assert (Q : get o1 = get o2) by (cbn [In mg_letters] in I; repeat (destruct I as [I|I]; [inversion I; subst; reflexivity|]); destruct I).
  specialize (A o1). specialize (A2 o2). rewrite Q in A.
  destruct (get (fold_left mg_flag f1 o1)), (get (fold_left mg_flag f2 o2)); try reflexivity; [symmetry; apply A2|apply A]; tauto.
Qed.
Print Assumptions C41_order_and_repetition_do_not_matter.
Example C41_met : exists q, fst (read_request (Some ProtoAscii) (join_sp [B "mg"; B "key"; B "tvvt"; B "q"] ++ crlf ++ B "x")) = (Ok q, B "x")
  /\ match q_get q with Some g => g_value g = true /\ g_ttl g = true /\ g_cas g = false /\ g_noreply g = false | None => False end.
Proof. eexists. split; [vm_compute; reflexivity|]. vm_compute. repeat split. Qed.
