(** * The client reading the server's replies: proofs. *)
From Verif Require Import GoBytes GoNum GoIO GoScan Item ClientText ClientMeta ClientBinary Cache Daemon Spec Call Guard
  ServerTypes ServerParse ServerWrite Serve ServerSpec PLib PScan PDaemon PCache PText PMeta PReader PBinary PServer PServe.
Local Open Scope Z_scope.

Lemma request_delivered : forall pr name h o rq,
  legal pr o -> supported pr o -> fst (cl_req (client_of pr name) h o) = Ok rq -> delivered pr o rq.
Proof.
  intros [] name h o rq L S R; cbn [client_of text_client meta_client bin_client cl_req fst] in R.
  - exact (text_delivered o rq L S R).
  - exact (meta_delivered o rq L S R).
  - exact (bin_delivered h o rq L S R).
Qed.
Lemma request_ok : forall pr name h o, legal pr o -> exists rq, fst (cl_req (client_of pr name) h o) = Ok rq.
Proof.
  intros [] name h o L; cbn [client_of text_client meta_client bin_client cl_req fst].
  - destruct o; eexists; reflexivity.
  - apply meta_req_ok. exact L.
  - apply bin_req_ok. exact L.
Qed.
Lemma call_serve : forall H (h : handler H) st pr name hd o rq,
  legal pr o -> supported pr o -> fst (cl_req (client_of pr name) hd o) = Ok rq ->
  exists qs, map understood qs = intended pr o /\ Forall (fun q => flavour pr q && tidy pr q = true) qs
    /\ serve_conn h st rq = then_serve h (proto_of pr) (serve_list h (proto_of pr) st qs) [].
Proof.
  intros H h st pr name hd o rq L S R.
  destruct (request_delivered pr name hd o rq L S R None [] (or_introl eq_refl)) as (qs & Rd & U & F). rewrite app_nil_r in Rd.
  exists qs. split; [exact U|]. split; [exact F|].
  inversion Rd as [|p0 s0 q p1 s1 qs1 p2 s2 E R' E1 E2 E3 E4]; subst.
  destruct rq as [|c s]; [discriminate E|]. rewrite serve_conn_as. rewrite read_first in E.
  assert (p1 = Some (announced c)) by congruence. subst p1.
  destruct (reads_serve H h _ _ _ _ _ R' (announced c) st eq_refl) as [A _].
  assert (A1 : announced c = proto_of pr) by congruence. rewrite A1 in *.
  assert (R2 : reads (Some (proto_of pr)) (c :: s) (q :: qs1) (Some (proto_of pr)) []).
  { econstructor; [|exact R']. destruct pr; cbn [proto_of read_request parser] in *; exact E. }
  exact (proj2 (reads_serve H h _ _ _ _ _ R2 (proto_of pr) st eq_refl)).
Qed.

(** ** Text *)
Definition value_reply (r : sresponse) (f : Z) : bytes := value_head (r_key r) f (zlen (r_value r)) ++ crlf ++ r_value r ++ crlf.
Lemma text_get_one : forall name k v f rest, k <> [] -> utf8_word k -> zlen k <= 250 -> 0 <= f < 2 ^ 32 -> zlen v <= 2 ^ 30 ->
  text_get_resp name ((value_head k f (zlen v) ++ crlf ++ v ++ crlf) ++ text_proto_end ++ rest)
  = (Ok (mkItem k v (Some (be 4 f)) 0 0 name), rest).
Proof.
  intros name k v f rest N P L F V. pose proof (zlen_nonneg _ v).
  unfold text_get_resp. repeat rewrite <- app_assoc.
  erewrite bind_ok.
  2:{ apply read_line; [apply value_head_line; apply key_is_word; assumption|].
      pose proof (value_head_len k f (zlen v) L F ltac:(lia)). lia. }
  cbn beta.
  change (beq (value_head k f (zlen v) ++ crlf) msg_end) with false.
  change (has_prefix (B "VALUE") (value_head k f (zlen v) ++ crlf)) with true.
  cbv iota. cbn [negb]. rewrite count_nocas by assumption. change (negb (3 =? 3)) with false.
  rewrite fscanf_nocas by (assumption || lia). unfold lift_opt at 1.
  erewrite bind_ok by reflexivity. cbn beta iota.
  rewrite (app_assoc v crlf).
  erewrite bind_ok by (apply make_value; lia). cbn beta.
  erewrite bind_ok by (apply go_sub_prefix; reflexivity). cbn beta.
  unfold text_proto_end. rewrite <- app_assoc.
  erewrite bind_ok by (apply read_line; [apply lineb_line; reflexivity|vm_compute; discriminate]).
  reflexivity.
Qed.
Lemma split_value3 : forall k f n, word k -> split_sp (value_head k f n ++ crlf) = [B "VALUE"; k; dec f; dec n ++ crlf].
Proof.
  intros k f n W. unfold value_head. change (B "VALUE ") with (B "VALUE" ++ B " ").
  repeat rewrite <- app_assoc. change (B " ") with [SP]. cbn [app].
  rewrite split_sp_app by (apply wordb_word; reflexivity).
  rewrite split_sp_app by assumption. rewrite !split_sp_app by apply dec_word.
  rewrite split_sp_nosp; [reflexivity|]. apply Forall_app. split; [apply word_nosp, dec_word|]. repeat constructor.
Qed.
Lemma text_block_one : forall k v f rest, word k -> 0 <= f < 2 ^ 32 -> zlen v <= 2 ^ 30 ->
  text_value_block (value_head k f (zlen v) ++ crlf) ((v ++ crlf) ++ rest) = (Ok (mkItem k v (Some (be 4 f)) 0 0 []), rest).
Proof.
  intros k v f rest W F V. pose proof (zlen_nonneg _ v). unfold text_value_block.
  rewrite split_value3 by assumption.
  erewrite bind_ok by reflexivity. cbn beta.
  change (negb (beq (B "VALUE") (B "VALUE"))) with false. cbv iota.
  erewrite bind_ok by reflexivity. cbn beta.
  unfold atoi. rewrite parse_int_dec by (simpl; lia). cbn [lift_opt]. erewrite bind_ok by reflexivity. cbn beta.
  erewrite bind_ok by reflexivity. cbn beta.
  change (zlen [B "VALUE"; k; dec f; dec (zlen v) ++ crlf] =? 4) with true. cbv iota.
  rewrite zlen_app. change (zlen crlf) with 2. replace (zlen (dec (zlen v)) + 2 - 2) with (zlen (dec (zlen v))) by lia.
  erewrite bind_ok by (apply go_sub_prefix; reflexivity). cbn beta.
  rewrite parse_int_dec by (simpl; lia). cbn [lift_opt]. erewrite bind_ok by reflexivity. cbn beta.
  rewrite i64_small by lia. unfold go_make, max_alloc.
  destruct (zlen v + 2 <? 0) eqn:E1; [apply Z.ltb_lt in E1; lia|].
  destruct (2 ^ 48 <? zlen v + 2) eqn:E2; [apply Z.ltb_lt in E2; lia|]. cbn [orb].
  erewrite bind_ok by reflexivity. cbn beta.
  erewrite bind_ok by reflexivity. cbn beta.
  erewrite bind_ok by (apply read_full_eq; rewrite zlen_app; reflexivity). cbn beta.
  erewrite bind_ok by (apply go_sub_prefix; reflexivity). cbn beta.
  rewrite u32_small by lia. reflexivity.
Qed.
Lemma text_values_replies : forall (l : list (sresponse * Z)) fuel acc rest,
  Forall (fun rf => word (r_key (fst rf)) /\ zlen (r_key (fst rf)) <= 250 /\ 0 <= snd rf < 2 ^ 32 /\ zlen (r_value (fst rf)) <= 2 ^ 30) l ->
  (length l < fuel)%nat ->
  text_values fuel acc (flat_map (fun rf => value_reply (fst rf) (snd rf)) l ++ text_proto_end ++ rest)
  = Some (Ok (rev acc ++ map (fun rf => mkItem (r_key (fst rf)) (r_value (fst rf)) (Some (be 4 (snd rf))) 0 0 []) l), rest).
Proof.
  induction l as [|[r f] l IH]; intros fuel acc rest H L; (destruct fuel as [|fuel]; [simpl in L; lia|]).
  - cbn [flat_map app text_values]. unfold text_proto_end. rewrite <- app_assoc.
    rewrite (read_line (B "END")) by ((apply lineb_line; reflexivity) || (vm_compute; discriminate)).
    change (beq (B "END" ++ crlf) (B "END" ++ crlf)) with true. cbv iota. cbn [map]. rewrite app_nil_r. reflexivity.
  - inversion H as [|x l' (W & Lk & F & V) H']; subst. cbn [fst snd] in *. pose proof (zlen_nonneg _ (r_value r)).
    cbn [flat_map fst snd text_values]. unfold value_reply at 1. repeat rewrite <- app_assoc.
    change (crlf ++ r_value r ++ crlf ++ flat_map (fun rf => value_reply (fst rf) (snd rf)) l ++ text_proto_end ++ rest)
      with (eol ++ r_value r ++ crlf ++ flat_map (fun rf => value_reply (fst rf) (snd rf)) l ++ text_proto_end ++ rest).
    rewrite read_line; [|apply value_head_line; assumption|pose proof (value_head_len (r_key r) f (zlen (r_value r)) Lk F ltac:(lia)); lia].
    change (beq (value_head (r_key r) f (zlen (r_value r)) ++ crlf) (B "END" ++ crlf)) with false.
    cbv iota. rewrite (app_assoc (r_value r) crlf), text_block_one by assumption.
    rewrite IH by (assumption || simpl in L; lia). f_equal. f_equal. f_equal. cbn [rev map fst snd].
    rewrite <- app_assoc. reflexivity.
Qed.

(** ** Meta *)
Lemma meta_get_v : forall k v rest, zlen v <= 2 ^ 30 ->
  meta_get_resp k ((B "VA " ++ dec (zlen v) ++ B " v" ++ crlf ++ v ++ crlf) ++ rest) = (Ok (mkItem k v None 0 0 []), rest).
Proof.
  intros k v rest V. pose proof (zlen_nonneg _ v). pose proof (dec_len (zlen v) ltac:(lia)) as D. unfold meta_get_resp, meta_get_block.
  assert (Ln : line (B "VA " ++ dec (zlen v) ++ B " v")).
  { apply line_app; [apply lineb_line; reflexivity|]. apply line_app; [apply word_line, dec_word|apply lineb_line; reflexivity]. }
  assert (Sh : (B "VA " ++ dec (zlen v) ++ B " v" ++ crlf ++ v ++ crlf) ++ rest = (B "VA " ++ dec (zlen v) ++ B " v") ++ eol ++ (v ++ crlf) ++ rest).
  { repeat rewrite <- app_assoc. reflexivity. }
  rewrite Sh. erewrite bind_ok.
  2:{ erewrite bind_ok.
      2:{ apply read_line; [exact Ln|]. rewrite !zlen_app. change (zlen (B "VA ")) with 3. change (zlen (B " v")) with 2. lia. }
      cbn beta.
      change (beq ((B "VA " ++ dec (zlen v) ++ B " v") ++ crlf) meta_end) with false.
      change (beq ((B "VA " ++ dec (zlen v) ++ B " v") ++ crlf) meta_noop) with false.
      change (negb (has_prefix (B "VA") ((B "VA " ++ dec (zlen v) ++ B " v") ++ crlf))) with false. cbv iota.
      change (skipn 3 ((B "VA " ++ dec (zlen v) ++ B " v") ++ crlf)) with ((dec (zlen v) ++ SP :: B "v") ++ crlf).
      rewrite <- app_assoc. cbn [app].
      rewrite (scan_size _ [] 0 zero_item (B "v" ++ crlf) (zlen v) (dec_word _)) by (cbn [app]; apply parse_int_dec; [lia|]; change (2 ^ (32 - 1)) with (2 ^ 31); lia).
      change (meta_scan MFlag (zlen v) zero_item (B "v" ++ crlf)) with (Some (zlen v, zero_item)). cbn [lift_opt].
      erewrite bind_ok by reflexivity. cbn beta iota.
      erewrite bind_ok by (apply make_value; lia). cbn beta.
      erewrite bind_ok by (apply go_sub_prefix; reflexivity). cbn beta. reflexivity. }
  reflexivity.
Qed.

(** ** Binary *)
Lemma binary_response_packet : forall opc r, zlen (r_key r) < 2 ^ 16 -> zlen (opt_bytes (r_flags r)) < 256 ->
  zlen (r_key r) + zlen (opt_bytes (r_flags r)) + zlen (r_value r) < 2 ^ 32 ->
  binary_response opc r = packet (opcode_byte opc) 0 0 (opt_bytes (r_flags r)) (r_key r) (r_value r).
Proof.
  intros opc r K F T. pose proof (zlen_nonneg _ (r_key r)). pose proof (zlen_nonneg _ (opt_bytes (r_flags r))). pose proof (zlen_nonneg _ (r_value r)).
  unfold binary_response, packet. rewrite u16_small, u32_small by lia. unfold u8. rewrite Z.mod_small by lia.
  replace (zlen (r_key r) + zlen (opt_bytes (r_flags r)) + zlen (r_value r)) with (zlen (opt_bytes (r_flags r)) + zlen (r_key r) + zlen (r_value r)) by lia.
  reflexivity.
Qed.
Lemma bin_get_packet : forall k ex key v rest, zlen ex < 256 -> zlen key < 2 ^ 15 -> zlen v <= 2 ^ 30 ->
  bin_get_resp k (packet 0 0 0 ex key v ++ rest) = (Ok (mkItem k v (Some ex) 0 0 []), rest).
Proof.
  intros k ex key v rest E K V. pose proof (zlen_nonneg _ ex). pose proof (zlen_nonneg _ key). pose proof (zlen_nonneg _ v). unfold bin_get_resp.
  erewrite bind_ok by (apply read_packet; lia). cbn beta.
  cbn [rs_total rs_status rs_cas rs_extra_len].
  erewrite bind_ok by (apply alloc_ok; rewrite ?zlen_app; lia). cbn beta.
  change (negb (0 =? 0)) with false. cbv iota.
  unfold body_off. cbn [rs_extra_len rs_key_len]. rewrite u16_small by lia.
  rewrite (app_assoc ex key v), <- (zlen_app _ ex key).
  erewrite bind_ok by (unfold go_sub; rewrite go_slice_tail; reflexivity). cbn beta.
  rewrite <- app_assoc. erewrite bind_ok by (unfold go_sub; rewrite go_slice_prefix; reflexivity). reflexivity.
Qed.
Lemma bin_multi_packet : forall ex key v rest, zlen ex < 256 -> zlen key < 2 ^ 15 -> zlen v <= 2 ^ 30 ->
  bin_getmulti_step (packet 0 0 0 ex key v ++ rest) = (Ok (Some (mkItem key v (Some ex) 0 0 [])), rest).
Proof.
  intros ex key v rest E K V. pose proof (zlen_nonneg _ ex). pose proof (zlen_nonneg _ key). pose proof (zlen_nonneg _ v). unfold bin_getmulti_step.
  erewrite bind_ok by (apply read_packet; lia). cbn beta.
  cbn [rs_total rs_status rs_cas rs_extra_len rs_opcode].
  change (0 =? op_noop) with false. change (negb (0 =? 0)) with false. cbv iota.
  erewrite bind_ok by (apply alloc_ok; rewrite ?zlen_app; lia). cbn beta.
  unfold body_off. cbn [rs_extra_len rs_key_len]. rewrite u16_small by lia.
  erewrite bind_ok by (unfold go_sub; rewrite go_slice_mid; reflexivity). cbn beta.
  rewrite (app_assoc ex key v), <- (zlen_app _ ex key).
  erewrite bind_ok by (unfold go_sub; rewrite go_slice_tail; reflexivity). cbn beta.
  rewrite <- app_assoc. erewrite bind_ok by (unfold go_sub; rewrite go_slice_prefix; reflexivity). reflexivity.
Qed.
