(** * Properties C14, C16, C24-C26: requests and replies as bytes. *)
From Verif Require Import GoBytes GoNum GoIO GoScan Item ClientText ClientMeta ClientBinary Cache Daemon Spec Intent Call
  Guard PLib PScan PDaemon PCache PText PMeta PBinary PClient PropClient PropCalls.
Local Open Scope Z_scope.

(** ** C14 *)
(** The first [n] commands of an input: cache, replies, remaining input. [None]: fewer than [n]
    complete commands. *)
Fixpoint exec (w : wire) (n : nat) (c : cache) (s : bytes) : option (cache * bytes * bytes) :=
  match n with
  | O => Some (c, [], s)
  | S n' => match daemon_step w c s with
            | None => None
            | Some (c1, r1, s1) => match exec w n' c1 s1 with
                                   | None => None
                                   | Some (c2, r2, s2) => Some (c2, r1 ++ r2, s2)
                                   end
            end
  end.

(** One command per call; the multi-key get of the meta and binary protocols sends one per key and a
    terminating no-op. *)
Definition command_count (pr : proto) (o : op) : nat :=
  match pr, o with
  | PMeta, OGetMulti ks | PBinary, OGetMulti ks => S (length ks)
  | _, _ => 1%nat
  end.

Lemma exec_app : forall w a b c s,
  exec w (a + b) c s = match exec w a c s with
                       | None => None
                       | Some (c1, r1, s1) => match exec w b c1 s1 with
                                              | None => None
                                              | Some (c2, r2, s2) => Some (c2, r1 ++ r2, s2)
                                              end
                       end.
Proof.
  intros w. induction a as [|a IH]; intros b c s.
  - cbn. destruct (exec w b c s) as [[[c2 r2] s2]|]; reflexivity.
  - cbn [Nat.add exec]. destruct (daemon_step w c s) as [[[c1 r1] s1]|]; [|reflexivity]. rewrite IH.
    destruct (exec w a c1 s1) as [[[c2 r2] s2]|]; [|reflexivity].
    destruct (exec w b c2 s2) as [[[c3 r3] s3]|]; [|reflexivity]. rewrite app_assoc. reflexivity.
Qed.
Lemma exec_each : forall w (f g : bytes -> bytes) c ks rest,
  (forall k r, In k ks -> daemon_step w c (f k ++ r) = Some (c, g k, r)) ->
  exec w (length ks) c (flat_map f ks ++ rest) = Some (c, flat_map g ks, rest).
Proof.
  intros w f g c. induction ks as [|k ks IH]; intros rest H; [reflexivity|]. cbn [length exec flat_map].
  rewrite <- app_assoc, (H k) by (left; reflexivity). rewrite IH; [reflexivity|]. intros; apply H; right; assumption.
Qed.

(** What the daemon does with the request, whatever follows it: exactly the commands of the call. *)
Theorem C14_exactly_the_intended_commands : forall pr name c h o rq rest,
  legal pr o -> (match o with OIncr _ _ _ | ODecr _ _ _ => pr = PBinary -> rq_cas h = 0 | _ => True end) ->
  fst (cl_req (client_of pr name) h o) = Ok rq ->
  exists c' reply,
    exec (cl_wire (client_of pr name)) (command_count pr o) c (rq ++ rest) = Some (c', reply, rest)
    /\ ((match pr, o with PMeta, OTouch _ _ => False | _, _ => True end) -> c' = fst (spec_step pr name c o)).
Proof.
  intros pr name c h o rq rest L Hz Q. destruct pr; cbn [client_of text_client meta_client bin_client cl_req cl_wire fst] in *.
  - exists (fst (text_intent c o)), (snd (text_intent c o)). split; [|intros _; apply text_intent_spec].
    cbn [command_count exec]. cbn [daemon_step]. rewrite (text_step c o rq rest L Q). rewrite app_nil_r. reflexivity.
  - exists (fst (meta_intent c o)), (snd (meta_intent c o)). split.
    + destruct o; try (cbn [command_count exec daemon_step];
        rewrite (meta_step_ok c _ rq rest L ltac:(discriminate) Q), app_nil_r; reflexivity).
      cbn [meta_req] in Q. apply (f_equal (fun x => match x with Ok a => a | _ => [] end)) in Q. cbv beta iota in Q. subst rq.
      cbn [command_count]. rewrite <- Nat.add_1_r, exec_app. rewrite <- app_assoc.
      rewrite exec_each with (g := fun k => meta_get_reply c k (meta_get_flags true)).
      * reflexivity.
      * intros k r I. destruct L as [_ L]. rewrite Forall_forall in L.
        pose proof (mg_step c k [B "v"; B "f"; B "k"; B "c"; B "t"] r (L k I) (or_intror eq_refl)) as M. exact M.
    + intros NT. rewrite spec_fst_name. destruct o; try contradiction NT; try reflexivity; apply meta_intent_spec; exact I.
  - exists (fst (bin_intent c o)), (snd (bin_intent c o)). split; [|intros _; rewrite spec_fst_name; apply bin_intent_spec; exact L].
    assert (Hz' : match o with OIncr _ _ _ | ODecr _ _ _ => rq_cas h = 0 | _ => True end) by (destruct o; auto).
    destruct o; try (cbn [command_count exec daemon_step];
        rewrite (bin_step_ok c h _ rq rest L ltac:(discriminate) Hz' Q), app_nil_r; reflexivity).
    cbn [bin_req fst] in Q. apply (f_equal (fun x => match x with Ok a => a | _ => [] end)) in Q. cbv beta iota in Q. subst rq.
    cbn [command_count]. rewrite <- Nat.add_1_r, exec_app. rewrite <- app_assoc.
    rewrite exec_each with (g := fun k => match lookup c k with Some e => bin_hit 13 true k e | None => [] end).
    + cbn [exec daemon_step]. unfold op_noop. rewrite bare_req_step by lia. cbn. reflexivity.
    + intros k r I. destruct L as [_ L]. rewrite Forall_forall in L. cbn [daemon_step]. unfold op_getkq.
      rewrite key_req_step; [|lia|apply (bin_key k (L k I))]. unfold binary_cmd. cbn [Z.eqb orb Pos.eqb].
      destruct (lookup c k); reflexivity.
Qed.
Print Assumptions C14_exactly_the_intended_commands.
Example C14_met : legal PText (OGet (B "a")) /\ legal PMeta (OGetMulti [B "a"; B "b"])
  /\ legal PBinary (OGet (B "a" ++ crlf ++ B "flush_all" ++ crlf))
  /\ exists rq, fst (cl_req (client_of PBinary []) reset_header (OGet (B "a" ++ crlf ++ B "flush_all" ++ crlf))) = Ok rq.
Proof. split; [legal_tac|]. split; [legal_tac|]. split; [legal_tac|]. eexists. vm_compute. reflexivity. Qed.

(** The full claim covers every key: a Get, whatever its key, leaves the cache as it is. With the
    textual protocols a key containing CRLF runs the command that follows it. *)
Definition get_is_harmless (pr : proto) : Prop := forall name c h k rq,
  fst (cl_req (client_of pr name) h (OGet k)) = Ok rq ->
  fst (fst (daemon (cl_wire (client_of pr name)) c rq)) = c.
Theorem C14_key_injection_refuted : forall pr, pr <> PBinary -> ~ get_is_harmless pr.
Proof.
  intros pr N H.
  set (c := put demo_c (B "x") (B "v") 0 None).
  assert (X := fun rq E => f_equal (fun c => lookup c (B "x"))
    (H [] c reset_header (B "a" ++ crlf ++ B "flush_all" ++ crlf ++ B "get b") rq E)).
  destruct pr; try congruence; specialize (X _ eq_refl); vm_compute in X; discriminate.
Qed.
Print Assumptions C14_key_injection_refuted.
(** Binary: harmless for every key of less than 4 GiB (keys above 250 bytes end the connection). *)
Theorem C14_binary_get_is_harmless_partial : forall name c h k rq, zlen k < 2 ^ 32 ->
  fst (cl_req (client_of PBinary name) h (OGet k)) = Ok rq ->
  fst (fst (daemon (cl_wire (client_of PBinary name)) c rq)) = c.
Proof.
  intros name c h k rq K Q. cbn [client_of bin_client cl_req cl_wire bin_req fst] in *.
  apply (f_equal (fun x => match x with Ok a => a | _ => [] end)) in Q. cbv beta iota in Q. subst rq.
  pose proof (zlen_nonneg _ k) as K0.
  set (hd := key_header op_get k). set (s := encode_header hd ++ k).
  assert (Sl : zlen s = 24 + zlen k) by (unfold s; rewrite zlen_app, zlen_encode; reflexivity).
  assert (M : num_at s 0 1 = 128) by reflexivity.
  assert (Op : num_at s 1 1 = 0) by reflexivity.
  assert (El : num_at s 4 1 = 0).
  { unfold s, encode_header. cbn [hd key_header rq_extra_len rq_data_type rq_key_len rq_total rq_cas rq_opcode].
    unfold num_at. cbn [be app skipn firstn]. reflexivity. }
  assert (Tt : num_at s 8 4 = zlen k).
  { unfold s, encode_header. cbn [hd key_header rq_extra_len rq_data_type rq_key_len rq_total rq_cas rq_opcode].
    unfold num_at. cbn [be app skipn firstn]. change [byte_of (u32 (zlen k) / 2 ^ (8 * Z.of_nat 3)); byte_of (u32 (zlen k) / 2 ^ (8 * Z.of_nat 2));
      byte_of (u32 (zlen k) / 2 ^ (8 * Z.of_nat 1)); byte_of (u32 (zlen k) / 2 ^ (8 * Z.of_nat 0))] with (be 4 (u32 (zlen k))).
    rewrite u32_small by lia. apply unbe_be_small. change (2 ^ (8 * Z.of_nat 4)) with (2 ^ 32). lia. }
  unfold daemon. fold s. cbn [daemon_run]. cbn [daemon_step]. unfold binary_step. rewrite M, El, Tt, Sl.
  replace (24 + zlen k <? 24) with false by (symmetry; apply Z.ltb_ge; lia). cbn [negb Z.eqb Pos.eqb].
  rewrite Z.ltb_irrefl.
  assert (Sk : skipn (Z.to_nat (24 + zlen k)) s = []).
  { apply skipn_all2. unfold zlen in Sl. unfold zlen. lia. }
  destruct ((zlen k <? 0 + num_at s 2 2) || (key_max <? num_at s 2 2)).
  - destruct (length s); reflexivity.
  - rewrite Op, Sk. unfold binary_cmd. cbn [Z.eqb orb]. destruct (lookup c _); unfold done; destruct (length s); reflexivity.
Qed.
Print Assumptions C14_binary_get_is_harmless_partial.

(** ** C16 *)
(** A well-formed ASCII reply: one line (any text of up to 4094 characters that does not announce a
    value block), or for a get, value blocks followed by END. The line covers every error reply
    (ERROR, CLIENT_ERROR ..., SERVER_ERROR ..., and anything else). *)
Definition block_ok (k : bytes) (e : entry) : Prop :=
  k <> [] /\ utf8_word k /\ zlen k <= 250 /\ 0 <= e_flags e < 2 ^ 32 /\ 0 <= e_cas e < 2 ^ 64 /\ zlen (e_value e) <= 2 ^ 30.
Inductive text_reply : op -> bytes -> Prop :=
| TRLine : forall o l, line l -> zlen l <= 4094 -> has_prefix (B "VALUE") l = false -> text_reply o (l ++ eol)
| TRValue : forall k k' e, block_ok k' e -> text_reply (OGet k) (value_line true k' e ++ B "END" ++ eol)
| TRValues : forall ks l, Forall (fun ke => block_ok (fst ke) (snd ke)) l ->
    text_reply (OGetMulti ks) (flat_map (fun ke => value_line true (fst ke) (snd ke)) l ++ B "END" ++ eol).

Lemma prefix_app_false : forall p l t, has_prefix p l = false -> (forall a b, p = a ++ b -> b <> [] -> a <> [] -> has_prefix b t = false) ->
  has_prefix p t = false -> has_prefix p (l ++ t) = false.
Proof.
  induction p as [|x p IH]; intros l t H T N; [discriminate H|]. destruct l as [|y l].
  - exact N.
  - cbn [app has_prefix] in *. destruct (Ascii.eqb x y) eqn:E; [|reflexivity]. cbn [andb] in *.
    destruct p as [|z p]; [discriminate H|]. apply IH; [exact H| |].
    + intros a b Eab Nb Na. apply (T (x :: a) b); [rewrite Eab; reflexivity|exact Nb|discriminate].
    + apply (T [x] (z :: p)); [reflexivity|discriminate|discriminate].
Qed.
Lemma value_prefix_line : forall l, has_prefix (B "VALUE") l = false -> has_prefix (B "VALUE") (l ++ crlf) = false.
Proof.
  intros l H. apply prefix_app_false; [exact H| |reflexivity]. intros a b E Nb Na.
  assert (Hb : exists x b', b = x :: b' /\ x <> CR).
  { destruct b as [|x b]; [congruence|]. exists x, b. split; [reflexivity|].
    assert (I : In x (B "VALUE")) by (rewrite E; apply in_or_app; right; left; reflexivity).
    intros ->. cbn in I. repeat (destruct I as [I|I]; [discriminate I|]). exact I. }
  destruct Hb as (x & b' & -> & Nx). cbn [has_prefix crlf]. apply Ascii.eqb_neq in Nx. rewrite Nx. reflexivity.
Qed.
Lemma zlen_eol : zlen eol = 2. Proof. reflexivity. Qed.

Theorem C16_text_reply_consumed : forall name o reply rest, text_reply o reply ->
  exists out, text_resp name o (reply ++ rest) = (out, rest) /\ out <> Panic.
Proof.
  intros name o reply rest R. destruct R as [o l Ln Sz Pf|k k' e (Nk & Pk & Zk & Fk & Ck & Vk)|ks l F].
  - pose proof (read_line l rest Ln Sz) as Rl. rewrite <- app_assoc.
    assert (Pf' := value_prefix_line l Pf).
    assert (Sub : exists d, go_sub (l ++ crlf) 0 (zlen (l ++ crlf) - 2) = fun s => (Ok d, s)).
    { exists l. unfold go_sub. replace (zlen (l ++ crlf) - 2) with (zlen l) by (rewrite zlen_app; change (zlen crlf) with 2; lia).
      rewrite go_slice_prefix. reflexivity. }
    destruct Sub as [d Sub].
    destruct o; cbn [text_resp]; unfold runit, rmap;
      unfold text_get_resp, text_set_resp, text_add_resp, text_replace_resp, text_delete_resp, text_incr_resp, text_touch_resp,
             text_flush_resp, text_version_resp; unfold bind at 1; try (unfold bind at 1; rewrite Rl).
    + destruct (beq (l ++ crlf) msg_end); [eexists; split; [reflexivity|discriminate]|]. rewrite Pf'. cbn [negb].
      eexists. split; [reflexivity|discriminate].
    + unfold text_getmulti_resp. cbn [text_values]. rewrite Rl. destruct (beq (l ++ crlf) (B "END" ++ crlf)).
      * eexists. split; [reflexivity|discriminate].
      * assert (Bl : exists e, text_value_block (l ++ crlf) rest = (Err e, rest)).
        { unfold text_value_block. unfold bind at 1. unfold go_index. cbn [nth_error].
          destruct (split_sp (l ++ crlf)) as [|s0 ss] eqn:Sp; [exfalso; exact (split_sp_nonempty _ Sp)|]. cbn [ret].
          destruct (beq s0 (B "VALUE")) eqn:E0; [|eexists; reflexivity]. exfalso. apply beq_eq in E0. subst s0.
          assert (Hp : forall b w ws, split_sp b = w :: ws -> exists r, b = w ++ r).
          { clear. induction b as [|x b IH]; intros w ws E.
            - cbn in E. inversion E. exists []. reflexivity.
            - cbn [split_sp] in E. destruct (Ascii.eqb x SP); [inversion E; exists (x :: b); reflexivity|].
              destruct (split_sp b) as [|w' ws'] eqn:Eb; [exfalso; exact (split_sp_nonempty _ Eb)|]. inversion E; subst.
              destruct (IH w' ws eq_refl) as [r ->]. exists r. reflexivity. }
          destruct (Hp _ _ _ Sp) as [r Er]. rewrite Er, has_prefix_app in Pf'. discriminate Pf'. }
        destruct Bl as [e Be]. rewrite Be. eexists. split; [reflexivity|discriminate].
    + destruct (beq _ msg_stored); [|destruct (beq _ msg_exists)]; eexists; split; try reflexivity; discriminate.
    + destruct (beq _ msg_stored); eexists; split; try reflexivity; discriminate.
    + destruct (beq _ msg_stored); eexists; split; try reflexivity; discriminate.
    + destruct (beq _ msg_deleted); [|destruct (beq _ msg_not_found)]; eexists; split; try reflexivity; discriminate.
    + destruct (beq _ msg_not_found); [eexists; split; [reflexivity|discriminate]|]. unfold bind. rewrite Sub.
      destruct (parse_int 64 d); cbn; eexists; split; try reflexivity; discriminate.
    + destruct (beq _ msg_not_found); [eexists; split; [reflexivity|discriminate]|]. unfold bind. rewrite Sub.
      destruct (parse_int 64 d); cbn; eexists; split; try reflexivity; discriminate.
    + destruct (beq _ msg_touched); [|destruct (beq _ msg_not_found)]; eexists; split; try reflexivity; discriminate.
    + destruct (beq _ msg_ok); [eexists; split; [reflexivity|discriminate]|]. unfold bind. rewrite Sub.
      eexists; split; [reflexivity|discriminate].
    + destruct (0 <? zlen (l ++ crlf)); eexists; split; try reflexivity; discriminate.
  - rewrite <- !app_assoc. cbn [text_resp]. rewrite (rmap_ok _ RItem _ _ _ _ (text_get_hit name k' e rest Nk Pk Zk Fk Ck Vk)).
    eexists. split; [reflexivity|discriminate].
  - rewrite <- !app_assoc. cbn [text_resp]. unfold rmap, bind, text_getmulti_resp.
    rewrite (text_values_ok l _ [] rest).
    + eexists. split; [reflexivity|discriminate].
    + eapply Forall_impl; [|exact F]. intros [k e] (Nk & Pk & Zk & Fk & Ck & Vk). cbn [fst snd] in *.
      split; [apply key_is_word; exact Pk|]. auto.
    + apply Nat.lt_succ_r. rewrite app_length. pose proof (hits_length (fun ke => value_line true (fst ke) (snd ke)) l) as Q.
      assert (length l <= length (flat_map (fun ke : bytes * entry => value_line true (fst ke) (snd ke)) l))%nat; [|lia].
      apply Q. intros x. discriminate.
Qed.
Print Assumptions C16_text_reply_consumed.
Example C16_text_met : text_reply (OGetMulti [B "k"]) (B "SERVER_ERROR out of memory" ++ eol)
  /\ text_reply (OGet (B "k")) (value_line true (B "k") (mkEntry (B "v") 5 None 9 false) ++ B "END" ++ eol).
Proof.
  split; constructor; try reflexivity; try (apply lineb_line; reflexivity); try (vm_compute; discriminate).
  split; [discriminate|]. split; [apply printable_utf8; repeat constructor; vm_compute; discriminate|]. vm_compute. repeat split; discriminate.
Qed.

(** Meta: single-line replies to every operation, and a VA block to a Get. What is missing is
    GetMulti, whose replies are several lines of which the client stops reading too early. *)
Theorem C16_meta_line_consumed_partial : forall o l rest, line l -> zlen l <= 4094 -> has_prefix (B "VA") l = false ->
  exists out, meta_resp o (l ++ eol ++ rest) = (out, rest) /\ out <> Panic.
Proof.
  intros o l rest Ln Sz Pf. pose proof (read_line l rest Ln Sz) as Rl.
  assert (Pf' : has_prefix (B "VA") (l ++ crlf) = false).
  { apply prefix_app_false; [exact Pf| |reflexivity]. intros a b E Nb Na.
    assert (b = B "A" \/ b = B "VA") as [-> | ->]; try reflexivity.
    destruct a as [|a0 [|a1 a]]; [congruence| |].
    - inversion E; subst. left. reflexivity.
    - inversion E; subst. destruct a; destruct b; try discriminate; congruence. }
  assert (Blk : exists e, meta_get_block (l ++ eol ++ rest) = (Err e, rest)).
  { unfold meta_get_block. unfold bind at 1. rewrite Rl. destruct (beq _ meta_end); [eexists; reflexivity|].
    destruct (beq _ meta_noop); [eexists; reflexivity|]. rewrite Pf'. eexists. reflexivity. }
  assert (Sub : exists d, go_sub (l ++ crlf) 0 (zlen (l ++ crlf) - 2) = fun s => (Ok d, s)).
  { exists l. unfold go_sub. replace (zlen (l ++ crlf) - 2) with (zlen l) by (rewrite zlen_app; change (zlen crlf) with 2; lia).
    rewrite go_slice_prefix. reflexivity. }
  destruct Sub as [d Sub].
  destruct o; cbn [meta_resp]; unfold runit, rmap;
    unfold meta_get_resp, meta_set_resp, text_add_resp, text_replace_resp, meta_delete_resp, text_incr_resp, meta_touch_resp,
           text_flush_resp, text_version_resp; unfold bind at 1; try (unfold bind at 1; rewrite Rl).
  - destruct Blk as [e Be]. unfold bind at 1. rewrite Be. eexists. split; [reflexivity|discriminate].
  - destruct Blk as [e Be]. unfold meta_getmulti_resp. cbn [meta_values]. rewrite Be.
    destruct e; eexists; split; try reflexivity; discriminate.
  - destruct (has_prefix meta_hd _); [|destruct (has_prefix meta_ns _); [|destruct (has_prefix meta_ex _); [|destruct (has_prefix meta_nf _)]]];
      eexists; split; try reflexivity; discriminate.
  - destruct (beq _ msg_stored); eexists; split; try reflexivity; discriminate.
  - destruct (beq _ msg_stored); eexists; split; try reflexivity; discriminate.
  - destruct (has_prefix meta_hd _); [|destruct (has_prefix meta_nf _); [|destruct (has_prefix meta_ex _)]];
      eexists; split; try reflexivity; discriminate.
  - destruct (beq _ msg_not_found); [eexists; split; [reflexivity|discriminate]|]. unfold bind. rewrite Sub.
    destruct (parse_int 64 d); cbn; eexists; split; try reflexivity; discriminate.
  - destruct (beq _ msg_not_found); [eexists; split; [reflexivity|discriminate]|]. unfold bind. rewrite Sub.
    destruct (parse_int 64 d); cbn; eexists; split; try reflexivity; discriminate.
  - destruct (has_prefix meta_hd _); eexists; split; try reflexivity; discriminate.
  - destruct (beq _ msg_ok); [eexists; split; [reflexivity|discriminate]|]. unfold bind. rewrite Sub.
    eexists; split; [reflexivity|discriminate].
  - destruct (0 <? zlen (l ++ crlf)); eexists; split; try reflexivity; discriminate.
Qed.
Print Assumptions C16_meta_line_consumed_partial.
Theorem C16_meta_get_consumed_partial : forall c k e rest, wf PMeta c -> c_cas c < 2 ^ 63 -> legal_key PMeta k -> lookup c k = Some e ->
  exists out, meta_resp (OGet k) (meta_get_reply c k (meta_get_flags false) ++ rest) = (out, rest) /\ out <> Panic.
Proof.
  intros c k e rest W C K L. cbn [meta_resp]. unfold meta_get_resp, rmap.
  rewrite (bind_ok _ _ _ _ _ (mkItem k (e_value e) (Some (be 4 (e_flags e))) (ttl c e) (e_cas e) []) rest).
  - eexists. split; [reflexivity|discriminate].
  - rewrite (bind_ok _ _ _ _ _ _ _ (meta_get_block_hit c k false e rest W C K L)). reflexivity.
Qed.
Print Assumptions C16_meta_get_consumed_partial.
(** The reply of a conforming server to a meta GetMulti of an absent and a present key. *)
Theorem C16_meta_refuted : exists c ks, wf PMeta c /\ legal PMeta (OGetMulti ks)
  /\ exists out left, meta_resp (OGetMulti ks) (snd (meta_intent c (OGetMulti ks))) = (Ok out, left) /\ left <> [].
Proof.
  exists demo_c, [B "a"; B "b"]. split; [apply demo_c_wf|]. split; [legal_tac|].
  eexists. eexists. split; [vm_compute; reflexivity|discriminate].
Qed.
Print Assumptions C16_meta_refuted.

(** Binary: every packet of the operation's opcode (any status, extras, key and value) is consumed
    whole by Get, Replace, Delete, Increment and Decrement. *)
Definition reads_whole_packet (o : op) (opc : Z) : Prop :=
  forall st cas ex k v rest, 0 <= st < 2 ^ 16 -> 0 <= cas < 2 ^ 64 -> zlen k < 2 ^ 16 -> zlen ex < 256 ->
  zlen ex + zlen k + zlen v < 2 ^ 32 ->
  exists out, bin_resp o (packet opc st cas ex k v ++ rest) = (out, rest).
Theorem C16_binary_packet_consumed_partial :
  (forall k, reads_whole_packet (OGet k) 0) /\ (forall i, reads_whole_packet (OReplace i) 3)
  /\ (forall k, reads_whole_packet (ODelete k) 4)
  /\ (forall k d e, reads_whole_packet (OIncr k d e) 5) /\ (forall k d e, reads_whole_packet (ODecr k d e) 6).
Proof.
  assert (G : forall opc, 0 <= opc < 256 -> forall st cas ex k v rest, 0 <= st < 2 ^ 16 -> 0 <= cas < 2 ^ 64 -> zlen k < 2 ^ 16 -> zlen ex < 256 ->
     zlen ex + zlen k + zlen v < 2 ^ 32 -> exists h, rs_opcode h = opc /\ rs_status h = st /\ rs_total h = zlen (ex ++ k ++ v)
       /\ read_res_header (packet opc st cas ex k v ++ rest) = (Ok h, (ex ++ k ++ v) ++ rest)
       /\ make_read_full (rs_total h) ((ex ++ k ++ v) ++ rest) = (Ok (ex ++ k ++ v), rest)).
  { intros. eexists. split; [|split; [|split; [|split; [apply read_packet; assumption|]]]]; cbn; auto.
    - rewrite !zlen_app. lia.
    - apply alloc_ok; rewrite ?zlen_app; lia. }
  assert (P : forall (A : Type) (m : reader A) (f : A -> result) s out rest, m s = (out, rest) -> exists o, rmap f m s = (o, rest)).
  { intros. unfold rmap, bind. rewrite H. destruct out; eexists; reflexivity. }
  repeat split.
  - intros k0 st cas ex k v rest H1 H2 H3 H4 H5. destruct (G 0 ltac:(lia) st cas ex k v rest H1 H2 H3 H4 H5) as (h & _ & _ & _ & E1 & E2).
    cbn [bin_resp]. unfold bin_get_resp.
    destruct (negb (rs_status h =? 0)) eqn:Z0.
    + eapply P. rewrite (bind_ok _ _ _ _ _ _ _ E1), (bind_ok _ _ _ _ _ _ _ E2). rewrite Z0. reflexivity.
    + unfold rmap. unfold bind at 1. rewrite (bind_ok _ _ _ _ _ _ _ E1), (bind_ok _ _ _ _ _ _ _ E2). rewrite Z0.
      unfold go_sub, bind. destruct (go_slice _ (body_off h) _); [|eexists; reflexivity|eexists; reflexivity].
      destruct (go_slice _ 0 _); eexists; reflexivity.
  - intros i0 st cas ex k v rest H1 H2 H3 H4 H5. destruct (G 3 ltac:(lia) st cas ex k v rest H1 H2 H3 H4 H5) as (h & O & _ & _ & E1 & E2).
    cbn [bin_resp]. unfold runit. unfold bin_body_resp.
    destruct (negb (rs_status h =? 0)) eqn:Z0; eapply P; rewrite (bind_ok _ _ _ _ _ _ _ E1); rewrite O; cbn [op_replace Z.eqb Pos.eqb negb];
      rewrite (bind_ok _ _ _ _ _ _ _ E2); rewrite Z0; reflexivity.
  - intros k0 st cas ex k v rest H1 H2 H3 H4 H5. destruct (G 4 ltac:(lia) st cas ex k v rest H1 H2 H3 H4 H5) as (h & O & _ & _ & E1 & E2).
    cbn [bin_resp]. unfold runit. unfold bin_body_resp.
    destruct (negb (rs_status h =? 0)) eqn:Z0; eapply P; rewrite (bind_ok _ _ _ _ _ _ _ E1); rewrite O; cbn [op_delete Z.eqb Pos.eqb negb];
      rewrite (bind_ok _ _ _ _ _ _ _ E2); rewrite Z0; reflexivity.
  - intros k0 d e st cas ex k v rest H1 H2 H3 H4 H5. destruct (G 5 ltac:(lia) st cas ex k v rest H1 H2 H3 H4 H5) as (h & O & _ & T & E1 & E2).
    cbn [bin_resp].
    assert (X : exists out, bin_incr_resp op_increment (packet 5 st cas ex k v ++ rest) = (out, rest)).
    { unfold bin_incr_resp. rewrite (bind_ok _ _ _ _ _ _ _ E1); rewrite O; cbn [op_increment Z.eqb Pos.eqb negb].
      destruct (0 <? rs_total h) eqn:T0.
      - rewrite (bind_ok _ _ _ _ _ _ _ E2). destruct (negb (rs_status h =? 0)); [eexists; reflexivity|].
        destruct (zlen (ex ++ k ++ v) <? 8); eexists; reflexivity.
      - apply Z.ltb_ge in T0. rewrite T in T0. pose proof (zlen_nonneg _ (ex ++ k ++ v)). rewrite (zlen_zero _ (ex ++ k ++ v)) by lia.
        cbn [app]. unfold bind at 1. cbn [ret]. destruct (negb (rs_status h =? 0)); eexists; reflexivity. }
    destruct X as [out X]. eapply P. exact X.
  - intros k0 d e st cas ex k v rest H1 H2 H3 H4 H5. destruct (G 6 ltac:(lia) st cas ex k v rest H1 H2 H3 H4 H5) as (h & O & _ & T & E1 & E2).
    cbn [bin_resp].
    assert (X : exists out, bin_incr_resp op_decrement (packet 6 st cas ex k v ++ rest) = (out, rest)).
    { unfold bin_incr_resp. rewrite (bind_ok _ _ _ _ _ _ _ E1); rewrite O; cbn [op_decrement Z.eqb Pos.eqb negb].
      destruct (0 <? rs_total h) eqn:T0.
      - rewrite (bind_ok _ _ _ _ _ _ _ E2). destruct (negb (rs_status h =? 0)); [eexists; reflexivity|].
        destruct (zlen (ex ++ k ++ v) <? 8); eexists; reflexivity.
      - apply Z.ltb_ge in T0. rewrite T in T0. pose proof (zlen_nonneg _ (ex ++ k ++ v)). rewrite (zlen_zero _ (ex ++ k ++ v)) by lia.
        cbn [app]. unfold bind at 1. cbn [ret]. destruct (negb (rs_status h =? 0)); eexists; reflexivity. }
    destruct X as [out X]. eapply P. exact X.
Qed.
Print Assumptions C16_binary_packet_consumed_partial.
(** A refused Set, and what the next Get then returns instead of the stored value. *)
Theorem C16_binary_refuted : ~ forall i, reads_whole_packet (OSet i) 1.
Proof.
  intro H. destruct (H zero_item 2 0 [] [] (B "Data exists for key.") []) as [out R]; try (vm_compute; split; congruence); try (vm_compute; reflexivity).
  vm_compute in R. discriminate.
Qed.
Print Assumptions C16_binary_refuted.
Theorem C16_binary_wrong_reply_refuted : exists evs, Forall (legal_event PBinary) evs
  /\ exists l a b cc, run bin_client (fresh_link demo_c reset_header) evs = (l, [Ok RUnit; a; b; cc])
  /\ snd (spec_run PBinary [] demo_c evs) = [SOk RUnit; SErr EExists; SOk (RItem (mkItem (B "k") (B "v") (Some (be 4 0)) 0 1 [])); SOk RUnit]
  /\ a = Err EExists /\ b = Err invalid_response.
Proof.
  exists [Do (OAdd (demo_item "k" "v" 0 0 0)); Do (OAdd (demo_item "k" "v" 0 0 0)); Do (OGet (B "k")); Do (ODelete (B "k"))].
  split; [legal_tac|]. do 4 eexists. split; [vm_compute; reflexivity|]. split; [vm_compute; reflexivity|]. split; reflexivity.
Qed.
Print Assumptions C16_binary_wrong_reply_refuted.
Example C16_binary_met : exists out, bin_resp (ODelete (B "k")) (not_found_packet 4 ++ B "next") = (out, B "next").
Proof. eexists. vm_compute. reflexivity. Qed.

(** ** C24 *)
(** The request header object after a history of calls. *)
Definition pooled (ops : list op) : req_header := fold_left (fun h o => snd (bin_req h o)) ops reset_header.
Definition C24_deterministic (ops ops' : list op) (o : op) : Prop := fst (bin_req (pooled ops) o) = fst (bin_req (pooled ops') o).

(** No item carried a cas number. *)
Definition no_cas (o : op) : Prop := match o with OSet i | OAdd i | OReplace i => it_cas i = 0 | _ => True end.
Lemma pooled_cas : forall ops, Forall no_cas ops -> rq_cas (pooled ops) = 0 /\ rq_data_type (pooled ops) = 0.
Proof.
  intro ops. unfold pooled. assert (G : rq_cas reset_header = 0 /\ rq_data_type reset_header = 0) by (split; reflexivity).
  revert G. generalize reset_header. induction ops as [|o ops IH]; intros h G F; [exact G|]. inversion F; subst. cbn [fold_left].
  apply IH; [|assumption]. destruct G as [G1 G2].
  destruct o; cbn [no_cas] in *; try (split; reflexivity); try (split; assumption);
    (split; [|reflexivity]); cbn; assumption.
Qed.
Theorem C24_request_depends_on_arguments_partial : forall ops ops' o,
  (match o with OIncr _ _ _ | ODecr _ _ _ => Forall no_cas ops /\ Forall no_cas ops' | _ => True end) ->
  C24_deterministic ops ops' o.
Proof.
  intros ops ops' o H. unfold C24_deterministic. destruct o; try reflexivity; destruct H as [H H'];
    apply pooled_cas in H, H'; destruct H as [H1 H2], H' as [H1' H2']; cbn [bin_req bin_incr_req fst]; unfold encode_header; cbn;
    rewrite H1, H2, H1', H2'; reflexivity.
Qed.
Print Assumptions C24_request_depends_on_arguments_partial.
(** Incrementing after a compare-and-swap sends that cas number with the increment. *)
Theorem C24_request_refuted : ~ forall ops ops' o, C24_deterministic ops ops' o.
Proof. intro H. specialize (H [OSet (demo_item "k" "v" 0 0 7)] [] (OIncr (B "n") 1 0)). vm_compute in H. discriminate. Qed.
Print Assumptions C24_request_refuted.
(** ... and the increment of another key then fails although the counter exists. *)
Theorem C24_stale_cas_breaks_increment_refuted : exists evs, Forall (legal_event PBinary) evs
  /\ snd (spec_run PBinary [] demo_c evs) = [SOk RUnit; SOk RUnit; SOk RUnit; SOk (RInt 6)]
  /\ exists m, snd (run bin_client (fresh_link demo_c reset_header) evs) = [Ok RUnit; Ok RUnit; Ok RUnit; Err (EMsg m)].
Proof.
  exists [Do (OSet (demo_item "n" "5" 0 0 0)); Do (OSet (demo_item "k" "v" 0 0 0)); Do (OSet (demo_item "k" "w" 0 0 2)); Do (OIncr (B "n") 1 0)].
  split; [legal_tac|]. split; [vm_compute; reflexivity|]. eexists. vm_compute. reflexivity.
Qed.
Print Assumptions C24_stale_cas_breaks_increment_refuted.
Example C24_met : Forall no_cas [OSet (demo_item "k" "v" 0 0 0); OGet (B "k")].
Proof. repeat constructor. Qed.

(** ** C25 *)
(** [rq] is a header followed by extras, key and value of the lengths it announces. *)
Definition describes (rq : bytes) (opc : Z) (ex k v : bytes) : Prop :=
  exists hd, rq = hd ++ ex ++ k ++ v /\ length hd = 24%nat
  /\ num_at hd 0 1 = 128 /\ num_at hd 1 1 = opc
  /\ num_at hd 2 2 = zlen k /\ num_at hd 4 1 = zlen ex /\ num_at hd 8 4 = zlen ex + zlen k + zlen v.
(** The packet of each single-command operation. *)
Definition bin_parts (o : op) : option (Z * bytes * bytes * bytes) :=
  let store opc i := Some (opc, match it_flags i with Some f => firstn 4 f | None => be 4 0 end ++ be 4 (u32 (it_exp i)), it_key i, it_value i) in
  match o with
  | OGet k => Some (0, [], k, [])
  | ODelete k => Some (4, [], k, [])
  | OSet i => store 1 i
  | OAdd i => store 2 i
  | OReplace i => store 3 i
  | OIncr k d e => Some (5, be 8 (u64 d) ++ be 8 1 ++ be 4 (u32 e), k, [])
  | ODecr k d e => Some (6, be 8 (u64 d) ++ be 8 1 ++ be 4 (u32 e), k, [])
  | OTouch k e => Some (28, be 4 (u32 e), k, [])
  | OFlush => Some (8, [], [], [])
  | OVersion => Some (11, [], [], [])
  | OGetMulti _ => None
  end.
Lemma header_nums : forall h, 0 <= rq_opcode h < 256 -> 0 <= rq_extra_len h < 256 -> 0 <= rq_key_len h < 2 ^ 16 -> 0 <= rq_total h < 2 ^ 32 ->
  length (encode_header h) = 24%nat /\ num_at (encode_header h) 0 1 = 128 /\ num_at (encode_header h) 1 1 = rq_opcode h
  /\ num_at (encode_header h) 2 2 = rq_key_len h /\ num_at (encode_header h) 4 1 = rq_extra_len h /\ num_at (encode_header h) 8 4 = rq_total h.
Proof.
  intros h O X K T. split; [apply encode_length|]. split; [reflexivity|].
  split; [unfold num_at; cbn [encode_header skipn firstn app]; apply unbe1; exact O|].
  split.
  { unfold num_at, encode_header. cbn [skipn]. change (firstn 2 (be 2 (rq_key_len h) ++ ?x)) with (be 2 (rq_key_len h)).
    apply unbe_be_small. change (2 ^ (8 * Z.of_nat 2)) with (2 ^ 16). exact K. }
  split.
  { unfold num_at, encode_header. cbn [be skipn firstn app]. apply unbe1. exact X. }
  { unfold num_at, encode_header. cbn [be skipn firstn app].
    change (unbe (be 4 (rq_total h)) = rq_total h). apply unbe_be_small. change (2 ^ (8 * Z.of_nat 4)) with (2 ^ 32). exact T. }
Qed.
Lemma some4_inj : forall (A C D F : Type) (a a' : A) (b b' : C) (c c' : D) (d d' : F),
  Some (a, b, c, d) = Some (a', b', c', d') -> a = a' /\ b = b' /\ c = c' /\ d = d'.
Proof. intros. inversion H. auto. Qed.
Lemma ok_inj : forall (A : Type) (a b : A), Ok a = Ok b -> a = b.
Proof. intros. inversion H. auto. Qed.
Theorem C25_length_fields_partial : forall h o rq opc ex k v,
  fst (bin_req h o) = Ok rq -> bin_parts o = Some (opc, ex, k, v) ->
  zlen k < 2 ^ 16 -> zlen ex + zlen k + zlen v < 2 ^ 32 ->
  describes rq opc ex k v.
Proof.
  intros h o rq opc ex k v Q P K T.
  pose proof (zlen_nonneg _ k) as Kn. pose proof (zlen_nonneg _ v) as Vn. pose proof (zlen_nonneg _ ex) as En.
  assert (G : forall hd, rq = encode_header hd ++ ex ++ k ++ v -> rq_opcode hd = opc -> 0 <= opc < 256 -> zlen ex < 256 ->
     rq_extra_len hd = zlen ex -> rq_key_len hd = zlen k -> rq_total hd = zlen ex + zlen k + zlen v -> describes rq opc ex k v).
  { intros hd E1 E2 E3 E4 E5 E6 E7. exists (encode_header hd). split; [exact E1|].
    destruct (header_nums hd) as (N1 & N2 & N3 & N4 & N5 & N6); lia. }
  assert (Z4 : forall f : bytes, zlen f <? 4 = false -> zlen (firstn 4 f) = 4).
  { intros f Hf. apply Z.ltb_ge in Hf. unfold zlen in *. rewrite firstn_length. lia. }
  destruct o; cbn [bin_parts bin_req bin_incr_req bin_touch_req fst] in *; try discriminate P;
    try (match type of Q with Ok _ = Ok _ => idtac end; apply some4_inj in P; destruct P as (<- & <- & <- & <-); apply (f_equal (fun x => match x with Ok a => a | _ => [] end)) in Q; cbv beta iota in Q; subst rq).
  - apply (G (key_header op_get k0)); try reflexivity; try lia; cbn; rewrite ?app_nil_r; try reflexivity.
    + rewrite u16_small by lia. reflexivity. + rewrite u32_small; change (zlen (@nil ascii)) with 0 in *; lia.
  - unfold bin_store_req in Q. cbn [fst] in Q. apply some4_inj in P. destruct P as (<- & <- & <- & <-).
    assert (F : exists f4, match it_flags i with Some f => firstn 4 f | None => be 4 0 end = f4 /\ zlen f4 = 4
                /\ Ok rq = Ok (encode_header (store_header op_set i) ++ f4 ++ be 4 (u32 (it_exp i)) ++ it_key i ++ it_value i)).
    { destruct (it_flags i) as [f|]; [destruct (zlen f <? 4) eqn:Zf; [discriminate Q|]|]; eexists; (split; [reflexivity|]); (split; [|symmetry; exact Q]);
        [apply Z4; exact Zf|reflexivity]. }
    destruct F as (f4 & <- & Zf & Qf). apply ok_inj in Qf. subst rq. rewrite zlen_app, zlen_be, Zf in T.
    apply (G (store_header op_set i)); try reflexivity; try lia; rewrite ?zlen_app, ?zlen_be, ?Zf.
    + rewrite <- !app_assoc. reflexivity. + lia. + reflexivity. + cbn [store_header rq_key_len]. apply u16_small. lia. + cbn [store_header rq_total]. rewrite u32_small; lia.
  - unfold bin_store_req in Q. cbn [fst] in Q. apply some4_inj in P. destruct P as (<- & <- & <- & <-).
    assert (F : exists f4, match it_flags i with Some f => firstn 4 f | None => be 4 0 end = f4 /\ zlen f4 = 4
                /\ Ok rq = Ok (encode_header (store_header op_add i) ++ f4 ++ be 4 (u32 (it_exp i)) ++ it_key i ++ it_value i)).
    { destruct (it_flags i) as [f|]; [destruct (zlen f <? 4) eqn:Zf; [discriminate Q|]|]; eexists; (split; [reflexivity|]); (split; [|symmetry; exact Q]);
        [apply Z4; exact Zf|reflexivity]. }
    destruct F as (f4 & <- & Zf & Qf). apply ok_inj in Qf. subst rq. rewrite zlen_app, zlen_be, Zf in T.
    apply (G (store_header op_add i)); try reflexivity; try lia; rewrite ?zlen_app, ?zlen_be, ?Zf.
    + rewrite <- !app_assoc. reflexivity. + lia. + reflexivity. + cbn [store_header rq_key_len]. apply u16_small. lia. + cbn [store_header rq_total]. rewrite u32_small; lia.
  - unfold bin_store_req in Q. cbn [fst] in Q. apply some4_inj in P. destruct P as (<- & <- & <- & <-).
    assert (F : exists f4, match it_flags i with Some f => firstn 4 f | None => be 4 0 end = f4 /\ zlen f4 = 4
                /\ Ok rq = Ok (encode_header (store_header op_replace i) ++ f4 ++ be 4 (u32 (it_exp i)) ++ it_key i ++ it_value i)).
    { destruct (it_flags i) as [f|]; [destruct (zlen f <? 4) eqn:Zf; [discriminate Q|]|]; eexists; (split; [reflexivity|]); (split; [|symmetry; exact Q]);
        [apply Z4; exact Zf|reflexivity]. }
    destruct F as (f4 & <- & Zf & Qf). apply ok_inj in Qf. subst rq. rewrite zlen_app, zlen_be, Zf in T.
    apply (G (store_header op_replace i)); try reflexivity; try lia; rewrite ?zlen_app, ?zlen_be, ?Zf.
    + rewrite <- !app_assoc. reflexivity. + lia. + reflexivity. + cbn [store_header rq_key_len]. apply u16_small. lia. + cbn [store_header rq_total]. rewrite u32_small; lia.
  - apply (G (key_header op_delete k0)); try reflexivity; try lia; cbn; rewrite ?app_nil_r; try reflexivity.
    + rewrite u16_small by lia. reflexivity. + rewrite u32_small; change (zlen (@nil ascii)) with 0 in *; lia.
  - eapply G; [rewrite app_nil_r, <- !app_assoc; reflexivity|reflexivity|lia|reflexivity|reflexivity| |]; cbn [rq_key_len rq_total].
    + apply u16_small; lia. + change (zlen (@nil ascii)) with 0 in *. rewrite !zlen_app, !zlen_be in *. rewrite u32_small; lia.
  - eapply G; [rewrite app_nil_r, <- !app_assoc; reflexivity|reflexivity|lia|reflexivity|reflexivity| |]; cbn [rq_key_len rq_total].
    + apply u16_small; lia. + change (zlen (@nil ascii)) with 0 in *. rewrite !zlen_app, !zlen_be in *. rewrite u32_small; lia.
  - eapply G; [rewrite app_nil_r; reflexivity|reflexivity|lia|reflexivity|reflexivity| |]; cbn [rq_key_len rq_total].
    + apply u16_small; lia. + change (zlen (@nil ascii)) with 0 in *. rewrite !zlen_be in *. rewrite u32_small; lia.
  - apply (G (bare_header op_flush)); try reflexivity; lia.
  - apply (G (bare_header op_version)); try reflexivity; lia.
Qed.
Print Assumptions C25_length_fields_partial.
(** A key of 65536 bytes is announced as a key of length 0. *)
Lemma long_key_exists : forall n, 0 <= n -> exists k : bytes, zlen k = n.
Proof. intros n Hn. exists (repeat "a"%char (Z.to_nat n)). unfold zlen. rewrite repeat_length, Z2Nat.id; lia. Qed.
Lemma long_key_fails : forall k : bytes, zlen k = 65536 -> ~ (forall h o rq opc ex k v,
  fst (bin_req h o) = Ok rq -> bin_parts o = Some (opc, ex, k, v) -> describes rq opc ex k v).
Proof.
  intros k Lk H.
  destruct (H reset_header (OGet k) _ 0 [] k [] eq_refl eq_refl) as (hd & E & L & _ & _ & N & _).
  assert (E24 : hd = encode_header (key_header op_get k)).
  { apply (f_equal (firstn 24)) in E. change (@nil ascii ++ k ++ []) with (k ++ []) in E.
    rewrite <- L in E at 2. rewrite firstn_app_exact in E. rewrite <- E. rewrite <- (encode_length (key_header op_get k)). apply firstn_app_exact. }
  subst hd. destruct (header_nums (key_header op_get k)) as (_ & _ & _ & N2 & _).
  - cbn [key_header rq_opcode]. unfold op_get. lia.
  - cbn [key_header rq_extra_len]. lia.
  - cbn [key_header rq_key_len]. rewrite Lk. split; vm_compute; congruence.
  - cbn [key_header rq_total]. rewrite Lk. split; vm_compute; congruence.
  - rewrite N2 in N. cbn [key_header rq_key_len] in N. rewrite Lk in N. vm_compute in N. discriminate N.
Qed.
Theorem C25_length_fields_refuted : ~ forall h o rq opc ex k v,
  fst (bin_req h o) = Ok rq -> bin_parts o = Some (opc, ex, k, v) -> describes rq opc ex k v.
Proof. destruct (long_key_exists 65536) as [k Lk]; [lia|]. exact (long_key_fails k Lk). Qed.
Print Assumptions C25_length_fields_refuted.
Example C25_met : let i := demo_item "k" "value" 7 60 5 in
  (exists rq, fst (bin_req reset_header (OSet i)) = Ok rq) /\ exists ex, bin_parts (OSet i) = Some (1, ex, B "k", B "value").
Proof. cbn zeta. split; eexists; vm_compute; reflexivity. Qed.

(** ** C26 *)
(** The 24 bytes of a response header, as memcached's binary protocol lays them out. *)
Definition response_header (opc kl el dt st total opaque cas : Z) : bytes :=
  byte_of 129 :: byte_of opc :: be 2 kl ++ byte_of el :: byte_of dt :: be 2 st ++ be 4 total ++ be 4 opaque ++ be 8 cas.
Theorem C26_header_round_trip : forall opc kl el dt st total opaque cas rest,
  0 <= opc < 2 ^ 8 -> 0 <= kl < 2 ^ 16 -> 0 <= el < 2 ^ 8 -> 0 <= dt < 2 ^ 8 -> 0 <= st < 2 ^ 16 -> 0 <= total < 2 ^ 32 ->
  0 <= opaque < 2 ^ 32 -> 0 <= cas < 2 ^ 64 ->
  read_res_header (response_header opc kl el dt st total opaque cas ++ rest)
  = (Ok (mkResHeader opc kl el dt st total opaque cas), rest).
Proof.
  intros opc kl el dt st total opaque cas rest H1 H2 H3 H4 H5 H6 H7 H8.
  unfold read_res_header. set (hb := response_header opc kl el dt st total opaque cas).
  assert (L : zlen hb = 24) by reflexivity.
  rewrite (bind_ok _ _ _ _ _ _ _ (read_full_eq 24 hb rest (eq_sym L))).
  assert (M : byte_at hb 0 = 129) by reflexivity. rewrite M. cbn [negb Z.eqb Pos.eqb magic_response].
  assert (A1 : byte_at hb 1 = opc) by (unfold byte_at; cbn; rewrite code_byte_of; apply Z.mod_small; exact H1).
  assert (A4 : byte_at hb 4 = el) by (unfold byte_at; cbn; rewrite code_byte_of; apply Z.mod_small; exact H3).
  assert (A5 : byte_at hb 5 = dt) by (unfold byte_at; cbn; rewrite code_byte_of; apply Z.mod_small; exact H4).
  assert (A2 : sub hb 2 2 = be 2 kl) by reflexivity.
  assert (A6 : sub hb 6 2 = be 2 st) by reflexivity.
  assert (A8 : sub hb 8 4 = be 4 total) by reflexivity.
  assert (A12 : sub hb 12 4 = be 4 opaque) by reflexivity.
  assert (A16 : sub hb 16 8 = be 8 cas) by reflexivity.
  rewrite A1, A4, A5, A2, A6, A8, A12, A16. rewrite !unbe_be.
  change (2 ^ (8 * Z.of_nat 2)) with (2 ^ 16). change (2 ^ (8 * Z.of_nat 4)) with (2 ^ 32). change (2 ^ (8 * Z.of_nat 8)) with (2 ^ 64).
  rewrite !Z.mod_small by assumption. reflexivity.
Qed.
Print Assumptions C26_header_round_trip.
Theorem C26_wrong_magic_rejected : forall b rest, length b = 24%nat -> num_at b 0 1 <> 129 ->
  read_res_header (b ++ rest) = (Err (EMsg (B "memcached: invalid response")), rest).
Proof.
  intros b rest L M. unfold read_res_header. rewrite (bind_ok _ _ _ _ _ b rest) by (apply read_full_eq; unfold zlen; rewrite L; reflexivity).
  assert (E : byte_at b 0 = num_at b 0 1).
  { destruct b as [|x b]; [discriminate L|]. unfold num_at, byte_at. cbn. unfold unbe. cbn. lia. }
  rewrite E. apply Z.eqb_neq in M. unfold magic_response. rewrite M. reflexivity.
Qed.
Print Assumptions C26_wrong_magic_rejected.
(** And in a whole response: no operation accepts a reply that starts with another byte. *)
Theorem C26_wrong_magic_rejected_by_every_call : forall o x b, length b = 23%nat -> code x <> 129 ->
  exists rest, bin_resp o (x :: b) = (Err (EMsg (B "memcached: invalid response")), rest).
Proof.
  intros o x b L M.
  assert (R : read_res_header (x :: b) = (Err (EMsg (B "memcached: invalid response")), [])).
  { pose proof (C26_wrong_magic_rejected (x :: b) []) as Q. rewrite app_nil_r in Q. apply Q; [cbn; lia|].
    unfold num_at. cbn. unfold unbe. cbn. lia. }
  assert (G : forall (A : Type) (f : A -> result) (k : res_header -> reader A), rmap f (bind read_res_header k) (x :: b)
    = (Err (EMsg (B "memcached: invalid response")), [])) by (intros; unfold rmap, bind; rewrite R; reflexivity).
  exists []. destruct o; cbn [bin_resp]; unfold runit; try apply G.
  unfold rmap. unfold bind at 1. unfold bin_getmulti_resp. cbn [bin_values].
  unfold bin_getmulti_step. unfold bind at 1. rewrite R. reflexivity.
Qed.
Print Assumptions C26_wrong_magic_rejected_by_every_call.
Example C26_met : length (response_header 0 3 4 0 1 12 99 77) = 24%nat /\ read_res_header (response_header 0 3 4 0 1 12 99 77)
  = (Ok (mkResHeader 0 3 4 0 1 12 99 77), []).
Proof. split; vm_compute; reflexivity. Qed.
