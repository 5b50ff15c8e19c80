(** * Property C38: what this repository's client makes of this repository's server's replies. *)
From Verif Require Import GoBytes GoNum GoIO GoScan Item ClientText ClientMeta ClientBinary Cache Daemon Spec Call Guard
  ServerTypes ServerParse ServerWrite Serve ServerSpec PLib PScan PDaemon PCache PText PMeta PReader PBinary PServer PServe PReply.
From Verif Require PClient.
Local Open Scope Z_scope.

(** One call over a fresh connection: the client sends its request, the server serves it with handler
    [h] in state [st], the client reads the replies. The result and the bytes left unread. *)
Definition exchange {H} (pr : proto) (name : bytes) (hd : req_header) (h : handler H) (st : H) (o : op) : outcome result * bytes :=
  match fst (cl_req (client_of pr name) hd o) with
  | Ok rq => cl_resp (client_of pr name) o (replies (snd (fst (serve_conn h st rq))))
  | Err e => (Err e, [])
  | Panic => (Panic, [])
  end.

(** The handler, asked for [w] in state [st] by a request with its fields where protocol [pr] puts them,
    answers [res] (whatever it does to its state). *)
Definition gives (pr : proto) {H} (h : handler H) (st : H) (w : wish) (res : list sresponse) : Prop :=
  forall q, understood q = w -> tidy pr q = true -> snd (h st q) = Ok res.

(** The flags of an answer as a number. *)
Definition response_flags (r : sresponse) : Z := match r_flags r with Some f => unbe f | None => 0 end.
(** An answer that carries an item: no flags or four bytes, at most 2^30 bytes of data, a legal key. *)
Definition item_response (pr : proto) (r : sresponse) : Prop :=
  legal_key pr (r_key r) /\ zlen (r_value r) <= 2 ^ 30
  /\ match r_flags r with Some f => length f = 4%nat | None => True end.
(** The client returned what the handler answered. *)
Definition same_item (r : sresponse) (i : item) : Prop :=
  it_key i = r_key r /\ it_value i = r_value r /\ item_flags i = response_flags r.

Lemma exchange_one : forall H (h : handler H) st pr name hd o w res out,
  legal pr o -> supported pr o -> intended pr o = [w] -> gives pr h st w res ->
  (forall q, understood q = w -> flavour pr q = true -> write_response (proto_of pr) q res = Ok out) ->
  exchange pr name hd h st o = cl_resp (client_of pr name) o out.
Proof.
  intros H h st pr name hd o w res out L S W G Wr. destruct (request_ok pr name hd o L) as (rq & R). unfold exchange. rewrite R.
  destruct (call_serve H h st pr name hd o rq L S R) as (qs & U & F & ->). rewrite W in U.
  destruct qs as [|q [|? ?]]; try discriminate U. cbn in U. assert (Uq : understood q = w) by congruence.
  inversion F as [|? ? Fq _]; subst. apply andb_true_iff in Fq. destruct Fq as [Fq Tq]. specialize (G q eq_refl Tq). specialize (Wr q eq_refl Fq). cbn [serve_list].
  destruct (h st q) as [st' x] eqn:Hq. cbn [snd] in G. subst x. rewrite Wr. cbn [then_serve].
  destruct (serve_rest (proto_of pr) h st' []) as [[a b] c] eqn:Sr. cbn [fst snd].
  assert (Eb : b = []). { unfold serve_rest in Sr. cbn [length serve_as] in Sr. destruct (proto_of pr); cbn in Sr; congruence. }
  subst b. unfold replies. cbn [app flat_map sd_reply]. rewrite app_nil_r. reflexivity.
Qed.

Lemma flag_number_ok : forall pr r, item_response pr r -> flag_number r = Ok (response_flags r) /\ 0 <= response_flags r < 2 ^ 32.
Proof.
  intros pr r (_ & _ & F). unfold flag_number, response_flags. destruct (r_flags r) as [f|]; cbn [opt_bytes].
  - assert (Z4 : zlen f = 4) by (unfold zlen; rewrite F; reflexivity). rewrite Z4. change (0 <? 4) with true. change (4 <? 4) with false. cbv iota.
    rewrite firstn_all2 by lia. split; [reflexivity|]. pose proof (unbe_range f) as R. rewrite Z4 in R. exact R.
  - split; [reflexivity|lia].
Qed.
Lemma text_key_word : forall k, legal_key PText k -> k <> [] /\ utf8_word k /\ zlen k <= 250.
Proof. intros k L. destruct (legal_key_props k L) as (A & C & _). destruct L as [L _]. split; [exact A|]. split; [exact C|lia]. Qed.

(** ** Get *)
(** A get answered with one item gives that item: key and value with all three protocols, the flags
    with text and binary. The meta server drops the flags, see the refuted theorem. *)
Theorem C38_get_answer_partial : forall H (h : handler H) st pr name hd k r,
  legal_key pr k -> gives pr h st (get_wish [k]) [r] -> item_response pr r -> r_key r = k ->
  exists i, exchange pr name hd h st (OGet k) = (Ok (RItem i), [])
    /\ it_key i = k /\ it_value i = r_value r /\ (pr <> PMeta -> same_item r i).
Proof.
  intros H h st pr name hd k r L G I K. destruct (flag_number_ok pr r I) as [Fn Fr]. destruct I as (Lr & V & F). pose proof (zlen_nonneg _ (r_value r)).
  destruct pr.
  - destruct (text_key_word k L) as (K1 & K2 & K3).
    exists (mkItem k (r_value r) (Some (be 4 (response_flags r))) 0 0 name). split; [|split; [reflexivity|split; [reflexivity|]]].
    + rewrite (exchange_one H h st PText name hd (OGet k) _ _ ((value_head k (response_flags r) (zlen (r_value r)) ++ crlf ++ r_value r ++ crlf) ++ text_proto_end ++ []) L I eq_refl G).
      * cbn [client_of text_client cl_resp text_resp]. apply rmap_ok. apply text_get_one; assumption.
      * intros q Uq Fq. unfold understood in Uq. injection Uq as Uo _ _ _ _ _ _. unfold flavour in Fq. rewrite Uo in Fq.
        cbn [proto_of write_response]. unfold write_ascii_response. rewrite Uo. destruct (q_get q); [discriminate|]. cbn [map concat_outcomes].
        unfold ascii_get_block. rewrite Fn, K. cbn [oapp]. unfold value_head. rewrite ?app_nil_r. repeat rewrite <- app_assoc. reflexivity.
    + intros _. split; [symmetry; exact K|]. split; [reflexivity|]. unfold item_flags. cbn [it_flags]. apply unbe_be_small. exact Fr.
  - exists (mkItem k (r_value r) None 0 0 []). split; [|split; [reflexivity|split; [reflexivity|congruence]]].
    rewrite (exchange_one H h st PMeta name hd (OGet k) _ _ ((B "VA " ++ dec (zlen (r_value r)) ++ B " v" ++ crlf ++ r_value r ++ crlf) ++ []) L I eq_refl G).
    + cbn [client_of meta_client cl_resp meta_resp]. apply rmap_ok. apply meta_get_v. exact V.
    + intros q Uq Fq. unfold understood in Uq. injection Uq as Uo _ _ _ _ _ _. unfold flavour in Fq. rewrite Uo in Fq.
      cbn [proto_of write_response]. unfold write_ascii_response. rewrite Uo. destruct (q_get q) as [g|]; [|discriminate].
      apply andb_true_iff in Fq. destruct Fq as [Fq Fv]. apply beq_eq in Fq. cbn [map concat_outcomes]. unfold meta_get_block_bytes. rewrite Fn, Fq, Fv.
      cbn [oapp flat_map meta_flag_text B list_ascii_of_string Ascii.eqb Bool.eqb app]. rewrite ?app_nil_r. repeat (rewrite <- app_assoc; cbn [app]). reflexivity.
  - exists (mkItem k (r_value r) (Some (opt_bytes (r_flags r))) 0 0 []). destruct L as [L _].
    assert (Lf : zlen (opt_bytes (r_flags r)) <= 4) by (destruct (r_flags r); cbn; [unfold zlen; rewrite F; cbn; lia|lia]).
    split; [|split; [reflexivity|split; [reflexivity|]]].
    + rewrite (exchange_one H h st PBinary name hd (OGet k) _ _ (packet 0 0 0 (opt_bytes (r_flags r)) (r_key r) (r_value r) ++ []) (conj L I) I eq_refl G).
      * cbn [client_of bin_client cl_resp bin_resp]. apply rmap_ok. rewrite K. apply bin_get_packet; lia.
      * intros q Uq Fq. unfold understood in Uq. injection Uq as Uo _ _ _ _ _ _.
        cbn [proto_of write_response]. unfold write_binary_response. rewrite Uo. cbn [flat_map]. change (1 <? zlen [r]) with false. rewrite !app_nil_r.
        rewrite binary_response_packet by (rewrite ?K; lia). reflexivity.
    + intros _. split; [symmetry; exact K|]. split; [reflexivity|]. unfold item_flags, response_flags. cbn [it_flags]. destruct (r_flags r); reflexivity.
Qed.
Print Assumptions C38_get_answer_partial.

(** A get answered with no item is a miss with text and meta. (With binary nothing is written: C37.) *)
Theorem C38_miss : forall H (h : handler H) st pr name hd k, pr <> PBinary ->
  legal_key pr k -> gives pr h st (get_wish [k]) [] -> exchange pr name hd h st (OGet k) = (Err ENotFound, []).
Proof.
  intros H h st pr name hd k Np L G. destruct pr; [| |congruence].
  - rewrite (exchange_one H h st PText name hd (OGet k) _ _ text_proto_end L I eq_refl G).
    + reflexivity.
    + intros q Uq Fq. unfold understood in Uq. injection Uq as Uo _ _ _ _ _ _. unfold flavour in Fq. rewrite Uo in Fq.
      cbn [proto_of write_response]. unfold write_ascii_response. rewrite Uo. destruct (q_get q); [discriminate|]. reflexivity.
  - rewrite (exchange_one H h st PMeta name hd (OGet k) _ _ meta_proto_end L I eq_refl G).
    + reflexivity.
    + intros q Uq Fq. unfold understood in Uq. injection Uq as Uo _ _ _ _ _ _. unfold flavour in Fq. rewrite Uo in Fq.
      cbn [proto_of write_response]. unfold write_ascii_response. rewrite Uo. destruct (q_get q); [|discriminate]. reflexivity.
Qed.
Print Assumptions C38_miss.

(** ** GetMulti *)
Theorem C38_text_getmulti_answer : forall H (h : handler H) st name hd ks res,
  legal PText (OGetMulti ks) -> gives PText h st (get_wish ks) res -> Forall (item_response PText) res ->
  exists l, exchange PText name hd h st (OGetMulti ks) = (Ok (RItems l), []) /\ Forall2 same_item res l.
Proof.
  intros H h st name hd ks res L G F.
  exists (map (set_server name) (map (fun rf => mkItem (r_key (fst rf)) (r_value (fst rf)) (Some (be 4 (snd rf))) 0 0 []) (map (fun r => (r, response_flags r)) res))). split.
  - rewrite (exchange_one H h st PText name hd (OGetMulti ks) _ _ (flat_map (fun rf => value_reply (fst rf) (snd rf)) (map (fun r => (r, response_flags r)) res) ++ text_proto_end ++ []) L I eq_refl G).
    + cbn [client_of text_client cl_resp text_resp]. apply rmap_ok. unfold text_getmulti_resp. rewrite text_values_replies.
      * reflexivity.
      * rewrite Forall_map. eapply Forall_impl; [|exact F]. intros r Hr. cbn [fst snd]. destruct (flag_number_ok _ r Hr) as [_ Fr]. destruct Hr as (Lr & V & _).
        destruct (legal_key_props _ Lr) as (_ & _ & W & _). destruct Lr as [Lr _]. repeat split; try lia. exact W.
      * rewrite app_length. assert (Q : forall l : list (sresponse * Z), (length l <= length (flat_map (fun rf => value_reply (fst rf) (snd rf)) l))%nat).
        { induction l as [|x l IH]; [cbn; lia|]. cbn [flat_map length]. rewrite app_length. assert (Lv : (1 <= length (value_reply (fst x) (snd x)))%nat); [|lia]. unfold value_reply, value_head. repeat (rewrite <- app_assoc; cbn [app B list_ascii_of_string]). cbn [length]. lia. }
        specialize (Q (map (fun r => (r, response_flags r)) res)). lia.
    + intros q Uq Fq. unfold understood in Uq. injection Uq as Uo _ _ _ _ _ _. unfold flavour in Fq. rewrite Uo in Fq.
      cbn [proto_of write_response]. unfold write_ascii_response. rewrite Uo. destruct (q_get q); [discriminate|]. rewrite app_nil_r.
      assert (Q : concat_outcomes (map ascii_get_block res) = Ok (flat_map (fun rf => value_reply (fst rf) (snd rf)) (map (fun r => (r, response_flags r)) res))).
      { clear - F. induction F as [|r res Fr F IH]; [reflexivity|]. cbn [map concat_outcomes flat_map fst snd]. rewrite IH. unfold ascii_get_block.
        rewrite (proj1 (flag_number_ok _ r Fr)). f_equal. f_equal. unfold value_reply, value_head. repeat rewrite <- app_assoc. reflexivity. }
      rewrite Q. reflexivity.
  - clear - F. induction F as [|r res Fr F IH]; [constructor|]. cbn [map]. constructor; [|exact IH]. split; [reflexivity|]. split; [reflexivity|].
    unfold item_flags. cbn [set_server it_flags fst snd]. apply unbe_be_small. exact (proj2 (flag_number_ok _ r Fr)).
Qed.
Print Assumptions C38_text_getmulti_answer.

(** Binary: the handler is asked key by key (here: [ans k] has one response or none, in every state) and
    finally for a no-op, which it answers with an empty response. *)
Theorem C38_binary_getmulti_answer : forall H (h : handler H) st name hd ks ans,
  legal PBinary (OGetMulti ks) ->
  (forall st' k, In k ks -> gives PBinary h st' (get_wish [k]) (ans k)) -> (forall st', gives PBinary h st' (mkWish OpcNoop [] [] 0 0 0 0) [empty_response]) ->
  (forall k, In k ks -> (length (ans k) <= 1)%nat /\ Forall (item_response PBinary) (ans k)) ->
  exists l, exchange PBinary name hd h st (OGetMulti ks) = (Ok (RItems l), []) /\ Forall2 same_item (flat_map ans ks) l.
Proof.
  intros H h st name hd ks ans L G Gn A. destruct (request_ok PBinary name hd _ L) as (rq & R). unfold exchange. rewrite R.
  destruct (call_serve H h st PBinary name hd _ rq L I R) as (qs & U & Tq & ->). cbn [intended proto_of] in *.
  assert (Pk : forall r, item_response PBinary r -> binary_response OpcGet r = packet 0 0 0 (opt_bytes (r_flags r)) (r_key r) (r_value r)
     /\ zlen (opt_bytes (r_flags r)) <= 4 /\ zlen (r_key r) <= 250).
  { intros r ((Lk & _) & V & F). pose proof (zlen_nonneg _ (r_value r)).
    assert (Lf : zlen (opt_bytes (r_flags r)) <= 4) by (destruct (r_flags r); cbn; [unfold zlen; rewrite F; cbn; lia|lia]).
    split; [apply binary_response_packet; lia|]. split; [exact Lf|lia]. }
  assert (Sv : forall ks', (forall k, In k ks' -> In k ks) -> forall qs st, map understood qs = map (fun k => get_wish [k]) ks' ++ [mkWish OpcNoop [] [] 0 0 0 0] -> Forall (fun q => tidy PBinary q = true) qs ->
    exists st' l, serve_list h ProtoBinary st qs = (st', l, None) /\ replies l = flat_map (fun r => binary_response OpcGet r) (flat_map ans ks') ++ packet 10 0 0 [] [] []).
  { clear - G Gn A. induction ks' as [|k ks' IH]; intros Sub qs st U Tq.
    - destruct qs as [|q [|? ?]]; try discriminate U. cbn in U. assert (Uq : understood q = mkWish OpcNoop [] [] 0 0 0 0) by congruence.
      inversion Tq as [|? ? Tq0 _]; subst. specialize (Gn st q Uq Tq0). cbn [serve_list]. destruct (h st q) as [st' x]. cbn [snd] in Gn. subst x.
      unfold understood in Uq. injection Uq as Uo _ _ _ _ _ _. unfold write_response, write_binary_response. rewrite Uo. cbn [on_first empty_response r_error].
      eexists _, _. split; [reflexivity|]. reflexivity.
    - destruct qs as [|q qs]; try discriminate U. cbn [map app] in U. assert (Uq : understood q = get_wish [k]) by congruence.
      assert (U' : map understood qs = map (fun k => get_wish [k]) ks' ++ [mkWish OpcNoop [] [] 0 0 0 0]) by congruence.
      inversion Tq as [|? ? Tq0 Tq']; subst. specialize (G st k (Sub k (or_introl eq_refl)) q Uq Tq0). cbn [serve_list]. destruct (h st q) as [st' x]. cbn [snd] in G. subst x.
      unfold understood in Uq. injection Uq as Uo _ _ _ _ _ _. unfold write_response at 1, write_binary_response. rewrite Uo.
      destruct (IH (fun j Hj => Sub j (or_intror Hj)) qs st' U' Tq') as (st'' & l & -> & Rp). eexists _, _. split; [reflexivity|]. unfold replies in *. cbn [flat_map sd_reply]. rewrite Rp.
      destruct (A k (Sub k (or_introl eq_refl))) as [Al _]. replace (1 <? zlen (ans k)) with false by (symmetry; apply Z.ltb_ge; unfold zlen; lia). rewrite app_nil_r, flat_map_app, <- app_assoc. reflexivity. }
  destruct (Sv ks (fun _ Hk => Hk) qs st U Tq) as (st' & l & -> & Rp). cbn [then_serve]. change (serve_rest ProtoBinary h st' []) with (st', @nil served, Closed EIO). cbn [fst snd]. rewrite app_nil_r, Rp.
  assert (F : Forall (item_response PBinary) (flat_map ans ks)).
  { apply Forall_flat_map. apply Forall_forall. intros k Hk. apply A. exact Hk. }
  cbn [client_of bin_client cl_resp bin_resp].
  assert (Bv : forall res fuel acc, Forall (item_response PBinary) res -> (length res < fuel)%nat ->
    bin_values fuel acc (flat_map (fun r => binary_response OpcGet r) res ++ packet 10 0 0 [] [] [])
    = Some (Ok (rev acc ++ map (fun r => mkItem (r_key r) (r_value r) (Some (opt_bytes (r_flags r))) 0 0 []) res), [])).
  { clear - Pk. induction res as [|r res IH]; intros fuel acc F Fu; (destruct fuel as [|fuel]; [cbn in Fu; lia|]).
    - cbn [flat_map app bin_values map]. rewrite app_nil_r. reflexivity.
    - inversion F as [|? ? Fr F']; subst. destruct (Pk r Fr) as (P & P1 & P2). destruct Fr as (_ & V & _).
      cbn [flat_map bin_values]. rewrite <- app_assoc, P, bin_multi_packet by lia. rewrite IH by (try exact F'; cbn in Fu; lia).
      cbn [rev map]. rewrite <- app_assoc. reflexivity. }
  exists (map (fun r => mkItem (r_key r) (r_value r) (Some (opt_bytes (r_flags r))) 0 0 []) (flat_map ans ks)). split.
  - apply rmap_ok. unfold bin_getmulti_resp. rewrite Bv; [reflexivity|exact F|]. rewrite app_length.
    assert (Q : forall rl : list sresponse, (length rl <= length (flat_map (fun r => binary_response OpcGet r) rl))%nat).
    { induction rl as [|x l0 IH]; [cbn; lia|]. cbn [flat_map length]. rewrite app_length. unfold binary_response at 1. cbn [length]. lia. }
    specialize (Q (flat_map ans ks)). lia.
  - clear - F. induction F as [|r res Fr F IH]; [constructor|]. cbn [map]. constructor; [|exact IH]. split; [reflexivity|]. split; [reflexivity|].
    unfold item_flags, response_flags. cbn [it_flags]. destruct (r_flags r); reflexivity.
Qed.
Print Assumptions C38_binary_getmulti_answer.

(** ** Acknowledgements *)
(** Set, Add, Replace, Delete, Touch and Flush answered without an error are reported as success, and
    the whole reply is consumed. The binary client's Set, Add, Touch and Flush do not read a body, so
    with that protocol the answer must be empty. *)
Definition acknowledged (o : op) : bool :=
  match o with OSet _ | OAdd _ | OReplace _ | ODelete _ | OTouch _ _ | OFlush => true | _ => false end.
Definition empty_answer (r : sresponse) : Prop := r_key r = [] /\ r_value r = [] /\ opt_bytes (r_flags r) = [].
Theorem C38_acknowledgement_partial : forall H (h : handler H) st pr name hd o w r,
  acknowledged o = true -> legal pr o -> supported pr o -> intended pr o = [w] -> gives pr h st w [r] -> r_error r = None ->
  (pr = PBinary -> empty_answer r) ->
  exchange pr name hd h st o = (Ok RUnit, []).
Proof.
  intros H h st pr name hd o w r Ac L S W G E B0. destruct pr.
  - assert (Q : exists out, (forall q, understood q = w -> flavour PText q = true -> write_response ProtoAscii q [r] = Ok out) /\ text_resp name o out = (Ok RUnit, [])).
    { assert (D : forall opc out, w_op w = opc -> text_resp name o out = (Ok RUnit, []) ->
        (forall q, q_opcode q = opc -> flavour PText q = true -> write_response ProtoAscii q [r] = Ok out) ->
        exists out, (forall q, understood q = w -> flavour PText q = true -> write_response ProtoAscii q [r] = Ok out) /\ text_resp name o out = (Ok RUnit, [])).
      { intros opc out Wo T X. exists out. split; [|exact T]. intros q Uq Fq. apply X; [|exact Fq]. rewrite <- Wo, <- Uq. reflexivity. }
      destruct o; try discriminate Ac; cbn [intended] in W; injection W as W; subst w.
      - apply (D OpcSet text_proto_stored); [reflexivity|reflexivity|]. intros q Oq Fq. cbn [write_response]. unfold write_ascii_response. rewrite Oq. cbn [on_first]. rewrite E.
        unfold flavour in Fq. rewrite Oq in Fq. destruct (q_set q) as [so|]; [|discriminate]. destruct (s_meta so); [discriminate|reflexivity].
      - apply (D OpcAdd text_proto_stored); [reflexivity|reflexivity|]. intros q Oq Fq. cbn [write_response]. unfold write_ascii_response. rewrite Oq. cbn [on_first]. rewrite E.
        unfold flavour in Fq. rewrite Oq in Fq. destruct (q_set q) as [so|]; [|discriminate]. destruct (s_meta so); [discriminate|reflexivity].
      - apply (D OpcReplace text_proto_stored); [reflexivity|reflexivity|]. intros q Oq Fq. cbn [write_response]. unfold write_ascii_response. rewrite Oq. cbn [on_first]. rewrite E.
        unfold flavour in Fq. rewrite Oq in Fq. destruct (q_set q) as [so|]; [|discriminate]. destruct (s_meta so); [discriminate|reflexivity].
      - apply (D OpcDelete text_proto_deleted); [reflexivity|reflexivity|]. intros q Oq Fq. cbn [write_response]. unfold write_ascii_response. rewrite Oq. cbn [on_first]. rewrite E.
        unfold flavour in Fq. rewrite Oq in Fq. destruct (q_del q) as [[]|]; [discriminate|reflexivity|discriminate].
      - apply (D OpcTouch text_proto_touched); [reflexivity|reflexivity|]. intros q Oq Fq. cbn [write_response]. unfold write_ascii_response. rewrite Oq. cbn [on_first]. rewrite E. reflexivity.
      - apply (D OpcFlush text_proto_ok); [reflexivity|reflexivity|]. intros q Oq Fq. cbn [write_response]. unfold write_ascii_response. rewrite Oq. cbn [on_first]. rewrite E. reflexivity. }
    destruct Q as (out & Wr & T). rewrite (exchange_one H h st PText name hd o w [r] out L S W G Wr). exact T.
  - assert (Q : exists out, (forall q, understood q = w -> flavour PMeta q = true -> write_response ProtoAscii q [r] = Ok out) /\ meta_resp o out = (Ok RUnit, [])).
    { assert (D : forall opc out, w_op w = opc -> meta_resp o out = (Ok RUnit, []) ->
        (forall q, q_opcode q = opc -> flavour PMeta q = true -> write_response ProtoAscii q [r] = Ok out) ->
        exists out, (forall q, understood q = w -> flavour PMeta q = true -> write_response ProtoAscii q [r] = Ok out) /\ meta_resp o out = (Ok RUnit, [])).
      { intros opc out Wo T X. exists out. split; [|exact T]. intros q Uq Fq. apply X; [|exact Fq]. rewrite <- Wo, <- Uq. reflexivity. }
      destruct o; try discriminate Ac; cbn [intended] in W; injection W as W; subst w.
      - apply (D OpcSet (meta_proto_stored ++ crlf)); [reflexivity|reflexivity|]. intros q Oq Fq. cbn [write_response]. unfold write_ascii_response. rewrite Oq. cbn [on_first]. rewrite E.
        unfold flavour in Fq. rewrite Oq in Fq. destruct (q_set q) as [so|]; [|discriminate]. destruct (s_meta so); [reflexivity|discriminate].
      - apply (D OpcAdd text_proto_stored); [reflexivity|reflexivity|]. intros q Oq Fq. cbn [write_response]. unfold write_ascii_response. rewrite Oq. cbn [on_first]. rewrite E.
        unfold flavour in Fq. rewrite Oq in Fq. destruct (q_set q) as [so|]; [|discriminate]. destruct (s_meta so); [discriminate|reflexivity].
      - apply (D OpcReplace text_proto_stored); [reflexivity|reflexivity|]. intros q Oq Fq. cbn [write_response]. unfold write_ascii_response. rewrite Oq. cbn [on_first]. rewrite E.
        unfold flavour in Fq. rewrite Oq in Fq. destruct (q_set q) as [so|]; [|discriminate]. destruct (s_meta so); [discriminate|reflexivity].
      - apply (D OpcDelete (meta_proto_deleted ++ crlf)); [reflexivity|reflexivity|]. intros q Oq Fq. cbn [write_response]. unfold write_ascii_response. rewrite Oq. cbn [on_first]. rewrite E.
        unfold flavour in Fq. rewrite Oq in Fq. destruct (q_del q) as [[]|]; [reflexivity|discriminate|discriminate].
      - destruct S.
      - apply (D OpcFlush text_proto_ok); [reflexivity|reflexivity|]. intros q Oq Fq. cbn [write_response]. unfold write_ascii_response. rewrite Oq. cbn [on_first]. rewrite E. reflexivity. }
    destruct Q as (out & Wr & T). rewrite (exchange_one H h st PMeta name hd o w [r] out L S W G Wr). exact T.
  - destruct (B0 eq_refl) as (B1 & B2 & B3).
    assert (Q : forall opc, w_op w = opc -> opc <> OpcGet ->
       exchange PBinary name hd h st o = bin_resp o (packet (opcode_byte opc) 0 0 [] [] [])).
    { intros opc Wo Ng. rewrite (exchange_one H h st PBinary name hd o w [r] (packet (opcode_byte opc) 0 0 [] [] []) L S W G); [reflexivity|].
      intros q Uq _. assert (Oq : q_opcode q = opc) by (rewrite <- Wo, <- Uq; reflexivity). cbn [proto_of write_response]. unfold write_binary_response. rewrite Oq.
      assert (X : on_first [r] (fun r0 => Ok (binary_response opc r0)) = Ok (packet (opcode_byte opc) 0 0 [] [] [])).
      { cbn [on_first]. rewrite E, binary_response_packet by (rewrite ?B1, ?B2, ?B3; cbn; lia). rewrite B1, B2, B3. reflexivity. }
      destruct opc; try exact X. congruence. }
    destruct o; try discriminate Ac; cbn [intended] in W; injection W as W; subst w;
      [rewrite (Q OpcSet)|rewrite (Q OpcAdd)|rewrite (Q OpcReplace)|rewrite (Q OpcDelete)|rewrite (Q OpcTouch)|rewrite (Q OpcFlush)];
      reflexivity || discriminate.
Qed.
Print Assumptions C38_acknowledgement_partial.

(** ** Counters and version *)
(** A counter: its decimal digits with text and meta, eight bytes with binary. *)
Theorem C38_counter_answer : forall H (h : handler H) st pr name hd o w r n,
  (exists k d e, o = OIncr k d e \/ o = ODecr k d e) -> legal pr o -> supported pr o -> intended pr o = [w] -> gives pr h st w [r] -> r_error r = None ->
  0 <= n < 2 ^ 63 ->
  (match pr with PBinary => r_key r = [] /\ opt_bytes (r_flags r) = [] /\ r_value r = be 8 n | _ => r_value r = dec n end) ->
  exchange pr name hd h st o = (Ok (RInt n), []).
Proof.
  intros H h st pr name hd o w r n (k & d & e & Ho) L S W G E N V.
  assert (Ow : w_op w = OpcIncrement /\ o = OIncr k d e \/ w_op w = OpcDecrement /\ o = ODecr k d e).
  { destruct Ho as [-> | ->]; cbn [intended] in W; injection W as <-; [left|right]; split; reflexivity. }
  destruct (Z.eq_dec 0 (match pr with PBinary => 1 | _ => 0 end)) as [Np|Np].
  - assert (V' : r_value r = dec n) by (destruct pr; [exact V|exact V|discriminate]).
    assert (Wr : forall q, understood q = w -> flavour pr q = true -> write_response (proto_of pr) q [r] = Ok (text_delta_reply (DeltaOk n) ++ [])).
    { intros q Uq _. assert (Oq : q_opcode q = w_op w) by (rewrite <- Uq; reflexivity).
      replace (proto_of pr) with ProtoAscii by (destruct pr; [reflexivity|reflexivity|discriminate]). cbn [write_response]. unfold write_ascii_response. rewrite Oq, app_nil_r.
      destruct Ow as [[-> _]|[-> _]]; cbn [on_first]; rewrite E, V'; reflexivity. }
    rewrite (exchange_one H h st pr name hd o w [r] _ L S W G Wr).
    assert (R : cl_resp (client_of pr name) o = rmap RInt text_incr_resp).
    { destruct Ow as [[_ ->]|[_ ->]]; (destruct pr; [reflexivity|reflexivity|discriminate]). }
    rewrite R. destruct (delta_resp_ok PText (DeltaOk n) [] ltac:(discriminate) ltac:(cbn; lia)) as (out & -> & A).
    cbn [delta_outcome] in A. replace (n <? 2 ^ 63) with true in A by (symmetry; apply Z.ltb_lt; lia). destruct out; cbn in A; try contradiction. subst. reflexivity.
  - destruct pr; try (exfalso; apply Np; reflexivity). destruct V as (V1 & V2 & V3).
    assert (Wr : forall q, understood q = w -> flavour PBinary q = true -> write_response ProtoBinary q [r] = Ok (packet (opcode_byte (w_op w)) 0 0 [] [] (be 8 n) ++ [])).
    { intros q Uq _. assert (Oq : q_opcode q = w_op w) by (rewrite <- Uq; reflexivity). cbn [write_response]. unfold write_binary_response. rewrite Oq, app_nil_r.
      assert (Bp : forall opc, binary_response opc r = packet (opcode_byte opc) 0 0 [] [] (be 8 n)).
      { intro opc. rewrite binary_response_packet by (rewrite ?V1, ?V2, ?V3, ?zlen_be; cbn; lia). rewrite V1, V2, V3. reflexivity. }
      destruct Ow as [[-> _]|[-> _]]; cbn [on_first]; rewrite E, Bp; reflexivity. }
    rewrite (exchange_one H h st PBinary name hd o w [r] _ L S W G Wr). cbn [client_of bin_client cl_resp].
    destruct Ow as [[-> ->]|[-> ->]]; cbn [bin_resp opcode_byte]; apply rmap_ok; rewrite bin_incr_ok by (unfold op_increment, op_decrement; lia); rewrite i64_small by lia; reflexivity.
Qed.
Print Assumptions C38_counter_answer.

(** The version: any printable text of up to 1000 bytes; the text client drops a leading "VERSION ". *)
Theorem C38_version_answer : forall H (h : handler H) st pr name hd r,
  gives pr h st (mkWish OpcVersion [] [] 0 0 0 0) [r] -> r_error r = None ->
  Forall (fun c => 32 <= code c <= 126) (r_value r) -> zlen (r_value r) <= 1000 ->
  (pr = PBinary -> r_key r = [] /\ opt_bytes (r_flags r) = []) ->
  exchange pr name hd h st OVersion
  = (Ok (RStr (match pr with PBinary => r_value r | _ => trim_prefix (B "VERSION ") (r_value r) end)), []).
Proof.
  intros H h st pr name hd r G E P Lv B0. pose proof (zlen_nonneg _ (r_value r)).
  destruct (Z.eq_dec 0 (match pr with PBinary => 1 | _ => 0 end)) as [Np|Np].
  - assert (Wr : forall q, understood q = mkWish OpcVersion [] [] 0 0 0 0 -> flavour pr q = true -> write_response (proto_of pr) q [r] = Ok (r_value r ++ crlf)).
    { intros q Uq _. unfold understood in Uq. injection Uq as Uo _ _ _ _ _ _.
      replace (proto_of pr) with ProtoAscii by (destruct pr; [reflexivity|reflexivity|discriminate]). cbn [write_response]. unfold write_ascii_response. rewrite Uo.
      cbn [on_first]. rewrite E. reflexivity. }
    rewrite (exchange_one H h st pr name hd OVersion _ [r] _ ltac:(destruct pr; exact I) ltac:(destruct pr; exact I) ltac:(destruct pr; reflexivity) G Wr).
    assert (R : cl_resp (client_of pr name) OVersion = rmap RStr text_version_resp) by (destruct pr; [reflexivity|reflexivity|discriminate]). rewrite R.
    replace (match pr with PBinary => r_value r | _ => trim_prefix (B "VERSION ") (r_value r) end) with (trim_prefix (B "VERSION ") (r_value r)) by (destruct pr; [reflexivity|reflexivity|discriminate]).
    apply rmap_ok. unfold text_version_resp.
    assert (Rl : read_slice (r_value r ++ crlf) = (Ok (r_value r ++ crlf), [])).
    { pose proof (read_line (r_value r) []) as Q. rewrite app_nil_r in Q. apply Q; [eapply Forall_impl; [|exact P]; intros; cbn in *; lia|lia]. }
    rewrite (bind_ok _ _ _ _ _ _ _ Rl).
    replace (0 <? zlen (r_value r ++ crlf)) with true by (symmetry; apply Z.ltb_lt; rewrite zlen_app; change (zlen crlf) with 2; lia).
    unfold ret. f_equal. f_equal. unfold trim_prefix.
    destruct (has_prefix (B "VERSION ") (r_value r)) eqn:Hp.
    + apply has_prefix_spec in Hp. destruct Hp as (t & Ht). rewrite Ht, <- app_assoc, has_prefix_app.
      rewrite !(skipn_app_exact _ (B "VERSION ")). apply trim_suffix_app.
    + assert (Hp' : has_prefix (B "VERSION ") (r_value r ++ crlf) = false).
      { destruct (has_prefix (B "VERSION ") (r_value r ++ crlf)) eqn:Q; [|reflexivity]. exfalso.
        apply has_prefix_spec in Q. destruct Q as (t & Q).
        assert (Hl : has_prefix (B "VERSION ") (r_value r) = true); [|congruence].
        destruct (Nat.le_gt_cases 8 (length (r_value r))) as [Le|Lt].
        - apply has_prefix_spec. exists (skipn 8 (r_value r)).
          assert (X : firstn 8 (r_value r ++ crlf) = B "VERSION ") by (rewrite Q; reflexivity).
          rewrite firstn_app in X. replace (8 - length (r_value r))%nat with 0%nat in X by lia. rewrite firstn_O, app_nil_r in X.
          rewrite <- X. symmetry. apply firstn_skipn.
        - exfalso. assert (X : nth_error (r_value r ++ crlf) (length (r_value r)) = Some CR) by (rewrite nth_error_app2, Nat.sub_diag by lia; reflexivity).
          rewrite Q in X. rewrite nth_error_app1 in X by (cbn; lia).
          remember (length (r_value r)) as n eqn:Hn. clear Hn. do 8 (destruct n as [|n]; [vm_compute in X; discriminate X|]). lia. }
      rewrite Hp'. apply trim_suffix_app.
  - destruct pr; try (exfalso; apply Np; reflexivity). destruct (B0 eq_refl) as (B1 & B2).
    assert (Wr : forall q, understood q = mkWish OpcVersion [] [] 0 0 0 0 -> flavour PBinary q = true -> write_response ProtoBinary q [r] = Ok (packet 11 0 0 [] [] (r_value r) ++ [])).
    { intros q Uq _. unfold understood in Uq. injection Uq as Uo _ _ _ _ _ _. cbn [write_response]. unfold write_binary_response. rewrite Uo, app_nil_r.
      cbn [on_first]. rewrite E. rewrite binary_response_packet by (rewrite ?B1, ?B2; cbn [zlen length]; unfold zlen in *; cbn; lia). rewrite B1, B2. reflexivity. }
    rewrite (exchange_one H h st PBinary name hd OVersion _ [r] _ I I eq_refl G Wr). cbn [client_of bin_client cl_resp bin_resp]. apply rmap_ok. unfold bin_version_resp.
    erewrite bind_ok by (apply read_packet; change (zlen (@nil ascii)) with 0; lia). cbn [rs_status rs_total]. change (negb (0 =? 0)) with false. cbv iota.
    cbn [app]. apply alloc_ok; change (zlen (@nil ascii)) with 0; lia.
Qed.
Print Assumptions C38_version_answer.

(** ** What fails *)
(** Handlers that answer one fixed response. *)
Definition answering (r : sresponse) : handler unit := fun _ _ => (tt, Ok [r]).
(** Meta get: the client asks for "v f c t" but the server looks only at the first field, so flags,
    cas number and lifetime never arrive. Binary set: the client does not read the body, so a handler
    that names the key in its answer leaves bytes behind for the next call. *)
Theorem C38_replies_decode_refuted :
  (let r := mkRes (B "k") None (Some (be 4 7)) (B "v") 12 60 in
   item_response PMeta r /\ gives PMeta (answering r) tt (get_wish [B "k"]) [r]
   /\ exists i, exchange PMeta [] reset_header (answering r) tt (OGet (B "k")) = (Ok (RItem i), [])
        /\ it_flags i = None /\ it_cas i = 0 /\ it_exp i = 0)
  /\ (let r := mkRes (B "k") None None [] 0 0 in
      snd (exchange PBinary [] reset_header (answering r) tt (OSet (mkItem (B "k") (B "v") None 0 0 []))) = B "k").
Proof.
  split.
  - cbv zeta. split; [split; [apply PClient.legal_keyb_ok; reflexivity|split; [cbn [r_value]; change (zlen (B "v")) with 1; lia|reflexivity]]|].
    split; [intros q _ _; reflexivity|]. eexists. split; [vm_compute; reflexivity|]. repeat split.
  - vm_compute. reflexivity.
Qed.
Print Assumptions C38_replies_decode_refuted.

Example C38_met :
  let r := mkRes (B "k") None (Some (be 4 7)) (B "value") 0 0 in
  item_response PText r /\ gives PText (answering r) tt (get_wish [B "k"]) [r]
  /\ exchange PText (B "srv") reset_header (answering r) tt (OGet (B "k")) = (Ok (RItem (mkItem (B "k") (B "value") (Some (be 4 7)) 0 0 (B "srv"))), [])
  /\ exchange PBinary (B "srv") reset_header (answering r) tt (OGet (B "k")) = (Ok (RItem (mkItem (B "k") (B "value") (Some (be 4 7)) 0 0 [])), [])
  /\ exchange PText [] reset_header (answering r) tt (ODelete (B "k")) = (Ok RUnit, []).
Proof.
  cbv zeta. split; [split; [apply PClient.legal_keyb_ok; reflexivity|split; [cbn [r_value]; change (zlen (B "value")) with 5; lia|reflexivity]]|].
  split; [intros q _ _; reflexivity|]. split; [vm_compute; reflexivity|]. split; vm_compute; reflexivity.
Qed.
