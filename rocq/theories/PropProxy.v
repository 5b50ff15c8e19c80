(** * Properties C48 to C52: the proxy. *)
From Coq Require Import Permutation.
From Verif Require Import GoBytes GoNum GoIO GoScan Item ClientText ClientMeta ClientBinary Cache Daemon Spec Call Guard
  Ring RingSpec Pool PoolSpec Replica ReplicaSpec ServerTypes ServerParse ServerWrite Serve ServerSpec Proxy
  PLib PScan PDaemon PCache PText PMeta PReader PBinary PRing PPool PServer PServe PReply PReplica RingData PropPool PropServerReply PropReplica.
From Verif Require PClient.
Local Open Scope Z_scope.

(** The proxy in front of memcacheds that are reached with the meta client. *)
Definition router (pn sn : list node) : handler (world link) := proxy meta_server pn sn.
(** The state of the backends after a client has made call [o] over a connection to the proxy; what the
    call returned is [exchange pr name hd (router pn sn) w o] (PropServerReply.v). *)
Definition after (pr : proto) (name : bytes) (hd : req_header) (pn sn : list node) (w : world link) (o : op) : world link :=
  match fst (cl_req (client_of pr name) hd o) with
  | Ok rq => fst (fst (serve_conn (router pn sn) w rq))
  | _ => w
  end.
(** A client that speaks to the proxy by hand: the backends' new state and the bytes it gets back. *)
Definition by_hand (pn sn : list node) (w : world link) (s : bytes) : world link * bytes :=
  let x := serve_conn (router pn sn) w s in (fst (fst x), replies (snd (fst x))).

Lemma text_key_meta : forall k, legal_key PText k -> legal_key PMeta k.
Proof. intros k [A F]. split; [exact A|]. apply utf8_word_word. exact F. Qed.

(** What a connection with one request does. *)
Definition one_served {H} (h : handler H) (t : H) (p : protocol) (q : srequest) : H * list served * fate :=
  match h t q with
  | (t', Err e) => (t', [mkServed q []], Closed e)
  | (t', Panic) => (t', [mkServed q []], Crashed)
  | (t', Ok res) => match write_response p q res with
                    | Err e => (t', [mkServed q []], Closed e)
                    | Panic => (t', [mkServed q []], Crashed)
                    | Ok out => (t', [mkServed q out], Closed EIO)
                    end
  end.
Lemma then_one : forall H (h : handler H) t p q, then_serve h p (serve_list h p t [q]) [] = one_served h t p q.
Proof.
  intros H h t p q. cbn [serve_list]. unfold one_served. destruct (h t q) as [t' [res|e|]]; try reflexivity.
  destruct (write_response p q res); try reflexivity. destruct p; reflexivity.
Qed.
Lemma conn_one : forall H (h : handler H) t pr name hd o v, legal pr o -> supported pr o -> intended pr o = [v] ->
  exists q rq, understood q = v /\ flavour pr q = true /\ tidy pr q = true /\ fst (cl_req (client_of pr name) hd o) = Ok rq
    /\ serve_conn h t rq = one_served h t (proto_of pr) q.
Proof.
  intros H h t pr name hd o v L S V. destruct (request_ok pr name hd o L) as (rq & R).
  destruct (call_serve H h t pr name hd o rq L S R) as (qs & U & F & E). rewrite V in U.
  destruct qs as [|q [|? ?]]; try discriminate U. assert (Uq : understood q = v) by (cbn [map] in U; congruence). clear U. inversion F as [|? ? Fq _]; clear F. apply andb_true_iff in Fq. destruct Fq as [Fq Tq].
  exists q, rq. split; [exact Uq|]. split; [exact Fq|]. split; [exact Tq|]. split; [exact R|]. rewrite E. apply then_one.
Qed.
Lemma hand_one : forall H (h : handler H) t b q, (match b with [] => False | c :: _ => code c <> 128 end) -> read_ascii_request b = (Ok q, []) ->
  serve_conn h t b = one_served h t ProtoAscii q.
Proof.
  intros H h t b q C R. destruct b as [|c b]; [contradiction|]. rewrite serve_conn_as. unfold announced. replace (code c =? 128) with false by (symmetry; apply Z.eqb_neq; exact C).
  rewrite <- then_one. refine (proj2 (reads_serve H h _ _ _ _ _ _ ProtoAscii t eq_refl)). econstructor; [|constructor]. cbn [read_request]. rewrite R. reflexivity.
Qed.

Section Router.
Variable ps ss : list server.
Variable pn sn : list node.
Hypothesis Rings : two_rings ps ss pn sn.

Lemma proxy_get : forall w q, good_world 1 (ps ++ ss) w -> q_opcode q = OpcGet -> legal_key PMeta (q_key q) ->
  exists w', router pn sn w q = (w', Ok [match held pn w (q_key q) with
                                         | Some e => mkRes (q_key q) None None (e_value e) 0 0
                                         | None => mkRes [] (Some ENotFound) None [] 0 0
                                         end]) /\ forall i, w' i = w i.
Proof.
  intros w q G Oq L. unfold router, proxy. rewrite Oq.
  destruct (exec meta_server (rp_prog pn sn (RGet (q_key q))) w) as [w' r] eqn:E.
  destruct (C42_get_reads_only_the_primary _ _ _ _ _ _ _ _ _ _ Rings E) as (p & Ip & Pp & Hr & Hw & Ho & _).
  destruct (good_at ps ss 1 w p G ltac:(apply in_or_app; auto)) as (c & h & Ew & Wf & Cc).
  destruct (meta_answers c h (OGet (q_key q)) (q_key q) Wf ltac:(lia) L eq_refl eq_refl) as (out & Em & A).
  exists w'. cbn [fst snd]. rewrite Ew, Em in Hr, Hw. cbn [fst snd] in Hr, Hw. unfold step1 in Hw. cbn [spec_step fst] in Hw.
  split.
  - f_equal. subst r. destruct A as [A|[A _]]; [|discriminate A]. cbn [spec_step snd] in A. unfold held. rewrite Pp, Ew. cbn [fresh_link l_cache].
    destruct (lookup c (q_key q)) as [e|]; destruct out; cbn in A; try contradiction; subst; reflexivity.
  - intro i. destruct (Nat.eq_dec i (sv_id p)) as [->|N]; [rewrite Hw, Ew; reflexivity|apply Ho; exact N].
Qed.

End Router.

(** ** C48 *)
(** Hits. Binary and meta clients of this library get the item with the exact value. *)
Theorem C48_hit_partial : forall ps ss pn sn w pr name hd k e,
  two_rings ps ss pn sn -> good_world 1 (ps ++ ss) w -> pr <> PText -> legal_key pr k -> legal_key PMeta k ->
  held pn w k = Some e ->
  exists i, exchange pr name hd (router pn sn) w (OGet k) = (Ok (RItem i), []) /\ it_key i = k /\ it_value i = e_value e
    /\ forall j, after pr name hd pn sn w (OGet k) j = w j.
Proof.
  intros ps ss pn sn w pr name hd k e R G Np Lp Lm Hk.
  assert (Qk : forall q, understood q = get_wish [k] -> tidy pr q = true -> q_opcode q = OpcGet /\ q_key q = k).
  { intros q Uq Tq. unfold understood in Uq. injection Uq as Uo Uk _ _ _ _ _. split; [exact Uo|]. rewrite Uo in Uk. cbn [keyless] in Uk.
    unfold tidy in Tq. rewrite Uo in Tq. destruct (q_keys q); [congruence|]. destruct pr; [congruence|discriminate Tq|discriminate Tq]. }
  assert (V : zlen (e_value e) <= 2 ^ 30).
  { unfold held in Hk. destruct (pick pn k) as [p| |] eqn:Pp; try discriminate Hk. destruct (owner_p _ _ _ _ R k) as (p' & Pp' & Ip). assert (p' = p) by congruence. subst p'.
    destruct (good_at ps ss 1 w p G ltac:(apply in_or_app; auto)) as (c & h & Ew & Wf & _). rewrite Ew in Hk. destruct (wf_lookup _ _ _ _ Wf Hk) as (Q & _).
    destruct Wf as ((Q2 & _) & _). lia. }
  destruct (C38_get_answer_partial _ (router pn sn) w pr name hd k (mkRes k None None (e_value e) 0 0) Lp) as (i & E & Ki & Vi & _).
  - intros q Uq Tq. destruct (Qk q Uq Tq) as [Oq Kq]. destruct (proxy_get ps ss pn sn R w q G Oq ltac:(rewrite Kq; exact Lm)) as (w' & Hq & _).
    rewrite Hq. cbn [snd]. rewrite Kq, Hk. reflexivity.
  - split; [exact Lp|]. split; [exact V|exact Logic.I].
  - reflexivity.
  - exists i. split; [exact E|]. split; [exact Ki|]. split; [exact Vi|]. intro j. unfold after.
    destruct (conn_one _ (router pn sn) w pr name hd (OGet k) (get_wish [k]) Lp ltac:(destruct pr; exact Logic.I) ltac:(destruct pr; reflexivity)) as (q & rq & Uq & Fq & Tq & Rq & Sv).
    rewrite Rq, Sv. destruct (Qk q Uq Tq) as [Oq Kq]. destruct (proxy_get ps ss pn sn R w q G Oq ltac:(rewrite Kq; exact Lm)) as (w' & Hq & Hw).
    unfold one_served. rewrite Hq. destruct (write_response _ _ _); cbn [fst]; apply Hw.
Qed.
Print Assumptions C48_hit_partial.

(** With the text protocol, a "get" written by hand. *)
Theorem C48_text_hit_partial : forall ps ss pn sn w k e,
  two_rings ps ss pn sn -> good_world 1 (ps ++ ss) w -> legal_key PText k -> held pn w k = Some e ->
  snd (by_hand pn sn w (B "get " ++ k ++ crlf))
  = B "VALUE " ++ k ++ B " 0 " ++ dec (zlen (e_value e)) ++ crlf ++ e_value e ++ crlf ++ B "END" ++ crlf
  /\ forall j, fst (by_hand pn sn w (B "get " ++ k ++ crlf)) j = w j.
Proof.
  intros ps ss pn sn w k e R G L Hk. destruct (legal_key_props _ L) as (K1 & K2 & K3 & _).
  assert (Rq : read_ascii_request (B "get " ++ k ++ crlf) = (Ok (key_req OpcGet k), [])).
  { rewrite <- (app_nil_r (B "get " ++ k ++ crlf)). rewrite (ascii_words' [B "get"; k]); [reflexivity|discriminate|words|].
    cbn [join_sp]. rewrite ?app_nil_r. rewrite <- app_assoc. reflexivity. }
  unfold by_hand. rewrite (hand_one _ _ _ (B "get " ++ k ++ crlf) _ ltac:(cbn; discriminate) Rq). unfold one_served.
  destruct (proxy_get ps ss pn sn R w (key_req OpcGet k) G eq_refl (text_key_meta k L)) as (w' & -> & Hw). cbn [key_req q_key]. rewrite Hk.
  cbn [write_response write_ascii_response key_req q_opcode q_get map concat_outcomes oapp]. unfold ascii_get_block, flag_number. cbn [r_flags opt_bytes r_key r_value].
  change (0 <? zlen []) with false. cbv iota. cbn [oapp fst snd]. split; [|exact Hw]. unfold replies. cbn [flat_map sd_reply]. rewrite ?app_nil_r.
  change (dec 0) with (B "0"). unfold text_proto_end. repeat rewrite <- app_assoc. reflexivity.
Qed.
Print Assumptions C48_text_hit_partial.

(** Misses. Every one is answered as a hit with an empty value (and an empty key). *)
Theorem C48_every_miss_looks_like_an_empty_hit : forall ps ss pn sn w k,
  two_rings ps ss pn sn -> good_world 1 (ps ++ ss) w -> held pn w k = None ->
  (legal_key PText k -> snd (by_hand pn sn w (B "get " ++ k ++ crlf)) = B "VALUE  0 0" ++ crlf ++ crlf ++ B "END" ++ crlf)
  /\ (forall pr name hd, pr <> PText -> legal_key pr k -> legal_key PMeta k ->
      exists i, exchange pr name hd (router pn sn) w (OGet k) = (Ok (RItem i), []) /\ it_value i = []).
Proof.
  intros ps ss pn sn w k R G Hk. split.
  - intro L. destruct (legal_key_props _ L) as (K1 & K2 & K3 & _).
    assert (Rq : read_ascii_request (B "get " ++ k ++ crlf) = (Ok (key_req OpcGet k), [])).
    { rewrite <- (app_nil_r (B "get " ++ k ++ crlf)). rewrite (ascii_words' [B "get"; k]); [reflexivity|discriminate|words|].
      cbn [join_sp]. rewrite ?app_nil_r. rewrite <- app_assoc. reflexivity. }
    unfold by_hand. rewrite (hand_one _ _ _ (B "get " ++ k ++ crlf) _ ltac:(cbn; discriminate) Rq). unfold one_served.
    destruct (proxy_get ps ss pn sn R w (key_req OpcGet k) G eq_refl (text_key_meta k L)) as (w' & -> & Hw). cbn [key_req q_key]. rewrite Hk. reflexivity.
  - intros pr name hd Np Lp Lm. set (r := mkRes [] (Some ENotFound) None [] 0 0).
    assert (Gv : gives pr (router pn sn) w (get_wish [k]) [r]).
    { intros q Uq Tq. unfold understood in Uq. injection Uq as Uo Uk _ _ _ _ _. rewrite Uo in Uk. cbn [keyless] in Uk.
      unfold tidy in Tq. rewrite Uo in Tq. assert (Kq : q_key q = k) by (destruct (q_keys q); [congruence|]; destruct pr; [congruence|discriminate Tq|discriminate Tq]).
      destruct (proxy_get ps ss pn sn R w q G Uo ltac:(rewrite Kq; exact Lm)) as (w' & Hq & _). rewrite Hq, Kq, Hk. reflexivity. }
    destruct pr; [congruence| |].
    + exists (mkItem k [] None 0 0 []). split; [|reflexivity].
      rewrite (exchange_one _ _ _ PMeta name hd (OGet k) _ _ ((B "VA " ++ dec (zlen (@nil ascii)) ++ B " v" ++ crlf ++ [] ++ crlf) ++ []) Lp Logic.I eq_refl Gv).
      * cbn [client_of meta_client cl_resp meta_resp]. apply rmap_ok. apply meta_get_v. cbn. lia.
      * intros q Uq Fq. unfold understood in Uq. injection Uq as Uo _ _ _ _ _ _. unfold flavour in Fq. rewrite Uo in Fq.
        cbn [proto_of write_response]. unfold write_ascii_response. rewrite Uo. destruct (q_get q) as [g|]; [|discriminate].
        apply andb_true_iff in Fq. destruct Fq as [Fq Fv]. apply beq_eq in Fq. cbn [map concat_outcomes]. unfold meta_get_block_bytes. rewrite Fq, Fv. reflexivity.
    + exists (mkItem k [] (Some []) 0 0 []). split; [|reflexivity].
      rewrite (exchange_one _ _ _ PBinary name hd (OGet k) _ _ (packet 0 0 0 [] [] [] ++ []) Lp Logic.I eq_refl Gv).
      * cbn [client_of bin_client cl_resp bin_resp]. apply rmap_ok. apply bin_get_packet; cbn; lia.
      * intros q Uq Fq. unfold understood in Uq. injection Uq as Uo _ _ _ _ _ _.
        cbn [proto_of write_response]. unfold write_binary_response. rewrite Uo. reflexivity.
Qed.
Print Assumptions C48_every_miss_looks_like_an_empty_hit.

Definition C48_reports_hits_and_misses : Prop := forall ps ss pn sn w pr name hd k,
  two_rings ps ss pn sn -> good_world 1 (ps ++ ss) w -> legal_key pr k -> legal_key PMeta k ->
  match held pn w k with
  | Some e => exists i u, exchange pr name hd (router pn sn) w (OGet k) = (Ok (RItem i), u) /\ it_key i = k /\ it_value i = e_value e
  | None => exists u, exchange pr name hd (router pn sn) w (OGet k) = (Err ENotFound, u)
  end.
(** A miss, with every protocol but text. *)
Theorem C48_miss_refuted : forall pr, pr <> PText -> ~ (forall ps ss pn sn w name hd k,
  two_rings ps ss pn sn -> good_world 1 (ps ++ ss) w -> legal_key pr k -> legal_key PMeta k -> held pn w k = None ->
  exists u, exchange pr name hd (router pn sn) w (OGet k) = (Err ENotFound, u)).
Proof.
  intros pr Np H. assert (Lx : legal_key pr (B "x")) by (apply PClient.legal_keyb_ok; destruct pr; reflexivity).
  assert (Hx : held prim_a new_memcacheds (B "x") = None) by (rewrite held_a; reflexivity).
  destruct (H _ _ _ _ _ [] reset_header _ rings_a_b (new_good 1 _ ltac:(lia)) Lx legal_x Hx) as (u & E).
  destruct (proj2 (C48_every_miss_looks_like_an_empty_hit _ _ _ _ _ _ rings_a_b (new_good 1 _ ltac:(lia)) Hx) pr [] reset_header Np Lx legal_x) as (i & E' & _).
  rewrite E in E'. discriminate E'.
Qed.
Print Assumptions C48_miss_refuted.

(** This library's text client sends "gets", whose keys the proxy ignores: it asks for the empty key,
    and the memcached takes the next word of that request for the key. *)
Lemma router_ext : forall pn pn' sn sn', (forall o, rp_prog pn sn o = rp_prog pn' sn' o) -> forall w q, router pn sn w q = router pn' sn' w q.
Proof. intros pn pn' sn sn' E w q. unfold router, proxy. rewrite E. destruct (q_set q) as [o|]; [rewrite E|]; reflexivity. Qed.
Lemma router_one : forall w q, router prim_a sec_b w q = router (one sv_a) (one sv_b) w q.
Proof. exact (router_ext _ _ _ _ prog_one). Qed.
Lemma legal_x_text : legal_key PText (B "x").
Proof. apply PClient.legal_keyb_ok. reflexivity. Qed.
Lemma text_exchange_one : forall H (h : handler H) t o q, match fst (cl_req (client_of PText []) reset_header o) with
    Ok b => (match b with [] => False | c :: _ => code c <> 128 end) /\ read_ascii_request b = (Ok q, []) | _ => False end ->
  exchange PText [] reset_header h t o = cl_resp (client_of PText []) o (replies (snd (fst (one_served h t ProtoAscii q)))).
Proof.
  intros H h t o q R. unfold exchange. destruct (fst (cl_req (client_of PText []) reset_header o)) as [b| |]; try contradiction. destruct R as [C R].
  rewrite (hand_one H h t b q C R). reflexivity.
Qed.
Lemma served_ext : forall H (h h' : handler H) t p q, h t q = h' t q -> one_served h t p q = one_served h' t p q.
Proof. intros H h h' t p q E. unfold one_served. rewrite E. reflexivity. Qed.
Lemma text_exchange_a : forall t o q, match fst (cl_req (client_of PText []) reset_header o) with
    Ok b => (match b with [] => False | c :: _ => code c <> 128 end) /\ read_ascii_request b = (Ok q, []) | _ => False end ->
  exchange PText [] reset_header (router prim_a sec_b) t o
  = cl_resp (client_of PText []) o (replies (snd (fst (one_served (router (one sv_a) (one sv_b)) t ProtoAscii q)))).
Proof.
  intros t o q R. rewrite (text_exchange_one _ (router prim_a sec_b) t o q R).
  rewrite (served_ext _ (router prim_a sec_b) (router (one sv_a) (one sv_b)) t ProtoAscii q (router_one t q)). reflexivity.
Qed.
Theorem C48_text_client_refuted : ~ C48_reports_hits_and_misses.
Proof.
  intro H. destruct (counter_world_ok None Logic.I) as (G & _). specialize (H _ _ _ _ _ PText [] reset_header (B "x") rings_a_b G legal_x_text legal_x).
  assert (Hx : held prim_a (counter_world None) (B "x") = Some (mkEntry (B "1") 0 None 1 false)) by (rewrite held_a; vm_compute; reflexivity).
  rewrite Hx in H. destruct H as (i & u & E & _).
  assert (Q := text_exchange_a (counter_world None) (OGet (B "x")) (mkReq OpcGet [] [B "x"] None [] 0 None None None) ltac:(split; [cbn; discriminate|vm_compute; reflexivity])).
  rewrite Q in E. vm_compute in E. discriminate E.
Qed.
Print Assumptions C48_text_client_refuted.
Example C48_met : two_rings [sv_a] [sv_b] prim_a sec_b /\ good_world 1 ([sv_a] ++ [sv_b]) (counter_world None)
  /\ legal_key PText (B "x") /\ legal_key PMeta (B "x")
  /\ held prim_a (counter_world None) (B "x") = Some (mkEntry (B "1") 0 None 1 false)
  /\ held prim_a (counter_world None) (B "y") = None.
Proof.
  split; [exact rings_a_b|]. split; [exact (proj1 (counter_world_ok None Logic.I))|]. split; [exact legal_x_text|]. split; [exact legal_x|].
  split; rewrite held_a; vm_compute; reflexivity.
Qed.

(** ** C50 *)
(** The entry a set of item [i] leaves at time [now] (cas numbers are compared by [same_entry] no more). *)
Definition set_entry (now : Z) (i : item) : option entry :=
  let e := mkEntry (it_value i) (item_flags i) (expire_at now (it_exp i)) 0 false in
  if alive now e then Some e else None.

(** The item that reaches the pool. *)
Lemma set_request : forall pr q i cas, understood q = store_wish OpcSet i cas -> tidy pr q = true ->
  q_opcode q = OpcSet /\ exists so, q_set q = Some so /\ let j := proxy_item q so in
    it_key j = it_key i /\ it_value j = it_value i /\ it_exp j = it_exp i /\ it_cas j = cas
    /\ match pr with PMeta => it_flags j = None | _ => exists f, it_flags j = Some f /\ length f = 4%nat /\ unbe f = item_flags i end.
Proof.
  intros pr q i cas U T. unfold understood, store_wish in U. injection U as Uo Uk Uv Uf Ue Uc _. rewrite Uo in *. cbn [keyless] in Uk.
  split; [reflexivity|]. unfold tidy in T. rewrite Uo in T. apply andb_true_iff in T. destruct T as [T T3]. apply andb_true_iff in T. destruct T as [T1 T2].
  destruct (q_set q) as [so|]; [|discriminate T2]. exists so. split; [reflexivity|]. cbn [proxy_item it_key it_value it_exp it_cas it_flags].
  split; [destruct (q_keys q); [congruence|destruct pr; discriminate T1]|]. split; [exact Uv|]. split; [exact Ue|].
  split; [destruct (s_cas so); [exact Uc|]; cbn [orb] in T2; apply Z.eqb_eq in T2; congruence|].
  destruct pr, (q_flags q) as [f|]; try discriminate T3; try reflexivity; exists f; (split; [reflexivity|]); split; try exact Uf; apply Nat.eqb_eq; exact T3.
Qed.

Section RouterSet.
Variable ps ss : list server.
Variable pn sn : list node.
Hypothesis Rings : two_rings ps ss pn sn.

(** The pool's Set answers RUnit or an error, never a panic. *)
Lemma pool_set_answer : forall w i, good_world 1 (ps ++ ss) w -> legal PMeta (OSet i) ->
  (exists w', exec meta_server (rp_prog pn sn (RSet i)) w = (w', Ok RUnit)) \/ (exists w' e, exec meta_server (rp_prog pn sn (RSet i)) w = (w', Err e)).
Proof.
  intros w i G L. destruct (owner_p _ _ _ _ Rings (it_key i)) as (p & Pp & Ip). destruct (owner_s _ _ _ _ Rings (it_key i)) as (s & Ps & Is).
  pose proof (apart _ _ _ _ Rings p s Ip Is) as D.
  destruct (good_at ps ss 1 w p G ltac:(apply in_or_app; auto)) as (cp & hp & Ep & Wp & Cp).
  destruct (good_at ps ss 1 w s G ltac:(apply in_or_app; auto)) as (cs & hs & Es & Ws & Cs).
  cbn [rp_prog]. unfold rp_store, on_ring. rewrite Pp, Ps. cbn [exec]. unfold server_call. rewrite Ep.
  destruct (meta_answers cp hp (OSet i) (it_key i) Wp ltac:(lia) L eq_refl eq_refl) as (out & Em & A). rewrite Em. cbn [fst snd].
  assert (Fin : forall c out, agrees (snd (spec_step PMeta [] c (OSet i))) out \/ (OSet i = ODelete (it_key i) /\ lookup c (it_key i) = None /\ out = Ok RUnit) ->
    out = Ok RUnit \/ exists e, out = Err e).
  { intros c o [B|[B _]]; [|discriminate B]. cbn [spec_step snd] in B.
    destruct (snd (if it_cas i =? 0 then _ else _)); destruct o; cbn in B; try contradiction; subst; eauto. }
  destruct (Fin cp out A) as [-> | [e ->]]; cbn [if_ok exec]; [|right; eauto].
  unfold server_call. rewrite upd_other by congruence. rewrite Es.
  destruct (meta_answers cs hs (OSet i) (it_key i) Ws ltac:(lia) L eq_refl eq_refl) as (out2 & Em2 & A2). rewrite Em2. cbn [fst snd].
  destruct (Fin cs out2 A2) as [-> | [e ->]]; [left|right]; eauto.
Qed.

(** A client's Set over the proxy: the item that reaches the pool and what the client is told. *)
Lemma conn_set : forall w pr name hd i, good_world 1 (ps ++ ss) w -> legal pr (OSet i) -> supported pr (OSet i) -> legal PMeta (OSet i) ->
  exists j, legal PMeta (OSet j) /\ it_key j = it_key i /\ it_value j = it_value i /\ it_exp j = it_exp i /\ it_cas j = it_cas i
    /\ item_flags j = (match pr with PMeta => 0 | _ => item_flags i end)
    /\ exists w', after pr name hd pn sn w (OSet i) = w' /\
       ((exec meta_server (rp_prog pn sn (RSet j)) w = (w', Ok RUnit) /\ exchange pr name hd (router pn sn) w (OSet i) = (Ok RUnit, []))
        \/ (exists e, exec meta_server (rp_prog pn sn (RSet j)) w = (w', Err e) /\ exchange pr name hd (router pn sn) w (OSet i) = (Err EIO, [])
             /\ match fst (cl_req (client_of pr name) hd (OSet i)) with Ok rq => snd (by_hand pn sn w rq) = [] | _ => False end)).
Proof.
  intros w pr name hd i G Lp Sp Lm.
  destruct (conn_one _ (router pn sn) w pr name hd (OSet i) (store_wish OpcSet i (it_cas i)) Lp Sp ltac:(destruct pr; reflexivity)) as (q & rq & Uq & Fq & Tq & Rq & Sv).
  destruct (set_request pr q i (it_cas i) Uq Tq) as (Oq & so & Sq & Kj & Vj & Ej & Cj & Fj). set (j := proxy_item q so) in *.
  assert (If : item_flags j = match pr with PMeta => 0 | _ => item_flags i end).
  { unfold item_flags at 1. destruct pr; [|rewrite Fj; reflexivity|]; destruct Fj as (f & -> & _ & ->); reflexivity. }
  assert (Lj : legal PMeta (OSet j)).
  { cbn [legal] in *. destruct Lm as (L1 & L2 & L3 & L4 & L5). unfold legal_item. rewrite Kj, Vj, Ej, Cj. split; [exact L1|]. split; [|split; [exact L3|split; [exact L4|exact L5]]].
    pose proof (item_flags_range PMeta i L2) as Fr. cbn [flags_bound] in Fr.
    unfold legal_flags. destruct pr; [|rewrite Fj; exact Logic.I|]; destruct Fj as (f & -> & Lf & Uf); (split; [exact Lf|intros _; lia]). }
  exists j. split; [exact Lj|]. split; [exact Kj|]. split; [exact Vj|]. split; [exact Ej|]. split; [exact Cj|]. split; [exact If|].
  assert (Hq : router pn sn w q = let wr := exec meta_server (rp_prog pn sn (RSet j)) w in
     (fst wr, match snd wr with Ok _ => Ok [empty_response] | Err e => answer_error e | Panic => Panic end)) by (unfold router, proxy; rewrite Oq, Sq; reflexivity).
  destruct (pool_set_answer w j G Lj) as [(w' & E)|(w' & e & E)]; rewrite E in Hq; cbn [fst snd] in Hq; exists w'; unfold after, exchange, by_hand; rewrite Rq, Sv; unfold one_served; rewrite Hq.
  - assert (Wr : exists out, write_response (proto_of pr) q [empty_response] = Ok out /\ cl_resp (client_of pr name) (OSet i) out = (Ok RUnit, [])).
    { destruct pr; cbn [proto_of write_response]; unfold write_ascii_response, write_binary_response; rewrite Oq; cbn [on_first empty_response r_error].
      - unfold flavour in Fq. rewrite Oq, Sq in Fq. rewrite Sq. destruct (s_meta so); [discriminate Fq|]. eexists. split; reflexivity.
      - unfold flavour in Fq. rewrite Oq, Sq in Fq. rewrite Sq. destruct (s_meta so); [|discriminate Fq]. eexists. split; reflexivity.
      - eexists. split; reflexivity. }
    destruct Wr as (out & -> & Rs). cbn [fst snd]. split; [reflexivity|]. left. split; [exact E|]. unfold replies. cbn [flat_map sd_reply]. rewrite app_nil_r. exact Rs.
  - assert (Rn : cl_resp (client_of pr name) (OSet i) [] = (Err EIO, [])) by (destruct pr; reflexivity).
    unfold answer_error. destruct (is_memcached_error e).
    + assert (Wr : write_response (proto_of pr) q [mkRes [] (Some e) None [] 0 0] = Ok []).
      { destruct pr; cbn [proto_of write_response]; unfold write_ascii_response, write_binary_response; rewrite Oq; reflexivity. }
      rewrite Wr. cbn [fst snd]. split; [reflexivity|]. right. exists e. split; [exact E|]. split; [exact Rn|reflexivity].
    + cbn [fst snd]. split; [reflexivity|]. right. exists e. split; [exact E|]. split; [exact Rn|reflexivity].
Qed.
End RouterSet.

(** A set that is answered positively is stored on both owners of the key, with the request's value,
    expiration and (text and binary) flags; nothing else changes. *)
Theorem C50_positive_answer_means_stored_partial : forall ps ss pn sn now w pr name hd i r u,
  two_rings ps ss pn sn -> good_world 1 (ps ++ ss) w -> (forall sv, In sv (ps ++ ss) -> c_now (l_cache (w (sv_id sv))) = now) ->
  legal pr (OSet i) -> supported pr (OSet i) -> legal PMeta (OSet i) -> (pr = PMeta -> item_flags i = 0) ->
  exchange pr name hd (router pn sn) w (OSet i) = (Ok r, u) ->
  let w' := after pr name hd pn sn w (OSet i) in
  same_entry (held pn w' (it_key i)) (set_entry now i) /\ same_entry (held sn w' (it_key i)) (set_entry now i)
  /\ forall k, k <> it_key i -> held pn w' k = held pn w k /\ held sn w' k = held sn w k.
Proof.
  intros ps ss pn sn now w pr name hd i r u R G N Lp Sp Lm Fm E w'.
  destruct (conn_set ps ss pn sn R w pr name hd i G Lp Sp Lm) as (j & Lj & Kj & Vj & Ej & Cj & Fj & w1 & Hw & [[X Y]|(e & X & Y & _)]); [|rewrite Y in E; discriminate E].
  subst w1. fold w' in X. clear Y E.
  assert (If : item_flags j = item_flags i) by (rewrite Fj; destruct pr; try reflexivity; symmetry; apply Fm; reflexivity).
  destruct (pool_step ps ss pn sn R 0 w (RSet j) w' (Ok RUnit) ltac:(lia) G Lj X) as (_ & p & s & cp & cs & cp' & cs' & hp & hs & Pp & Ps & Ip & Is & Ep & Es & Wp & Ws & Ep' & Es' & Nn & Chp & Chs & Ot & Ef).
  specialize (Ef RUnit eq_refl). cbn [effect rop_key] in *. rewrite Kj in *. destruct Ef as [-> ->].
  assert (Np : c_now cp = now) by (rewrite <- (N p ltac:(apply in_or_app; auto)), Ep; reflexivity).
  assert (St : forall c, c_now c = now -> same_entry (lookup (stored c j) (it_key i)) (set_entry now i)).
  { intros c Nc. unfold stored, set_entry. rewrite Kj, lookup_put, Vj, Ej, If, Nc. cbv zeta. unfold alive. cbn [e_expire].
    destruct (expire_at now (it_exp i)) as [t|]; [destruct (now <? t)|]; cbn; auto. }
  rewrite (held_p pn w' _ p _ hp Pp Ep'), (held_s sn w' _ s _ hs Ps Es').
  split; [apply St; exact Np|]. split; [apply St; congruence|]. intros k Nk.
  assert (Ln : forall sv c c' h, w (sv_id sv) = fresh_link c h -> w' (sv_id sv) = fresh_link c' h -> chg (it_key i) c c' ->
     lookup (l_cache (w' (sv_id sv))) k = lookup (l_cache (w (sv_id sv))) k).
  { intros sv c c' h E1 E2 Ch. rewrite E1, E2. cbn [fresh_link l_cache]. apply (chg_lookup _ _ _ _ Ch). exact Nk. }
  assert (All : forall v, lookup (l_cache (w' v)) k = lookup (l_cache (w v)) k).
  { intro v. destruct (Nat.eq_dec v (sv_id p)) as [->|N1]; [apply (Ln p _ _ _ Ep Ep' Chp)|]. destruct (Nat.eq_dec v (sv_id s)) as [->|N2]; [apply (Ln s _ _ _ Es Es' Chs)|].
    rewrite Ot by assumption. reflexivity. }
  unfold held. destruct (pick pn k), (pick sn k); rewrite ?All; auto.
Qed.
Print Assumptions C50_positive_answer_means_stored_partial.

(** A set without an expected cas number that fits is answered positively. *)
Theorem C50_set_accepted : forall ps ss pn sn w pr name hd i,
  two_rings ps ss pn sn -> good_world 1 (ps ++ ss) w -> legal pr (OSet i) -> supported pr (OSet i) -> legal PMeta (OSet i) ->
  it_cas i = 0 -> (forall sv, In sv (ps ++ ss) -> too_large (l_cache (w (sv_id sv))) (it_value i) = false) ->
  exchange pr name hd (router pn sn) w (OSet i) = (Ok RUnit, []).
Proof.
  intros ps ss pn sn w pr name hd i R G Lp Sp Lm C0 T.
  destruct (conn_set ps ss pn sn R w pr name hd i G Lp Sp Lm) as (j & Lj & Kj & Vj & Ej & Cj & Fj & w1 & Hw & [[X Y]|(e & X & Y)]); [exact Y|exfalso].
  destruct (owner_p _ _ _ _ R (it_key j)) as (p & Pp & Ip). destruct (owner_s _ _ _ _ R (it_key j)) as (s & Ps & Is).
  pose proof (apart _ _ _ _ R p s Ip Is) as D.
  destruct (good_at ps ss 1 w p G ltac:(apply in_or_app; auto)) as (cp & hp & Ep & Wp & Cp).
  destruct (good_at ps ss 1 w s G ltac:(apply in_or_app; auto)) as (cs & hs & Es & Ws & Cs).
  cbn [rp_prog] in X. unfold rp_store, on_ring in X. rewrite Pp, Ps in X. cbn [exec] in X. unfold server_call in X. cbn [fst snd] in X. rewrite Ep in X.
  assert (Fin : forall sv c h, In sv (ps ++ ss) -> w (sv_id sv) = fresh_link c h -> wf PMeta c -> c_cas c + 1 < 2 ^ 63 ->
    snd (meta_server (fresh_link c h) (OSet j)) = Ok RUnit).
  { intros sv c h Iv Ev Wv Cv. destruct (meta_answers c h (OSet j) (it_key j) Wv ltac:(lia) Lj eq_refl eq_refl) as (out & Em & A). rewrite Em. cbn [snd].
    destruct A as [A|[A _]]; [|discriminate A]. specialize (T sv Iv). rewrite Ev in T. cbn [fresh_link l_cache] in T.
    cbn [spec_step snd] in A. rewrite Cj, C0 in A. change (0 =? 0) with true in A. cbv iota in A. unfold cache_set in A. rewrite Vj, T in A. cbn [snd store_outcome] in A.
    destruct out; cbn in A; try contradiction. subst. reflexivity. }
  rewrite (Fin p cp hp ltac:(apply in_or_app; auto) Ep Wp Cp) in X. cbn [if_ok exec] in X. unfold server_call in X. cbn [fst snd] in X. rewrite upd_other in X by congruence. rewrite Es in X.
  rewrite (Fin s cs hs ltac:(apply in_or_app; auto) Es Ws Cs) in X. cbn [fst snd] in X. discriminate X.
Qed.
Print Assumptions C50_set_accepted.

(** A set the pool refuses gets no answer at all, with every protocol: the client only notices when the
    connection is closed. *)
Theorem C50_refused_set_gets_no_reply : forall ps ss pn sn w pr name hd i,
  two_rings ps ss pn sn -> good_world 1 (ps ++ ss) w -> legal pr (OSet i) -> supported pr (OSet i) -> legal PMeta (OSet i) ->
  (forall r u, exchange pr name hd (router pn sn) w (OSet i) <> (Ok r, u)) ->
  exchange pr name hd (router pn sn) w (OSet i) = (Err EIO, [])
  /\ match fst (cl_req (client_of pr name) hd (OSet i)) with
     | Ok rq => snd (by_hand pn sn w rq) = []
     | _ => False
     end.
Proof.
  intros ps ss pn sn w pr name hd i R G Lp Sp Lm Nr.
  destruct (conn_set ps ss pn sn R w pr name hd i G Lp Sp Lm) as (j & Lj & Kj & Vj & Ej & Cj & Fj & w1 & Hw & [[X Y]|(e & X & Y)]); [exfalso; exact (Nr _ _ Y)|].
  exact Y.
Qed.
Print Assumptions C50_refused_set_gets_no_reply.

(** In particular a set with an outdated cas number (the meta client's compare-and-swap). *)
Theorem C50_outdated_cas_gets_no_reply : forall ps ss pn sn w name hd i e,
  two_rings ps ss pn sn -> good_world 1 (ps ++ ss) w -> legal PMeta (OSet i) -> supported PMeta (OSet i) ->
  held pn w (it_key i) = Some e -> it_cas i <> 0 -> e_cas e <> it_cas i ->
  match fst (cl_req (client_of PMeta name) hd (OSet i)) with
  | Ok rq => snd (by_hand pn sn w rq) = []
  | _ => False
  end.
Proof.
  intros ps ss pn sn w name hd i e R G L S Hk C0 Ne. apply (C50_refused_set_gets_no_reply ps ss pn sn w PMeta name hd i R G L S L). intros r u E.
  destruct (conn_set ps ss pn sn R w PMeta name hd i G L S L) as (j & Lj & Kj & Vj & Ej & Cj & Fj & w1 & Hw & [[X Y]|(e1 & X & Y & _)]); [|rewrite Y in E; discriminate E].
  cbn [rp_prog] in X. unfold rp_store, on_ring in X. unfold held in Hk. rewrite Kj in X. destruct (pick pn (it_key i)) as [p| |] eqn:Pp; try discriminate Hk.
  destruct (owner_p _ _ _ _ R (it_key i)) as (p' & Pp' & Ip). assert (p' = p) by congruence. subst p'.
  destruct (good_at ps ss 1 w p G ltac:(apply in_or_app; auto)) as (c & h & Ec & Wc & Cc). rewrite Ec in Hk. cbn [fresh_link l_cache] in Hk.
  cbn [exec] in X. unfold server_call in X. rewrite Ec in X.
  destruct (meta_answers c h (OSet j) (it_key j) Wc ltac:(lia) Lj eq_refl eq_refl) as (out & Em & A). rewrite Em in X. cbn [fst snd] in X.
  destruct A as [A|[A _]]; [|discriminate A]. cbn [spec_step snd] in A. rewrite Cj, Kj in A. replace (it_cas i =? 0) with false in A by (symmetry; apply Z.eqb_neq; exact C0).
  unfold cache_cas in A. rewrite Hk in A. replace (e_cas e =? it_cas i) with false in A by (symmetry; apply Z.eqb_neq; exact Ne).
  destruct (too_large c (it_value j)); cbn [snd store_outcome] in A; destruct out; cbn in A; try contradiction; cbn [if_ok exec] in X; discriminate X.
Qed.
Print Assumptions C50_outdated_cas_gets_no_reply.

(** So no refusal is ever relayed. *)
Definition C50_refusals_are_relayed : Prop := forall ps ss pn sn w pr name hd i p,
  two_rings ps ss pn sn -> good_world 1 (ps ++ ss) w -> legal pr (OSet i) -> supported pr (OSet i) -> legal PMeta (OSet i) ->
  pick pn (it_key i) = Ok p -> (forall x, snd (meta_server (w (sv_id p)) (OSet i)) <> Ok x) ->      (* refused by the primary *)
  match fst (cl_req (client_of pr name) hd (OSet i)) with
  | Ok rq => snd (by_hand pn sn w rq) <> []                                                          (* is answered *)
  | _ => False
  end.
Definition stale_cas_x : item := mkItem (B "x") (B "v") None 0 77 [].
Theorem C50_refusal_refuted : ~ C50_refusals_are_relayed.
Proof.
  intro H. destruct (counter_world_ok None Logic.I) as (G & _).
  assert (Lx : legal PMeta (OSet stale_cas_x)).
  { cbn [legal stale_cas_x]. split; [exact legal_x|]. split; [exact Logic.I|]. split; [cbn; lia|]. cbn [stale_cas_x it_cas it_value]. change (zlen (B "v")) with 1. lia. }
  assert (Sx : supported PMeta (OSet stale_cas_x)) by (vm_compute; reflexivity).
  assert (Rf : forall x, snd (meta_server (counter_world None (sv_id sv_a)) (OSet stale_cas_x)) <> Ok x) by (intro x; vm_compute; discriminate).
  specialize (H _ _ _ _ _ PMeta [] reset_header stale_cas_x sv_a rings_a_b G Lx Sx Lx (pick_a _) Rf).
  assert (Hx : held prim_a (counter_world None) (it_key stale_cas_x) = Some (mkEntry (B "1") 0 None 1 false)) by (rewrite held_a; vm_compute; reflexivity).
  assert (Q := C50_outdated_cas_gets_no_reply _ _ _ _ _ [] reset_header stale_cas_x _ rings_a_b G Lx Sx Hx ltac:(discriminate) ltac:(discriminate)).
  destruct (fst (cl_req (client_of PMeta []) reset_header (OSet stale_cas_x))); [exact (H Q)|exact Q|exact Q].
Qed.
Print Assumptions C50_refusal_refuted.
Definition five_x : item := mkItem (B "x") (B "v") (Some (be 4 5)) 0 0 [].
Lemma five_x_legal : forall pr, legal pr (OSet five_x) /\ supported pr (OSet five_x).
Proof.
  intro pr. split.
  - cbn [legal five_x]. split; [destruct pr; [exact legal_x_text|exact legal_x|split; [cbn; lia|exact Logic.I]]|].
    split; [split; [reflexivity|intros _; vm_compute; reflexivity]|]. split; [destruct pr; cbn; lia|]. cbn [five_x it_cas it_value]. change (zlen (B "v")) with 1. lia.
  - destruct pr; vm_compute; auto.
Qed.
Example C50_met : legal PText (OSet five_x) /\ supported PText (OSet five_x) /\ legal PMeta (OSet five_x)
  /\ exchange PText [] reset_header (router prim_a sec_b) new_memcacheds (OSet five_x) = (Ok RUnit, [])
  /\ set_entry 100 five_x = Some (mkEntry (B "v") 5 None 0 false).
Proof.
  destruct (five_x_legal PText) as [A C]. destruct (five_x_legal PMeta) as [D _]. split; [exact A|]. split; [exact C|]. split; [exact D|]. split; [|reflexivity].
  apply (C50_set_accepted _ _ _ _ _ PText [] reset_header five_x rings_a_b (new_good 1 _ ltac:(lia)) A C D eq_refl). intros; reflexivity.
Qed.

(** ** C49 *)
(** Text and binary: the flags of a set reach both owners of the key. *)
Theorem C49_flags_reach_both_replicas_partial : forall ps ss pn sn w pr name hd i r u,
  two_rings ps ss pn sn -> good_world 1 (ps ++ ss) w -> pr <> PMeta -> legal pr (OSet i) -> supported pr (OSet i) -> legal PMeta (OSet i) ->
  exchange pr name hd (router pn sn) w (OSet i) = (Ok r, u) ->
  let w' := after pr name hd pn sn w (OSet i) in
  (forall e, held pn w' (it_key i) = Some e -> e_flags e = item_flags i)
  /\ (forall e, held sn w' (it_key i) = Some e -> e_flags e = item_flags i).
Proof.
  intros ps ss pn sn w pr name hd i r u R G Np Lp Sp Lm E w'.
  destruct G as [now G]. assert (N : forall sv, In sv (ps ++ ss) -> c_now (l_cache (w (sv_id sv))) = now) by (intros sv Iv; destruct (G sv Iv) as (c & h & Ec & _ & Nc & _); rewrite Ec; exact Nc).
  destruct (C50_positive_answer_means_stored_partial ps ss pn sn now w pr name hd i r u R (ex_intro _ now G) N Lp Sp Lm ltac:(congruence) E) as (A & C & _). fold w' in A, C.
  unfold set_entry in A, C. destruct (alive now _); split; intros e He; rewrite He in *; cbn in *; try contradiction; tauto.
Qed.
Print Assumptions C49_flags_reach_both_replicas_partial.

(** But no get through the proxy returns flags, whatever is stored (text by hand: C48_text_hit_partial). *)
Theorem C49_get_never_returns_flags : forall ps ss pn sn w pr name hd k i u,
  two_rings ps ss pn sn -> good_world 1 (ps ++ ss) w -> pr <> PText -> legal_key pr k -> legal_key PMeta k ->
  exchange pr name hd (router pn sn) w (OGet k) = (Ok (RItem i), u) -> item_flags i = 0.
Proof.
  intros ps ss pn sn w pr name hd k i u R G Np Lp Lm E. 
  assert (Gv : exists kk v er, gives pr (router pn sn) w (get_wish [k]) [mkRes kk er None v 0 0] /\ zlen kk <= 250 /\ zlen v <= 2 ^ 30).
  { assert (Q : forall q, understood q = get_wish [k] -> tidy pr q = true -> q_opcode q = OpcGet /\ q_key q = k).
    { intros q Uq Tq. unfold understood in Uq. injection Uq as Uo Uk _ _ _ _ _. split; [exact Uo|]. rewrite Uo in Uk. cbn [keyless] in Uk.
      unfold tidy in Tq. rewrite Uo in Tq. destruct (q_keys q); [congruence|]. destruct pr; [congruence|discriminate Tq|discriminate Tq]. }
    destruct (held pn w k) as [e|] eqn:Hk.
    - exists k, (e_value e), None. split; [|split; [destruct Lp as [Lp _]; lia|]].
      + intros q Uq Tq. destruct (Q q Uq Tq) as [Oq Kq]. destruct (proxy_get ps ss pn sn R w q G Oq ltac:(rewrite Kq; exact Lm)) as (w' & Hq & _). rewrite Hq, Kq, Hk. reflexivity.
      + unfold held in Hk. destruct (pick pn k) as [p| |] eqn:Pp; try discriminate Hk. destruct (owner_p _ _ _ _ R k) as (p' & Pp' & Ip). assert (p' = p) by congruence. subst p'.
        destruct (good_at ps ss 1 w p G ltac:(apply in_or_app; auto)) as (c & h & Ew & Wf & _). rewrite Ew in Hk. destruct (wf_lookup _ _ _ _ Wf Hk) as (Q1 & _).
        destruct Wf as ((Q2 & _) & _). lia.
    - exists [], [], (Some ENotFound). split; [|split; cbn; lia].
      intros q Uq Tq. destruct (Q q Uq Tq) as [Oq Kq]. destruct (proxy_get ps ss pn sn R w q G Oq ltac:(rewrite Kq; exact Lm)) as (w' & Hq & _). rewrite Hq, Kq, Hk. reflexivity. }
  destruct Gv as (kk & v & er & Gv & Lk & Lv). pose proof (zlen_nonneg _ kk). pose proof (zlen_nonneg _ v). destruct pr; [congruence| |].
  - rewrite (exchange_one _ _ _ PMeta name hd (OGet k) _ _ ((B "VA " ++ dec (zlen v) ++ B " v" ++ crlf ++ v ++ crlf) ++ []) Lp Logic.I eq_refl Gv) in E.
    + cbn [client_of meta_client cl_resp meta_resp] in E. rewrite (rmap_ok _ _ _ _ _ _ (meta_get_v k v [] Lv)) in E. injection E as E _. subst i. reflexivity.
    + intros q Uq Fq. unfold understood in Uq. injection Uq as Uo _ _ _ _ _ _. unfold flavour in Fq. rewrite Uo in Fq.
      cbn [proto_of write_response]. unfold write_ascii_response. rewrite Uo. destruct (q_get q) as [g|]; [|discriminate].
      apply andb_true_iff in Fq. destruct Fq as [Fq Fv]. apply beq_eq in Fq. cbn [map concat_outcomes]. unfold meta_get_block_bytes. rewrite Fq, Fv.
      change (flag_number _) with (Ok 0). cbn [oapp flat_map meta_flag_text B list_ascii_of_string Ascii.eqb Bool.eqb app r_value]. rewrite ?app_nil_r. repeat (rewrite <- app_assoc; cbn [app]). reflexivity.
  - rewrite (exchange_one _ _ _ PBinary name hd (OGet k) _ _ (packet 0 0 0 [] kk v ++ []) Lp Logic.I eq_refl Gv) in E.
    + cbn [client_of bin_client cl_resp bin_resp] in E. rewrite (rmap_ok _ _ _ _ _ _ (bin_get_packet k [] kk v [] ltac:(cbn; lia) ltac:(lia) Lv)) in E. injection E as E _. subst i. reflexivity.
    + intros q Uq Fq. unfold understood in Uq. injection Uq as Uo _ _ _ _ _ _.
      cbn [proto_of write_response]. unfold write_binary_response. rewrite Uo. cbn [flat_map]. change (1 <? zlen [_]) with false. rewrite !app_nil_r.
      rewrite binary_response_packet by (cbn [r_key r_flags opt_bytes r_value]; change (zlen (@nil ascii)) with 0; lia). reflexivity.
Qed.
Print Assumptions C49_get_never_returns_flags.

Definition C49_flags_preserved : Prop := forall ps ss pn sn w pr name hd i r u j u',
  two_rings ps ss pn sn -> good_world 2 (ps ++ ss) w -> legal pr (OSet i) -> supported pr (OSet i) -> legal PMeta (OSet i) ->
  exchange pr name hd (router pn sn) w (OSet i) = (Ok r, u) ->
  exchange pr name hd (router pn sn) (after pr name hd pn sn w (OSet i)) (OGet (it_key i)) = (Ok (RItem j), u') ->
  item_flags j = item_flags i.
Theorem C49_flags_lost_refuted : ~ C49_flags_preserved.
Proof.
  intro H. destruct (five_x_legal PBinary) as [Lp Sp]. destruct (five_x_legal PMeta) as [Lm _].
  pose proof (new_good 2 ([sv_a] ++ [sv_b]) ltac:(lia)) as G2. pose proof (new_good 1 ([sv_a] ++ [sv_b]) ltac:(lia)) as G1.
  assert (E := C50_set_accepted _ _ _ _ _ PBinary [] reset_header five_x rings_a_b G1 Lp Sp Lm eq_refl ltac:(intros; reflexivity)).
  destruct (C50_positive_answer_means_stored_partial _ _ _ _ 100 _ PBinary [] reset_header five_x _ _ rings_a_b G1 ltac:(reflexivity) Lp Sp Lm ltac:(discriminate) E) as (St & _).
  destruct (conn_set _ _ _ _ rings_a_b _ PBinary [] reset_header five_x G1 Lp Sp Lm) as (j & Lj & _ & _ & _ & _ & _ & w1 & Hw & [[X _]|(e & X & Y & _)]); [|rewrite Y in E; discriminate E].
  destruct (pool_step _ _ _ _ rings_a_b 1 _ (RSet j) _ _ ltac:(lia) G2 Lj X) as (G' & _). rewrite <- Hw in G'.
  destruct (held prim_a (after PBinary [] reset_header prim_a sec_b new_memcacheds (OSet five_x)) (it_key five_x)) as [e|] eqn:Hk; [|cbn in St; exact St].
  destruct (C48_hit_partial _ _ _ _ _ PBinary [] reset_header (it_key five_x) e rings_a_b G' ltac:(discriminate) (proj1 Lp) (proj1 Lm) Hk) as (i & E2 & _).
  specialize (H _ _ _ _ _ PBinary [] reset_header five_x _ _ _ _ rings_a_b G2 Lp Sp Lm E E2).
  rewrite (C49_get_never_returns_flags _ _ _ _ _ PBinary [] reset_header (it_key five_x) i _ rings_a_b G' ltac:(discriminate) (proj1 Lp) (proj1 Lm) E2) in H. vm_compute in H. discriminate H.
Qed.
Print Assumptions C49_flags_lost_refuted.
Example C49_met : legal PBinary (OSet five_x) /\ supported PBinary (OSet five_x) /\ item_flags five_x = 5
  /\ exchange PBinary [] reset_header (router prim_a sec_b) new_memcacheds (OSet five_x) = (Ok RUnit, []).
Proof.
  destruct (five_x_legal PBinary) as [A C]. destruct (five_x_legal PMeta) as [D _]. split; [exact A|]. split; [exact C|]. split; [reflexivity|].
  apply (C50_set_accepted _ _ _ _ _ PBinary [] reset_header five_x rings_a_b (new_good 1 _ ltac:(lia)) A C D eq_refl). intros; reflexivity.
Qed.

(** ** C51 *)
Definition passed_on (o : opcode) : bool := match o with OpcGet | OpcSet => true | _ => false end.
(** Whatever a connection carries: a request other than get or set is the last one served, is not
    answered, closes the connection, and the backends are as the requests before it left them. *)
Theorem C51_unsupported_requests_end_the_connection : forall ST (step : ST -> op -> ST * outcome result) pn sn w s w' l ft d,
  serve_conn (proxy step pn sn) w s = (w', l, ft) -> In d l -> passed_on (q_opcode (sd_req d)) = false ->
  exists l0 p, l = l0 ++ [d] /\ sd_reply d = [] /\ ft = Closed proxy_unknown
    /\ serve_list (proxy step pn sn) p w (map sd_req l0) = (w', l0, None).
Proof.
  intros ST step pn sn w s w' l ft d E I U. destruct s as [|c s]; [cbn in E; injection E as <- <- <-; contradiction|].
  rewrite serve_conn_as in E. unfold serve_rest in E. set (p := announced c) in *. clearbody p.
  remember (S (length (c :: s))) as fuel eqn:Hf. clear Hf. generalize dependent (c :: s). clear c s. intro s.
  enough (Q : forall fuel s w w' l ft, serve_as p (proxy step pn sn) fuel w s = (w', l, ft) -> In d l ->
    exists l0, l = l0 ++ [d] /\ sd_reply d = [] /\ ft = Closed proxy_unknown /\ serve_list (proxy step pn sn) p w (map sd_req l0) = (w', l0, None)).
  { intro E. destruct (Q fuel s w w' l ft E I) as (l0 & X). exists l0, p. exact X. }
  clear fuel s w w' l ft I. induction fuel as [|f IH]; intros s w w' l ft E I; cbn [serve_as] in E; [injection E as <- <- <-; contradiction|].
  destruct (parser p s) as [[q|e|] s']; try (injection E as <- <- <-; contradiction).
  destruct (passed_on (q_opcode q)) eqn:Pq.
  - destruct (proxy step pn sn w q) as [w1 [res|e|]] eqn:Hq; try (injection E as <- <- <-; destruct I as [<-|[]]; cbn [sd_req] in U; congruence).
    destruct (write_response p q res) as [out|e|] eqn:Wr; try (injection E as <- <- <-; destruct I as [<-|[]]; cbn [sd_req] in U; congruence).
    destruct (serve_as p (proxy step pn sn) f w1 s') as [[w2 l2] ft2] eqn:Sv. injection E as <- <- <-.
    destruct I as [<-|I]; [cbn [sd_req] in U; congruence|]. destruct (IH s' w1 w2 l2 ft2 Sv I) as (l0 & -> & Rp & Ft & Sl).
    exists (mkServed q out :: l0). split; [reflexivity|]. split; [exact Rp|]. split; [exact Ft|]. cbn [map sd_req serve_list]. rewrite Hq, Wr, Sl. reflexivity.
  - assert (Hq : proxy step pn sn w q = (w, Err proxy_unknown)) by (unfold proxy; destruct (q_opcode q); try discriminate Pq; reflexivity).
    rewrite Hq in E. injection E as <- <- <-. destruct I as [<-|[]]. exists []. repeat split.
Qed.
Print Assumptions C51_unsupported_requests_end_the_connection.

(** From the client: every call but Get, GetMulti and Set fails and changes nothing. *)
Definition get_or_set (o : op) : bool := match o with OGet _ | OGetMulti _ | OSet _ => true | _ => false end.
Theorem C51_other_calls_fail_without_effect : forall pn sn w pr name hd o,
  legal pr o -> supported pr o -> get_or_set o = false ->
  (exists e u, exchange pr name hd (router pn sn) w o = (Err e, u)) /\ after pr name hd pn sn w o = w
  /\ match fst (cl_req (client_of pr name) hd o) with Ok rq => snd (by_hand pn sn w rq) = [] | _ => False end.
Proof.
  intros pn sn w pr name hd o L S N. assert (V : exists v, intended pr o = [v] /\ passed_on (w_op v) = false).
  { destruct o; try discriminate N; destruct pr; eexists; split; reflexivity. }
  destruct V as (v & V & Pv). destruct (conn_one _ (router pn sn) w pr name hd o v L S V) as (q & rq & Uq & Fq & Tq & Rq & Sv).
  assert (Oq : passed_on (q_opcode q) = false) by (rewrite <- Uq in Pv; exact Pv).
  assert (Hq : router pn sn w q = (w, Err proxy_unknown)) by (unfold router, proxy; destruct (q_opcode q); try discriminate Oq; reflexivity).
  unfold exchange, after, by_hand. rewrite Rq, Sv. unfold one_served. rewrite Hq. cbn [fst snd]. split; [|split; reflexivity].
  destruct o; try discriminate N; destruct pr; try contradiction S; eexists _, _; reflexivity.
Qed.
Print Assumptions C51_other_calls_fail_without_effect.
Example C51_met : exists d, In d (snd (fst (serve_conn (router (one sv_a) (one sv_b)) new_memcacheds (B "get x" ++ crlf ++ B "delete x" ++ crlf ++ B "get x" ++ crlf))))
  /\ passed_on (q_opcode (sd_req d)) = false /\ legal PText (ODelete (B "x")) /\ supported PText (ODelete (B "x")) /\ get_or_set (ODelete (B "x")) = false.
Proof.
  exists (mkServed (mkReq OpcDelete (B "x") [] None [] 0 None None (Some false)) []). split; [vm_compute; auto|]. split; [reflexivity|]. split; [exact legal_x_text|]. split; [exact Logic.I|reflexivity].
Qed.

(** ** C52 *)
(** What a text get of the keys [ks] should be answered with. *)
Definition expected_get (pn : list node) (w : world link) (ks : list bytes) : bytes :=
  flat_map (fun k => match held pn w k with Some e => value_line false k e | None => [] end) ks ++ B "END" ++ crlf.
(** One key, when it is there and its flags are 0. *)
Theorem C52_one_key_partial : forall ps ss pn sn w k e,
  two_rings ps ss pn sn -> good_world 1 (ps ++ ss) w -> legal_key PText k -> held pn w k = Some e -> e_flags e = 0 ->
  snd (by_hand pn sn w (B "get " ++ join_sp [k] ++ crlf)) = expected_get pn w [k].
Proof.
  intros ps ss pn sn w k e R G L Hk Fl. cbn [join_sp]. rewrite (proj1 (C48_text_hit_partial ps ss pn sn w k e R G L Hk)).
  unfold expected_get. cbn [flat_map]. rewrite Hk. unfold value_line. rewrite Fl. change (dec 0) with (B "0"). rewrite ?app_nil_r. repeat rewrite <- app_assoc. reflexivity.
Qed.
Print Assumptions C52_one_key_partial.

(** Two keys or more: "get" closes the connection without an answer. *)
Theorem C52_get_of_several_keys_is_rejected : forall pn sn w ks, Forall (legal_key PText) ks -> (1 < length ks)%nat ->
  by_hand pn sn w (B "get " ++ join_sp ks ++ crlf) = (w, []).
Proof.
  intros pn sn w ks L N. unfold by_hand.
  assert (Rq : exists e t, parser ProtoAscii (B "get " ++ join_sp ks ++ crlf) = (Err e, t)).
  { cbn [parser]. destruct ks as [|k ks].
    - cbn in N. lia.
    - assert (Fw : Forall word (B "get" :: k :: ks)).
      { constructor; [apply wordb_word; reflexivity|]. eapply Forall_impl; [|exact L]. intros a Ha. apply (legal_key_props _ Ha). }
      assert (Q := ascii_words' (B "get" :: k :: ks) (B "get " ++ join_sp (k :: ks) ++ crlf) [] ltac:(discriminate) Fw).
      rewrite app_nil_r in Q. rewrite Q by (change (join_sp (B "get" :: k :: ks)) with (B "get" ++ SP :: join_sp (k :: ks)); rewrite <- app_assoc; reflexivity).
      destruct ks; [cbn in N; lia|]. eexists _, _. reflexivity. }
  destruct Rq as (e & t & Rq). change (B "get " ++ join_sp ks ++ crlf) with ("g"%char :: "e"%char :: "t"%char :: " "%char :: join_sp ks ++ crlf) in *.
  rewrite serve_conn_as. change (announced "g") with ProtoAscii. unfold serve_rest. cbn [serve_as]. rewrite Rq. reflexivity.
Qed.
Print Assumptions C52_get_of_several_keys_is_rejected.

(** "gets" is answered, but the answer does not depend on the keys. *)
Theorem C52_gets_ignores_the_keys : forall pn sn w ks ks', Forall (legal_key PText) ks -> Forall (legal_key PText) ks' -> ks <> [] -> ks' <> [] ->
  by_hand pn sn w (B "gets " ++ join_sp ks ++ crlf) = by_hand pn sn w (B "gets " ++ join_sp ks' ++ crlf).
Proof.
  intros pn sn w. assert (Q : forall ks, Forall (legal_key PText) ks -> ks <> [] -> by_hand pn sn w (B "gets " ++ join_sp ks ++ crlf)
    = let x := one_served (router pn sn) w ProtoAscii (mkReq OpcGet [] [] None [] 0 None None None) in (fst (fst x), replies (snd (fst x)))).
  { intros ks L N. assert (Rq : read_ascii_request (B "gets " ++ join_sp ks ++ crlf) = (Ok (mkReq OpcGet [] ks None [] 0 None None None), [])).
    { destruct ks as [|k ks]; [congruence|]. assert (Fw : Forall word (B "gets" :: k :: ks)).
      { constructor; [apply wordb_word; reflexivity|]. eapply Forall_impl; [|exact L]. intros a Ha. apply (legal_key_props _ Ha). }
      assert (Q := ascii_words' (B "gets" :: k :: ks) (B "gets " ++ join_sp (k :: ks) ++ crlf) [] ltac:(discriminate) Fw).
      rewrite app_nil_r in Q. rewrite Q by (change (join_sp (B "gets" :: k :: ks)) with (B "gets" ++ SP :: join_sp (k :: ks)); rewrite <- app_assoc; reflexivity). reflexivity. }
    unfold by_hand. rewrite (hand_one _ _ _ (B "gets " ++ join_sp ks ++ crlf) _ ltac:(cbn; discriminate) Rq). unfold one_served, router, proxy. cbn [q_opcode q_key].
    destruct (exec meta_server (rp_prog pn sn (RGet [])) w) as [w1 r]. cbn [fst snd]. destruct r as [[]|e|]; try reflexivity. unfold answer_error. destruct (is_memcached_error e); reflexivity. }
  intros ks ks' L L' N N'. rewrite (Q ks L N), (Q ks' L' N'). reflexivity.
Qed.
Print Assumptions C52_gets_ignores_the_keys.

Definition C52_multi_get : Prop := forall ps ss pn sn w ks,
  two_rings ps ss pn sn -> good_world 1 (ps ++ ss) w -> Forall (legal_key PText) ks -> ks <> [] ->
  (snd (by_hand pn sn w (B "get " ++ join_sp ks ++ crlf)) = expected_get pn w ks
   \/ snd (by_hand pn sn w (B "gets " ++ join_sp ks ++ crlf)) = expected_get pn w ks).
Lemma legal_y_text : legal_key PText (B "y").
Proof. apply PClient.legal_keyb_ok. reflexivity. Qed.
Lemma multi_get_constant : C52_multi_get -> forall ps ss pn sn w ks ks', two_rings ps ss pn sn -> good_world 1 (ps ++ ss) w ->
  Forall (legal_key PText) ks -> Forall (legal_key PText) ks' -> (1 < length ks)%nat -> (1 < length ks')%nat -> expected_get pn w ks = expected_get pn w ks'.
Proof.
  intros H ps ss pn sn w ks ks' R G L L' N N'.
  assert (Nn : forall l : list bytes, (1 < length l)%nat -> l <> []) by (intros [|? ?]; cbn; [lia|discriminate]).
  assert (Ex : forall ks, Forall (legal_key PText) ks -> (1 < length ks)%nat -> snd (by_hand pn sn w (B "gets " ++ join_sp ks ++ crlf)) = expected_get pn w ks).
  { intros l Ll Nl. destruct (H ps ss pn sn w l R G Ll (Nn l Nl)) as [E|E]; [|exact E]. rewrite (C52_get_of_several_keys_is_rejected pn sn w l Ll Nl) in E. cbn [snd] in E.
    exfalso. unfold expected_get in E. destruct (flat_map _ l); discriminate E. }
  rewrite <- (Ex ks L N), <- (Ex ks' L' N'). rewrite (C52_gets_ignores_the_keys pn sn w ks ks' L L' (Nn ks N) (Nn ks' N')). reflexivity.
Qed.
Lemma expected_ext : forall pn w f, (forall k, held pn w k = f k) -> forall ks, expected_get pn w ks = flat_map (fun k => match f k with Some e => value_line false k e | None => [] end) ks ++ B "END" ++ crlf.
Proof. intros pn w f H ks. unfold expected_get. f_equal. induction ks as [|k ks IH]; [reflexivity|]. cbn [flat_map]. rewrite H, IH. reflexivity. Qed.
Theorem C52_multi_get_refuted : ~ C52_multi_get.
Proof.
  intro H. destruct (counter_world_ok None Logic.I) as (G & _).
  assert (Lxy : Forall (legal_key PText) [B "x"; B "y"]) by (constructor; [exact legal_x_text|constructor; [exact legal_y_text|constructor]]).
  assert (Lyy : Forall (legal_key PText) [B "y"; B "y"]) by (constructor; [exact legal_y_text|constructor; [exact legal_y_text|constructor]]).
  assert (E := multi_get_constant H [sv_a] [sv_b] prim_a sec_b (counter_world None) [B "x"; B "y"] [B "y"; B "y"] rings_a_b G Lxy Lyy ltac:(cbn; lia) ltac:(cbn; lia)).
  assert (X := expected_ext prim_a (counter_world None) _ (held_a (counter_world None))).
  rewrite (X [B "x"; B "y"]), (X [B "y"; B "y"]) in E. clear X H. vm_compute in E. discriminate E.
Qed.
Print Assumptions C52_multi_get_refuted.

Example C52_met : held prim_a (counter_world None) (B "x") = Some (mkEntry (B "1") 0 None 1 false)
  /\ legal_key PText (B "x") /\ good_world 1 ([sv_a] ++ [sv_b]) (counter_world None).
Proof. split; [rewrite held_a; vm_compute; reflexivity|]. split; [exact legal_x_text|]. exact (proj1 (counter_world_ok None Logic.I)). Qed.
