(** * The text client against the daemon. *)
From Verif Require Import GoBytes GoNum GoIO GoScan Item ClientText Cache Daemon Spec Intent Call
  PLib PScan PDaemon PCache.
Local Open Scope Z_scope.

Lemma legal_key_props : forall k, legal_key PText k -> k <> [] /\ utf8_word k /\ word k /\ key_ok k = true.
Proof.
  intros k [L F]. simpl in F. split; [|split; [|split]].
  - intros ->. change (zlen (@nil ascii)) with 0 in L. lia.
  - exact F.
  - apply key_is_word. exact F.
  - unfold key_ok, key_max. apply Z.leb_le. lia.
Qed.

Lemma legal_key_word : forall pr k, pr <> PBinary -> legal_key pr k -> k <> [] /\ word k /\ key_ok k = true.
Proof.
  intros pr k N [L F]. repeat split.
  - intros ->. change (zlen (@nil ascii)) with 0 in L. lia.
  - destruct pr; cbn [key_text] in F; [apply key_is_word; exact F| |congruence].
    eapply Forall_impl; [|exact F]. cbn. intros; lia.
  - unfold key_ok, key_max. apply Z.leb_le. lia.
Qed.

Lemma text_flags_item : forall pr i, legal_flags pr i -> text_flags i = item_flags i.
Proof.
  intros pr i H. unfold text_flags, item_flags, legal_flags in *. destruct (it_flags i) as [f|]; auto.
  destruct H as [L _]. unfold zlen. rewrite L. reflexivity.
Qed.

Lemma text_store_ok : forall c k v f e rest run,
  key_ok k = true -> 0 <= f < 2 ^ 32 -> - 2 ^ 31 <= e < 2 ^ 31 -> zlen v < 2 ^ 31 ->
  (cf_limit (c_cfg c) <? zlen v = true -> snd (run k v f e) = TooLarge) ->
  text_store c k (dec f) (dec e) (dec (zlen v)) (v ++ crlf ++ rest) run
  = Some (fst (run k v f e), text_store_reply (snd (run k v f e)), rest).
Proof.
  intros c k v f e rest run K F E V T. unfold text_store.
  rewrite parse_uint_dec by lia. rewrite parse_int_dec by (simpl; lia).
  rewrite parse_uint_dec by (pose proof (zlen_nonneg _ v); lia). rewrite K, data_block_app.
  destruct (cf_limit (c_cfg c) <? zlen v).
  - rewrite T by reflexivity. reflexivity.
  - rewrite beq_refl. reflexivity.
Qed.

Lemma run_store_large : forall c i, cf_limit (c_cfg c) <? zlen (it_value i) = true ->
  snd (run_store c i) = TooLarge.
Proof.
  intros c i H. unfold run_store, cache_set, cache_cas, too_large. rewrite H. destruct (it_cas i =? 0); reflexivity.
Qed.

(** The request line of a storage command. *)
Definition store_line (cmd k : bytes) (f e n : Z) : bytes :=
  cmd ++ B " " ++ k ++ B " " ++ dec f ++ B " " ++ dec e ++ B " " ++ dec n.
Lemma store_line_tokens : forall cmd k f e n, cmd <> [] -> word cmd -> k <> [] -> word k ->
  tokens (store_line cmd k f e n) = [cmd; k; dec f; dec e; dec n].
Proof.
  intros. unfold store_line.
  rewrite !tokens_cons' by (assumption || apply dec_nonempty || apply dec_word).
  rewrite tokens_word by (apply dec_nonempty || apply dec_word). reflexivity.
Qed.
Lemma store_line_line : forall cmd k f e n, word cmd -> word k -> line (store_line cmd k f e n).
Proof. intros. unfold store_line. solve_line. Qed.

Lemma text_store_req_line : forall cmd i rest,
  text_store_req cmd i ++ rest
  = store_line cmd (it_key i) (text_flags i) (it_exp i) (zlen (it_value i)) ++ crlf ++ it_value i ++ crlf ++ rest.
Proof. intros. unfold text_store_req, store_line. repeat rewrite <- app_assoc. reflexivity. Qed.

Lemma text_store_step : forall pr c cmd i rest run, pr <> PBinary ->
  cmd <> [] -> word cmd -> legal_item pr i ->
  (forall k f e n r, ascii_cmd c cmd [k; f; e; n] r = text_store c k f e n r run) ->
  (cf_limit (c_cfg c) <? zlen (it_value i) = true ->
     snd (run (it_key i) (it_value i) (item_flags i) (it_exp i)) = TooLarge) ->
  ascii_step c (text_store_req cmd i ++ rest)
  = Some (fst (run (it_key i) (it_value i) (item_flags i) (it_exp i)),
          text_store_reply (snd (run (it_key i) (it_value i) (item_flags i) (it_exp i))), rest).
Proof.
  intros pr c cmd i rest run B N W (K & F & E & C & V) D T.
  destruct (legal_key_word _ _ B K) as (K1 & K3 & K4).
  rewrite text_store_req_line.
  erewrite ascii_step_line; [|apply store_line_line; assumption|apply store_line_tokens; assumption].
  rewrite D, (text_flags_item pr) by assumption.
  pose proof (item_flags_range _ _ F) as R. apply text_store_ok; auto; destruct pr; simpl in *; congruence || lia.
Qed.

Lemma text_cas_step : forall c i rest, legal_item PText i -> 0 < it_cas i ->
  ascii_step c (text_set_req i ++ rest)
  = Some (fst (run_store c i), text_store_reply (snd (run_store c i)), rest).
Proof.
  intros c i rest (K & F & E & C & V) P.
  destruct (legal_key_props _ K) as (K1 & K2 & K3 & K4).
  unfold text_set_req. destruct (0 <? it_cas i) eqn:Q; [|apply Z.ltb_ge in Q; lia].
  replace ((B "cas " ++ it_key i ++ B " " ++ dec (text_flags i) ++ B " " ++ dec (it_exp i) ++ B " "
     ++ dec (zlen (it_value i)) ++ B " " ++ dec (it_cas i) ++ crlf ++ it_value i ++ crlf) ++ rest)
   with ((store_line (B "cas") (it_key i) (text_flags i) (it_exp i) (zlen (it_value i)) ++ B " " ++ dec (it_cas i))
         ++ crlf ++ it_value i ++ crlf ++ rest).
  2:{ unfold store_line. repeat rewrite <- app_assoc. reflexivity. }
  erewrite ascii_step_line.
  2:{ apply line_app; [apply store_line_line; [apply wordb_word; reflexivity|assumption]|]. solve_line. }
  2:{ unfold store_line. repeat rewrite <- app_assoc.
      rewrite !tokens_cons' by (assumption || apply dec_nonempty || apply dec_word || discriminate || (apply wordb_word; reflexivity)).
      rewrite tokens_word by (apply dec_nonempty || apply dec_word). reflexivity. }
  change (ascii_cmd c (B "cas") [it_key i; dec (text_flags i); dec (it_exp i); dec (zlen (it_value i)); dec (it_cas i)]
            (it_value i ++ crlf ++ rest))
    with (match parse_uint 64 (dec (it_cas i)) with
          | Some u => text_store c (it_key i) (dec (text_flags i)) (dec (it_exp i)) (dec (zlen (it_value i)))
                        (it_value i ++ crlf ++ rest) (fun k v f e => cache_cas c k v f e u)
          | None => done c bad_format (it_value i ++ crlf ++ rest)
          end).
  rewrite parse_uint_dec by lia. rewrite (text_flags_item PText) by assumption.
  pose proof (item_flags_range _ _ F) as R.
  rewrite text_store_ok; auto.
  - unfold run_store. destruct (it_cas i =? 0) eqn:Z0; [apply Z.eqb_eq in Z0; lia|]. reflexivity.
  - intro H. unfold cache_cas, too_large. rewrite H. reflexivity.
Qed.

Lemma line_step : forall c l rest cmd args out,
  line l -> tokens l = cmd :: args -> ascii_cmd c cmd args rest = out ->
  ascii_step c ((l ++ crlf) ++ rest) = out.
Proof. intros. rewrite <- app_assoc. erewrite ascii_step_line; eassumption. Qed.

Ltac tok := repeat rewrite <- app_assoc;
  rewrite ?tokens_cons' by (assumption || apply dec_nonempty || apply dec_word || discriminate || (apply wordb_word; reflexivity));
  rewrite ?tokens_word by (assumption || apply dec_nonempty || apply dec_word || discriminate || (apply wordb_word; reflexivity));
  reflexivity.

(** Every legal call puts exactly one command on the wire, the intended one. *)
Lemma text_step : forall c o rq rest, legal PText o -> text_req o = Ok rq ->
  ascii_step c (rq ++ rest) = Some (fst (text_intent c o), snd (text_intent c o), rest).
Proof.
  intros c o rq rest L R. destruct o; cbn [legal] in L; cbn [text_req] in R; apply (f_equal (fun x => match x with Ok a => a | _ => [] end)) in R; cbv beta iota in R; subst rq.
  - (* Get *) destruct (legal_key_props _ L) as (K1 & K2 & K3 & K4).
    unfold text_get_req. change (B "gets " ++ k ++ crlf) with (B "gets" ++ B " " ++ k ++ crlf).
    replace (B "gets" ++ B " " ++ k ++ crlf) with ((B "gets" ++ B " " ++ k) ++ crlf)
      by (repeat rewrite <- app_assoc; reflexivity).
    eapply line_step; [solve_line|tok|].
    unfold ascii_cmd. change (beq (B "gets") (B "get") || beq (B "gets") (B "gets")) with true. cbn [forallb].
    rewrite K4. reflexivity.
  - (* GetMulti *) destruct L as [N F].
    assert (Wd : Forall word ks) by (revert F; apply Forall_impl; intros k H; apply legal_key_props; assumption).
    assert (Ne : Forall (fun w => w <> []) ks) by (revert F; apply Forall_impl; intros k H; apply legal_key_props; assumption).
    unfold text_getmulti_req.
    replace (B "gets " ++ join_sp ks ++ crlf) with ((B "gets" ++ B " " ++ join_sp ks) ++ crlf)
      by (repeat rewrite <- app_assoc; reflexivity).
    eapply line_step.
    + apply line_app; [solve_line|]. apply line_app; [solve_line|]. apply join_line. assumption.
    + rewrite tokens_cons' by (discriminate || (apply wordb_word; reflexivity)). rewrite tokens_join by assumption. reflexivity.
    + unfold ascii_cmd. change (beq (B "gets") (B "get") || beq (B "gets") (B "gets")) with true. cbv iota.
      destruct ks as [|k ks]; [congruence|].
      replace (forallb key_ok (k :: ks)) with true; [reflexivity|]. symmetry. apply forallb_forall.
      intros x I. rewrite Forall_forall in F. apply legal_key_props. apply F. assumption.
  - (* Set *) destruct (Z.eq_dec (it_cas i) 0) as [Z0|Z0].
    + unfold text_set_req. rewrite Z0. change (0 <? 0) with false. cbv iota.
      erewrite (text_store_step PText); [| discriminate| discriminate|apply wordb_word; reflexivity|assumption|reflexivity|].
      * simpl. unfold run_store. rewrite Z0. reflexivity.
      * intro H. unfold cache_set, too_large. rewrite H. reflexivity.
    + pose proof L as L'. destruct L as (K & F & E & C & V). simpl. apply text_cas_step; [exact L'|lia].
  - (* Add *) destruct L as [L _].
    erewrite (text_store_step PText); [| discriminate| discriminate|apply wordb_word; reflexivity|assumption|reflexivity|].
    + reflexivity.
    + intro H. unfold cache_add, too_large. rewrite H. reflexivity.
  - (* Replace *) destruct L as [L _].
    erewrite (text_store_step PText); [| discriminate| discriminate|apply wordb_word; reflexivity|assumption|reflexivity|].
    + reflexivity.
    + intro H. unfold cache_replace, too_large. rewrite H. reflexivity.
  - (* Delete *) destruct (legal_key_props _ L) as (K1 & K2 & K3 & K4).
    replace ((B "delete " ++ k ++ crlf)) with ((B "delete" ++ B " " ++ k) ++ crlf)
      by (repeat rewrite <- app_assoc; reflexivity).
    eapply line_step; [solve_line|tok|].
    unfold ascii_cmd. cbn -[key_ok cache_delete]. rewrite K4. reflexivity.
  - (* Incr *) destruct L as (K & D & _). destruct (legal_key_props _ K) as (K1 & K2 & K3 & K4).
    replace ((B "incr " ++ k ++ B " " ++ dec delta ++ crlf)) with ((B "incr" ++ B " " ++ k ++ B " " ++ dec delta) ++ crlf)
      by (repeat rewrite <- app_assoc; reflexivity).
    eapply line_step; [solve_line|tok|].
    unfold ascii_cmd. cbn -[key_ok cache_delta parse_uint dec]. rewrite K4, parse_uint_dec by lia. reflexivity.
  - (* Decr *) destruct L as (K & D & _). destruct (legal_key_props _ K) as (K1 & K2 & K3 & K4).
    replace ((B "decr " ++ k ++ B " " ++ dec delta ++ crlf)) with ((B "decr" ++ B " " ++ k ++ B " " ++ dec delta) ++ crlf)
      by (repeat rewrite <- app_assoc; reflexivity).
    eapply line_step; [solve_line|tok|].
    unfold ascii_cmd. cbn -[key_ok cache_delta parse_uint dec]. rewrite K4, parse_uint_dec by lia. reflexivity.
  - (* Touch *) destruct L as (K & E). destruct (legal_key_props _ K) as (K1 & K2 & K3 & K4).
    replace ((B "touch " ++ k ++ B " " ++ dec expiration ++ crlf)) with ((B "touch" ++ B " " ++ k ++ B " " ++ dec expiration) ++ crlf)
      by (repeat rewrite <- app_assoc; reflexivity).
    eapply line_step; [solve_line|tok|].
    unfold ascii_cmd. cbn -[key_ok cache_touch parse_int dec]. simpl in E. rewrite K4, parse_int_dec by (simpl; lia). reflexivity.
  - reflexivity.
  - reflexivity.
Qed.

(** ** Replies *)
Lemma read_line : forall l rest, line l -> zlen l <= 4094 -> read_slice (l ++ eol ++ rest) = (Ok (l ++ crlf), rest).
Proof. intros. change (l ++ eol ++ rest) with (l ++ CR :: LF :: rest). apply read_slice_line; assumption. Qed.

Lemma value_head_line : forall k f n, word k -> line (value_head k f n).
Proof. intros. unfold value_head. solve_line. Qed.
Lemma value_head_len : forall k f n, zlen k <= 250 -> 0 <= f < 2 ^ 32 -> 0 <= n < 2 ^ 63 ->
  zlen (value_head k f n) <= 500.
Proof.
  intros. unfold value_head. rewrite !zlen_app. pose proof (dec_len f ltac:(lia)). pose proof (dec_len n ltac:(lia)).
  change (zlen (B "VALUE ")) with 6. change (zlen (B " ")) with 1. lia.
Qed.

Lemma value_line_shape : forall k e rest,
  value_line true k e ++ rest
  = (value_head k (e_flags e) (zlen (e_value e)) ++ B " " ++ dec (e_cas e)) ++ eol ++ (e_value e ++ crlf) ++ rest.
Proof. intros. unfold value_line, value_head. repeat rewrite <- app_assoc. reflexivity. Qed.

Lemma bind_ok : forall A C (m : reader A) (f : A -> reader C) s a s', m s = (Ok a, s') -> bind m f s = f a s'.
Proof. intros. unfold bind. rewrite H. reflexivity. Qed.

Lemma wf_value_len : forall pr c e, wf_config (c_cfg c) -> wf_entry pr c e -> 0 <= zlen (e_value e) <= 2 ^ 30.
Proof. intros pr c e (W & _) (H & _). pose proof (zlen_nonneg _ (e_value e)). lia. Qed.

Lemma make_value : forall v rest, zlen v <= 2 ^ 31 ->
  make_read_full (i64 (zlen v + 2)) ((v ++ crlf) ++ rest) = (Ok (v ++ crlf), rest).
Proof.
  intros v rest H. pose proof (zlen_nonneg _ v). rewrite i64_small by lia.
  apply make_read_full_app; [rewrite zlen_app; reflexivity|]. unfold max_alloc. lia.
Qed.

Lemma text_get_hit : forall name k e rest,
  k <> [] -> utf8_word k -> zlen k <= 250 -> 0 <= e_flags e < 2 ^ 32 -> 0 <= e_cas e < 2 ^ 64 ->
  zlen (e_value e) <= 2 ^ 30 ->
  text_get_resp name (value_line true k e ++ B "END" ++ eol ++ rest)
  = (Ok (mkItem k (e_value e) (Some (be 4 (e_flags e))) 0 (e_cas e) name), rest).
Proof.
  intros name k e rest N P L F C V. pose proof (zlen_nonneg _ (e_value e)).
  rewrite value_line_shape. unfold text_get_resp.
  erewrite bind_ok.
  2:{ apply read_line.
      - apply line_app; [apply value_head_line; apply key_is_word; assumption|]. solve_line.
      - rewrite !zlen_app. pose proof (value_head_len k (e_flags e) (zlen (e_value e)) L F ltac:(lia)).
        pose proof (dec_len (e_cas e) ltac:(lia)). change (zlen (B " ")) with 1. lia. }
  cbn beta. repeat rewrite <- app_assoc.
  change (beq (value_head k (e_flags e) (zlen (e_value e)) ++ B " " ++ dec (e_cas e) ++ crlf) msg_end) with false.
  change (has_prefix (B "VALUE") (value_head k (e_flags e) (zlen (e_value e)) ++ B " " ++ dec (e_cas e) ++ crlf)) with true.
  cbv iota. cbn [negb]. rewrite count_cas by assumption. change (negb (4 =? 3)) with true.
  rewrite fscanf_cas by (assumption || lia). unfold lift_opt at 1.
  erewrite bind_ok by reflexivity. cbn beta iota.
  rewrite (app_assoc (e_value e) crlf).
  erewrite bind_ok by (apply make_value; lia). cbn beta.
  erewrite bind_ok by (apply go_sub_prefix; reflexivity). cbn beta.
  erewrite bind_ok by (apply read_line; [apply lineb_line; reflexivity|vm_compute; discriminate]).
  reflexivity.
Qed.

Lemma split_sp_nosp : forall w, Forall (fun c => Ascii.eqb c SP = false) w -> split_sp w = [w].
Proof.
  induction w as [|c w IH]; intro H; [reflexivity|]. inversion H; subst. simpl. rewrite H2, IH by assumption. reflexivity.
Qed.
Lemma word_nosp : forall w, word w -> Forall (fun c => Ascii.eqb c SP = false) w.
Proof. intro w. apply Forall_impl. intros c H. apply eqb_neq_code. rewrite code_SP. lia. Qed.

Lemma split_value : forall k f n u, word k ->
  split_sp (value_head k f n ++ B " " ++ dec u ++ crlf) = [B "VALUE"; k; dec f; dec n; dec u ++ crlf].
Proof.
  intros k f n u W. unfold value_head. change (B "VALUE ") with (B "VALUE" ++ B " ").
  repeat rewrite <- app_assoc.
  change (B " ") with [SP]. cbn [app]. 
  rewrite split_sp_app by (apply wordb_word; reflexivity).
  rewrite split_sp_app by assumption. rewrite !split_sp_app by apply dec_word.
  rewrite split_sp_nosp; [reflexivity|]. apply Forall_app. split; [apply word_nosp, dec_word|]. repeat constructor.
Qed.

Lemma text_block_ok : forall k e rest,
  word k -> 0 <= e_flags e < 2 ^ 32 -> zlen (e_value e) <= 2 ^ 30 ->
  text_value_block (value_head k (e_flags e) (zlen (e_value e)) ++ B " " ++ dec (e_cas e) ++ crlf)
     ((e_value e ++ crlf) ++ rest)
  = (Ok (mkItem k (e_value e) (Some (be 4 (e_flags e))) 0 0 []), rest).
Proof.
  intros k e rest W F V. pose proof (zlen_nonneg _ (e_value e)). unfold text_value_block.
  rewrite split_value by assumption.
  erewrite bind_ok by reflexivity. cbn beta.
  change (negb (beq (B "VALUE") (B "VALUE"))) with false. cbv iota.
  erewrite bind_ok by reflexivity. cbn beta.
  unfold atoi. rewrite parse_int_dec by (simpl; lia). cbn [lift_opt]. erewrite bind_ok by reflexivity. cbn beta.
  erewrite bind_ok by reflexivity. cbn beta.
  change (zlen [B "VALUE"; k; dec (e_flags e); dec (zlen (e_value e)); dec (e_cas e) ++ crlf] =? 4) with false. cbv iota.
  erewrite bind_ok by reflexivity. cbn beta.
  rewrite parse_int_dec by (simpl; lia). cbn [lift_opt]. erewrite bind_ok by reflexivity. cbn beta.
  rewrite i64_small by lia. unfold go_make, max_alloc.
  destruct (zlen (e_value e) + 2 <? 0) eqn:E1; [apply Z.ltb_lt in E1; lia|].
  destruct (2 ^ 48 <? zlen (e_value e) + 2) eqn:E2; [apply Z.ltb_lt in E2; lia|]. cbn [orb].
  erewrite bind_ok by reflexivity. cbn beta.
  erewrite bind_ok by reflexivity. cbn beta.
  erewrite bind_ok by (apply read_full_eq; rewrite zlen_app; reflexivity). cbn beta.
  erewrite bind_ok by (apply go_sub_prefix; reflexivity). cbn beta.
  rewrite u32_small by lia. reflexivity.
Qed.

(** The GetMulti loop on the blocks of any list of entries. *)
Lemma text_values_ok : forall (hits : list (bytes * entry)) fuel acc rest,
  Forall (fun ke => word (fst ke) /\ zlen (fst ke) <= 250 /\ 0 <= e_flags (snd ke) < 2 ^ 32
                    /\ zlen (e_value (snd ke)) <= 2 ^ 30 /\ 0 <= e_cas (snd ke) < 2 ^ 64) hits ->
  (length hits < fuel)%nat ->
  text_values fuel acc (flat_map (fun ke => value_line true (fst ke) (snd ke)) hits ++ B "END" ++ eol ++ rest)
  = Some (Ok (rev acc ++ map (fun ke => mkItem (fst ke) (e_value (snd ke)) (Some (be 4 (e_flags (snd ke)))) 0 0 []) hits), rest).
Proof.
  induction hits as [|[k e] hits IH]; intros fuel acc rest H L; (destruct fuel as [|fuel]; [simpl in L; lia|]).
  - cbn [flat_map app text_values].
    rewrite (read_line (B "END")) by ((apply lineb_line; reflexivity) || (vm_compute; discriminate)).
    change (beq (B "END" ++ crlf) (B "END" ++ crlf)) with true. cbv iota. rewrite app_nil_r. reflexivity.
  - inversion H as [|x l (W & Lk & F & V & C) H']; subst. cbn [fst snd] in *.
    pose proof (zlen_nonneg _ (e_value e)).
    cbn [flat_map fst snd text_values]. rewrite <- app_assoc, value_line_shape.
    rewrite read_line.
    2:{ apply line_app; [apply value_head_line; assumption|]. solve_line. }
    2:{ rewrite !zlen_app. pose proof (value_head_len k (e_flags e) (zlen (e_value e)) Lk F ltac:(lia)).
        pose proof (dec_len (e_cas e) ltac:(lia)). change (zlen (B " ")) with 1. lia. }
    repeat rewrite <- app_assoc.
    change (beq (value_head k (e_flags e) (zlen (e_value e)) ++ B " " ++ dec (e_cas e) ++ crlf) (B "END" ++ crlf)) with false.
    cbv iota. rewrite (app_assoc (e_value e) crlf), text_block_ok by assumption.
    rewrite IH by (assumption || simpl in L; lia). f_equal. f_equal. f_equal. cbn [rev map fst snd].
    rewrite <- app_assoc. reflexivity.
Qed.

(** The hits among the requested keys, in request order. *)
Definition hits (c : cache) (ks : list bytes) : list (bytes * entry) :=
  flat_map (fun k => match lookup c k with Some e => [(k, e)] | None => [] end) ks.
Lemma get_reply_hits : forall c ks,
  get_reply true c ks = flat_map (fun ke => value_line true (fst ke) (snd ke)) (hits c ks) ++ B "END" ++ eol.
Proof.
  intros. unfold get_reply, hits. f_equal. induction ks as [|k ks IH]; [reflexivity|].
  cbn [flat_map]. destruct (lookup c k).
  - rewrite IH. reflexivity.
  - exact IH.
Qed.
Lemma hits_forall : forall pr c ks (P : bytes -> Prop), wf pr c -> Forall P ks ->
  Forall (fun ke => P (fst ke) /\ wf_entry pr c (snd ke)) (hits c ks).
Proof.
  intros pr c ks P W. induction 1 as [|k ks Hk Hks IH]; [constructor|].
  unfold hits. cbn [flat_map]. destruct (lookup c k) as [e|] eqn:E; [|exact IH].
  constructor; [|exact IH]. split; [assumption|]. eapply wf_lookup; eassumption.
Qed.
Lemma hits_length : forall (f : bytes * entry -> bytes) l, (forall x, f x <> []) -> (length l <= length (flat_map f l))%nat.
Proof.
  intros f l H. induction l as [|x l IH]; [simpl; lia|]. simpl. rewrite app_length. specialize (H x).
  destruct (f x); [congruence|]. simpl. lia.
Qed.
Lemma hits_items : forall pr name c ks,
  map (fun ke => item_view pr name true c (fst ke) (snd ke)) (hits c ks)
  = flat_map (fun k => match lookup c k with Some e => [item_view pr name true c k e] | None => [] end) ks.
Proof.
  intros. unfold hits. induction ks as [|k ks IH]; [reflexivity|]. cbn [flat_map].
  rewrite map_app, IH. destruct (lookup c k); reflexivity.
Qed.

Lemma text_getmulti_ok : forall name c ks rest, wf PText c -> c_cas c < 2 ^ 64 -> Forall (legal_key PText) ks ->
  text_getmulti_resp name (get_reply true c ks ++ rest)
  = (Ok (flat_map (fun k => match lookup c k with Some e => [item_view PText name true c k e] | None => [] end) ks), rest).
Proof.
  intros name c ks rest W C F. unfold text_getmulti_resp. rewrite get_reply_hits. repeat rewrite <- app_assoc.
  rewrite text_values_ok.
  - cbn [rev app]. rewrite <- hits_items, map_map. reflexivity.
  - generalize (hits_forall PText c ks _ W F). apply Forall_impl. intros [k e] [K (A1 & A2 & A3 & _)]. cbn [fst snd] in *.
    destruct W as ((W1 & _) & _). cbn [flags_bound] in A2. repeat split; try lia.
    + apply legal_key_props. assumption.
    + destruct K. lia.
  - rewrite !app_length.
    pose proof (hits_length (fun ke => value_line true (fst ke) (snd ke)) (hits c ks) ltac:(intros; discriminate)). lia.
Qed.

Lemma rmap_ok : forall A (f : A -> result) (m : reader A) s a s', m s = (Ok a, s') -> rmap f m s = (Ok (f a), s').
Proof. intros. unfold rmap. erewrite bind_ok by eassumption. reflexivity. Qed.
Lemma rmap_err : forall A (f : A -> result) (m : reader A) s e s', m s = (Err e, s') -> rmap f m s = (Err e, s').
Proof. intros. unfold rmap, bind. rewrite H. reflexivity. Qed.

Lemma concrete_line : forall l rest, lineb l = true -> (zlen l <=? 4094) = true ->
  read_slice (l ++ eol ++ rest) = (Ok (l ++ crlf), rest).
Proof. intros. apply read_line; [apply lineb_line; assumption|apply Z.leb_le; assumption]. Qed.

Lemma completed_msg : forall m, completed (EMsg m). Proof. repeat split; discriminate. Qed.
Lemma completed_parse : completed EParse. Proof. repeat split; discriminate. Qed.
Lemma completed_nf : completed ENotFound. Proof. repeat split; discriminate. Qed.
Lemma completed_ex : completed EExists. Proof. repeat split; discriminate. Qed.

(** A reply line that is a constant: read it and evaluate the decision. *)
Ltac const_line := cbn [text_store_reply text_delta_reply]; unfold big_object; repeat rewrite <- app_assoc;
  eexists; split; [ unfold runit, rmap, text_set_resp, text_add_resp, text_replace_resp, text_delete_resp,
                      text_touch_resp, text_flush_resp, text_incr_resp;
                    unfold bind at 1 2; rewrite concrete_line by reflexivity; cbn -[completed]; reflexivity | ].

Lemma delta_resp_ok : forall pr r rest, pr <> PBinary -> match r with DeltaOk n => 0 <= n < 2 ^ 64 | DeltaMismatch => False | _ => True end ->
  exists out, rmap RInt text_incr_resp (text_delta_reply r ++ rest) = (out, rest)
              /\ agrees (delta_outcome pr r) out.
Proof.
  intros pr r rest NB H. destruct r as [| | |n].
  - const_line. reflexivity.
  - const_line. apply completed_parse.
  - contradiction.
  - cbn [text_delta_reply]. rewrite <- app_assoc.
    unfold rmap, text_incr_resp. unfold bind at 1 2.
    rewrite read_line; [|apply word_line, dec_word|pose proof (dec_len n ltac:(lia)); lia].
    assert (NF : beq (dec n ++ crlf) msg_not_found = false).
    { pose proof (dec_digits n ltac:(lia)) as D. pose proof (dec_nonempty n).
      destruct (dec n) as [|c w]; [congruence|]. inversion D; subst. apply is_digit_code in H3.
      cbn [app beq msg_not_found B list_ascii_of_string]. rewrite eqb_neq_code; [reflexivity|].
      change (code "N") with 78. lia. }
    rewrite NF. rewrite zlen_app. change (zlen crlf) with 2. replace (zlen (dec n) + 2 - 2) with (zlen (dec n)) by lia.
    unfold bind at 1. rewrite go_sub_prefix by reflexivity.
    replace (delta_outcome pr (DeltaOk n)) with (if n <? 2 ^ 63 then SOk (RInt n) else SFail) by (destruct pr; congruence || reflexivity).
    destruct (n <? 2 ^ 63) eqn:L.
    + apply Z.ltb_lt in L. rewrite parse_int_dec by (simpl; lia). eexists. split; reflexivity.
    + apply Z.ltb_ge in L. rewrite parse_int_dec_big by (simpl; lia). eexists. split; [reflexivity|]. apply completed_parse.
Qed.

Lemma text_resp_ok : forall name c o rest, wf PText c -> c_cas c < 2 ^ 64 -> legal PText o ->
  exists out, text_resp name o (snd (text_intent c o) ++ rest) = (out, rest)
              /\ agrees (snd (spec_step PText name c o)) out.
Proof.
  intros name c o rest W C L. destruct o; cbn [text_resp text_intent snd spec_step]; cbn [legal] in L.
  - destruct (legal_key_props _ L) as (K1 & K2 & K3 & K4). unfold get_reply. cbn [flat_map].
    destruct (lookup c k) as [e|] eqn:E.
    + destruct (wf_lookup _ _ _ _ W E) as (A1 & A2 & A3 & _). destruct W as ((W1 & _) & _).
      repeat rewrite <- app_assoc. cbn [app flags_bound] in *. eexists. split.
      * apply rmap_ok. apply (text_get_hit name k e rest); try assumption; try lia. destruct L. lia.
      * reflexivity.
    + change ([] ++ []) with (@nil ascii). rewrite app_nil_l. repeat rewrite <- app_assoc.
      eexists. split; [apply rmap_err; unfold text_get_resp, bind; rewrite (concrete_line (B "END")) by reflexivity; reflexivity|].
      reflexivity.
  - destruct L as [N F]. eexists. split; [apply rmap_ok; apply text_getmulti_ok; assumption|]. reflexivity.
  - fold (run_store c i). destruct (snd (run_store c i)); const_line; try reflexivity; apply completed_msg.
  - fold (run_add c i). assert (X : snd (run_add c i) <> CasMismatch).
    { unfold run_add, cache_add. destruct (too_large c (it_value i)); [discriminate|]. destruct (lookup c (it_key i)); discriminate. }
    destruct (snd (run_add c i)); const_line; try reflexivity; apply completed_ex.
  - fold (run_replace c i). assert (X : snd (run_replace c i) <> CasMismatch).
    { unfold run_replace, cache_replace. destruct (too_large c (it_value i)); [discriminate|]. destruct (lookup c (it_key i)); discriminate. }
    destruct (snd (run_replace c i)); const_line; try reflexivity; try contradiction; apply completed_nf.
  - destruct (snd (cache_delete c k)); const_line; reflexivity.
  - assert (D : snd (spec_delta PText true c k delta expiration) = delta_outcome PText (snd (cache_delta true c k delta))).
    { unfold spec_delta. destruct (lookup c k); reflexivity. }
    rewrite D. apply delta_resp_ok; [discriminate|]. destruct L as (K & D1 & _).
    unfold cache_delta. destruct (lookup c k); cbn [snd]; auto. destruct (counter_value (e_value e)) eqn:Q; cbn [snd]; auto.
    apply delta_apply_range; [eapply counter_value_range; eassumption|lia].
  - assert (D : snd (spec_delta PText false c k delta expiration) = delta_outcome PText (snd (cache_delta false c k delta))).
    { unfold spec_delta. destruct (lookup c k); reflexivity. }
    rewrite D. apply delta_resp_ok; [discriminate|]. destruct L as (K & D1 & _).
    unfold cache_delta. destruct (lookup c k); cbn [snd]; auto. destruct (counter_value (e_value e)) eqn:Q; cbn [snd]; auto.
    apply delta_apply_range; [eapply counter_value_range; eassumption|lia].
  - destruct (snd (cache_touch c k expiration)); const_line; reflexivity.
  - const_line. reflexivity.
  - destruct W as ((W1 & W2 & W3) & _). eexists. split; [apply rmap_ok; unfold text_version_resp, bind|].
    + rewrite <- app_assoc. change (B "VERSION " ++ (cf_version (c_cfg c) ++ eol) ++ rest)
        with (B "VERSION " ++ (cf_version (c_cfg c) ++ eol) ++ rest).
      rewrite <- app_assoc, app_assoc. rewrite read_line.
      * rewrite zlen_app. change (zlen crlf) with 2. pose proof (zlen_nonneg _ (B "VERSION " ++ cf_version (c_cfg c))).
        destruct (0 <? _) eqn:E; [|apply Z.ltb_ge in E; lia].
        rewrite <- app_assoc, trim_prefix_app, trim_suffix_app. reflexivity.
      * apply line_app; [apply lineb_line; reflexivity|]. revert W3. apply Forall_impl. intros; lia.
      * rewrite zlen_app. change (zlen (B "VERSION ")) with 8. lia.
    + reflexivity.
Qed.

Lemma text_intent_spec : forall name c o, fst (text_intent c o) = fst (spec_step PText name c o).
Proof.
  intros name c o. destruct o; try reflexivity; cbn [text_intent spec_step fst]; unfold spec_delta; destruct (lookup c k); reflexivity.
Qed.

(** One call. *)
Lemma text_call_ok : forall name c h o, wf PText c -> c_cas c < 2 ^ 64 -> legal PText o ->
  exists out, call (text_client name) (fresh_link c h) o
              = (fresh_link (fst (spec_step PText name c o)) h, out)
              /\ agrees (snd (spec_step PText name c o)) out.
Proof.
  intros name c h o W C L. destruct (text_resp_ok name c o [] W C L) as (out & R & A). exists out. split; [|exact A].
  unfold call. cbn [text_client cl_req cl_resp cl_wire fst snd fresh_link l_cache l_pending l_unread l_header].
  destruct (text_req o) as [rq| |] eqn:E; [|destruct o; discriminate|destruct o; discriminate].
  pose proof (text_step c o rq [] L E) as S. rewrite app_nil_r in S. cbn [app].
  rewrite (daemon_one WireAscii _ _ _ _ S). rewrite app_nil_r in R. rewrite R. cbn [fst snd].
  rewrite text_intent_spec with (name := name). reflexivity.
Qed.
