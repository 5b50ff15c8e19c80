(** * C69, C70: the meta and the binary client exactly. *)
From Verif Require Import GoBytes GoNum GoIO Item ClientText ClientMeta ClientBinary Cache Daemon Spec Intent Call Guard Exact.
From Verif Require Import PLib PDaemon PCache PText PMeta PBinary PClient PropClient.
Local Open Scope Z_scope.

(** ** The cache keeps its bounds *)
Lemma wf_invalidate : forall pr c k e, wf pr c -> legal_exp pr e -> wf pr (fst (cache_invalidate c k (Some e))).
Proof.
  intros pr c k e W E. unfold cache_invalidate. destruct (lookup c k) as [o|] eqn:L; [|exact W].
  destruct (wf_lookup _ _ _ _ W L) as (A1 & A2 & A3 & A4).
  destruct W as (W1 & W2 & W3 & W4). unfold wf. cbn [fst c_cfg c_now c_cas c_map].
  split; [exact W1|]. split; [lia|]. split; [lia|]. intros j x H.
  destruct (put_entry_some _ _ _ _ _ H) as [[-> Q]|Q].
  - inversion Q; subst. unfold wf_entry. cbn [e_value e_flags e_cas e_expire c_cfg c_cas c_now].
    repeat split; try lia. intros ->. apply expire_bound; [lia|exact E].
  - eapply wf_entry_mono; [exact (W4 _ _ Q)|reflexivity| |]; cbn; lia.
Qed.
Lemma wf_cas_store : forall pr c i, wf pr c -> legal_item pr i -> wf pr (fst (cas_store c i)).
Proof.
  intros pr c i W (K & F & E & C & V). pose proof (item_flags_range _ _ F) as R. unfold cas_store, cache_cas.
  destruct (too_large c (it_value i)) eqn:T; [exact W|]. destruct (lookup c (it_key i)) as [o|]; [|exact W].
  destruct (e_cas o =? it_cas i); [|exact W]. apply wf_store; assumption.
Qed.
Lemma cas_cas_store : forall c i, c_cas c <= c_cas (fst (cas_store c i)) <= c_cas c + 1.
Proof.
  intros c i. unfold cas_store, cache_cas. destruct (too_large c (it_value i)); [cbn; lia|]. destruct (lookup c (it_key i)) as [o|]; [|cbn; lia].
  destruct (e_cas o =? it_cas i); cbn; lia.
Qed.
Lemma wf_bin_counter : forall last up c k d e, wf PBinary c -> 0 <= d -> wf PBinary (fst (bin_counter last up c k d e)).
Proof.
  intros last up c k d e W D. unfold bin_counter. destruct (lookup c k) as [o|] eqn:L.
  - destruct (_ && _); [exact W|]. cbn [fst]. apply wf_delta; assumption.
  - destruct (e =? 2 ^ 32 - 1); [exact W|]. cbn [fst]. apply wf_put; auto.
    + destruct W as ((W1 & _) & _). change (zlen (B "1")) with 1. lia.
    + unfold flags_bound. lia.
    + discriminate.
Qed.
Lemma cas_cache_delta : forall up c k d, c_cas c <= c_cas (fst (cache_delta up c k d)) <= c_cas c + 1.
Proof. intros. unfold cache_delta. destruct (lookup c k) as [o|]; [|cbn; lia]. destruct (counter_value (e_value o)); cbn; lia. Qed.
Lemma cas_bin_counter : forall last up c k d e, c_cas c <= c_cas (fst (bin_counter last up c k d e)) <= c_cas c + 1.
Proof.
  intros. unfold bin_counter. destruct (lookup c k) as [o|].
  - destruct (_ && _); [cbn; lia|]. apply cas_cache_delta.
  - destruct (e =? 2 ^ 32 - 1); cbn; lia.
Qed.
Lemma wf_exact_step : forall pr name last c o, wf pr c -> accepted pr o -> wf pr (fst (exact_step pr name last c o)).
Proof.
  intros pr name last c o W A. destruct pr; cbn [exact_step].
  - apply wf_spec_step; [exact W|]. destruct o; exact A.
  - assert (A' : legal PMeta o) by (destruct o; exact A). destruct o; cbn [meta_exact]; try (apply wf_spec_step; assumption).
    + exact W.
    + cbn [fst]. exact (wf_spec_step PMeta [] c (ODelete k) W A').
    + cbn [fst]. apply wf_invalidate; [exact W|apply A'].
  - destruct o; cbn [bin_exact accepted] in *; try (apply wf_spec_step; assumption).
    + destruct (Z.eqb_spec (it_cas i) 0) as [Q|Q]; [apply wf_spec_step; [exact W|split; [exact A|intros _; exact Q]]|]. apply wf_cas_store; assumption.
    + destruct (Z.eqb_spec (it_cas i) 0) as [Q|Q]; [apply wf_spec_step; [exact W|split; [exact A|intros _; exact Q]]|]. apply wf_cas_store; assumption.
    + apply wf_bin_counter; [exact W|lia].
    + apply wf_bin_counter; [exact W|lia].
    + cbn [fst]. apply wf_touch; [exact W|apply A].
Qed.
Lemma cas_exact_step : forall pr name last c o, c_cas c <= c_cas (fst (exact_step pr name last c o)) <= c_cas c + 1.
Proof.
  intros pr name last c o. destruct pr; cbn [exact_step].
  - apply cas_spec_step.
  - destruct o; cbn [meta_exact]; try apply cas_spec_step.
    + cbn. lia.
    + exact (cas_spec_step PMeta [] c (ODelete k)).
    + cbn [fst]. unfold cache_invalidate. destruct (lookup c k); cbn; lia.
  - destruct o; cbn [bin_exact]; try apply cas_spec_step.
    + destruct (it_cas i =? 0); [apply cas_spec_step|]. apply cas_cas_store.
    + destruct (it_cas i =? 0); [apply cas_spec_step|]. apply cas_cas_store.
    + apply cas_bin_counter.
    + apply cas_bin_counter.
    + exact (cas_spec_step PBinary [] c (OTouch k expiration)).
Qed.

(** ** One call of the meta client *)
Lemma until_a_miss_prefix : forall c ks, map (fun ke => item_view PMeta [] true c (fst ke) (snd ke)) (fst (live_prefix c ks)) = until_a_miss c ks.
Proof. intros c ks. induction ks as [|k ks IH]; [reflexivity|]. cbn [live_prefix until_a_miss]. destruct (lookup c k); [|reflexivity]. cbn [fst map snd]. rewrite IH. reflexivity. Qed.
Lemma meta_exact_resp : forall c o rest, wf PMeta c -> c_cas c < 2 ^ 63 -> legal PMeta o ->
  exists out left, meta_resp o (snd (meta_intent c o) ++ rest) = (out, left)
    /\ agrees (snd (meta_exact c o)) out /\ (reads_all PMeta c 0 o -> left = rest).
Proof.
  intros c o rest W C L.
  assert (G : meta_safe c o -> snd (meta_exact c o) = snd (spec_step PMeta [] c o) ->
    exists out left, meta_resp o (snd (meta_intent c o) ++ rest) = (out, left) /\ agrees (snd (meta_exact c o)) out /\ (reads_all PMeta c 0 o -> left = rest)).
  { intros S E. destruct (meta_resp_ok c o rest W C L S) as (out & R & A). exists out, rest. rewrite E. auto. }
  destruct o; try (apply G; [exact Logic.I|reflexivity]).
  - destruct L as [N F]. eexists. eexists. split; [|split].
    + cbn [meta_resp]. apply rmap_ok. apply meta_getmulti_any; assumption.
    + cbn [meta_exact snd agrees]. rewrite until_a_miss_prefix. reflexivity.
    + intro H. destruct (live_prefix_all c ks H) as [_ G2]. rewrite G2. reflexivity.
  - cbn [meta_resp meta_intent meta_exact snd]. unfold cache_delete. destruct (lookup c k); cbn [snd hd_nf];
      (eexists; exists rest; split; [unfold runit, rmap, meta_delete_resp; unfold bind at 1 2;
       repeat rewrite <- app_assoc; rewrite concrete_line by reflexivity; reflexivity|split; [reflexivity|auto]]).
  - cbn [meta_resp meta_intent meta_exact snd]. destruct (snd (cache_invalidate c k (Some expiration))); cbn [hd_nf];
      (eexists; exists rest; split; [unfold runit, rmap, meta_touch_resp; unfold bind at 1 2;
       repeat rewrite <- app_assoc; rewrite concrete_line by reflexivity; reflexivity|split; [|auto]]).
    + reflexivity.
    + apply completed_msg.
Qed.
Lemma meta_exact_call : forall c h o, wf PMeta c -> c_cas c < 2 ^ 63 -> legal PMeta o ->
  exists left out, call meta_client (fresh_link c h) o = (mkLink (fst (meta_exact c o)) [] left h, out)
    /\ agrees (snd (meta_exact c o)) out /\ (reads_all PMeta c 0 o -> left = []).
Proof.
  intros c h o W C L. destruct (meta_exact_resp c o [] W C L) as (out & left & R & A & D). exists left, out. split; [|split; assumption].
  destruct (meta_req_ok o L) as [rq E].
  unfold call. cbn [meta_client cl_req cl_resp cl_wire fst snd fresh_link l_cache l_pending l_unread l_header].
  rewrite E. cbn [app]. rewrite (meta_daemon c o rq L E). rewrite app_nil_r in R. rewrite R. cbn [fst snd].
  assert (Q : fst (meta_intent c o) = fst (meta_exact c o)) by (destruct o; try (apply meta_intent_spec; exact Logic.I); reflexivity).
  rewrite Q. reflexivity.
Qed.

(** ** One call of the binary client *)
Lemma bin_incr_sent : forall c h opc k d e rq rest, (opc = 5 \/ opc = 6) -> legal_key PBinary k -> 0 <= d < 2 ^ 63 -> 0 <= e < 2 ^ 32 ->
  0 <= rq_cas h < 2 ^ 64 -> fst (bin_incr_req h opc k d e) = Ok rq ->
  binary_step c (rq ++ rest)
  = (let cr := bin_delta (opc =? 5) c k d 1 e (rq_cas h) in Some (fst cr, bin_delta_packet opc cr, rest)).
Proof.
  intros c h opc k d e rq rest O K D E C R. apply bin_key in K.
  unfold bin_incr_req in R. cbn [fst] in R.
  apply (f_equal (fun x => match x with Ok a => a | _ => [] end)) in R; cbv beta iota in R; subst rq.
  rewrite (u32_small e) by lia. rewrite (u64_small d) by lia.
  set (h' := mkReqHeader _ _ _ _ _ _ _ _).
  replace (encode_header h' ++ be 8 d ++ be 8 1 ++ be 4 e ++ k)
    with (encode_header h' ++ (be 8 d ++ be 8 1 ++ be 4 e) ++ k ++ []) by (rewrite app_nil_r; repeat rewrite <- app_assoc; reflexivity).
  assert (LE : zlen (be 8 d ++ be 8 1 ++ be 4 e) = 20) by (rewrite !zlen_app, !zlen_be; reflexivity).
  rewrite binary_step_req; unfold h'; cbn [rq_opcode rq_cas rq_key_len rq_extra_len rq_total];
    try rewrite LE; try (change (zlen (@nil ascii)) with 0); try lia;
    try (rewrite u16_small by lia; reflexivity); try (rewrite u32_small by lia; lia).
  unfold binary_cmd. rewrite app_nil_r. repeat rewrite <- app_assoc.
  rewrite (num_at_app0 8) by apply be_length. rewrite (num_at_app1 8 8) by apply be_length.
  rewrite (app_assoc (be 8 d) (be 8 1)).
  rewrite (num_at_app1 16 4) by (reflexivity || apply be_length).
  rewrite !unbe_be_small by (simpl; lia). destruct O as [-> | ->]; reflexivity.
Qed.
Lemma bin_counter_delta : forall last up c k d e, bin_counter last up c k d e
  = (fst (bin_delta up c k d 1 e last),
     match snd (bin_delta up c k d 1 e last) with DeltaMissing | DeltaMismatch => SFail | r => delta_outcome PBinary r end).
Proof.
  intros last up c k d e. unfold bin_counter, bin_delta. destruct (lookup c k) as [o|] eqn:L.
  - destruct (_ && _); [reflexivity|]. unfold cache_delta. rewrite L. destruct (counter_value (e_value o)); reflexivity.
  - destruct (e =? 2 ^ 32 - 1); reflexivity.
Qed.
Lemma bin_delta_number : forall up c k d e last n, 0 <= d -> snd (bin_delta up c k d 1 e last) = DeltaOk n -> 0 <= n < 2 ^ 64.
Proof.
  intros up c k d e last n D. unfold bin_delta. destruct (lookup c k) as [o|] eqn:L.
  - destruct (_ && _); [discriminate|]. unfold cache_delta. rewrite L. destruct (counter_value (e_value o)) eqn:Q; cbn [snd]; [|discriminate].
    intro E. injection E as <-. apply delta_apply_range; [eapply counter_value_range; eassumption|lia].
  - destruct (e =? 2 ^ 32 - 1); [discriminate|]. cbn [snd]. intro E. injection E as <-. lia.
Qed.
Lemma bin_counter_resp : forall up opc c k d e last rest, (opc = 5 \/ opc = 6) -> 0 <= c_cas c -> c_cas c + 1 < 2 ^ 64 -> 0 <= d ->
  exists out, rmap RInt (bin_incr_resp opc) (bin_delta_packet opc (bin_delta up c k d 1 e last) ++ rest) = (out, rest)
    /\ agrees (snd (bin_counter last up c k d e)) out.
Proof.
  intros up opc c k d e last rest O C0 C D. pose proof (cas_bin_counter last up c k d e) as Bd. rewrite bin_counter_delta in *. cbn [fst snd] in *.
  assert (0 <= opc < 256) by lia. unfold bin_delta_packet. destruct (snd (bin_delta up c k d 1 e last)) as [| | |n] eqn:E.
  - destruct (bin_incr_refused opc 1 (B "Not found") rest) as [m G]; [lia|lia|split; reflexivity|].
    eexists. split; [apply rmap_err, G|apply completed_msg].
  - destruct (bin_incr_refused opc 6 (B "Non-numeric server-side value for incr or decr") rest) as [m G]; [lia|lia|split; reflexivity|].
    eexists. split; [apply rmap_err, G|apply completed_msg].
  - destruct (bin_incr_refused opc 2 (B "Data exists for key.") rest) as [m G]; [lia|lia|split; reflexivity|].
    eexists. split; [apply rmap_err, G|apply completed_msg].
  - apply bin_delta_number in E; [|exact D]. eexists. split; [apply rmap_ok, bin_incr_ok; lia|reflexivity].
Qed.
Lemma bin_store_any : forall opc c' r rest, (opc = 1 \/ opc = 2) -> 0 <= c_cas c' < 2 ^ 64 ->
  exists out left, runit (bin_store_resp opc) (bin_store_packet opc c' r ++ rest) = (out, left)
    /\ agrees (store_outcome (if opc =? 2 then SErr EExists else SFail) r) out /\ (r = Stored -> left = rest).
Proof.
  intros opc c' r rest O C. unfold runit, rmap.
  assert (G : forall st msg, 0 < st < 2 ^ 16 -> zlen msg < 2 ^ 32 ->
     bind (bin_store_resp opc) (fun _ => ret RUnit) (packet opc st 0 [] [] msg ++ rest) = (Err (if st =? 2 then EExists else status_error st), msg ++ rest)).
  { intros st msg S M. unfold bind. rewrite bin_store_refused by (assumption || lia). reflexivity. }
  destruct r; cbn [bin_store_packet store_outcome].
  - eexists. exists rest. split; [|split; [|reflexivity]].
    + erewrite bind_ok by (apply bin_store_stored; lia). reflexivity.
    + reflexivity.
  - destruct O as [-> | ->]; cbn [Z.eqb Pos.eqb]; unfold exists_packet, not_found_packet; eexists; eexists; (split; [apply G; [lia|vm_compute; reflexivity]|split; [|discriminate]]).
    + apply status_completed.
    + reflexivity.
  - unfold exists_packet. eexists; eexists; (split; [apply G; [lia|vm_compute; reflexivity]|split; [|discriminate]]). reflexivity.
  - unfold not_found_packet. eexists; eexists; (split; [apply G; [lia|vm_compute; reflexivity]|split; [|discriminate]]). apply status_completed.
  - eexists; eexists; (split; [apply G; [lia|vm_compute; reflexivity]|split; [|discriminate]]). apply status_completed.
Qed.
Lemma bin_replace_any : forall c' r rest, 0 <= c_cas c' < 2 ^ 64 ->
  exists out, runit (bin_body_resp 3) (bin_store_packet 3 c' r ++ rest) = (out, rest)
    /\ agrees (match r with Stored => SOk RUnit | NotStored | CasMissing => SErr ENotFound | _ => SFail end) out.
Proof.
  intros c' r rest C. unfold runit, rmap. destruct r; cbn [bin_store_packet]; unfold exists_packet, not_found_packet; cbn [Z.eqb Pos.eqb];
    (eexists; split; [unfold bind; rewrite bin_body_any by (try lia; vm_compute; reflexivity); reflexivity|]).
  - reflexivity.
  - reflexivity.
  - cbn. apply completed_msg.
  - reflexivity.
  - cbn. apply completed_msg.
Qed.
Lemma stored_iff : forall x r, x <> SOk RUnit -> store_outcome x r = SOk RUnit <-> r = Stored.
Proof. intros x r N. split; [|intros ->; reflexivity]. intro H. destruct (store_outcome_ok _ _ H) as [->|[_ E]]; [reflexivity|contradiction]. Qed.
Lemma cas_store_not_refused : forall c i, snd (cas_store c i) <> NotStored.
Proof.
  intros c i. unfold cas_store, cache_cas. destruct (too_large c (it_value i)); [discriminate|]. destruct (lookup c (it_key i)) as [o|]; [|discriminate].
  destruct (e_cas o =? it_cas i); discriminate.
Qed.

(** What the daemon does with the request, and the reply. *)
Definition bin_reply (last : Z) (c : cache) (o : op) : bytes :=
  match o with
  | OAdd i => if it_cas i =? 0 then snd (bin_intent c o) else bin_store_packet 2 (fst (cas_store c i)) (snd (cas_store c i))
  | OReplace i => if it_cas i =? 0 then snd (bin_intent c o) else bin_store_packet 3 (fst (cas_store c i)) (snd (cas_store c i))
  | OIncr k d e => bin_delta_packet 5 (bin_delta true c k d 1 e last)
  | ODecr k d e => bin_delta_packet 6 (bin_delta false c k d 1 e last)
  | _ => snd (bin_intent c o)
  end.
Lemma bin_exact_daemon : forall c h o rq, accepted PBinary o -> 0 <= rq_cas h < 2 ^ 64 -> fst (bin_req h o) = Ok rq ->
  daemon WireBinary c rq = (fst (bin_exact (rq_cas h) c o), bin_reply (rq_cas h) c o, []).
Proof.
  intros c h o rq A Hh R.
  assert (G : legal PBinary o -> match o with OIncr _ _ _ | ODecr _ _ _ => False | _ => True end ->
    fst (bin_intent c o) = fst (bin_exact (rq_cas h) c o) -> snd (bin_intent c o) = bin_reply (rq_cas h) c o ->
    daemon WireBinary c rq = (fst (bin_exact (rq_cas h) c o), bin_reply (rq_cas h) c o, [])).
  { intros L N E1 E2. rewrite <- E1, <- E2. apply bin_daemon with (h := h); [exact L|destruct o; auto; contradiction|exact R]. }
  destruct o; cbn [accepted bin_exact bin_reply] in *; try (apply G; [exact A|exact Logic.I|reflexivity|reflexivity]).
  - destruct (Z.eqb_spec (it_cas i) 0) as [Q|Q]; [apply G; [split; [exact A|intros _; exact Q]|exact Logic.I|reflexivity|reflexivity]|].
    apply daemon_one. cbn [daemon_step]. rewrite <- (app_nil_r rq). rewrite (bin_store_step c 2 i rq []) by auto.
    destruct (it_cas i =? 0) eqn:Z; [apply Z.eqb_eq in Z; contradiction|]. reflexivity.
  - destruct (Z.eqb_spec (it_cas i) 0) as [Q|Q]; [apply G; [split; [exact A|intros _; exact Q]|exact Logic.I|reflexivity|reflexivity]|].
    apply daemon_one. cbn [daemon_step]. rewrite <- (app_nil_r rq). rewrite (bin_store_step c 3 i rq []) by auto.
    destruct (it_cas i =? 0) eqn:Z; [apply Z.eqb_eq in Z; contradiction|]. reflexivity.
  - destruct A as (K & D & E). apply daemon_one. cbn [daemon_step]. rewrite <- (app_nil_r rq).
    rewrite (bin_incr_sent c h 5 k delta expiration rq []) by auto. rewrite bin_counter_delta. reflexivity.
  - destruct A as (K & D & E). apply daemon_one. cbn [daemon_step]. rewrite <- (app_nil_r rq).
    rewrite (bin_incr_sent c h 6 k delta expiration rq []) by auto. rewrite bin_counter_delta. reflexivity.
Qed.
Lemma bin_exact_resp : forall last c o rest, wf PBinary c -> c_cas c + 1 < 2 ^ 64 -> accepted PBinary o ->
  exists out left, bin_resp o (bin_reply last c o ++ rest) = (out, left)
    /\ agrees (snd (bin_exact last c o)) out /\ (reads_all PBinary c last o -> left = rest).
Proof.
  intros last c o rest W C A.
  assert (C0 : 0 <= c_cas c) by (destruct W as (_ & _ & W' & _); exact W').
  pose proof (cas_exact_step PBinary [] last c o) as CS. cbn [exact_step] in CS.
  assert (G : legal PBinary o -> bin_safe 0 c o -> bin_reply last c o = snd (bin_intent c o) -> bin_exact last c o = spec_step PBinary [] c o ->
    exists out left, bin_resp o (bin_reply last c o ++ rest) = (out, left) /\ agrees (snd (bin_exact last c o)) out /\ (reads_all PBinary c last o -> left = rest)).
  { intros L S E1 E2. rewrite E1, E2. destruct (bin_resp_ok 0 c o rest W C L S) as (out & R & Ag). exists out, rest. auto. }
  destruct o; try (apply G; [exact A|exact Logic.I|reflexivity|reflexivity]); cbn [accepted bin_exact bin_reply bin_resp reads_all] in *.
  - cbn [bin_intent spec_step fst snd] in *. fold (run_store c i) in *.
    destruct (bin_store_any 1 (fst (run_store c i)) (snd (run_store c i)) rest ltac:(auto) ltac:(lia)) as (out & left & R & Ag & D).
    exists out, left. split; [exact R|]. split; [exact Ag|]. intro H. apply D. apply (stored_iff SFail); [discriminate|exact H].
  - destruct (it_cas i =? 0) eqn:Q.
    + cbn [bin_intent spec_step fst snd] in *. fold (run_add c i) in *.
      destruct (bin_store_any 2 (fst (run_add c i)) (snd (run_add c i)) rest ltac:(auto) ltac:(lia)) as (out & left & R & Ag & D).
      exists out, left. split; [exact R|]. split; [exact Ag|]. intro H. apply D. apply (stored_iff (SErr EExists)); [discriminate|exact H].
    + cbn [fst snd] in *. destruct (bin_store_any 2 (fst (cas_store c i)) (snd (cas_store c i)) rest ltac:(auto) ltac:(lia)) as (out & left & R & Ag & D).
      exists out, left. split; [exact R|]. pose proof (cas_store_not_refused c i) as N. split.
      * destruct (snd (cas_store c i)); try exact Ag. congruence.
      * intro H. apply D. apply (stored_iff SFail); [discriminate|exact H].
  - destruct (it_cas i =? 0) eqn:Q.
    + cbn [bin_intent spec_step fst snd] in *. fold (run_replace c i) in *.
      destruct (bin_replace_any (fst (run_replace c i)) (snd (run_replace c i)) rest ltac:(lia)) as (out & R & Ag).
      exists out, rest. split; [exact R|]. split; [|auto]. unfold run_replace, cache_replace in *. destruct (too_large c (it_value i)); [exact Ag|]. destruct (lookup c (it_key i)); exact Ag.
    + cbn [fst snd] in *. destruct (bin_replace_any (fst (cas_store c i)) (snd (cas_store c i)) rest ltac:(lia)) as (out & R & Ag).
      exists out, rest. split; [exact R|]. split; [|auto]. pose proof (cas_store_not_refused c i) as N. destruct (snd (cas_store c i)); try exact Ag. congruence.
  - destruct A as (K & D & E). destruct (bin_counter_resp true 5 c k delta expiration last rest) as (out & R & Ag); auto; try lia. exists out, rest. auto.
  - destruct A as (K & D & E). destruct (bin_counter_resp false 6 c k delta expiration last rest) as (out & R & Ag); auto; try lia. exists out, rest. auto.
  - cbn [bin_intent fst snd] in *. destruct (lookup c k) as [e|] eqn:L.
    + assert (Et : snd (cache_touch c k expiration) = true) by (unfold cache_touch; rewrite L; reflexivity). rewrite Et.
      destruct (wf_hit c k e W L) as (F & _).
      assert (X : exists ex, (if cf_touch_extras (c_cfg c) then be 4 (e_flags e) else []) = ex /\ zlen ex <= 4 /\ (cf_touch_extras (c_cfg c) = false -> ex = [])).
      { destruct (cf_touch_extras (c_cfg c)); eexists; (split; [reflexivity|split; [rewrite ?zlen_be; cbn; lia|]]); [discriminate|reflexivity]. }
      destruct X as (ex & -> & Lx & Nx). pose proof (zlen_nonneg _ ex).
      exists (Ok RUnit), (ex ++ rest). split; [|split; [reflexivity|intros [_ T]; rewrite (Nx T); reflexivity]].
      unfold runit. apply (rmap_ok unit (fun _ => RUnit) _ _ tt). unfold bin_touch_resp.
      erewrite bind_ok by (apply read_packet; change (zlen (@nil ascii)) with 0; lia). cbn [rs_status Z.eqb negb]. rewrite !app_nil_r. reflexivity.
    + assert (Et : snd (cache_touch c k expiration) = false) by (unfold cache_touch; rewrite L; reflexivity). rewrite Et.
      eexists. eexists. split; [|split; [|intros [T _]; discriminate T]].
      * unfold runit. apply rmap_err. unfold bin_touch_resp, not_found_packet. erewrite bind_ok by (apply read_packet; try lia; vm_compute; reflexivity). reflexivity.
      * apply status_completed.
Qed.
Lemma accepted_item_req : forall h o, accepted PBinary o -> exists rq, fst (bin_req h o) = Ok rq.
Proof.
  intros h o L.
  assert (G : forall opc i, legal_item PBinary i -> exists rq, fst (bin_store_req opc i) = Ok rq).
  { intros opc i (_ & F & _). unfold bin_store_req. cbn [fst]. unfold legal_flags in F.
    destruct (it_flags i) as [f|]; [|eexists; reflexivity]. destruct F as [L4 _]. unfold zlen. rewrite L4. eexists. reflexivity. }
  destruct o; cbn [bin_req accepted legal] in *; try (eexists; reflexivity); apply G; exact L.
Qed.
Lemma next_cas_range : forall last o, accepted PBinary o -> 0 <= last < 2 ^ 64 -> 0 <= next_cas last o < 2 ^ 64.
Proof. intros last o A H. destruct o; cbn [next_cas accepted legal] in *; try lia; destruct A as (_ & _ & _ & C & _); exact C. Qed.

Lemma exact_call : forall pr name c h o, wf pr c -> c_cas c + 1 < cas_bound pr -> accepted pr o -> 0 <= rq_cas h < 2 ^ 64 ->
  exists left h' out, call (client_of pr name) (fresh_link c h) o = (mkLink (fst (exact_step pr name (rq_cas h) c o)) [] left h', out)
    /\ agrees (snd (exact_step pr name (rq_cas h) c o)) out
    /\ (reads_all pr c (rq_cas h) o -> left = [])
    /\ (pr = PBinary -> rq_cas h' = next_cas (rq_cas h) o) /\ 0 <= rq_cas h' < 2 ^ 64.
Proof.
  intros pr name c h o W C A H. destruct pr; cbn [cas_bound exact_step client_of] in *.
  - destruct (text_call_ok name c h o W ltac:(lia) ltac:(destruct o; exact A)) as (out & E & Ag).
    exists [], h, out. split; [exact E|]. split; [exact Ag|]. split; [auto|]. split; [discriminate|exact H].
  - destruct (meta_exact_call c h o W ltac:(lia) ltac:(destruct o; exact A)) as (left & out & E & Ag & D).
    exists left, h, out. split; [exact E|]. split; [exact Ag|]. split; [|split; [discriminate|exact H]].
    intro R. apply D. destruct o; exact R.
  - destruct (bin_exact_resp (rq_cas h) c o [] W C A) as (out & left & R & Ag & D). destruct (accepted_item_req h o A) as [rq E].
    exists left, (snd (bin_req h o)), out. split; [|split; [exact Ag|split; [exact D|split; [intros _; apply bin_req_header|rewrite bin_req_header; apply next_cas_range; assumption]]]].
    unfold call. cbn [bin_client cl_req cl_resp cl_wire fst snd fresh_link l_cache l_pending l_unread l_header].
    rewrite E. cbn [app]. rewrite (bin_exact_daemon c h o rq A H E). rewrite app_nil_r in R. rewrite R. reflexivity.
Qed.

(** [exact_step] of text and meta ignores the header. *)
Lemma exact_last : forall pr name l1 l2 c o, pr <> PBinary -> exact_step pr name l1 c o = exact_step pr name l2 c o.
Proof. intros [] name l1 l2 c o N; try reflexivity. congruence. Qed.
Lemma reads_all_last : forall pr c l1 l2 o, pr <> PBinary -> reads_all pr c l1 o -> reads_all pr c l2 o.
Proof. intros [] c l1 l2 o N; destruct o; auto; congruence. Qed.
Lemma exact_run_last : forall pr name evs l1 l2 c, pr <> PBinary -> exact_run pr name l1 c evs = exact_run pr name l2 c evs.
Proof.
  intros pr name. induction evs as [|[o|d|] evs IH]; intros l1 l2 c N; cbn [exact_run]; [reflexivity| |apply IH; exact N|apply IH; exact N].
  rewrite (exact_last pr name l1 l2 c o N). rewrite (IH (next_cas l1 o) (next_cas l2 o)) by exact N. reflexivity.
Qed.
Lemma orderly_last : forall pr name evs l1 l2 c d, pr <> PBinary -> orderly pr name d l1 c evs -> orderly pr name d l2 c evs.
Proof.
  intros pr name. induction evs as [|[o|t|] evs IH]; intros l1 l2 c d N H; cbn [orderly] in *; [exact Logic.I| |eapply IH; eassumption|eapply IH; eassumption].
  rewrite (exact_last pr name l2 l1 c o N). destruct H as [H1 [[H2 H3]|H2]]; (split; [exact H1|]).
  - left. split; [eapply reads_all_last; eassumption|eapply IH; eassumption].
  - right. eapply IH; eassumption.
Qed.

Lemma exact_history : forall pr name evs l, wf pr (l_cache l) -> c_cas (l_cache l) + zlen evs < cas_bound pr -> Forall (accepted_event pr) evs ->
  0 <= rq_cas (l_header l) < 2 ^ 64 -> l_pending l = [] ->
  (exists dirty, orderly pr name dirty (rq_cas (l_header l)) (l_cache l) evs /\ (dirty = false -> l_unread l = [])) ->
  exists l' outs, xrun (client_of pr name) l evs = (l', outs)
    /\ l_cache l' = fst (exact_run pr name (rq_cas (l_header l)) (l_cache l) evs)
    /\ Forall2 agrees (snd (exact_run pr name (rq_cas (l_header l)) (l_cache l) evs)) outs.
Proof.
  intros pr name. induction evs as [|ev evs IH]; intros l W C F H P Or.
  - exists l, []. split; [reflexivity|]. split; [reflexivity|constructor].
  - inversion F as [|x y Fa Fb]; subst. rewrite zlen_cons in C. pose proof (zlen_nonneg _ evs). destruct Or as (dirty & Or & U). destruct ev as [o|d|]; cbn [accepted_event] in Fa.
    + cbn [orderly] in Or. destruct Or as [-> Or]. specialize (U eq_refl). destruct l as [c pend un h]. cbn [l_cache l_pending l_unread l_header] in *. subst pend un.
      destruct (exact_call pr name c h o W ltac:(lia) Fa H) as (left & h' & out & Ec & Ag & D & Hh & Hr). unfold fresh_link in Ec.
      pose proof (cas_exact_step pr name (rq_cas h) c o) as CS.
      assert (X : exact_run pr name (rq_cas h') (fst (exact_step pr name (rq_cas h) c o)) evs = exact_run pr name (next_cas (rq_cas h) o) (fst (exact_step pr name (rq_cas h) c o)) evs).
      { destruct pr; try (apply exact_run_last; discriminate). rewrite Hh by reflexivity. reflexivity. }
      destruct (IH (mkLink (fst (exact_step pr name (rq_cas h) c o)) [] left h')) as (l' & outs & Er & Ec' & Ar); cbn [l_cache l_pending l_unread l_header].
      * apply wf_exact_step; assumption.
      * lia.
      * exact Fb.
      * exact Hr.
      * reflexivity.
      * destruct Or as [[Ra Or]|Or]; [exists false|exists true]; (split; [destruct pr; try (eapply orderly_last; [discriminate|exact Or]); rewrite Hh by reflexivity; exact Or|]); [intros _; apply D; exact Ra|discriminate].
      * exists l', (out :: outs). cbn [xrun exact_run]. rewrite Ec. cbn [fst snd]. rewrite Er. cbn [fst snd l_cache l_header] in *.
        rewrite X in Ec', Ar. split; [reflexivity|]. split; [exact Ec'|constructor; assumption].
    + cbn [orderly xrun exact_run] in *. apply (IH (link_tick l d)); cbn [link_tick l_cache l_pending l_unread l_header].
      * apply wf_tick; assumption.
      * cbn [tick c_cas]. lia.
      * exact Fb.
      * exact H.
      * exact P.
      * exists dirty. split; assumption.
    + cbn [orderly xrun exact_run] in *. apply (IH (link_reconnect l)); cbn [link_reconnect l_cache l_pending l_unread l_header].
      * exact W.
      * lia.
      * exact Fb.
      * exact H.
      * reflexivity.
      * exists false. split; [exact Or|reflexivity].
Qed.

(** ** C69: the meta client *)
(** From a fresh connection to a conforming memcached, in every history of legal calls, of any length:
    every result, and the state of the cache, are those of [meta_exact]. The only condition is that after
    a GetMulti that missed a key the connection is renewed before the next call. *)
Theorem C69_meta_client_exactly : forall c h evs, wf PMeta c -> c_cas c + zlen evs < 2 ^ 63 -> Forall (accepted_event PMeta) evs ->
  orderly PMeta [] false 0 c evs ->
  exists l outs, xrun meta_client (fresh_link c h) evs = (l, outs)
    /\ l_cache l = fst (exact_run PMeta [] 0 c evs) /\ Forall2 agrees (snd (exact_run PMeta [] 0 c evs)) outs.
Proof.
  intros c h evs W C F Or.
  set (h0 := mkReqHeader (rq_opcode h) (rq_key_len h) (rq_extra_len h) (rq_data_type h) (rq_vbucket h) (rq_total h) (rq_opaque h) 0).
  assert (G : forall evs l1 l2, l_cache l1 = l_cache l2 -> l_pending l1 = l_pending l2 -> l_unread l1 = l_unread l2 ->
     snd (xrun meta_client l1 evs) = snd (xrun meta_client l2 evs) /\ l_cache (fst (xrun meta_client l1 evs)) = l_cache (fst (xrun meta_client l2 evs))).
  { clear. induction evs as [|[o|d|] evs IH]; intros l1 l2 E1 E2 E3; cbn [xrun]; [split; [reflexivity|exact E1]| | |].
    - unfold call. cbn [meta_client cl_req cl_resp cl_wire fst snd]. rewrite E1, E2, E3. destruct (meta_req o) as [rq|e|].
      + destruct (daemon _ _ _) as [[c' reply] p']. cbn [fst snd].
        destruct (IH (mkLink c' p' (snd (meta_resp o (l_unread l2 ++ reply))) (l_header l1)) (mkLink c' p' (snd (meta_resp o (l_unread l2 ++ reply))) (l_header l2)) eq_refl eq_refl eq_refl) as [I1 I2].
        rewrite I1. auto.
      + cbn [fst snd]. destruct (IH (mkLink (l_cache l2) (l_pending l2) (l_unread l2) (l_header l1)) (mkLink (l_cache l2) (l_pending l2) (l_unread l2) (l_header l2)) eq_refl eq_refl eq_refl) as [I1 I2]. rewrite I1. auto.
      + cbn [fst snd]. destruct (IH (mkLink (l_cache l2) (l_pending l2) (l_unread l2) (l_header l1)) (mkLink (l_cache l2) (l_pending l2) (l_unread l2) (l_header l2)) eq_refl eq_refl eq_refl) as [I1 I2]. rewrite I1. auto.
    - apply IH; unfold link_tick; cbn; rewrite ?E1, ?E2, ?E3; reflexivity.
    - apply IH; unfold link_reconnect; cbn; rewrite ?E1; reflexivity. }
  destruct (exact_history PMeta [] evs (fresh_link c h0) W C F) as (l & outs & E & Ec & Ag).
  - cbn. lia.
  - reflexivity.
  - exists false. split; [exact Or|reflexivity].
  - cbn [client_of] in E. destruct (G evs (fresh_link c h) (fresh_link c h0) eq_refl eq_refl eq_refl) as [G1 G2]. rewrite E in G1, G2. cbn [fst snd] in G1, G2.
    exists (fst (xrun meta_client (fresh_link c h) evs)), outs. split; [rewrite (surjective_pairing (xrun meta_client (fresh_link c h) evs)), G1; reflexivity|].
    split; [rewrite G2; exact Ec|exact Ag].
Qed.
Print Assumptions C69_meta_client_exactly.

(** ** C70: the binary client *)
(** The same for the binary client: all legal calls, items with cas numbers in Add and Replace, counters
    after any call. After a Set or an Add that was refused, and a Touch that was refused or answered with
    the item's flags, the connection is renewed before the next call. *)
Theorem C70_binary_client_exactly : forall c h evs, wf PBinary c -> c_cas c + zlen evs < 2 ^ 64 -> Forall (accepted_event PBinary) evs ->
  0 <= rq_cas h < 2 ^ 64 -> orderly PBinary [] false (rq_cas h) c evs ->
  exists l outs, xrun bin_client (fresh_link c h) evs = (l, outs)
    /\ l_cache l = fst (exact_run PBinary [] (rq_cas h) c evs) /\ Forall2 agrees (snd (exact_run PBinary [] (rq_cas h) c evs)) outs.
Proof.
  intros c h evs W C F H Or. apply (exact_history PBinary [] evs (fresh_link c h) W C F H eq_refl).
  exists false. split; [exact Or|reflexivity].
Qed.
Print Assumptions C70_binary_client_exactly.

(** ** Histories with every deviation *)
Definition exact_meta_evs : list xevent :=
  [ XDo (OSet (demo_item "a" "one" 7 100 0)); XDo (ODelete (B "q")); XDo (OTouch (B "a") 50); XDo (OTouch (B "q") 50); XWait 3;
    XDo (OGetMulti [B "a"; B "q"; B "a"]); XReconnect; XDo (OGet (B "a")); XWait 60; XDo (OGet (B "a")) ].
Lemma orderly_read : forall pr name last c o evs, reads_all pr c last o ->
  orderly pr name false (next_cas last o) (fst (exact_step pr name last c o)) evs -> orderly pr name false last c (XDo o :: evs).
Proof. intros. cbn [orderly]. auto. Qed.
Lemma orderly_renew : forall pr name last c o evs,
  orderly pr name false (next_cas last o) (fst (exact_step pr name last c o)) evs -> orderly pr name false last c (XDo o :: XReconnect :: evs).
Proof. intros. cbn [orderly]. auto. Qed.
Lemma orderly_wait : forall pr name dirty last c d evs, orderly pr name dirty last (tick c d) evs -> orderly pr name dirty last c (XWait d :: evs).
Proof. intros. exact H. Qed.
Ltac read_tac := cbn [reads_all]; lazymatch goal with |- True => exact Logic.I | _ => vm_compute; reflexivity end.
Ltac accepted_tac := cbn [accepted_event accepted]; lazymatch goal with |- True => exact Logic.I | |- _ <= _ => lia | |- _ /\ _ /\ _ => split; [legal_tac|split; lia] | _ => legal_tac end.
Ltac accepted_all := repeat (constructor; [accepted_tac|]); constructor.
Example C69_met : wf PMeta demo_c /\ c_cas demo_c + zlen exact_meta_evs < 2 ^ 63 /\ Forall (accepted_event PMeta) exact_meta_evs
  /\ orderly PMeta [] false 0 demo_c exact_meta_evs.
Proof.
  split; [apply demo_wf; [apply demo_config|lia]|]. split; [vm_compute; reflexivity|]. split; [unfold exact_meta_evs; accepted_all|].
  unfold exact_meta_evs.
  do 4 (apply orderly_read; [read_tac|]). apply orderly_wait. apply orderly_renew. apply orderly_read; [read_tac|]. apply orderly_wait. apply orderly_read; [read_tac|]. exact Logic.I.
Qed.
(** Deleting the absent "q" succeeds; touching "a" shortens its life to 50 seconds and gives it the new
    cas number 2; touching "q" fails; the GetMulti stops at "q". *)
Example C69_results : snd (xrun meta_client (fresh_link demo_c reset_header) exact_meta_evs)
  = [ Ok RUnit; Ok RUnit; Ok RUnit; Err (EMsg (B "memcached: failed touch")); Ok (RItems [mkItem (B "a") (B "one") (Some (be 4 7)) 47 2 []]);
      Ok (RItem (mkItem (B "a") (B "one") (Some (be 4 7)) 47 2 [])); Err ENotFound ].
Proof. vm_compute. reflexivity. Qed.

Definition exact_bin_evs : list xevent :=
  [ XDo (OSet (demo_item "n" "41" 7 0 0)); XDo (OIncr (B "n") 1 0); XDo (OSet (demo_item "n" "50" 0 0 2)); XDo (OIncr (B "n") 1 0);
    XDo (OGet (B "n")); XDo (OIncr (B "n") 1 0); XDo (OAdd (demo_item "n" "0" 0 0 4)); XDo (OReplace (demo_item "n" "1" 0 0 99));
    XDo (OReplace (demo_item "n" "9" 0 0 5)); XDo (OAdd (demo_item "n" "2" 0 0 0)); XReconnect; XDo (OTouch (B "q") 9); XReconnect;
    XDo (OIncr (B "q") 3 (2 ^ 32 - 1)); XDo (OGetMulti [B "q"; B "n"]) ].
Example C70_met : wf PBinary demo_c /\ c_cas demo_c + zlen exact_bin_evs < 2 ^ 64 /\ Forall (accepted_event PBinary) exact_bin_evs
  /\ 0 <= rq_cas reset_header < 2 ^ 64 /\ orderly PBinary [] false (rq_cas reset_header) demo_c exact_bin_evs.
Proof.
  split; [apply demo_wf; [apply demo_config|lia]|]. split; [vm_compute; reflexivity|]. split; [unfold exact_bin_evs; accepted_all|].
  split; [cbn; lia|]. unfold exact_bin_evs.
  do 9 (apply orderly_read; [read_tac|]). do 2 apply orderly_renew. do 2 (apply orderly_read; [read_tac|]). exact Logic.I.
Qed.
(** The Set with cas number 2 leaves that number in the header: the next Increment (the counter has cas
    number 3) is refused; after a Get it is accepted again. Add with the right cas number overwrites. *)
Example C70_results : snd (xrun bin_client (fresh_link demo_c reset_header) exact_bin_evs)
  = [ Ok RUnit; Ok (RInt 42); Ok RUnit; Err (EMsg (B "memcached: error key exists (Data exists for key.)"));
      Ok (RItem (mkItem (B "n") (B "50") (Some (be 4 0)) 0 3 [])); Ok (RInt 51); Ok RUnit; Err (EMsg (B "memcached: error key exists")); Ok RUnit;
      Err EExists; Err (EMsg (B "memcached: error key not found")); Err (EMsg (B "memcached: error key not found (Not found)"));
      Ok (RItems [mkItem (B "n") (B "9") (Some (be 4 0)) 0 0 []]) ].
Proof. vm_compute. reflexivity. Qed.
