(** * The binary client against the daemon. *)
From Verif Require Import GoBytes GoNum GoIO Item ClientText ClientBinary Cache Daemon Spec Intent Call Guard
  PLib PDaemon PCache PText PMeta.
Local Open Scope Z_scope.

(** ** Requests *)
Lemma encode_length : forall h, length (encode_header h) = 24%nat.
Proof. reflexivity. Qed.
Lemma zlen_encode : forall h, zlen (encode_header h) = 24.
Proof. reflexivity. Qed.
Lemma unbe1 : forall n, 0 <= n < 256 -> unbe [byte_of n] = n.
Proof. intros. unfold unbe. simpl. rewrite code_byte_of. apply Z.mod_small. assumption. Qed.

(** A request whose header describes its body is read as exactly that command. *)
Lemma binary_step_req : forall c h ex k v rest,
  0 <= rq_opcode h < 256 -> 0 <= rq_cas h < 2 ^ 64 ->
  rq_key_len h = zlen k -> rq_extra_len h = zlen ex -> rq_total h = zlen ex + zlen k + zlen v ->
  zlen k <= 250 -> zlen ex < 256 -> zlen ex + zlen k + zlen v < 2 ^ 32 ->
  binary_step c ((encode_header h ++ ex ++ k ++ v) ++ rest)
  = binary_cmd c (rq_opcode h) (rq_cas h) (ex ++ k ++ v) k v rest.
Proof.
  intros c h ex k v rest O C HK HE HT K E T.
  pose proof (zlen_nonneg _ ex). pose proof (zlen_nonneg _ k). pose proof (zlen_nonneg _ v). pose proof (zlen_nonneg _ rest).
  rewrite <- app_assoc. set (s := encode_header h ++ (ex ++ k ++ v) ++ rest).
  assert (L : zlen s = 24 + (zlen ex + zlen k + zlen v) + zlen rest).
  { unfold s. rewrite !zlen_app, zlen_encode. lia. }
  unfold binary_step. rewrite L.
  replace (24 + (zlen ex + zlen k + zlen v) + zlen rest <? 24) with false by (symmetry; apply Z.ltb_ge; lia).
  assert (N0 : num_at s 0 1 = 128) by reflexivity.
  assert (N1 : num_at s 1 1 = rq_opcode h).
  { change (num_at s 1 1) with (unbe [byte_of (rq_opcode h)]). apply unbe1. assumption. }
  assert (N2 : num_at s 2 2 = zlen k).
  { change (num_at s 2 2) with (unbe (be 2 (rq_key_len h))). rewrite HK. apply unbe_be_small. simpl. lia. }
  assert (N4 : num_at s 4 1 = zlen ex).
  { change (num_at s 4 1) with (unbe [byte_of (rq_extra_len h)]). rewrite HE. apply unbe1. lia. }
  assert (N8 : num_at s 8 4 = zlen ex + zlen k + zlen v).
  { change (num_at s 8 4) with (unbe (be 4 (rq_total h))). rewrite HT. apply unbe_be_small. simpl. lia. }
  assert (N16 : num_at s 16 8 = rq_cas h).
  { change (num_at s 16 8) with (unbe (be 8 (rq_cas h))). apply unbe_be_small. simpl. lia. }
  rewrite N0, N1, N2, N4, N8, N16. cbv zeta. change (negb (128 =? 128)) with false. cbv iota.
  replace (24 + (zlen ex + zlen k + zlen v) + zlen rest <? 24 + (zlen ex + zlen k + zlen v)) with false
    by (symmetry; apply Z.ltb_ge; lia).
  replace (zlen ex + zlen k + zlen v <? zlen ex + zlen k) with false by (symmetry; apply Z.ltb_ge; lia).
  replace (key_max <? zlen k) with false by (symmetry; apply Z.ltb_ge; unfold key_max; lia).
  cbn [orb]. cbv iota.
  change (skipn 24 s) with ((ex ++ k ++ v) ++ rest).
  assert (B : firstn (Z.to_nat (zlen ex + zlen k + zlen v)) ((ex ++ k ++ v) ++ rest) = ex ++ k ++ v).
  { replace (zlen ex + zlen k + zlen v) with (zlen (ex ++ k ++ v)) by (rewrite !zlen_app; lia). apply firstn_app_zlen. }
  rewrite B.
  assert (R : skipn (Z.to_nat (24 + (zlen ex + zlen k + zlen v))) s = rest).
  { unfold s. rewrite app_assoc. replace (24 + (zlen ex + zlen k + zlen v)) with (zlen (encode_header h ++ ex ++ k ++ v))
      by (rewrite !zlen_app, zlen_encode; lia). apply skipn_app_zlen. }
  rewrite R, skipn_app_zlen, firstn_app_zlen.
  rewrite (app_assoc ex k v). replace (zlen ex + zlen k) with (zlen (ex ++ k)) by apply zlen_app.
  rewrite skipn_app_zlen. reflexivity.
Qed.

Lemma bin_key : forall k, legal_key PBinary k -> 1 <= zlen k <= 250.
Proof. intros k [L _]. exact L. Qed.

Lemma key_req_step : forall c opc k rest, 0 <= opc < 256 -> zlen k <= 250 ->
  binary_step c ((encode_header (key_header opc k) ++ k) ++ rest) = binary_cmd c opc 0 k k [] rest.
Proof.
  intros c opc k rest O K. pose proof (zlen_nonneg _ k).
  pose proof (binary_step_req c (key_header opc k) [] k [] rest) as G. cbn [app] in G. rewrite app_nil_r in G.
  cbn [key_header rq_opcode rq_cas rq_key_len rq_extra_len rq_total] in G.
  rewrite u16_small in G by lia. rewrite u32_small in G by lia. change (zlen (@nil ascii)) with 0 in G. apply G; lia.
Qed.

Lemma bare_req_step : forall c opc rest, 0 <= opc < 256 ->
  binary_step c (encode_header (bare_header opc) ++ rest) = binary_cmd c opc 0 [] [] [] rest.
Proof.
  intros c opc rest O.
  pose proof (binary_step_req c (bare_header opc) [] [] [] rest) as G. cbn [app] in G. rewrite app_nil_r in G.
  cbn [bare_header rq_opcode rq_cas rq_key_len rq_extra_len rq_total] in G.
  change (zlen (@nil ascii)) with 0 in G. apply G; lia.
Qed.

Lemma num_at_app0 : forall n a b, length a = n -> num_at (a ++ b) 0 n = unbe a.
Proof. intros n a b H. unfold num_at. rewrite skipn_O. rewrite <- H, firstn_app_exact. reflexivity. Qed.
Lemma num_at_app1 : forall m n x a b, length x = m -> length a = n -> num_at (x ++ a ++ b) m n = unbe a.
Proof. intros m n x a b M H. unfold num_at. rewrite <- M, skipn_app_exact. rewrite <- H, firstn_app_exact. reflexivity. Qed.

Lemma bin_store_step : forall c opc i rq rest, (opc = 1 \/ opc = 2 \/ opc = 3) -> legal_item PBinary i ->
  fst (bin_store_req opc i) = Ok rq ->
  binary_step c (rq ++ rest)
  = (let cr := if negb (it_cas i =? 0) then cache_cas c (it_key i) (it_value i) (item_flags i) (it_exp i) (it_cas i)
               else if opc =? 1 then cache_set c (it_key i) (it_value i) (item_flags i) (it_exp i)
               else if opc =? 2 then cache_add c (it_key i) (it_value i) (item_flags i) (it_exp i)
               else cache_replace c (it_key i) (it_value i) (item_flags i) (it_exp i) in
     Some (fst cr, bin_store_packet opc (fst cr) (snd cr), rest)).
Proof.
  intros c opc i rq rest O (K & F & E & C & V) R. apply bin_key in K. simpl in E.
  pose proof (zlen_nonneg _ (it_value i)).
  assert (R' : exists fl, length fl = 4%nat /\ unbe fl = item_flags i /\
     rq = encode_header (store_header opc i) ++ (fl ++ be 4 (it_exp i)) ++ it_key i ++ it_value i).
  { unfold bin_store_req in R. cbn [fst] in R. rewrite u32_small in R by lia. unfold item_flags. unfold legal_flags in F.
    destruct (it_flags i) as [f|].
    - destruct F as [L4 _]. destruct (zlen f <? 4); [discriminate|].
      apply (f_equal (fun x => match x with Ok a => a | _ => [] end)) in R; cbv beta iota in R; subst rq.
      exists f. rewrite firstn_all2 by lia. split; [assumption|]. split; [reflexivity|]. repeat rewrite <- app_assoc. reflexivity.
    - apply (f_equal (fun x => match x with Ok a => a | _ => [] end)) in R; cbv beta iota in R; subst rq.
      exists (be 4 0). split; [reflexivity|]. split; [reflexivity|]. repeat rewrite <- app_assoc. reflexivity. }
  destruct R' as (fl & L4 & U & ->).
  assert (LE : zlen (fl ++ be 4 (it_exp i)) = 8). { rewrite zlen_app, zlen_be. unfold zlen. rewrite L4. reflexivity. }
  rewrite binary_step_req; cbn [store_header rq_opcode rq_cas rq_key_len rq_extra_len rq_total];
    try rewrite LE; try lia; try (rewrite u16_small by lia; reflexivity); try (rewrite u32_small by lia; lia).
  unfold binary_cmd.
  replace ((opc =? 0) || (opc =? 13)) with false by (destruct O as [-> | [-> | ->]]; reflexivity).
  replace ((opc =? 1) || (opc =? 2) || (opc =? 3)) with true by (destruct O as [-> | [-> | ->]]; reflexivity).
  cbv iota.
  assert (N0 : num_at ((fl ++ be 4 (it_exp i)) ++ it_key i ++ it_value i) 0 4 = item_flags i).
  { rewrite <- app_assoc. rewrite num_at_app0 by assumption. exact U. }
  assert (N4 : num_at ((fl ++ be 4 (it_exp i)) ++ it_key i ++ it_value i) 4 4 = it_exp i).
  { rewrite <- app_assoc. rewrite num_at_app1 by (assumption || apply be_length). apply unbe_be_small. simpl. lia. }
  rewrite N0, N4. reflexivity.
Qed.

Lemma bin_incr_step : forall c h opc k d e rq rest, (opc = 5 \/ opc = 6) -> legal_key PBinary k -> legal_delta PBinary d e ->
  0 <= rq_cas h < 2 ^ 64 -> fst (bin_incr_req h opc k d e) = Ok rq ->
  binary_step c (rq ++ rest)
  = (let cr := bin_delta (opc =? 5) c k d 1 e (rq_cas h) in Some (fst cr, bin_delta_packet opc cr, rest)).
Proof.
  intros c h opc k d e rq rest O K [D E] C R. apply bin_key in K. specialize (E eq_refl).
  unfold bin_incr_req in R. cbn [fst] in R.
  apply (f_equal (fun x => match x with Ok a => a | _ => [] end)) in R; cbv beta iota in R; subst rq.
  rewrite (u32_small e) by lia. rewrite (u64_small d) by lia.
  set (h' := mkReqHeader _ _ _ _ _ _ _ _).
  replace (encode_header h' ++ be 8 d ++ be 8 1 ++ be 4 e ++ k)
    with (encode_header h' ++ (be 8 d ++ be 8 1 ++ be 4 e) ++ k ++ []) by (rewrite app_nil_r; repeat rewrite <- app_assoc; reflexivity).
  assert (LE : zlen (be 8 d ++ be 8 1 ++ be 4 e) = 20) by (rewrite !zlen_app, !zlen_be; reflexivity).
  rewrite binary_step_req; unfold h'; cbn [rq_opcode rq_cas rq_key_len rq_extra_len rq_total];
    try rewrite LE; try (change (zlen (@nil ascii)) with 0); try lia;
    try (rewrite u16_small by lia; reflexivity); try (rewrite u32_small by lia; lia).
  unfold binary_cmd. rewrite app_nil_r. repeat rewrite <- app_assoc.
  rewrite (num_at_app0 8) by apply be_length. rewrite (num_at_app1 8 8) by apply be_length.
  rewrite (app_assoc (be 8 d) (be 8 1)).
  rewrite (num_at_app1 16 4) by (reflexivity || apply be_length).
  rewrite !unbe_be_small by (simpl; lia). destruct O as [-> | ->]; reflexivity.
Qed.

Lemma bin_touch_step : forall c k e rest, legal_key PBinary k -> legal_exp PBinary e ->
  forall rq, fst (bin_touch_req k e) = Ok rq -> binary_step c (rq ++ rest)
  = Some (fst (bin_intent c (OTouch k e)), snd (bin_intent c (OTouch k e)), rest).
Proof.
  intros c k e rest K E rq R. apply bin_key in K. simpl in E.
  unfold bin_touch_req in R. cbn [fst] in R.
  apply (f_equal (fun x => match x with Ok a => a | _ => [] end)) in R; cbv beta iota in R; subst rq.
  rewrite (u32_small e) by lia. set (h' := mkReqHeader _ _ _ _ _ _ _ _).
  replace (encode_header h' ++ be 4 e ++ k) with (encode_header h' ++ be 4 e ++ k ++ []) by (rewrite app_nil_r; reflexivity).
  rewrite binary_step_req; unfold h'; cbn [rq_opcode rq_cas rq_key_len rq_extra_len rq_total];
    rewrite ?zlen_be; change (Z.of_nat 4) with 4; change (zlen (@nil ascii)) with 0; unfold op_touch; try lia;
    try (rewrite u16_small by lia; reflexivity); try (rewrite u32_small by lia; lia).
  unfold binary_cmd. rewrite app_nil_r. rewrite num_at_app0 by apply be_length. rewrite unbe_be_small by (simpl; lia).
  reflexivity.
Qed.

(** Every legal call other than GetMulti is exactly one command. *)
Lemma bin_step_ok : forall c h o rq rest, legal PBinary o -> (forall ks, o <> OGetMulti ks) ->
  (match o with OIncr _ _ _ | ODecr _ _ _ => rq_cas h = 0 | _ => True end) ->
  fst (bin_req h o) = Ok rq ->
  binary_step c (rq ++ rest) = Some (fst (bin_intent c o), snd (bin_intent c o), rest).
Proof.
  intros c h o rq rest L NM HC R. destruct o; cbn [legal] in L; cbn [bin_req] in R;
    try match type of R with fst (Ok _, _) = _ => cbn [fst] in R; apply (f_equal (fun x => match x with Ok a => a | _ => [] end)) in R; cbv beta iota in R; subst rq end.
  - apply bin_key in L. rewrite key_req_step by (unfold op_get; lia). unfold binary_cmd, bin_intent.
    change ((op_get =? 0) || (op_get =? 13)) with true. cbv iota. cbn [fst snd]. destruct (lookup c k); reflexivity.
  - exfalso. eapply NM. reflexivity.
  - rewrite (bin_store_step c 1 i rq rest) by auto. cbv zeta. cbn [bin_intent fst snd]. unfold run_store.
    destruct (it_cas i =? 0); reflexivity.
  - destruct L as [L L0]. rewrite (bin_store_step c 2 i rq rest) by auto. rewrite L0 by reflexivity. reflexivity.
  - destruct L as [L L0]. rewrite (bin_store_step c 3 i rq rest) by auto. rewrite L0 by reflexivity. reflexivity.
  - apply bin_key in L. rewrite key_req_step by (unfold op_delete; lia). reflexivity.
  - destruct L as [K D]. rewrite (bin_incr_step c h 5 k delta expiration) by (auto; rewrite HC; lia). rewrite HC. reflexivity.
  - destruct L as [K D]. rewrite (bin_incr_step c h 6 k delta expiration) by (auto; rewrite HC; lia). rewrite HC. reflexivity.
  - destruct L as [K E]. apply bin_touch_step; assumption.
  - rewrite bare_req_step by (unfold op_flush; lia). reflexivity.
  - rewrite bare_req_step by (unfold op_version; lia). reflexivity.
Qed.

(** ** Replies *)
Lemma read_packet : forall opc st cas ex k v rest,
  0 <= opc < 256 -> 0 <= st < 2 ^ 16 -> 0 <= cas < 2 ^ 64 -> zlen k < 2 ^ 16 -> zlen ex < 256 ->
  zlen ex + zlen k + zlen v < 2 ^ 32 ->
  read_res_header (packet opc st cas ex k v ++ rest)
  = (Ok (mkResHeader opc (zlen k) (zlen ex) 0 st (zlen ex + zlen k + zlen v) 0 cas), (ex ++ k ++ v) ++ rest).
Proof.
  intros opc st cas ex k v rest O S C K E T.
  pose proof (zlen_nonneg _ ex). pose proof (zlen_nonneg _ k). pose proof (zlen_nonneg _ v). pose proof (zlen_nonneg _ rest).
  set (hd := byte_of 129 :: byte_of opc :: be 2 (zlen k) ++ byte_of (zlen ex) :: byte_of 0 :: be 2 st
             ++ be 4 (zlen ex + zlen k + zlen v) ++ be 4 0 ++ be 8 cas).
  assert (P : packet opc st cas ex k v ++ rest = hd ++ (ex ++ k ++ v) ++ rest) by reflexivity.
  rewrite P. unfold read_res_header. erewrite bind_ok by (apply (read_full_eq 24 hd); reflexivity). cbn beta.
  change (byte_at hd 0) with 129. change (negb (129 =? magic_response)) with false. cbv iota. unfold ret.
  change (byte_at hd 1) with (code (byte_of opc)). change (byte_at hd 4) with (code (byte_of (zlen ex))).
  change (byte_at hd 5) with 0. rewrite !code_byte_of, !Z.mod_small by lia.
  change (sub hd 2 2) with (be 2 (zlen k)). change (sub hd 6 2) with (be 2 st).
  change (sub hd 8 4) with (be 4 (zlen ex + zlen k + zlen v)). change (sub hd 12 4) with (be 4 0).
  change (sub hd 16 8) with (be 8 cas). rewrite !unbe_be_small by (simpl; lia). reflexivity.
Qed.

Lemma alloc_ok : forall n s s', n = zlen s -> n < 2 ^ 32 -> make_read_full n (s ++ s') = (Ok s, s').
Proof. intros. apply make_read_full_app; [assumption|]. unfold max_alloc. lia. Qed.

Lemma go_slice_tail : forall a b, go_slice (a ++ b) (zlen a) (zlen (a ++ b)) = Ok b.
Proof.
  intros a b. unfold go_slice. rewrite zlen_app. pose proof (zlen_nonneg _ a). pose proof (zlen_nonneg _ b).
  replace (0 <=? zlen a) with true by (symmetry; apply Z.leb_le; lia).
  replace (zlen a <=? zlen a + zlen b) with true by (symmetry; apply Z.leb_le; lia).
  rewrite Z.leb_refl. cbn [andb]. rewrite skipn_app_zlen.
  replace (zlen a + zlen b - zlen a) with (zlen b) by lia. rewrite zlen_to_nat, firstn_all. reflexivity.
Qed.
Lemma go_slice_mid : forall a b d, go_slice (a ++ b ++ d) (zlen a) (zlen a + zlen b) = Ok b.
Proof.
  intros a b d. unfold go_slice. rewrite !zlen_app. pose proof (zlen_nonneg _ a). pose proof (zlen_nonneg _ b). pose proof (zlen_nonneg _ d).
  replace (0 <=? zlen a) with true by (symmetry; apply Z.leb_le; lia).
  replace (zlen a <=? zlen a + zlen b) with true by (symmetry; apply Z.leb_le; lia).
  replace (zlen a + zlen b <=? zlen a + (zlen b + zlen d)) with true by (symmetry; apply Z.leb_le; lia).
  cbn [andb]. rewrite skipn_app_zlen.
  replace (zlen a + zlen b - zlen a) with (zlen b) by lia. rewrite firstn_app_zlen. reflexivity.
Qed.

Lemma bin_get_hit : forall k e rest, 0 <= e_flags e < 2 ^ 32 -> 0 <= e_cas e < 2 ^ 64 -> zlen (e_value e) <= 2 ^ 30 ->
  bin_get_resp k (bin_hit 0 false k e ++ rest)
  = (Ok (mkItem k (e_value e) (Some (be 4 (e_flags e))) 0 (e_cas e) []), rest).
Proof.
  intros k e rest F C V. pose proof (zlen_nonneg _ (e_value e)). unfold bin_get_resp, bin_hit.
  assert (LE : zlen (be 4 (e_flags e)) = 4) by apply zlen_be.
  erewrite bind_ok by (apply read_packet; rewrite ?LE; change (zlen (@nil ascii)) with 0; lia). cbn beta.
  cbn [rs_total rs_status rs_cas rs_extra_len].
  erewrite bind_ok by (apply alloc_ok; rewrite ?zlen_app, ?LE; change (zlen (@nil ascii)) with 0; lia). cbn beta.
  change (negb (0 =? 0)) with false. cbv iota. cbn [app].
  unfold body_off. cbn [rs_extra_len rs_key_len]. change (zlen (@nil ascii)) with 0. rewrite Z.add_0_r.
  rewrite u16_small by (rewrite LE; lia).
  erewrite bind_ok by (unfold go_sub; rewrite go_slice_tail; reflexivity). cbn beta.
  erewrite bind_ok by (unfold go_sub; rewrite go_slice_prefix; reflexivity). reflexivity.
Qed.

Lemma bin_multi_hit : forall k e rest, zlen k <= 250 -> 0 <= e_flags e < 2 ^ 32 -> 0 <= e_cas e < 2 ^ 64 -> zlen (e_value e) <= 2 ^ 30 ->
  bin_getmulti_step (bin_hit 13 true k e ++ rest)
  = (Ok (Some (mkItem k (e_value e) (Some (be 4 (e_flags e))) 0 0 [])), rest).
Proof.
  intros k e rest K F C V. pose proof (zlen_nonneg _ (e_value e)). pose proof (zlen_nonneg _ k). unfold bin_getmulti_step, bin_hit.
  assert (LE : zlen (be 4 (e_flags e)) = 4) by apply zlen_be.
  erewrite bind_ok by (apply read_packet; rewrite ?LE; lia). cbn beta.
  cbn [rs_total rs_status rs_cas rs_extra_len rs_opcode].
  change (13 =? op_noop) with false. change (negb (0 =? 0)) with false. cbv iota.
  erewrite bind_ok by (apply alloc_ok; rewrite ?zlen_app, ?LE; lia). cbn beta.
  unfold body_off. cbn [rs_extra_len rs_key_len]. rewrite u16_small by (rewrite LE; lia).
  erewrite bind_ok by (unfold go_sub; rewrite go_slice_mid; reflexivity). cbn beta.
  rewrite (app_assoc (be 4 (e_flags e)) k). rewrite <- (zlen_app _ (be 4 (e_flags e)) k).
  erewrite bind_ok by (unfold go_sub; rewrite go_slice_tail; reflexivity). cbn beta.
  rewrite <- app_assoc.
  erewrite bind_ok by (unfold go_sub; rewrite go_slice_prefix; reflexivity). reflexivity.
Qed.

Lemma bin_values_ok : forall (hs : list (bytes * entry)) fuel acc rest,
  Forall (fun ke => zlen (fst ke) <= 250 /\ 0 <= e_flags (snd ke) < 2 ^ 32
                    /\ zlen (e_value (snd ke)) <= 2 ^ 30 /\ 0 <= e_cas (snd ke) < 2 ^ 64) hs ->
  (length hs < fuel)%nat ->
  bin_values fuel acc (flat_map (fun ke => bin_hit 13 true (fst ke) (snd ke)) hs ++ packet 10 0 0 [] [] [] ++ rest)
  = Some (Ok (rev acc ++ map (fun ke => mkItem (fst ke) (e_value (snd ke)) (Some (be 4 (e_flags (snd ke)))) 0 0 []) hs), rest).
Proof.
  induction hs as [|[k e] hs IH]; intros fuel acc rest H L; (destruct fuel as [|fuel]; [simpl in L; lia|]).
  - cbn [flat_map app bin_values].
    assert (X : bin_getmulti_step (packet 10 0 0 [] [] [] ++ rest) = (Ok None, rest)).
    { unfold bin_getmulti_step. erewrite bind_ok by (apply read_packet; change (zlen (@nil ascii)) with 0; lia). reflexivity. }
    rewrite X. cbn [map]. rewrite app_nil_r. reflexivity.
  - inversion H as [|x l (Lk & F & V & C) H']; subst. cbn [fst snd] in *.
    cbn [flat_map fst snd bin_values]. rewrite <- app_assoc, bin_multi_hit by assumption.
    rewrite IH by (assumption || simpl in L; lia). cbn [rev map fst snd]. rewrite <- app_assoc. reflexivity.
Qed.

Lemma bin_multi_hits : forall c ks,
  flat_map (fun k => match lookup c k with Some e => bin_hit 13 true k e | None => [] end) ks
  = flat_map (fun ke => bin_hit 13 true (fst ke) (snd ke)) (hits c ks).
Proof.
  intros c ks. unfold hits. induction ks as [|k ks IH]; [reflexivity|]. cbn [flat_map].
  rewrite flat_map_app, IH. destruct (lookup c k); cbn [flat_map fst snd]; rewrite ?app_nil_r; reflexivity.
Qed.

Lemma bin_getmulti_ok : forall c ks rest, wf PBinary c -> c_cas c < 2 ^ 64 -> Forall (legal_key PBinary) ks ->
  bin_getmulti_resp (snd (bin_intent c (OGetMulti ks)) ++ rest)
  = (Ok (flat_map (fun k => match lookup c k with Some e => [item_view PBinary [] true c k e] | None => [] end) ks), rest).
Proof.
  intros c ks rest W C F. unfold bin_getmulti_resp. cbn [bin_intent snd]. rewrite bin_multi_hits, <- app_assoc.
  rewrite bin_values_ok.
  - cbn [rev app]. rewrite <- hits_items. reflexivity.
  - generalize (hits_forall PBinary c ks _ W F). apply Forall_impl. intros [k e] [K (A1 & A2 & A3 & _)]. cbn [fst snd] in *.
    destruct W as ((W1 & _) & _). cbn [flags_bound] in A2. apply bin_key in K. repeat split; lia.
  - rewrite !app_length.
    pose proof (hits_length (fun ke => bin_hit 13 true (fst ke) (snd ke)) (hits c ks) ltac:(intros; discriminate)). lia.
Qed.

(** A reply with no body, or with one the client reads. *)
Lemma bin_store_stored : forall opc cas rest, 0 <= opc < 256 -> 0 <= cas < 2 ^ 64 ->
  bin_store_resp opc (packet opc 0 cas [] [] [] ++ rest) = (Ok tt, rest).
Proof.
  intros. unfold bin_store_resp. erewrite bind_ok by (apply read_packet; change (zlen (@nil ascii)) with 0; lia).
  cbn [rs_opcode rs_status]. rewrite Z.eqb_refl. reflexivity.
Qed.
(** Set and Add leave the body of an error reply unread. *)
Lemma bin_store_refused : forall opc st msg rest, 0 <= opc < 256 -> 0 < st < 2 ^ 16 -> zlen msg < 2 ^ 32 ->
  bin_store_resp opc (packet opc st 0 [] [] msg ++ rest)
  = (Err (if st =? 2 then EExists else status_error st), msg ++ rest).
Proof.
  intros. unfold bin_store_resp. erewrite bind_ok by (apply read_packet; change (zlen (@nil ascii)) with 0; lia).
  cbn [rs_opcode rs_status]. rewrite Z.eqb_refl. destruct (st =? 0) eqn:E; [apply Z.eqb_eq in E; lia|]. reflexivity.
Qed.
Lemma bin_body_any : forall opc st cas msg rest, 0 <= opc < 256 -> 0 <= st < 2 ^ 16 -> 0 <= cas < 2 ^ 64 -> zlen msg < 2 ^ 32 ->
  bin_body_resp opc (packet opc st cas [] [] msg ++ rest)
  = (if st =? 0 then Ok tt else Err (if st =? 1 then ENotFound else status_error st), rest).
Proof.
  intros. unfold bin_body_resp. erewrite bind_ok by (apply read_packet; change (zlen (@nil ascii)) with 0; lia).
  cbn [rs_opcode rs_status rs_total]. rewrite Z.eqb_refl. cbn [negb app].
  erewrite bind_ok by (apply alloc_ok; change (zlen (@nil ascii)) with 0; lia). destruct (st =? 0); reflexivity.
Qed.

Lemma status_completed : forall st, completed (status_error st).
Proof. intro st. unfold status_error. destruct (binary_status st); apply completed_msg. Qed.
Lemma status_not_mc : forall st, status_error st <> ENotFound /\ status_error st <> EExists.
Proof. intro st. unfold status_error. destruct (binary_status st); split; discriminate. Qed.

Lemma bin_incr_ok : forall opc cas n rest, 0 <= opc < 256 -> 0 <= cas < 2 ^ 64 -> 0 <= n < 2 ^ 64 ->
  bin_incr_resp opc (packet opc 0 cas [] [] (be 8 n) ++ rest) = (Ok (i64 n), rest).
Proof.
  intros. unfold bin_incr_resp.
  assert (LE : zlen (be 8 n) = 8) by apply zlen_be.
  erewrite bind_ok by (apply read_packet; rewrite ?LE; change (zlen (@nil ascii)) with 0; lia).
  cbn [rs_opcode rs_status rs_total]. rewrite Z.eqb_refl. cbn [negb].
  rewrite LE. change (0 <? zlen (@nil ascii) + zlen (@nil ascii) + 8) with true. cbv iota. rewrite !app_nil_l.
  erewrite bind_ok by (apply alloc_ok; rewrite ?LE; change (zlen (@nil ascii)) with 0; lia). cbn beta.
  change (negb (0 =? 0)) with false. cbv iota. rewrite LE. change (8 <? 8) with false. cbv iota.
  rewrite firstn_all2 by (rewrite be_length; lia). rewrite unbe_be_small by (simpl; lia). reflexivity.
Qed.
Lemma bin_incr_refused : forall opc st msg rest, 0 <= opc < 256 -> 0 < st < 2 ^ 16 -> 0 < zlen msg < 2 ^ 32 ->
  exists m, bin_incr_resp opc (packet opc st 0 [] [] msg ++ rest) = (Err (EMsg m), rest).
Proof.
  intros. unfold bin_incr_resp.
  erewrite bind_ok by (apply read_packet; change (zlen (@nil ascii)) with 0; lia).
  cbn [rs_opcode rs_status rs_total]. rewrite Z.eqb_refl. cbn [negb].
  change (zlen (@nil ascii) + zlen (@nil ascii)) with 0. rewrite Z.add_0_l.
  destruct (0 <? zlen msg) eqn:P; [|apply Z.ltb_ge in P; lia]. rewrite !app_nil_l.
  erewrite bind_ok by (apply alloc_ok; lia). cbn beta.
  destruct (st =? 0) eqn:E; [apply Z.eqb_eq in E; lia|]. cbn [negb].
  destruct (binary_status st); eexists; reflexivity.
Qed.

Lemma spec_delta_bin : forall up c k d e, 0 <= e < 2 ^ 32 - 1 ->
  spec_delta PBinary up c k d e
  = (fst (bin_delta up c k d 1 e 0), delta_outcome PBinary (snd (bin_delta up c k d 1 e 0))).
Proof.
  intros up c k d e E. unfold spec_delta, bin_delta. destruct (lookup c k) as [o|].
  - reflexivity.
  - destruct (e =? 2 ^ 32 - 1) eqn:Q; [apply Z.eqb_eq in Q; lia|]. reflexivity.
Qed.
Lemma bin_delta_range : forall up c k d e, 0 <= d -> 0 <= e < 2 ^ 32 - 1 ->
  match snd (bin_delta up c k d 1 e 0) with DeltaOk n => 0 <= n < 2 ^ 64 | DeltaNonNumeric => True | _ => False end.
Proof.
  intros up c k d e D E. unfold bin_delta. destruct (lookup c k) as [o|] eqn:L.
  - cbn [Z.eqb negb andb]. unfold cache_delta. rewrite L. destruct (counter_value (e_value o)) eqn:Q; cbn [snd]; auto.
    apply delta_apply_range; [eapply counter_value_range; eassumption|lia].
  - destruct (e =? 2 ^ 32 - 1) eqn:Q; [apply Z.eqb_eq in Q; lia|]. cbn [snd]. lia.
Qed.
Lemma bin_delta_cas : forall up c k d e, 0 <= c_cas c ->
  0 <= c_cas (fst (bin_delta up c k d 1 e 0)) <= c_cas c + 1.
Proof.
  intros up c k d e W. unfold bin_delta. destruct (lookup c k) as [o|] eqn:L.
  - cbn [Z.eqb negb andb]. unfold cache_delta. rewrite L. destruct (counter_value (e_value o)) eqn:Q; cbn; lia.
  - destruct (e =? 2 ^ 32 - 1); cbn; lia.
Qed.

Lemma bin_delta_resp_ok : forall up opc c k d e rest, (opc = 5 \/ opc = 6) -> wf PBinary c -> c_cas c + 1 < 2 ^ 64 ->
  0 <= d -> 0 <= e < 2 ^ 32 - 1 ->
  exists out, rmap RInt (bin_incr_resp opc) (bin_delta_packet opc (bin_delta up c k d 1 e 0) ++ rest) = (out, rest)
              /\ agrees (snd (spec_delta PBinary up c k d e)) out.
Proof.
  intros up opc c k d e rest O W C D E. rewrite spec_delta_bin by assumption. cbn [snd].
  pose proof (bin_delta_range up c k d e D E) as R.
  pose proof (bin_delta_cas up c k d e ltac:(destruct W as (_ & _ & W & _); exact W)) as R2.
  assert (0 <= opc < 256) by lia. unfold bin_delta_packet.
  destruct (snd (bin_delta up c k d 1 e 0)); try contradiction.
  - destruct (bin_incr_refused opc 6 (B "Non-numeric server-side value for incr or decr") rest) as [m G]; try lia.
    { split; [reflexivity|vm_compute; reflexivity]. }
    eexists. split; [apply rmap_err, G|apply completed_msg].
  - eexists. split; [apply rmap_ok, bin_incr_ok; lia|reflexivity].
Qed.

Lemma wf_hit : forall c k e, wf PBinary c -> lookup c k = Some e ->
  0 <= e_flags e < 2 ^ 32 /\ 1 <= e_cas e <= c_cas c /\ zlen (e_value e) <= 2 ^ 30.
Proof.
  intros c k e W L. destruct (wf_lookup _ _ _ _ W L) as (A1 & A2 & A3 & _). destruct W as ((W1 & _) & _).
  cbn [flags_bound] in A2. lia.
Qed.

Lemma store_outcome_ok : forall x r, store_outcome x r = SOk RUnit -> r = Stored \/ (r = NotStored /\ x = SOk RUnit).
Proof. intros x r H. destruct r; auto; try discriminate. Qed.

Lemma bin_resp_ok : forall last c o rest, wf PBinary c -> c_cas c + 1 < 2 ^ 64 -> legal PBinary o -> bin_safe last c o ->
  exists out, bin_resp o (snd (bin_intent c o) ++ rest) = (out, rest)
              /\ agrees (snd (spec_step PBinary [] c o)) out.
Proof.
  intros last c o rest W C L S.
  assert (C0 : 0 <= c_cas c) by (destruct W as (_ & _ & W & _); exact W).
  pose proof (cas_spec_step PBinary [] c o) as CS.
  destruct o; cbn [bin_resp bin_intent fst snd spec_step] in *; cbn [legal] in L; cbn [bin_safe spec_step snd] in S.
  - destruct (lookup c k) as [e|] eqn:E.
    + destruct (wf_hit _ _ _ W E) as (F & U & V). eexists. split; [apply rmap_ok, bin_get_hit; lia|reflexivity].
    + refine (ex_intro _ (Err ENotFound) (conj _ eq_refl)). apply rmap_err. unfold bin_get_resp, not_found_packet.
      erewrite bind_ok by (apply read_packet; try lia; vm_compute; reflexivity).
      cbn [rs_total rs_status]. cbn [app].
      erewrite bind_ok by (apply alloc_ok; [reflexivity|vm_compute; reflexivity]). reflexivity.
  - destruct L as [_ F]. refine (ex_intro _ (Ok _) (conj _ eq_refl)). apply rmap_ok.
    pose proof (bin_getmulti_ok c ks rest W ltac:(lia) F) as G. cbn [bin_intent snd] in G. exact G.
  - fold (run_store c i) in *. destruct (store_outcome_ok _ _ S) as [X|[_ X]]; [|discriminate]. rewrite X in *.
    eexists. split; [apply rmap_ok; cbn [bin_store_packet]; apply bin_store_stored; unfold op_set; lia|reflexivity].
  - fold (run_add c i) in *. destruct (store_outcome_ok _ _ S) as [X|[_ X]]; [|discriminate]. rewrite X in *.
    eexists. split; [apply rmap_ok; cbn [bin_store_packet]; apply bin_store_stored; unfold op_add; lia|reflexivity].
  - fold (run_replace c i) in *. assert (X := run_replace_nomis c i).
    destruct (snd (run_replace c i)); try congruence; cbn [bin_store_packet]; unfold exists_packet, not_found_packet;
      change (3 =? 2) with false; cbv iota;
      (eexists; split; [unfold runit, rmap, bind; rewrite bin_body_any by (unfold op_replace; try lia; vm_compute; reflexivity); reflexivity|]).
    + reflexivity.
    + reflexivity.
    + cbn. apply completed_nf.
    + cbn. apply completed_msg.
  - destruct (snd (cache_delete c k)); unfold not_found_packet;
      (eexists; split; [unfold runit, rmap, bind; rewrite bin_body_any by (unfold op_delete; try lia; vm_compute; reflexivity); reflexivity|]);
      reflexivity.
  - destruct L as (_ & D & E). specialize (E eq_refl). apply bin_delta_resp_ok; auto; lia.
  - destruct L as (_ & D & E). specialize (E eq_refl). apply bin_delta_resp_ok; auto; lia.
  - destruct S as [S T]. destruct (snd (cache_touch c k expiration)); [|discriminate]. rewrite T.
    refine (ex_intro _ (Ok _) (conj _ eq_refl)). unfold runit. apply (rmap_ok unit (fun _ => RUnit) _ _ tt). unfold bin_touch_resp.
    erewrite bind_ok by (apply read_packet; change (zlen (@nil ascii)) with 0; lia). reflexivity.
  - refine (ex_intro _ (Ok _) (conj _ eq_refl)). unfold runit. apply (rmap_ok unit (fun _ => RUnit) _ _ tt). unfold bin_flush_resp.
    erewrite bind_ok by (apply read_packet; change (zlen (@nil ascii)) with 0; lia). reflexivity.
  - destruct W as ((W1 & W2 & W3) & _). pose proof (zlen_nonneg _ (cf_version (c_cfg c))).
    refine (ex_intro _ (Ok _) (conj _ eq_refl)). apply rmap_ok. unfold bin_version_resp.
    erewrite bind_ok by (apply read_packet; change (zlen (@nil ascii)) with 0; lia). cbn [rs_status rs_total]. cbn [app].
    change (negb (0 =? 0)) with false. cbv iota. apply alloc_ok; change (zlen (@nil ascii)) with 0; lia.
Qed.

Lemma bin_intent_spec : forall c o, legal PBinary o -> fst (bin_intent c o) = fst (spec_step PBinary [] c o).
Proof.
  intros c o L. destruct o; try reflexivity; cbn [bin_intent spec_step fst]; destruct L as (_ & D & E); specialize (E eq_refl);
    rewrite spec_delta_bin by assumption; reflexivity.
Qed.

(** GetMulti's request. *)
Lemma bin_getkq_daemon : forall c ks rest, Forall (legal_key PBinary) ks ->
  daemon WireBinary c (flat_map (fun k => encode_header (key_header op_getkq k) ++ k) ks ++ rest)
  = let '(c', rep, p) := daemon WireBinary c rest in
    (c', flat_map (fun k => match lookup c k with Some e => bin_hit 13 true k e | None => [] end) ks ++ rep, p).
Proof.
  intros c ks rest F. induction F as [|k ks K F IH].
  - cbn [flat_map app]. destruct (daemon WireBinary c rest) as [[? ?] ?]. reflexivity.
  - cbn [flat_map]. rewrite <- app_assoc. apply bin_key in K.
    erewrite (daemon_cons WireBinary c _ c (match lookup c k with Some e => bin_hit 13 true k e | None => [] end)).
    2:{ cbn [daemon_step]. rewrite key_req_step by (unfold op_getkq; lia). unfold binary_cmd.
        change ((op_getkq =? 0) || (op_getkq =? 13)) with true. cbv iota. destruct (lookup c k); reflexivity. }
    rewrite IH. destruct (daemon WireBinary c rest) as [[? ?] ?]. rewrite <- app_assoc. reflexivity.
Qed.
Lemma bin_daemon : forall c h o rq, legal PBinary o ->
  (match o with OIncr _ _ _ | ODecr _ _ _ => rq_cas h = 0 | _ => True end) -> fst (bin_req h o) = Ok rq ->
  daemon WireBinary c rq = (fst (bin_intent c o), snd (bin_intent c o), []).
Proof.
  intros c h o rq L HC R.
  assert (G : (exists ks, o = OGetMulti ks) \/ (forall ks, o <> OGetMulti ks)).
  { destruct o; try (right; discriminate). left. eexists. reflexivity. }
  destruct G as [[ks ->]|NM].
  - cbn [bin_req fst] in R. apply (f_equal (fun x => match x with Ok a => a | _ => [] end)) in R; cbv beta iota in R; subst rq.
    cbn [legal] in L. destruct L as [_ F]. rewrite bin_getkq_daemon by assumption.
    rewrite (daemon_one WireBinary c _ c (packet 10 0 0 [] [] [])); [reflexivity|].
    cbn [daemon_step]. rewrite <- (app_nil_r (encode_header _)). rewrite bare_req_step by (unfold op_noop; lia). reflexivity.
  - apply daemon_one. cbn [daemon_step]. rewrite <- (app_nil_r rq). eapply bin_step_ok; eassumption.
Qed.

Lemma bin_req_ok : forall h o, legal PBinary o -> exists rq, fst (bin_req h o) = Ok rq.
Proof.
  intros h o L.
  assert (G : forall opc i, legal_item PBinary i -> exists rq, fst (bin_store_req opc i) = Ok rq).
  { intros opc i (_ & F & _). unfold bin_store_req. cbn [fst]. unfold legal_flags in F.
    destruct (it_flags i) as [f|]; [|eexists; reflexivity]. destruct F as [L4 _]. unfold zlen. rewrite L4. eexists. reflexivity. }
  destruct o; cbn [bin_req legal] in *; try (eexists; reflexivity); apply G; tauto.
Qed.

Lemma bin_req_header : forall h o, rq_cas (snd (bin_req h o)) = next_cas (rq_cas h) o.
Proof. intros h o. destruct o; reflexivity. Qed.

Lemma bin_call_ok : forall c h o, wf PBinary c -> c_cas c + 1 < 2 ^ 64 -> legal PBinary o -> bin_safe (rq_cas h) c o ->
  exists out, call bin_client (fresh_link c h) o = (fresh_link (fst (spec_step PBinary [] c o)) (snd (bin_req h o)), out)
              /\ agrees (snd (spec_step PBinary [] c o)) out.
Proof.
  intros c h o W C L S. destruct (bin_resp_ok (rq_cas h) c o [] W C L S) as (out & R & A). exists out. split; [|exact A].
  destruct (bin_req_ok h o L) as [rq E].
  unfold call. cbn [bin_client cl_req cl_resp cl_wire fst snd fresh_link l_cache l_pending l_unread l_header].
  rewrite E. cbn [app].
  assert (HC : match o with OIncr _ _ _ | ODecr _ _ _ => rq_cas h = 0 | _ => True end) by (destruct o; auto; exact S).
  rewrite (bin_daemon c h o rq L HC E). rewrite app_nil_r in R. rewrite R. cbn [fst snd].
  rewrite bin_intent_spec by assumption. reflexivity.
Qed.
