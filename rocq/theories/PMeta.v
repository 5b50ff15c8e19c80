(** * The meta client against the daemon. *)
From Verif Require Import GoBytes GoNum GoIO GoScan Item ClientText ClientMeta Cache Daemon Spec Intent Call Guard
  PLib PScan PDaemon PCache PText.
Local Open Scope Z_scope.

Lemma meta_key : forall k, legal_key PMeta k -> k <> [] /\ word k /\ key_ok k = true.
Proof. intros k. apply legal_key_word. discriminate. Qed.

(** ** Requests *)
Lemma meta_store_ok : forall c k v f e u flags rest,
  key_ok k = true -> zlen v < 2 ^ 31 ->
  num_flag (parse_uint 32) "F" 0 flags = Some f -> num_flag (parse_int 32) "T" 0 flags = Some e ->
  num_flag (parse_uint 64) "C" 0 flags = Some u ->
  let run := if has_flag "C" flags then cache_cas c k v f e u else cache_set c k v f e in
  meta_set c k (dec (zlen v)) flags (v ++ crlf ++ rest) = Some (fst run, meta_store_reply (snd run), rest).
Proof.
  intros c k v f e u flags rest K V F T C run. unfold meta_set. pose proof (zlen_nonneg _ v).
  rewrite parse_uint_dec by lia. rewrite F, T, C, K, data_block_app. cbv zeta. fold run.
  destruct (cf_limit (c_cfg c) <? zlen v) eqn:L.
  - assert (S : snd run = TooLarge).
    { unfold run, cache_cas, cache_set, too_large. rewrite L. destruct (has_flag "C" flags); reflexivity. }
    rewrite S. reflexivity.
  - rewrite beq_refl. reflexivity.
Qed.

(** The flag tokens the client prints after [ms key length]. *)
Definition ms_flags (i : item) : list bytes :=
  [B "T" ++ dec (it_exp i)]
  ++ (if 0 <? it_cas i then [B "C" ++ dec (it_cas i)] else [])
  ++ (match it_flags i with None => [] | Some f => [B "F" ++ dec (unbe (firstn 4 f))] end).

Lemma tagged_word : forall t n, 33 <= code t -> word ([t] ++ dec n).
Proof. intros. apply word_app; [repeat constructor; assumption|apply dec_word]. Qed.
Lemma tokens_tagged_cons : forall t n r, 33 <= code t -> tokens ([t] ++ dec n ++ B " " ++ r) = ([t] ++ dec n) :: tokens r.
Proof. intros. rewrite app_assoc. apply tokens_cons'; [discriminate|apply tagged_word; assumption]. Qed.
Lemma tokens_tagged : forall t n, 33 <= code t -> tokens ([t] ++ dec n) = [[t] ++ dec n].
Proof. intros. apply tokens_word; [discriminate|apply tagged_word; assumption]. Qed.

Lemma meta_set_step : forall c i rq rest, legal_item PMeta i -> meta_set_req i = Ok rq ->
  ascii_step c (rq ++ rest) = Some (fst (run_store c i), meta_store_reply (snd (run_store c i)), rest).
Proof.
  intros c i rq rest (K & F & E & C & V) R.
  destruct (meta_key _ K) as (K1 & K2 & K3).
  assert (R' : exists l, line l /\ tokens l = B "ms" :: it_key i :: dec (zlen (it_value i)) :: ms_flags i
               /\ rq = l ++ crlf ++ it_value i ++ crlf).
  { unfold meta_set_req in R. unfold ms_flags.
    set (h := B "ms" ++ B " " ++ it_key i ++ B " " ++ dec (zlen (it_value i)) ++ B " " ++ B "T" ++ dec (it_exp i)) in *.
    assert (HL : line h) by (unfold h; solve_line).
    destruct (0 <? it_cas i).
    - destruct (it_flags i) as [f|].
      + destruct (zlen f <? 4); [discriminate|]. apply (f_equal (fun x => match x with Ok a => a | _ => [] end)) in R; cbv beta iota zeta in R; subst rq.
        exists (h ++ B " " ++ B "C" ++ dec (it_cas i) ++ B " " ++ B "F" ++ dec (unbe (firstn 4 f))). split; [|split].
        * apply line_app; [assumption|]. solve_line.
        * unfold h. repeat rewrite <- app_assoc.
          rewrite !tokens_cons' by (assumption || apply dec_nonempty || apply dec_word || discriminate || (apply wordb_word; reflexivity)).
          change (B "T") with ["T"%char]. change (B "C") with ["C"%char]. change (B "F") with ["F"%char].
          rewrite !tokens_tagged_cons by (vm_compute; discriminate). rewrite tokens_tagged by (vm_compute; discriminate).
          reflexivity.
        * unfold h. repeat rewrite <- app_assoc. reflexivity.
      + apply (f_equal (fun x => match x with Ok a => a | _ => [] end)) in R; cbv beta iota zeta in R; subst rq.
        exists (h ++ B " " ++ B "C" ++ dec (it_cas i)). split; [|split].
        * apply line_app; [assumption|]. solve_line.
        * unfold h. repeat rewrite <- app_assoc.
          rewrite !tokens_cons' by (assumption || apply dec_nonempty || apply dec_word || discriminate || (apply wordb_word; reflexivity)).
          change (B "T") with ["T"%char]. change (B "C") with ["C"%char].
          rewrite !tokens_tagged_cons by (vm_compute; discriminate). rewrite tokens_tagged by (vm_compute; discriminate).
          reflexivity.
        * unfold h. repeat rewrite <- app_assoc. reflexivity.
    - destruct (it_flags i) as [f|].
      + destruct (zlen f <? 4); [discriminate|]. apply (f_equal (fun x => match x with Ok a => a | _ => [] end)) in R; cbv beta iota zeta in R; subst rq.
        exists (h ++ B " " ++ B "F" ++ dec (unbe (firstn 4 f))). split; [|split].
        * apply line_app; [assumption|]. solve_line.
        * unfold h. repeat rewrite <- app_assoc.
          rewrite !tokens_cons' by (assumption || apply dec_nonempty || apply dec_word || discriminate || (apply wordb_word; reflexivity)).
          change (B "T") with ["T"%char]. change (B "F") with ["F"%char].
          rewrite !tokens_tagged_cons by (vm_compute; discriminate). rewrite tokens_tagged by (vm_compute; discriminate).
          reflexivity.
        * unfold h. repeat rewrite <- app_assoc. reflexivity.
      + apply (f_equal (fun x => match x with Ok a => a | _ => [] end)) in R; cbv beta iota zeta in R; subst rq.
        exists h. split; [|split].
        * assumption.
        * unfold h. repeat rewrite <- app_assoc.
          rewrite !tokens_cons' by (assumption || apply dec_nonempty || apply dec_word || discriminate || (apply wordb_word; reflexivity)).
          change (B "T") with ["T"%char]. rewrite tokens_tagged by (vm_compute; discriminate).
          reflexivity.
        * unfold h. repeat rewrite <- app_assoc. reflexivity. }
  destruct R' as (l & Ll & Lt & ->). repeat rewrite <- app_assoc.
  erewrite ascii_step_line by eassumption.
  change (ascii_cmd c (B "ms") (it_key i :: dec (zlen (it_value i)) :: ms_flags i) (it_value i ++ crlf ++ rest))
    with (meta_set c (it_key i) (dec (zlen (it_value i))) (ms_flags i) (it_value i ++ crlf ++ rest)).
  pose proof (item_flags_range _ _ F) as FR. simpl in E. cbn [flags_bound] in FR.
  erewrite (meta_store_ok c (it_key i) (it_value i) (item_flags i) (it_exp i) (it_cas i)); auto.
  - unfold run_store, ms_flags. destruct (0 <? it_cas i) eqn:Q.
    + apply Z.ltb_lt in Q. destruct (it_cas i =? 0) eqn:Q'; [apply Z.eqb_eq in Q'; lia|]. reflexivity.
    + apply Z.ltb_ge in Q. assert (it_cas i = 0) by lia. rewrite H. destruct (it_flags i); reflexivity.
  - unfold ms_flags, item_flags in *. unfold legal_flags in F.
    assert (G : num_flag (parse_uint 32) "F" 0 (match it_flags i with None => [] | Some f => [B "F" ++ dec (unbe (firstn 4 f))] end)
                = Some (match it_flags i with Some f => unbe f | None => 0 end)).
    { destruct (it_flags i) as [f|]; [|reflexivity]. destruct F as [L4 _].
      change (parse_uint 32 (dec (unbe (firstn 4 f))) = Some (unbe f)). rewrite firstn_all2 by lia. apply parse_uint_dec. lia. }
    destruct (0 <? it_cas i); exact G.
  - change (parse_int 32 (dec (it_exp i)) = Some (it_exp i)). apply parse_int_dec; simpl; lia.
  - unfold ms_flags, num_flag. destruct (0 <? it_cas i) eqn:Q.
    + change (parse_uint 64 (dec (it_cas i)) = Some (it_cas i)). apply parse_uint_dec. lia.
    + apply Z.ltb_ge in Q. replace (it_cas i) with 0 by lia. destruct (it_flags i); reflexivity.
Qed.

Lemma mg_step : forall c k fl rest, legal_key PMeta k ->
  (fl = [B "v"; B "f"; B "c"; B "t"] \/ fl = [B "v"; B "f"; B "k"; B "c"; B "t"]) ->
  ascii_step c ((B "mg " ++ k ++ B " " ++ join_sp fl ++ crlf) ++ rest) = Some (c, meta_get_reply c k fl, rest).
Proof.
  intros c k fl rest K H. destruct (meta_key _ K) as (K1 & K2 & K3).
  replace (B "mg " ++ k ++ B " " ++ join_sp fl ++ crlf) with ((B "mg" ++ B " " ++ k ++ B " " ++ join_sp fl) ++ crlf)
    by (repeat rewrite <- app_assoc; reflexivity).
  eapply line_step with (args := k :: fl).
  - destruct H as [-> | ->]; solve_line.
  - rewrite !tokens_cons' by (assumption || discriminate || (apply wordb_word; reflexivity)).
    destruct H as [-> | ->]; reflexivity.
  - change (ascii_cmd c (B "mg") (k :: fl) rest)
      with (if key_ok k then done c (meta_get_reply c k fl) rest else done c bad_format rest).
    rewrite K3. reflexivity.
Qed.

(** Every legal call other than GetMulti is exactly one command. *)
Lemma meta_step_ok : forall c o rq rest, legal PMeta o -> (forall ks, o <> OGetMulti ks) -> meta_req o = Ok rq ->
  ascii_step c (rq ++ rest) = Some (fst (meta_intent c o), snd (meta_intent c o), rest).
Proof.
  intros c o rq rest L NM R. destruct o; cbn [legal] in L; cbn [meta_req] in R;
    try match type of R with Ok _ = Ok _ => apply (f_equal (fun x => match x with Ok a => a | _ => [] end)) in R; cbv beta iota in R; subst rq end.
  - change (B " v f c t" ++ crlf) with (B " " ++ join_sp [B "v"; B "f"; B "c"; B "t"] ++ crlf).
    apply mg_step; [assumption|left; reflexivity].
  - exfalso. eapply NM. reflexivity.
  - apply meta_set_step; assumption.
  - destruct L as [L _].
    erewrite (text_store_step PMeta); [|discriminate|discriminate|apply wordb_word; reflexivity|assumption|reflexivity|].
    + reflexivity.
    + intro H. unfold cache_add, too_large. rewrite H. reflexivity.
  - destruct L as [L _].
    erewrite (text_store_step PMeta); [|discriminate|discriminate|apply wordb_word; reflexivity|assumption|reflexivity|].
    + reflexivity.
    + intro H. unfold cache_replace, too_large. rewrite H. reflexivity.
  - destruct (meta_key _ L) as (K1 & K2 & K3).
    replace ((B "md " ++ k ++ crlf)) with ((B "md" ++ B " " ++ k) ++ crlf)
      by (repeat rewrite <- app_assoc; reflexivity).
    eapply line_step; [solve_line|tok|].
    change (ascii_cmd c (B "md") [k] rest) with (meta_delete c k [] rest). unfold meta_delete. rewrite K3. reflexivity.
  - destruct L as (K & D & _). destruct (meta_key _ K) as (K1 & K2 & K3).
    replace ((B "incr " ++ k ++ B " " ++ dec delta ++ crlf)) with ((B "incr" ++ B " " ++ k ++ B " " ++ dec delta) ++ crlf)
      by (repeat rewrite <- app_assoc; reflexivity).
    eapply line_step; [solve_line|tok|].
    unfold ascii_cmd. cbn -[key_ok cache_delta parse_uint dec]. rewrite K3, parse_uint_dec by lia. reflexivity.
  - destruct L as (K & D & _). destruct (meta_key _ K) as (K1 & K2 & K3).
    replace ((B "decr " ++ k ++ B " " ++ dec delta ++ crlf)) with ((B "decr" ++ B " " ++ k ++ B " " ++ dec delta) ++ crlf)
      by (repeat rewrite <- app_assoc; reflexivity).
    eapply line_step; [solve_line|tok|].
    unfold ascii_cmd. cbn -[key_ok cache_delta parse_uint dec]. rewrite K3, parse_uint_dec by lia. reflexivity.
  - destruct L as (K & E). destruct (meta_key _ K) as (K1 & K2 & K3).
    replace ((B "md " ++ k ++ B " I T" ++ dec expiration ++ crlf))
      with ((B "md" ++ B " " ++ k ++ B " " ++ B "I" ++ B " " ++ ["T"%char] ++ dec expiration) ++ crlf)
      by (repeat rewrite <- app_assoc; reflexivity).
    eapply line_step; [solve_line| |].
    + rewrite !tokens_cons' by (assumption || discriminate || (apply wordb_word; reflexivity)).
      rewrite tokens_tagged by (vm_compute; discriminate). reflexivity.
    + match goal with |- ascii_cmd c (B "md") ?a rest = _ => change (ascii_cmd c (B "md") a rest)
        with (meta_delete c k [B "I"; ["T"%char] ++ dec expiration] rest) end.
      unfold meta_delete. rewrite K3. cbn -[parse_int dec cache_invalidate]. simpl in E.
      rewrite parse_int_dec by (simpl; lia). reflexivity.
  - reflexivity.
  - reflexivity.
Qed.

Lemma meta_mg_daemon : forall c ks rest, Forall (legal_key PMeta) ks ->
  daemon WireAscii c (flat_map (fun k => B "mg " ++ k ++ B " v f k c t" ++ crlf) ks ++ rest)
  = let '(c', rep, p) := daemon WireAscii c rest in
    (c', flat_map (fun k => meta_get_reply c k (meta_get_flags true)) ks ++ rep, p).
Proof.
  intros c ks rest F. induction F as [|k ks K F IH].
  - cbn [flat_map app]. destruct (daemon WireAscii c rest) as [[? ?] ?]. reflexivity.
  - cbn [flat_map]. rewrite <- app_assoc.
    erewrite daemon_cons.
    2:{ exact (mg_step c k [B "v"; B "f"; B "k"; B "c"; B "t"] _ K (or_intror eq_refl)). }
    rewrite IH. destruct (daemon WireAscii c rest) as [[? ?] ?]. rewrite <- app_assoc. reflexivity.
Qed.

(** The whole request of any legal call, GetMulti included. *)
Lemma meta_daemon : forall c o rq, legal PMeta o -> meta_req o = Ok rq ->
  daemon WireAscii c rq = (fst (meta_intent c o), snd (meta_intent c o), []).
Proof.
  intros c o rq L R.
  assert (G : (exists ks, o = OGetMulti ks) \/ (forall ks, o <> OGetMulti ks)).
  { destruct o; try (right; discriminate). left. eexists. reflexivity. }
  destruct G as [[ks ->]|NM].
  - cbn [meta_req] in R. apply (f_equal (fun x => match x with Ok a => a | _ => [] end)) in R; cbv beta iota in R; subst rq.
    cbn [legal] in L. destruct L as [_ F]. rewrite meta_mg_daemon by assumption. reflexivity.
  - apply daemon_one. cbn [daemon_step]. rewrite <- (app_nil_r rq). apply meta_step_ok; assumption.
Qed.

(** ** Replies *)
Lemma word_char : forall ch, 33 <= code ch -> Ascii.eqb ch SP = false /\ Ascii.eqb ch CR = false.
Proof. intros. split; apply eqb_neq_code; [rewrite code_SP|rewrite code_CR]; lia. Qed.

Lemma scan_size : forall w acc sz i r n, word w -> parse_int 32 (acc ++ w) = Some n ->
  meta_scan (MSize acc) sz i (w ++ SP :: r) = meta_scan MFlag n i r.
Proof.
  induction w as [|ch w IH]; intros acc sz i r n W P.
  - rewrite app_nil_r in P. cbn [app meta_scan]. unfold meta_step. rewrite Ascii.eqb_refl, P. reflexivity.
  - inversion W; subst. destruct (word_char ch H1) as [S C]. cbn [app meta_scan]. unfold meta_step. rewrite S, C.
    apply IH; [assumption|]. rewrite <- app_assoc. exact P.
Qed.
Lemma scan_token_sp : forall w fl acc sz i r i', word w -> meta_token fl (acc ++ w) i = Some i' ->
  meta_scan (MToken fl acc) sz i (w ++ SP :: r) = meta_scan MFlag sz i' r.
Proof.
  induction w as [|ch w IH]; intros fl acc sz i r i' W P.
  - rewrite app_nil_r in P. cbn [app meta_scan]. unfold meta_step. rewrite Ascii.eqb_refl, P. reflexivity.
  - inversion W; subst. destruct (word_char ch H1) as [S C]. cbn [app meta_scan]. unfold meta_step. rewrite S, C.
    apply IH; [assumption|]. rewrite <- app_assoc. exact P.
Qed.
Lemma scan_token_end : forall w fl acc sz i i', word w -> meta_token fl (acc ++ w) i = Some i' ->
  meta_scan (MToken fl acc) sz i (w ++ crlf) = Some (sz, i').
Proof.
  induction w as [|ch w IH]; intros fl acc sz i i' W P.
  - rewrite app_nil_r in P. unfold crlf. cbn [app meta_scan]. unfold meta_step at 1.
    change (Ascii.eqb CR SP) with false. change (Ascii.eqb CR CR) with true. cbv iota. rewrite P. reflexivity.
  - inversion W; subst. destruct (word_char ch H1) as [S C]. cbn [app meta_scan]. unfold meta_step. rewrite S, C.
    apply IH; [assumption|]. rewrite <- app_assoc. exact P.
Qed.
(** The last token, possibly followed by the stale markers. *)
Lemma scan_tail : forall (st : bool) w fl sz i i', word w -> meta_token fl w i = Some i' ->
  meta_scan (MToken fl []) sz i (w ++ (if st then B " W X" else []) ++ crlf) = Some (sz, i').
Proof.
  intros [] w fl sz i i' W P.
  - change (B " W X" ++ crlf) with (SP :: B "W X" ++ crlf). rewrite (scan_token_sp w fl [] sz i _ i' W P). reflexivity.
  - apply (scan_token_end w fl [] sz i i' W P).
Qed.

Definition meta_head (c : cache) (k : bytes) (multi : bool) (e : entry) : bytes :=
  B "VA " ++ dec (zlen (e_value e)) ++ B " f" ++ dec (e_flags e) ++ (if multi then B " k" ++ k else [])
  ++ B " c" ++ dec (e_cas e) ++ B " t" ++ dec (ttl c e) ++ (if e_stale e then B " W X" else []).

Lemma meta_get_reply_hit : forall c k multi e rest, lookup c k = Some e ->
  meta_get_reply c k (meta_get_flags multi) ++ rest = meta_head c k multi e ++ eol ++ (e_value e ++ crlf) ++ rest.
Proof.
  intros c k multi e rest H. unfold meta_get_reply, meta_head. rewrite H.
  assert (X : existsb (beq (B "v")) (meta_get_flags multi) = true) by (destruct multi; reflexivity).
  rewrite X. destruct multi; cbn [meta_get_flags flat_map];
    change (meta_return c k e (B "v")) with (@nil ascii);
    change (meta_return c k e (B "f")) with (B " f" ++ dec (e_flags e));
    change (meta_return c k e (B "k")) with (B " k" ++ k);
    change (meta_return c k e (B "c")) with (B " c" ++ dec (e_cas e));
    change (meta_return c k e (B "t")) with (B " t" ++ dec (ttl c e));
    repeat rewrite <- app_assoc; reflexivity.
Qed.

Lemma meta_scan_head : forall c k multi e, word k ->
  zlen (e_value e) < 2 ^ 31 -> 0 <= e_flags e < 2 ^ 31 -> 0 <= e_cas e < 2 ^ 63 -> - 2 ^ 31 <= ttl c e < 2 ^ 31 ->
  meta_scan (MSize []) 0 zero_item (skipn 3 (meta_head c k multi e ++ crlf))
  = Some (zlen (e_value e), mkItem (if multi then k else []) [] (Some (be 4 (e_flags e))) (ttl c e) (e_cas e) []).
Proof.
  intros c k multi e W V F C T. unfold meta_head. repeat rewrite <- app_assoc.
  pose proof (zlen_nonneg _ (e_value e)).
  assert (Tf : forall i, meta_token "f" (dec (e_flags e)) i
     = Some (mkItem (it_key i) (it_value i) (Some (be 4 (e_flags e))) (it_exp i) (it_cas i) (it_server i))).
  { intro i. unfold meta_token. cbn [Ascii.eqb Bool.eqb]. cbv iota. rewrite parse_int_dec by (simpl; lia).
    rewrite u32_small by lia. reflexivity. }
  assert (Tc : forall i, meta_token "c" (dec (e_cas e)) i
     = Some (mkItem (it_key i) (it_value i) (it_flags i) (it_exp i) (e_cas e) (it_server i))).
  { intro i. unfold meta_token. change (Ascii.eqb "c" "f") with false. change (Ascii.eqb "c" "c") with true. cbv iota.
    rewrite parse_int_dec by (simpl; lia). rewrite u64_small by lia. reflexivity. }
  assert (Tt : forall i, meta_token "t" (dec (ttl c e)) i
     = Some (mkItem (it_key i) (it_value i) (it_flags i) (ttl c e) (it_cas i) (it_server i))).
  { intro i. unfold meta_token. change (Ascii.eqb "t" "f") with false. change (Ascii.eqb "t" "c") with false.
    change (Ascii.eqb "t" "t") with true. cbv iota. rewrite parse_int_dec by (simpl; lia). reflexivity. }
  match goal with |- meta_scan _ _ _ (skipn 3 (B "VA " ++ ?x)) = _ => change (skipn 3 (B "VA " ++ x)) with x end.
  match goal with |- meta_scan _ _ _ (dec ?n ++ B " f" ++ ?x) = _ => change (B " f" ++ x) with (SP :: B "f" ++ x) end.
  erewrite scan_size; [|apply dec_word|cbn [app]; apply parse_int_dec; simpl; lia].
  match goal with |- meta_scan MFlag ?n ?i (B "f" ++ ?x) = _ =>
    change (meta_scan MFlag n i (B "f" ++ x)) with (meta_scan (MToken "f" []) n i x) end.
  destruct multi.
  - match goal with |- context [(B " k" ++ k) ++ ?x] => replace ((B " k" ++ k) ++ x) with (SP :: "k"%char :: k ++ x)
      by (repeat rewrite <- app_assoc; reflexivity) end.
    erewrite scan_token_sp; [|apply dec_word|apply Tf].
    match goal with |- meta_scan MFlag ?n ?i ("k"%char :: ?x) = _ =>
      change (meta_scan MFlag n i ("k"%char :: x)) with (meta_scan (MToken "k" []) n i x) end.
    match goal with |- context [k ++ B " c" ++ ?x] => change (k ++ B " c" ++ x) with (k ++ SP :: "c"%char :: x) end.
    erewrite scan_token_sp; [|assumption|reflexivity].
    match goal with |- meta_scan MFlag ?n ?i ("c"%char :: ?x) = _ =>
      change (meta_scan MFlag n i ("c"%char :: x)) with (meta_scan (MToken "c" []) n i x) end.
    match goal with |- context [dec ?m ++ B " t" ++ ?x] => change (dec m ++ B " t" ++ x) with (dec m ++ SP :: "t"%char :: x) end.
    erewrite scan_token_sp; [|apply dec_word|apply Tc].
    match goal with |- meta_scan MFlag ?n ?i ("t"%char :: ?x) = _ =>
      change (meta_scan MFlag n i ("t"%char :: x)) with (meta_scan (MToken "t" []) n i x) end.
    erewrite scan_tail; [|apply dec_word|apply Tt]. reflexivity.
  - cbn [app].
    match goal with |- context [dec ?m ++ B " c" ++ ?x] => change (dec m ++ B " c" ++ x) with (dec m ++ SP :: "c"%char :: x) end.
    erewrite scan_token_sp; [|apply dec_word|apply Tf].
    match goal with |- meta_scan MFlag ?n ?i ("c"%char :: ?x) = _ =>
      change (meta_scan MFlag n i ("c"%char :: x)) with (meta_scan (MToken "c" []) n i x) end.
    match goal with |- context [dec ?m ++ B " t" ++ ?x] => change (dec m ++ B " t" ++ x) with (dec m ++ SP :: "t"%char :: x) end.
    erewrite scan_token_sp; [|apply dec_word|apply Tc].
    match goal with |- meta_scan MFlag ?n ?i ("t"%char :: ?x) = _ =>
      change (meta_scan MFlag n i ("t"%char :: x)) with (meta_scan (MToken "t" []) n i x) end.
    erewrite scan_tail; [|apply dec_word|apply Tt]. reflexivity.
Qed.

Lemma meta_head_line : forall c k multi e, word k -> line (meta_head c k multi e).
Proof.
  intros c k multi e W. unfold meta_head. repeat apply line_app; try solve [solve_line].
  - destruct multi; [solve_line|constructor].
  - destruct (e_stale e); apply lineb_line; reflexivity.
Qed.
Lemma meta_head_len : forall c k multi e, zlen k <= 250 ->
  zlen (e_value e) < 2 ^ 31 -> 0 <= e_flags e < 2 ^ 31 -> 0 <= e_cas e < 2 ^ 63 -> - 2 ^ 31 <= ttl c e < 2 ^ 31 ->
  zlen (meta_head c k multi e) <= 4094.
Proof.
  intros c k multi e K V F C T. unfold meta_head. rewrite !zlen_app.
  pose proof (zlen_nonneg _ (e_value e)).
  pose proof (dec_len (zlen (e_value e)) ltac:(lia)). pose proof (dec_len (e_flags e) ltac:(lia)).
  pose proof (dec_len (e_cas e) ltac:(lia)). pose proof (dec_len (ttl c e) ltac:(lia)).
  change (zlen (B "VA ")) with 3. change (zlen (B " f")) with 2. change (zlen (B " c")) with 2. change (zlen (B " t")) with 2.
  assert (zlen (if multi then B " k" ++ k else []) <= 252).
  { destruct multi; [rewrite zlen_app; change (zlen (B " k")) with 2; lia|vm_compute; discriminate]. }
  assert (zlen (if e_stale e then B " W X" else []) <= 4) by (destruct (e_stale e); vm_compute; discriminate).
  lia.
Qed.

(** The numbers of a live entry of a well-formed cache. *)
Lemma wf_meta_entry : forall c k e, wf PMeta c -> c_cas c < 2 ^ 63 -> lookup c k = Some e ->
  zlen (e_value e) < 2 ^ 31 /\ 0 <= e_flags e < 2 ^ 31 /\ 0 <= e_cas e < 2 ^ 63 /\ - 2 ^ 31 <= ttl c e < 2 ^ 31.
Proof.
  intros c k e W C L. destruct (wf_lookup _ _ _ _ W L) as (A1 & A2 & A3 & A4). specialize (A4 eq_refl).
  destruct W as ((W1 & _) & _). cbn [flags_bound] in A2. apply lookup_map in L. destruct L as [_ A].
  unfold ttl. unfold alive in A. destruct (e_expire e); [apply Z.ltb_lt in A|]; lia.
Qed.

Lemma meta_get_block_hit : forall c k multi e rest, wf PMeta c -> c_cas c < 2 ^ 63 -> legal_key PMeta k ->
  lookup c k = Some e ->
  meta_get_block (meta_get_reply c k (meta_get_flags multi) ++ rest)
  = (Ok (mkItem (if multi then k else []) (e_value e) (Some (be 4 (e_flags e))) (ttl c e) (e_cas e) []), rest).
Proof.
  intros c k multi e rest W C K L. destruct (meta_key _ K) as (K1 & K2 & K3).
  destruct (wf_meta_entry c k e W C L) as (V & F & U & T). pose proof (zlen_nonneg _ (e_value e)).
  rewrite meta_get_reply_hit with (e := e) by assumption. unfold meta_get_block.
  erewrite bind_ok by (apply read_line; [apply meta_head_line; assumption|apply meta_head_len; try assumption; destruct K; lia]).
  cbn beta.
  change (beq (meta_head c k multi e ++ crlf) meta_end) with false.
  change (beq (meta_head c k multi e ++ crlf) meta_noop) with false.
  change (has_prefix (B "VA") (meta_head c k multi e ++ crlf)) with true. cbn [negb]. cbv iota.
  rewrite meta_scan_head by assumption. cbn [lift_opt]. erewrite bind_ok by reflexivity. cbn beta iota.
  erewrite bind_ok by (apply make_value; lia). cbn beta.
  erewrite bind_ok by (apply go_sub_prefix; reflexivity). reflexivity.
Qed.
Lemma meta_get_block_miss : forall c k fl rest, lookup c k = None ->
  meta_get_block (meta_get_reply c k fl ++ rest) = (Err ENotFound, rest).
Proof.
  intros c k fl rest L. unfold meta_get_reply. rewrite L. rewrite <- app_assoc. unfold meta_get_block.
  unfold bind. rewrite concrete_line by reflexivity. reflexivity.
Qed.
Lemma meta_get_block_noop : forall rest, meta_get_block (B "MN" ++ eol ++ rest) = (Err ENotFound, rest).
Proof. intros. unfold meta_get_block, bind. rewrite concrete_line by reflexivity. reflexivity. Qed.

(** GetMulti: everything up to the first miss is returned; the rest of the reply stays unread. *)
Fixpoint live_prefix (c : cache) (ks : list bytes) : list (bytes * entry) * list bytes :=
  match ks with
  | [] => ([], [])
  | k :: ks' => match lookup c k with
                | Some e => let r := live_prefix c ks' in ((k, e) :: fst r, snd r)
                | None => ([], ks)
                end
  end.
Definition meta_rest (c : cache) (missed : list bytes) (rest : bytes) : bytes :=
  match missed with
  | [] => rest
  | _ :: ks' => flat_map (fun k => meta_get_reply c k (meta_get_flags true)) ks' ++ B "MN" ++ eol ++ rest
  end.

Lemma meta_values_ok : forall c ks fuel acc rest, wf PMeta c -> c_cas c < 2 ^ 63 -> Forall (legal_key PMeta) ks ->
  (length ks < fuel)%nat ->
  meta_values fuel acc (flat_map (fun k => meta_get_reply c k (meta_get_flags true)) ks ++ B "MN" ++ eol ++ rest)
  = Some (Ok (rev acc ++ map (fun ke => item_view PMeta [] true c (fst ke) (snd ke)) (fst (live_prefix c ks))),
          meta_rest c (snd (live_prefix c ks)) rest).
Proof.
  intros c ks. induction ks as [|k ks IH]; intros fuel acc rest W C F L; (destruct fuel as [|fuel]; [simpl in L; lia|]).
  - cbn [flat_map app meta_values]. 
    change (flat_map (fun k => meta_get_reply c k (meta_get_flags true)) [] ++ B "MN" ++ eol ++ rest) with (B "MN" ++ eol ++ rest).
    rewrite meta_get_block_noop. cbn [live_prefix fst snd map meta_rest]. rewrite app_nil_r. reflexivity.
  - inversion F; subst. cbn [flat_map]. rewrite <- app_assoc. cbn [meta_values live_prefix].
    destruct (lookup c k) as [e|] eqn:E.
    + rewrite meta_get_block_hit with (e := e) by assumption.
      rewrite IH by (assumption || simpl in L; lia). cbn [fst snd map rev].
      rewrite <- app_assoc. reflexivity.
    + rewrite meta_get_block_miss by assumption. cbn [fst snd map meta_rest]. rewrite app_nil_r. reflexivity.
Qed.

Lemma meta_getmulti_any : forall c ks rest, wf PMeta c -> c_cas c < 2 ^ 63 -> Forall (legal_key PMeta) ks ->
  meta_getmulti_resp (snd (meta_intent c (OGetMulti ks)) ++ rest)
  = (Ok (map (fun ke => item_view PMeta [] true c (fst ke) (snd ke)) (fst (live_prefix c ks))),
     meta_rest c (snd (live_prefix c ks)) rest).
Proof.
  intros c ks rest W C F. unfold meta_getmulti_resp. cbn [meta_intent snd]. repeat rewrite <- app_assoc.
  rewrite meta_values_ok; auto. rewrite !app_length.
  assert (length ks <= length (flat_map (fun k => meta_get_reply c k (meta_get_flags true)) ks))%nat.
  { clear. induction ks as [|k ks IH]; [simpl; lia|]. cbn [flat_map length]. rewrite app_length.
    assert (0 < length (meta_get_reply c k (meta_get_flags true)))%nat.
    { unfold meta_get_reply. destruct (lookup c k); [|simpl; lia].
      match goal with |- context [if ?b then _ else _] => destruct b end; simpl; lia. }
    lia. }
  lia.
Qed.

Lemma live_prefix_all : forall c ks, Forall (fun k => lookup c k <> None) ks ->
  map (fun ke => item_view PMeta [] true c (fst ke) (snd ke)) (fst (live_prefix c ks))
  = flat_map (fun k => match lookup c k with Some e => [item_view PMeta [] true c k e] | None => [] end) ks
  /\ snd (live_prefix c ks) = [].
Proof.
  intros c ks. induction 1 as [|k ks Hk Hks [IH1 IH2]]; [split; reflexivity|].
  cbn [live_prefix flat_map]. destruct (lookup c k) as [e|]; [|congruence].
  cbn [fst snd map]. rewrite IH1. split; [reflexivity|exact IH2].
Qed.

Lemma add_resp_ok : forall r rest, r <> CasMismatch ->
  exists out, runit text_add_resp (text_store_reply r ++ rest) = (out, rest)
              /\ agrees (store_outcome (SErr EExists) r) out.
Proof. intros r rest H. destruct r; try congruence; const_line; try reflexivity; apply completed_ex. Qed.
Lemma replace_resp_ok : forall r rest, r <> CasMismatch ->
  exists out, runit text_replace_resp (text_store_reply r ++ rest) = (out, rest)
              /\ agrees (store_outcome (SErr ENotFound) r) out.
Proof. intros r rest H. destruct r; try congruence; const_line; try reflexivity; apply completed_nf. Qed.
Lemma run_add_nomis : forall c i, snd (run_add c i) <> CasMismatch.
Proof. intros. unfold run_add, cache_add. destruct (too_large c (it_value i)); [discriminate|]. destruct (lookup c (it_key i)); discriminate. Qed.
Lemma run_replace_nomis : forall c i, snd (run_replace c i) <> CasMismatch.
Proof. intros. unfold run_replace, cache_replace. destruct (too_large c (it_value i)); [discriminate|]. destruct (lookup c (it_key i)); discriminate. Qed.
Lemma version_resp_ok : forall cf rest, wf_config cf ->
  rmap RStr text_version_resp ((B "VERSION " ++ cf_version cf ++ eol) ++ rest) = (Ok (RStr (cf_version cf)), rest).
Proof.
  intros cf rest (W1 & W2 & W3). apply rmap_ok; unfold text_version_resp, bind.
  rewrite <- app_assoc. rewrite <- app_assoc, app_assoc. rewrite read_line.
  - rewrite zlen_app. change (zlen crlf) with 2. pose proof (zlen_nonneg _ (B "VERSION " ++ cf_version cf)).
    destruct (0 <? _) eqn:E; [|apply Z.ltb_ge in E; lia].
    rewrite <- app_assoc, trim_prefix_app, trim_suffix_app. reflexivity.
  - apply line_app; [apply lineb_line; reflexivity|]. revert W3. apply Forall_impl. intros; lia.
  - rewrite zlen_app. change (zlen (B "VERSION ")) with 8. lia.
Qed.
Lemma delta_range : forall up c k d, 0 <= d ->
  match snd (cache_delta up c k d) with DeltaOk n => 0 <= n < 2 ^ 64 | DeltaMismatch => False | _ => True end.
Proof.
  intros up c k d D. unfold cache_delta. destruct (lookup c k); cbn [snd]; auto.
  destruct (counter_value (e_value e)) eqn:Q; cbn [snd]; auto.
  apply delta_apply_range; [eapply counter_value_range; eassumption|lia].
Qed.
Lemma spec_delta_snd : forall pr up c k d e, pr <> PBinary ->
  spec_delta pr up c k d e = (fst (cache_delta up c k d), delta_outcome pr (snd (cache_delta up c k d))).
Proof. intros pr up c k d e N. unfold spec_delta. destruct pr; try congruence; destruct (lookup c k); reflexivity. Qed.

Ltac meta_line := cbn [meta_store_reply hd_nf]; unfold big_object; repeat rewrite <- app_assoc;
  eexists; split; [ unfold runit, rmap, meta_set_resp, meta_delete_resp, text_flush_resp;
                    unfold bind at 1 2; rewrite concrete_line by reflexivity; cbn -[completed]; reflexivity | ].

Lemma meta_resp_ok : forall c o rest, wf PMeta c -> c_cas c < 2 ^ 63 -> legal PMeta o -> meta_safe c o ->
  exists out, meta_resp o (snd (meta_intent c o) ++ rest) = (out, rest)
              /\ agrees (snd (spec_step PMeta [] c o)) out.
Proof.
  intros c o rest W C L S. destruct o; cbn [meta_resp meta_intent text_intent snd spec_step]; cbn [legal] in L; cbn [meta_safe] in S.
  - destruct (lookup c k) as [e|] eqn:E.
    + eexists. split.
      * apply rmap_ok. unfold meta_get_resp. erewrite bind_ok by (apply meta_get_block_hit with (multi := false) (e := e); assumption).
        reflexivity.
      * reflexivity.
    + eexists. split.
      * apply rmap_err. unfold meta_get_resp, bind. rewrite meta_get_block_miss by assumption. reflexivity.
      * reflexivity.
  - destruct L as [N F]. eexists. split.
    + apply rmap_ok. pose proof (meta_getmulti_any c ks rest W C F) as G. cbn [meta_intent snd] in G. rewrite G.
      destruct (live_prefix_all c ks S) as [G1 G2]. rewrite G1, G2. reflexivity.
    + reflexivity.
  - fold (run_store c i). destruct (snd (run_store c i)); meta_line; try reflexivity; try apply completed_msg; apply completed_nf.
  - fold (run_add c i). apply add_resp_ok. apply run_add_nomis.
  - fold (run_replace c i). apply replace_resp_ok. apply run_replace_nomis.
  - unfold cache_delete. destruct (lookup c k); [|congruence]. cbn [fst snd]. meta_line. reflexivity.
  - rewrite spec_delta_snd by discriminate. apply delta_resp_ok; [discriminate|]. apply delta_range. destruct L as (_ & D & _). lia.
  - rewrite spec_delta_snd by discriminate. apply delta_resp_ok; [discriminate|]. apply delta_range. destruct L as (_ & D & _). lia.
  - contradiction.
  - meta_line. reflexivity.
  - destruct W as (W & _). eexists. split; [apply version_resp_ok; assumption|reflexivity].
Qed.

Lemma meta_intent_spec : forall c o, meta_safe c o -> fst (meta_intent c o) = fst (spec_step PMeta [] c o).
Proof.
  intros c o S. destruct o; try reflexivity; try (destruct S; fail);
    cbn [meta_intent text_intent spec_step fst]; rewrite ?spec_delta_snd by discriminate; try reflexivity.
Qed.

Lemma meta_req_ok : forall o, legal PMeta o -> exists rq, meta_req o = Ok rq.
Proof.
  intros o L. destruct o; cbn [meta_req]; try (eexists; reflexivity).
  unfold meta_set_req. destruct L as (_ & F & _). unfold legal_flags in F. destruct (it_flags i) as [f|]; [|eexists; reflexivity].
  destruct F as [L4 _]. unfold zlen. rewrite L4. eexists. reflexivity.
Qed.

Lemma meta_call_ok : forall c h o, wf PMeta c -> c_cas c < 2 ^ 63 -> legal PMeta o -> meta_safe c o ->
  exists out, call meta_client (fresh_link c h) o = (fresh_link (fst (spec_step PMeta [] c o)) h, out)
              /\ agrees (snd (spec_step PMeta [] c o)) out.
Proof.
  intros c h o W C L S. destruct (meta_resp_ok c o [] W C L S) as (out & R & A). exists out. split; [|exact A].
  destruct (meta_req_ok o L) as [rq E].
  unfold call. cbn [meta_client cl_req cl_resp cl_wire fst snd fresh_link l_cache l_pending l_unread l_header].
  rewrite E. cbn [app]. rewrite (meta_daemon c o rq L E). rewrite app_nil_r in R. rewrite R. cbn [fst snd].
  rewrite meta_intent_spec by assumption. reflexivity.
Qed.
