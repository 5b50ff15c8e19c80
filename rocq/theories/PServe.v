(** * The connection loop: proofs. *)
From Verif Require Import GoBytes GoNum GoIO Item ClientText ClientMeta ClientBinary Cache Spec Call Guard
  ServerTypes ServerParse ServerWrite Serve ServerSpec PLib PCache PText PReader PBinary PServer.
Local Open Scope Z_scope.

Lemma local_read_bytes : local read_bytes.
Proof.
  intros s o rest E N. unfold read_bytes in E. destruct (find_line s) as [[l r]|] eqn:F; [|inversion E; subst; congruence].
  inversion E; subst. apply find_line_some in F. destruct F as (-> & Nl & Ft & Fp). exists l. split; [reflexivity|]. split.
  - intro t. unfold read_bytes. rewrite Ft. reflexivity.
  - intros p q H Q. unfold read_bytes. rewrite (Fp p q H Q). reflexivity.
Qed.
Lemma eats_read_bytes : eats read_bytes.
Proof.
  intros s o rest E N. unfold read_bytes in E. destruct (find_line s) as [[l r]|] eqn:F; [|inversion E; subst; congruence].
  inversion E; subst. apply find_line_some in F. destruct F as (-> & Nl & _). rewrite app_length. destruct l; [congruence|]. cbn. lia.
Qed.
Lemma ms_tokens_err : forall ts o e, ms_tokens o ts = Err e -> e = EParse.
Proof.
  induction ts as [|t ts IH]; intros o e H; cbn [ms_tokens] in H; [discriminate|].
  destruct (ms_token o t) as [o'|e'|] eqn:E; try discriminate; [eapply IH; exact H|]. inversion H; subst. clear - E.
  unfold ms_token in E. destruct o. destruct t as [|c v]; [discriminate|].
  repeat match type of E with
  | (if ?b then _ else _) = _ => destruct b
  | (match ?x with Some _ => _ | None => _ end) = _ => destruct x
  end; try discriminate; inversion E; reflexivity.
Qed.
Lemma local_lift_ms : forall o ts, local (lift (ms_tokens o ts)).
Proof.
  intros o ts. unfold lift. apply local_const. intro H. apply ms_tokens_err in H. discriminate.
Qed.
Lemma local_fail_inv : forall A, local (@fail A invalid_request).
Proof. intro A. apply local_fail. unfold invalid_request. discriminate. Qed.
Lemma local_command : forall fs, local (ascii_command fs).
Proof.
  intro fs. unfold ascii_command. destruct fs as [|cmd args]; [apply local_fail_inv|].
  repeat first [apply local_fail_inv | apply local_make_read | apply local_panic | apply local_read_full | apply local_lift_ms | apply local_if | apply local_bind; [|intro] | apply local_ret | apply local_make_read | apply local_lift | apply local_sub
   | match goal with |- local (let x := ?y in _) => cbv zeta | |- local (match ?x with _ => _ end) => destruct x end].
Qed.
Lemma local_ascii : local read_ascii_request.
Proof. apply local_bind; [apply local_read_bytes|intro; apply local_command]. Qed.
Lemma eats_ascii : eats read_ascii_request.
Proof. apply eats_bind; [apply eats_read_bytes|apply local_read_bytes|intro; apply local_command]. Qed.
Lemma local_be_at : forall b lo hi, local (be_at b lo hi).
Proof. intros. unfold be_at. apply local_bind; [apply local_sub|intro; apply local_ret]. Qed.
Ltac locb := repeat first [apply local_fail_inv | apply local_make_read | apply local_panic | apply local_read_full | apply local_be_at | apply local_if | apply local_bind; [|intro] | apply local_ret | apply local_make_read | apply local_lift | apply local_sub
   | match goal with |- local (let x := ?y in _) => cbv zeta | |- local (match ?x with _ => _ end) => destruct x end].
Lemma local_binary : local read_binary_request.
Proof. unfold read_binary_request. apply local_bind; [apply local_read_full|intro header]. locb. Qed.
Lemma eats_binary : eats read_binary_request.
Proof. unfold read_binary_request. apply eats_bind; [apply eats_read_full; lia|apply local_read_full|intro header]. locb. Qed.
Lemma local_parser : forall p, local (parser p).
Proof. intros []; [apply local_ascii|apply local_binary]. Qed.
Lemma eats_parser : forall p, eats (parser p).
Proof. intros []; [apply eats_ascii|apply eats_binary]. Qed.

(** Fuel does not matter once it exceeds the input. *)
Lemma serve_as_fuel : forall H (h : handler H) p f1 f2 st s, (length s < f1)%nat -> (length s < f2)%nat ->
  serve_as p h f1 st s = serve_as p h f2 st s.
Proof.
  intros H h p. induction f1 as [|f1 IH]; intros f2 st s L1 L2; [lia|]. destruct f2 as [|f2]; [lia|]. cbn [serve_as].
  destruct (parser p s) as [[q|e|] s'] eqn:E; try reflexivity.
  destruct (h st q) as [st' [res|e|]]; try reflexivity. destruct (write_response p q res); try reflexivity.
  pose proof (eats_parser p _ _ _ E ltac:(discriminate)) as Lt. rewrite (IH f2 st' s') by lia. reflexivity.
Qed.
Lemma serve_as_not_oof : forall H (h : handler H) p f st s, (length s < f)%nat -> snd (serve_as p h f st s) <> OutOfFuel.
Proof.
  intros H h p. induction f as [|f IH]; intros st s L; [lia|]. cbn [serve_as].
  destruct (parser p s) as [[q|e|] s'] eqn:E; try discriminate.
  destruct (h st q) as [st' [res|e|]]; try discriminate. destruct (write_response p q res); try discriminate.
  pose proof (eats_parser p _ _ _ E ltac:(discriminate)) as Lt. specialize (IH st' s' ltac:(lia)).
  destruct (serve_as p h f st' s') as [[st'' l] ft]. exact IH.
Qed.

Lemma serve_some : forall H (h : handler H) p f st s, serve h f (Some p) st s = serve_as p h f st s.
Proof.
  intros H h p. induction f as [|f IH]; intros st s; [reflexivity|]. cbn [serve serve_as].
  assert (R : read_request (Some p) s = (parser p s, Some p)) by (destruct p; reflexivity). rewrite R.
  destruct (parser p s) as [[q|e|] s']; try reflexivity. destruct (h st q) as [st' [res|e|]]; try reflexivity.
  destruct (write_response p q res); try reflexivity. rewrite IH. reflexivity.
Qed.
Lemma read_first : forall c s, read_request None (c :: s) = (parser (announced c) (c :: s), Some (announced c)).
Proof. intros c s. unfold announced. cbn [read_request]. change magic_request with 128. destruct (code c =? 128); reflexivity. Qed.
Lemma serve_none : forall H (h : handler H) f st c s, serve h f None st (c :: s) = serve_as (announced c) h f st (c :: s).
Proof.
  intros H h f st c s. destruct f as [|f]; [reflexivity|]. cbn [serve serve_as]. rewrite read_first.
  destruct (parser (announced c) (c :: s)) as [[q|e|] s']; try reflexivity. destruct (h st q) as [st' [res|e|]]; try reflexivity.
  destruct (write_response (announced c) q res); try reflexivity. rewrite serve_some. reflexivity.
Qed.
Lemma serve_conn_as : forall H (h : handler H) st c s, serve_conn h st (c :: s) = serve_rest (announced c) h st (c :: s).
Proof. intros. unfold serve_conn. apply serve_none. Qed.

(** Exactly-one-request pieces. *)
Lemma exactly_app : forall p b q t, exactly p b q -> parser p (b ++ t) = (Ok q, t).
Proof.
  intros p b q t E. unfold exactly in E. destruct (local_parser p _ _ _ E ltac:(discriminate)) as (u & Eb & F & _).
  rewrite app_nil_r in Eb. subst u. apply F.
Qed.
Lemma parser_exactly : forall p s q rest, parser p s = (Ok q, rest) -> exists b, s = b ++ rest /\ exactly p b q /\ b <> [].
Proof.
  intros p s q rest E. destruct (local_parser p _ _ _ E ltac:(discriminate)) as (u & -> & F & _). exists u. split; [reflexivity|].
  split; [specialize (F []); rewrite app_nil_r in F; exact F|]. intros ->. pose proof (eats_parser p _ _ _ E ltac:(discriminate)). cbn in *. lia.
Qed.

Lemma serve_pieces : forall H (h : handler H) p msgs st tail, Forall (fun m => exactly p (fst m) (snd m)) msgs ->
  serve_rest p h st (flat_map fst msgs ++ tail) = then_serve h p (serve_list h p st (map snd msgs)) tail.
Proof.
  intros H h p. induction msgs as [|[b q] msgs IH]; intros st tail F.
  - cbn [flat_map app map serve_list then_serve]. destruct (serve_rest p h st tail) as [[x y] z]. reflexivity.
  - inversion F as [|? ? Fe F']; subst. cbn [fst snd] in Fe. cbn [flat_map map fst snd]. rewrite <- app_assoc.
    unfold serve_rest at 1. cbn [serve_as]. rewrite (exactly_app p b q _ Fe). cbn [serve_list].
    destruct (h st q) as [st' [res|e|]]; try reflexivity. destruct (write_response p q res); try reflexivity.
    assert (Lb : (0 < length b)%nat).
    { destruct (parser_exactly p _ _ _ Fe) as (b' & _ & _ & N). destruct b; [|cbn; lia].
      pose proof (eats_parser p _ _ _ Fe ltac:(discriminate)). cbn in *. lia. }
    rewrite (serve_as_fuel _ h p _ (S (length (flat_map fst msgs ++ tail)))) by (rewrite ?app_length; lia).
    fold (serve_rest p h st' (flat_map fst msgs ++ tail)). rewrite IH by exact F'.
    destruct (serve_list h p st' (map snd msgs)) as [[st'' l] [ft|]]; cbn [then_serve]; [reflexivity|].
    destruct (serve_rest p h st'' tail) as [[x y] z]. reflexivity.
Qed.

(** Every connection decomposes into exactly the requests served and a rest. *)
Lemma serve_decompose : forall H (h : handler H) p f st s, (length s < f)%nat ->
  exists msgs tail, s = flat_map fst msgs ++ tail /\ Forall (fun m => exactly p (fst m) (snd m)) msgs
    /\ map sd_req (snd (fst (serve_as p h f st s))) = map snd msgs
    /\ (snd (serve_as p h f st s) = Crashed -> (exists s', parser p tail = (Panic, s')) \/
         exists st0 q l, In q (map snd msgs) /\ serve_list h p st0 [q] = l /\ snd l = Some Crashed).
Proof.
  intros H h p. induction f as [|f IH]; intros st s L; [lia|]. cbn [serve_as].
  destruct (parser p s) as [[q|e|] s'] eqn:E.
  - destruct (parser_exactly p _ _ _ E) as (b & -> & Ex & Nb).
    assert (One : forall st1 ft, (ft = Crashed -> snd (serve_list h p st [q]) = Some Crashed) ->
      exists msgs tail, b ++ s' = flat_map fst msgs ++ tail /\ Forall (fun m => exactly p (fst m) (snd m)) msgs
        /\ map sd_req (snd (fst (st1 : H, [mkServed q []], ft))) = map snd msgs
        /\ (snd (st1, [mkServed q []], ft) = Crashed -> (exists s'', parser p tail = (Panic, s'')) \/
             exists st0 q0 l, In q0 (map snd msgs) /\ serve_list h p st0 [q0] = l /\ snd l = Some Crashed)).
    { intros st1 ft C. exists [(b, q)], s'. split; [cbn; rewrite app_nil_r; reflexivity|]. split; [constructor; [exact Ex|constructor]|].
      split; [reflexivity|]. cbn [snd]. intro Q. right. exists st, q, (serve_list h p st [q]). split; [left; reflexivity|]. split; [reflexivity|exact (C Q)]. }
    destruct (h st q) as [st' [res|e|]] eqn:Hq.
    + destruct (write_response p q res) as [out|e|] eqn:Wr.
      * assert (L' : (length s' < f)%nat) by (rewrite app_length in L; destruct b; [congruence|cbn in L; lia]).
        destruct (IH st' s' L') as (msgs & tail & -> & F & M & C). exists ((b, q) :: msgs), tail.
        destruct (serve_as p h f st' (flat_map fst msgs ++ tail)) as [[st'' l] ft]. cbn [fst snd] in *.
        split; [cbn; rewrite app_assoc; reflexivity|]. split; [constructor; [exact Ex|exact F]|]. split; [cbn; rewrite M; reflexivity|].
        intro Q. destruct (C Q) as [P|(st0 & q0 & l0 & I & Q1 & Q2)]; [left; exact P|right]. exists st0, q0, l0. split; [right; exact I|]. split; assumption.
      * apply One. discriminate.
      * apply One. intros _. cbn [serve_list]. rewrite Hq, Wr. reflexivity.
    + apply One. discriminate.
    + apply One. intros _. cbn [serve_list]. rewrite Hq. reflexivity.
  - exists [], s. split; [reflexivity|]. split; [constructor|]. split; [reflexivity|]. discriminate.
  - exists [], s. split; [reflexivity|]. split; [constructor|]. split; [reflexivity|]. intros _. left. exists s'. exact E.
Qed.

(** ** Malformed requests are refused *)
Lemma malformed_command : forall fs rest, malformed_fields fs = true ->
  (match fs with cmd :: _ => (beq cmd (B "gets") || beq cmd (B "flush_all") || beq cmd (B "version")) = false | [] => True end) ->
  ascii_command fs rest = (Err invalid_request, rest).
Proof.
  intros fs rest M L. unfold ascii_command. destruct fs as [|cmd args]; [reflexivity|]. unfold malformed_fields, arity_ok in M.
  apply orb_false_iff in L. destruct L as [L L3]. apply orb_false_iff in L. destruct L as [L1 L2]. rewrite L1, L2, L3 in *. cbn [orb] in *.
  destruct (beq cmd (B "get")); [destruct args as [|? [|? ?]]; try reflexivity; discriminate M|].
  destruct (beq cmd (B "set") || beq cmd (B "add") || beq cmd (B "replace"));
    [destruct args as [|? [|? [|? [|? [|? ?]]]]]; try reflexivity; discriminate M|].
  destruct (beq cmd (B "delete") || beq cmd (B "md")); [destruct args as [|? [|? ?]]; try reflexivity; discriminate M|].
  destruct (beq cmd (B "incr") || beq cmd (B "decr") || beq cmd (B "touch")); [destruct args as [|? [|? [|? ?]]]; try reflexivity; discriminate M|].
  destruct (beq cmd (B "mg")); [cbn [orb] in M; destruct args as [|? [|? ?]]; try reflexivity; discriminate M|].
  destruct (beq cmd (B "ms")); [cbn [orb] in M; destruct args as [|? [|? ?]]; try reflexivity; discriminate M|].
  reflexivity.
Qed.
Lemma malformed_refused : forall p s, malformed p s -> ~ lax p s -> exists rest, parser p s = (Err invalid_request, rest).
Proof.
  intros [] s M L.
  - destruct M as (fs & F & M). cbn [parser]. unfold read_ascii_request, bind, read_bytes. unfold first_fields in F.
    destruct (find_line s) as [[l r]|] eqn:E; [|discriminate]. inversion F as [F']. exists r. rewrite F'.
    apply malformed_command; [exact M|]. destruct fs as [|cmd args]; [exact I|].
    destruct (beq cmd (B "gets") || beq cmd (B "flush_all") || beq cmd (B "version")) eqn:Q; [|reflexivity].
    exfalso. apply L. split; [reflexivity|]. exists cmd, args. split; [|exact Q]. unfold first_fields. rewrite E, F'. reflexivity.
  - destruct M as [Z M]. cbn [parser]. unfold read_binary_request, bind, read_full.
    destruct (24 <=? zlen s) eqn:Q; [|apply Z.leb_gt in Q; lia]. exists (skipn (Z.to_nat 24) s).
    assert (N : forall i, (i < 24)%nat -> byte_at (firstn (Z.to_nat 24) s) i = code (nth i s "000"%char)).
    { intros i Hi. unfold byte_at. rewrite <- (firstn_skipn (Z.to_nat 24) s) at 2. rewrite app_nth1; [reflexivity|].
      rewrite firstn_length. unfold zlen in Z. lia. }
    rewrite !N by lia. change magic_request with 128. destruct M as [M|M].
    + destruct (code (nth 0 s "000"%char) =? 128) eqn:Q1; [apply Z.eqb_eq in Q1; contradiction|]. reflexivity.
    + destruct (negb (code (nth 0 s "000"%char) =? 128)); [reflexivity|]. cbv zeta. unfold known_opcode in M.
      repeat (apply orb_false_iff in M; let x := fresh "M" in destruct M as [M x]; rewrite x). rewrite M. reflexivity.
Qed.

(** ** What can crash the parser *)
Lemma no_panic_make : forall n s, 0 <= n <= max_alloc -> fst (make_read_full n s) <> Panic.
Proof.
  intros n s H. unfold make_read_full, go_make, bind. destruct ((n <? 0) || (max_alloc <? n)) eqn:E.
  - apply orb_true_iff in E. destruct E as [E|E]; apply Z.ltb_lt in E; lia.
  - unfold ret, read_full. destruct (n <=? zlen s); discriminate.
Qed.
Lemma make_read_ok : forall n s b s', make_read_full n s = (Ok b, s') -> 0 <= n -> zlen b = n.
Proof.
  intros n s b s' E N. unfold make_read_full, go_make, bind in E. destruct (_ || _); [discriminate|]. unfold ret, read_full in E.
  destruct (n <=? zlen s) eqn:L; [|discriminate]. apply Z.leb_le in L. inversion E. unfold zlen in *. rewrite firstn_length. lia.
Qed.
Lemma parse_int_range : forall b n, parse_int 32 b = Some n -> - 2 ^ 31 <= n < 2 ^ 31.
Proof.
  intros b n H. unfold parse_int in H. cbv zeta in H. set (x := match b with [] => _ | _ => _ end) in H. clearbody x. destruct x as [body neg]. cbn [fst snd] in H.
  assert (P : forall s acc m, 0 <= acc -> parse_digits acc s = Some m -> 0 <= m).
  { clear. induction s as [|c s IH]; intros acc m A E; cbn [parse_digits] in E; [inversion E; subst; exact A|].
    destruct (is_digit c) eqn:D; [|discriminate]. apply is_digit_code in D. eapply IH; [|exact E]. lia. }
  destruct body as [|c body]; [discriminate|]. destruct (parse_digits 0 (c :: body)) as [m|] eqn:E; [|discriminate].
  apply P in E; [|lia]. change (2 ^ (32 - 1)) with (2 ^ 31) in H. destruct neg.
  - destruct (m <=? 2 ^ 31) eqn:L; [|discriminate]. apply Z.leb_le in L. inversion H. lia.
  - destruct (m <? 2 ^ 31) eqn:L; [|discriminate]. apply Z.ltb_lt in L. inversion H. lia.
Qed.
Lemma parse_uint_range : forall b n, parse_uint 32 b = Some n -> 0 <= n < 2 ^ 32.
Proof.
  intros b n H. unfold parse_uint in H.
  assert (P : forall s acc m, 0 <= acc -> parse_digits acc s = Some m -> 0 <= m).
  { clear. induction s as [|c s IH]; intros acc m A E; cbn [parse_digits] in E; [inversion E; subst; exact A|].
    destruct (is_digit c) eqn:D; [|discriminate]. apply is_digit_code in D. eapply IH; [|exact E]. lia. }
  destruct b as [|c b]; [discriminate|]. destruct (parse_digits 0 (c :: b)) as [m|] eqn:E; [|discriminate]. apply P in E; [|lia].
  destruct (m <? 2 ^ 32) eqn:L; [|discriminate]. apply Z.ltb_lt in L. inversion H; subst. lia.
Qed.
Lemma value_no_panic : forall n (f : bytes -> srequest) s, 0 <= n < 2 ^ 33 ->
  fst (bind (make_read_full (n + 2)) (fun buf => bind (go_sub buf 0 n) (fun v => ret (f v))) s) <> Panic.
Proof.
  intros n f s N. unfold bind at 1. destruct (make_read_full (n + 2) s) as [[b|e|] s'] eqn:E.
  - apply make_read_ok in E; [|lia]. unfold bind, go_sub, go_slice.
    replace ((0 <=? 0) && (0 <=? n) && (n <=? zlen b)) with true; [discriminate|].
    symmetry. apply andb_true_iff. split; [apply andb_true_iff; split; apply Z.leb_le; lia|apply Z.leb_le; lia].
  - discriminate.
  - exfalso. eapply no_panic_make with (n := n + 2) (s := s); [unfold max_alloc; lia|]. rewrite E. reflexivity.
Qed.
Lemma ms_tokens_safe : forall ts o, existsb hostile_token ts = false -> 0 <= s_size o < 2 ^ 33 ->
  match ms_tokens o ts with Ok o' => 0 <= s_size o' < 2 ^ 33 | Err _ => True | Panic => False end.
Proof.
  induction ts as [|t ts IH]; intros o H S; cbn [ms_tokens]; [exact S|]. cbn [existsb] in H. apply orb_false_iff in H. destruct H as [Ht Hs].
  assert (T : match ms_token o t with Ok o' => 0 <= s_size o' < 2 ^ 33 | Err _ => True | Panic => False end).
  { unfold ms_token. destruct o as [me cas cv fl inv ke opq no si ex]. cbn [s_size] in S. destruct t as [|c v]; [discriminate Ht|].
    unfold hostile_token in Ht.
    destruct (Ascii.eqb c "C"); [destruct (parse_uint 64 v); [exact S|exact I]|].
    destruct (Ascii.eqb c "F"); [destruct (parse_int 32 v); [exact S|exact I]|].
    destruct (Ascii.eqb c "I"); [exact S|]. destruct (Ascii.eqb c "k"); [exact S|].
    destruct (Ascii.eqb c "O"); [destruct (parse_int 64 v); [exact S|exact I]|].
    destruct (Ascii.eqb c "q"); [exact S|].
    destruct (Ascii.eqb c "S") eqn:ES.
    - cbn [andb] in Ht. unfold negative_number in Ht. destruct (parse_int 32 v) as [n|] eqn:P; [|exact I]. apply Z.ltb_ge in Ht.
      apply parse_int_range in P. cbn [s_size]. lia.
    - destruct (Ascii.eqb c "T"); [destruct (parse_int 32 v); [exact S|exact I]|]. exact S. }
  destruct (ms_token o t) as [o'|e|]; [|exact I|contradiction]. apply IH; assumption.
Qed.
Lemma command_no_panic : forall fs s, hostile_fields fs = false -> fst (ascii_command fs s) <> Panic.
Proof.
  intros fs s H. unfold ascii_command. destruct fs as [|cmd args]; [discriminate|].
  destruct (beq cmd (B "get")) eqn:Eget; [destruct args as [|? [|? ?]]; discriminate|].
  destruct (beq cmd (B "gets")) eqn:Egets; [discriminate|].
  destruct (beq cmd (B "set") || beq cmd (B "add") || beq cmd (B "replace")) eqn:Est.
  { destruct args as [|k [|f [|e [|n [|? ?]]]]]; try discriminate. cbn [hostile_fields] in H. unfold is_store in H. rewrite Est in H. cbn [andb] in H.
    apply orb_false_iff in H. destruct H as [H _]. unfold negative_number in H.
    unfold lift_opt, bind at 1. destruct (parse_int 32 f) as [nf|]; [|discriminate]. unfold ret at 1.
    unfold bind at 1. destruct (parse_int 32 e) as [ne|]; [|discriminate]. unfold ret at 1.
    unfold bind at 1. destruct (parse_int 32 n) as [nn|] eqn:P; [|discriminate]. unfold ret at 1.
    apply Z.ltb_ge in H. apply parse_int_range in P. apply value_no_panic. lia. }
  destruct (beq cmd (B "delete") || beq cmd (B "md")); [destruct args as [|? [|? ?]]; discriminate|].
  destruct (beq cmd (B "incr") || beq cmd (B "decr") || beq cmd (B "touch")).
  { destruct args as [|k [|n [|? ?]]]; try discriminate. unfold lift_opt, bind. destruct (parse_int 32 n); discriminate. }
  destruct (beq cmd (B "mg")); [destruct args as [|? [|? ?]]; discriminate|].
  destruct (beq cmd (B "ms")) eqn:Ems.
  { destruct args as [|k [|n tokens]]; try discriminate. unfold lift_opt, bind at 1. destruct (parse_uint 32 n) as [nn|] eqn:P; [|discriminate].
    unfold ret at 1. apply parse_uint_range in P.
    assert (Ht : existsb hostile_token tokens = false).
    { cbn [hostile_fields] in H. unfold is_store in H. rewrite Est, Ems in H. cbn [andb orb] in H.
      destruct tokens as [|t1 [|t2 [|t3 l]]]; try exact H. cbn [existsb]. rewrite orb_false_r. exact H. }
    pose proof (ms_tokens_safe tokens (mkSetOpt true false 0 0 false false 0 false nn 0) Ht) as Sf. cbn [s_size] in Sf. specialize (Sf ltac:(lia)).
    unfold lift, bind at 1. destruct (ms_tokens _ tokens) as [o|e|]; [|discriminate|contradiction]. apply value_no_panic. exact Sf. }
  destruct (beq cmd (B "flush_all")); [discriminate|]. destruct (beq cmd (B "version")); discriminate.
Qed.

Lemma np_bind_ok : forall A C (m : reader A) (f : A -> reader C) s, fst (m s) <> Panic ->
  (forall a s', m s = (Ok a, s') -> fst (f a s') <> Panic) -> fst (bind m f s) <> Panic.
Proof. intros A C m f s Hm Hf. unfold bind. destruct (m s) as [[a|e|] s']; [apply (Hf a s' eq_refl)|discriminate|exfalso; apply Hm; reflexivity]. Qed.
Lemma be_at_safe : forall b lo hi s, 0 <= lo <= hi -> hi <= zlen b -> fst (be_at b lo hi s) <> Panic.
Proof.
  intros b lo hi s H Z. unfold be_at, bind, go_sub, go_slice. replace ((0 <=? lo) && (lo <=? hi) && (hi <=? zlen b)) with true; [discriminate|].
  symmetry. apply andb_true_iff. split; [apply andb_true_iff; split; apply Z.leb_le; lia|apply Z.leb_le; lia].
Qed.
Lemma unbe2 : forall a b, unbe [a; b] = code a * 256 + code b.
Proof. intros. unfold unbe. cbn [fold_left]. lia. Qed.
Lemma unbe4 : forall a b c d, unbe [a; b; c; d] = (code a * 256 + code b) * 65536 + (code c * 256 + code d).
Proof. intros. unfold unbe. cbn [fold_left]. lia. Qed.

Lemma binary_no_panic : forall s, ~ hostile_header s -> fst (read_binary_request s) <> Panic.
Proof.
  intros s H. unfold read_binary_request. unfold bind at 1. unfold read_full at 1. destruct (24 <=? zlen s) eqn:L; [|discriminate].
  apply Z.leb_le in L. unfold hostile_header in H. cbv zeta in H.
  assert (Hd : exists b0 b1 b2 b3 b4 b5 b6 b7 b8 b9 b10 b11 t, s = b0 :: b1 :: b2 :: b3 :: b4 :: b5 :: b6 :: b7 :: b8 :: b9 :: b10 :: b11 :: t /\ (12 <= length t)%nat).
  { unfold zlen in L. do 12 (destruct s as [|? s]; [cbn in L; lia|]). repeat eexists. cbn in L. lia. }
  destruct Hd as (b0 & b1 & b2 & b3 & b4 & b5 & b6 & b7 & b8 & b9 & b10 & b11 & t & -> & Lt).
  change (Z.to_nat 24) with 24%nat. cbn [firstn]. set (r := skipn 24 _). clearbody r.
  cbn [nth] in H. unfold field16 in H. cbn [nth] in H.
  unfold byte_at, sub. cbn [nth skipn firstn]. rewrite unbe2, unbe4.
  pose proof (code_range b1) as R1. pose proof (code_range b2) as R2. pose proof (code_range b3) as R3. pose proof (code_range b4) as R4.
  pose proof (code_range b8) as R8. pose proof (code_range b9) as R9. pose proof (code_range b10) as R10. pose proof (code_range b11) as R11.
  set (kl := code b2 * 256 + code b3) in *. set (tot := (code b8 * 256 + code b9) * 65536 + (code b10 * 256 + code b11)) in *.
  assert (Kl : 0 <= kl < 65536) by (unfold kl; lia). assert (Tt : 0 <= tot < 2 ^ 32) by (unfold tot; lia).
  assert (Mk : forall n x, 0 <= n <= 2 ^ 33 -> fst (make_read_full n x) <> Panic) by (intros n x Hn; apply no_panic_make; unfold max_alloc; lia).
  destruct (negb (code b0 =? magic_request)); [discriminate|]. set (o := code b1) in *.
  destruct (o =? 0); [apply np_bind_ok; [apply Mk; lia|discriminate]|].
  destruct (o =? 13); [apply np_bind_ok; [apply Mk; lia|discriminate]|].
  destruct ((o =? 1) || (o =? 2) || (o =? 3)) eqn:E1.
  { assert (O : 1 <= o <= 3) by (apply orb_true_iff in E1; destruct E1 as [E1|E1]; [apply orb_true_iff in E1; destruct E1 as [E1|E1]|]; apply Z.eqb_eq in E1; lia).
    assert (X : 8 <= code b4 /\ code b4 + kl <= tot) by (split; apply Z.nlt_ge; intro Q; apply H; split; try exact L; left; split; try exact O; [left|right]; exact Q).
    apply np_bind_ok; [apply Mk; lia|]. intros ex s1 Ex. apply make_read_ok in Ex; [|lia].
    apply np_bind_ok; [apply be_at_safe; lia|]. intros e s2 _. apply np_bind_ok; [apply Mk; lia|]. intros k s3 _.
    apply np_bind_ok; [apply Mk; lia|]. intros v s4 _. apply np_bind_ok; [|discriminate].
    unfold go_sub, go_slice. replace ((0 <=? 0) && (0 <=? 4) && (4 <=? zlen ex)) with true; [discriminate|]. symmetry. cbn [andb Z.leb Z.compare]. apply Z.leb_le. lia. }
  destruct (o =? 4); [apply np_bind_ok; [apply Mk; lia|discriminate]|].
  destruct ((o =? 5) || (o =? 6)) eqn:E5.
  { assert (O : 5 <= o <= 6) by (apply orb_true_iff in E5; destruct E5 as [E5|E5]; apply Z.eqb_eq in E5; lia).
    assert (X : 20 <= code b4) by (apply Z.nlt_ge; intro Q; apply H; split; try exact L; right; left; split; assumption).
    apply np_bind_ok; [apply Mk; lia|]. intros ex s1 Ex. apply make_read_ok in Ex; [|lia].
    apply np_bind_ok; [apply be_at_safe; lia|]. intros d s2 _. apply np_bind_ok; [apply be_at_safe; lia|]. intros e s3 _.
    apply np_bind_ok; [apply Mk; lia|discriminate]. }
  destruct (o =? 28) eqn:E28.
  { apply Z.eqb_eq in E28. assert (X : 4 <= code b4) by (apply Z.nlt_ge; intro Q; apply H; split; try exact L; right; right; split; assumption).
    apply np_bind_ok; [apply Mk; lia|]. intros ex s1 Ex. apply make_read_ok in Ex; [|lia].
    apply np_bind_ok; [apply be_at_safe; lia|]. intros e s2 _. apply np_bind_ok; [apply Mk; lia|discriminate]. }
  destruct (o =? 10); [discriminate|]. destruct (o =? 11); [discriminate|]. destruct (o =? 8); discriminate.
Qed.

Lemma hostile_header_dec : forall s, hostile_header s \/ ~ hostile_header s.
Proof.
  intro s. unfold hostile_header. cbv zeta. generalize (code (nth 1 s "000"%char)) (field16 s 2) (code (nth 4 s "000"%char)) (field16 s 8 * 65536 + field16 s 10).
  intros o k e t. destruct (Z_le_dec 24 (zlen s)); [|right; tauto].
  destruct (Z_le_dec 1 o), (Z_le_dec o 3), (Z_lt_dec e 8), (Z_lt_dec t (e + k)), (Z_le_dec 5 o), (Z_le_dec o 6), (Z_lt_dec e 20), (Z.eq_dec o 28), (Z_lt_dec e 4); try lia; tauto.
Qed.
Lemma parser_panic : forall p s s', parser p s = (Panic, s') -> hostile p s.
Proof.
  intros p s s' E. destruct p; cbn [parser hostile] in *.
  - unfold read_ascii_request, bind, read_bytes in E. unfold first_fields.
    destruct (find_line s) as [[l r]|]; [|discriminate]. destruct (hostile_fields (split_sp (trim_suffix crlf l))) eqn:H.
    + eexists. split; [reflexivity|exact H].
    + exfalso. apply (command_no_panic _ r H). rewrite E. reflexivity.
  - destruct (hostile_header_dec s) as [H|N]; [exact H|]. exfalso. apply (binary_no_panic s N). rewrite E. reflexivity.
Qed.

(** ** Requests of the ascii parser carry the options the writer needs *)
Definition armed (q : srequest) : Prop :=
  match q_opcode q with
  | OpcSet | OpcAdd | OpcReplace => q_set q <> None
  | OpcDelete => q_del q <> None
  | _ => True
  end.
Lemma bind_ok_inv : forall A C (m : reader A) (f : A -> reader C) s c s', bind m f s = (Ok c, s') -> exists a s1, m s = (Ok a, s1) /\ f a s1 = (Ok c, s').
Proof. intros A C m f s c s' H. unfold bind in H. destruct (m s) as [[a|e|] s1]; try discriminate. exists a, s1. split; [reflexivity|exact H]. Qed.
Lemma armed_ascii : forall s q s', read_ascii_request s = (Ok q, s') -> armed q.
Proof.
  intros s q s' H. unfold read_ascii_request in H. apply bind_ok_inv in H. destruct H as (l & s1 & _ & H). unfold ascii_command in H.
  destruct (split_sp (trim_suffix crlf l)) as [|cmd args]; [discriminate|].
  repeat match type of H with
  | (if ?b then _ else _) _ = _ => destruct b
  | (match ?x with nil => _ | cons _ _ => _ end) _ = _ => destruct x
  | bind _ _ _ = _ => apply bind_ok_inv in H; destruct H as (? & ? & _ & H)
  | ret _ _ = _ => unfold ret in H; inversion H; subst
  | fail _ _ = _ => discriminate
  end; unfold armed; cbn [q_opcode q_set q_del key_req];
  repeat match goal with |- context [match (if ?b then _ else _) with _ => _ end] => destruct b end; try exact I; discriminate.
Qed.
Lemma flag_number_safe : forall r, full_flags r -> flag_number r <> Panic /\ forall e, flag_number r <> Err e.
Proof.
  intros r F. unfold flag_number, full_flags in *. destruct (r_flags r) as [f|]; cbn [opt_bytes].
  - destruct (0 <? zlen f) eqn:P; [|split; discriminate]. destruct F as [->|F]; [discriminate P|].
    destruct (zlen f <? 4) eqn:Q; [apply Z.ltb_lt in Q; lia|]. split; discriminate.
  - cbn. split; discriminate.
Qed.
Lemma concat_safe : forall (f : sresponse -> outcome bytes) res, Forall (fun r => f r <> Panic) res -> concat_outcomes (map f res) <> Panic.
Proof.
  induction res as [|r res IH]; intro F; cbn [map concat_outcomes]; [discriminate|]. inversion F as [|? ? Fr Fs]; subst.
  destruct (f r); [|discriminate|contradiction]. specialize (IH Fs). destruct (concat_outcomes (map f res)); try discriminate. exact IH.
Qed.
Lemma writer_safe : forall p s q s' res, parser p s = (Ok q, s') -> (is_get q = false -> res <> []) -> Forall full_flags res ->
  write_response p q res <> Panic.
Proof.
  intros p s q s' res P N F. destruct p; cbn [parser write_response] in *.
  - apply armed_ascii in P. unfold armed in P. unfold write_ascii_response. unfold is_get in N.
    assert (OF : forall g, (forall r, g r <> Panic) -> is_get q = false -> on_first res g <> Panic).
    { intros g G Q. unfold on_first. unfold is_get in Q. specialize (N Q). destruct res as [|r ?]; [congruence|]. destruct (r_error r); [discriminate|apply G]. }
    unfold is_get in OF. destruct (q_opcode q) eqn:O; try (apply OF; [|reflexivity]; intro r; try discriminate).
    + assert (Fb : forall f, (forall r, full_flags r -> f r <> Panic) -> concat_outcomes (map f res) <> Panic).
      { intros f Hf. apply concat_safe. eapply Forall_impl; [|exact F]. exact Hf. }
      destruct (q_get q) as [g|].
      * assert (A : concat_outcomes (map (meta_get_block_bytes q g) res) <> Panic).
        { apply Fb. intros r Fr. unfold meta_get_block_bytes. destruct (flag_number_safe r Fr) as [A _]. destruct (flag_number r); [discriminate|discriminate|contradiction]. }
        destruct (concat_outcomes _); [discriminate|discriminate|contradiction].
      * assert (A : concat_outcomes (map ascii_get_block res) <> Panic).
        { apply Fb. intros r Fr. unfold ascii_get_block. destruct (flag_number_safe r Fr) as [A _]. destruct (flag_number r); [discriminate|discriminate|contradiction]. }
        destruct (concat_outcomes _); [discriminate|discriminate|contradiction].
    + destruct (q_set q); [discriminate|contradiction].
    + destruct (q_set q); [discriminate|contradiction].
    + destruct (q_set q); [discriminate|contradiction].
    + destruct (q_del q); [discriminate|contradiction].
    + discriminate.
  - unfold write_binary_response. unfold is_get in N. destruct (q_opcode q); try discriminate;
      (specialize (N eq_refl); destruct res as [|r ?]; [congruence|]; unfold on_first; destruct (r_error r); discriminate).
Qed.

(** From [reads] to the connection. *)
Lemma reads_serve : forall H (h : handler H) p s qs p' s', reads p s qs p' s' -> forall pr st, p = Some pr ->
  p' = Some pr /\ serve_rest pr h st s = then_serve h pr (serve_list h pr st qs) s'.
Proof.
  intros H h p s qs p' s' R. induction R as [p s|p s q p1 s1 qs p2 s2 E R IH]; intros pr st ->.
  - split; [reflexivity|]. cbn [serve_list then_serve]. destruct (serve_rest pr h st s) as [[x y] z]. reflexivity.
  - assert (Q : read_request (Some pr) s = (parser pr s, Some pr)) by (destruct pr; reflexivity).
    rewrite Q in E. assert (E1 : parser pr s = (Ok q, s1)) by congruence. assert (p1 = Some pr) by congruence. subst p1.
    split; [exact (proj1 (IH pr st eq_refl))|]. unfold serve_rest at 1. cbn [serve_as]. rewrite E1. cbn [serve_list].
    destruct (h st q) as [st' [res|e|]]; try reflexivity. destruct (write_response pr q res); try reflexivity.
    pose proof (eats_parser pr _ _ _ E1 ltac:(discriminate)) as Lt.
    rewrite (serve_as_fuel _ h pr _ (S (length s1))) by lia. fold (serve_rest pr h st' s1). rewrite (proj2 (IH pr st' eq_refl)).
    destruct (serve_list h pr st' qs) as [[st'' l] [ft|]]; cbn [then_serve]; [reflexivity|].
    destruct (serve_rest pr h st'' s2) as [[x y] z]. reflexivity.
Qed.
