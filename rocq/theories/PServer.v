(** * The server's request parser on the client's requests. *)
From Verif Require Import GoBytes GoNum GoIO Item ClientText ClientMeta ClientBinary Cache Spec Call Guard
  ServerTypes ServerParse ServerWrite Serve ServerSpec PLib PCache PText PReader PBinary.
Local Open Scope Z_scope.

Lemma ascii_words : forall ws rest, ws <> [] -> Forall word ws ->
  read_ascii_request (join_sp ws ++ crlf ++ rest) = ascii_command ws rest.
Proof.
  intros ws rest N F. unfold read_ascii_request. unfold bind. cbn [app crlf].
  change (join_sp ws ++ crlf ++ rest) with (join_sp ws ++ CR :: LF :: rest).
  rewrite read_bytes_line by (apply join_line; exact F). rewrite trim_suffix_app, split_join by assumption. reflexivity.
Qed.
Lemma ascii_words' : forall ws b rest, ws <> [] -> Forall word ws -> b = join_sp ws ++ crlf ->
  read_ascii_request (b ++ rest) = ascii_command ws rest.
Proof. intros ws b rest N F ->. rewrite <- app_assoc. apply ascii_words; assumption. Qed.

Ltac words := repeat match goal with |- Forall word _ => first [apply Forall_nil|apply Forall_cons] end; try assumption; try apply dec_word; try (apply wordb_word; reflexivity).
Ltac spell := cbn [join_sp]; repeat rewrite <- app_assoc; reflexivity.

Lemma read_value : forall v rest, zlen v < 2 ^ 31 ->
  make_read_full (zlen v + 2) (v ++ crlf ++ rest) = (Ok (v ++ crlf), rest).
Proof.
  intros v rest H. rewrite app_assoc. apply make_read_full_app.
  - rewrite zlen_app. reflexivity.
  - unfold max_alloc. lia.
Qed.

Lemma store_command : forall cmd k f e v rest, (beq cmd (B "set") || beq cmd (B "add") || beq cmd (B "replace")) = true ->
  0 <= f < 2 ^ 31 -> - 2 ^ 31 <= e < 2 ^ 31 -> zlen v < 2 ^ 31 ->
  ascii_command [cmd; k; dec f; dec e; dec (zlen v)] (v ++ crlf ++ rest)
  = (Ok (mkReq (if beq cmd (B "add") then OpcAdd else if beq cmd (B "replace") then OpcReplace else OpcSet)
       k [] (Some (be 4 (u32 f))) v 0 None (Some (exp_opt e)) None), rest).
Proof.
  intros cmd k f e v rest C F E V. pose proof (zlen_nonneg _ v). unfold ascii_command.
  assert (N : beq cmd (B "get") = false /\ beq cmd (B "gets") = false).
  { apply orb_true_iff in C. destruct C as [C|C]; [apply orb_true_iff in C; destruct C as [C|C]|]; apply beq_eq in C; subst cmd; split; reflexivity. }
  destruct N as [N1 N2]. rewrite N1, N2, C.
  rewrite !parse_int_dec by lia. unfold lift_opt, bind at 1 2 3, ret at 1 2 3.
  rewrite (bind_ok _ _ _ _ _ _ _ (read_value v rest V)).
  rewrite (bind_ok _ _ _ _ _ _ _ (go_sub_prefix (zlen v) v crlf rest eq_refl)). reflexivity.
Qed.

Lemma be_u32_flags : forall f, 0 <= f < 2 ^ 32 -> unbe (be 4 (u32 f)) = f.
Proof. intros f F. rewrite u32_small by exact F. apply unbe_be_small. exact F. Qed.

Lemma flags_nonneg : forall pr i, legal_flags pr i -> 0 <= item_flags i < 2 ^ 32.
Proof. intros pr i F. pose proof (item_flags_range pr i F) as R. unfold flags_bound in R. destruct pr; lia. Qed.

Lemma ascii_read : forall p b rest q, (p = None \/ p = Some ProtoAscii) ->
  (match b with [] => False | c :: _ => code c <> 128 end) -> read_ascii_request (b ++ rest) = (Ok q, rest) ->
  reads p (b ++ rest) [q] (Some ProtoAscii) rest.
Proof.
  intros p b rest q P C R. econstructor; [|constructor]. destruct P as [-> | ->]; cbn [read_request].
  - destruct b as [|c b]; [contradiction|]. cbn [app]. destruct (code c =? magic_request) eqn:E; [apply Z.eqb_eq in E; contradiction|].
    change (c :: b ++ rest) with ((c :: b) ++ rest). rewrite R. reflexivity.
  - rewrite R. reflexivity.
Qed.

(** ** Binary *)
Lemma header_fields : forall h, 0 <= rq_opcode h < 256 -> 0 <= rq_key_len h < 2 ^ 16 -> 0 <= rq_extra_len h < 256 -> 0 <= rq_total h < 2 ^ 32 ->
  byte_at (encode_header h) 0 = 128 /\ byte_at (encode_header h) 1 = rq_opcode h /\ unbe (sub (encode_header h) 2 2) = rq_key_len h
  /\ byte_at (encode_header h) 4 = rq_extra_len h /\ unbe (sub (encode_header h) 8 4) = rq_total h.
Proof.
  intros h O K E T.
  split; [reflexivity|]. split.
  { change (byte_at (encode_header h) 1) with (code (byte_of (rq_opcode h))). rewrite code_byte_of. apply Z.mod_small. exact O. }
  split. { change (sub (encode_header h) 2 2) with (be 2 (rq_key_len h)). apply unbe_be_small. exact K. }
  split. { change (byte_at (encode_header h) 4) with (code (byte_of (rq_extra_len h))). rewrite code_byte_of. apply Z.mod_small. exact E. }
  change (sub (encode_header h) 8 4) with (be 4 (rq_total h)). apply unbe_be_small. exact T.
Qed.

Lemma read_header : forall h rest, read_full 24 (encode_header h ++ rest) = (Ok (encode_header h), rest).
Proof. intros h rest. apply read_full_eq. symmetry. apply zlen_encode. Qed.

Lemma be_at_ok : forall a x b s, be_at (a ++ x ++ b) (zlen a) (zlen a + zlen x) s = (Ok (unbe x), s).
Proof.
  intros a x b s. pose proof (zlen_nonneg _ a). pose proof (zlen_nonneg _ x). pose proof (zlen_nonneg _ b).
  unfold be_at, bind, go_sub, go_slice.
  replace ((0 <=? zlen a) && (zlen a <=? zlen a + zlen x) && (zlen a + zlen x <=? zlen (a ++ x ++ b))) with true.
  - rewrite skipn_app_zlen. replace (zlen a + zlen x - zlen a) with (zlen x) by lia. rewrite firstn_app_zlen. reflexivity.
  - symmetry. rewrite !zlen_app. apply andb_true_iff. split; [apply andb_true_iff; split|]; apply Z.leb_le; lia.
Qed.

Section BinStep.
Variables (h : req_header) (rest : bytes).
Hypothesis O : 0 <= rq_opcode h < 256.
Hypothesis K : 0 <= rq_key_len h < 2 ^ 16.
Hypothesis E : 0 <= rq_extra_len h < 256.
Hypothesis T : 0 <= rq_total h < 2 ^ 32.

Ltac start := unfold read_binary_request; rewrite (bind_ok _ _ _ _ _ _ _ (read_header h _));
  destruct (header_fields h O K E T) as (H0 & H1 & H2 & H4 & H8); rewrite H0, H1, H2, H4, H8; cbv zeta;
  change (negb (128 =? magic_request)) with false; cbv iota.

Lemma read_key : forall k r, rq_key_len h = zlen k -> make_read_full (rq_key_len h) (k ++ r) = (Ok k, r).
Proof. intros k r E'. apply make_read_full_app; [exact E'|]. unfold max_alloc. lia. Qed.

Lemma bin_get_request : forall k, rq_key_len h = zlen k -> rq_opcode h = 0 ->
  read_binary_request (encode_header h ++ k ++ rest) = (Ok (key_req OpcGet k), rest).
Proof. intros k L Op. start. rewrite Op. cbn [Z.eqb orb Pos.eqb]. rewrite (bind_ok _ _ _ _ _ _ _ (read_key k rest L)). reflexivity. Qed.
Lemma bin_getkq_request : forall k, rq_key_len h = zlen k -> rq_opcode h = 13 ->
  read_binary_request (encode_header h ++ k ++ rest)
  = (Ok (mkReq OpcGet k [] None [] 0 (Some (mkGetOpt false [] false false true false false true false false false false)) None None), rest).
Proof. intros k L Op. start. rewrite Op. cbn [Z.eqb orb Pos.eqb]. rewrite (bind_ok _ _ _ _ _ _ _ (read_key k rest L)). reflexivity. Qed.
Lemma bin_delete_request : forall k, rq_key_len h = zlen k -> rq_opcode h = 4 ->
  read_binary_request (encode_header h ++ k ++ rest) = (Ok (key_req OpcDelete k), rest).
Proof. intros k L Op. start. rewrite Op. cbn [Z.eqb orb Pos.eqb]. rewrite (bind_ok _ _ _ _ _ _ _ (read_key k rest L)). reflexivity. Qed.
Lemma bin_bare_request : forall o, rq_opcode h = opcode_byte o -> keyless o = true ->
  read_binary_request (encode_header h ++ rest) = (Ok (key_req o []), rest).
Proof. intros o Op Kl. start. rewrite Op. destruct o; try discriminate Kl; reflexivity. Qed.
Lemma bin_store_request : forall o fl ex k v, rq_opcode h = opcode_byte o -> (o = OpcSet \/ o = OpcAdd \/ o = OpcReplace) ->
  zlen fl = 4 -> zlen ex = 4 -> rq_extra_len h = 8 -> rq_key_len h = zlen k -> rq_total h = 8 + zlen k + zlen v ->
  read_binary_request (encode_header h ++ fl ++ ex ++ k ++ v ++ rest)
  = (Ok (mkReq o k [] (Some fl) v 0 None (Some (exp_opt (unbe ex))) None), rest).
Proof.
  intros o fl ex k v Op So Lf Le Ee Lk Lt. start.
  assert (X : make_read_full (rq_extra_len h) (fl ++ ex ++ k ++ v ++ rest) = (Ok (fl ++ ex), k ++ v ++ rest)).
  { rewrite app_assoc. apply make_read_full_app; [rewrite zlen_app; lia|unfold max_alloc; lia]. }
  assert (Y : forall s, be_at (fl ++ ex) 4 8 s = (Ok (unbe ex), s)).
  { intro s. pose proof (be_at_ok fl ex [] s) as Z. rewrite app_nil_r, Lf, Le in Z. exact Z. }
  assert (V : make_read_full (rq_total h - rq_extra_len h - rq_key_len h) (v ++ rest) = (Ok v, rest)).
  { apply make_read_full_app; [lia|unfold max_alloc; lia]. }
  assert (F : forall s, go_sub (fl ++ ex) 0 4 s = (Ok fl, s)) by (intro s; apply go_sub_prefix; symmetry; exact Lf).
  destruct So as [->|[->| ->]]; rewrite Op; cbn [opcode_byte Z.eqb orb Pos.eqb];
    rewrite (bind_ok _ _ _ _ _ _ _ X), (bind_ok _ _ _ _ _ _ _ (Y _)), (bind_ok _ _ _ _ _ _ _ (read_key k _ Lk)),
      (bind_ok _ _ _ _ _ _ _ V), (bind_ok _ _ _ _ _ _ _ (F _)); reflexivity.
Qed.
Lemma bin_delta_request : forall o d i ex k, rq_opcode h = opcode_byte o -> (o = OpcIncrement \/ o = OpcDecrement) ->
  zlen d = 8 -> zlen i = 8 -> zlen ex = 4 -> rq_extra_len h = 20 -> rq_key_len h = zlen k ->
  read_binary_request (encode_header h ++ d ++ i ++ ex ++ k ++ rest)
  = (Ok (mkReq o k [] None [] (i64 (unbe d)) None (Some (exp_opt (unbe ex))) None), rest).
Proof.
  intros o d i ex k Op So Ld Li Le Ee Lk. start.
  assert (X : make_read_full (rq_extra_len h) (d ++ i ++ ex ++ k ++ rest) = (Ok (d ++ i ++ ex), k ++ rest)).
  { replace (d ++ i ++ ex ++ k ++ rest) with ((d ++ i ++ ex) ++ k ++ rest) by (rewrite <- !app_assoc; reflexivity).
    apply make_read_full_app; [rewrite !zlen_app; lia|unfold max_alloc; lia]. }
  assert (Y : forall s, be_at (d ++ i ++ ex) 0 8 s = (Ok (unbe d), s)).
  { intro s. pose proof (be_at_ok [] d (i ++ ex) s) as Z. rewrite Ld in Z. exact Z. }
  assert (Y2 : forall s, be_at (d ++ i ++ ex) 16 20 s = (Ok (unbe ex), s)).
  { intro s. pose proof (be_at_ok (d ++ i) ex [] s) as Z. rewrite app_nil_r, <- app_assoc, zlen_app, Ld, Li, Le in Z. exact Z. }
  destruct So as [->| ->]; rewrite Op; cbn [opcode_byte Z.eqb orb Pos.eqb];
    rewrite (bind_ok _ _ _ _ _ _ _ X), (bind_ok _ _ _ _ _ _ _ (Y _)), (bind_ok _ _ _ _ _ _ _ (Y2 _)), (bind_ok _ _ _ _ _ _ _ (read_key k _ Lk)); reflexivity.
Qed.
Lemma bin_touch_request : forall ex k, rq_opcode h = 28 -> zlen ex = 4 -> rq_extra_len h = 4 -> rq_key_len h = zlen k ->
  read_binary_request (encode_header h ++ ex ++ k ++ rest) = (Ok (mkReq OpcTouch k [] None [] 0 None (Some (exp_opt (unbe ex))) None), rest).
Proof.
  intros ex k Op Le Ee Lk. start.
  assert (X : make_read_full (rq_extra_len h) (ex ++ k ++ rest) = (Ok ex, k ++ rest)) by (apply make_read_full_app; [lia|unfold max_alloc; lia]).
  assert (Y : forall s, be_at ex 0 4 s = (Ok (unbe ex), s)).
  { intro s. pose proof (be_at_ok [] ex [] s) as Z. rewrite app_nil_r, Le in Z. exact Z. }
  rewrite Op; cbn [opcode_byte Z.eqb orb Pos.eqb].
  rewrite (bind_ok _ _ _ _ _ _ _ X), (bind_ok _ _ _ _ _ _ _ (Y _)), (bind_ok _ _ _ _ _ _ _ (read_key k _ Lk)); reflexivity.
Qed.
End BinStep.

Lemma binary_read : forall p b rest q, (p = None \/ p = Some ProtoBinary) ->
  (match b with [] => False | c :: _ => code c = 128 end) -> read_binary_request (b ++ rest) = (Ok q, rest) ->
  reads p (b ++ rest) [q] (Some ProtoBinary) rest.
Proof.
  intros p b rest q P C R. econstructor; [|constructor]. destruct P as [-> | ->]; cbn [read_request].
  - destruct b as [|c b]; [contradiction|]. cbn [app]. rewrite C. cbn [Z.eqb Pos.eqb magic_request].
    change (c :: b ++ rest) with ((c :: b) ++ rest). rewrite R. reflexivity.
  - rewrite R. reflexivity.
Qed.
Lemma reads_app : forall p s qs p1 s1 qs' p2 s2, reads p s qs p1 s1 -> reads p1 s1 qs' p2 s2 -> reads p s (qs ++ qs') p2 s2.
Proof. intros p s qs p1 s1 qs' p2 s2 R. induction R; intro R'; [exact R'|]. cbn [app]. econstructor; eauto. Qed.

(** ** Every supported call of the client is delivered as intended *)
Definition delivered (pr : proto) (o : op) (rq : bytes) : Prop :=
  forall p rest, (p = None \/ p = Some (proto_of pr)) ->
  exists qs, reads p (rq ++ rest) qs (Some (proto_of pr)) rest /\ map understood qs = intended pr o /\ Forall (fun q => flavour pr q && tidy pr q = true) qs.

Lemma ascii_delivered : forall pr o rq ws tail q, proto_of pr = ProtoAscii ->
  ws <> [] -> Forall word ws -> rq = join_sp ws ++ crlf ++ tail ->
  (match rq with [] => False | c :: _ => code c <> 128 end) ->
  (forall rest, ascii_command ws (tail ++ rest) = (Ok q, rest)) -> [understood q] = intended pr o -> flavour pr q && tidy pr q = true ->
  delivered pr o rq.
Proof.
  intros pr o rq ws tail q A N F E C R U V p rest P. rewrite A in *. exists [q]. split; [|split; [exact U|constructor; [exact V|constructor]]].
  apply ascii_read; [exact P|exact C|]. rewrite E, <- !app_assoc, ascii_words by assumption. apply R.
Qed.

Lemma store_delivered : forall pr o cmd opc i, pr <> PBinary -> legal_item pr i -> item_flags i < 2 ^ 31 ->
  In (cmd, opc) [(B "set", OpcSet); (B "add", OpcAdd); (B "replace", OpcReplace)] ->
  (pr = PMeta -> opc <> OpcSet) ->
  intended pr o = [store_wish opc i 0] -> delivered pr o (text_store_req cmd i).
Proof.
  intros pr o cmd opc i Np (Lk & Lf & Le & Lc & Lv) F I Nm W.
  destruct (legal_key_word _ _ Np Lk) as (K1 & K2 & _).
  assert (Ex : - 2 ^ 31 <= it_exp i < 2 ^ 31) by (destruct pr; try exact Le; congruence).
  pose proof (flags_nonneg _ _ Lf) as Fr. rewrite <- (text_flags_item pr i Lf) in F, Fr.
  eapply ascii_delivered with (ws := [cmd; it_key i; dec (text_flags i); dec (it_exp i); dec (zlen (it_value i))]) (tail := it_value i ++ crlf).
  - destruct pr; [reflexivity|reflexivity|congruence].
  - discriminate.
  - words. cbn in I. destruct I as [I|[I|[I|[]]]]; inversion I; apply wordb_word; reflexivity.
  - unfold text_store_req. cbn [join_sp]. repeat (rewrite <- app_assoc || rewrite <- app_comm_cons). reflexivity.
  - cbn in I. destruct I as [I|[I|[I|[]]]]; inversion I; cbn; discriminate.
  - intro rest. rewrite <- app_assoc. apply store_command; try lia.
    cbn in I. destruct I as [I|[I|[I|[]]]]; inversion I; reflexivity.
  - rewrite W. unfold store_wish, understood. cbn [q_opcode q_keys q_key q_value q_flags q_set q_delta exp_opt s_exp s_cas].
    rewrite be_u32_flags by lia. rewrite (text_flags_item pr i Lf).
    cbn in I. destruct I as [I|[I|[I|[]]]]; inversion I; reflexivity.
  - cbn in I. destruct I as [I|[I|[I|[]]]]; inversion I; subst; destruct pr; try reflexivity; exfalso; apply Nm; reflexivity.
Qed.

Lemma number_delivered : forall pr o cmd opc k n, pr <> PBinary -> legal_key pr k -> - 2 ^ 31 <= n < 2 ^ 31 ->
  In (cmd, opc) [(B "incr", OpcIncrement); (B "decr", OpcDecrement); (B "touch", OpcTouch)] ->
  intended pr o = [understood (mkReq opc k [] None [] n None None None)] ->
  delivered pr o (cmd ++ B " " ++ k ++ B " " ++ dec n ++ crlf).
Proof.
  intros pr o cmd opc k n Np Lk N I W. destruct (legal_key_word _ _ Np Lk) as (K1 & K2 & _).
  eapply ascii_delivered with (ws := [cmd; k; dec n]) (tail := []) (q := mkReq opc k [] None [] n None None None).
  - destruct pr; [reflexivity|reflexivity|congruence].
  - discriminate.
  - words. cbn in I. destruct I as [I|[I|[I|[]]]]; inversion I; apply wordb_word; reflexivity.
  - cbn [join_sp]. repeat (rewrite <- app_assoc || rewrite <- app_comm_cons). rewrite app_nil_r. reflexivity.
  - cbn in I. destruct I as [I|[I|[I|[]]]]; inversion I; cbn; discriminate.
  - intro rest. cbn [app]. cbn in I. destruct I as [I|[I|[I|[]]]]; inversion I; subst; unfold ascii_command; cbn [beq B list_ascii_of_string];
      cbn [Ascii.eqb Bool.eqb andb orb]; rewrite parse_int_dec by lia; reflexivity.
  - symmetry. exact W.
  - cbn in I. destruct I as [I|[I|[I|[]]]]; inversion I; subst; destruct pr; reflexivity.
Qed.

Lemma word_delivered : forall pr o cmd q, pr <> PBinary ->
  In (cmd, q) [(B "flush_all", key_req OpcFlush []); (B "version", key_req OpcVersion [])] ->
  intended pr o = [understood q] -> delivered pr o (cmd ++ crlf).
Proof.
  intros pr o cmd q Np I W. eapply ascii_delivered with (ws := [cmd]) (tail := []) (q := q).
  - destruct pr; [reflexivity|reflexivity|congruence].
  - discriminate.
  - words. cbn in I. destruct I as [I|[I|[]]]; inversion I; apply wordb_word; reflexivity.
  - reflexivity.
  - cbn in I. destruct I as [I|[I|[]]]; inversion I; cbn; discriminate.
  - intro rest. cbn in I. destruct I as [I|[I|[]]]; inversion I; reflexivity.
  - symmetry. exact W.
  - cbn in I. destruct I as [I|[I|[]]]; inversion I; subst; destruct pr; reflexivity.
Qed.

Lemma delete_delivered : forall pr o cmd m k, pr <> PBinary -> legal_key pr k ->
  In (cmd, m) [(B "delete", false); (B "md", true)] -> (pr = PText -> m = false) -> (pr = PMeta -> m = true) ->
  intended pr o = [mkWish OpcDelete [k] [] 0 0 0 0] -> delivered pr o (cmd ++ B " " ++ k ++ crlf).
Proof.
  intros pr o cmd m k Np Lk I M1 M2 W. destruct (legal_key_word _ _ Np Lk) as (K1 & K2 & _).
  eapply ascii_delivered with (ws := [cmd; k]) (tail := []) (q := mkReq OpcDelete k [] None [] 0 None None (Some m)).
  - destruct pr; [reflexivity|reflexivity|congruence].
  - discriminate.
  - words. cbn in I. destruct I as [I|[I|[]]]; inversion I; apply wordb_word; reflexivity.
  - cbn [join_sp]. repeat (rewrite <- app_assoc || rewrite <- app_comm_cons). rewrite ?app_nil_r. reflexivity.
  - cbn in I. destruct I as [I|[I|[]]]; inversion I; cbn; discriminate.
  - intro rest. cbn in I. destruct I as [I|[I|[]]]; inversion I; reflexivity.
  - symmetry. exact W.
  - destruct pr; cbn; [rewrite M1 by reflexivity|rewrite M2 by reflexivity|]; reflexivity.
Qed.

Lemma text_delivered : forall o rq, legal PText o -> supported PText o -> text_req o = Ok rq -> delivered PText o rq.
Proof.
  intros o rq L U R. destruct o; cbn [legal supported] in L, U; cbn [text_req] in R; apply (f_equal (fun x => match x with Ok a => a | _ => [] end)) in R; cbv beta iota in R; subst rq.
  - destruct (legal_key_props _ L) as (K1 & K2 & K3 & _).
    eapply ascii_delivered with (ws := [B "gets"; k]) (tail := []) (q := mkReq OpcGet [] [k] None [] 0 None None None);
      [reflexivity|discriminate|words| |cbn; discriminate|intro; reflexivity|reflexivity|reflexivity].
    unfold text_get_req. cbn [join_sp]. rewrite ?app_nil_r. rewrite <- app_assoc. reflexivity.
  - destruct L as [Ne Lk]. assert (Fw : Forall word ks) by (eapply Forall_impl; [|exact Lk]; intros k Hk; apply (legal_key_props _ Hk)).
    eapply ascii_delivered with (ws := B "gets" :: ks) (tail := []) (q := mkReq OpcGet [] ks None [] 0 None None None);
      [reflexivity|discriminate|constructor; [apply wordb_word; reflexivity|exact Fw]| |cbn; discriminate|intro; reflexivity| |destruct ks; reflexivity].
    + unfold text_getmulti_req. rewrite ?app_nil_r. destruct ks as [|k ks]; [congruence|]. change (join_sp (B "gets" :: k :: ks)) with (B "gets" ++ SP :: join_sp (k :: ks)).
      rewrite <- app_assoc. reflexivity.
    + cbn. destruct ks; [congruence|]. reflexivity.
  - destruct U as [U1 U2]. unfold text_set_req. rewrite U1. change (0 <? 0) with false. cbv iota.
    eapply store_delivered with (opc := OpcSet); try eassumption; [discriminate|left; reflexivity|discriminate|]. cbn [intended]. rewrite U1. reflexivity.
  - eapply store_delivered with (opc := OpcAdd); try eassumption; [discriminate|apply L|right; left; reflexivity|discriminate|reflexivity].
  - eapply store_delivered with (opc := OpcReplace); try eassumption; [discriminate|apply L|right; right; left; reflexivity|discriminate|reflexivity].
  - eapply (delete_delivered PText _ (B "delete") false); try assumption; [discriminate|left; reflexivity|reflexivity|discriminate|reflexivity].
  - destruct L as [L [D _]]. eapply (number_delivered PText _ (B "incr") OpcIncrement); try assumption; [discriminate|lia|left; reflexivity|reflexivity].
  - destruct L as [L [D _]]. eapply (number_delivered PText _ (B "decr") OpcDecrement); try assumption; [discriminate|lia|right; left; reflexivity|reflexivity].
  - destruct L as [L D]. eapply (number_delivered PText _ (B "touch") OpcTouch); try assumption; [discriminate|right; right; left; reflexivity|reflexivity].
  - eapply (word_delivered PText _ (B "flush_all")); [discriminate|left; reflexivity|reflexivity].
  - eapply (word_delivered PText _ (B "version")); [discriminate|right; left; reflexivity|reflexivity].
Qed.

(** ** Meta *)
Lemma T_word : forall c n, 33 <= code c -> word (c :: dec n).
Proof. intros c n H. constructor; [exact H|apply dec_word]. Qed.
Lemma ms_T : forall me cas cv fl inv ke opq no si ex n, - 2 ^ 31 <= n < 2 ^ 31 ->
  ms_token (mkSetOpt me cas cv fl inv ke opq no si ex) ("T"%char :: dec n) = Ok (mkSetOpt me cas cv fl inv ke opq no si n).
Proof. intros. unfold ms_token. cbn [Ascii.eqb Bool.eqb]. rewrite parse_int_dec by lia. reflexivity. Qed.
Lemma ms_C : forall me cas cv fl inv ke opq no si ex n, 0 <= n < 2 ^ 64 ->
  ms_token (mkSetOpt me cas cv fl inv ke opq no si ex) ("C"%char :: dec n) = Ok (mkSetOpt me true n fl inv ke opq no si ex).
Proof. intros. unfold ms_token. cbn [Ascii.eqb Bool.eqb]. rewrite parse_uint_dec by lia. reflexivity. Qed.
Lemma ms_F : forall me cas cv fl inv ke opq no si ex n, 0 <= n < 2 ^ 31 ->
  ms_token (mkSetOpt me cas cv fl inv ke opq no si ex) ("F"%char :: dec n) = Ok (mkSetOpt me cas cv n inv ke opq no si ex).
Proof. intros. unfold ms_token. cbn [Ascii.eqb Bool.eqb]. rewrite parse_int_dec by lia. reflexivity. Qed.

Lemma ms_command : forall k v tokens o rest, zlen v < 2 ^ 31 ->
  ms_tokens (mkSetOpt true false 0 0 false false 0 false (zlen v) 0) tokens = Ok o -> s_size o = zlen v ->
  ascii_command (B "ms" :: k :: dec (zlen v) :: tokens) ((v ++ crlf) ++ rest)
  = (Ok (mkReq OpcSet k [] None v 0 None (Some o) None), rest).
Proof.
  intros k v tokens o rest V T Z. pose proof (zlen_nonneg _ v). unfold ascii_command. cbn [beq B list_ascii_of_string]. cbn [Ascii.eqb Bool.eqb andb orb].
  rewrite parse_uint_dec by lia. unfold lift_opt, bind at 1, ret at 1. rewrite T. unfold lift, bind at 1. rewrite Z, <- app_assoc.
  rewrite (bind_ok _ _ _ _ _ _ _ (read_value v rest V)).
  rewrite (bind_ok _ _ _ _ _ _ _ (go_sub_prefix (zlen v) v crlf rest eq_refl)). reflexivity.
Qed.

Lemma meta_set_delivered : forall i rq, legal_item PMeta i -> meta_set_req i = Ok rq -> delivered PMeta (OSet i) rq.
Proof.
  intros i rq (Lk & Lf & Le & Lc & Lv) R. destruct (legal_key_word PMeta _ ltac:(discriminate) Lk) as (K1 & K2 & _).
  pose proof (item_flags_range _ _ Lf) as Fr. cbn [flags_bound] in Fr. cbn [legal_exp] in Le.
  assert (Rest : forall tokens o, Forall word tokens ->
      ms_tokens (mkSetOpt true false 0 0 false false 0 false (zlen (it_value i)) 0) tokens = Ok o -> s_size o = zlen (it_value i) ->
      rq = join_sp (B "ms" :: it_key i :: dec (zlen (it_value i)) :: tokens) ++ crlf ++ it_value i ++ crlf ->
      [understood (mkReq OpcSet (it_key i) [] None (it_value i) 0 None (Some o) None)] = intended PMeta (OSet i) -> s_meta o && (s_cas o || (s_cas_value o =? 0)) = true ->
      delivered PMeta (OSet i) rq).
  { intros tokens o Fw T Z E W Sm. eapply ascii_delivered; [reflexivity| | |exact E| |intro rest; apply ms_command; eassumption|exact W|unfold flavour, tidy; cbn [q_opcode q_set q_keys q_flags]; rewrite !andb_true_r; exact Sm].
    - discriminate.
    - words.
    - rewrite E. cbn. discriminate. }
  unfold meta_set_req in R.
  assert (Cases : (it_cas i = 0 /\ 0 <? it_cas i = false) \/ (0 < it_cas i /\ 0 <? it_cas i = true)).
  { destruct (0 <? it_cas i) eqn:E; [right; split; [apply Z.ltb_lt; exact E|reflexivity]|left; split; [apply Z.ltb_ge in E; lia|reflexivity]]. }
  unfold legal_flags in Lf. unfold item_flags in Fr. unfold intended, store_wish, item_flags in Rest.
  assert (Flags : (it_flags i = None) \/ exists f, it_flags i = Some f /\ length f = 4%nat) by (destruct (it_flags i) as [f|]; [right; exists f; tauto|left; reflexivity]).
  destruct Flags as [Ef|(f & Ef & Fl)]; rewrite Ef in *.
  - apply (f_equal (fun x => match x with Ok a => a | _ => [] end)) in R; cbv beta iota in R. subst rq. destruct Cases as [[C E]|[C E]].
    + eapply Rest with (tokens := ["T"%char :: dec (it_exp i)]).
      * constructor; [apply T_word; cbn; lia|constructor].
      * cbn [ms_tokens]. rewrite ms_T by exact Le. reflexivity.
      * reflexivity.
      * rewrite E. cbn [join_sp]. repeat (rewrite <- app_assoc || rewrite <- app_comm_cons). rewrite ?app_nil_l. reflexivity.
      * cbn. rewrite C. reflexivity.
      * reflexivity.
    + eapply Rest with (tokens := ["T"%char :: dec (it_exp i); "C"%char :: dec (it_cas i)]).
      * repeat (constructor; [apply T_word; cbn; lia|]). constructor.
      * cbn [ms_tokens]. rewrite ms_T by exact Le. rewrite ms_C by lia. reflexivity.
      * reflexivity.
      * rewrite E. cbn [join_sp]. repeat (rewrite <- app_assoc || rewrite <- app_comm_cons). rewrite ?app_nil_l. reflexivity.
      * cbn. reflexivity.
      * reflexivity.
  - assert (L4 : zlen f <? 4 = false) by (apply Z.ltb_ge; unfold zlen; lia). rewrite L4 in R.
    assert (F4 : firstn 4 f = f) by (apply firstn_all2; lia). rewrite F4 in R.
    apply (f_equal (fun x => match x with Ok a => a | _ => [] end)) in R; cbv beta iota in R. subst rq. destruct Cases as [[C E]|[C E]].
    + eapply Rest with (tokens := ["T"%char :: dec (it_exp i); "F"%char :: dec (unbe f)]).
      * repeat (constructor; [apply T_word; cbn; lia|]). constructor.
      * cbn [ms_tokens]. rewrite ms_T by exact Le. rewrite ms_F by exact Fr. reflexivity.
      * reflexivity.
      * rewrite E. cbn [join_sp]. repeat (rewrite <- app_assoc || rewrite <- app_comm_cons). rewrite ?app_nil_l. reflexivity.
      * unfold understood. cbn [q_set q_flags q_value q_key q_keys q_opcode q_delta keyless counting s_flag s_exp s_cas s_cas_value].
        rewrite u32_small by lia. rewrite C. reflexivity.
      * reflexivity.
    + eapply Rest with (tokens := ["T"%char :: dec (it_exp i); "C"%char :: dec (it_cas i); "F"%char :: dec (unbe f)]).
      * repeat (constructor; [apply T_word; cbn; lia|]). constructor.
      * cbn [ms_tokens]. rewrite ms_T by exact Le. rewrite ms_C by lia. rewrite ms_F by exact Fr. reflexivity.
      * reflexivity.
      * rewrite E. cbn [join_sp]. repeat (rewrite <- app_assoc || rewrite <- app_comm_cons). rewrite ?app_nil_l. reflexivity.
      * unfold understood. cbn [q_set q_flags q_value q_key q_keys q_opcode q_delta keyless counting s_flag s_exp s_cas s_cas_value].
        rewrite u32_small by lia. reflexivity.
      * reflexivity.
Qed.

Lemma meta_delivered : forall o rq, legal PMeta o -> supported PMeta o -> meta_req o = Ok rq -> delivered PMeta o rq.
Proof.
  intros o rq L U R. destruct o; cbn [legal supported] in L, U; try contradiction;
    cbn [meta_req] in R; try match type of R with Ok _ = _ => apply (f_equal (fun x => match x with Ok a => a | _ => [] end)) in R; cbv beta iota in R; subst rq end.
  - destruct (legal_key_word PMeta _ ltac:(discriminate) L) as (K1 & K2 & _).
    eapply ascii_delivered with (ws := [B "mg"; k; B "v"; B "f"; B "c"; B "t"]) (tail := []) (q := mkReq OpcGet k [] None [] 0 (Some (mg_opt (B "v"))) None None);
      [reflexivity|discriminate|words| |cbn; discriminate|intro; reflexivity|reflexivity|reflexivity].
    cbn [join_sp]. rewrite ?app_nil_r. repeat (rewrite <- app_assoc || rewrite <- app_comm_cons). reflexivity.
  - cbn [meta_req] in R. apply meta_set_delivered; assumption.
  - eapply store_delivered with (opc := OpcAdd); try eassumption; [discriminate|apply L|right; left; reflexivity|discriminate|reflexivity].
  - eapply store_delivered with (opc := OpcReplace); try eassumption; [discriminate|apply L|right; right; left; reflexivity|discriminate|reflexivity].
  - eapply (delete_delivered PMeta _ (B "md") true); try assumption; [discriminate|right; left; reflexivity|discriminate|reflexivity|reflexivity].
  - destruct L as [L [D _]]. eapply (number_delivered PMeta _ (B "incr") OpcIncrement); try assumption; [discriminate|lia|left; reflexivity|reflexivity].
  - destruct L as [L [D _]]. eapply (number_delivered PMeta _ (B "decr") OpcDecrement); try assumption; [discriminate|lia|right; left; reflexivity|reflexivity].
  - eapply (word_delivered PMeta _ (B "flush_all")); [discriminate|left; reflexivity|reflexivity].
  - eapply (word_delivered PMeta _ (B "version")); [discriminate|right; left; reflexivity|reflexivity].
Qed.

(** ** Binary *)
Lemma bin_one_delivered : forall o rq q,
  (match rq with [] => False | c :: _ => code c = 128 end) ->
  (forall rest, read_binary_request (rq ++ rest) = (Ok q, rest)) -> [understood q] = intended PBinary o -> tidy PBinary q = true -> delivered PBinary o rq.
Proof. intros o rq q C R W T p rest P. exists [q]. split; [|split; [exact W|constructor; [exact T|constructor]]]. apply binary_read; [exact P|exact C|apply R]. Qed.

Lemma bin_store_delivered : forall o opc z i rq, legal_item PBinary i -> z = opcode_byte opc -> (opc = OpcSet \/ opc = OpcAdd \/ opc = OpcReplace) ->
  fst (bin_store_req z i) = Ok rq -> intended PBinary o = [store_wish opc i 0] -> delivered PBinary o rq.
Proof.
  intros o opc z i rq (Lk & Lf & Le & Lc & Lv) Z So R W. destruct Lk as [Lk _]. cbn [legal_exp] in Le. pose proof (zlen_nonneg _ (it_value i)).
  assert (Q : exists fl, zlen fl = 4 /\ unbe fl = item_flags i /\ rq = encode_header (store_header z i) ++ fl ++ be 4 (u32 (it_exp i)) ++ it_key i ++ it_value i).
  { unfold bin_store_req in R. cbn [fst] in R. unfold legal_flags in Lf. unfold item_flags. destruct (it_flags i) as [f|].
    - destruct Lf as [Lf _]. assert (L4 : zlen f <? 4 = false) by (apply Z.ltb_ge; unfold zlen; lia). rewrite L4 in R.
      rewrite firstn_all2 in R by lia. exists f. split; [unfold zlen; rewrite Lf; reflexivity|]. split; [reflexivity|].
      apply (f_equal (fun x => match x with Ok a => a | _ => [] end)) in R. symmetry. exact R.
    - exists (be 4 0). split; [reflexivity|]. split; [reflexivity|].
      apply (f_equal (fun x => match x with Ok a => a | _ => [] end)) in R. symmetry. exact R. }
  destruct Q as (fl & Lfl & Ufl & ->).
  eapply bin_one_delivered with (q := mkReq opc (it_key i) [] (Some fl) (it_value i) 0 None (Some (exp_opt (unbe (be 4 (u32 (it_exp i)))))) None).
  - reflexivity.
  - intro rest. repeat rewrite <- app_assoc. apply bin_store_request; try assumption; cbn [store_header rq_opcode rq_key_len rq_extra_len rq_total];
      rewrite ?u16_small by lia; rewrite ?u32_small by lia; try lia; try reflexivity.
    subst z. destruct opc; cbn; lia.
  - rewrite W. unfold understood, store_wish. cbn [q_set q_flags q_value q_key q_keys q_opcode q_delta exp_opt s_flag s_exp s_cas s_cas_value].
    rewrite Ufl. rewrite (u32_small (it_exp i)) by lia. rewrite unbe_be_small by exact Le.
    destruct So as [->|[->| ->]]; reflexivity.
  - unfold tidy. cbn [q_opcode q_set q_keys q_flags exp_opt s_cas s_cas_value]. replace (length fl) with 4%nat by (unfold zlen in Lfl; lia). destruct So as [->|[->| ->]]; reflexivity.
Qed.

Lemma be1_first : forall h (l : bytes), match encode_header h ++ l with [] => False | c :: _ => code c = 128 end.
Proof. reflexivity. Qed.

Lemma getkq_reads : forall ks p rest, (p = None \/ p = Some ProtoBinary) -> Forall (legal_key PBinary) ks ->
  exists qs p', reads p (flat_map (fun k => encode_header (key_header op_getkq k) ++ k) ks ++ rest) qs p' rest
    /\ map understood qs = map (fun k => get_wish [k]) ks /\ Forall (fun q => tidy PBinary q = true) qs /\ (p' = None \/ p' = Some ProtoBinary).
Proof.
  induction ks as [|k ks IH]; intros p rest P F.
  - exists [], p. split; [constructor|]. split; [reflexivity|]. split; [constructor|exact P].
  - inversion F as [|? ? [Lk _] F']; subst. cbn [flat_map]. rewrite <- app_assoc.
    destruct (IH (Some ProtoBinary) rest (or_intror eq_refl) F') as (qs & p' & R & W & T & P').
    eexists (_ :: qs), p'. split; [|split; [|split; [|exact P']]].
    + eapply (reads_app _ _ [_]); [apply binary_read; [exact P|apply be1_first|]|exact R].
      rewrite <- app_assoc. apply bin_getkq_request; cbn [key_header rq_opcode rq_key_len rq_extra_len rq_total];
        rewrite ?u16_small by lia; rewrite ?u32_small by lia; unfold op_getkq; try lia; reflexivity.
    + cbn [map]. rewrite W. reflexivity.
    + constructor; [reflexivity|exact T].
Qed.

Lemma bin_delta_delivered : forall o opc z hdr k d e, legal_key PBinary k -> legal_delta PBinary d e ->
  z = opcode_byte opc -> (opc = OpcIncrement \/ opc = OpcDecrement) -> intended PBinary o = [delta_wish PBinary opc k d e] ->
  forall rq, fst (bin_incr_req hdr z k d e) = Ok rq -> delivered PBinary o rq.
Proof.
  intros o opc z hdr k d e [Lk _] [Ld Le] Z So W rq R. specialize (Le eq_refl). unfold bin_incr_req in R. cbn [fst] in R.
  apply (f_equal (fun x => match x with Ok a => a | _ => [] end)) in R; cbv beta iota in R. subst rq.
  eapply bin_one_delivered with (q := mkReq opc k [] None [] (i64 (unbe (be 8 (u64 d)))) None (Some (exp_opt (unbe (be 4 (u32 e))))) None).
  - reflexivity.
  - intro rest. repeat rewrite <- app_assoc. apply bin_delta_request; try assumption; cbn [rq_opcode rq_key_len rq_extra_len rq_total];
      rewrite ?u16_small by lia; rewrite ?u32_small by lia; try lia; try reflexivity.
    subst z. destruct opc; cbn; lia.
  - rewrite W. unfold understood, delta_wish. cbn [q_set q_flags q_value q_key q_keys q_opcode q_delta exp_opt s_flag s_exp s_cas s_cas_value].
    rewrite u64_small by lia. rewrite (u32_small e) by lia. rewrite (unbe_be_small 8 d) by (change (8 * Z.of_nat 8) with 64; lia).
    rewrite (unbe_be_small 4 e) by (change (8 * Z.of_nat 4) with 32; lia). rewrite i64_small by lia.
    destruct So as [->| ->]; reflexivity.
  - destruct So as [->| ->]; reflexivity.
Qed.

Lemma bin_delivered : forall h o rq, legal PBinary o -> supported PBinary o -> fst (bin_req h o) = Ok rq -> delivered PBinary o rq.
Proof.
  intros h o rq L U R. destruct o; cbn [legal supported] in L, U; cbn [bin_req bin_touch_req fst] in R.
  - apply (f_equal (fun x => match x with Ok a => a | _ => [] end)) in R; cbv beta iota in R; subst rq. destruct L as [L _].
    eapply bin_one_delivered with (q := key_req OpcGet k); [reflexivity| |reflexivity|reflexivity]. intro rest. rewrite <- app_assoc.
    apply bin_get_request; cbn [key_header rq_opcode rq_key_len rq_extra_len rq_total]; rewrite ?u16_small by lia; rewrite ?u32_small by lia; unfold op_get; try lia; reflexivity.
  - apply (f_equal (fun x => match x with Ok a => a | _ => [] end)) in R; cbv beta iota in R; subst rq. destruct L as [_ L].
    intros p rest P. rewrite <- app_assoc. destruct (getkq_reads ks p (encode_header (bare_header op_noop) ++ rest) P L) as (qs & p' & Rd & W & T & P').
    exists (qs ++ [key_req OpcNoop []]). split; [|split; [|apply Forall_app; split; [exact T|constructor; [reflexivity|constructor]]]].
    + eapply reads_app; [exact Rd|]. apply binary_read; [exact P'|reflexivity|].
      apply bin_bare_request; first [reflexivity|split; [discriminate|reflexivity]].
    + rewrite map_app, W. reflexivity.
  - eapply bin_store_delivered with (opc := OpcSet); try eassumption; [reflexivity|auto|]. cbn [intended]. rewrite U. reflexivity.
  - eapply bin_store_delivered with (opc := OpcAdd); try eassumption; [apply L|reflexivity|auto|reflexivity].
  - eapply bin_store_delivered with (opc := OpcReplace); try eassumption; [apply L|reflexivity|auto|reflexivity].
  - apply (f_equal (fun x => match x with Ok a => a | _ => [] end)) in R; cbv beta iota in R; subst rq. destruct L as [L _].
    eapply bin_one_delivered with (q := key_req OpcDelete k); [reflexivity| |reflexivity|reflexivity]. intro rest. rewrite <- app_assoc.
    apply bin_delete_request; cbn [key_header rq_opcode rq_key_len rq_extra_len rq_total]; rewrite ?u16_small by lia; rewrite ?u32_small by lia; unfold op_delete; try lia; reflexivity.
  - destruct L as [L D]. eapply bin_delta_delivered with (opc := OpcIncrement); try eassumption; [reflexivity|auto|reflexivity].
  - destruct L as [L D]. eapply bin_delta_delivered with (opc := OpcDecrement); try eassumption; [reflexivity|auto|reflexivity].
  - apply (f_equal (fun x => match x with Ok a => a | _ => [] end)) in R; cbv beta iota in R; subst rq. destruct L as [[L _] Le]. cbn [legal_exp] in Le.
    eapply bin_one_delivered with (q := mkReq OpcTouch k [] None [] 0 None (Some (exp_opt (unbe (be 4 (u32 expiration))))) None).
    + reflexivity.
    + intro rest. repeat rewrite <- app_assoc.
      apply (bin_touch_request (mkReqHeader op_touch (u16 (zlen k)) 4 0 0 (u32 (zlen k + 4)) 0 0) rest).
      * split; [discriminate|reflexivity].
      * cbn [rq_key_len]. rewrite u16_small by lia. lia.
      * split; [discriminate|reflexivity].
      * cbn [rq_total]. rewrite u32_small by lia. lia.
      * reflexivity.
      * apply zlen_be.
      * reflexivity.
      * cbn [rq_key_len]. apply u16_small. lia.
    + unfold understood. cbn [q_set q_flags q_value q_key q_keys q_opcode q_delta exp_opt s_flag s_exp s_cas s_cas_value keyless counting].
      rewrite (u32_small expiration) by exact Le. rewrite unbe_be_small by exact Le. reflexivity.
    + reflexivity.
  - apply (f_equal (fun x => match x with Ok a => a | _ => [] end)) in R; cbv beta iota in R; subst rq.
    eapply bin_one_delivered with (q := key_req OpcFlush []); [reflexivity| |reflexivity|reflexivity]. intro rest. apply bin_bare_request; first [reflexivity|split; [discriminate|reflexivity]].
  - apply (f_equal (fun x => match x with Ok a => a | _ => [] end)) in R; cbv beta iota in R; subst rq.
    eapply bin_one_delivered with (q := key_req OpcVersion []); [reflexivity| |reflexivity|reflexivity]. intro rest. apply bin_bare_request; first [reflexivity|split; [discriminate|reflexivity]].
Qed.
