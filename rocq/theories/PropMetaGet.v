(** * C84: a meta get is answered with the metadata it asks for. *)
From Verif Require Import GoBytes GoNum GoIO Item ClientBinary Cache Daemon Spec Intent ServerTypes ServerParse ServerWrite Serve ServerSpec PLib PDaemon PText PServer PServe PropServer PropServerReply.
Local Open Scope Z_scope.

(** ** Specification: a reader of replies *)
(** The meta protocol the server speaks (memcached 1.5's): a reply is the line "VA <size> <flags> <token>*" and a data
    block of <size> bytes. The tokens belong, in order, to the letters of <flags> that ask for one: cas number, client
    flags, key, size and time to live. *)
Definition wants_token (c : ascii) : bool := existsb (Ascii.eqb c) ["c"; "f"; "k"; "s"; "t"]%char.
Fixpoint pair_up (letters : bytes) (ts : list bytes) : option (list (ascii * bytes)) :=
  match letters with
  | [] => match ts with [] => Some [] | _ => None end
  | c :: l => if wants_token c then match ts with t :: ts' => option_map (cons (c, t)) (pair_up l ts') | [] => None end else pair_up l ts
  end.
Record meta_item := mkMeta { mi_flags : bytes; mi_tokens : list (ascii * bytes); mi_value : bytes }.
(** The item read, and the bytes after it. *)
Definition read_meta (s : bytes) : option (meta_item * bytes) :=
  match cut_line s with
  | Some (l, s') =>
      match tokens l with
      | va :: size :: fl :: ts =>
          match beq va (B "VA"), parse_uint 32 size, pair_up fl ts with
          | true, Some n, Some m =>
              match skipn (Z.to_nat n) s' with
              | a :: b :: rest => if beq [a; b] eol then Some (mkMeta fl m (firstn (Z.to_nat n) s'), rest) else None
              | _ => None
              end
          | _, _, _ => None
          end
      | _ => None
      end
  | None => None
  end.
(** What a letter asks for. *)
Definition asked (k : bytes) (r : sresponse) (c : ascii) : bytes :=
  if Ascii.eqb c "c" then dec (r_cas r) else if Ascii.eqb c "f" then dec (response_flags r) else if Ascii.eqb c "k" then k
  else if Ascii.eqb c "s" then dec (zlen (r_value r)) else dec (r_ttl r).
Definition answer_of_get (k fl : bytes) (r : sresponse) : meta_item := mkMeta fl (map (fun c => (c, asked k r c)) (filter wants_token fl)) (r_value r).
(** The handler answers a get of [k] with [r]. *)
Definition answers_get {H} (h : handler H) (st : H) (k : bytes) (r : sresponse) : Prop :=
  forall q, q_opcode q = OpcGet -> q_key q = k -> snd (h st q) = Ok [r].
Definition printable (r : sresponse) : Prop := zlen (r_value r) < 2 ^ 32 /\ match r_flags r with Some f => length f = 4%nat | None => True end.
(** The full statement: the reader gets what was asked for, and its next read begins where the next reply begins. *)
Definition meta_get_answered (ok : bytes -> Prop) : Prop := forall H (h : handler H) st k fl more rest r,
  k <> [] -> word k -> fl <> [] -> word fl -> Forall word more -> ok fl -> answers_get h st k r -> printable r ->
  exists st' x l ft, serve_conn h st (join_sp (B "mg" :: k :: fl :: more) ++ crlf ++ rest) = (st', x :: l, ft)
    /\ read_meta (replies (x :: l)) = Some (answer_of_get k fl r, replies l).
Definition C84_meta_get_metadata : Prop := meta_get_answered (fun _ => True).

(** ** Proof *)
Lemma pair_up_ok : forall f fl, pair_up fl (map f (filter wants_token fl)) = Some (map (fun c => (c, f c)) (filter wants_token fl)).
Proof. intro f. induction fl as [|c fl IH]; [reflexivity|]. cbn [pair_up filter]. destruct (wants_token c); [cbn [map]; rewrite IH; reflexivity|exact IH]. Qed.
Lemma flat_tokens : forall q r n fl, flat_map (meta_flag_text q r n) fl
  = flat_map (fun c => SP :: (if Ascii.eqb c "c" then dec (r_cas r) else if Ascii.eqb c "f" then dec n else if Ascii.eqb c "k" then q_key q else if Ascii.eqb c "s" then dec (zlen (r_value r)) else dec (r_ttl r))) (filter wants_token fl).
Proof.
  intros q r n. induction fl as [|c fl IH]; [reflexivity|]. cbn [flat_map filter]. rewrite IH. unfold wants_token at 2, meta_flag_text. cbn [existsb].
  destruct (Ascii.eqb c "c") eqn:E1; [cbn [orb flat_map]; rewrite E1; reflexivity|]. destruct (Ascii.eqb c "f") eqn:E2; [cbn [orb flat_map]; rewrite E1, E2; reflexivity|].
  destruct (Ascii.eqb c "k") eqn:E3; [cbn [orb flat_map]; rewrite E1, E2, E3; reflexivity|]. destruct (Ascii.eqb c "s") eqn:E4; [cbn [orb flat_map]; rewrite E1, E2, E3, E4; reflexivity|].
  destruct (Ascii.eqb c "t") eqn:E5; [cbn [orb flat_map]; rewrite E1, E2, E3, E4; reflexivity|]. reflexivity.
Qed.
Lemma join_flat : forall w ts, w ++ flat_map (fun t => SP :: t) ts = join_sp (w :: ts).
Proof.
  intros w ts. revert w. induction ts as [|t ts IH]; intro w; [cbn; apply app_nil_r|]. cbn [flat_map]. change (join_sp (w :: t :: ts)) with (w ++ SP :: join_sp (t :: ts)). rewrite <- IH. reflexivity.
Qed.
Lemma flat_map_map : forall A B' C (f : A -> B') (g : B' -> list C) l, flat_map g (map f l) = flat_map (fun x => g (f x)) l.
Proof. intros A B' C f g. induction l as [|a l IH]; [reflexivity|]. cbn [map flat_map]. rewrite IH. reflexivity. Qed.
Lemma mg_value : forall fl, g_value (mg_opt fl) = true <-> In "v"%char fl.
Proof.
  intro fl. unfold mg_opt. rewrite (mg_fold "v"%char g_value); [|cbn; tauto]. cbn. split; [intros [Q|Q]; [discriminate Q|exact Q]|auto].
Qed.
Lemma mg_request_flag : forall l o, g_request_flag (fold_left mg_flag l o) = g_request_flag o.
Proof.
  induction l as [|a l IH]; intro o; [reflexivity|]. cbn [fold_left]. rewrite IH. destruct o. unfold mg_flag.
  repeat match goal with |- context [if ?b then _ else _] => destruct b end; reflexivity.
Qed.
Lemma serve_mg : forall H (h : handler H) st k fl more rest r,
  k <> [] -> word k -> fl <> [] -> word fl -> Forall word more -> answers_get h st k r -> printable r ->
  exists st' x l ft, serve_conn h st (join_sp (B "mg" :: k :: fl :: more) ++ crlf ++ rest) = (st', x :: l, ft)
    /\ sd_reply x = join_sp (B "VA" :: dec (zlen (r_value r)) :: fl :: map (asked k r) (filter wants_token fl)) ++ crlf ++ (if g_value (mg_opt fl) then r_value r else []) ++ crlf.
Proof.
  intros H h st k fl more rest r Nk Wk Nf Wf Wm A [Lv Ff]. unfold serve_conn. cbn [serve]. set (s := join_sp _ ++ crlf ++ rest).
  assert (R : read_request None s = ((Ok (mkReq OpcGet k [] None [] 0 (Some (mg_opt fl)) None None), rest), Some ProtoAscii)).
  { assert (E : read_request None s = (read_ascii_request s, Some ProtoAscii)) by reflexivity. rewrite E. unfold s.
    rewrite ascii_words; [reflexivity|discriminate|]. constructor; [apply wordb_word; reflexivity|]. constructor; [exact Wk|]. constructor; assumption. }
  rewrite R. specialize (A (mkReq OpcGet k [] None [] 0 (Some (mg_opt fl)) None None) eq_refl eq_refl).
  destruct (h st _) as [st1 res]. cbn [snd] in A. subst res.
  assert (Fn : flag_number r = Ok (response_flags r)).
  { unfold flag_number, response_flags. destruct (r_flags r) as [f|]; cbn [opt_bytes]; [|reflexivity].
    assert (Z4 : zlen f = 4) by (unfold zlen; rewrite Ff; reflexivity). rewrite Z4. change (0 <? 4) with true. change (4 <? 4) with false. cbv iota. rewrite firstn_all2 by lia. reflexivity. }
  cbn [write_response]. unfold write_ascii_response. cbn [q_opcode q_get map concat_outcomes]. unfold meta_get_block_bytes. rewrite Fn. cbn [oapp].
  destruct (serve h _ _ st1 rest) as [[st2 l] ft]. eexists _, _, _, _. split; [reflexivity|]. cbn [sd_reply].
  rewrite flat_tokens. cbn [q_key]. unfold mg_opt at 1 2. rewrite mg_request_flag. cbn [g_request_flag]. rewrite !app_nil_r.
  change (join_sp (B "VA" :: dec (zlen (r_value r)) :: fl :: map (asked k r) (filter wants_token fl))) with (B "VA" ++ B " " ++ dec (zlen (r_value r)) ++ B " " ++ join_sp (fl :: map (asked k r) (filter wants_token fl))).
  rewrite <- join_flat, flat_map_map. repeat rewrite <- app_assoc. unfold asked. reflexivity.
Qed.

(** ** C84 *)
(** With 'v' among the letters, whatever other letters there are and whatever is sent after. *)
Theorem C84_meta_get_metadata_partial : meta_get_answered (fun fl => In "v"%char fl).
Proof.
  intros H h st k fl more rest r Nk Wk Nf Wf Wm Iv A P. destruct (serve_mg H h st k fl more rest r Nk Wk Nf Wf Wm A P) as (st' & x & l & ft & E & Ex).
  exists st', x, l, ft. split; [exact E|]. unfold replies. cbn [flat_map]. rewrite Ex. fold (replies l). rewrite (proj2 (mg_value fl) Iv).
  set (ws := B "VA" :: _). assert (Ww : Forall word ws /\ Forall (fun w => w <> []) ws).
  { assert (Ak : forall c, word (asked k r c) /\ asked k r c <> []).
    { intro c. unfold asked. repeat match goal with |- context [if ?b then _ else _] => destruct b end; (split; [first [apply dec_word|exact Wk]|first [apply dec_nonempty|exact Nk]]). }
    unfold ws. split; (constructor; [first [apply wordb_word; reflexivity|discriminate]|]; constructor; [first [apply dec_word|apply dec_nonempty]|]; constructor; [assumption|]); apply Forall_map, Forall_forall; intros c _; apply Ak. }
  destruct Ww as [Ww Wn]. unfold read_meta. repeat rewrite <- app_assoc. change (crlf ++ ?y) with (CR :: LF :: y).
  rewrite cut_line_app by (apply join_line; exact Ww). rewrite tokens_join by (assumption || discriminate). unfold ws. cbv iota beta. change (beq (B "VA") (B "VA")) with true.
  destruct P as [Lv _]. pose proof (zlen_nonneg _ (r_value r)). rewrite parse_uint_dec by lia. rewrite pair_up_ok.
  assert (Lz : Z.to_nat (zlen (r_value r)) = length (r_value r)) by (unfold zlen; apply Nat2Z.id). rewrite Lz.
  rewrite skipn_app, skipn_all, Nat.sub_diag. cbn [skipn app]. change (beq [CR; LF] eol) with true. cbv iota.
  rewrite firstn_app, Nat.sub_diag, firstn_all. cbn [firstn]. rewrite app_nil_r. reflexivity.
Qed.
Print Assumptions C84_meta_get_metadata_partial.

(** Exactly then: without 'v' the line announces the size of the value but the value does not follow, so unless it is
    empty the reader fails when nothing else is sent. *)
Theorem C84_meta_get_without_value : forall H (h : handler H) st k fl more r,
  k <> [] -> word k -> fl <> [] -> word fl -> Forall word more -> ~ In "v"%char fl -> answers_get h st k r -> printable r -> r_value r <> [] ->
  read_meta (replies (snd (fst (serve_conn h st (join_sp (B "mg" :: k :: fl :: more) ++ crlf))))) = None.
Proof.
  intros H h st k fl more r Nk Wk Nf Wf Wm Iv A P Nv. destruct (serve_mg H h st k fl more [] r Nk Wk Nf Wf Wm A P) as (st' & x & l & ft & E & Ex).
  rewrite app_nil_r in E. rewrite E. cbn [fst snd].
  assert (El : l = []).
  { revert E. unfold serve_conn. cbn [serve].
    assert (R : read_request None (join_sp (B "mg" :: k :: fl :: more) ++ crlf) = ((Ok (mkReq OpcGet k [] None [] 0 (Some (mg_opt fl)) None None), []), Some ProtoAscii)).
    { change (read_request None (join_sp (B "mg" :: k :: fl :: more) ++ crlf)) with (read_ascii_request (join_sp (B "mg" :: k :: fl :: more) ++ crlf), Some ProtoAscii).
      rewrite <- (app_nil_r crlf). rewrite ascii_words; [reflexivity|discriminate|]. constructor; [apply wordb_word; reflexivity|]. constructor; [exact Wk|]. constructor; assumption. }
    rewrite R. destruct (h st _) as [st1 [res|e|]]; [|intro Q; injection Q as _ _ <- _; reflexivity|intro Q; injection Q as _ _ <- _; reflexivity].
    destruct (write_response _ _ res); [|intro Q; injection Q as _ _ <- _; reflexivity|intro Q; injection Q as _ _ <- _; reflexivity].
    destruct (length _); cbn; intro Q; injection Q as _ _ <- _; reflexivity. }
  subst l. unfold replies. cbn [flat_map]. rewrite Ex, app_nil_r.
  assert (Gv : g_value (mg_opt fl) = false) by (destruct (g_value (mg_opt fl)) eqn:Q; [destruct (Iv (proj1 (mg_value fl) Q))|reflexivity]). rewrite Gv.
  set (ws := B "VA" :: _). assert (Ww : Forall word ws /\ Forall (fun w => w <> []) ws).
  { assert (Ak : forall c, word (asked k r c) /\ asked k r c <> []).
    { intro c. unfold asked. repeat match goal with |- context [if ?b then _ else _] => destruct b end; (split; [first [apply dec_word|exact Wk]|first [apply dec_nonempty|exact Nk]]). }
    unfold ws. split; (constructor; [first [apply wordb_word; reflexivity|discriminate]|]; constructor; [first [apply dec_word|apply dec_nonempty]|]; constructor; [assumption|]); apply Forall_map, Forall_forall; intros c _; apply Ak. }
  destruct Ww as [Ww Wn]. unfold read_meta. cbn [app]. change (crlf ++ crlf) with (CR :: LF :: crlf).
  rewrite cut_line_app by (apply join_line; exact Ww). rewrite tokens_join by (assumption || discriminate). unfold ws. cbv iota beta. change (beq (B "VA") (B "VA")) with true.
  destruct P as [Lv _]. pose proof (zlen_nonneg _ (r_value r)). rewrite parse_uint_dec by lia. rewrite pair_up_ok.
  assert (Lz : Z.to_nat (zlen (r_value r)) = length (r_value r)) by (unfold zlen; apply Nat2Z.id). rewrite Lz.
  destruct (r_value r) as [|a [|b v]]; [congruence|reflexivity|]. cbn [length skipn crlf]. destruct (length v); reflexivity.
Qed.
Print Assumptions C84_meta_get_without_value.

Definition two_bytes : sresponse := mkRes (B "k") None (Some (be 4 7)) (B "ab") 12 60.
Theorem C84_meta_get_metadata_refuted : ~ C84_meta_get_metadata.
Proof.
  intro H. assert (Wk : word (B "k")) by (apply wordb_word; reflexivity). assert (Ws : word (B "s")) by (apply wordb_word; reflexivity).
  assert (A : answers_get (answering two_bytes) tt (B "k") two_bytes) by (intros q _ _; reflexivity). assert (P : printable two_bytes) by (split; [vm_compute; reflexivity|reflexivity]).
  destruct (H unit (answering two_bytes) tt (B "k") (B "s") [] [] two_bytes ltac:(discriminate) Wk ltac:(discriminate) Ws (Forall_nil _) Logic.I A P) as (st' & x & l & ft & E & Rd).
  pose proof (C84_meta_get_without_value unit (answering two_bytes) tt (B "k") (B "s") [] two_bytes ltac:(discriminate) Wk ltac:(discriminate) Ws (Forall_nil _) ltac:(intros [Q|[]]; discriminate Q) A P ltac:(discriminate)) as X.
  rewrite app_nil_r in E. rewrite E in X. cbn [fst snd] in X. rewrite X in Rd. discriminate Rd.
Qed.
Print Assumptions C84_meta_get_metadata_refuted.

Example C84_met : answers_get (answering two_bytes) tt (B "k") two_bytes /\ printable two_bytes /\ In "v"%char (B "vtfckshq")
  /\ answer_of_get (B "k") (B "vtfckshq") two_bytes = mkMeta (B "vtfckshq") [("t"%char, B "60"); ("f"%char, B "7"); ("c"%char, B "12"); ("k"%char, B "k"); ("s"%char, B "2")] (B "ab")
  /\ read_meta (replies (snd (fst (serve_conn (answering two_bytes) tt (B "mg k vtfckshq" ++ crlf ++ B "mg k v" ++ crlf)))))
     = Some (answer_of_get (B "k") (B "vtfckshq") two_bytes, B "VA 2 v" ++ crlf ++ B "ab" ++ crlf).
Proof.
  split; [intros q _ _; reflexivity|]. split; [split; [vm_compute; reflexivity|reflexivity]|]. split; [left; reflexivity|]. split; vm_compute; reflexivity.
Qed.
