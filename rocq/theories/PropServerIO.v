(** * C61: replies on a connection that may fail. *)
From Verif Require Import GoBytes GoNum GoIO ServerTypes ServerParse ServerWrite Serve GoWriter ServerIO ClientBinary PLib PWriter PServe.
Local Open Scope nat_scope.

(** ** WriteString *)
Lemma string_done : forall f b p, bw_err b = true -> bw_write_string (S f) b p = Some (false, b).
Proof. intros f b p E. cbn [bw_write_string]. rewrite E, andb_false_r. reflexivity. Qed.
Lemma string_spec : forall f b p, healthy b -> 0 < bw_size b -> length p + (if available b =? 0 then 2 else 1) <= f ->
  exists ok b', bw_write_string f b p = Some (ok, b') /\ wrote (limit b) (wout b ++ p) ok b'.
Proof.
  induction f as [|f IH]; intros b p Hb Sz F; [destruct (available b =? 0); lia|]. cbn [bw_write_string].
  destruct Hb as [E L]. rewrite E. destruct (Nat.ltb_spec (available b) (length p)) as [H|H]; cbn [andb negb].
  - set (n := available b) in *. set (b1 := mkBW (bw_size b) (bw_buf b ++ firstn n p) false (bw_conn b)).
    assert (H1 : healthy b1). { split; [reflexivity|]. unfold b1. cbn [bw_buf bw_size]. rewrite app_length, firstn_length. unfold n, available. lia. }
    assert (O1 : wout b1 = wout b ++ firstn n p) by (unfold wout, b1; cbn [bw_conn bw_buf]; rewrite app_assoc; reflexivity).
    pose proof (flush_spec b1 H1) as W. pose proof (flush_size b1) as Z. destruct (bw_flush b1) as [ok b2]. destruct W as [W Wb]. cbn [snd] in *. destruct ok.
    + cbn [wrote] in W. destruct W as (H2 & L2 & O2).
      assert (A2 : available b2 = bw_size b) by (unfold available; rewrite Wb, Z; cbn; lia).
      destruct (IH b2 (skipn n p) H2) as (ok & b' & Eb & W).
      * rewrite Z. exact Sz.
      * rewrite A2, skipn_length. destruct (Nat.eqb_spec (bw_size b) 0); [lia|]. destruct (Nat.eqb_spec n 0); lia.
      * exists ok, b'. split; [exact Eb|]. rewrite L2, O2, O1, <- app_assoc, firstn_skipn in W. exact W.
    + cbn [wrote] in W. destruct W as (E2 & L2 & S2 & G2). destruct f as [|f]; [destruct (n =? 0); lia|]. rewrite string_done by exact E2. exists false, b2. split; [reflexivity|].
      cbn [wrote]. split; [exact E2|]. split; [exact L2|]. replace (limit b) with (limit b1) by reflexivity.
      assert (Sp : wout b ++ p = wout b1 ++ skipn n p) by (rewrite O1, <- app_assoc, firstn_skipn; reflexivity). rewrite Sp. split.
      * rewrite S2, firstn_app. replace (limit b1 - length (wout b1)) with 0 by lia. rewrite firstn_O, app_nil_r. reflexivity.
      * rewrite app_length. lia.
  - exists true. eexists. split; [reflexivity|]. unfold available in H. cbn [wrote]. split; [split; [reflexivity|cbn [bw_buf bw_size]; rewrite app_length; lia]|].
    split; [reflexivity|]. unfold wout. cbn [bw_conn bw_buf]. rewrite app_assoc. reflexivity.
Qed.
Lemma string_step_spec : forall b p, healthy b -> 0 < bw_size b -> let '(ok, b') := string_step b p in wrote (limit b) (wout b ++ p) ok b'.
Proof.
  intros b p Hb Sz. unfold string_step. destruct (string_spec (length p + 3) b p Hb Sz) as (ok & b' & -> & W); [destruct (available b =? 0); lia|exact W].
Qed.
Lemma string_size : forall f b p ok b', bw_write_string f b p = Some (ok, b') -> bw_size b' = bw_size b.
Proof.
  induction f as [|f IH]; intros b p ok b' E; cbn [bw_write_string] in E; [discriminate|].
  destruct ((available b <? length p) && negb (bw_err b)).
  - rewrite (IH _ _ _ _ E), flush_size. reflexivity.
  - destruct (bw_err b); injection E as _ <-; reflexivity.
Qed.
Lemma string_step_size : forall b p, bw_size (snd (string_step b p)) = bw_size b.
Proof. intros b p. unfold string_step. destruct (bw_write_string _ b p) as [[ok b']|] eqn:E; [|reflexivity]. exact (string_size _ _ _ _ _ E). Qed.
Lemma string_step_done : forall b p, bw_err b = true -> string_step b p = (false, b).
Proof. intros. unfold string_step. rewrite Nat.add_comm. cbn [Nat.add]. rewrite string_done by assumption. reflexivity. Qed.
Lemma write_step_done : forall b p, bw_err b = true -> write_step b p = (false, b).
Proof. intros. unfold write_step. rewrite Nat.add_comm. cbn [Nat.add]. rewrite write_done by assumption. reflexivity. Qed.

(** ** Batches *)
Fixpoint batch_bytes (ws : list swrite) : bytes :=
  match ws with [] => [] | SW _ p :: ws' | SS _ p :: ws' => p ++ batch_bytes ws' | SPanic :: ws' => batch_bytes ws' end.
Definition quiet (ws : list swrite) : Prop := Forall (fun w => match w with SPanic => False | _ => True end) ws.
Lemma batch_bytes_app : forall a c, batch_bytes (a ++ c) = batch_bytes a ++ batch_bytes c.
Proof. induction a as [|[ch p|ch p|] a IH]; intro c; cbn [batch_bytes app]; rewrite ?IH, ?app_assoc; reflexivity. Qed.
Lemma quiet_app : forall a c, quiet a -> quiet c -> quiet (a ++ c).
Proof. intros. apply Forall_app. split; assumption. Qed.

Lemma batch_stuck : forall ws b, bw_err b = true -> quiet ws -> send_batch b ws = (Err EIO, b).
Proof.
  induction ws as [|[ch p|ch p|] ws IH]; intros b E N; cbn [send_batch].
  - unfold bw_flush. rewrite E. reflexivity.
  - rewrite write_step_done by exact E. destruct ch; [reflexivity|]. cbn [andb]. apply IH; [exact E|]. inversion N; assumption.
  - rewrite string_step_done by exact E. destruct ch; [reflexivity|]. cbn [andb]. apply IH; [exact E|]. inversion N; assumption.
  - inversion N; contradiction.
Qed.
Lemma batch_spec : forall ws b, healthy b -> 0 < bw_size b -> quiet ws ->
  (fst (send_batch b ws) = Ok tt /\ wrote (limit b) (wout b ++ batch_bytes ws) true (snd (send_batch b ws)) /\ bw_buf (snd (send_batch b ws)) = [])
  \/ (fst (send_batch b ws) = Err EIO /\ wrote (limit b) (wout b ++ batch_bytes ws) false (snd (send_batch b ws))).
Proof.
  induction ws as [|[ch p|ch p|] ws IH]; intros b Hb Sz N; cbn [send_batch batch_bytes].
  - rewrite app_nil_r. pose proof (flush_spec b Hb) as F. destruct (bw_flush b) as [[|] b']; destruct F as [F G]; cbn [fst snd]; [left|right]; auto.
  - inversion N as [|w l _ N']; subst. pose proof (write_step_spec b p Hb) as W. pose proof (write_step_size b p) as Z. destruct (write_step b p) as [[|] b']; cbn [snd] in Z.
    + rewrite andb_false_r. cbn [wrote] in W. destruct W as (H' & L' & O'). specialize (IH b' H' ltac:(lia) N'). rewrite L', O', <- app_assoc in IH. exact IH.
    + right. destruct ch; cbn [andb negb fst snd].
      * split; [reflexivity|]. rewrite app_assoc. apply wrote_more. exact W.
      * rewrite batch_stuck; [|apply W|exact N']. split; [reflexivity|]. cbn [snd]. rewrite app_assoc. apply wrote_more. exact W.
  - inversion N as [|w l _ N']; subst. pose proof (string_step_spec b p Hb Sz) as W. pose proof (string_step_size b p) as Z. destruct (string_step b p) as [[|] b']; cbn [snd] in Z.
    + rewrite andb_false_r. cbn [wrote] in W. destruct W as (H' & L' & O'). specialize (IH b' H' ltac:(lia) N'). rewrite L', O', <- app_assoc in IH. exact IH.
    + right. destruct ch; cbn [andb negb fst snd].
      * split; [reflexivity|]. rewrite app_assoc. apply wrote_more. exact W.
      * rewrite batch_stuck; [|apply W|exact N']. split; [reflexivity|]. cbn [snd]. rewrite app_assoc. apply wrote_more. exact W.
  - inversion N; contradiction.
Qed.
Lemma batch_size : forall ws b, bw_size (snd (send_batch b ws)) = bw_size b.
Proof.
  induction ws as [|[ch p|ch p|] ws IH]; intro b; cbn [send_batch].
  - pose proof (flush_size b). destruct (bw_flush b) as [ok b']. exact H.
  - pose proof (write_step_size b p) as Z. destruct (write_step b p) as [ok b']; cbn [snd] in Z. destruct (ch && negb ok); [exact Z|]. rewrite IH. exact Z.
  - pose proof (string_step_size b p) as Z. destruct (string_step b p) as [ok b']; cbn [snd] in Z. destruct (ch && negb ok); [exact Z|]. rewrite IH. exact Z.
  - reflexivity.
Qed.

(** An idle writer over a connection that has taken [sent] and takes [room] more bytes. *)
Definition idle (sent : bytes) (room : nat) : bwriter := new_bwriter (mkWconn sent room).
Lemma batch_idle : forall ws sent room, quiet ws ->
  if length (batch_bytes ws) <=? room then send_batch (idle sent room) ws = (Ok tt, idle (sent ++ batch_bytes ws) (room - length (batch_bytes ws)))
  else exists b, send_batch (idle sent room) ws = (Err EIO, b) /\ wc_sent (bw_conn b) = sent ++ firstn room (batch_bytes ws).
Proof.
  intros ws sent room N. assert (Hh : healthy (idle sent room)) by (split; [reflexivity|apply Nat.le_0_l]).
  assert (Sz : 0 < bw_size (idle sent room)) by (apply Nat.ltb_lt; reflexivity).
  pose proof (batch_spec ws (idle sent room) Hh Sz N) as S. pose proof (batch_size ws (idle sent room)) as Z. destruct (send_batch (idle sent room) ws) as [r b]. cbn [fst snd] in S, Z.
  assert (Wo : wout (idle sent room) = sent) by (unfold wout; cbn; apply app_nil_r). rewrite Wo in S. change (limit (idle sent room)) with (length sent + room) in S.
  destruct S as [(-> & (Hb & Lm & Wb) & Bb)|(-> & Er & Lm & Sn & Lt)].
  - unfold wout in Wb. rewrite Bb, app_nil_r in Wb. unfold limit in Lm. rewrite Wb, app_length in Lm. destruct (Nat.leb_spec (length (batch_bytes ws)) room) as [H|H]; [|lia].
    f_equal. destruct b as [bz bb be [s r]]. cbn [bw_size bw_buf bw_err bw_conn wc_sent wc_room] in *. destruct Hb as [He _]. cbn in He. subst. unfold idle, new_bwriter. f_equal. f_equal. lia.
  - rewrite app_length in Lt. destruct (Nat.leb_spec (length (batch_bytes ws)) room) as [H|H]; [lia|]. exists b. split; [reflexivity|].
    rewrite Sn, firstn_app, firstn_all2 by lia. f_equal. f_equal. lia.
Qed.
Lemma batches_idle : forall l sent room, Forall quiet l ->
  if length (flat_map batch_bytes l) <=? room then send_batches (idle sent room) l (Ok tt) = (Ok tt, idle (sent ++ flat_map batch_bytes l) (room - length (flat_map batch_bytes l)))
  else exists b, send_batches (idle sent room) l (Ok tt) = (Err EIO, b) /\ wc_sent (bw_conn b) = sent ++ firstn room (flat_map batch_bytes l).
Proof.
  induction l as [|ws l IH]; intros sent room F; cbn [flat_map send_batches length].
  - rewrite app_nil_r, Nat.sub_0_r. reflexivity.
  - inversion F as [|x y Fq F']; subst. pose proof (batch_idle ws sent room Fq) as S. rewrite app_length.
    destruct (Nat.leb_spec (length (batch_bytes ws)) room) as [H|H].
    + rewrite S. specialize (IH (sent ++ batch_bytes ws) (room - length (batch_bytes ws)) F').
      destruct (Nat.leb_spec (length (flat_map batch_bytes l)) (room - length (batch_bytes ws))) as [H1|H1].
      * destruct (Nat.leb_spec (length (batch_bytes ws) + length (flat_map batch_bytes l)) room) as [H2|H2]; [|lia]. rewrite IH, app_assoc, Nat.sub_add_distr. reflexivity.
      * destruct (Nat.leb_spec (length (batch_bytes ws) + length (flat_map batch_bytes l)) room) as [H2|H2]; [lia|]. destruct IH as (b & -> & E). exists b. split; [reflexivity|].
        rewrite E, firstn_app, (firstn_all2 (batch_bytes ws)) by lia. rewrite app_assoc. reflexivity.
    + destruct (Nat.leb_spec (length (batch_bytes ws) + length (flat_map batch_bytes l)) room) as [H2|H2]; [lia|].
      destruct S as (b & -> & E). exists b. split; [reflexivity|]. rewrite E, firstn_app. replace (room - length (batch_bytes ws)) with 0 by lia. rewrite firstn_O, app_nil_r. reflexivity.
Qed.

(** ** The writes of a response are its bytes *)
Lemma any_bytes : forall b, quiet (if_any b) /\ batch_bytes (if_any b) = b.
Proof. intros [|c b]; cbn; (split; [repeat constructor|]); [reflexivity|]. rewrite app_nil_r. reflexivity. Qed.
Lemma binary_bytes : forall opc r, quiet (binary_writes opc r) /\ batch_bytes (binary_writes opc r) = binary_response opc r.
Proof.
  intros opc r. unfold binary_writes, binary_response. destruct (any_bytes (opt_bytes (r_flags r))) as [A1 A2]. destruct (any_bytes (r_key r)) as [A3 A4]. destruct (any_bytes (r_value r)) as [A5 A6].
  split; [constructor; [exact Logic.I|]; repeat apply quiet_app; assumption|]. cbn [batch_bytes]. rewrite !batch_bytes_app, A2, A4, A6. unfold binary_head. cbn zeta.
  cbn [app]. reflexivity.
Qed.
Lemma ascii_get_bytes : forall r b, ascii_get_block r = Ok b -> quiet (ascii_get_writes r) /\ batch_bytes (ascii_get_writes r) = b.
Proof.
  intros r b E. unfold ascii_get_block, ascii_get_writes in *. destruct (flag_number r); try discriminate E. apply ok_inj in E. subst b.
  split; [repeat constructor|]. cbn [batch_bytes]. repeat (rewrite <- app_assoc; cbn [app]). rewrite app_nil_r. reflexivity.
Qed.
Lemma meta_letters : forall req r flag l,
  batch_bytes (map (fun c => SS false (meta_flag_text req r flag c)) (filter (fun c => existsb (Ascii.eqb c) ["c"; "f"; "k"; "s"; "t"]%char) l))
  = flat_map (meta_flag_text req r flag) l.
Proof.
  intros req r flag. induction l as [|c l IH]; [reflexivity|]. cbn [filter flat_map]. destruct (existsb (Ascii.eqb c) ["c"; "f"; "k"; "s"; "t"]%char) eqn:E; cbn [map batch_bytes]; rewrite IH; [reflexivity|].
  cbn [existsb] in E. repeat (apply orb_false_iff in E; destruct E as [? E]). unfold meta_flag_text.
  repeat match goal with H : Ascii.eqb c _ = false |- _ => rewrite H; clear H end. reflexivity.
Qed.
Lemma quiet_map : forall A (f : A -> bytes) ch l, quiet (map (fun c => SS ch (f c)) l).
Proof. intros. apply Forall_forall. intros x I. apply in_map_iff in I. destruct I as (y & <- & _). exact Logic.I. Qed.
Lemma meta_get_bytes : forall req g r b, meta_get_block_bytes req g r = Ok b -> quiet (meta_get_writes req g r) /\ batch_bytes (meta_get_writes req g r) = b.
Proof.
  intros req g r b E. unfold meta_get_block_bytes, meta_get_writes in *. destruct (flag_number r) as [flag|e|]; try discriminate E. apply ok_inj in E. subst b.
  split.
  - constructor; [exact Logic.I|]. apply quiet_app; [apply quiet_map|]. destruct (g_value g); repeat constructor.
  - cbn [batch_bytes]. rewrite !batch_bytes_app, meta_letters. destruct (g_value g); cbn [batch_bytes]; repeat (rewrite <- app_assoc; cbn [app]); rewrite ?app_nil_r; reflexivity.
Qed.
Lemma concat_bytes : forall (f : sresponse -> outcome bytes) (ws : sresponse -> list swrite) res out,
  (forall r b, f r = Ok b -> quiet (ws r) /\ batch_bytes (ws r) = b) -> concat_outcomes (map f res) = Ok out ->
  quiet (flat_map ws res) /\ batch_bytes (flat_map ws res) = out.
Proof.
  intros f ws. induction res as [|r res IH]; intros out F E; cbn [map concat_outcomes flat_map] in *.
  - apply ok_inj in E. subst. split; [constructor|reflexivity].
  - destruct (f r) as [b|e|] eqn:Fr; try discriminate E. destruct (concat_outcomes (map f res)) as [bs|e|] eqn:C; try discriminate E. apply ok_inj in E. subst out.
    destruct (F r b Fr) as [Q1 Q2]. destruct (IH bs F eq_refl) as [Q3 Q4]. split; [apply quiet_app; assumption|]. rewrite batch_bytes_app, Q2, Q4. reflexivity.
Qed.

Definition script_is (sc : script) (out : bytes) : Prop := snd sc = Ok tt /\ Forall quiet (fst sc) /\ flat_map batch_bytes (fst sc) = out.
Lemma once_is : forall ws out, quiet ws -> batch_bytes ws = out -> script_is (once ws) out.
Proof. intros ws out Q E. split; [reflexivity|]. split; [repeat constructor; exact Q|]. cbn. rewrite app_nil_r. exact E. Qed.
Lemma first_is : forall res (f : sresponse -> outcome bytes) (g : sresponse -> script) out,
  (forall r b, f r = Ok b -> script_is (g r) b) -> on_first res f = Ok out -> script_is (if_no_error res g) out.
Proof.
  intros res f g out F E. destruct res as [|r res]; [discriminate E|]. cbn [on_first if_no_error] in *. destruct (r_error r).
  - apply ok_inj in E. subst. split; [reflexivity|]. split; [constructor|reflexivity].
  - apply F. exact E.
Qed.
Lemma binaries : forall opc res, Forall quiet (map (binary_writes opc) res) /\ flat_map batch_bytes (map (binary_writes opc) res) = flat_map (binary_response opc) res.
Proof.
  intros opc. induction res as [|r res [IH1 IH2]]; [split; [constructor|reflexivity]|]. destruct (binary_bytes opc r) as [A1 A2]. split; [constructor; assumption|].
  cbn [map flat_map]. rewrite A2, IH2. reflexivity.
Qed.
Lemma response_bytes : forall p req res out, write_response p req res = Ok out -> script_is (response_script p req res) out.
Proof.
  intros [|] req res out E; cbn [write_response response_script] in *.
  - unfold write_ascii_response, ascii_script in *.
    assert (One : forall x, script_is (once [SW false x]) x) by (intro x; apply once_is; [repeat constructor|cbn; apply app_nil_r]).
    assert (Two : forall x y, script_is (once [SW false x; SW false y]) (x ++ y)) by (intros x y; apply once_is; [repeat constructor|cbn; rewrite app_nil_r; reflexivity]).
    destruct (q_opcode req); try discriminate E.
    + destruct (q_get req) as [g|].
      * unfold oapp in E. destruct (concat_outcomes (map (meta_get_block_bytes req g) res)) as [bs|e|] eqn:C; try discriminate E. apply ok_inj in E. subst out.
        destruct (concat_bytes _ (meta_get_writes req g) _ _ (meta_get_bytes req g) C) as [A1 A2]. apply once_is.
        -- apply quiet_app; [exact A1|]. destruct res; repeat constructor.
        -- rewrite batch_bytes_app, A2. destruct res; cbn [batch_bytes]; rewrite ?app_nil_r; reflexivity.
      * unfold oapp in E. destruct (concat_outcomes (map ascii_get_block res)) as [bs|e|] eqn:C; try discriminate E. apply ok_inj in E. subst out.
        destruct (concat_bytes _ ascii_get_writes _ _ ascii_get_bytes C) as [A1 A2]. apply once_is.
        -- apply quiet_app; [exact A1|]. repeat constructor.
        -- rewrite batch_bytes_app, A2. cbn [batch_bytes]. rewrite app_nil_r. reflexivity.
    + revert E. apply first_is. intros r b E. destruct (q_set req) as [o|]; [|discriminate E]. apply ok_inj in E. subst b. destruct (s_meta o); auto.
    + revert E. apply first_is. intros r b E. destruct (q_set req) as [o|]; [|discriminate E]. apply ok_inj in E. subst b. destruct (s_meta o); auto.
    + revert E. apply first_is. intros r b E. destruct (q_set req) as [o|]; [|discriminate E]. apply ok_inj in E. subst b. destruct (s_meta o); auto.
    + revert E. apply first_is. intros r b E. destruct (q_del req) as [m|]; [|discriminate E]. apply ok_inj in E. subst b. destruct m; auto.
    + revert E. apply first_is. intros r b E. apply ok_inj in E. subst b. auto.
    + revert E. apply first_is. intros r b E. apply ok_inj in E. subst b. auto.
    + revert E. apply first_is. intros r b E. apply ok_inj in E. subst b. auto.
    + revert E. apply first_is. intros r b E. apply ok_inj in E. subst b. auto.
    + revert E. apply first_is. intros r b E. apply ok_inj in E. subst b. auto.
  - unfold write_binary_response, binary_script in *.
    assert (F : forall opc, on_first res (fun r => Ok (binary_response opc r)) = Ok out -> script_is (if_no_error res (fun r => once (binary_writes opc r))) out).
    { intros opc. apply first_is. intros r b Er. apply ok_inj in Er. subst b. destruct (binary_bytes opc r) as [A1 A2]. apply once_is; assumption. }
    destruct (q_opcode req) eqn:Q; try (apply F; exact E). apply ok_inj in E. subst out. destruct (binaries OpcGet res) as [A1 A2].
    split; [reflexivity|]. cbn [fst]. split.
    + apply Forall_app. split; [exact A1|]. destruct (1 <? zlen res)%Z; [|constructor]. constructor; [apply binary_bytes|constructor].
    + rewrite flat_map_app, A2. f_equal. destruct (1 <? zlen res)%Z; [|reflexivity]. cbn [flat_map]. rewrite (proj2 (binary_bytes OpcNoop empty_response)), app_nil_r. reflexivity.
Qed.
Lemma response_error : forall p req res e, write_response p req res = Err e -> response_script p req res = ([], Err e).
Proof.
  assert (NF : forall f res, (forall r e, f r <> Err e) -> forall e, on_first res f <> Err e).
  { intros f [|r res] F e; cbn [on_first]; [discriminate|]. destruct (r_error r); [discriminate|apply F]. }
  assert (NC : forall (f : sresponse -> outcome bytes) (res : list sresponse), (forall r e, f r <> Err e) -> forall e t, oapp (concat_outcomes (map f res)) t <> Err e).
  { intros f res F e t. unfold oapp. assert (C : forall l e, concat_outcomes (map f l) <> Err e).
    { induction l as [|r l IH]; intro e'; cbn [map concat_outcomes]; [discriminate|]. pose proof (F r) as Fr. destruct (f r) as [b|x|]; [|exfalso; exact (Fr x eq_refl)|discriminate]. destruct (concat_outcomes (map f l)) eqn:Q; [discriminate|exfalso; exact (IH _ eq_refl)|discriminate]. }
    destruct (concat_outcomes (map f res)) eqn:Q; [discriminate|exfalso; exact (C _ _ Q)|discriminate]. }
  assert (FN : forall r e, flag_number r <> Err e) by (intros r e; unfold flag_number; destruct (_ <? _)%Z; [destruct (_ <? _)%Z|]; discriminate).
  intros [|] req res e E; cbn [write_response response_script] in *.
  - unfold write_ascii_response, ascii_script in *.
    destruct (q_opcode req).
    1: { destruct (q_get req); exfalso; revert E; apply NC; intros r x; unfold meta_get_block_bytes, ascii_get_block; specialize (FN r); destruct (flag_number r); try discriminate; exfalso; eapply FN; reflexivity. }
    8: { injection E as <-. reflexivity. }
    all: exfalso; revert E; apply NF; intros r x; try discriminate.
    1,2,3: destruct (q_set req); discriminate.
    destruct (q_del req); discriminate.
  - unfold write_binary_response in E. destruct (q_opcode req); try discriminate E; exfalso; revert E; apply NF; discriminate.
Qed.

Lemma batch_panics : forall ws b, In SPanic ws -> fst (send_batch b ws) <> Ok tt.
Proof.
  induction ws as [|w ws IH]; intros b I; [contradiction|]. cbn [send_batch]. destruct w as [ch p|ch p|].
  - destruct I as [I|I]; [discriminate|]. destruct (write_step b p) as [ok b']. destruct (ch && negb ok); [discriminate|apply IH; exact I].
  - destruct I as [I|I]; [discriminate|]. destruct (string_step b p) as [ok b']. destruct (ch && negb ok); [discriminate|apply IH; exact I].
  - discriminate.
Qed.
Lemma response_panics : forall p req res b, write_response p req res = Panic -> fst (send_response b (response_script p req res)) <> Ok tt.
Proof.
  assert (NF : forall (f : sresponse -> outcome bytes) (g : sresponse -> script) (res : list sresponse) b, (forall r, f r = Panic -> fst (send_response b (g r)) <> Ok tt) -> on_first res f = Panic -> fst (send_response b (if_no_error res g)) <> Ok tt).
  { intros f g [|r res] b F E; cbn [on_first if_no_error] in *; [cbn; discriminate|]. destruct (r_error r); [discriminate E|apply F; exact E]. }
  assert (NC : forall (f : sresponse -> outcome bytes) (g : sresponse -> list swrite) t t' res b, (forall r, f r = Panic -> In SPanic (g r)) ->
     oapp (concat_outcomes (map f res)) t = Panic -> fst (send_response b (once (flat_map g res ++ t'))) <> Ok tt).
  { intros f g t t' res b F E. assert (I : In SPanic (flat_map g res ++ t')).
    { apply in_or_app. left. apply in_flat_map. unfold oapp in E. induction res as [|r res IH]; [discriminate E|]. cbn [map concat_outcomes] in E. destruct (f r) eqn:Q.
      - destruct (concat_outcomes (map f res)); try discriminate E. destruct (IH eq_refl) as (x & I & P). exists x. split; [right; exact I|exact P].
      - discriminate E.
      - exists r. split; [left; reflexivity|apply F; exact Q]. }
    unfold send_response, once. cbn [fst snd send_batches]. pose proof (batch_panics _ b I) as P. destruct (send_batch b (flat_map g res ++ t')) as [[[]|e|] b']; [exfalso; apply P; reflexivity|discriminate|discriminate]. }
  intros [|] req res b E; cbn [write_response response_script] in *.
  - unfold write_ascii_response, ascii_script in *. destruct (q_opcode req).
    1: { destruct (q_get req) as [g|]; revert E; apply NC; intros r Q; unfold meta_get_block_bytes, meta_get_writes, ascii_get_block, ascii_get_writes in *; destruct (flag_number r); try discriminate Q; left; reflexivity. }
    8: discriminate E.
    all: revert E; apply NF; intros r Q; try discriminate Q.
    1,2,3: destruct (q_set req); [discriminate Q|cbn; discriminate].
    destruct (q_del req); [discriminate Q|cbn; discriminate].
  - unfold write_binary_response, binary_script in *. destruct (q_opcode req); try discriminate E; revert E; apply NF; discriminate.
Qed.

(** ** The connection *)
(** The handler's state after a sequence of requests. *)
Definition after {H} (h : handler H) (st : H) (qs : list srequest) : H := fold_left (fun st q => fst (h st q)) qs st.
Lemma serve_net_spec : forall H (h : handler H) f p st sent room s st1 l ft st2 qs ft2 b,
  serve h f p st s = (st1, l, ft) -> serve_net h f p st (idle sent room) s = (st2, qs, ft2, b) ->
  st2 = after h st qs
  /\ (length (replies l) <= room -> ft <> Crashed ->
        st2 = st1 /\ qs = map sd_req l /\ ft2 = ft /\ b = idle (sent ++ replies l) (room - length (replies l)))
  /\ (room < length (replies l) ->
        ft2 = Closed EIO /\ wc_sent (bw_conn b) = sent ++ firstn room (replies l)
        /\ exists done x rest, l = done ++ x :: rest /\ qs = map sd_req (done ++ [x])
           /\ length (replies done) <= room < length (replies (done ++ [x]))).
Proof.
  intros H h. induction f as [|f IH]; intros p st sent room s st1 l ft st2 qs ft2 b E1 E2; cbn [serve serve_net] in *.
  { injection E1 as <- <- <-. injection E2 as <- <- <- <-. split; [reflexivity|]. split; [intros _ _; cbn; rewrite app_nil_r, Nat.sub_0_r; auto|cbn; lia]. }
  assert (Stop : forall st' q ft0, (st', [mkServed q []], ft0) = (st1, l, ft) -> (st', [q], ft0, idle sent room) = (st2, qs, ft2, b) -> st' = fst (h st q) ->
    st2 = after h st qs
  /\ (length (replies l) <= room -> ft <> Crashed ->
        st2 = st1 /\ qs = map sd_req l /\ ft2 = ft /\ b = idle (sent ++ replies l) (room - length (replies l)))
  /\ (room < length (replies l) ->
        ft2 = Closed EIO /\ wc_sent (bw_conn b) = sent ++ firstn room (replies l)
        /\ exists done x rest, l = done ++ x :: rest /\ qs = map sd_req (done ++ [x])
           /\ length (replies done) <= room < length (replies (done ++ [x])))).
  { intros st' q ft0 X Y Z. injection X as <- <- <-. injection Y as <- <- <- <-. split; [exact Z|]. split; [intros _ _; cbn; rewrite app_nil_r, Nat.sub_0_r; auto|cbn; lia]. }
  destruct (read_request p s) as [[[req|e|] s'] p'].
  2,3: injection E1 as <- <- <-; injection E2 as <- <- <- <-; split; [reflexivity|]; split; [intros _ _; cbn; rewrite app_nil_r, Nat.sub_0_r; auto|cbn; lia].
  destruct (h st req) as [st' [res|e|]] eqn:Eh; [|eapply Stop; [exact E1|exact E2|rewrite Eh; reflexivity]|eapply Stop; [exact E1|exact E2|rewrite Eh; reflexivity]].
  destruct p' as [pr|]; [|eapply Stop; [exact E1|exact E2|rewrite Eh; reflexivity]].
  destruct (write_response pr req res) as [out|e|] eqn:W.
  - destruct (response_bytes pr req res out W) as (S1 & S2 & S3). unfold send_response in E2. rewrite S1 in E2.
    pose proof (batches_idle (fst (response_script pr req res)) sent room S2) as BI. rewrite S3 in BI.
    destruct (serve h f (Some pr) st' s') as [[st'' l'] ft'] eqn:Es. injection E1 as <- <- <-.
    change (replies (mkServed req out :: l')) with (out ++ replies l'). rewrite app_length.
    destruct (Nat.leb_spec (length out) room) as [Hr|Hr].
    + rewrite BI in E2. destruct (serve_net h f (Some pr) st' (idle (sent ++ out) (room - length out)) s') as [[[st3 qs3] ft3] b3] eqn:En. injection E2 as <- <- <- <-.
      destruct (IH _ _ _ _ _ _ _ _ _ _ _ _ Es En) as (A & C & D). split; [cbn [after fold_left]; rewrite Eh; exact A|]. split.
      * intros L Nc. destruct (C ltac:(lia) Nc) as (-> & -> & -> & ->). repeat split. rewrite app_assoc, Nat.sub_add_distr. reflexivity.
      * intro L. destruct (D ltac:(lia)) as (-> & D1 & done & x & rest & -> & -> & D2). split; [reflexivity|]. split; [rewrite D1, firstn_app, (firstn_all2 out) by lia; rewrite app_assoc; reflexivity|].
        exists (mkServed req out :: done), x, rest. split; [reflexivity|]. split; [reflexivity|]. cbn [app]. change (replies (mkServed req out :: done)) with (out ++ replies done).
        change (replies (mkServed req out :: done ++ [x])) with (out ++ replies (done ++ [x])). rewrite !app_length. lia.
    + destruct BI as (b0 & Bq & Bs). rewrite Bq in E2. injection E2 as <- <- <- <-. split; [cbn; rewrite Eh; reflexivity|]. split; [lia|]. intros _.
      split; [reflexivity|]. split; [rewrite Bs, firstn_app; replace (room - length out) with 0 by lia; rewrite firstn_O, app_nil_r; reflexivity|].
      exists [], (mkServed req out), l'. split; [reflexivity|]. split; [reflexivity|]. cbn. rewrite app_nil_r. lia.
  - rewrite (response_error pr req res e W) in E2. unfold send_response in E2. cbn [fst snd send_batches] in E2. eapply Stop; [exact E1|exact E2|rewrite Eh; reflexivity].
  - injection E1 as <- <- <-. split; [|split; [intros _ N; contradiction|cbn; lia]].
    destruct (send_response (idle sent room) (response_script pr req res)) as [[u|e|] b0] eqn:Sr.
    2,3: injection E2 as <- <- <- <-; cbn; rewrite Eh; reflexivity.
    destruct (serve_net h f (Some pr) st' b0 s') as [[[st3 qs3] ft3] b3] eqn:En. exfalso.
    pose proof (response_panics pr req res (idle sent room) W) as P. rewrite Sr in P. apply P. destruct u. reflexivity.
Qed.


(** C61. [serve_conn] is the connection whose replies all arrive, [serve_conn_net] the one that takes
    [room] more bytes of replies and then fails. While the replies fit, nothing is different: the same
    requests, the same effect, the same end, and every reply byte delivered. *)
Theorem C61_replies_that_fit_arrive : forall H (h : handler H) st room s st1 l ft,
  serve_conn h st s = (st1, l, ft) -> ft <> Crashed -> length (replies l) <= room ->
  exists b, serve_conn_net h st room s = (st1, map sd_req l, ft, b) /\ wc_sent (bw_conn b) = replies l /\ bw_buf b = [].
Proof.
  intros H h st room s st1 l ft E Nc L. unfold serve_conn, serve_conn_net in *.
  destruct (serve_net h (S (length s)) None st (new_bwriter (mkWconn [] room)) s) as [[[st2 qs] ft2] b] eqn:En.
  destruct (serve_net_spec H h _ _ _ _ _ _ _ _ _ _ _ _ _ E En) as (_ & C & _). destruct (C L Nc) as (-> & -> & -> & ->).
  eexists. split; [reflexivity|]. split; reflexivity.
Qed.
Print Assumptions C61_replies_that_fit_arrive.

(** When they do not fit the peer gets exactly the bytes that do, in order and with none missing; the
    handler has run the requests whose replies arrived whole and one more, the one whose reply was cut,
    and is given no request after it; the connection is closed. *)
Theorem C61_failed_reply_ends_the_connection : forall H (h : handler H) st room s st1 l ft,
  serve_conn h st s = (st1, l, ft) -> room < length (replies l) ->
  exists done x rest b, l = done ++ x :: rest
    /\ length (replies done) <= room < length (replies done) + length (sd_reply x)
    /\ serve_conn_net h st room s = (after h st (map sd_req done ++ [sd_req x]), map sd_req done ++ [sd_req x], Closed EIO, b)
    /\ wc_sent (bw_conn b) = replies done ++ firstn (room - length (replies done)) (sd_reply x).
Proof.
  intros H h st room s st1 l ft E L. unfold serve_conn, serve_conn_net in *.
  destruct (serve_net h (S (length s)) None st (new_bwriter (mkWconn [] room)) s) as [[[st2 qs] ft2] b] eqn:En.
  destruct (serve_net_spec H h _ _ _ _ _ _ _ _ _ _ _ _ _ E En) as (A & _ & D). destruct (D L) as (-> & W & done & x & rest & -> & -> & R).
  rewrite map_app in A, En |- *. cbn [map] in *. unfold replies in R. rewrite flat_map_app in R. cbn [flat_map] in R. rewrite app_nil_r, app_length in R. fold (replies done) in R.
  exists done, x, rest, b. split; [reflexivity|]. split; [exact R|]. split; [rewrite A; reflexivity|].
  rewrite W. cbn [app]. unfold replies. rewrite flat_map_app. cbn [flat_map]. fold (replies done). rewrite firstn_app, firstn_all2 by lia.
  f_equal. rewrite firstn_app. replace (room - length (replies done) - length (sd_reply x)) with 0 by lia. rewrite firstn_O, app_nil_r. reflexivity.
Qed.
Print Assumptions C61_failed_reply_ends_the_connection.

(** Whatever the connection does, also when the process ends in the middle of a reply: the effect on the
    handler is the effect of the requests it was given, one after the other. *)
Theorem C61_effect_is_the_requests_given : forall H (h : handler H) st room s st2 qs ft b,
  serve_conn_net h st room s = (st2, qs, ft, b) -> st2 = after h st qs.
Proof.
  intros H h st room s st2 qs ft b En. unfold serve_conn_net in En. destruct (serve h (S (length s)) None st s) as [[st1 l] ft1] eqn:E.
  exact (proj1 (serve_net_spec H h _ _ _ _ _ _ _ _ _ _ _ _ _ E En)).
Qed.
Print Assumptions C61_effect_is_the_requests_given.

(** Three deletes answered DELETED (9 bytes each), a peer that takes 13 bytes: the second delete was done
    and its reply cut, the third was never looked at. *)
Definition tally : handler (list srequest) := fun st q => (st ++ [q], Ok [empty_response]).
Example C61_met :
  let s := B "delete a" ++ crlf ++ B "delete b" ++ crlf ++ B "delete c" ++ crlf in
  (let '(_, l, ft) := serve_conn tally [] s in length l = 3 /\ length (replies l) = 27 /\ ft = Closed EIO)
  /\ (let '(st, qs, ft, b) := serve_conn_net tally [] 13 s in map q_key st = [B "a"; B "b"] /\ ft = Closed EIO /\ wc_sent (bw_conn b) = B "DELETED" ++ crlf ++ B "DELE").
Proof. vm_compute. repeat split. Qed.
