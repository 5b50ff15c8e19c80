(** * Proofs about GoWriter.v and GoSlice.v. *)
From Verif Require Import GoBytes GoNum GoIO Item ClientText ClientMeta ClientBinary GoWriter PLib Call Guard Transport Spec.
Local Open Scope nat_scope.

Definition wout (b : bwriter) : bytes := wc_sent (bw_conn b) ++ bw_buf b.
Definition limit (b : bwriter) : nat := length (wc_sent (bw_conn b)) + wc_room (bw_conn b).
Definition healthy (b : bwriter) : Prop := bw_err b = false /\ length (bw_buf b) <= bw_size b.

(** The writer after [out] has been handed to it: all well, or failed with the connection full. *)
Definition wrote (lim : nat) (out : bytes) (ok : bool) (b : bwriter) : Prop :=
  if ok then healthy b /\ limit b = lim /\ wout b = out
  else bw_err b = true /\ limit b = lim /\ wc_sent (bw_conn b) = firstn lim out /\ lim < length out.

Lemma net_write_spec : forall w p n ok w', net_write w p = (n, ok, w') ->
  length (wc_sent w') + wc_room w' = length (wc_sent w) + wc_room w
  /\ (if ok then n = length p /\ wc_sent w' = wc_sent w ++ p
      else n < length p /\ wc_sent w' = firstn (length (wc_sent w) + wc_room w) (wc_sent w ++ p) /\ length (wc_sent w) + wc_room w < length (wc_sent w ++ p)).
Proof.
  intros w p n ok w' E. unfold net_write in E. destruct (Nat.leb_spec (length p) (wc_room w)) as [H|H]; injection E as <- <- <-; cbn [wc_sent wc_room].
  - rewrite app_length. split; [lia|]. auto.
  - rewrite !app_length, firstn_length. split; [lia|]. split; [lia|]. split; [|lia]. rewrite firstn_app. rewrite (firstn_all2 (wc_sent w)) by lia. f_equal. f_equal. lia.
Qed.

Lemma flush_spec : forall b, healthy b -> let '(ok, b') := bw_flush b in
  wrote (limit b) (wout b) ok b' /\ (if ok then bw_buf b' = [] else True).
Proof.
  intros b [E L]. unfold bw_flush. rewrite E. destruct (bw_buf b) as [|c s] eqn:Hb.
  - split; [|exact Hb]. cbn [wrote]. split; [split; [exact E|rewrite Hb; lia]|]. auto.
  - destruct (net_write (bw_conn b) (c :: s)) as [[n ok] w] eqn:N. destruct (net_write_spec _ _ _ _ _ N) as (A & C). destruct ok.
    + destruct C as (_ & C). split; [|reflexivity]. cbn [wrote]. split; [split; [reflexivity|cbn; lia]|]. split; [exact A|]. unfold wout. cbn [bw_conn bw_buf]. rewrite app_nil_r, C, Hb. reflexivity.
    + destruct C as (_ & C & D). split; [|exact Logic.I]. cbn [wrote]. unfold limit, wout in *. cbn [bw_err bw_conn]. rewrite Hb. auto.
Qed.

Lemma write_done : forall f b p, bw_err b = true -> bw_write (S f) b p = Some (false, b).
Proof. intros f b p E. cbn [bw_write]. rewrite E, andb_false_r. reflexivity. Qed.
Lemma write_fits : forall f b p, healthy b -> length p <= available b -> exists b', bw_write (S f) b p = Some (true, b') /\ wrote (limit b) (wout b ++ p) true b'.
Proof.
  intros f b p [E L] H. cbn [bw_write]. destruct (Nat.ltb_spec (available b) (length p)); [lia|]. rewrite E. cbn [andb negb]. eexists. split; [reflexivity|].
  unfold available in H. cbn [wrote]. split; [split; [reflexivity|cbn [bw_buf bw_size]; rewrite app_length; lia]|]. split; [reflexivity|]. unfold wout. cbn [bw_conn bw_buf]. rewrite app_assoc. reflexivity.
Qed.
Lemma write_empty : forall f b p, healthy b -> bw_buf b = [] -> exists ok b', bw_write (S (S f)) b p = Some (ok, b') /\ wrote (limit b) (wout b ++ p) ok b'.
Proof.
  intros f b p Hb Em. destruct (Nat.leb_spec (length p) (available b)) as [H|H].
  { destruct (write_fits (S f) b p Hb H) as (b' & E & W). exists true, b'. auto. }
  destruct Hb as [E L]. remember (S f) as g. cbn [bw_write]. destruct (Nat.ltb_spec (available b) (length p)); [|lia]. rewrite E, Em. cbn [andb negb].
  destruct (net_write (bw_conn b) p) as [[n ok] w] eqn:N. destruct (net_write_spec _ _ _ _ _ N) as (A & C).
  assert (Wo : wout b = wc_sent (bw_conn b)) by (unfold wout; rewrite Em, app_nil_r; reflexivity). subst g. destruct ok.
  - destruct C as (-> & C). rewrite skipn_all. destruct (write_fits f (mkBW (bw_size b) [] (negb true) w) []) as (b' & Eb & W).
    { split; [reflexivity|cbn; lia]. } { cbn. lia. }
    exists true, b'. split; [exact Eb|]. cbn [wrote] in *. destruct W as (W1 & W2 & W3). split; [exact W1|]. split; [rewrite W2; exact A|]. rewrite W3, Wo. unfold wout. cbn [bw_conn bw_buf]. rewrite !app_nil_r. exact C.
  - destruct C as (_ & C & D). rewrite write_done by reflexivity. eexists _, _. split; [reflexivity|]. cbn [wrote]. rewrite Wo. unfold limit. cbn [bw_err bw_conn negb]. auto.
Qed.
Lemma write_step_spec : forall b p, healthy b -> let '(ok, b') := write_step b p in wrote (limit b) (wout b ++ p) ok b'.
Proof.
  intros b p Hb. unfold write_step. rewrite Nat.add_comm. cbn [Nat.add]. destruct (bw_buf b) as [|c s] eqn:Em.
  - destruct (write_empty (S (length p)) b p Hb Em) as (ok & b' & -> & W). exact W.
  - destruct (Nat.leb_spec (length p) (available b)) as [H|H].
    { destruct (write_fits (S (S (length p))) b p Hb H) as (b' & -> & W). exact W. }
    remember (S (S (length p))) as g. destruct Hb as [E L]. cbn [bw_write]. destruct (Nat.ltb_spec (available b) (length p)); [|lia]. rewrite E, Em. cbn [andb negb]. rewrite <- Em.
    set (n := available b) in *. set (b1 := mkBW (bw_size b) (bw_buf b ++ firstn n p) false (bw_conn b)).
    assert (H1 : healthy b1). { split; [reflexivity|]. unfold b1. cbn [bw_buf bw_size]. rewrite app_length, firstn_length. unfold n, available. lia. }
    assert (O1 : wout b1 = wout b ++ firstn n p) by (unfold wout, b1; cbn [bw_conn bw_buf]; rewrite app_assoc; reflexivity).
    pose proof (flush_spec b1 H1) as F. destruct (bw_flush b1) as [ok b2]. destruct F as [F Fb]. cbn [snd]. subst g. destruct ok.
    + cbn [wrote] in F. destruct F as (H2 & L2 & O2). destruct (write_empty (length p) b2 (skipn n p) H2 Fb) as (ok & b' & Eb & W). rewrite Eb. rewrite L2, O2, O1, <- app_assoc, firstn_skipn in W. exact W.
    + cbn [wrote] in F. destruct F as (E2 & L2 & S2 & G2). rewrite write_done by exact E2. cbn [wrote]. split; [exact E2|]. split; [exact L2|].
      replace (limit b) with (limit b1) by reflexivity. assert (Sp : wout b ++ p = wout b1 ++ skipn n p) by (rewrite O1, <- app_assoc, firstn_skipn; reflexivity). rewrite Sp. split.
      * rewrite S2, firstn_app. replace (limit b1 - length (wout b1)) with 0 by lia. rewrite firstn_O, app_nil_r. reflexivity.
      * rewrite app_length. lia.
Qed.

(** ** Sequences of writes *)
Fixpoint payload (ws : list wstep) : bytes :=
  match ws with [] => [] | WChecked p :: ws' | WIgnored p :: ws' => p ++ payload ws' | WPanic :: ws' => payload ws' end.
Definition no_panic (ws : list wstep) : Prop := Forall (fun w => match w with WPanic => False | _ => True end) ws.

Lemma send_stuck : forall ws b, bw_err b = true -> no_panic ws -> send b ws = (Err EIO, b).
Proof.
  induction ws as [|[p|p|] ws IH]; intros b E N; cbn [send].
  - unfold bw_flush. rewrite E. reflexivity.
  - unfold write_step. rewrite Nat.add_comm. cbn [Nat.add]. rewrite write_done by exact E. reflexivity.
  - unfold write_step. rewrite Nat.add_comm. cbn [Nat.add]. rewrite write_done by exact E. cbn [snd]. apply IH; [exact E|]. inversion N; assumption.
  - inversion N; contradiction.
Qed.
Lemma wrote_more : forall lim out more b, wrote lim out false b -> wrote lim (out ++ more) false b.
Proof.
  intros lim out more b (A & C & D & F). split; [exact A|]. split; [exact C|]. rewrite app_length. split; [|lia].
  rewrite D, firstn_app. replace (lim - length out) with 0 by lia. rewrite firstn_O, app_nil_r. reflexivity.
Qed.
Lemma send_spec : forall ws b, healthy b -> no_panic ws ->
  (fst (send b ws) = Ok tt /\ wrote (limit b) (wout b ++ payload ws) true (snd (send b ws)) /\ bw_buf (snd (send b ws)) = [])
  \/ (fst (send b ws) = Err EIO /\ wrote (limit b) (wout b ++ payload ws) false (snd (send b ws))).
Proof.
  induction ws as [|[p|p|] ws IH]; intros b Hb N; cbn [send payload].
  - rewrite app_nil_r. pose proof (flush_spec b Hb) as F. destruct (bw_flush b) as [[|] b']; destruct F as [F G]; cbn [fst snd]; [left|right]; auto.
  - inversion N as [|w l _ N']; subst. pose proof (write_step_spec b p Hb) as W. destruct (write_step b p) as [[|] b'].
    + cbn [wrote] in W. destruct W as (H' & L' & O'). specialize (IH b' H' N'). rewrite L', O', <- app_assoc in IH. exact IH.
    + right. split; [reflexivity|]. cbn [snd]. rewrite app_assoc. apply wrote_more. exact W.
  - inversion N as [|w l _ N']; subst. pose proof (write_step_spec b p Hb) as W. destruct (write_step b p) as [[|] b']; cbn [snd].
    + cbn [wrote] in W. destruct W as (H' & L' & O'). specialize (IH b' H' N'). rewrite L', O', <- app_assoc in IH. exact IH.
    + rewrite send_stuck; [|apply W|exact N']. right. split; [reflexivity|]. cbn [snd]. rewrite app_assoc. apply wrote_more. exact W.
  - inversion N; contradiction.
Qed.

Lemma write_size : forall f b p ok b', bw_write f b p = Some (ok, b') -> bw_size b' = bw_size b.
Proof.
  induction f as [|f IH]; intros b p ok b' E; cbn [bw_write] in E; [discriminate|].
  destruct ((available b <? length p) && negb (bw_err b)).
  - destruct (bw_buf b) as [|c s] eqn:Em.
    + destruct (net_write (bw_conn b) p) as [[n k] w]. rewrite (IH _ _ _ _ E). reflexivity.
    + rewrite (IH _ _ _ _ E). unfold bw_flush. cbn [bw_err bw_buf]. destruct (bw_err b); [reflexivity|]. cbn [app].
      destruct (net_write _ _) as [[n [|]] w]; reflexivity.
  - destruct (bw_err b); injection E as _ <-; reflexivity.
Qed.
Lemma write_step_size : forall b p, bw_size (snd (write_step b p)) = bw_size b.
Proof. intros b p. unfold write_step. destruct (bw_write (length p + 3) b p) as [[ok b']|] eqn:E; [|reflexivity]. exact (write_size _ _ _ _ _ E). Qed.
Lemma flush_size : forall b, bw_size (snd (bw_flush b)) = bw_size b.
Proof. intro b. unfold bw_flush. destruct (bw_err b); [reflexivity|]. destruct (bw_buf b); [reflexivity|]. destruct (net_write _ _) as [[n [|]] w]; reflexivity. Qed.
Lemma send_size : forall ws b, bw_size (snd (send b ws)) = bw_size b.
Proof.
  induction ws as [|[p|p|] ws IH]; intro b; cbn [send].
  - pose proof (flush_size b) as F. destruct (bw_flush b) as [ok b']. exact F.
  - pose proof (write_step_size b p) as F. destruct (write_step b p) as [[|] b']; cbn [snd] in *; [rewrite IH|]; exact F.
  - rewrite IH. apply write_step_size.
  - reflexivity.
Qed.

(** ** The writes of the calls *)
Lemma payload_app : forall a c, payload (a ++ c) = payload a ++ payload c.
Proof. induction a as [|[p|p|] a IH]; intro c; cbn [payload app]; rewrite ?IH, ?app_assoc; reflexivity. Qed.
Lemma no_panic_app : forall a c, no_panic a -> no_panic c -> no_panic (a ++ c).
Proof. intros. apply Forall_app. auto. Qed.
Ltac flat := repeat (rewrite <- app_assoc || rewrite app_nil_r || (progress cbn [app])).
Lemma ok_inj : forall A (a b : A), Ok a = Ok b -> a = b.
Proof. intros A a b E. congruence. Qed.
Lemma sh1 : forall a, no_panic [WChecked a] /\ payload [WChecked a] = a.
Proof. intros. split; [repeat constructor|]. cbn [payload]. apply app_nil_r. Qed.
Lemma sh2 : forall a b, no_panic [WChecked a; WIgnored b] /\ payload [WChecked a; WIgnored b] = a ++ b.
Proof. intros. split; [repeat constructor|]. cbn [payload]. rewrite app_nil_r. reflexivity. Qed.
Lemma sh2' : forall a b, no_panic [WChecked a; WChecked b] /\ payload [WChecked a; WChecked b] = a ++ b.
Proof. intros. split; [repeat constructor|]. cbn [payload]. rewrite app_nil_r. reflexivity. Qed.
Lemma sh3 : forall a b c, no_panic [WChecked a; WIgnored b; WIgnored c] /\ payload [WChecked a; WIgnored b; WIgnored c] = a ++ b ++ c.
Proof. intros. split; [repeat constructor|]. cbn [payload]. rewrite app_nil_r. reflexivity. Qed.
Lemma sh4 : forall a b c d, no_panic [WChecked a; WIgnored b; WIgnored c; WIgnored d] /\ payload [WChecked a; WIgnored b; WIgnored c; WIgnored d] = a ++ b ++ c ++ d.
Proof. intros. split; [repeat constructor|]. cbn [payload]. rewrite app_nil_r. reflexivity. Qed.
Lemma writes_ok : forall ws rq rq', no_panic ws /\ payload ws = rq' -> rq' = rq -> no_panic ws /\ payload ws = rq.
Proof. intros ws rq rq' H <-. exact H. Qed.
Lemma one_line_ok : forall r rq, r = Ok rq -> no_panic (one_line r) /\ payload (one_line r) = rq.
Proof. intros r rq ->. apply sh1. Qed.
Lemma text_store_ok : forall cmd i, no_panic (text_store_writes cmd i) /\ payload (text_store_writes cmd i) = text_store_req cmd i.
Proof. intros cmd i. refine (writes_ok _ _ _ (sh3 _ _ _) _). unfold text_store_req. rewrite <- !app_assoc. reflexivity. Qed.

Lemma text_writes_ok : forall o rq, text_req o = Ok rq -> no_panic (text_writes o) /\ payload (text_writes o) = rq.
Proof.
  intros o rq E. destruct o; try (apply one_line_ok; exact E); apply ok_inj in E; rewrite <- E; try apply text_store_ok.
  refine (writes_ok _ _ _ (sh2' _ _) _). unfold text_set_req, text_store_req. destruct (0 <? it_cas i)%Z; rewrite <- !app_assoc; reflexivity.
Qed.
Lemma meta_multi_ok : forall ks, no_panic (meta_writes (OGetMulti ks)) /\ payload (meta_writes (OGetMulti ks)) = flat_map (fun k => B "mg " ++ k ++ B " v f k c t" ++ crlf) ks ++ B "mn" ++ crlf.
Proof.
  intro ks. cbn [meta_writes]. generalize (B " v f k c t" ++ crlf) as x. generalize (B "mg ") as y. generalize (B "mn" ++ crlf) as z. intros z y x. split.
  - apply no_panic_app; [|repeat constructor]. induction ks; constructor; [exact Logic.I|assumption].
  - rewrite payload_app. cbn [payload]. rewrite app_nil_r. f_equal. induction ks as [|k ks IH]; [reflexivity|]. cbn [map payload flat_map]. rewrite IH. reflexivity.
Qed.
Lemma meta_writes_ok : forall o rq, meta_req o = Ok rq -> no_panic (meta_writes o) /\ payload (meta_writes o) = rq.
Proof.
  intros o rq E. destruct o; try (apply one_line_ok; exact E).
  - apply ok_inj in E. rewrite <- E. apply meta_multi_ok.
  - cbn [meta_req] in E. unfold meta_set_req in E. cbn [meta_writes]. cbv zeta. destruct (it_flags i) as [f|].
    + destruct (zlen f <? 4)%Z; [discriminate|]. apply ok_inj in E. refine (writes_ok _ _ _ (sh2' _ _) _). rewrite <- E, <- !app_assoc. reflexivity.
    + apply ok_inj in E. refine (writes_ok _ _ _ (sh2' _ _) _). rewrite <- E, <- !app_assoc. reflexivity.
  - apply ok_inj in E. rewrite <- E. apply text_store_ok.
  - apply ok_inj in E. rewrite <- E. apply text_store_ok.
Qed.
Lemma bin_multi_ok : forall (e : bytes -> bytes) (z : bytes) ks,
  no_panic (flat_map (fun k => [WChecked (e k); WIgnored k]) ks ++ [WChecked z])
  /\ payload (flat_map (fun k => [WChecked (e k); WIgnored k]) ks ++ [WChecked z]) = flat_map (fun k => e k ++ k) ks ++ z.
Proof.
  intros e z ks. split.
  - apply no_panic_app; [|repeat constructor]. induction ks; [constructor|]. cbn [flat_map app]. apply Forall_cons; [exact Logic.I|]. apply Forall_cons; [exact Logic.I|]. exact IHks.
  - rewrite payload_app. cbn [payload]. rewrite app_nil_r. f_equal. induction ks as [|k ks IH]; [reflexivity|]. cbn [payload flat_map app]. rewrite IH. apply app_assoc.
Qed.
Lemma bin_store_ok : forall opc i rq, fst (bin_store_req opc i) = Ok rq ->
  let ws := WChecked (encode_header (store_header opc i)) ::
    match it_flags i with
    | None => [WIgnored (be 4 0 ++ be 4 (u32 (it_exp i))); WIgnored (it_key i); WIgnored (it_value i)]
    | Some f => if (zlen f <? 4)%Z then [WPanic]
                else [WIgnored (firstn 4 f ++ be 4 (u32 (it_exp i))); WIgnored (it_key i); WIgnored (it_value i)]
    end in no_panic ws /\ payload ws = rq.
Proof.
  intros opc i rq E. cbv zeta. unfold bin_store_req in E. cbv zeta in E. revert E. generalize (encode_header (store_header opc i)) as a. generalize (be 4 (u32 (it_exp i))) as b. generalize (be 4 0) as z. intros z b a E. cbn [fst] in E.
  destruct (it_flags i) as [f|]; [destruct (zlen f <? 4)%Z; [discriminate|]|]; apply ok_inj in E; refine (writes_ok _ _ _ (sh4 _ _ _ _) _); rewrite <- E, <- !app_assoc; reflexivity.
Qed.
Lemma bin_writes_ok : forall h o rq, fst (bin_req h o) = Ok rq -> no_panic (bin_writes h o) /\ payload (bin_writes h o) = rq.
Proof.
  intros h o rq E. destruct o; cbn [bin_writes]; cbv zeta.
  - apply ok_inj in E. rewrite <- E. apply sh2.
  - apply ok_inj in E. rewrite <- E. apply (bin_multi_ok (fun k => encode_header (key_header op_getkq k))).
  - apply (bin_store_ok op_set). exact E.
  - apply (bin_store_ok op_add). exact E.
  - apply (bin_store_ok op_replace). exact E.
  - apply ok_inj in E. rewrite <- E. apply sh2.
  - apply ok_inj in E. refine (writes_ok _ _ _ (sh3 _ _ _) _). rewrite <- E, <- !app_assoc. reflexivity.
  - apply ok_inj in E. refine (writes_ok _ _ _ (sh3 _ _ _) _). rewrite <- E, <- !app_assoc. reflexivity.
  - apply ok_inj in E. rewrite <- E. apply sh3.
  - apply ok_inj in E. rewrite <- E. apply sh1.
  - apply ok_inj in E. rewrite <- E. apply sh1.
Qed.
Lemma writes_are_the_request : forall pr name h o rq, fst (cl_req (client_of pr name) h o) = Ok rq ->
  no_panic (writes_of pr h o) /\ payload (writes_of pr h o) = rq.
Proof.
  intros pr name h o rq E. destruct pr; [apply text_writes_ok|apply meta_writes_ok|apply bin_writes_ok]; exact E.
Qed.
