(** * C27, C58, C59: what a call writes. *)
From Verif Require Import GoBytes GoNum GoIO Item ClientText ClientMeta ClientBinary GoSlice GoWriter PLib PWriter Cache Spec Call Guard Transport.
Local Open Scope nat_scope.

(** ** C27: the caller's memory *)
Lemma array_set_same : forall h a b, a < length h -> array (set_array h a b) a = b.
Proof. unfold array. induction h as [|x h IH]; intros [|a] b L; cbn [length] in L; try lia; [reflexivity|]. cbn [set_array nth]. apply IH. lia. Qed.
Lemma array_set_other : forall h a b a', a <> a' -> array (set_array h a b) a' = array h a'.
Proof. unfold array. induction h as [|x h IH]; intros [|a] b [|a'] N; try reflexivity; try congruence. cbn [set_array nth]. apply IH. congruence. Qed.
Lemma array_app : forall h x a, a < length h -> array (h ++ [x]) a = array h a.
Proof. intros. unfold array. apply app_nth1. assumption. Qed.
Lemma skipn_skipn : forall A (l : list A) i j, skipn i (skipn j l) = skipn (j + i) l.
Proof. intros A l i j. revert l. induction j as [|j IH]; intro l; [reflexivity|]. destruct l; [rewrite !skipn_nil; reflexivity|]. cbn [Nat.add skipn]. apply IH. Qed.
Lemma nth_write_at : forall b i d j, i + length d <= length b -> (j < i \/ i + length d <= j) -> nth j (write_at b i d) "000"%char = nth j b "000"%char.
Proof.
  intros b i d j L H. unfold write_at. destruct H as [H|H].
  - rewrite app_nth1 by (rewrite firstn_length; lia). rewrite <- (firstn_skipn i b) at 2. rewrite app_nth1; [reflexivity|]. rewrite firstn_length. lia.
  - rewrite app_nth2 by (rewrite firstn_length; lia). rewrite firstn_length, Nat.min_l by lia. rewrite app_nth2 by lia.
    rewrite <- (firstn_skipn (i + length d) b) at 2. rewrite app_nth2 by (rewrite firstn_length; lia). rewrite firstn_length, Nat.min_l by lia. f_equal. lia.
Qed.
Lemma length_write_at : forall b i d, i + length d <= length b -> length (write_at b i d) = length b.
Proof. intros. unfold write_at. rewrite !app_length, firstn_length, skipn_length. lia. Qed.

(** What goes out is the value followed by CRLF, whatever the slice's capacity. *)
Theorem C27_value_and_crlf_are_sent : forall c grown h s, valid h s -> (c = TextSet \/ c = MetaSet) ->
  snd (store_writes c grown h s) = [contents h s ++ crlf].
Proof.
  intros c grown h s (Va & Vl & Vc) Hc. unfold store_writes, append.
  assert (Q : (let '(h', s') := if s_len s + length crlf <=? s_cap s then
      (set_array h (s_arr s) (write_at (array h (s_arr s)) (s_off s + s_len s) crlf), mkSlice (s_arr s) (s_off s) (s_len s + length crlf) (s_cap s))
    else (h ++ [contents h s ++ crlf ++ grown], mkSlice (length h) 0 (s_len s + length crlf) (s_len s + length crlf + length grown)) in (h', [contents h' s']))
    = (fst (if s_len s + length crlf <=? s_cap s then
      (set_array h (s_arr s) (write_at (array h (s_arr s)) (s_off s + s_len s) crlf), mkSlice (s_arr s) (s_off s) (s_len s + length crlf) (s_cap s))
    else (h ++ [contents h s ++ crlf ++ grown], mkSlice (length h) 0 (s_len s + length crlf) (s_len s + length crlf + length grown))), [contents h s ++ crlf])).
  2: { destruct Hc as [-> | ->]; rewrite Q; reflexivity. }
  destruct (Nat.leb_spec (s_len s + length crlf) (s_cap s)) as [H|H]; cbn [fst]; f_equal; f_equal; unfold contents; cbn [s_arr s_off s_len].
  - rewrite array_set_same by exact Va. unfold write_at. set (b := array h (s_arr s)) in *. change (length crlf) with 2 in *.
    rewrite skipn_app. rewrite firstn_length, Nat.min_l by lia. replace (s_off s - (s_off s + s_len s)) with 0 by lia. cbn [skipn].
    rewrite firstn_app. rewrite skipn_length, firstn_length, Nat.min_l by lia. replace (s_off s + s_len s - s_off s) with (s_len s) by lia.
    rewrite (firstn_all2 (skipn _ _)) by (rewrite skipn_length, firstn_length; lia). replace (s_len s + 2 - s_len s) with 2 by lia. cbn [firstn crlf app].
    f_equal. rewrite firstn_skipn_comm. reflexivity.
  - unfold array. rewrite app_nth2 by lia. rewrite Nat.sub_diag. cbn [nth skipn]. fold (array h (s_arr s)). set (d := firstn (s_len s) (skipn (s_off s) (array h (s_arr s)))).
    assert (Ld : length d = s_len s) by (unfold d; rewrite firstn_length, skipn_length; lia). rewrite app_assoc, firstn_app, app_length, Ld, Nat.sub_diag. cbn [firstn]. rewrite app_nil_r.
    apply firstn_all2. rewrite app_length, Ld. lia.
Qed.
Print Assumptions C27_value_and_crlf_are_sent.
(** The other storage calls: the same bytes in two writes, or the value alone (binary), once. *)
Theorem C27_every_store_sends_the_value_once : forall c grown h s, valid h s ->
  concat (snd (store_writes c grown h s)) = contents h s ++ (if match c with BinaryStore => true | _ => false end then [] else crlf).
Proof.
  intros c grown h s V. destruct c.
  - rewrite C27_value_and_crlf_are_sent by auto. apply app_nil_r.
  - rewrite C27_value_and_crlf_are_sent by auto. apply app_nil_r.
  - reflexivity.
  - reflexivity.
Qed.
Print Assumptions C27_every_store_sends_the_value_once.

(** Without two bytes of spare capacity behind the value, and for every call but Set of the text and
    meta clients, all of the caller's arrays are unchanged. *)
Theorem C27_memory_unchanged_partial : forall c grown h s, valid h s -> (s_cap s < s_len s + 2 \/ c = PlainStore \/ c = BinaryStore) ->
  forall a, a < length h -> array (fst (store_writes c grown h s)) a = array h a.
Proof.
  intros c grown h s V H a La. unfold store_writes, append. change (length crlf) with 2.
  destruct c; try reflexivity; (destruct H as [H|[H|H]]; try discriminate H; destruct (Nat.leb_spec (s_len s + 2) (s_cap s)); [lia|cbn [fst]; apply array_app; exact La]).
Qed.
Print Assumptions C27_memory_unchanged_partial.

(** With spare capacity, exactly the two bytes behind the value become CR LF: every other byte of
    every array keeps its value. *)
Theorem C27_what_set_overwrites : forall c grown h s, valid h s -> (c = TextSet \/ c = MetaSet) -> s_len s + 2 <= s_cap s ->
  let h' := fst (store_writes c grown h s) in
  length h' = length h
  /\ (forall a, length (array h' a) = length (array h a))
  /\ (forall a j, (a <> s_arr s \/ j < s_off s + s_len s \/ s_off s + s_len s + 2 <= j) -> nth j (array h' a) "000"%char = nth j (array h a) "000"%char)
  /\ nth (s_off s + s_len s) (array h' (s_arr s)) "000"%char = CR
  /\ nth (s_off s + s_len s + 1) (array h' (s_arr s)) "000"%char = LF.
Proof.
  intros c grown h s (Va & Vl & Vc) Hc Hs h'.
  assert (E : h' = set_array h (s_arr s) (write_at (array h (s_arr s)) (s_off s + s_len s) crlf)).
  { unfold h', store_writes, append. change (length crlf) with 2. destruct Hc as [-> | ->]; destruct (Nat.leb_spec (s_len s + 2) (s_cap s)); try lia; reflexivity. }
  rewrite E. assert (Lw : s_off s + s_len s + length crlf <= length (array h (s_arr s))) by (change (length crlf) with 2; lia).
  split. { generalize (s_arr s) (write_at (array h (s_arr s)) (s_off s + s_len s) crlf). clear. induction h as [|x h IH]; intros [|a] b; try reflexivity. cbn [set_array length]. rewrite IH. reflexivity. }
  split. { intro a. destruct (Nat.eq_dec (s_arr s) a) as [<-|N]; [rewrite array_set_same by exact Va; apply length_write_at; exact Lw|rewrite array_set_other by exact N; reflexivity]. }
  split. { intros a j Q. destruct (Nat.eq_dec (s_arr s) a) as [<-|N]; [rewrite array_set_same by exact Va; apply nth_write_at; [exact Lw|change (length crlf) with 2; destruct Q as [Q|Q]; [congruence|exact Q]]|rewrite array_set_other by exact N; reflexivity]. }
  rewrite array_set_same by exact Va. unfold write_at. split; (rewrite app_nth2 by (rewrite firstn_length; lia); rewrite firstn_length, Nat.min_l by lia).
  - rewrite Nat.sub_diag. reflexivity.
  - replace (s_off s + s_len s + 1 - (s_off s + s_len s)) with 1 by lia. reflexivity.
Qed.
Print Assumptions C27_what_set_overwrites.

Definition C27_memory_unchanged : Prop := forall c grown h s, valid h s -> forall a, a < length h -> array (fst (store_writes c grown h s)) a = array h a.
(** The value is the first three bytes of a ten-byte array. *)
Definition ten : heap := [B "abcdefghij"].
Definition first_three : slice := mkSlice 0 0 3 10.
Theorem C27_memory_overwritten_refuted : ~ C27_memory_unchanged.
Proof.
  intro H. specialize (H TextSet [] ten first_three ltac:(repeat split; cbn; lia) 0 ltac:(cbn; lia)). vm_compute in H. discriminate H.
Qed.
Print Assumptions C27_memory_overwritten_refuted.
Example C27_met : valid ten first_three /\ contents ten first_three = B "abc" /\ s_len first_three + 2 <= s_cap first_three
  /\ valid ten (mkSlice 0 0 3 3) /\ s_cap (mkSlice 0 0 3 3) < 3 + 2
  /\ store_writes TextSet [] ten first_three = ([B "abc" ++ crlf ++ B "fghij"], [B "abc" ++ crlf]).
Proof. repeat split; cbn; lia. Qed.

(** ** C58: a call sends its whole request, or fails *)
(** A connection that takes [room] more bytes, with an idle writer on it. *)
Definition idle (sent : bytes) (room : nat) : bwriter := new_bwriter (mkWconn sent room).
Lemma idle_healthy : forall sent room, healthy (idle sent room). Proof. intros. split; [reflexivity|apply Nat.le_0_l]. Qed.

(** Whatever the sizes and wherever the connection fails: the peer has received the first [room]
    bytes of the request, the call goes on to read a reply exactly when that is all of it, and then
    nothing is left in the buffer. *)
Theorem C58_request_is_sent_whole_or_the_call_fails_partial : forall pr name h o rq sent room,
  fst (cl_req (client_of pr name) h o) = Ok rq ->
  let '(r, b) := send (idle sent room) (writes_of pr h o) in
  wc_sent (bw_conn b) = sent ++ firstn room rq
  /\ (if length rq <=? room then r = Ok tt /\ b = idle (sent ++ rq) (room - length rq) else r = Err EIO /\ bw_err b = true).
Proof.
  intros pr name h o rq sent room E. destruct (writes_are_the_request pr name h o rq E) as [N P].
  pose proof (send_spec (writes_of pr h o) (idle sent room) (idle_healthy _ _) N) as S. rewrite P in S. pose proof (send_size (writes_of pr h o) (idle sent room)) as Sz. destruct (send (idle sent room) (writes_of pr h o)) as [r b]. cbn [fst snd] in S, Sz.
  assert (Wo : wout (idle sent room) = sent) by (unfold wout; cbn; apply app_nil_r). rewrite Wo in S. change (limit (idle sent room)) with (length sent + room) in S.
  destruct S as [(-> & (Hh & Lm & Wb) & Bb)|(-> & Er & Lm & Sn & Lt)].
  - unfold wout in Wb. rewrite Bb, app_nil_r in Wb. unfold limit in Lm. rewrite Wb, app_length in Lm. destruct (Nat.leb_spec (length rq) room) as [H|H]; [|lia].
    split; [rewrite Wb, firstn_all2 by exact H; reflexivity|]. split; [reflexivity|]. destruct b as [bz bb be [s r]]. cbn [bw_size bw_buf bw_err bw_conn wc_sent wc_room] in *. destruct Hh as [He _]. cbn in He. subst. unfold idle, new_bwriter. f_equal. f_equal. lia.
  - rewrite app_length in Lt. split; [rewrite Sn, firstn_app, firstn_all2 by lia; f_equal; f_equal; lia|]. destruct (Nat.leb_spec (length rq) room) as [H|H]; [lia|]. split; [reflexivity|exact Er].
Qed.
Print Assumptions C58_request_is_sent_whole_or_the_call_fails_partial.

(** A sequence of calls on one connection, as far as writing goes; a caller that recovers from a
    panic goes on. *)
Fixpoint sends (pr : proto) (b : bwriter) (os : list (req_header * op)) : list (outcome unit) * bwriter :=
  match os with
  | [] => ([], b)
  | (h, o) :: os' => let '(r, b') := send b (writes_of pr h o) in let '(rs, b'') := sends pr b' os' in (r :: rs, b'')
  end.
Fixpoint requests (pr : proto) (name : bytes) (os : list (req_header * op)) : bytes :=
  match os with
  | [] => []
  | (h, o) :: os' => match fst (cl_req (client_of pr name) h o) with Ok rq => rq | _ => [] end ++ requests pr name os'
  end.
Definition encodes (pr : proto) (name : bytes) (x : req_header * op) : Prop := exists rq, fst (cl_req (client_of pr name) (fst x) (snd x)) = Ok rq.
(** Any number of calls: the peer receives exactly the concatenation of their requests. *)
Theorem C58_calls_send_their_requests_partial : forall pr name os sent room, Forall (encodes pr name) os -> length (requests pr name os) <= room ->
  sends pr (idle sent room) os = (map (fun _ => Ok tt) os, idle (sent ++ requests pr name os) (room - length (requests pr name os))).
Proof.
  intros pr name. induction os as [|[h o] os IH]; intros sent room F L; cbn [sends requests map] in *; [rewrite app_nil_r, Nat.sub_0_r; reflexivity|].
  inversion F as [|x l [rq Rq] F']; subst. cbn [fst snd] in Rq. rewrite Rq in *. rewrite app_length in L.
  pose proof (C58_request_is_sent_whole_or_the_call_fails_partial pr name h o rq sent room Rq) as S. destruct (send (idle sent room) (writes_of pr h o)) as [r b]. destruct S as [_ S].
  destruct (Nat.leb_spec (length rq) room); [|lia]. destruct S as [-> ->]. rewrite (IH (sent ++ rq) (room - length rq) F' ltac:(lia)). rewrite app_length, <- app_assoc, Nat.sub_add_distr. reflexivity.
Qed.
Print Assumptions C58_calls_send_their_requests_partial.

(** Including calls that panic (and are recovered) it is false: the binary Set with short flags
    leaves its header in the buffer, and the next call sends it in front of its own request. *)
Definition C58_calls_send_their_requests : Prop := forall pr name os sent room, length (requests pr name os) <= room ->
  wc_sent (bw_conn (snd (sends pr (idle sent room) os))) = sent ++ requests pr name os.
Definition short_flags : item := mkItem (B "k") (B "v") (Some (B "ab")) 0 0 [].
Theorem C58_recovered_panic_refuted : ~ C58_calls_send_their_requests.
Proof.
  intro H. specialize (H PBinary [] [(reset_header, OSet short_flags); (reset_header, OVersion)] [] 1000 ltac:(vm_compute; lia)).
  apply (f_equal (@length ascii)) in H. vm_compute in H. discriminate H.
Qed.
Print Assumptions C58_recovered_panic_refuted.
Example C58_met : encodes PText (B "s") (reset_header, OSet (mkItem (B "k") (B "v") None 0 0 []))
  /\ send (idle [] 12) (writes_of PText reset_header (OSet (mkItem (B "k") (B "v") None 0 0 []))) = (Err EIO, mkBW wbuf_size ([LF] ++ B "v" ++ crlf) true (mkWconn (B "set k 0 0 1" ++ [CR]) 0)).
Proof. split; [eexists; reflexivity|]. vm_compute. reflexivity. Qed.

(** ** C59: after a failed write nothing more is sent *)
(** Once a write has failed, no later call on this connection sends a byte or reads a reply. *)
Theorem C59_nothing_is_sent_after_a_failed_write : forall pr name b os, bw_err b = true -> Forall (encodes pr name) os ->
  sends pr b os = (map (fun _ => Err EIO) os, b).
Proof.
  intros pr name b os E F. induction F as [|[h o] os [rq Rq] F IH]; [reflexivity|]. cbn [sends map fst snd] in *.
  destruct (writes_are_the_request pr name h o rq Rq) as [N _]. rewrite (send_stuck _ _ E N), IH. reflexivity.
Qed.
Print Assumptions C59_nothing_is_sent_after_a_failed_write.
(** With C58: from the first call that fails on, the peer sees nothing; it has received a prefix of
    the concatenated requests. *)
Theorem C59_peer_sees_a_prefix : forall pr name os sent room, Forall (encodes pr name) os ->
  wc_sent (bw_conn (snd (sends pr (idle sent room) os))) = sent ++ firstn room (requests pr name os).
Proof.
  intros pr name. induction os as [|[h o] os IH]; intros sent room F; cbn [sends requests]; [rewrite firstn_nil, app_nil_r; reflexivity|].
  inversion F as [|x l [rq Rq] F']; subst. cbn [fst snd] in Rq. rewrite Rq.
  pose proof (C58_request_is_sent_whole_or_the_call_fails_partial pr name h o rq sent room Rq) as S. destruct (send (idle sent room) (writes_of pr h o)) as [r b]. destruct S as [Sn S].
  rewrite firstn_app. destruct (Nat.leb_spec (length rq) room) as [H|H].
  - destruct S as [-> ->]. specialize (IH (sent ++ rq) (room - length rq) F'). destruct (sends pr (idle (sent ++ rq) (room - length rq)) os) as [rs b2]. cbn [snd] in *.
    rewrite IH, (firstn_all2 rq) by exact H. rewrite <- app_assoc. reflexivity.
  - destruct S as [-> Er]. rewrite (C59_nothing_is_sent_after_a_failed_write pr name b os Er F'). cbn [snd]. replace (room - length rq) with 0 by lia. rewrite firstn_O, app_nil_r. exact Sn.
Qed.
Print Assumptions C59_peer_sees_a_prefix.
Example C59_met : bw_err (snd (send (idle [] 12) (writes_of PText reset_header (OSet (mkItem (B "k") (B "v") None 0 0 []))))) = true
  /\ Forall (encodes PText (B "s")) [(reset_header, OGet (B "k")); (reset_header, OVersion)].
Proof. split; [vm_compute; reflexivity|]. repeat constructor; eexists; reflexivity. Qed.
