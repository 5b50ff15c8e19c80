(** * C63: exactly when one of several connections ends the process. *)
From Verif Require Import GoBytes GoNum GoIO ServerTypes ServerParse ServerWrite Serve ServerConc ServerSpec ServerCrash PLib PServer PServe PropServer PropServerConc PropServerCrash.
Local Open Scope nat_scope.

(** ** Definitions of the statements *)
(** What a client may send that ends the process: complete requests, then a fatal one (C68), all read
    by the protocol its first byte announces. *)
Definition sends_fatal (s : bytes) : Prop :=
  exists c s' msgs tail, s = c :: s' /\ s = flat_map fst msgs ++ tail
    /\ Forall (fun m => exactly (announced c) (fst m) (snd m)) msgs /\ fatal (announced c) tail.
(** A handler that answers every request without an error of its own. *)
Definition obliging {H} (h : handler H) : Prop := polite h /\ forall st q, exists st' res, h st q = (st', Ok res).

(** ** A polite answer can always be written *)
Lemma no_noop : forall s q s', read_ascii_request s = (Ok q, s') -> q_opcode q <> OpcNoop.
Proof.
  intros s q s' H. unfold read_ascii_request in H. apply bind_ok_inv in H. destruct H as (l & s1 & _ & H). unfold ascii_command in H.
  destruct (split_sp (trim_suffix crlf l)) as [|cmd args]; [discriminate|].
  repeat match type of H with
  | (if ?b then _ else _) _ = _ => destruct b
  | (match ?x with nil => _ | cons _ _ => _ end) _ = _ => destruct x
  | bind _ _ _ = _ => apply bind_ok_inv in H; destruct H as (? & ? & _ & H)
  | ret _ _ = _ => unfold ret in H; inversion H; subst
  | fail _ _ = _ => discriminate
  end; cbn [q_opcode key_req];
  repeat match goal with |- context [if ?b then _ else _] => destruct b end; discriminate.
Qed.
Lemma concat_fine : forall (f : sresponse -> outcome bytes) res, (forall r e, In r res -> f r <> Err e) -> forall e, concat_outcomes (map f res) <> Err e.
Proof.
  induction res as [|r res IH]; intros N e; cbn [map concat_outcomes]; [discriminate|].
  destruct (f r) as [b|e'|] eqn:E; [|exfalso; exact (N r e' (or_introl eq_refl) E)|discriminate].
  specialize (IH (fun r0 e0 I0 => N r0 e0 (or_intror I0))). destruct (concat_outcomes (map f res)) as [x|e'|]; try discriminate. exfalso. exact (IH e' eq_refl).
Qed.
Lemma writer_fine : forall p s q s' res, parser p s = (Ok q, s') -> (is_get q = false -> res <> []) -> Forall full_flags res ->
  exists out, write_response p q res = Ok out.
Proof.
  intros p s q s' res P N F. pose proof (writer_safe p s q s' res P N F) as W.
  assert (E : forall e, write_response p q res <> Err e); [|destruct (write_response p q res) as [out|e|]; [exists out; reflexivity|exfalso; exact (E e eq_refl)|contradiction]].
  clear W. intro e. rewrite Forall_forall in F.
  assert (OF : forall g, (forall r, g r <> Err e) -> on_first res g <> Err e).
  { intros g G. unfold on_first. destruct res as [|r ?]; [discriminate|]. destruct (r_error r); [discriminate|apply G]. }
  destruct p; cbn [parser write_response] in *.
  - apply no_noop in P. unfold write_ascii_response. destruct (q_opcode q); try contradiction; try (apply OF; intro; try discriminate).
    + destruct (q_get q) as [g|].
      * pose proof (concat_fine (meta_get_block_bytes q g) res) as X. destruct (concat_outcomes _) as [x|e'|]; cbn [oapp]; try discriminate.
        exfalso. refine (X _ e' eq_refl). intros r e0 Ir. unfold meta_get_block_bytes. pose proof (proj2 (flag_number_safe r (F r Ir))) as A. destruct (flag_number r) as [z|e1|]; try discriminate. exfalso. exact (A e1 eq_refl).
      * pose proof (concat_fine ascii_get_block res) as X. destruct (concat_outcomes _) as [x|e'|]; cbn [oapp]; try discriminate.
        exfalso. refine (X _ e' eq_refl). intros r e0 Ir. unfold ascii_get_block. pose proof (proj2 (flag_number_safe r (F r Ir))) as A. destruct (flag_number r) as [z|e1|]; try discriminate. exfalso. exact (A e1 eq_refl).
    + destruct (q_set q); discriminate.
    + destruct (q_set q); discriminate.
    + destruct (q_set q); discriminate.
    + destruct (q_del q); discriminate.
  - unfold write_binary_response. destruct (q_opcode q); try discriminate; apply OF; intro; discriminate.
Qed.
(** ** No crash without a fatal request *)
Definition tidy_conn (s : bytes) (x : sconn) : Prop :=
  match sc_phase x with
  | Over Crashed => False
  | Over _ | Lost => True
  | Offered => sc_proto x = None /\ sc_left x = s
  | ph =>
      (sc_proto x = None /\ sc_left x = s /\ ph = Reading)
      \/ exists c s' msgs, s = c :: s' /\ sc_proto x = Some (announced c) /\ s = flat_map fst msgs ++ sc_left x
           /\ Forall (fun m => exactly (announced c) (fst m) (snd m)) msgs
           /\ match ph with
              | Calling q => exists b, exactly (announced c) b q
              | Answered q r => (exists b, exactly (announced c) b q) /\ decent_answer q r
              | _ => True
              end
  end.
Lemma flat_map_last : forall (msgs : list (bytes * srequest)) b q, flat_map fst (msgs ++ [(b, q)]) = flat_map fst msgs ++ b.
Proof. intros. rewrite flat_map_app. cbn. rewrite app_nil_r. reflexivity. Qed.
Lemma move_tidy : forall H (h : handler H) s st x st' x' new, polite h -> tidy_conn s x -> move h st x st' x' new -> tidy_conn s x' \/ (sends_fatal s /\ crashed x' = true).
Proof.
  intros H h s st x st' x' new Po D Mv.
  destruct Mv as [st s0 p out q s' p' E|st s0 p out e s' p' E|st s0 p out s' p' E|st s0 p out q|st s0 p out q e|st s0 p out q|st s0 p out q res b E|st s0 p out q res e E|st s0 p out q res E|st s0 p out a b|st s0 p out|st s0 p out b];
    unfold tidy_conn in *; cbn [sc_phase sc_left sc_proto] in *; try (left; exact Logic.I).
  - left. right. destruct D as [(-> & -> & _)|(c & s1 & msgs & -> & -> & Es & F & _)].
    + destruct s as [|c s]; [discriminate E|]. rewrite read_first in E. injection E as E <-. destruct (parser_exactly _ _ _ _ E) as (b & Eb & Ex & _).
      exists c, s, [(b, q)]. split; [reflexivity|]. split; [reflexivity|]. split; [cbn; rewrite app_nil_r; exact Eb|]. split; [constructor; [exact Ex|constructor]|]. exists b. exact Ex.
    + assert (R : read_request (Some (announced c)) s0 = (parser (announced c) s0, Some (announced c))) by (destruct (announced c); reflexivity). rewrite R in E. injection E as E <-.
      destruct (parser_exactly _ _ _ _ E) as (b & -> & Ex & _). exists c, s1, (msgs ++ [(b, q)]). split; [reflexivity|]. split; [reflexivity|].
      split; [rewrite flat_map_last, <- app_assoc; exact Es|]. split; [apply Forall_app; split; [exact F|constructor; [exact Ex|constructor]]|]. exists b. exact Ex.
  - right. split; [|reflexivity]. destruct D as [(-> & -> & _)|(c & s1 & msgs & -> & -> & Es & F & _)].
    + destruct s as [|c s]; [discriminate E|]. rewrite read_first in E. injection E as E <-. exists c, s, [], (c :: s). split; [reflexivity|]. split; [reflexivity|]. split; [constructor|]. apply C68_fatal_requests_exactly. exists s'. exact E.
    + assert (R : read_request (Some (announced c)) s0 = (parser (announced c) s0, Some (announced c))) by (destruct (announced c); reflexivity). rewrite R in E. injection E as E <-.
      exists c, s1, msgs, s0. split; [reflexivity|]. split; [exact Es|]. split; [exact F|]. apply C68_fatal_requests_exactly. exists s'. exact E.
  - destruct D as [(_ & _ & X)|(c & s1 & msgs & -> & -> & Es & F & X)]; [discriminate X|]. left. right. exists c, s1, msgs. split; [reflexivity|]. split; [reflexivity|]. split; [exact Es|]. split; [exact F|]. split; [exact X|exact (Po st q)].
  - destruct D as [(_ & _ & X)|(c & s1 & msgs & _ & _ & _ & _ & _ & [])]. discriminate X.
  - destruct D as [(_ & _ & X)|(c & s1 & msgs & -> & Ep & Es & F & X)]; [discriminate X|]. left. right. exists c, s1, msgs. split; [reflexivity|]. split; [exact Ep|]. split; [exact Es|]. split; [exact F|exact Logic.I].
  - destruct D as [(_ & _ & X)|(c & s1 & msgs & _ & Ep & _ & _ & (b & X) & Dc)]; [discriminate X|]. injection Ep as ->. exfalso. cbn [decent_answer] in Dc. exact (writer_safe _ _ _ _ _ X (proj1 Dc) (proj2 Dc) E).
  - destruct D as [(_ & _ & X)|D]; [discriminate X|left; right; exact D].
  - destruct D as [(_ & _ & X)|D]; [discriminate X|left; right; exact D].
Qed.

Lemma ends_or_tidy : forall H (h : handler H) st streams v, polite h -> ssteps h anyone (listening st streams) v ->
  (v_down v = false /\ forall i, tidy_conn (streams i) (v_conns v i)) \/ exists i, sends_fatal (streams i) /\ sc_phase (v_conns v i) = Over Crashed.
Proof.
  intros H h st streams v Po Sv. remember (listening st streams) as v0 eqn:E0. induction Sv as [v|v u w k Sv IH _ S]; subst.
  - left. split; [reflexivity|]. intro i. split; reflexivity.
  - destruct (IH eq_refl) as [[_ C]|(j & Fj & Cj)]; clear IH.
    + destruct S as [u i s p out D Li E|u D Li|u i st' x' new D Mv]; cbn [v_conns v_down].
      * left. split; [reflexivity|]. intro j. destruct (Nat.eq_dec j i) as [->|N]; [rewrite set_conn_same|rewrite set_conn_other by exact N; apply C].
        specialize (C i). rewrite E in C. destruct C as [C1 C2]. left. split; [exact C1|]. split; [exact C2|reflexivity].
      * left. split; [reflexivity|exact C].
      * destruct (move_tidy H h (streams i) _ _ _ _ _ Po (C i) Mv) as [Dx|[Fx Cx]].
        -- left. split.
           ++ unfold crashed. unfold tidy_conn in Dx. destruct (sc_phase x') as [| | | | |[]|]; try reflexivity. contradiction.
           ++ intro j. destruct (Nat.eq_dec j i) as [->|N]; [rewrite set_conn_same; exact Dx|rewrite set_conn_other by exact N; apply C].
        -- right. exists i. split; [exact Fx|]. rewrite set_conn_same. unfold crashed in Cx. destruct (sc_phase x') as [| | | | |[]|]; try discriminate. reflexivity.
    + right. exists j. split; [exact Fj|]. destruct S as [u i s p out D Li E|u D Li|u i st' x' new D Mv]; cbn [v_conns]; [|exact Cj|].
      * destruct (Nat.eq_dec j i) as [->|N]; [rewrite E in Cj; discriminate Cj|rewrite set_conn_other by exact N; exact Cj].
      * destruct (Nat.eq_dec j i) as [->|N]; [|rewrite set_conn_other by exact N; exact Cj]. exfalso. destruct Mv; discriminate Cj.
Qed.

(** ** C63 *)
(** If the process has ended and the handler did its part, it is the doing of a client that sent a fatal
    request, preceded by complete requests only. (So where no client does, the process never ends.) *)
Theorem C63_only_a_fatal_request_ends_the_process : forall H (h : handler H) st streams v, polite h ->
  ssteps h anyone (listening st streams) v -> v_down v = true ->
  exists i, sends_fatal (streams i) /\ sc_phase (v_conns v i) = Over Crashed.
Proof. intros H h st streams v Po Sv D. destruct (ends_or_tidy H h st streams v Po Sv) as [[D' _]|X]; [rewrite D in D'; discriminate D'|exact X]. Qed.
Print Assumptions C63_only_a_fatal_request_ends_the_process.

Lemma obliged : forall H (h : handler H) p (msgs : list (bytes * srequest)), obliging h -> Forall (fun m => exactly p (fst m) (snd m)) msgs ->
  forall st, exists st' l, serve_list h p st (map snd msgs) = (st', l, None).
Proof.
  intros H h p msgs [Po Ob] F. induction F as [|[b q] msgs Ex F IH]; intro st; cbn [map snd serve_list]; [eauto|].
  destruct (Ob st q) as (st1 & res & E). pose proof (Po st q) as Pq. rewrite E in Pq. cbn [snd] in Pq. rewrite E.
  destruct (writer_fine p b q [] res Ex (proj1 Pq) (proj2 Pq)) as [out ->]. destruct (IH st1) as (st' & l & ->). eauto.
Qed.
(** A client that does ends the process whenever it connects, whatever the others are doing, by itself:
    none of the others need do anything. *)
Theorem C63_a_fatal_request_ends_the_process : forall H (h : handler H) st streams v i, obliging h ->
  ssteps h anyone (listening st streams) v -> v_down v = false -> v_listening v = true ->
  sc_phase (v_conns v i) = Offered -> sends_fatal (streams i) ->
  exists v', ssteps h (only i) v v' /\ v_down v' = true.
Proof.
  intros H h st streams v i Ob Sv D Li Ph (c & s' & msgs & tail & Es & Em & F & Ft).
  assert (Cv : v_conns v i = mkSC (streams i) None Offered []).
  { clear D Li. remember (listening st streams) as v0 eqn:E0. revert Ph. induction Sv as [v|v u w k Sv IH _ S]; subst; intro Ph; [reflexivity|]. specialize (IH eq_refl).
    destruct S as [u j s p out D Li E|u D Li|u j st' x' new D Mv]; cbn [v_conns] in *; [| exact (IH Ph) |];
      (destruct (Nat.eq_dec i j) as [->|N]; [rewrite set_conn_same in *|rewrite set_conn_other in * by exact N; exact (IH Ph)]); [discriminate Ph|].
    destruct Mv; discriminate Ph. }
  pose (v1 := mkV (v_handler v) (set_conn (v_conns v) i (mkSC (streams i) None Reading [])) (v_log v) true false).
  assert (S1 : ssteps h (only i) v v1) by (apply (alone H h (only i) v v1 (Some i) eq_refl); exact (V_accept h v i _ _ _ D Li Cv)).
  assert (C1 : v_conns v1 i = mkSC (streams i) None Reading []) by (unfold v1; cbn [v_conns]; apply set_conn_same).
  pose proof (C64_a_connection_waits_for_no_other H h v1 i (streams i) None [] eq_refl C1) as G.
  destruct (obliged H h (announced c) msgs Ob F (v_handler v1)) as (st1 & l1 & Sl).
  destruct (proj2 (C68_process_ends_exactly H h (v_handler v1) c s' (proj1 Ob))) as (st2 & l2 & Sc).
  { exists msgs, tail, st1, l1. rewrite <- Es. split; [exact Em|]. split; [exact F|]. split; [exact Sl|exact Ft]. }
  unfold serve_conn in Sc. rewrite <- Es in Sc. rewrite Sc in G. destruct G as (v' & new & S2 & _ & _ & _ & _ & _ & _ & Dn). exists v'. split; [exact (ssteps_trans _ _ _ _ _ _ S1 S2)|exact Dn].
Qed.
Print Assumptions C63_a_fatal_request_ends_the_process.
(** So, with such a handler, the process can end exactly when one of the clients sends a fatal request. *)
Theorem C63_process_can_end_exactly : forall H (h : handler H) st streams, obliging h ->
  ((exists v, ssteps h anyone (listening st streams) v /\ v_down v = true) <-> exists i, sends_fatal (streams i)).
Proof.
  intros H h st streams Ob. split.
  - intros (v & Sv & D).
    destruct (C63_only_a_fatal_request_ends_the_process H h st streams v (proj1 Ob) Sv D) as (i & Fi & _). exists i. exact Fi.
  - intros [i Fi]. destruct (C63_a_fatal_request_ends_the_process H h st streams (listening st streams) i Ob (v_refl _ _ _) eq_refl eq_refl eq_refl Fi) as (v & Sv & D).
    exists v. split; [|exact D]. clear D. induction Sv as [v|v u w k Sv IH _ S]; [apply v_refl|exact (v_step _ _ _ _ _ _ IH Logic.I S)].
Qed.
Print Assumptions C63_process_can_end_exactly.

(** The hypotheses are met: a handler that obliges, a stream with a hostile but not fatal part, which no
    server is ended by, and one with an answered request before the fatal one. *)
Example C63_ends_met : obliging counter_handler
  /\ ~ sends_fatal (B "set k 0 0 14" ++ crlf ++ B "set k 0 0 -3" ++ crlf ++ crlf)
  /\ sends_fatal (B "get k" ++ crlf ++ B "set k 0 0 -3" ++ crlf).
Proof.
  split; [split; [apply C36_met|intros st q; eexists; eexists; reflexivity]|]. split.
  - intros (c & s' & msgs & tail & E & Em & F & Ft). injection E as <- _. replace (announced "s"%char) with ProtoAscii in * by reflexivity.
    assert (X : exists q, parser ProtoAscii (B "set k 0 0 14" ++ crlf ++ B "set k 0 0 -3" ++ crlf ++ crlf) = (Ok q, [])) by (eexists; vm_compute; reflexivity).
    destruct X as [q X]. apply C68_fatal_requests_exactly in Ft. destruct Ft as [s2 Ft]. destruct msgs as [|[b1 q1] msgs].
    + cbn [flat_map app] in Em. rewrite <- Em in Ft. rewrite X in Ft. discriminate Ft.
    + inversion F as [|? ? F1 Fr]; subst. cbn [fst snd flat_map] in *. rewrite <- app_assoc in Em. pose proof (exactly_app _ b1 q1 (flat_map fst msgs ++ tail) F1) as Y. rewrite <- Em, X in Y. injection Y as _ Y.
      symmetry in Y. apply app_eq_nil in Y. destruct Y as [_ ->]. vm_compute in Ft. discriminate Ft.
  - exists "g"%char, (B "et k" ++ crlf ++ B "set k 0 0 -3" ++ crlf), [(B "get k" ++ crlf, mkReq OpcGet (B "k") [] None [] 0 None None None)], (B "set k 0 0 -3" ++ crlf).
    split; [reflexivity|]. split; [reflexivity|]. replace (announced "g"%char) with ProtoAscii by reflexivity. split; [constructor; [|constructor]; vm_compute; reflexivity|].
    apply C68_fatal_requests_exactly. eexists. vm_compute. reflexivity.
Qed.
