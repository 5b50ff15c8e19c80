(** * C62-C64: connections served at once. *)
From Verif Require Import GoBytes GoNum GoIO ServerTypes ServerParse ServerWrite Serve ServerConc ServerSpec PLib PServer PServe PropServer.
Local Open Scope nat_scope.

(** ** Definitions of the statements *)
(** The handler calls of connection [i], with their answers. *)
Definition of_conn (i : nat) (log : list (nat * (srequest * answer_of))) : list (srequest * answer_of) :=
  flat_map (fun e => if Nat.eqb (fst e) i then [snd e] else []) log.
(** A handler that gives prepared answers, one after the other. *)
Definition replay : handler (list answer_of) := fun st q => match st with [] => ([], Err EIO) | a :: st' => (st', a) end.
(** The handler run on a list of requests, one after the other. *)
Fixpoint handle_all {H} (h : handler H) (st : H) (qs : list srequest) : H * list answer_of :=
  match qs with
  | [] => (st, [])
  | q :: qs' => let '(st1, a) := h st q in let '(st2, l) := handle_all h st1 qs' in (st2, a :: l)
  end.

(** ** The connection loop from the middle *)
Lemma read_eats : forall p s q s' p', read_request p s = ((Ok q, s'), p') -> length s' < length s /\ exists pr, p' = Some pr.
Proof.
  intros p s q s' p' E. destruct p as [pr|].
  - assert (R : read_request (Some pr) s = (parser pr s, Some pr)) by (destruct pr; reflexivity). rewrite R in E. injection E as E <-.
    split; [exact (eats_parser pr _ _ _ E ltac:(discriminate))|exists pr; reflexivity].
  - destruct s as [|c s]; [discriminate E|]. rewrite read_first in E. injection E as E <-. split; [exact (eats_parser _ _ _ _ E ltac:(discriminate))|eexists; reflexivity].
Qed.
Lemma serve_fuel : forall H (h : handler H) p f1 f2 st s, length s < f1 -> length s < f2 -> serve h f1 p st s = serve h f2 p st s.
Proof.
  intros H h [p|] f1 f2 st s L1 L2.
  - rewrite !serve_some. apply serve_as_fuel; assumption.
  - destruct s as [|c s]; [destruct f1; [lia|]; destruct f2; [lia|]; reflexivity|]. rewrite !serve_none. apply serve_as_fuel; assumption.
Qed.
Definition onward (p : option protocol) (as_ : list answer_of) (s : bytes) : list served * fate :=
  let '(_, l, ft) := serve replay (S (length s)) p as_ s in (l, ft).
Definition put (l : list served) (x : list served * fate) : list served * fate := (l ++ fst x, snd x).
Definition answered (p : option protocol) (s : bytes) (q : srequest) (r : answer_of) (as_ : list answer_of) : list served * fate :=
  match r with
  | Err e => ([mkServed q []], Closed e)
  | Panic => ([mkServed q []], Crashed)
  | Ok res => match p with
              | None => ([mkServed q []], OutOfFuel)
              | Some pr => match write_response pr q res with
                           | Err e => ([mkServed q []], Closed e)
                           | Panic => ([mkServed q []], Crashed)
                           | Ok out => put [mkServed q out] (onward p as_ s)
                           end
              end
  end.
Lemma onward_step : forall p as_ s, onward p as_ s =
  match read_request p s with
  | ((Err e, _), _) => ([], Closed e)
  | ((Panic, _), _) => ([], Crashed)
  | ((Ok q, s'), p') => match as_ with [] => ([mkServed q []], Closed EIO) | a :: as' => answered p' s' q a as' end
  end.
Proof.
  intros p as_ s. unfold onward. cbn [serve]. destruct (read_request p s) as [[[q|e|] s'] p'] eqn:E; [|reflexivity|reflexivity].
  destruct (read_eats _ _ _ _ _ E) as (Lt & pr & ->). destruct as_ as [|a as']; cbn [replay]; [reflexivity|].
  destruct a as [res|e|]; cbn [answered]; [|reflexivity|reflexivity]. destruct (write_response pr q res); [|reflexivity|reflexivity].
  unfold onward. rewrite (serve_fuel _ replay (Some pr) (length s) (S (length s'))) by lia.
  destruct (serve replay (S (length s')) (Some pr) as' s') as [[x l] ft]. reflexivity.
Qed.

(** What is still to come on a connection, given the answers it will get. *)
Definition to_come (x : sconn) (as_ : list answer_of) : list served * fate :=
  match sc_phase x with
  | Offered | Reading | Writing _ => onward (sc_proto x) as_ (sc_left x)
  | Calling q => match as_ with [] => ([mkServed q []], Closed EIO) | a :: as' => answered (sc_proto x) (sc_left x) q a as' end
  | Answered q r => answered (sc_proto x) (sc_left x) q r as_
  | Over ft => ([], ft)
  | Lost => onward (sc_proto x) as_ (sc_left x)
  end.
Definition unsent (x : sconn) : bytes := match sc_phase x with Writing b => b | _ => [] end.
(** [mine]: the calls made so far; [done]: the requests dealt with. *)
Definition conn_ok (s : bytes) (mine : list (srequest * answer_of)) (x : sconn) : Prop :=
  exists done,
    (forall as_, onward None (map snd mine ++ as_) s = put done (to_come x as_))
    /\ (match sc_phase x with Lost => exists t, replies done = sc_out x ++ t | _ => replies done = sc_out x ++ unsent x end)
    /\ match sc_phase x with
       | Answered q _ => map fst mine = map sd_req done ++ [q]
       | _ => map fst mine = map sd_req done
       end
    /\ match sc_phase x with Offered => sc_proto x = None /\ sc_left x = s /\ sc_out x = [] /\ mine = [] | _ => True end.
Lemma put_put : forall a b x, put a (put b x) = put (a ++ b) x.
Proof. intros. unfold put. cbn [fst snd]. rewrite app_assoc. reflexivity. Qed.
Lemma replies_app : forall a b, replies (a ++ b) = replies a ++ replies b.
Proof. intros. unfold replies. apply flat_map_app. Qed.
Lemma move_ok : forall H (h : handler H) s mine st x st' x' new,
  conn_ok s mine x -> move h st x st' x' new -> conn_ok s (mine ++ new) x'.
Proof.
  intros H h s mine st x st' x' new (done & F & O & M & _) Mv.
  destruct Mv as [st s0 p out q s' p' E|st s0 p out e s' p' E|st s0 p out s' p' E|st s0 p out q|st s0 p out q e|st s0 p out q|st s0 p out q res b E|st s0 p out q res e E|st s0 p out q res E|st s0 p out a b|st s0 p out|st s0 p out b];
    cbn [to_come unsent sc_phase sc_left sc_proto sc_out] in *; rewrite ?app_nil_r in *.
  - exists done. cbn [to_come unsent sc_phase sc_left sc_proto sc_out]. rewrite app_nil_r. repeat split; [|exact O|exact M].
    intro as_. rewrite F, onward_step, E. reflexivity.
  - exists done. cbn [to_come unsent sc_phase sc_left sc_proto sc_out]. rewrite app_nil_r. repeat split; [|exact O|exact M].
    intro as_. rewrite F, onward_step, E. reflexivity.
  - exists done. cbn [to_come unsent sc_phase sc_left sc_proto sc_out]. rewrite app_nil_r. repeat split; [|exact O|exact M].
    intro as_. rewrite F, onward_step, E. reflexivity.
  - exists done. cbn [to_come unsent sc_phase sc_left sc_proto sc_out]. rewrite app_nil_r, !map_app. cbn [map fst snd]. repeat split; [|exact O|rewrite M; reflexivity].
    intro as_. rewrite <- app_assoc. cbn [app]. rewrite F. reflexivity.
  - exists (done ++ [mkServed q []]). cbn [to_come unsent sc_phase sc_left sc_proto sc_out]. rewrite app_nil_r, replies_app, map_app. cbn [replies flat_map sd_reply map sd_req]. rewrite ?app_nil_r. repeat split; [|exact O|exact M].
    intro as_. rewrite F. cbn [answered]. unfold put. cbn [fst snd]. rewrite app_nil_r. reflexivity.
  - exists (done ++ [mkServed q []]). cbn [to_come unsent sc_phase sc_left sc_proto sc_out]. rewrite app_nil_r, replies_app, map_app. cbn [replies flat_map sd_reply map sd_req]. rewrite ?app_nil_r. repeat split; [|exact O|exact M].
    intro as_. rewrite F. cbn [answered]. unfold put. cbn [fst snd]. rewrite app_nil_r. reflexivity.
  - exists (done ++ [mkServed q b]). cbn [to_come unsent sc_phase sc_left sc_proto sc_out]. rewrite replies_app, map_app. cbn [replies flat_map sd_reply map sd_req]. rewrite ?app_nil_r. fold (replies done). repeat split; [|rewrite O; reflexivity|exact M].
    intro as_. rewrite F. cbn [answered]. rewrite E, put_put. reflexivity.
  - exists (done ++ [mkServed q []]). cbn [to_come unsent sc_phase sc_left sc_proto sc_out]. rewrite app_nil_r, replies_app, map_app. cbn [replies flat_map sd_reply map sd_req]. rewrite ?app_nil_r. repeat split; [|exact O|exact M].
    intro as_. rewrite F. cbn [answered]. rewrite E. unfold put. cbn [fst snd]. rewrite app_nil_r. reflexivity.
  - exists (done ++ [mkServed q []]). cbn [to_come unsent sc_phase sc_left sc_proto sc_out]. rewrite app_nil_r, replies_app, map_app. cbn [replies flat_map sd_reply map sd_req]. rewrite ?app_nil_r. repeat split; [|exact O|exact M].
    intro as_. rewrite F. cbn [answered]. rewrite E. unfold put. cbn [fst snd]. rewrite app_nil_r. reflexivity.
  - exists done. cbn [to_come unsent sc_phase sc_left sc_proto sc_out]. rewrite <- app_assoc. repeat split; assumption.
  - exists done. cbn [to_come unsent sc_phase sc_left sc_proto sc_out]. rewrite app_nil_r. repeat split; assumption.
  - exists done. cbn [to_come unsent sc_phase sc_left sc_proto sc_out]. repeat split; try assumption. exists b. exact O.
Qed.

(** ** Invariants of the process *)
Lemma set_conn_same : forall f i x, set_conn f i x i = x.
Proof. intros. unfold set_conn. rewrite Nat.eqb_refl. reflexivity. Qed.
Lemma set_conn_other : forall f i x j, j <> i -> set_conn f i x j = f j.
Proof. intros f i x j N. unfold set_conn. apply Nat.eqb_neq in N. rewrite N. reflexivity. Qed.
Lemma of_conn_app : forall i a b, of_conn i (a ++ b) = of_conn i a ++ of_conn i b.
Proof. intros. unfold of_conn. apply flat_map_app. Qed.
Lemma of_conn_own : forall i new, of_conn i (map (pair i) new) = new.
Proof. intros i. induction new as [|e new IH]; [reflexivity|]. cbn [map of_conn flat_map fst snd]. rewrite Nat.eqb_refl. cbn [app]. f_equal. exact IH. Qed.
Lemma of_conn_other : forall i j new, j <> i -> of_conn i (map (pair j) new) = [].
Proof. intros i j new N. induction new as [|e new IH]; [reflexivity|]. cbn [map of_conn flat_map fst snd]. rewrite (proj2 (Nat.eqb_neq j i) N). exact IH. Qed.
Lemma handle_all_app : forall H (h : handler H) a b st, handle_all h st (a ++ b)
  = (fst (handle_all h (fst (handle_all h st a)) b), snd (handle_all h st a) ++ snd (handle_all h (fst (handle_all h st a)) b)).
Proof.
  intros H h. induction a as [|q a IH]; intros b st; cbn [app handle_all].
  - cbn [fst snd app]. destruct (handle_all h st b); reflexivity.
  - destruct (h st q) as [st1 r]. rewrite IH. destruct (handle_all h st1 a) as [st2 l]. reflexivity.
Qed.
Definition requests_of (log : list (nat * (srequest * answer_of))) : list srequest := map (fun e => fst (snd e)) log.
Definition answers_of (log : list (nat * (srequest * answer_of))) : list answer_of := map (fun e => snd (snd e)) log.
Lemma reached : forall H (h : handler H) who st streams v, ssteps h who (listening st streams) v ->
  (forall i, conn_ok (streams i) (of_conn i (v_log v)) (v_conns v i))
  /\ handle_all h st (requests_of (v_log v)) = (v_handler v, answers_of (v_log v)).
Proof.
  intros H h who st streams v Sv. remember (listening st streams) as v0 eqn:E0. induction Sv as [v|v u w k Sv IH _ S]; subst.
  - split; [|reflexivity]. intro i. exists []. cbn [listening v_conns v_log of_conn flat_map to_come sc_phase sc_proto sc_left sc_out]. repeat split. intro as_. unfold put. cbn [map app fst snd]. destruct (onward None as_ (streams i)); reflexivity.
  - destruct (IH eq_refl) as [C L]. clear IH. destruct S as [u i s p out D Li E|u D Li|u i st' x' new D Mv]; cbn [v_conns v_log v_handler].
    + split; [|exact L]. intro j. destruct (Nat.eq_dec j i) as [->|N]; [rewrite set_conn_same|rewrite set_conn_other by exact N; apply C].
      specialize (C i). rewrite E in C. destruct C as (done & F & O & M & P). exists done. cbn [sc_phase sc_proto sc_left sc_out to_come unsent] in *. repeat split; assumption.
    + split; [exact C|exact L].
    + split.
      * intro j. rewrite of_conn_app. destruct (Nat.eq_dec j i) as [->|N].
        -- rewrite set_conn_same, of_conn_own. eapply move_ok; [apply C|exact Mv].
        -- rewrite set_conn_other by exact N. rewrite of_conn_other by congruence. rewrite app_nil_r. apply C.
      * unfold requests_of, answers_of in *. rewrite !map_app, handle_all_app, L. cbn [fst snd].
        inversion Mv; subst; cbn [map handle_all fst snd]; rewrite ?app_nil_r; try reflexivity.
        destruct (h (v_handler u) q) as [st1 r]. reflexivity.
Qed.

Lemma as_if_alone : forall s mine x, conn_ok s mine x ->
  exists st' l ft more, serve_conn replay (map snd mine) s = (st', l, ft)
    /\ map fst mine = firstn (length mine) (map sd_req l)
    /\ replies l = sc_out x ++ more
    /\ (forall ft', sc_phase x = Over ft' -> ft = ft' /\ more = [] /\ map sd_req l = map fst mine).
Proof.
  intros s mine x (done & F & O & M & _).
  specialize (F []). rewrite app_nil_r in F. unfold onward in F. unfold serve_conn.
  destruct (serve replay (S (length s)) None (map snd mine) s) as [[st' l] ft].
  destruct (to_come x []) as [l' ft'] eqn:T. unfold put in F. cbn [fst snd] in F. injection F as El <-.
  assert (Q : exists more, replies l = sc_out x ++ more).
  { rewrite El, replies_app. destruct (sc_phase x); try (rewrite O, <- app_assoc; eexists; reflexivity). destruct O as [t ->]. rewrite <- app_assoc. eexists. reflexivity. }
  destruct Q as [more Q]. exists st', l, ft, more. split; [reflexivity|]. split; [|split; [exact Q|]].
  - assert (Ln : length mine = length (map fst mine)) by (rewrite map_length; reflexivity). rewrite Ln. rewrite El, map_app.
    destruct (sc_phase x) as [| |q|q r|b|ft0|] eqn:Ph; try (rewrite M, firstn_app, firstn_all, Nat.sub_diag; cbn [firstn]; rewrite app_nil_r; reflexivity).
    rewrite M. assert (Hd : exists t, map sd_req l' = q :: t).
    { unfold to_come in T. rewrite Ph in T. unfold answered in T. destruct r as [res|e|]; [destruct (sc_proto x) as [pr|]; [destruct (write_response pr q res)|]|  |];
        try (injection T as <- <-; eexists; reflexivity). }
    destruct Hd as [t ->]. rewrite firstn_app, firstn_all2 by (rewrite app_length; lia). rewrite app_length. cbn [length]. replace (length (map sd_req done) + 1 - length (map sd_req done)) with 1 by lia. reflexivity.
  - intros ft0 Ph. unfold to_come in T. rewrite Ph in *. injection T as <- <-. rewrite app_nil_r in El. subst l. split; [reflexivity|].
    cbn [unsent] in O. unfold unsent in O. rewrite Ph, app_nil_r in O. rewrite O in Q. split; [|symmetry; exact M]. rewrite <- (app_nil_r (sc_out x)) in Q at 1. apply app_inv_head in Q. congruence.
Qed.

(** ** C62 *)
(** Whatever the interleaving, the handler saw one sequence of requests, and each answer and the
    handler's state are those of handling them one after the other. *)
Theorem C62_one_sequence_of_requests : forall H (h : handler H) st streams v, ssteps h anyone (listening st streams) v ->
  handle_all h st (requests_of (v_log v)) = (v_handler v, answers_of (v_log v)).
Proof. intros H h st streams v Sv. apply (reached H h anyone st streams v Sv). Qed.
Print Assumptions C62_one_sequence_of_requests.
(** Each connection behaves as the only connection of a server (Serve.v) whose handler gives the answers
    that were given to this connection's requests: its requests reached the handler once each in the
    order of its stream, it has been sent a prefix of those replies and nothing of another connection's,
    and if it ended, it ended the same way, with all of them sent. *)
Theorem C62_a_connection_is_served_as_if_alone : forall H (h : handler H) st streams v i, ssteps h anyone (listening st streams) v ->
  exists st' l ft more, serve_conn replay (map snd (of_conn i (v_log v))) (streams i) = (st', l, ft)
    /\ map fst (of_conn i (v_log v)) = firstn (length (of_conn i (v_log v))) (map sd_req l)
    /\ replies l = sc_out (v_conns v i) ++ more
    /\ (forall ft', sc_phase (v_conns v i) = Over ft' -> ft = ft' /\ more = [] /\ map sd_req l = map fst (of_conn i (v_log v))).
Proof. intros H h st streams v i Sv. apply as_if_alone. apply (reached H h anyone st streams v Sv). Qed.
Print Assumptions C62_a_connection_is_served_as_if_alone.

(** ** C63 *)
(** What a goroutine holds is a request read from its stream, answered by the handler. *)
Definition decent_answer (q : srequest) (r : answer_of) : Prop :=
  match r with Ok res => (is_get q = false -> res <> []) /\ Forall full_flags res | Err _ => True | Panic => False end.
Definition decent_conn (s : bytes) (x : sconn) : Prop :=
  match sc_phase x with
  | Over Crashed => False
  | Over _ => True
  | Calling q => (exists before, s = before ++ sc_left x) /\ exists p b s', sc_proto x = Some p /\ parser p b = (Ok q, s')
  | Answered q r => (exists before, s = before ++ sc_left x) /\ decent_answer q r /\ exists p b s', sc_proto x = Some p /\ parser p b = (Ok q, s')
  | _ => exists before, s = before ++ sc_left x
  end.
Lemma read_suffix : forall p s r s' p', read_request p s = ((r, s'), p') -> r <> Err EIO -> exists b, s = b ++ s'.
Proof.
  intros p s r s' p' E N. destruct p as [pr|].
  - assert (R : read_request (Some pr) s = (parser pr s, Some pr)) by (destruct pr; reflexivity). rewrite R in E. injection E as E <-.
    destruct (local_parser pr _ _ _ E N) as (u & -> & _). exists u. reflexivity.
  - destruct s as [|c s]; [injection E as <- <- <-; exists []; reflexivity|]. rewrite read_first in E. injection E as E <-.
    destruct (local_parser _ _ _ _ E N) as (u & Eu & _). exists u. exact Eu.
Qed.
Lemma read_parser : forall p s r s' p', read_request p s = ((r, s'), p') -> (forall e, r <> Err e) -> exists pr, p' = Some pr /\ parser pr s = (r, s').
Proof.
  intros p s r s' p' E N. destruct p as [pr|].
  - assert (R : read_request (Some pr) s = (parser pr s, Some pr)) by (destruct pr; reflexivity). rewrite R in E. injection E as E <-. exists pr. auto.
  - destruct s as [|c s]; [injection E as <- <- <-; exfalso; eapply N; reflexivity|]. rewrite read_first in E. injection E as E <-. eexists. split; [reflexivity|exact E].
Qed.
Lemma move_decent : forall H (h : handler H) s st x st' x' new, polite h -> (forall a b p, s = a ++ b -> ~ hostile p b) ->
  decent_conn s x -> move h st x st' x' new -> decent_conn s x'.
Proof.
  intros H h s st x st' x' new Po Nh D Mv.
  destruct Mv as [st s0 p out q s' p' E|st s0 p out e s' p' E|st s0 p out s' p' E|st s0 p out q|st s0 p out q e|st s0 p out q|st s0 p out q res b E|st s0 p out q res e E|st s0 p out q res E|st s0 p out a b|st s0 p out|st s0 p out b];
    unfold decent_conn in *; cbn [sc_phase sc_left sc_proto] in *; try exact Logic.I; try exact D.
  - destruct D as [before ->]. destruct (read_suffix _ _ _ _ _ E ltac:(discriminate)) as [u ->]. destruct (read_parser _ _ _ _ _ E ltac:(discriminate)) as (pr & -> & P).
    split; [exists (before ++ u); rewrite app_assoc; reflexivity|]. exists pr, (u ++ s'), s'. auto.
  - destruct D as [before ->]. destruct (read_parser _ _ _ _ _ E ltac:(discriminate)) as (pr & _ & P). exact (Nh _ _ pr eq_refl (parser_panic _ _ _ P)).
  - destruct D as [Sf R]. split; [exact Sf|]. split; [|exact R]. exact (Po st q).
  - destruct D as (_ & [] & _).
  - destruct D as [Sf _]. exact Sf.
  - destruct D as (_ & Dc & pr & b & s' & Ep & P). injection Ep as <-. cbn [decent_answer] in Dc. exact (writer_safe _ _ _ _ _ P (proj1 Dc) (proj2 Dc) E).
Qed.
(** If no stream contains a hostile request (C36) and the handler does its part, the process never ends:
    no connection can end another. *)
Theorem C63_no_connection_ends_another_partial : forall H (h : handler H) st streams v,
  polite h -> (forall i a b p, streams i = a ++ b -> ~ hostile p b) ->
  ssteps h anyone (listening st streams) v -> v_down v = false.
Proof.
  intros H h st streams v Po Nh Sv.
  assert (G : v_down v = false /\ forall i, decent_conn (streams i) (v_conns v i)); [|apply G].
  remember (listening st streams) as v0 eqn:E0. induction Sv as [v|v u w k Sv IH _ S]; subst.
  - split; [reflexivity|]. intro i. exists []. reflexivity.
  - destruct (IH eq_refl) as [_ C]. clear IH. destruct S as [u i s p out D Li E|u D Li|u i st' x' new D Mv]; cbn [v_conns v_down].
    + split; [reflexivity|]. intro j. destruct (Nat.eq_dec j i) as [->|N]; [rewrite set_conn_same|rewrite set_conn_other by exact N; apply C].
      specialize (C i). rewrite E in C. exact C.
    + split; [reflexivity|exact C].
    + pose proof (move_decent H h (streams i) _ _ _ _ _ Po (Nh i) (C i) Mv) as Dx. split.
      * unfold crashed. unfold decent_conn in Dx. destruct (sc_phase x') as [| | | | |[]|]; try reflexivity. contradiction.
      * intro j. destruct (Nat.eq_dec j i) as [->|N]; [rewrite set_conn_same; exact Dx|rewrite set_conn_other by exact N; apply C].
Qed.
Print Assumptions C63_no_connection_ends_another_partial.
(** The full property: with a handler that does its part, no client can end the process and with it the
    other connections. It fails: one request of one client does. *)
Definition C63_no_connection_ends_another : Prop := forall H (h : handler H) st streams v,
  polite h -> ssteps h anyone (listening st streams) v -> v_down v = false.
Lemma alone : forall H (h : handler H) (who : option nat -> Prop) v u k, who k -> sstep h k v u -> ssteps h who v u.
Proof. intros H h who v u k W S. exact (v_step _ _ _ _ _ _ (v_refl _ _ _) W S). Qed.
Theorem C63_one_client_ends_the_server : forall H (h : handler H) st streams i rest, streams i = B "set k 0 0 -3" ++ crlf ++ rest ->
  exists v, ssteps h anyone (listening st streams) v /\ v_down v = true
    /\ (forall j, j <> i -> v_conns v j = mkSC (streams j) None Offered []) /\ forall k w, ~ sstep h k v w.
Proof.
  intros H h st streams i rest E. set (v0 := listening st streams).
  pose (v1 := mkV st (set_conn (v_conns v0) i (mkSC (streams i) None Reading [])) ([] : list (nat * (srequest * answer_of))) true false).
  assert (R : exists s', read_request None (streams i) = ((Panic, s'), Some ProtoAscii)).
  { rewrite E. change (B "set k 0 0 -3" ++ crlf ++ rest) with ((B "set k 0 0 -3" ++ crlf) ++ rest).
    assert (X : parser ProtoAscii (B "set k 0 0 -3" ++ crlf) = (Panic, [])) by (vm_compute; reflexivity).
    destruct (local_parser ProtoAscii _ _ _ X ltac:(discriminate)) as (u & Eu & F & _). rewrite app_nil_r in Eu. rewrite <- Eu in F.
    exists rest. specialize (F rest). cbn [parser] in F. change ((B "set k 0 0 -3" ++ crlf) ++ rest) with ("s"%char :: B "et k 0 0 -3" ++ crlf ++ rest) in *.
    rewrite read_first. replace (announced "s"%char) with ProtoAscii by reflexivity. cbn [parser]. rewrite F. reflexivity. }
  destruct R as [s' R].
  assert (S1 : sstep h (Some i) v0 v1) by (apply (V_accept h v0 i (streams i) None []); reflexivity).
  assert (S2 : sstep h (Some i) v1 (mkV st (set_conn (v_conns v1) i (mkSC s' (Some ProtoAscii) (Over Crashed) [])) ([] ++ map (pair i) []) true true)).
  { apply (V_move h v1 i st (mkSC s' (Some ProtoAscii) (Over Crashed) []) []); [reflexivity|]. unfold v1. cbn [v_conns v_handler]. rewrite set_conn_same. apply M_crash. exact R. }
  eexists. split; [eapply v_step; [exact (alone _ _ _ _ _ _ Logic.I S1)|exact Logic.I|exact S2]|]. split; [reflexivity|]. split.
  - intros j N. cbn [v_conns]. rewrite set_conn_other by exact N. unfold v1. cbn [v_conns]. rewrite set_conn_other by exact N. reflexivity.
  - intros k w S. inversion S; cbn in *; congruence.
Qed.
Print Assumptions C63_one_client_ends_the_server.
Theorem C63_no_connection_ends_another_refuted : ~ C63_no_connection_ends_another.
Proof.
  intro F. destruct (C63_one_client_ends_the_server Z counter_handler 0%Z (fun _ => B "set k 0 0 -3" ++ crlf) 7 [] ltac:(rewrite app_nil_r; reflexivity)) as (v & Sv & D & _).
  rewrite (F Z counter_handler 0%Z _ v (proj1 C36_met) Sv) in D. discriminate D.
Qed.
Print Assumptions C63_no_connection_ends_another_refuted.

(** ** C64 *)
(** From any state the process may be in, whatever the other connections are doing (in the middle of a
    slow handler call, not reading their replies): an accepted connection can be served to its end by
    steps of its own goroutine alone; nothing else changes but the handler's state, and it is served as
    the only connection of the server would be from the handler's current state. *)
Definition only (i : nat) (k : option nat) : Prop := k = Some i.
Lemma ssteps_trans : forall H (h : handler H) who v u w, ssteps h who v u -> ssteps h who u w -> ssteps h who v w.
Proof. intros H h who v u w A C. induction C as [u|u x w k C IH W S]; [exact A|]. exact (v_step _ _ _ _ _ _ (IH A) W S). Qed.
Definition served_to_the_end {H} (h : handler H) (v : server_state H) (i : nat) (st' : H) (l : list served) (ft : fate) : Prop :=
  exists v' new, ssteps h (only i) v v' /\ v_handler v' = st' /\ sc_phase (v_conns v' i) = Over ft
    /\ sc_out (v_conns v' i) = sc_out (v_conns v i) ++ replies l
    /\ v_log v' = v_log v ++ map (pair i) new /\ map fst new = map sd_req l
    /\ (forall j, j <> i -> v_conns v' j = v_conns v j) /\ v_down v' = match ft with Crashed => true | _ => false end.
Lemma one_move : forall H (h : handler H) v i st' x' new, v_down v = false -> move h (v_handler v) (v_conns v i) st' x' new ->
  ssteps h (only i) v (mkV st' (set_conn (v_conns v) i x') (v_log v ++ map (pair i) new) (v_listening v) (crashed x')).
Proof. intros. eapply alone; [reflexivity|]. apply V_move; assumption. Qed.
Lemma move_to : forall H (h : handler H) v i x st' x' new, v_down v = false -> v_conns v i = x -> move h (v_handler v) x st' x' new ->
  exists v', ssteps h (only i) v v' /\ v_handler v' = st' /\ v_conns v' i = x' /\ v_log v' = v_log v ++ map (pair i) new
    /\ (forall j, j <> i -> v_conns v' j = v_conns v j) /\ v_down v' = crashed x'.
Proof.
  intros H h v i x st' x' new D E Mv. subst x. eexists. split; [exact (one_move H h v i st' x' new D Mv)|]. cbn [v_handler v_conns v_log v_down].
  split; [reflexivity|]. split; [apply set_conn_same|]. split; [reflexivity|]. split; [intros j N; apply set_conn_other; exact N|reflexivity].
Qed.
Lemma then_served : forall H (h : handler H) v u i st' l0 new0 l ft,
  ssteps h (only i) v u -> v_log u = v_log v ++ map (pair i) new0 -> map fst new0 = map sd_req l0 -> sc_out (v_conns u i) = sc_out (v_conns v i) ++ replies l0 ->
  (forall j, j <> i -> v_conns u j = v_conns v j) -> served_to_the_end h u i st' l ft -> served_to_the_end h v i st' (l0 ++ l) ft.
Proof.
  intros H h v u i st' l0 new0 l ft S L M O C (v' & new & S' & Hs & Ph & O' & L' & M' & C' & Dn). exists v', (new0 ++ new).
  split; [exact (ssteps_trans _ _ _ _ _ _ S S')|]. split; [exact Hs|]. split; [exact Ph|]. split; [rewrite O', O, replies_app, app_assoc; reflexivity|].
  split; [rewrite L', L, map_app, app_assoc; reflexivity|]. split; [rewrite !map_app, M, M'; reflexivity|]. split; [|exact Dn]. intros j N. rewrite C' by exact N. apply C. exact N.
Qed.
Theorem C64_a_connection_waits_for_no_other : forall H (h : handler H) v i s p out, v_down v = false -> v_conns v i = mkSC s p Reading out ->
  let '(st', l, ft) := serve h (S (length s)) p (v_handler v) s in served_to_the_end h v i st' l ft.
Proof.
  intros H h v i s. remember (length s) as n eqn:En. revert v s En. induction n as [n IH] using lt_wf_ind. intros v s En p out D E.
  cbn [serve]. destruct (read_request p s) as [[[q|e|] s'] p'] eqn:R.
  2: { destruct (move_to H h v i _ _ _ _ D E (M_bad h _ _ _ _ _ _ _ R)) as (u & S & Hs & Cu & Lu & Oc & Dn). exists u, []. rewrite Cu, E. cbn [sc_phase sc_out map replies flat_map]. cbn [map] in Lu. rewrite app_nil_r in Lu. rewrite !app_nil_r. split; [exact S|]. split; [exact Hs|]. split; [reflexivity|]. split; [reflexivity|]. split; [exact Lu|]. split; [reflexivity|]. split; [exact Oc|exact Dn]. }
  2: { destruct (move_to H h v i _ _ _ _ D E (M_crash h _ _ _ _ _ _ R)) as (u & S & Hs & Cu & Lu & Oc & Dn). exists u, []. rewrite Cu, E. cbn [sc_phase sc_out map replies flat_map]. cbn [map] in Lu. rewrite app_nil_r in Lu. rewrite !app_nil_r. split; [exact S|]. split; [exact Hs|]. split; [reflexivity|]. split; [reflexivity|]. split; [exact Lu|]. split; [reflexivity|]. split; [exact Oc|exact Dn]. }
  destruct (read_eats _ _ _ _ _ R) as (Lt & pr & ->).
  destruct (move_to H h v i _ _ _ _ D E (M_read h _ _ _ _ _ _ _ R)) as (u1 & S1 & H1 & C1 & L1 & O1 & D1). cbn [map] in L1. rewrite app_nil_r in L1.
  destruct (move_to H h u1 i _ _ _ _ D1 C1 (M_handle h _ _ _ _ _)) as (u2 & S2 & H2 & C2 & L2 & O2 & D2). rewrite H1 in *. rewrite L1 in L2.
  pose proof (ssteps_trans _ _ _ _ _ _ S1 S2) as S12. assert (O12 : forall j, j <> i -> v_conns u2 j = v_conns v j) by (intros j N; rewrite O2 by exact N; apply O1; exact N).
  destruct (h (v_handler v) q) as [st' r] eqn:Eh. cbn [fst snd] in *.
  assert (End : forall ft, move h (v_handler u2) (v_conns u2 i) st' (mkSC s' (Some pr) (Over ft) out) [] -> served_to_the_end h v i st' [mkServed q []] ft).
  { intros ft Mv. destruct (move_to H h u2 i _ _ _ _ D2 eq_refl Mv) as (u3 & S3 & H3 & C3 & L3 & O3 & D3). exists u3, [(q, r)].
    rewrite C3, E. cbn [sc_phase sc_out map replies flat_map sd_reply app fst sd_req]. rewrite !app_nil_r. cbn [map] in L3. rewrite app_nil_r, L2 in L3. unfold crashed in D3. cbn [sc_phase] in D3.
    split; [exact (ssteps_trans _ _ _ _ _ _ S12 S3)|]. split; [exact H3|]. split; [reflexivity|]. split; [reflexivity|]. split; [exact L3|]. split; [reflexivity|]. split; [|exact D3]. intros j N. rewrite O3 by exact N. apply O12. exact N. }
  destruct r as [res|e|].
  - destruct (write_response pr q res) as [b|e|] eqn:W.
    + assert (Mv : move h (v_handler u2) (v_conns u2 i) st' (mkSC s' (Some pr) (Writing b) out) []) by (rewrite C2, H2; apply M_reply; exact W).
      destruct (move_to H h u2 i _ _ _ _ D2 eq_refl Mv) as (u3 & S3 & H3 & C3 & L3 & O3 & D3).
      assert (Mv4 : move h (v_handler u3) (v_conns u3 i) st' (mkSC s' (Some pr) (Writing []) (out ++ b)) []) by (rewrite C3, H3; rewrite <- (app_nil_r b) at 1; apply M_write).
      destruct (move_to H h u3 i _ _ _ _ D3 eq_refl Mv4) as (u4 & S4 & H4 & C4 & L4 & O4 & D4).
      assert (Mv5 : move h (v_handler u4) (v_conns u4 i) st' (mkSC s' (Some pr) Reading (out ++ b)) []) by (rewrite C4, H4; apply M_written).
      destruct (move_to H h u4 i _ _ _ _ D4 eq_refl Mv5) as (u5 & S5 & H5 & C5 & L5 & O5 & D5).
      pose proof (IH (length s') ltac:(lia) u5 s' eq_refl (Some pr) (out ++ b) D5 C5) as G. rewrite H5 in G.
      rewrite (serve_fuel _ h (Some pr) n (S (length s'))) by lia. destruct (serve h (S (length s')) (Some pr) st' s') as [[st'' l] ft].
      apply (then_served H h v u5 i st'' [mkServed q b] [(q, Ok res)] l ft); [|rewrite L5, L4, L3, L2; cbn [map]; rewrite !app_nil_r; reflexivity|reflexivity|rewrite C5, E; cbn; rewrite app_nil_r; reflexivity| |exact G].
      * exact (ssteps_trans _ _ _ _ _ _ S12 (ssteps_trans _ _ _ _ _ _ S3 (ssteps_trans _ _ _ _ _ _ S4 S5))).
      * intros j N. rewrite O5, O4, O3 by exact N. apply O12. exact N.
    + apply End. rewrite C2, H2. apply M_no_reply. exact W.
    + apply End. rewrite C2, H2. apply M_reply_crash. exact W.
  - apply End. rewrite C2, H2. apply M_refused.
  - apply End. rewrite C2, H2. apply M_handler_crash.
Qed.
Print Assumptions C64_a_connection_waits_for_no_other.

(** Two clients. The first one's request is in the handler when the second one connects, is served twice
    and leaves; then the first one is answered: nothing of one stream is in the other. *)
Definition visitors (i : nat) : bytes := match i with O => B "get a" ++ crlf | 1 => B "incr b 5" ++ crlf ++ B "version" ++ crlf | _ => [] end.
Lemma interim_reached : exists v, ssteps counter_handler anyone (listening 0%Z visitors) v /\ v_down v = false /\ v_handler v = 0%Z /\ v_log v = []
  /\ (exists q, v_conns v 0 = mkSC [] (Some ProtoAscii) (Calling q) []) /\ v_conns v 1 = mkSC (visitors 1) None Reading [].
Proof.
  set (v0 := listening 0%Z visitors).
  pose proof (V_accept counter_handler v0 0 (visitors 0) None [] eq_refl eq_refl eq_refl) as S1. set (v1 := mkV _ _ _ _ _) in S1.
  pose proof (V_accept counter_handler v1 1 (visitors 1) None [] eq_refl eq_refl eq_refl) as S2. set (v2 := mkV _ _ _ _ _) in S2.
  assert (R : exists q, read_request None (visitors 0) = ((Ok q, []), Some ProtoAscii)) by (eexists; vm_compute; reflexivity). destruct R as [q R].
  pose proof (V_move counter_handler v2 0 _ _ _ eq_refl (M_read counter_handler 0%Z (visitors 0) None [] q [] (Some ProtoAscii) R)) as S3.
  eexists. split; [eapply v_step; [eapply v_step; [exact (alone _ _ _ _ _ _ Logic.I S1)|exact Logic.I|exact S2]|exact Logic.I|exact S3]|].
  repeat split. exists q. reflexivity.
Qed.
Example C64_met : exists v v', ssteps counter_handler anyone (listening 0%Z visitors) v /\ ssteps counter_handler (only 1) v v'
  /\ (exists q, sc_phase (v_conns v' 0) = Calling q) /\ sc_phase (v_conns v' 1) = Over (Closed EIO) /\ sc_out (v_conns v' 1) = B "0" ++ crlf ++ B "1" ++ crlf.
Proof.
  destruct interim_reached as (v & Sv & D & Hs & _ & (q & C0) & C1). pose proof (C64_a_connection_waits_for_no_other Z counter_handler v 1 (visitors 1) None [] D C1) as G. rewrite Hs in G.
  assert (E : serve counter_handler (S (length (visitors 1))) None 0%Z (visitors 1) = (2%Z, snd (fst (serve counter_handler (S (length (visitors 1))) None 0%Z (visitors 1))), Closed EIO)) by (vm_compute; reflexivity).
  rewrite E in G. destruct G as (v' & new & S' & _ & Ph & O & _ & _ & Oc & _). exists v, v'. split; [exact Sv|]. split; [exact S'|].
  split; [exists q; rewrite Oc by discriminate; rewrite C0; reflexivity|]. split; [exact Ph|]. rewrite O, C1. vm_compute. reflexivity.
Qed.
Example C62_met : exists v v', ssteps counter_handler anyone (listening 0%Z visitors) v /\ ssteps counter_handler (only 1) v v' /\ ssteps counter_handler anyone (listening 0%Z visitors) v'
  /\ length (of_conn 1 (v_log v')) = 2.
Proof.
  destruct interim_reached as (v & Sv & D & Hs & Lg & _ & C1). pose proof (C64_a_connection_waits_for_no_other Z counter_handler v 1 (visitors 1) None [] D C1) as G. rewrite Hs in G.
  assert (E : serve counter_handler (S (length (visitors 1))) None 0%Z (visitors 1) = (2%Z, snd (fst (serve counter_handler (S (length (visitors 1))) None 0%Z (visitors 1))), Closed EIO)) by (vm_compute; reflexivity).
  rewrite E in G. destruct G as (v' & new & S' & _ & _ & _ & L & M & _ & _). exists v, v'. split; [exact Sv|]. split; [exact S'|]. split.
  - clear - Sv S'. induction S' as [v|v u w k S' IH W S]; [exact Sv|]. exact (v_step _ _ _ _ _ _ (IH Sv) Logic.I S).
  - rewrite L, Lg. cbn [app]. rewrite of_conn_own. rewrite <- (map_length fst new), M. vm_compute. reflexivity.
Qed.
Example C63_met : polite counter_handler /\ forall i a b p, (fun _ : nat => B "get a" ++ crlf) i = a ++ b -> ~ hostile p b.
Proof.
  split; [exact (proj1 C36_met)|]. intros i a b p E.
  assert (L : forall s, length s <= 7 -> ~ hostile ProtoBinary s) by (intros s L (K & _); unfold zlen in K; lia).
  assert (Lb : length b <= 7) by (assert (X : 7 = length (a ++ b)) by (rewrite <- E; reflexivity); rewrite app_length in X; lia).
  destruct p; [|exact (L b Lb)]. intros (fs & F & X).
  do 7 (destruct a as [|? a]; [cbn in E; subst b; vm_compute in F; try discriminate F; injection F as <-; discriminate X|cbn in E; injection E as _ E]).
  destruct a; [cbn in E; subst b; vm_compute in F; discriminate F|discriminate E].
Qed.
