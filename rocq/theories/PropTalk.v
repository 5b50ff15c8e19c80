(** * Property C90: this repository's client and server, end to end, over one connection. *)
From Verif Require PClient.
From Verif Require Import GoBytes GoNum GoIO GoScan Item ClientText ClientMeta ClientBinary Cache Daemon Spec Call Guard
  ServerTypes ServerParse ServerWrite Serve ServerSpec Talk PLib PScan PDaemon PCache PText PMeta PReader PBinary PServer PServe PReply PropServer PropServerReply PropHandler.
Local Open Scope Z_scope.

(** ** The model of the conversation is the server's loop (Serve.v), fed piece by piece *)
Lemma request_local : forall p s o rest p', read_request p s = ((o, rest), p') -> o <> Err EIO ->
  exists used, s = used ++ rest /\ used <> [] /\ forall t, read_request p (used ++ t) = ((o, t), p').
Proof.
  intros p s o rest p' E N. destruct p as [pr|].
  - assert (Q : forall s, read_request (Some pr) s = (parser pr s, Some pr)) by (intro; destruct pr; reflexivity). rewrite Q in E.
    assert (E1 : parser pr s = (o, rest)) by congruence. assert (E2 : p' = Some pr) by congruence. subst p'.
    destruct (local_parser pr _ _ _ E1 N) as (u & -> & F & _). exists u. split; [reflexivity|]. split.
    + intros ->. pose proof (eats_parser pr _ _ _ E1 N). cbn in *. lia.
    + intro t. rewrite Q, F. reflexivity.
  - destruct s as [|c s]; [cbn in E; congruence|]. rewrite read_first in E.
    assert (E1 : parser (announced c) (c :: s) = (o, rest)) by congruence. assert (E2 : p' = Some (announced c)) by congruence. subst p'.
    destruct (local_parser (announced c) _ _ _ E1 N) as (u & Es & F & _). exists u. split; [exact Es|].
    destruct u as [|c' u]; [exfalso; pose proof (eats_parser (announced c) _ _ _ E1 N); cbn in *; subst rest; cbn in *; lia|].
    assert (c' = c) by (cbn in Es; congruence). subst c'. split; [discriminate|]. intro t. cbn [app]. rewrite read_first. change (c :: u ++ t) with ((c :: u) ++ t). rewrite F. reflexivity.
Qed.

Lemma live_fuel : forall H (h : handler H) f1 f2 p st s, (length s < f1)%nat -> (length s < f2)%nat ->
  serve_live h f1 p st s = serve_live h f2 p st s.
Proof.
  intros H h. induction f1 as [|f1 IH]; intros [|f2] p st s L1 L2; try lia. cbn [serve_live].
  destruct (read_request p s) as [[x s'] p'] eqn:E. destruct x as [q|e|]; [|destruct e; reflexivity|reflexivity].
  destruct (h st q) as [st' [res| |]]; try reflexivity. destruct p' as [pr|]; [|reflexivity]. destruct (write_response pr q res); try reflexivity.
  destruct (request_local _ _ _ _ _ E ltac:(discriminate)) as (u & -> & Nu & _). rewrite app_length in *. destruct u; [congruence|]. cbn in *.
  rewrite (IH f2) by lia. reflexivity.
Qed.

(** What the live loop has done with the bytes so far is what the loop of Serve.v does with them before it meets the
    end of the stream. *)
Theorem C90_live_is_serve_conn : forall H (h : handler H) st s st' p' rest out over,
  serve_live h (S (length s)) None st s = (st', p', rest, out, over) ->
  exists l ft, serve_conn h st s = (st', l, ft) /\ replies l = out /\ match over with Some f => ft = f | None => ft = Closed EIO end.
Proof.
  intros H h st s st' p' rest out over. unfold serve_conn. generalize (@None protocol) as p. generalize (S (length s)) as n.
  intro n. revert st s st' p' rest out over. induction n as [|n IH]; intros st s st' p' rest out over p E; cbn [serve_live serve] in *.
  - injection E as <- <- <- <- <-. exists [], OutOfFuel. repeat split.
  - destruct (read_request p s) as [[x s1] p1] eqn:R. destruct x as [q|e|].
    + destruct (h st q) as [st1 [res|e|]]; [|injection E as <- <- <- <- <-; eexists _, _; repeat split|injection E as <- <- <- <- <-; eexists _, _; repeat split].
      destruct p1 as [pr|]; [|injection E as <- <- <- <- <-; eexists _, _; repeat split].
      destruct (write_response pr q res) as [b|e|]; [|injection E as <- <- <- <- <-; eexists _, _; repeat split|injection E as <- <- <- <- <-; eexists _, _; repeat split].
      destruct (serve_live h n (Some pr) st1 s1) as [[[[a1 a2] a3] a4] a5] eqn:F. injection E as <- <- <- <- <-.
      destruct (IH _ _ _ _ _ _ _ _ F) as (l & ft & G & Rp & Ov). rewrite G. eexists _, _. split; [reflexivity|]. split; [|exact Ov].
      unfold replies in *. cbn [flat_map sd_reply]. rewrite Rp. reflexivity.
    + destruct e; injection E as <- <- <- <- <-; eexists _, _; repeat split.
    + injection E as <- <- <- <- <-. eexists _, _. repeat split.
Qed.
Print Assumptions C90_live_is_serve_conn.

(** Bytes that arrive in two pieces are served as if they had arrived at once. *)
Theorem C90_pieces : forall H (h : handler H) p st a b st1 p1 rest out1,
  serve_live h (S (length a)) p st a = (st1, p1, rest, out1, None) ->
  serve_live h (S (length (a ++ b))) p st (a ++ b)
  = let '(st2, p2, rest2, out2, over) := serve_live h (S (length (rest ++ b))) p1 st1 (rest ++ b) in (st2, p2, rest2, out1 ++ out2, over).
Proof.
  intros H h p st a. remember (length a) as n eqn:En. assert (Ln : (length a <= n)%nat) by lia. clear En.
  revert p st a Ln. induction n as [|n IH]; intros p st a Ln b st1 p1 rest out1 E.
  - destruct a; [|cbn in Ln; lia]. cbn [serve_live] in E. assert (R0 : read_request p [] = ((Err EIO, []), p)) by (destruct p as [[]|]; reflexivity). rewrite R0 in E. injection E as <- <- <- <-. cbn [app]. destruct (serve_live _ _ _ _ b) as [[[[? ?] ?] ?] ?]; reflexivity.
  - remember (S n) as m eqn:Em. cbn [serve_live] in E. subst m. destruct (read_request p a) as [[x s1] p'] eqn:R. destruct x as [q|e|]; [| |discriminate E].
    + destruct (request_local _ _ _ _ _ R ltac:(discriminate)) as (u & -> & Nu & F).
      destruct (h st q) as [st' [res|e|]] eqn:Hq; try discriminate E. destruct p' as [pr|]; [|discriminate E]. destruct (write_response pr q res) as [o|e|] eqn:W; try discriminate E.
      assert (Ls : (length s1 <= n)%nat) by (rewrite app_length in Ln; destruct u; [congruence|cbn in Ln; lia]).
      destruct (serve_live h (S n) (Some pr) st' s1) as [[[[a1 a2] a3] a4] a5] eqn:G. injection E as <- <- <- <- ->.
      rewrite <- app_assoc. remember (serve_live h (S (length (a3 ++ b))) a2 a1 (a3 ++ b)) as later eqn:El. cbn [serve_live]. rewrite F, Hq, W.
      rewrite (live_fuel H h (length (u ++ s1 ++ b)) (S (length (s1 ++ b)))) by (rewrite ?app_length; destruct u; [congruence|cbn; lia]).
      rewrite (IH (Some pr) st' s1 Ls b _ _ _ _ G), <- El. destruct later as [[[[? ?] ?] ?] ?]. rewrite app_assoc. reflexivity.
    + destruct e; try discriminate E. injection E as <- <- <- <-. cbn [app]. destruct (serve_live h _ p st (a ++ b)) as [[[[? ?] ?] ?] ?]. reflexivity.
Qed.
Print Assumptions C90_pieces.

(** ** One connection for many calls is as good as one connection per call *)
Lemma live_proto : forall H (h : handler H) pr f st s st' p' rest out over,
  serve_live h f (Some pr) st s = (st', p', rest, out, over) -> p' = Some pr.
Proof.
  intros H h pr. induction f as [|f IH]; intros st s st' p' rest out over E; cbn [serve_live] in E; [injection E; congruence|].
  assert (Q : read_request (Some pr) s = (parser pr s, Some pr)) by (destruct pr; reflexivity). rewrite Q in E.
  destruct (parser pr s) as [[q|e|] s1]; [|destruct e; injection E; congruence|injection E; congruence].
  destruct (h st q) as [st1 [res|e|]]; [|injection E; congruence|injection E; congruence].
  destruct (write_response pr q res) as [b|e|]; [|injection E; congruence|injection E; congruence].
  destruct (serve_live h f (Some pr) st1 s1) as [[[[a1 a2] a3] a4] a5] eqn:G. apply IH in G. injection E; congruence.
Qed.

Lemma reads_live : forall H (h : handler H) p s qs p' s', reads p s qs p' s' -> s' = [] -> qs <> [] -> forall pr, p' = Some pr -> forall st,
  exists rest out over st', serve_live h (S (length s)) p st s = (st', Some pr, rest, out, over)
  /\ forall s1 l, serve_list h pr st qs = (s1, l, None) -> st' = s1 /\ rest = [] /\ out = replies l /\ over = None.
Proof.
  intros H h p s qs p' s' R. induction R as [p s|p s q p1 s1 qs p2 s2 E R IH]; intros Es Nq pr Ep st; [congruence|].
  assert (P1 : p1 = Some pr).
  { destruct p1 as [pr1|]; [f_equal; destruct (reads_serve H h _ _ _ _ _ R pr1 st eq_refl); congruence|].
    exfalso. destruct p as [[]|]; cbn in E; try congruence. destruct s as [|c s]; [congruence|]. destruct (code c =? magic_request); congruence. }
  subst p1. destruct (request_local _ _ _ _ _ E ltac:(discriminate)) as (u & -> & Nu & _).
  cbn [serve_live serve_list]. rewrite E. destruct (h st q) as [st1 [res|e|]]; [|eexists _, _, _, _; split; [reflexivity|intros s0 l Q; congruence]..].
  destruct (write_response pr q res) as [b|e|]; [|eexists _, _, _, _; split; [reflexivity|intros s0 l Q; congruence]..].
  rewrite (live_fuel H h _ (S (length s1))) by (rewrite ?app_length; destruct u; [congruence|cbn; lia]).
  destruct qs as [|q' qs].
  - inversion R; subst. cbn [length serve_live serve_list].
    assert (R0 : read_request (Some pr) [] = ((Err EIO, []), Some pr)) by (destruct pr; reflexivity). rewrite R0.
    eexists _, _, _, _. split; [reflexivity|]. intros s0 l Q. injection Q as <- <-. unfold replies. cbn. auto.
  - destruct (IH Es ltac:(discriminate) pr Ep st1) as (rest & out & over & st' & G & X). rewrite G. eexists _, _, _, _. split; [reflexivity|].
    intros s0 l Q. destruct (serve_list h pr st1 (q' :: qs)) as [[st2 l2] f2]. injection Q as <- <- ->. destruct (X st2 l2 eq_refl) as (-> & -> & -> & ->). auto.
Qed.

Definition speaks {H} (pr : proto) (t : talk H) : Prop := tk_proto t = None \/ tk_proto t = Some (proto_of pr).

(** A call over a connection with nothing outstanding ends as it would over a new connection to the same server. *)
Theorem C90_connection_reuse : forall H (h : handler H) pr name t o, legal pr o -> supported pr o -> settled t -> speaks pr t ->
  talk_call (client_of pr name) h t o = talk_call (client_of pr name) h (new_talk (tk_handler t) (tk_header t)) o.
Proof.
  intros H h pr name [st p lft over un hd] o L S (A1 & A2 & A3) Sp. cbn in A1, A2, A3. subst. unfold speaks in Sp. cbn in Sp.
  destruct Sp as [-> | ->]; [reflexivity|]. unfold talk_call, new_talk. cbn [tk_header tk_left tk_over tk_handler tk_proto tk_unread app].
  destruct (request_ok pr name hd o L) as (rq & R). rewrite R.
  destruct (request_delivered pr name hd o rq L S R None [] (or_introl eq_refl)) as (qs & Rd & U & F). rewrite app_nil_r in Rd.
  assert (Nq : qs <> []) by (intros ->; destruct pr, o as [|[]| | | | | | | | |]; discriminate U).
  inversion Rd as [|p0 s0 q p1 s1 qs1 p2 s2 E R' E1 E2 E3 E4]; subst; try congruence.
  assert (P1 : p1 = Some (proto_of pr)).
  { destruct p1 as [pr1|]; [f_equal; destruct (reads_serve H h _ _ _ _ _ R' pr1 st eq_refl); congruence|].
    exfalso. destruct rq as [|c s]; [discriminate E|]. cbn in E. destruct (code c =? magic_request); congruence. }
  subst p1. assert (E' : read_request (Some (proto_of pr)) rq = (Ok q, s1, Some (proto_of pr))).
  { destruct rq as [|c s]; [discriminate E|]. rewrite read_first in E. assert (Ea : announced c = proto_of pr) by congruence. rewrite Ea in E.
    destruct pr; cbn [proto_of read_request parser] in *; congruence. }
  cbn [serve_live]. rewrite E, E'. reflexivity.
Qed.
Print Assumptions C90_connection_reuse.

(** That nothing is outstanding is needed: bytes of an earlier reply that were left unread are taken for
    the reply of the next call, whatever the server answers to it. *)
Definition C90_reuse_with_something_unread : Prop := forall H (h : handler H) pr name t o, legal pr o -> supported pr o ->
  tk_left t = [] -> tk_over t = None -> speaks pr t ->
  snd (talk_call (client_of pr name) h t o) = snd (talk_call (client_of pr name) h (new_talk (tk_handler t) (tk_header t)) o).
Definition says_two : handler unit := fun st _ => (st, Ok [mkRes [] None None (B "2") 0 0]).
Theorem C90_reuse_with_something_unread_refuted : ~ C90_reuse_with_something_unread.
Proof.
  intro F. specialize (F unit says_two PText [] (mkTalk tt None [] None (B "VERSION 1" ++ crlf) reset_header) OVersion).
  vm_compute in F. assert (X := F I I eq_refl eq_refl (or_introl eq_refl)). discriminate X.
Qed.
Print Assumptions C90_reuse_with_something_unread_refuted.

Lemma call_speaks : forall H (h : handler H) pr name t o, legal pr o -> supported pr o -> settled t -> speaks pr t ->
  speaks pr (fst (talk_call (client_of pr name) h t o)).
Proof.
  intros H h pr name t o L S Se Sp. rewrite C90_connection_reuse by assumption. unfold talk_call, new_talk. cbn [tk_header tk_left tk_over tk_handler tk_proto tk_unread app].
  destruct (request_ok pr name (tk_header t) o L) as (rq & R). rewrite R.
  destruct (request_delivered pr name (tk_header t) o rq L S R None [] (or_introl eq_refl)) as (qs & Rd & U & F). rewrite app_nil_r in Rd.
  assert (Nq : qs <> []) by (intros ->; destruct pr, o as [|[]| | | | | | | | |]; discriminate U).
  destruct (reads_live H h _ _ _ _ _ Rd eq_refl Nq _ eq_refl (tk_handler t)) as (rest & out & over & st' & -> & _). right. reflexivity.
Qed.

(** The history with a new connection for every call: the handler's state, the results, and what each connection was
    left like. *)
Fixpoint apart_run {H} (cl : client) (h : handler H) (pass : H -> Z -> H) (st : H) (hd : req_header) (evs : list event)
  : H * list (outcome result) * list (talk H) :=
  match evs with
  | [] => (st, [], [])
  | Wait d :: evs' => apart_run cl h pass (pass st d) hd evs'
  | Do o :: evs' =>
      let tr := talk_call cl h (new_talk st hd) o in
      let '(st', rs, ts) := apart_run cl h pass (tk_handler (fst tr)) (tk_header (fst tr)) evs' in (st', snd tr :: rs, fst tr :: ts)
  end.
Definition usual (pr : proto) (ev : event) : Prop := match ev with Do o => legal pr o /\ supported pr o | Wait _ => True end.

(** Whatever the handler, and for every history of calls none of which leaves anything behind. *)
Theorem C90_one_connection_for_all : forall H (h : handler H) pass pr name hd evs st st' rs ts, Forall (usual pr) evs ->
  apart_run (client_of pr name) h pass st hd evs = (st', rs, ts) -> Forall settled ts ->
  exists t, talk_run (client_of pr name) h pass (new_talk st hd) evs = (t, rs) /\ tk_handler t = st' /\ settled t.
Proof.
  intros H h pass pr name hd evs st st' rs ts F E G.
  cut (forall t, tk_handler t = st -> tk_header t = hd -> settled t -> speaks pr t ->
    exists t', talk_run (client_of pr name) h pass t evs = (t', rs) /\ tk_handler t' = st' /\ settled t').
  { intro C. apply C; [reflexivity|reflexivity|repeat split|left; reflexivity]. }
  revert hd st st' rs ts F E G. induction evs as [|[o|d] evs IH]; intros hd st st' rs ts F E G t Th Td Se Sp; cbn [apart_run talk_run] in *.
  - injection E as <- <- <-. exists t. auto.
  - inversion F as [|? ? LS F']; subst. cbn [usual] in LS. destruct LS as [L S].
    pose proof (C90_connection_reuse H h pr name t o L S Se Sp) as Re. rewrite <- Re in E.
    pose proof (call_speaks H h pr name t o L S Se Sp) as Sp'.
    destruct (talk_call (client_of pr name) h t o) as [t1 r1]. cbn [fst snd] in *.
    destruct (apart_run (client_of pr name) h pass (tk_handler t1) (tk_header t1) evs) as [[s2 r2] t2] eqn:E2. injection E as <- <- <-.
    inversion G as [|? ? G1 G2]; subst. destruct (IH _ _ _ _ _ F' E2 G2 t1 eq_refl eq_refl G1 Sp') as (t' & -> & A & B0). exists t'. cbn. auto.
  - inversion F as [|? ? _ F']; subst. apply (IH (tk_header t) (pass (tk_handler t) d) st' rs ts F' E G); try reflexivity; assumption.
Qed.
Print Assumptions C90_one_connection_for_all.

(** ** A handler that keeps a cache *)
(** SPECIFICATION: what somebody who puts this server in front of the abstract cache of Cache.v would write. A refusal is
    answered with an error. The value of a counter has to be written as the protocol of the connection wants it. *)
Definition item_answer (c : cache) (k : bytes) : list sresponse :=
  match lookup c k with
  | Some e => [mkRes k None (Some (be 4 (e_flags e))) (e_value e) (e_cas e) (ttl c e)]
  | None => []
  end.
Definition done_or (e : err) (ok : bool) : outcome (list sresponse) := Ok [mkRes [] (if ok then None else Some e) None [] 0 0].
Definition is_stored (r : store_result) : bool := match r with Stored => true | _ => false end.
Definition counter_answer (pr : proto) (n : Z) : sresponse :=
  mkRes [] None None (match pr with PBinary => be 8 n | _ => dec n end) 0 0.
Definition delta_answer (pr : proto) (up : bool) (c : cache) (k : bytes) (d e : Z) : cache * outcome (list sresponse) :=
  match pr, lookup c k with
  | PBinary, None => (put c k (B "1") 0 (expire_at (c_now c) e), Ok [counter_answer pr 1])
  | _, _ =>
      let cr := cache_delta up c k d in
      (fst cr, match snd cr with DeltaOk n => Ok [counter_answer pr n] | _ => done_or ENotFound false end)
  end.
Definition cache_answer (pr : proto) (c : cache) (w : wish) : cache * outcome (list sresponse) :=
  let k := hd [] (w_keys w) in
  match w_op w with
  | OpcGet => (c, Ok (flat_map (item_answer c) (w_keys w)))
  | OpcSet =>
      let cr := if w_cas w =? 0 then cache_set c k (w_value w) (w_flags w) (w_exp w)
                else cache_cas c k (w_value w) (w_flags w) (w_exp w) (w_cas w) in
      (fst cr, done_or EExists (is_stored (snd cr)))
  | OpcAdd => let cr := cache_add c k (w_value w) (w_flags w) (w_exp w) in (fst cr, done_or EExists (is_stored (snd cr)))
  | OpcReplace => let cr := cache_replace c k (w_value w) (w_flags w) (w_exp w) in (fst cr, done_or ENotFound (is_stored (snd cr)))
  | OpcDelete => let cr := cache_delete c k in (fst cr, done_or ENotFound (snd cr))
  | OpcIncrement => delta_answer pr true c k (w_delta w) (w_exp w)
  | OpcDecrement => delta_answer pr false c k (w_delta w) (w_exp w)
  | OpcTouch => let cr := cache_touch c k (w_exp w) in (fst cr, done_or ENotFound (snd cr))
  | OpcFlush => (cache_flush c, done_or ENotFound true)
  | OpcNoop => (c, Ok [empty_response])
  | OpcVersion => (c, Ok [mkRes [] None None (match pr with PBinary => cf_version (c_cfg c) | _ => B "VERSION " ++ cf_version (c_cfg c) end) 0 0])
  end.
Definition cache_handler (pr : proto) : handler cache := fun c q => cache_answer pr c (understood q).

(** What the caller sees is what memcached's specification (Spec.v) says, up to what this server cannot transmit: an item
    comes without its cas number and, with the meta protocol, without flags and lifetime. *)
Definition like_item (pr : proto) (i j : item) : Prop :=
  it_key j = it_key i /\ it_value j = it_value i /\ (pr <> PMeta -> item_flags j = item_flags i).
Definition like (pr : proto) (s : sres) (o : outcome result) : Prop :=
  match s, o with
  | SOk (RItem i), Ok (RItem j) => like_item pr i j
  | SOk (RItems l), Ok (RItems l') => Forall2 (like_item pr) l l'
  | SOk r, Ok r' => r' = r
  | SErr e, Err e' => e' = e
  | _, _ => False
  end.
(** The calls the cache does not refuse. A miss of Get counts as an answer with text and meta. *)
Definition accepted (pr : proto) (c : cache) (o : op) : Prop :=
  match snd (spec_step pr [] c o) with
  | SOk (RInt n) => 0 <= n
  | SOk _ => True
  | SErr _ => match o with OGet _ => pr <> PBinary | _ => False end
  | SFail => False
  end.
Fixpoint all_accepted (pr : proto) (c : cache) (evs : list event) : Prop :=
  match evs with
  | [] => True
  | Wait d :: evs' => all_accepted pr (tick c d) evs'
  | Do o :: evs' => accepted pr c o /\ all_accepted pr (fst (spec_step pr [] c o)) evs'
  end.

(** ** Proofs *)
Definition four_flags (r : sresponse) : Prop := match r_flags r with Some f => length f = 4%nat | None => True end.
Lemma four_number : forall r, four_flags r -> exists n, flag_number r = Ok n.
Proof.
  intros r F. unfold flag_number, four_flags in *. destruct (r_flags r) as [f|]; cbn [opt_bytes]; [|eexists; reflexivity].
  assert (Z4 : zlen f = 4) by (unfold zlen; rewrite F; reflexivity). rewrite Z4. eexists. reflexivity.
Qed.
Lemma writer_done : forall pr q res, flavour pr q = true -> (q_opcode q <> OpcGet -> res <> []) -> Forall four_flags res -> (pr <> PBinary -> q_opcode q <> OpcNoop) ->
  exists out, write_response (proto_of pr) q res = Ok out.
Proof.
  intros pr q res Fl N F Nn.
  assert (OF : forall g, q_opcode q <> OpcGet -> (forall r, exists b, g r = Ok b) -> exists out, on_first res g = Ok out).
  { intros g Ng G. unfold on_first. specialize (N Ng). destruct res as [|r ?]; [congruence|]. destruct (r_error r); [eexists; reflexivity|apply G]. }
  assert (Bl : forall f, (forall r, four_flags r -> exists b, f r = Ok b) -> exists b, concat_outcomes (map f res) = Ok b).
  { intros f Hf. clear - F Hf. induction F as [|r res Fr F IH]; [eexists; reflexivity|]. cbn [map concat_outcomes]. destruct (Hf r Fr) as (b & ->). destruct IH as (b' & ->). eexists. reflexivity. }
  destruct (Z.eq_dec 0 (match pr with PBinary => 1 | _ => 0 end)) as [Np|Np].
  - assert (Pb : pr <> PBinary) by (intros ->; discriminate Np). assert (Ep : proto_of pr = ProtoAscii) by (destruct pr; [reflexivity|reflexivity|congruence]). rewrite Ep. cbn [write_response].
    unfold write_ascii_response. unfold flavour in Fl. destruct (q_opcode q) eqn:O; try (apply OF; [congruence|]; intro r; eexists; reflexivity).
    + assert (A1 : exists b, concat_outcomes (map ascii_get_block res) = Ok b).
      { apply Bl. intros r Fr. unfold ascii_get_block. destruct (four_number r Fr) as (n & ->). eexists. reflexivity. }
      assert (A2 : forall g, exists b, concat_outcomes (map (meta_get_block_bytes q g) res) = Ok b).
      { intro g. apply Bl. intros r Fr. unfold meta_get_block_bytes. destruct (four_number r Fr) as (n & ->). eexists. reflexivity. }
      destruct (q_get q) as [g|]; [destruct (A2 g) as (b & ->)|destruct A1 as (b & ->)]; eexists; reflexivity.
    + apply OF; [congruence|]. intro r. destruct pr; (destruct (q_set q); [eexists; reflexivity|congruence]).
    + apply OF; [congruence|]. intro r. destruct pr; (destruct (q_set q); [eexists; reflexivity|congruence]).
    + apply OF; [congruence|]. intro r. destruct pr; (destruct (q_set q); [eexists; reflexivity|congruence]).
    + apply OF; [congruence|]. intro r. destruct pr; (destruct (q_del q); [eexists; reflexivity|congruence]).
    + exfalso. apply Nn; [exact Pb|reflexivity].
  - destruct pr; try (exfalso; apply Np; reflexivity). cbn [proto_of write_response]. unfold write_binary_response.
    destruct (q_opcode q) eqn:O; try (apply OF; [congruence|]; intro r; eexists; reflexivity). eexists. reflexivity.
Qed.

Lemma answers_four : forall pr c w, exists res, snd (cache_answer pr c w) = Ok res /\ (w_op w <> OpcGet -> res <> []) /\ Forall four_flags res.
Proof.
  intros pr c w. unfold cache_answer, done_or, delta_answer, counter_answer.
  assert (Fi : forall ks, Forall four_flags (flat_map (item_answer c) ks)).
  { induction ks as [|k ks IH]; [constructor|]. cbn [flat_map]. apply Forall_app. split; [|exact IH]. unfold item_answer. destruct (lookup c k); [|constructor].
    constructor; [|constructor]. reflexivity. }
  destruct (w_op w); cbn [snd].
  1: { eexists. split; [reflexivity|]. split; [congruence|apply Fi]. }
  all: repeat match goal with |- context [match ?x with _ => _ end] => match type of x with
     | proto => destruct x | option entry => destruct x | delta_result => destruct x end end; cbn [snd];
    (eexists; split; [reflexivity|]; split; [discriminate|constructor; [exact Logic.I|constructor]]).
Qed.

Lemma cache_serves : forall pr qs c, Forall (fun q => flavour pr q && tidy pr q = true) qs -> (pr <> PBinary -> Forall (fun q => q_opcode q <> OpcNoop) qs) ->
  exists l, serve_list (cache_handler pr) (proto_of pr) c qs = (fold_left (fun c w => fst (cache_answer pr c w)) (map understood qs) c, l, None).
Proof.
  intros pr. induction qs as [|q qs IH]; intros c F N; [eexists; reflexivity|]. inversion F as [|? ? Fq F']; subst. apply andb_true_iff in Fq. destruct Fq as [Fq _].
  cbn [serve_list map fold_left]. destruct (answers_four pr c (understood q)) as (res & E & Nr & Ff). unfold cache_handler at 1.
  destruct (cache_answer pr c (understood q)) as [c' x] eqn:Ea. cbn [snd fst] in *. subst x.
  destruct (writer_done pr q res Fq Nr Ff) as (out & ->).
  { intro Np. specialize (N Np). inversion N; assumption. }
  destruct (IH c' F') as (l & ->). { intro Np. specialize (N Np). inversion N; assumption. } eexists. reflexivity.
Qed.

Lemma wishes_step : forall pr name c o, legal pr o -> supported pr o ->
  fold_left (fun c w => fst (cache_answer pr c w)) (intended pr o) c = fst (spec_step pr name c o).
Proof.
  intros pr name c o L S. destruct o; cbn [intended]; try reflexivity.
  - destruct pr; [reflexivity|destruct S|]. rewrite fold_left_app. cbn [fold_left]. generalize ks as l. clear. intro l. 
    assert (Q : fold_left (fun c w => fst (cache_answer PBinary c w)) (map (fun k => get_wish [k]) l) c = c) by (induction l as [|k l IH]; [reflexivity|exact IH]). rewrite Q. reflexivity.
  - cbn [fold_left]. unfold cache_answer, delta_wish, spec_step, delta_answer, spec_delta. cbn [w_op w_keys w_delta w_exp hd]. destruct pr; destruct (lookup c k); reflexivity.
  - cbn [fold_left]. unfold cache_answer, delta_wish, spec_step, delta_answer, spec_delta. cbn [w_op w_keys w_delta w_exp hd]. destruct pr; destruct (lookup c k); reflexivity.
Qed.

(** Whatever the handler: a call whose requests are all answered is an exchange (C38) and leaves the connection ready for the next. *)
Lemma call_exchange : forall H (h : handler H) pr name t o st', legal pr o -> supported pr o -> settled t -> speaks pr t ->
  (forall qs, map understood qs = intended pr o -> Forall (fun q => flavour pr q && tidy pr q = true) qs -> exists l, serve_list h (proto_of pr) (tk_handler t) qs = (st', l, None)) ->
  exists hd', talk_call (client_of pr name) h t o
    = (mkTalk st' (Some (proto_of pr)) [] None (snd (exchange pr name (tk_header t) h (tk_handler t) o)) hd', fst (exchange pr name (tk_header t) h (tk_handler t) o)).
Proof.
  intros H h pr name t o st' L S Se Sp D. rewrite C90_connection_reuse by assumption. unfold talk_call, new_talk, exchange. cbn [tk_header tk_left tk_over tk_handler tk_proto tk_unread app].
  destruct (request_ok pr name (tk_header t) o L) as (rq & R). rewrite R.
  destruct (request_delivered pr name (tk_header t) o rq L S R None [] (or_introl eq_refl)) as (qs & Rd & U & F). rewrite app_nil_r in Rd.
  assert (Nq : qs <> []) by (intros ->; destruct pr, o as [|[]| | | | | | | | |]; discriminate U).
  destruct (reads_live H h _ _ _ _ _ Rd eq_refl Nq _ eq_refl (tk_handler t)) as (rest & out & over & st1 & E & X).
  destruct (D qs U F) as (l & Sl).
  destruct (X st' l Sl) as (-> & -> & -> & ->). rewrite E.
  destruct (C90_live_is_serve_conn _ _ _ _ _ _ _ _ _ E) as (l1 & ft & Sc & Rp & _). rewrite Sc. cbn [fst snd]. rewrite Rp. eexists. reflexivity.
Qed.

Lemma gives_cache : forall pr c w res, snd (cache_answer pr c w) = Ok res -> gives pr (cache_handler pr) c w res.
Proof. intros pr c w res E q Uq _. unfold cache_handler. rewrite Uq. exact E. Qed.

(** A handler that always answers as in state [st]. *)
Definition frozen {H} (h : handler H) (st : H) : handler H := fun s q => (s, snd (h st q)).
Lemma frozen_serves : forall H (h : handler H) st p qs, (forall q, In q qs -> fst (h st q) = st) ->
  snd (fst (serve_list h p st qs)) = snd (fst (serve_list (frozen h st) p st qs)).
Proof.
  intros H h st p. induction qs as [|q qs IH]; intro A; [reflexivity|]. cbn [serve_list]. unfold frozen at 1.
  pose proof (A q (or_introl eq_refl)) as Aq. destruct (h st q) as [st' x]. cbn in Aq. subst st'. cbn [snd]. destruct x as [res| |]; try reflexivity.
  destruct (write_response p q res); try reflexivity. specialize (IH (fun q' Hq => A q' (or_intror Hq))).
  destruct (serve_list h p st qs) as [[a1 b1] c1], (serve_list (frozen h st) p st qs) as [[a2 b2] c2]. cbn in *. congruence.
Qed.
Lemma exchange_frozen : forall H (h : handler H) st pr name hd o, legal pr o -> supported pr o ->
  (forall q, In (understood q) (intended pr o) -> fst (h st q) = st) ->
  (forall qs, map understood qs = intended pr o -> Forall (fun q => flavour pr q && tidy pr q = true) qs -> snd (serve_list h (proto_of pr) st qs) = None) ->
  exchange pr name hd h st o = exchange pr name hd (frozen h st) st o.
Proof.
  intros H h st pr name hd o L S A Nf. destruct (request_ok pr name hd o L) as (rq & R). unfold exchange. rewrite R.
  destruct (request_delivered pr name hd o rq L S R None [] (or_introl eq_refl)) as (qs & Rd & U & F). rewrite app_nil_r in Rd.
  assert (Nq : qs <> []) by (intros ->; destruct pr, o as [|[]| | | | | | | | |]; discriminate U).
  assert (D : forall (h' : handler H), snd (serve_list h' (proto_of pr) st qs) = None -> replies (snd (fst (serve_conn h' st rq))) = replies (snd (fst (serve_list h' (proto_of pr) st qs)))).
  { intros h' N'. destruct (serve_list h' (proto_of pr) st qs) as [[s1 l1] f1] eqn:E1. cbn in N'. subst f1. cbn [fst snd].
    destruct (reads_live H h' _ _ _ _ _ Rd eq_refl Nq _ eq_refl st) as (rest & out & over & st1 & E & X).
    destruct (C90_live_is_serve_conn _ _ _ _ _ _ _ _ _ E) as (l2 & ft & Sc & Rp & Ov). rewrite Sc. cbn [fst snd].
    destruct (X s1 l1 E1) as (_ & _ & -> & _). exact Rp. }
  assert (A' : forall q, In q qs -> fst (h st q) = st). { intros q Hq. apply A. rewrite <- U. apply in_map. exact Hq. }
  rewrite (D h (Nf qs U F)), (frozen_serves H h st (proto_of pr) qs A'). rewrite (D (frozen h st)); [reflexivity|].
  specialize (Nf qs U F). clear - A' Nf. revert Nf. induction qs as [|q qs IH]; [reflexivity|]. cbn [serve_list]. unfold frozen at 1. pose proof (A' q (or_introl eq_refl)) as Aq.
  destruct (h st q) as [st' x]. cbn in Aq. subst st'. cbn [snd]. destruct x as [res| |]; try discriminate. destruct (write_response (proto_of pr) q res); try discriminate.
  intro Nf. assert (N1 : snd (serve_list h (proto_of pr) st qs) = None) by (destruct (serve_list h (proto_of pr) st qs) as [[? ?] ?]; exact Nf).
  specialize (IH (fun q' Hq => A' q' (or_intror Hq)) N1). destruct (serve_list (frozen h st) (proto_of pr) st qs) as [[? ?] ?]. exact IH.
Qed.

Lemma i64_big : forall n, 2 ^ 63 <= n < 2 ^ 64 -> i64 n = n - 2 ^ 64.
Proof. intros n R. unfold i64. rewrite <- (Z.mod_unique_pos (n + 2 ^ 63) (2 ^ 64) 1 (n - 2 ^ 63)); lia. Qed.

(** One exchange with the cache. *)
Definition short_version (c : cache) : Prop := zlen (cf_version (c_cfg c)) <= 992.
Lemma cache_exchange : forall pr name hdr c o, wf pr c -> short_version c -> legal pr o -> supported pr o -> accepted pr c o ->
  exists r, exchange pr name hdr (cache_handler pr) c o = (r, []) /\ like pr (snd (spec_step pr name c o)) r.
Proof.
  intros pr name hdr c o W Sv L S A.
  assert (It : forall k e, legal_key pr k -> lookup c k = Some e ->
     let r := mkRes k None (Some (be 4 (e_flags e))) (e_value e) (e_cas e) (ttl c e) in item_response pr r /\ 0 <= e_flags e < 2 ^ 32).
  { intros k e Lk Q. pose proof (wf_lookup _ _ _ _ W Q) as (V & Fl & _). destruct W as ((Lim & _) & _).
    assert (Fl' : 0 <= e_flags e < 2 ^ 32) by (unfold flags_bound in Fl; destruct pr; lia).
    cbv zeta. split; [|exact Fl']. split; [exact Lk|]. split; [cbn [r_value]; lia|]. reflexivity. }
  assert (Ack : forall w, acknowledged o = true -> intended pr o = [w] -> snd (cache_answer pr c w) = done_or ENotFound true \/ snd (cache_answer pr c w) = done_or EExists true ->
     exchange pr name hdr (cache_handler pr) c o = (Ok RUnit, [])).
  { intros w Ao Iw Q. apply (C38_acknowledgement_partial cache (cache_handler pr) c pr name hdr o w (mkRes [] None None [] 0 0) Ao L S Iw); [|reflexivity|intros _; repeat split].
    apply gives_cache. destruct Q as [-> | ->]; reflexivity. }
  assert (Cnt : forall w n, (exists k d e, o = OIncr k d e \/ o = ODecr k d e) -> intended pr o = [w] -> 0 <= n < 2 ^ 63 -> snd (cache_answer pr c w) = Ok [counter_answer pr n] ->
     exchange pr name hdr (cache_handler pr) c o = (Ok (RInt n), [])).
  { intros w n Ho Iw Rn Q. apply (C38_counter_answer cache (cache_handler pr) c pr name hdr o w (counter_answer pr n) n Ho L S Iw); [apply gives_cache; exact Q|reflexivity|exact Rn|].
    unfold counter_answer. destruct pr; repeat split. }
  unfold accepted in A.
  destruct o as [k|ks|i|i|i|k|k d e|k d e|k e| |].
  - cbn [spec_step snd] in *. destruct (lookup c k) as [e|] eqn:Q.
    + destruct (It k e L Q) as [Ir Fl]. destruct (C38_get_answer_partial cache (cache_handler pr) c pr name hdr k (mkRes k None (Some (be 4 (e_flags e))) (e_value e) (e_cas e) (ttl c e)) L) as (i & Ex & K & V & Fi).
      * apply gives_cache. unfold cache_answer, get_wish. cbn [w_op w_keys flat_map snd]. unfold item_answer. rewrite Q. reflexivity.
      * exact Ir.
      * reflexivity.
      * eexists. split; [exact Ex|]. cbn [like]. split; [exact K|]. split; [exact V|]. intro Np. destruct (Fi Np) as (_ & _ & Ff). rewrite Ff. reflexivity.
    + exists (Err ENotFound). split; [|reflexivity]. apply C38_miss; [exact A|exact L|]. apply gives_cache. unfold cache_answer, get_wish. cbn [w_op w_keys flat_map snd]. unfold item_answer. rewrite Q. reflexivity.
  - (* GetMulti *)
    assert (Lk : forall res l, res = flat_map (item_answer c) ks -> Forall2 same_item res l ->
       Forall2 (like_item pr) (flat_map (fun k => match lookup c k with Some e => [item_view pr name true c k e] | None => [] end) ks) l).
    { intros res l -> F2. revert l F2. clear - ks. induction ks as [|k ks IH]; intros l F2; cbn [flat_map] in *; [inversion F2; constructor|].
      unfold item_answer at 1 in F2. destruct (lookup c k) as [e|]; [|apply IH; exact F2]. cbn [app] in *. inversion F2 as [|? j ? l' (Ka & Va & Fa) F2']; subst. constructor; [|apply IH; exact F2'].
      split; [exact Ka|]. split; [exact Va|]. intros _. rewrite Fa. reflexivity. }
    cbn [spec_step snd like]. destruct L as [Nk Lks].
    assert (Fi : Forall (item_response pr) (flat_map (item_answer c) ks)).
    { apply Forall_flat_map. eapply Forall_impl; [|exact Lks]. intros k Hk. unfold item_answer. destruct (lookup c k) as [e|] eqn:Q; [|constructor]. constructor; [exact (proj1 (It k e Hk Q))|constructor]. }
    destruct pr; [|destruct S|].
    + destruct (C38_text_getmulti_answer cache (cache_handler PText) c name hdr ks (flat_map (item_answer c) ks) (conj Nk Lks)) as (l & Ex & F2); [apply gives_cache; reflexivity|exact Fi|].
      eexists. split; [exact Ex|]. exact (Lk _ l eq_refl F2).
    + rewrite (exchange_frozen cache (cache_handler PBinary) c PBinary name hdr (OGetMulti ks) (conj Nk Lks) S).
      * destruct (C38_binary_getmulti_answer cache (frozen (cache_handler PBinary) c) c name hdr ks (item_answer c) (conj Nk Lks)) as (l & Ex & F2).
        -- intros st' k _ q Uq Tq. unfold frozen. cbn [snd]. apply (gives_cache PBinary c (get_wish [k])); [|exact Uq|exact Tq].
           unfold cache_answer, get_wish. cbn [w_op w_keys flat_map snd]. rewrite app_nil_r. reflexivity.
        -- intros st' q Uq Tq. unfold frozen. cbn [snd]. apply (gives_cache PBinary c (mkWish OpcNoop [] [] 0 0 0 0)); [reflexivity|exact Uq|exact Tq].
        -- intros k Hk. unfold item_answer. destruct (lookup c k) as [e|] eqn:Q; [|split; [cbn; lia|constructor]]. split; [cbn; lia|]. constructor; [|constructor].
           exact (proj1 (It k e (proj1 (Forall_forall _ _) Lks k Hk) Q)).
        -- eexists. split; [exact Ex|]. exact (Lk _ l eq_refl F2).
      * intros q Hq. cbn [intended] in Hq. apply in_app_or in Hq. unfold cache_handler, cache_answer. destruct Hq as [Hq|[Hq|[]]]; [|rewrite <- Hq; reflexivity].
        apply in_map_iff in Hq. destruct Hq as (k & Ek & _). rewrite <- Ek. reflexivity.
      * intros qs U F. destruct (cache_serves PBinary qs c F) as (l & ->); [congruence|reflexivity].
  - cbn [spec_step snd] in *. destruct (it_cas i =? 0) eqn:Ec.
    + destruct (snd (cache_set c (it_key i) (it_value i) (item_flags i) (it_exp i))) eqn:Q; try contradiction A. cbn [store_outcome]. exists (Ok RUnit). split; [|reflexivity].
      apply (Ack (store_wish OpcSet i (it_cas i)) eq_refl eq_refl). right. unfold cache_answer, store_wish. cbn [w_op w_keys w_cas w_value w_flags w_exp hd snd]. rewrite Ec. rewrite Q. reflexivity.
    + destruct (snd (cache_cas c (it_key i) (it_value i) (item_flags i) (it_exp i) (it_cas i))) eqn:Q; try contradiction A. cbn [store_outcome]. exists (Ok RUnit). split; [|reflexivity].
      apply (Ack (store_wish OpcSet i (it_cas i)) eq_refl eq_refl). right. unfold cache_answer, store_wish. cbn [w_op w_keys w_cas w_value w_flags w_exp hd snd]. rewrite Ec. rewrite Q. reflexivity.
  - cbn [spec_step snd] in *. destruct (snd (cache_add c (it_key i) (it_value i) (item_flags i) (it_exp i))) eqn:Q; try contradiction A. cbn [store_outcome]. exists (Ok RUnit). split; [|reflexivity].
    apply (Ack (store_wish OpcAdd i 0) eq_refl eq_refl). right. unfold cache_answer, store_wish. cbn [w_op w_keys w_cas w_value w_flags w_exp hd snd]. rewrite Q. reflexivity.
  - cbn [spec_step snd] in *. destruct (snd (cache_replace c (it_key i) (it_value i) (item_flags i) (it_exp i))) eqn:Q; try contradiction A. cbn [store_outcome]. exists (Ok RUnit). split; [|reflexivity].
    apply (Ack (store_wish OpcReplace i 0) eq_refl eq_refl). left. unfold cache_answer, store_wish. cbn [w_op w_keys w_cas w_value w_flags w_exp hd snd]. rewrite Q. reflexivity.
  - cbn [spec_step snd] in *. destruct (snd (cache_delete c k)) eqn:Q; try contradiction A. exists (Ok RUnit). split; [|reflexivity].
    apply (Ack (mkWish OpcDelete [k] [] 0 0 0 0) eq_refl eq_refl). left. unfold cache_answer. cbn [w_op w_keys hd snd]. rewrite Q. reflexivity.
  - pose proof L as [_ [Ld _]]. assert (Sp : snd (spec_step pr name c (OIncr k d e)) = snd (spec_step pr [] c (OIncr k d e))) by reflexivity. rewrite Sp. clear Sp.
    cbn [spec_step] in *.
    destruct (match pr, lookup c k with PBinary, None => true | _, _ => false end) eqn:Cr.
    + destruct pr; try discriminate Cr. destruct (lookup c k) eqn:Q; [discriminate Cr|]. eexists. split; [apply (Cnt (delta_wish PBinary OpcIncrement k d e) 1); [eauto 6|reflexivity|lia|]|unfold spec_delta; rewrite Q; reflexivity].
      unfold cache_answer, delta_wish, delta_answer. cbn [w_op w_keys hd]. rewrite Q. reflexivity.
    + assert (Sp : snd (spec_delta pr true c k d e) = delta_outcome pr (snd (cache_delta true c k d))).
      { unfold spec_delta. destruct pr, (lookup c k); try reflexivity. discriminate Cr. }
      rewrite Sp. rewrite Sp in A. clear Sp.
      assert (Sp : snd (delta_answer pr true c k d (w_exp (delta_wish pr OpcIncrement k d e))) = match snd (cache_delta true c k d) with DeltaOk n => Ok [counter_answer pr n] | _ => done_or ENotFound false end).
      { unfold delta_answer. destruct pr, (lookup c k); try reflexivity. discriminate Cr. }
      destruct (snd (cache_delta true c k d)) as [| | |n] eqn:Q; cbn [delta_outcome] in *; try contradiction A.
      assert (Rn : 0 <= n < 2 ^ 64).
      { unfold cache_delta in Q. destruct (lookup c k) as [e0|]; [|discriminate Q]. destruct (counter_value (e_value e0)) as [m|] eqn:Cv; [|discriminate Q]. cbn [snd] in Q.
        assert (Qn : n = delta_apply true m d) by congruence. rewrite Qn. apply (delta_apply_range true m d); [eapply counter_value_range; exact Cv|lia]. }
      assert (Rs : 0 <= n < 2 ^ 63 /\ like pr (delta_outcome pr (DeltaOk n)) (Ok (RInt n))).
      { destruct pr; cbn [delta_outcome].
        - destruct (Z.ltb_spec n (2 ^ 63)); [|contradiction A]. split; [lia|reflexivity].
        - destruct (Z.ltb_spec n (2 ^ 63)); [|contradiction A]. split; [lia|reflexivity].
        - assert (n < 2 ^ 63). { destruct (Z_lt_le_dec n (2 ^ 63)); [assumption|]. exfalso. rewrite (i64_big n) in A by lia. lia. }
          split; [lia|]. rewrite i64_small by lia. reflexivity. }
      destruct Rs as [Rs Rl]. eexists. split; [|exact Rl]. apply (Cnt (delta_wish pr OpcIncrement k d e) n); [eauto 6|reflexivity|exact Rs|].
      unfold cache_answer. cbn [delta_wish w_op w_keys w_delta hd]. exact Sp.
  - pose proof L as [_ [Ld _]]. assert (Sp : snd (spec_step pr name c (ODecr k d e)) = snd (spec_step pr [] c (ODecr k d e))) by reflexivity. rewrite Sp. clear Sp.
    cbn [spec_step] in *.
    destruct (match pr, lookup c k with PBinary, None => true | _, _ => false end) eqn:Cr.
    + destruct pr; try discriminate Cr. destruct (lookup c k) eqn:Q; [discriminate Cr|]. eexists. split; [apply (Cnt (delta_wish PBinary OpcDecrement k d e) 1); [eauto 6|reflexivity|lia|]|unfold spec_delta; rewrite Q; reflexivity].
      unfold cache_answer, delta_wish, delta_answer. cbn [w_op w_keys hd]. rewrite Q. reflexivity.
    + assert (Sp : snd (spec_delta pr false c k d e) = delta_outcome pr (snd (cache_delta false c k d))).
      { unfold spec_delta. destruct pr, (lookup c k); try reflexivity. discriminate Cr. }
      rewrite Sp. rewrite Sp in A. clear Sp.
      assert (Sp : snd (delta_answer pr false c k d (w_exp (delta_wish pr OpcDecrement k d e))) = match snd (cache_delta false c k d) with DeltaOk n => Ok [counter_answer pr n] | _ => done_or ENotFound false end).
      { unfold delta_answer. destruct pr, (lookup c k); try reflexivity. discriminate Cr. }
      destruct (snd (cache_delta false c k d)) as [| | |n] eqn:Q; cbn [delta_outcome] in *; try contradiction A.
      assert (Rn : 0 <= n < 2 ^ 64).
      { unfold cache_delta in Q. destruct (lookup c k) as [e0|]; [|discriminate Q]. destruct (counter_value (e_value e0)) as [m|] eqn:Cv; [|discriminate Q]. cbn [snd] in Q.
        assert (Qn : n = delta_apply false m d) by congruence. rewrite Qn. apply (delta_apply_range false m d); [eapply counter_value_range; exact Cv|lia]. }
      assert (Rs : 0 <= n < 2 ^ 63 /\ like pr (delta_outcome pr (DeltaOk n)) (Ok (RInt n))).
      { destruct pr; cbn [delta_outcome].
        - destruct (Z.ltb_spec n (2 ^ 63)); [|contradiction A]. split; [lia|reflexivity].
        - destruct (Z.ltb_spec n (2 ^ 63)); [|contradiction A]. split; [lia|reflexivity].
        - assert (n < 2 ^ 63). { destruct (Z_lt_le_dec n (2 ^ 63)); [assumption|]. exfalso. rewrite (i64_big n) in A by lia. lia. }
          split; [lia|]. rewrite i64_small by lia. reflexivity. }
      destruct Rs as [Rs Rl]. eexists. split; [|exact Rl]. apply (Cnt (delta_wish pr OpcDecrement k d e) n); [eauto 6|reflexivity|exact Rs|].
      unfold cache_answer. cbn [delta_wish w_op w_keys w_delta hd]. exact Sp.
  - cbn [spec_step snd] in *. destruct (snd (cache_touch c k e)) eqn:Q; try contradiction A. exists (Ok RUnit). split; [|reflexivity].
    apply (Ack (mkWish OpcTouch [k] [] 0 e 0 0) eq_refl eq_refl). left. unfold cache_answer. cbn [w_op w_keys w_exp hd snd]. rewrite Q. reflexivity.
  - exists (Ok RUnit). split; [|reflexivity]. apply (Ack (mkWish OpcFlush [] [] 0 0 0 0) eq_refl eq_refl). left. reflexivity.
  - destruct W as ((_ & _ & Pv) & _).
    assert (Ex := C38_version_answer cache (cache_handler pr) c pr name hdr _ (gives_cache pr c (mkWish OpcVersion [] [] 0 0 0 0) _ eq_refl) eq_refl).
    cbn [r_value r_key r_flags opt_bytes] in Ex. eexists. split; [apply Ex|].
    + destruct pr; [| |exact Pv]; (apply Forall_app; split; [|exact Pv]); repeat constructor; vm_compute; discriminate.
    + unfold short_version in Sv. destruct pr; rewrite ?zlen_app; change (zlen (B "VERSION ")) with 8; lia.
    + intros _. split; reflexivity.
    + cbn [spec_step snd like]. unfold trim_prefix. destruct pr; rewrite ?has_prefix_app, ?(skipn_app_exact _ (B "VERSION ")); reflexivity.
Qed.

(** ** The theorem *)
(** Client, server and a cache behind it: every history of legal calls (and passing time) that this server supports and
    the cache does not refuse, sent over one connection, gives the results of memcached's specification, up to what
    [like] leaves out; the cache ends as the specification says, and nothing is left over on the connection. *)
Theorem C90_end_to_end_partial : forall pr name hdr evs c, wf pr c -> short_version c ->
  Forall (legal_event pr) evs -> Forall (usual pr) evs -> all_accepted pr c evs ->
  exists t rs, talk_run (client_of pr name) (cache_handler pr) tick (new_talk c hdr) evs = (t, rs)
    /\ Forall2 (like pr) (snd (spec_run pr name c evs)) rs
    /\ tk_handler t = fst (spec_run pr name c evs) /\ settled t.
Proof.
  intros pr name hdr evs c W Sv F U A.
  cut (forall t, tk_handler t = c -> settled t -> speaks pr t ->
    exists t' rs, talk_run (client_of pr name) (cache_handler pr) tick t evs = (t', rs)
    /\ Forall2 (like pr) (snd (spec_run pr name c evs)) rs /\ tk_handler t' = fst (spec_run pr name c evs) /\ settled t').
  { intro C. apply C; [reflexivity|repeat split|left; reflexivity]. }
  revert c W Sv F U A. induction evs as [|[o|d] evs IH]; intros c W Sv F U A t Th Se Sp; cbn [talk_run spec_run all_accepted] in *.
  - exists t, []. repeat split; try assumption; try constructor; apply Se.
  - inversion F as [|? ? L F']; subst. inversion U as [|? ? LS U']; subst. cbn [usual] in LS. destruct LS as [_ S]. destruct A as [A A'].
    destruct (cache_exchange pr name (tk_header t) (tk_handler t) o W Sv L S A) as (r & Ex & Lr).
    destruct (call_exchange cache (cache_handler pr) pr name t o (fst (spec_step pr name (tk_handler t) o)) L S Se Sp) as (hd' & ->).
    { intros qs Uq Fq. destruct (cache_serves pr qs (tk_handler t) Fq) as (l & ->).
      - intro Np. apply Forall_forall. intros q Hq Oq. assert (Iw : In (understood q) (intended pr o)) by (rewrite <- Uq; apply in_map; exact Hq).
        assert (Ow : forall w, In w (intended pr o) -> w_op w <> OpcNoop).
        { intros w Hw. destruct pr; [| |congruence].
          - destruct o; cbn in Hw; (destruct Hw as [<-|[]]; discriminate).
          - destruct o; cbn in S, Hw; try contradiction; (destruct Hw as [<-|[]]; discriminate). }
        exact (Ow _ Iw Oq).
      - rewrite Uq, (wishes_step pr name _ o L S). eexists. reflexivity. }
    rewrite Ex. cbn [fst snd].
    assert (Es : fst (spec_step pr [] (tk_handler t) o) = fst (spec_step pr name (tk_handler t) o)) by (symmetry; apply PClient.spec_fst_name).
    rewrite Es in A'.
    destruct (IH (fst (spec_step pr name (tk_handler t) o)) (wf_spec_step pr name _ o W L)) with (t := mkTalk (fst (spec_step pr name (tk_handler t) o)) (Some (proto_of pr)) [] None [] hd') as (t' & rs & E & R1 & R2 & R3).
    + unfold short_version in *. rewrite cfg_spec_step. exact Sv.
    + exact F'.
    + exact U'.
    + exact A'.
    + reflexivity.
    + repeat split.
    + right. reflexivity.
    + rewrite E. exists t', (r :: rs). cbn [fst snd]. split; [reflexivity|]. split; [constructor; assumption|]. split; assumption.
  - inversion F as [|? ? L F']; subst. inversion U as [|? ? _ U']; subst.
    apply (IH (tick (tk_handler t) d) (wf_tick pr _ d W L)); try assumption. reflexivity.
Qed.
Print Assumptions C90_end_to_end_partial.

Lemma new_call_result : forall H (h : handler H) pr name st hdr o, legal pr o ->
  snd (talk_call (client_of pr name) h (new_talk st hdr) o) = fst (exchange pr name hdr h st o).
Proof.
  intros H h pr name st hdr o L. unfold talk_call, new_talk, exchange. cbn [tk_header tk_left tk_over tk_handler tk_proto tk_unread app].
  destruct (request_ok pr name hdr o L) as (rq & ->).
  destruct (serve_live h (S (length rq)) None st rq) as [[[[a1 a2] a3] a4] a5] eqn:E.
  destruct (C90_live_is_serve_conn _ _ _ _ _ _ _ _ _ E) as (l & ft & -> & <- & _). reflexivity.
Qed.

(** The full property: with a suitable handler, this client and this server behave like memcached for every legal history. *)
Definition C90_end_to_end : Prop := exists H (h : handler H) pass st, forall pr name hdr evs, Forall (legal_event pr) evs ->
  Forall2 agrees (snd (spec_run pr name (empty_cache (mkConfig 1048576 (B "1.6") true) 0) evs))
                 (snd (talk_run (client_of pr name) h pass (new_talk st hdr) evs)).
(** No handler does it, whatever the protocol: Replace of an absent key is enough (C89). *)
Definition absent_item : item := mkItem (B "k") (B "v") None 0 0 [].
Theorem C90_no_handler_suffices : forall H (h : handler H) pass st pr name hdr cf now,
  legal pr (OReplace absent_item) /\ (0 < cf_limit cf ->
  ~ Forall2 agrees (snd (spec_run pr name (empty_cache cf now) [Do (OReplace absent_item)]))
                   (snd (talk_run (client_of pr name) h pass (new_talk st hdr) [Do (OReplace absent_item)]))).
Proof.
  intros H h pass st pr name hdr cf now.
  assert (L : legal pr (OReplace absent_item)) by (destruct pr; apply PClient.legalb_ok; reflexivity). split; [exact L|]. intros Lim F.
  cbn [talk_run spec_run snd] in F. rewrite new_call_result in F by exact L.
  assert (Q : snd (spec_step pr name (empty_cache cf now) (OReplace absent_item)) = SErr ENotFound).
  { cbn [spec_step absent_item it_key it_value]. unfold cache_replace. replace (too_large _ _) with false; [reflexivity|]. symmetry. unfold too_large. cbn [empty_cache c_cfg]. apply Z.ltb_ge. change (zlen (B "v")) with 1. lia. }
  rewrite Q in F. inversion F as [|? ? ? ? A _]; subst. cbn [agrees] in A.
  destruct (exchange pr name hdr h st (OReplace absent_item)) as [r u] eqn:E. cbn [fst] in A. destruct r as [|e|]; try contradiction A. subst e.
  destruct (C89_no_refusal_can_be_told H h st pr name hdr (OReplace absent_item) (Err ENotFound) u eq_refl L) as [_ X].
  - destruct pr; [|reflexivity|exact Logic.I]; reflexivity.
  - exact E.
  - destruct (X ENotFound eq_refl) as [Y _]. discriminate Y.
Qed.
Print Assumptions C90_no_handler_suffices.
Theorem C90_end_to_end_refuted : ~ C90_end_to_end.
Proof.
  intros (H & h & pass & st & A). set (hdr := reset_header).
  destruct (C90_no_handler_suffices H h pass st PText [] hdr (mkConfig 1048576 (B "1.6") true) 0) as [L N]. apply N; [cbn; lia|].
  apply A. constructor; [exact L|constructor].
Qed.
Print Assumptions C90_end_to_end_refuted.

(** A history of ten calls and some time that meets the hypotheses of C90_end_to_end_partial with all protocols. *)
Definition c90_cache : cache := empty_cache (mkConfig 2048 (B "1.6") true) 1000.
Definition c90_item (k v : bytes) (f e : Z) : item := mkItem k v (Some (be 4 f)) e 0 [].
Definition c90_history (pr : proto) : list event :=
  [Do (OSet (c90_item (B "a") (B "41") 7 0)); Do (OAdd (c90_item (B "b") (B "x") 0 5)); Do (OIncr (B "a") 1 0); Do (OGet (B "a"));
   Do (OReplace (c90_item (B "b") (B "y") 9 5)); Wait 4; Do (OGet (B "b")); Do (OGet (B "a")); Do OVersion; Do (ODelete (B "a"))]
  ++ match pr with PBinary => [Do (OGetMulti [B "a"; B "b"]); Wait 1; Do (OGetMulti [B "a"; B "b"])]
     | PText => [Do (OGet (B "a")); Do (OTouch (B "b") 3); Wait 2; Do (OGetMulti [B "b"; B "a"])] | PMeta => [Wait 1; Do (OGet (B "b"))] end ++ [Do OFlush].
Example C90_met : forall pr, wf pr c90_cache /\ short_version c90_cache /\ Forall (legal_event pr) (c90_history pr)
  /\ Forall (usual pr) (c90_history pr) /\ all_accepted pr c90_cache (c90_history pr).
Proof.
  intro pr.
  assert (L : Forall (legal_event pr) (c90_history pr)) by (apply PClient.legal_events_ok; destruct pr; vm_compute; reflexivity).
  split; [|split; [|split; [exact L|split]]].
  - split; [split; [cbn; lia|split; [cbn; lia|]]|split; [cbn; lia|split; [cbn; lia|intros k e Q; discriminate Q]]]. repeat constructor; vm_compute; discriminate.
  - vm_compute. discriminate.
  - assert (Sp : Forall (fun ev => match ev with Do o => supported pr o | Wait _ => True end) (c90_history pr)).
    { destruct pr; unfold c90_history; cbn [app]; repeat constructor; vm_compute; reflexivity. }
    revert L Sp. generalize (c90_history pr). induction l as [|ev l IH]; intros L Sp; constructor; inversion L; inversion Sp; subst; [destruct ev; cbn in *; auto|apply IH; assumption].
  - destruct pr; vm_compute; repeat split; try discriminate; auto.
Qed.
