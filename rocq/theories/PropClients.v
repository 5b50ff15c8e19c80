(** * Property C91: several clients of this repository at once, each over its own connection to one server of this
    repository with a cache behind it. *)
From Verif Require PClient.
From Verif Require Import GoBytes GoNum GoIO GoScan Item ClientText ClientMeta ClientBinary Cache Daemon Spec Call Guard
  ServerTypes ServerParse ServerWrite Serve ServerConc ServerSpec Talk PLib PScan PDaemon PCache PText PMeta PReader PBinary PServer PServe PReply PropServer PropServerReply PropHandler PropServerConc PropTalk.
Local Open Scope Z_scope.

(** ** Definitions of the statement *)
(** [s] is what a client sends for the calls [os]. *)
Definition sends (pr : proto) (name : bytes) (os : list op) (s : bytes) : Prop :=
  exists msgs, map fst msgs = os /\ s = flat_map snd msgs
    /\ Forall (fun m => exists hdr, fst (cl_req (client_of pr name) hdr (fst m)) = Ok (snd m)) msgs.
(** Calls that are one request: all but the binary (and meta) GetMulti. *)
Definition one_request (pr : proto) (o : op) : Prop := match o with OGetMulti _ => pr = PText | _ => True end.
Definition good_call (pr : proto) (o : op) : Prop := legal pr o /\ supported pr o /\ one_request pr o.
(** The client reading its replies, one call after the other. *)
Fixpoint client_reads (cl : client) (os : list op) (s : bytes) : list (outcome result) * bytes :=
  match os with
  | [] => ([], s)
  | o :: os' => let ru := cl_resp cl o s in let rsu := client_reads cl os' (snd ru) in (fst ru :: fst rsu, snd rsu)
  end.
(** The entries of [xs] that belong to connection [i]. *)
Definition pick {A} (i : nat) (who : list nat) (xs : list A) : list A :=
  flat_map (fun p => if Nat.eqb (fst p) i then [snd p] else []) (combine who xs).

(** ** Proofs *)
Lemma pick_forall2 : forall A C (R : A -> C -> Prop) i who xs ys, Forall2 R xs ys -> Forall2 R (pick i who xs) (pick i who ys).
Proof.
  intros A C R i who xs ys F. revert who. induction F as [|x y xs ys r F IH]; intros [|w who]; try constructor.
  unfold pick. cbn [combine flat_map fst snd]. fold (pick i who xs) (pick i who ys). destruct (Nat.eqb w i); cbn [app]; [constructor; [exact r|]|]; apply IH.
Qed.
Lemma pick_map : forall A C (f : A -> C) i who xs, pick i who (map f xs) = map f (pick i who xs).
Proof.
  intros A C f i. induction who as [|w who IH]; intros [|x xs]; try reflexivity. unfold pick in *. cbn [map combine flat_map fst snd].
  rewrite map_app, <- IH. destruct (Nat.eqb w i); reflexivity.
Qed.
Lemma of_conn_pick : forall i log, of_conn i log = pick i (map fst log) (map snd log).
Proof. intros i. induction log as [|e log IH]; [reflexivity|]. unfold of_conn, pick in *. cbn [map combine flat_map fst snd]. rewrite IH. reflexivity. Qed.

(** One request of a call. *)
Lemma exact_request : forall pr name hdr o rq, good_call pr o -> fst (cl_req (client_of pr name) hdr o) = Ok rq ->
  exists q, exactly (proto_of pr) rq q /\ intended pr o = [understood q] /\ flavour pr q && tidy pr q = true /\ exists c t, rq = c :: t /\ announced c = proto_of pr.
Proof.
  intros pr name hdr o rq (L & S & O) R.
  assert (W : exists w, intended pr o = [w]) by (destruct o; cbn in O |- *; try subst pr; eexists; reflexivity). destruct W as [w W].
  destruct (request_delivered pr name hdr o rq L S R (Some (proto_of pr)) [] (or_intror eq_refl)) as (qs & Rd & U & F). rewrite W in U.
  destruct qs as [|q [|? ?]]; try discriminate U. inversion F as [|? ? Fq _]; subst. rewrite app_nil_r in Rd.
  inversion Rd as [|p0 s0 q0 p1 s1 qs1 p2 s2 E R' E1 E2 E3 E4]; subst. inversion R'; subst.
  exists q. split; [|split; [|split; [exact Fq|]]].
  - unfold exactly. assert (Q : read_request (Some (proto_of pr)) rq = (parser (proto_of pr) rq, Some (proto_of pr))) by (destruct pr; reflexivity). rewrite Q in E. exact (f_equal fst E).
  - rewrite W. cbn in U. congruence.
  - destruct (request_delivered pr name hdr o rq L S R None [] (or_introl eq_refl)) as (qs' & Rd' & U' & _). rewrite app_nil_r in Rd'. rewrite W in U'.
    destruct qs' as [|q' [|? ?]]; try discriminate U'. inversion Rd' as [|p0 s0 q0 p1 s1 qs1 p2 s2 E' R'' E1' E2' E3' E4']; subst. inversion R''; subst.
    destruct rq as [|c t]; [discriminate E'|]. rewrite read_first in E'. exists c, t. split; [reflexivity|congruence].
Qed.

Lemma exchange_exactly : forall H (h : handler H) st pr name hdr o rq q res out, fst (cl_req (client_of pr name) hdr o) = Ok rq ->
  exactly (proto_of pr) rq q -> (exists c t, rq = c :: t /\ announced c = proto_of pr) -> snd (h st q) = Ok res -> write_response (proto_of pr) q res = Ok out ->
  exchange pr name hdr h st o = cl_resp (client_of pr name) o out.
Proof.
  intros H h st pr name hdr o rq q res out R E (c & t & -> & A) Hq W. unfold exchange. rewrite R, serve_conn_as, A.
  pose proof (serve_pieces H h (proto_of pr) [(c :: t, q)] st [] ltac:(constructor; [exact E|constructor])) as Sp. cbn [flat_map fst snd app map serve_list] in Sp. rewrite app_nil_r in Sp. rewrite app_nil_r in Sp. rewrite Sp. clear Sp.
  destruct (h st q) as [st' x]. cbn [snd] in Hq. subst x. rewrite W. cbn [then_serve].
  destruct (serve_rest (proto_of pr) h st' []) as [[a b] d] eqn:Sr. cbn [fst snd].
  assert (Eb : b = []). { unfold serve_rest in Sr. cbn [length serve_as] in Sr. destruct (proto_of pr); cbn in Sr; congruence. }
  subst b. unfold replies. cbn [app flat_map sd_reply]. rewrite app_nil_r. reflexivity.
Qed.

(** A call served out of the cache: the reply is complete, whatever follows it. *)
Lemma served_call : forall pr name hdr c o rq q, wf pr c -> short_version c -> good_call pr o -> accepted pr c o ->
  fst (cl_req (client_of pr name) hdr o) = Ok rq -> exactly (proto_of pr) rq q ->
  fst (cache_handler pr c q) = fst (spec_step pr name c o)
  /\ exists res out r, snd (cache_handler pr c q) = Ok res /\ write_response (proto_of pr) q res = Ok out
     /\ (forall t, cl_resp (client_of pr name) o (out ++ t) = (r, t)) /\ like pr (snd (spec_step pr name c o)) r.
Proof.
  intros pr name hdr c o rq q W Sv G A R E. destruct (exact_request pr name hdr o rq G R) as (q' & E' & U & F & An). destruct G as (L & S & O).
  assert (q' = q) by (unfold exactly in *; congruence). subst q'. split.
  - rewrite <- (wishes_step pr name c o L S), U. reflexivity.
  - apply andb_true_iff in F. destruct F as [F _]. destruct (answers_four pr c (understood q)) as (res & Er & Nr & Ff).
    destruct (writer_done pr q res F Nr Ff) as (out & Wo).
    { intros Np Oq. assert (Iw : In (understood q) (intended pr o)) by (rewrite U; left; reflexivity). destruct pr; [| |congruence].
      - destruct o; cbn in Iw; (destruct Iw as [Iw|[]]; apply (f_equal w_op) in Iw; cbn in Iw; congruence).
      - destruct o; cbn in S, Iw; try contradiction; (destruct Iw as [Iw|[]]; apply (f_equal w_op) in Iw; cbn in Iw; congruence). }
    destruct (cache_exchange pr name hdr c o W Sv L S A) as (r & Ex & Lk).
    rewrite (exchange_exactly cache (cache_handler pr) c pr name hdr o rq q res out R E An Er Wo) in Ex.
    exists res, out, r. split; [exact Er|]. split; [exact Wo|]. split; [|exact Lk].
    assert (Nr' : r <> Err EIO).
    { intros ->. unfold accepted in A. destruct (snd (spec_step pr name c o)) eqn:Q; cbn in Lk; try contradiction; [destruct r; contradiction|]. subst e.
      destruct o as [k|ks|i|i|i|k|k d e|k d e|k e| |]; [cbn in Q; destruct (lookup c k); discriminate Q|discriminate Q|..];
        (match type of Q with snd (spec_step _ _ _ ?oo) = _ => assert (Q' : snd (spec_step pr [] c oo) = SErr EIO) by exact Q end; rewrite Q' in A; exact A). }
    intro t. assert (Lc : local (cl_resp (client_of pr name) o)).
    { destruct pr; [apply local_text|apply local_meta|apply local_bin]. }
    destruct (Lc _ _ _ Ex Nr') as (u & Eu & Fu & _). rewrite app_nil_r in Eu. subst u. apply Fu.
Qed.

(** The cache with a clock: [ds] are the times that pass before each request. *)
Definition clocked (pr : proto) : handler (cache * list Z) := fun cd q =>
  let ca := cache_handler pr (tick (fst cd) (hd 0 (snd cd))) q in ((fst ca, tl (snd cd)), snd ca).
(** The history: the calls with the time that passes before each. *)
Fixpoint timeline (ds : list Z) (os : list op) : list event :=
  match os with
  | [] => []
  | o :: os' => Wait (hd 0 ds) :: Do o :: timeline (tl ds) os'
  end.

(** What the server's part of the log has to do with the calls of the clients: [log] as requests, [ord] as calls with
    their bytes. *)
Definition entry_ok (pr : proto) (name : bytes) (e : nat * (srequest * answer_of)) (o : nat * (op * bytes)) : Prop :=
  fst e = fst o /\ good_call pr (fst (snd o)) /\ exactly (proto_of pr) (snd (snd o)) (fst (snd e))
  /\ exists hdr, fst (cl_req (client_of pr name) hdr (fst (snd o))) = Ok (snd (snd o)).

Lemma log_is_spec : forall pr name log ord c ds cd answers, wf pr c -> Forall (fun d => 0 <= d) ds ->
  Forall2 (entry_ok pr name) log ord -> handle_all (clocked pr) (c, ds) (requests_of log) = (cd, answers) ->
  fst cd = fst (spec_run pr name c (timeline ds (map (fun o => fst (snd o)) ord))).
Proof.
  intros pr name log ord c ds cd answers W D F. revert c ds cd answers W D. induction F as [|e o log ord Eo F IH]; intros c ds cd answers W D Hl; cbn [requests_of map handle_all timeline spec_run] in *.
  - injection Hl as <- <-. reflexivity.
  - destruct Eo as (_ & G & Ex & hdr & R). unfold clocked at 1 in Hl. cbn [fst snd] in Hl. set (c1 := tick c (hd 0 ds)) in *.
    assert (W1 : wf pr c1) by (apply wf_tick; [exact W|]; destruct D; cbn; lia).
    assert (D1 : Forall (fun d => 0 <= d) (tl ds)) by (destruct D; cbn; [constructor|assumption]).
    destruct (exact_request pr name hdr _ _ G R) as (q' & E' & U & _). assert (q' = fst (snd e)) by (unfold exactly in *; congruence). subst q'.
    destruct G as (L & S & _).
    assert (Es : fst (cache_handler pr c1 (fst (snd e))) = fst (spec_step pr name c1 (fst (snd o)))) by (rewrite <- (wishes_step pr name c1 _ L S), U; reflexivity).
    rewrite Es in Hl. destruct (handle_all (clocked pr) (fst (spec_step pr name c1 (fst (snd o))), tl ds) (map (fun e0 => fst (snd e0)) log)) as [cd' an'] eqn:Hr.
    injection Hl as <- <-. apply (IH _ _ _ _ (wf_spec_step pr name c1 _ W1 L) D1 Hr).
Qed.

(** When nothing is refused: the reply to every request and what the client reads in it. *)
Lemma log_is_answered : forall pr name log ord c ds cd answers, wf pr c -> short_version c -> Forall (fun d => 0 <= d) ds ->
  Forall2 (entry_ok pr name) log ord -> handle_all (clocked pr) (c, ds) (requests_of log) = (cd, answers) -> answers = answers_of log ->
  all_accepted pr c (timeline ds (map (fun o => fst (snd o)) ord)) ->
  exists outs : list (bytes * outcome result),
    Forall2 (fun e b => exists res, snd (snd e) = Ok res /\ write_response (proto_of pr) (fst (snd e)) res = Ok (fst b)) log outs
    /\ Forall2 (fun o b => forall t, cl_resp (client_of pr name) (fst (snd o)) (fst b ++ t) = (snd b, t)) ord outs
    /\ Forall2 (fun s b => like pr s (snd b)) (snd (spec_run pr name c (timeline ds (map (fun o => fst (snd o)) ord)))) outs.
Proof.
  intros pr name log ord c ds cd answers W Sv D F. revert c ds cd answers W Sv D. induction F as [|e o log ord Eo F IH]; intros c ds cd answers W Sv D Hl Ha A; cbn [requests_of answers_of map handle_all timeline spec_run all_accepted] in *.
  - exists []. repeat constructor.
  - destruct Eo as (_ & G & Ex & hdr & R). unfold clocked at 1 in Hl. cbn [fst snd] in Hl. set (c1 := tick c (hd 0 ds)) in *.
    assert (W1 : wf pr c1) by (apply wf_tick; [exact W|]; destruct D; cbn; lia).
    assert (D1 : Forall (fun d => 0 <= d) (tl ds)) by (destruct D; cbn; [constructor|assumption]).
    destruct A as [A A']. rewrite <- (PClient.spec_fst_name pr name) in A'.
    destruct (served_call pr name hdr c1 _ _ _ W1 Sv G A R Ex) as (Es & res & out & r & Er & Wo & Rd & Lk).
    rewrite Es, Er in Hl. destruct (handle_all (clocked pr) (fst (spec_step pr name c1 (fst (snd o))), tl ds) (map (fun e0 => fst (snd e0)) log)) as [cd' an'] eqn:Hr.
    injection Hl as <- <-. injection Ha as Ha1 Ha2.
    assert (Sv1 : short_version (fst (spec_step pr name c1 (fst (snd o))))) by (unfold short_version in *; rewrite cfg_spec_step; exact Sv).
    destruct (IH _ _ _ _ (wf_spec_step pr name c1 _ W1 (proj1 G)) Sv1 D1 Hr Ha2 A') as (outs & O1 & O2 & O3).
    exists ((out, r) :: outs). cbn [snd fst]. split; [constructor; [exists res; cbn [fst]; split; [symmetry; exact Ha1|exact Wo]|exact O1]|]. split; constructor; assumption.
Qed.

(** A log whose parts are the streams of the connections is a sequence of calls. *)
Lemma log_as_calls : forall pr name log (msgs : nat -> list (op * bytes)),
  (forall i, exists k, Forall2 (fun e m => exactly (proto_of pr) (snd m) (fst e)) (of_conn i log) (firstn k (msgs i))) ->
  (forall i, Forall (fun m => good_call pr (fst m) /\ exists hdr, fst (cl_req (client_of pr name) hdr (fst m)) = Ok (snd m)) (msgs i)) ->
  exists ord, Forall2 (entry_ok pr name) log ord /\ forall i, pick i (map fst ord) (map snd ord) = firstn (length (of_conn i log)) (msgs i).
Proof.
  intros pr name. induction log as [|[i e] log IH]; intros msgs F G; [exists []; split; [constructor|intro i; reflexivity]|].
  destruct (F i) as (k & Fi). cbn [of_conn flat_map fst snd] in Fi. rewrite Nat.eqb_refl in Fi. cbn [app] in Fi.
  destruct k as [|k]; [inversion Fi|]. destruct (msgs i) as [|m ms] eqn:Em; [inversion Fi|]. cbn [firstn] in Fi. inversion Fi as [|? ? ? ? Fe Fr]; subst.
  destruct (IH (fun j => if Nat.eqb j i then ms else msgs j)) as (ord & O1 & O2).
  - intro j. destruct (Nat.eqb_spec j i) as [->|N]; [exists k; exact Fr|].
    destruct (F j) as (k' & Fj). cbn [of_conn flat_map fst snd] in Fj. rewrite (proj2 (Nat.eqb_neq i j)) in Fj by congruence. exists k'. exact Fj.
  - intro j. destruct (Nat.eqb_spec j i) as [->|N]; [|apply G]. specialize (G i). rewrite Em in G. inversion G; assumption.
  - exists ((i, m) :: ord). split.
    + constructor; [|exact O1]. specialize (G i). rewrite Em in G. inversion G as [|? ? [G1 G2] _]; subst. split; [reflexivity|]. cbn [fst snd]. split; [exact G1|]. split; [exact Fe|exact G2].
    + intro j. specialize (O2 j). unfold pick in *. cbn [map combine flat_map of_conn fst snd]. fold (of_conn j log). rewrite O2. clear O2.
      destruct (Nat.eqb_spec j i) as [Ej|N].
      * subst j. rewrite Nat.eqb_refl. cbn [app length]. rewrite Em. reflexivity.
      * rewrite (proj2 (Nat.eqb_neq i j)) by congruence. reflexivity.
Qed.

(** The requests in a client's stream. *)
Lemma stream_requests : forall pr name (msgs : list (op * bytes)),
  Forall (fun m => good_call pr (fst m) /\ exists hdr, fst (cl_req (client_of pr name) hdr (fst m)) = Ok (snd m)) msgs ->
  exists qs, Forall2 (fun q m => exactly (proto_of pr) (snd m) q) qs msgs
    /\ forall H (h : handler H) st, serve_conn h st (flat_map snd msgs) = then_serve h (proto_of pr) (serve_list h (proto_of pr) st qs) [].
Proof.
  intros pr name msgs F.
  assert (Q : exists qs, Forall2 (fun q m => exactly (proto_of pr) (snd m) q) qs msgs).
  { induction F as [|m msgs [G (hdr & R)] F IH]; [exists []; constructor|]. destruct IH as (qs & IH). destruct (exact_request pr name hdr _ _ G R) as (q & E & _). exists (q :: qs). constructor; assumption. }
  destruct Q as (qs & Q). exists qs. split; [exact Q|]. intros H h st.
  destruct msgs as [|m msgs].
  - inversion Q; subst. cbn. destruct (proto_of pr); reflexivity.
  - assert (Sp : serve_rest (proto_of pr) h st (flat_map snd (m :: msgs)) = then_serve h (proto_of pr) (serve_list h (proto_of pr) st qs) []).
    { pose proof (serve_pieces H h (proto_of pr) (combine (map snd (m :: msgs)) qs) st []) as Sp.
      assert (Ln : length qs = length (m :: msgs)) by (clear - Q; induction Q; cbn; congruence).
      assert (E1 : flat_map fst (combine (map snd (m :: msgs)) qs) = flat_map snd (m :: msgs)).
      { clear - Ln. revert qs Ln. generalize (m :: msgs). induction l as [|x l IH]; intros [|q qs] Ln; try discriminate; [reflexivity|]. cbn [map combine flat_map fst]. f_equal. apply IH. cbn in Ln. congruence. }
      assert (E2 : map snd (combine (map snd (m :: msgs)) qs) = qs).
      { clear - Ln. revert qs Ln. generalize (m :: msgs). induction l as [|x l IH]; intros [|q qs] Ln; try discriminate; [reflexivity|]. cbn [map combine snd]. f_equal. apply IH. cbn in Ln. congruence. }
      rewrite E1, E2, app_nil_r in Sp. apply Sp. clear - Q. induction Q as [|q x qs l Hq Q IH]; [constructor|]. cbn [map combine]. constructor; [exact Hq|exact IH]. }
    inversion F as [|? ? [G (hdr & R)] _]; subst. destruct (exact_request pr name hdr _ _ G R) as (_ & _ & _ & _ & c & t & Er & An).
    rewrite <- Sp. destruct m as [o rq]. cbn [snd] in Er. subst rq. cbn [flat_map snd app]. rewrite serve_conn_as, An. reflexivity.
Qed.

(** One connection: the requests it has handed over and the replies it has written. *)
Lemma serve_list_requests : forall H (h : handler H) p qs st, exists k, map sd_req (snd (fst (serve_list h p st qs))) = firstn k qs.
Proof.
  intros H h p. induction qs as [|q qs IH]; intro st; [exists 0%nat; reflexivity|]. cbn [serve_list].
  destruct (h st q) as [st' [res|e|]]; [|exists 1%nat; reflexivity|exists 1%nat; reflexivity].
  destruct (write_response p q res) as [out|e|]; [|exists 1%nat; reflexivity|exists 1%nat; reflexivity].
  destruct (IH st') as (k & E). destruct (serve_list h p st' qs) as [[s2 l] f]. exists (S k). cbn [fst snd map sd_req firstn] in *. rewrite E. reflexivity.
Qed.
Lemma serve_list_replayed : forall p (mine : list (srequest * answer_of)) (outs : list bytes) qs,
  Forall2 (fun e b => exists res, snd e = Ok res /\ write_response p (fst e) res = Ok b) mine outs -> map fst mine = firstn (length mine) qs ->
  exists rest, snd (fst (serve_list replay p (map snd mine) qs)) = map (fun x => mkServed (fst (fst x)) (snd x)) (combine mine outs) ++ rest.
Proof.
  intros p mine outs qs F. revert qs. induction F as [|[q a] b mine outs (res & Ea & Eb) F IH]; intros qs E.
  - eexists. reflexivity.
  - destruct qs as [|q' qs]; [discriminate E|]. cbn [map fst length firstn] in E. injection E as Eq E. subst q'. cbn [snd fst] in Ea, Eb. subst a.
    destruct (IH qs E) as (rest & R). exists rest. cbn [map snd serve_list replay]. rewrite Eb. unfold answer_of in *.
    transitivity (mkServed q b :: snd (fst (serve_list replay p (map snd mine) qs))).
    + assert (P : forall (y : list answer_of * list served * option fate) a, snd (fst (let '(s2, l, f) := y in (s2, a :: l, f))) = a :: snd (fst y)) by (intros [[? ?] ?] ?; reflexivity). apply P.
    + cbn [combine map app fst snd]. f_equal. exact R.
Qed.
Lemma app_prefix : forall A (a b c d : list A), a ++ b = c ++ d -> (length a <= length c)%nat -> a = firstn (length a) c.
Proof.
  intros A. induction a as [|x a IH]; intros b c d E L; [reflexivity|]. destruct c as [|y c]; [cbn in L; lia|]. injection E as -> E. cbn [length firstn]. f_equal.
  exact (IH b c d E ltac:(cbn in L; lia)).
Qed.
Lemma rest_of_nothing : forall H (h : handler H) p st, snd (fst (serve_rest p h st [])) = [].
Proof. intros. unfold serve_rest. cbn [length serve_as]. destruct p; reflexivity. Qed.

Definition settled (x : sconn) : bool := match sc_phase x with Answered _ _ => false | _ => true end.
Lemma conn_requests : forall pr name (msgs : list (op * bytes)) mine x,
  Forall (fun m => good_call pr (fst m) /\ exists hdr, fst (cl_req (client_of pr name) hdr (fst m)) = Ok (snd m)) msgs ->
  conn_ok (flat_map snd msgs) mine x ->
  (exists k, Forall2 (fun e m => exactly (proto_of pr) (snd m) (fst e)) mine (firstn k msgs))
  /\ forall outs, Forall2 (fun e b => exists res, snd e = Ok res /\ write_response (proto_of pr) (fst e) res = Ok b) mine outs ->
     exists m more, sc_out x ++ more = concat (firstn m outs) /\ (m <= length mine <= S m)%nat /\ (settled x = true -> m = length mine)
       /\ (sc_phase x = Reading -> more = []).
Proof.
  intros pr name msgs mine x F (done & On & Out & Mine & _). destruct (stream_requests pr name msgs F) as (qs & Q & Sv).
  assert (L : forall as_, fst (onward None as_ (flat_map snd msgs)) = snd (fst (serve_list replay (proto_of pr) as_ qs))).
  { intro as_. unfold onward. fold (serve_conn replay as_ (flat_map snd msgs)). rewrite Sv. destruct (serve_list replay (proto_of pr) as_ qs) as [[s l] [ft|]]; cbn [then_serve fst snd]; [reflexivity|].
    pose proof (rest_of_nothing _ replay (proto_of pr) s) as N. destruct (serve_rest (proto_of pr) replay s []) as [[s' l'] ft]. cbn [fst snd] in *. subst l'. apply app_nil_r. }
  assert (Pre : exists k, map fst mine = firstn k qs).
  { destruct (serve_list_requests _ replay (proto_of pr) qs (map snd mine)) as (k & Ek). specialize (On []). rewrite app_nil_r in On. apply (f_equal fst) in On. rewrite L in On. rewrite On in Ek. cbn [put fst] in Ek.
    rewrite map_app in Ek.
    assert (P : exists t, map sd_req done ++ map sd_req (fst (to_come x [])) = map fst mine ++ t).
    { unfold to_come. destruct (sc_phase x) as [| | |q r|b|ft|]; rewrite Mine; try (eexists; reflexivity).
      assert (A : exists t, map sd_req (fst (answered (sc_proto x) (sc_left x) q r [])) = q :: t).
      { unfold answered. destruct r as [res|e|]; [|eexists; reflexivity|eexists; reflexivity]. destruct (sc_proto x) as [p|]; [|eexists; reflexivity].
        destruct (write_response p q res); eexists; reflexivity. }
      destruct A as (t & A). rewrite A. exists t. rewrite <- app_assoc. reflexivity. }
    destruct P as (t & P). rewrite P in Ek. exists (Nat.min (length mine) k). rewrite <- firstn_firstn, <- Ek, <- (map_length fst mine), firstn_app, Nat.sub_diag, firstn_all. cbn [firstn]. rewrite app_nil_r. reflexivity. }
  destruct Pre as (k & Pre).
  split.
  - exists k. clear - Pre Q. revert mine k Pre. induction Q as [|q m qs msgs E Q IH]; intros mine k Pre.
    + rewrite firstn_nil in *. apply map_eq_nil in Pre. subst. constructor.
    + destruct k as [|k]; [apply map_eq_nil in Pre; subst; constructor|]. destruct mine as [|e mine]; [discriminate Pre|]. cbn [map firstn] in *. injection Pre as Pe Pre. subst q. constructor; [exact E|exact (IH mine k Pre)].
  - intros outs Fo. assert (Lo : length outs = length mine) by (clear - Fo; induction Fo; cbn; congruence).
    assert (Pre' : map fst mine = firstn (length mine) qs).
    { assert (Ll : length mine = Nat.min k (length qs)) by (rewrite <- (map_length fst mine), Pre; apply firstn_length). rewrite Pre. destruct (Nat.le_gt_cases k (length qs)) as [Lk|Lk].
      - f_equal. lia.
      - rewrite !firstn_all2 by lia. reflexivity. }
    destruct (serve_list_replayed (proto_of pr) mine outs qs Fo Pre') as (rest & R).
    specialize (On []). rewrite app_nil_r in On. apply (f_equal fst) in On. rewrite L in On. unfold answer_of in *. rewrite R in On. cbn [put fst] in On.
    assert (Ld : (length done <= length mine <= S (length done))%nat /\ (settled x = true -> length done = length mine)).
    { unfold settled. destruct (sc_phase x); apply (f_equal (@length _)) in Mine; rewrite ?app_length, ?map_length in Mine; cbn [length] in Mine; split; try lia; intro; lia || discriminate. }
    exists (length done). symmetry in On. apply app_prefix in On; [|rewrite map_length, combine_length; lia].
    assert (Rd : replies done = concat (firstn (length done) outs)).
    { rewrite On at 1. rewrite firstn_map. clear - Lo. revert mine Lo. generalize (length done). revert outs. induction outs as [|b outs IH]; intros n [|e mine] Lo; try discriminate Lo.
      - rewrite combine_nil, !firstn_nil. reflexivity.
      - destruct n as [|n]; [reflexivity|]. cbn [combine firstn map concat]. unfold replies in *. cbn [flat_map sd_reply snd]. f_equal. apply IH. cbn in Lo. congruence. }
    assert (Mo : exists more, replies done = sc_out x ++ more /\ (sc_phase x = Reading -> more = [])).
    { unfold unsent in Out. destruct (sc_phase x); try (exists []; rewrite app_nil_r in *; split; [exact Out|reflexivity]).
      - eexists; split; [exact Out|discriminate].
      - destruct Out as (t & Out). exists t. split; [exact Out|discriminate]. }
    destruct Mo as (more & Mo & Mr). exists more. rewrite <- Mo, Rd. split; [reflexivity|]. split; [exact (proj1 Ld)|]. split; [exact (proj2 Ld)|exact Mr].
Qed.

Lemma client_reads_all : forall cl os (bs : list (bytes * outcome result)),
  Forall2 (fun o b => forall t, cl_resp cl o (fst b ++ t) = (snd b, t)) os bs -> client_reads cl os (concat (map fst bs)) = (map snd bs, []).
Proof.
  intros cl os bs F. induction F as [|o b os bs E F IH]; [reflexivity|]. cbn [client_reads map concat]. rewrite E. cbn [fst snd]. rewrite IH. reflexivity.
Qed.
Lemma firstn_f2 : forall A C (R : A -> C -> Prop) xs ys n, Forall2 R xs ys -> Forall2 R (firstn n xs) (firstn n ys).
Proof. intros A C R xs ys n F. revert n. induction F; intros [|n]; cbn [firstn]; constructor; auto. Qed.
Lemma pick_len : forall A i (who : list nat) (xs : list A), length who = length xs -> length (pick i who xs) = length (filter (fun w => Nat.eqb w i) who).
Proof.
  intros A i. induction who as [|w who IH]; intros [|x xs] L; try discriminate L; [reflexivity|]. unfold pick in *. cbn [combine flat_map fst snd filter]. rewrite app_length, IH by (cbn in L; congruence).
  destruct (Nat.eqb w i); reflexivity.
Qed.

(** The calls of client [i] in an order of calls. *)
Definition calls_of (i : nat) (order : list (nat * op)) : list op := pick i (map fst order) (map snd order).
(** The server's state [v] is explained by [order]: the calls it has performed, in this order, one after the other, on
    the cache, as the specification of each call says. [msgs i] are client [i]'s calls with the bytes it sends for them. *)
Definition explained (pr : proto) (name : bytes) (c : cache) (ds : list Z) (msgs : nat -> list (op * bytes)) (v : server_state (cache * list Z)) (order : list (nat * op)) : Prop :=
  let history := timeline ds (map snd order) in
  (forall i, exists k, calls_of i order = firstn k (map fst (msgs i)))
  /\ fst (v_handler v) = fst (spec_run pr name c history)
  /\ (all_accepted pr c history -> forall i, exists rs more,
       client_reads (client_of pr name) (firstn (length rs) (calls_of i order)) (sc_out (v_conns v i) ++ more) = (rs, [])
       /\ Forall2 (like pr) (firstn (length rs) (pick i (map fst order) (snd (spec_run pr name c history)))) rs
       /\ (length (calls_of i order) <= S (length rs))%nat
       /\ (sc_phase (v_conns v i) = Reading -> more = [] /\ length rs = length (calls_of i order))).

Lemma explain : forall pr name c ds msgs v ord, wf pr c -> short_version c -> Forall (fun d => 0 <= d) ds ->
  (forall i, Forall (fun m => good_call pr (fst m) /\ exists hdr, fst (cl_req (client_of pr name) hdr (fst m)) = Ok (snd m)) (msgs i)) ->
  ssteps (clocked pr) anyone (listening (c, ds) (fun i => flat_map snd (msgs i))) v ->
  Forall2 (entry_ok pr name) (v_log v) ord -> (forall i, exists k, pick i (map fst ord) (map snd ord) = firstn k (msgs i)) ->
  explained pr name c ds msgs v (map (fun o => (fst o, fst (snd o))) ord).
Proof.
  intros pr name c ds msgs v ord W Sv D G St Eo Pk. destruct (reached _ _ _ _ _ _ St) as [Co Hl].
  set (order := map (fun o => (fst o, fst (snd o))) ord).
  assert (E1 : map snd order = map (fun o => fst (snd o)) ord) by (unfold order; rewrite map_map; reflexivity).
  assert (E2 : map fst order = map fst ord) by (unfold order; rewrite map_map; reflexivity).
  assert (E3 : forall i, calls_of i order = map fst (pick i (map fst ord) (map snd ord))).
  { intro i. unfold calls_of. rewrite E1, E2, <- pick_map, map_map. reflexivity. }
  assert (E4 : map fst (v_log v) = map fst ord) by (clear - Eo; induction Eo as [|e o l l' (E & _) F IH]; [reflexivity|]; cbn [map]; rewrite E, IH; reflexivity).
  unfold explained. rewrite E1, E2. cbv zeta. split; [|split].
  - intro i. destruct (Pk i) as (k & Ek). exists k. rewrite E3, Ek. symmetry. apply firstn_map.
  - exact (log_is_spec pr name _ _ _ _ _ _ W D Eo Hl).
  - intros A i. destruct (log_is_answered pr name _ _ _ _ _ _ W Sv D Eo Hl eq_refl A) as (outs & O1 & O2 & O3).
    destruct (conn_requests pr name (msgs i) _ _ (G i) (Co i)) as (_ & Cr).
    assert (Lw : length (map fst ord) = length outs) by (rewrite map_length; clear - O2; induction O2; cbn; congruence).
    set (oi := pick i (map fst ord) outs).
    assert (F1 : Forall2 (fun e b => exists res, snd e = Ok res /\ write_response (proto_of pr) (fst e) res = Ok (fst b)) (of_conn i (v_log v)) oi).
    { rewrite of_conn_pick, E4. unfold oi. apply pick_forall2. clear - O1. induction O1; cbn [map]; constructor; assumption. }
    assert (F2 : Forall2 (fun o b => forall t, cl_resp (client_of pr name) o (fst b ++ t) = (snd b, t)) (calls_of i order) oi).
    { unfold calls_of. rewrite E1, E2. unfold oi. apply pick_forall2. clear - O2. induction O2; cbn [map]; constructor; assumption. }
    assert (F3 : Forall2 (fun s b => like pr s (snd b)) (pick i (map fst ord) (snd (spec_run pr name c (timeline ds (map (fun o => fst (snd o)) ord))))) oi) by (apply pick_forall2; exact O3).
    destruct (Cr (map fst oi)) as (m & more & Em & Lm & Se & Re).
    { clear - F1. induction F1; cbn [map]; constructor; assumption. }
    assert (Lc : length (calls_of i order) = length oi) by (clear - F2; induction F2; cbn; congruence).
    assert (Lf : length (of_conn i (v_log v)) = length oi) by (clear - F1; induction F1; cbn; congruence).
    exists (map snd (firstn m oi)), more. rewrite map_length, firstn_length, Nat.min_l by lia. split; [|split; [|split]].
    + rewrite Em, firstn_map. apply client_reads_all. apply firstn_f2. exact F2.
    + clear - F3. apply (firstn_f2 _ _ _ _ _ m) in F3. remember (firstn m oi) as b. clear Heqb. induction F3; cbn [map]; constructor; assumption.
    + lia.
    + intro Ph. split; [exact (Re Ph)|]. assert (S : settled (v_conns v i) = true) by (unfold settled; rewrite Ph; reflexivity). specialize (Se S). lia.
Qed.

Lemma ssteps_log : forall H (h : handler H) who v v', ssteps h who v v' -> exists more, v_log v' = v_log v ++ more.
Proof.
  intros H h who v v' Sv. induction Sv as [v|v u w k Sv (m & IH) _ S]; [exists []; rewrite app_nil_r; reflexivity|].
  destruct S; cbn [v_log]; rewrite IH; [exists m; reflexivity|exists m; reflexivity|]. rewrite <- app_assoc. eexists. reflexivity.
Qed.
Lemma ssteps_app : forall H (h : handler H) who v u w, ssteps h who v u -> ssteps h who u w -> ssteps h who v w.
Proof. intros H h who v u w S1 S2. induction S2 as [|u x w k S2 IH Wk S]; [exact S1|]. eapply v_step; [exact (IH S1)|exact Wk|exact S]. Qed.

(** ** C91 *)
(** At every moment of every run there is an order of the calls performed so far that explains the cache and all that
    the clients have read; it contains each client's calls in the client's order; what is performed later comes after
    (so a call that has been answered before another one is sent comes before it). *)
Theorem C91_clients_at_once : forall pr name c ds msgs v v', wf pr c -> short_version c -> Forall (fun d => 0 <= d) ds ->
  (forall i, Forall (fun m => good_call pr (fst m) /\ exists hdr, fst (cl_req (client_of pr name) hdr (fst m)) = Ok (snd m)) (msgs i)) ->
  ssteps (clocked pr) anyone (listening (c, ds) (fun i => flat_map snd (msgs i))) v -> ssteps (clocked pr) anyone v v' ->
  exists order later, explained pr name c ds msgs v order /\ explained pr name c ds msgs v' (order ++ later).
Proof.
  intros pr name c ds msgs v v' W Sv D G S1 S2. pose proof (ssteps_app _ _ _ _ _ _ S1 S2) as S12.
  destruct (reached _ _ _ _ _ _ S12) as [Co _]. destruct (ssteps_log _ _ _ _ _ S2) as (more & El).
  destruct (log_as_calls pr name (v_log v') msgs) as (ord & O1 & O2); [|exact G|].
  { intro i. exact (proj1 (conn_requests pr name (msgs i) _ _ (G i) (Co i))). }
  pose proof O1 as O1'. rewrite El in O1'. apply Forall2_app_inv_l in O1'. destruct O1' as (o1 & o2 & F1 & F2 & ->).
  exists (map (fun o => (fst o, fst (snd o))) o1), (map (fun o => (fst o, fst (snd o))) o2). split.
  - apply explain; try assumption. intro i. specialize (O2 i).
    assert (P : pick i (map fst (o1 ++ o2)) (map snd (o1 ++ o2)) = pick i (map fst o1) (map snd o1) ++ pick i (map fst o2) (map snd o2)).
    { clear. induction o1 as [|x o1 IH]; [reflexivity|]. unfold pick in *. cbn [app map combine flat_map fst snd]. rewrite IH, app_assoc. reflexivity. }
    rewrite P in O2. set (a := pick i (map fst o1) (map snd o1)) in *. exists (Nat.min (length a) (length (of_conn i (v_log v')))).
    rewrite <- firstn_firstn, <- O2, firstn_app, Nat.sub_diag, firstn_all. cbn [firstn]. rewrite app_nil_r. reflexivity.
  - rewrite <- map_app. apply explain; try assumption. intro i. eexists. apply O2.
Qed.

(** A case: a scheduler that lets the given connections take their next step. *)
Definition next {H} (h : handler H) (st : H) (x : sconn) : option (H * sconn * list (srequest * answer_of)) :=
  match sc_phase x with
  | Reading => match read_request (sc_proto x) (sc_left x) with
               | ((Ok q, s'), p') => Some (st, mkSC s' p' (Calling q) (sc_out x), [])
               | ((Err e, s'), p') => Some (st, mkSC s' p' (Over (Closed e)) (sc_out x), [])
               | _ => None
               end
  | Calling q => Some (fst (h st q), mkSC (sc_left x) (sc_proto x) (Answered q (snd (h st q))) (sc_out x), [(q, snd (h st q))])
  | Answered q (Ok res) => match sc_proto x with
                           | Some p => match write_response p q res with Ok b => Some (st, mkSC (sc_left x) (Some p) (Writing b) (sc_out x), []) | _ => None end
                           | None => None
                           end
  | Writing [] => Some (st, mkSC (sc_left x) (sc_proto x) Reading (sc_out x), [])
  | Writing b => Some (st, mkSC (sc_left x) (sc_proto x) (Writing []) (sc_out x ++ b), [])
  | _ => None
  end.
Definition turn {H} (h : handler H) (v : server_state H) (i : nat) : server_state H :=
  if v_down v then v else
  match sc_phase (v_conns v i) with
  | Offered => if v_listening v then mkV (v_handler v) (set_conn (v_conns v) i (mkSC (sc_left (v_conns v i)) (sc_proto (v_conns v i)) Reading (sc_out (v_conns v i)))) (v_log v) true false else v
  | _ => match next h (v_handler v) (v_conns v i) with
         | Some (st', x', new) => mkV st' (set_conn (v_conns v) i x') (v_log v ++ map (pair i) new) (v_listening v) (crashed x')
         | None => v
         end
  end.
Lemma next_moves : forall H (h : handler H) st x st' x' new, next h st x = Some (st', x', new) -> move h st x st' x' new.
Proof.
  intros H h st [s p ph out] st' x' new E. unfold next in E. cbn [sc_phase sc_left sc_proto sc_out] in E. destruct ph as [| |q|q [res|e|]|[|b bs]|ft|]; try discriminate E.
  - destruct (read_request p s) as [[[q|e|] s'] p'] eqn:R; try discriminate E; injection E as <- <- <-; constructor; exact R.
  - injection E as <- <- <-. constructor.
  - destruct p as [p|]; [|discriminate E]. destruct (write_response p q res) as [b|e|] eqn:Wr; try discriminate E. injection E as <- <- <-. constructor. exact Wr.
  - injection E as <- <- <-. constructor.
  - injection E as <- <- <-. pose proof (M_write h st s p out (b :: bs) []) as M. rewrite app_nil_r in M. exact M.
Qed.
Lemma turn_steps : forall H (h : handler H) v0 v i, ssteps h anyone v0 v -> ssteps h anyone v0 (turn h v i).
Proof.
  intros H h v0 v i S. unfold turn. destruct (v_down v) eqn:D; [exact S|].
  assert (N : ssteps h anyone v0 match next h (v_handler v) (v_conns v i) with
    | Some (st', x', new) => mkV st' (set_conn (v_conns v) i x') (v_log v ++ map (pair i) new) (v_listening v) (crashed x') | None => v end).
  { destruct (next h (v_handler v) (v_conns v i)) as [[[st' x'] new]|] eqn:E; [|exact S]. eapply v_step; [exact S|exact Logic.I|]. apply V_move; [exact D|]. apply next_moves. exact E. }
  destruct (sc_phase (v_conns v i)) eqn:Ph; try exact N. destruct (v_listening v) eqn:Li; [|exact S]. eapply v_step; [exact S|exact Logic.I|]. apply V_accept; [exact D|exact Li|].
  destruct (v_conns v i) as [s p ph out]. cbn in *. subst ph. reflexivity.
Qed.
Lemma turns_step : forall H (h : handler H) is v0 v, ssteps h anyone v0 v -> ssteps h anyone v0 (fold_left (turn h) is v).
Proof. intros H h. induction is as [|i is IH]; intros v0 v S; [exact S|]. apply IH. apply turn_steps. exact S. Qed.

Definition c91_calls (pr : proto) (i : nat) : list op :=
  match i with
  | 0%nat => [OSet (c90_item (B "a") (B "41") 7 0); OGet (B "a")]
  | 1%nat => [OIncr (B "a") 1 0; OGet (B "b")]
  | _ => []
  end.
Definition c91_msgs (pr : proto) (i : nat) : list (op * bytes) :=
  map (fun o => (o, match fst (cl_req (client_of pr (B "s")) reset_header o) with Ok b => b | _ => [] end)) (c91_calls pr i).
(** Client 1's increment is performed between client 0's two calls; client 0 reads the incremented number. *)
Definition c91_schedule : list nat := [0; 1; 0; 1; 0; 1; 0; 0; 0; 1; 0; 0; 0; 0; 1; 0; 1]%nat.
Definition c91_end (pr : proto) := fold_left (turn (clocked pr)) c91_schedule (listening (c90_cache, [1; 2; 3]) (fun i => flat_map snd (c91_msgs pr i))).
Example C91_met : forall pr, wf pr c90_cache /\ short_version c90_cache /\ Forall (fun d => 0 <= d) [1; 2; 3]
  /\ (forall i, Forall (fun m => good_call pr (fst m) /\ exists hdr, fst (cl_req (client_of pr (B "s")) hdr (fst m)) = Ok (snd m)) (c91_msgs pr i))
  /\ ssteps (clocked pr) anyone (listening (c90_cache, [1; 2; 3]) (fun i => flat_map snd (c91_msgs pr i))) (c91_end pr)
  /\ map fst (v_log (c91_end pr)) = [0; 1; 0]%nat
  /\ sc_phase (v_conns (c91_end pr) 0) = Reading /\ sc_phase (v_conns (c91_end pr) 1) = Reading
  /\ all_accepted pr c90_cache (timeline [1; 2; 3] [OSet (c90_item (B "a") (B "41") 7 0); OIncr (B "a") 1 0; OGet (B "a")])
  /\ exists it, fst (client_reads (client_of pr (B "s")) (c91_calls pr 0) (sc_out (v_conns (c91_end pr) 0))) = [Ok RUnit; Ok (RItem it)] /\ it_value it = B "42".
Proof.
  intro pr. destruct (C90_met pr) as (W & Sv & _). split; [exact W|]. split; [exact Sv|]. split; [repeat constructor; discriminate|]. split; [|split; [|split; [|split; [|split; [|split]]]]].
  - intro i. assert (L : Forall (legal_event pr) (map Do (c91_calls pr i))) by (destruct i as [|[|i]]; (apply PClient.legal_events_ok; destruct pr; vm_compute; reflexivity)).
    assert (P : Forall (fun o => supported pr o /\ one_request pr o /\ exists b, fst (cl_req (client_of pr (B "s")) reset_header o) = Ok b) (c91_calls pr i)).
    { destruct i as [|[|i]]; repeat constructor; destruct pr; vm_compute; try (eexists; reflexivity); repeat split; reflexivity. }
    unfold c91_msgs. apply Forall_map. rewrite Forall_forall in L, P |- *. intros o Io. destruct (P o Io) as (S & O & b & E). cbn [fst snd]. split; [exact (conj (L (Do o) (in_map Do _ _ Io)) (conj S O))|]. exists reset_header. rewrite E. reflexivity.
  - apply turns_step. apply v_refl.
  - destruct pr; vm_compute; reflexivity.
  - destruct pr; vm_compute; reflexivity.
  - destruct pr; vm_compute; reflexivity.
  - destruct pr; vm_compute; repeat split; try discriminate; auto.
  - destruct pr; vm_compute; eexists; split; reflexivity.
Qed.
Print Assumptions C91_clients_at_once.

(** GetMulti with the binary client is several requests: another client's two calls come between them. Items a and b hold
    1; client 1 sets a to 2 and then b to 2; client 0 reads a = 1 and b = 2, which no order of the three calls explains. *)
Definition c91_set (k v : bytes) : op := OSet (c90_item k v 0 0).
Definition c91_both : cache := fst (spec_run PBinary [] c90_cache [Do (c91_set (B "a") (B "1")); Do (c91_set (B "b") (B "1"))]).
Definition c91_get_both : op := OGetMulti [B "a"; B "b"].
Definition c91_torn_msgs (i : nat) : list (op * bytes) :=
  map (fun o => (o, match fst (cl_req (client_of PBinary (B "s")) reset_header o) with Ok b => b | _ => [] end))
      (match i with 0%nat => [c91_get_both] | 1%nat => [c91_set (B "a") (B "2"); c91_set (B "b") (B "2")] | _ => [] end).
Definition c91_torn_end := fold_left (turn (clocked PBinary)) (repeat 0%nat 6 ++ repeat 1%nat 11 ++ repeat 0%nat 15)
  (listening (c91_both, []) (fun i => flat_map snd (c91_torn_msgs i))).
Definition values (r : outcome result) : option (list (bytes * bytes)) :=
  match r with Ok (RItems l) => Some (map (fun i => (it_key i, it_value i)) l) | _ => None end.
Definition c91_serial (os : list op) : option (list (bytes * bytes)) :=
  match find (fun p => match fst p with OGetMulti _ => true | _ => false end) (combine os (snd (spec_run PBinary [] c91_both (map Do os)))) with
  | Some (_, SOk (RItems l)) => Some (map (fun i => (it_key i, it_value i)) l)
  | _ => None
  end.
Definition c91_orders : list (list op) :=
  let a := c91_set (B "a") (B "2") in let b := c91_set (B "b") (B "2") in
  [[c91_get_both; a; b]; [a; c91_get_both; b]; [a; b; c91_get_both]].
Theorem C91_binary_getmulti_is_atomic_refuted :
  ssteps (clocked PBinary) anyone (listening (c91_both, []) (fun i => flat_map snd (c91_torn_msgs i))) c91_torn_end
  /\ let read := values (fst (cl_resp (client_of PBinary (B "s")) c91_get_both (sc_out (v_conns c91_torn_end 0)))) in
     read = Some [(B "a", B "1"); (B "b", B "2")] /\ ~ In read (map c91_serial c91_orders).
Proof.
  split; [apply turns_step; apply v_refl|]. cbv zeta.
  assert (E : values (fst (cl_resp (client_of PBinary (B "s")) c91_get_both (sc_out (v_conns c91_torn_end 0)))) = Some [(B "a", B "1"); (B "b", B "2")]) by (vm_compute; reflexivity).
  split; [exact E|]. rewrite E.
  assert (O : map c91_serial c91_orders = [Some [(B "a", B "1"); (B "b", B "1")]; Some [(B "a", B "2"); (B "b", B "1")]; Some [(B "a", B "2"); (B "b", B "2")]]) by (vm_compute; reflexivity).
  rewrite O. clear. intros [Q|[Q|[Q|[]]]]; discriminate Q.
Qed.
Print Assumptions C91_binary_getmulti_is_atomic_refuted.
