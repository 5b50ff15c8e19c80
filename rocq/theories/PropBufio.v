(** * C28: how the network cuts the byte stream does not matter. *)
From Verif Require Import GoBytes GoNum GoIO GoBufio Item ClientText ClientMeta ClientBinary ServerTypes ServerParse ServerWrite Serve ReadProg.
From Verif Require Import Cache Daemon Spec Call Guard Transport PLib PReader PBufio PReadProg.
Local Open Scope Z_scope.

(** A connection about to deliver these segments and then fail, and the bytes not yet returned to
    the program by a bufio.Reader on it. *)
Definition conn_of (segs : list bytes) : breader := new_breader (map Seg segs).

Lemma before_segs : forall segs, before (map Seg segs) = concat segs.
Proof. induction segs as [|b segs IH]; [reflexivity|]. cbn [map before concat]. rewrite IH. reflexivity. Qed.
Lemma later_segs : forall segs, later (map Seg segs) = None.
Proof. induction segs as [|b segs IH]; [reflexivity|]. exact IH. Qed.
Lemma in_flight_before : forall a, later a = None -> in_flight a = before a.
Proof.
  induction a as [|[b|] a IH]; intro H; [reflexivity| |].
  - cbn [in_flight before]. rewrite IH by exact H. reflexivity.
  - discriminate H.
Qed.
Lemma unread_avail : forall b, later (br_net b) = None -> unread b = avail b.
Proof. intros b H. unfold unread, avail. rewrite in_flight_before by exact H. reflexivity. Qed.
Lemma avail_conn : forall segs, avail (conn_of segs) = concat segs.
Proof. intro segs. unfold avail. cbn [conn_of new_breader br_buf br_net app]. apply before_segs. Qed.
Lemma ready_new : forall a, ready (new_breader a).
Proof. intro a. split; [reflexivity|cbn; unfold buf_size; lia]. Qed.

Lemma reply_prog_is : forall pr name fuel o s, (length s < fuel)%nat -> run_stream (reply_prog pr name fuel o) s = cl_resp (client_of pr name) o s.
Proof. intros [] name fuel o s L; [apply text_prog|apply meta_prog|apply bin_prog]; exact L. Qed.

(** Every read the code performs on a connection (ReadSlice, ReadBytes, ReadFull) returns what it
    returns on the undivided bytes, and leaves unread what it leaves there. *)
Theorem C28_every_read : forall r segs,
  fst (prim_bufio r (conn_of segs)) = fst (prim_stream r (concat segs))
  /\ unread (snd (prim_bufio r (conn_of segs))) = snd (prim_stream r (concat segs)).
Proof.
  intros r segs. destruct (prim_spec r (conn_of segs) (ready_new _)) as (E & _ & Q). rewrite avail_conn in *. change (br_net (conn_of segs)) with (map Seg segs) in Q. rewrite later_segs in *. split; [exact E|]. destruct Q as [[A L]|(_ & A & L)].
  - rewrite unread_avail by exact L. exact A.
  - rewrite L, A. reflexivity.
Qed.
Print Assumptions C28_every_read.

Lemma prog_on_segs : forall A (p : rprog A) segs,
  fst (run_bufio p (conn_of segs)) = fst (run_stream p (concat segs)) /\ unread (snd (run_bufio p (conn_of segs))) = snd (run_stream p (concat segs)).
Proof.
  intros A p segs. destruct (run_bufio_spec A p (conn_of segs) (ready_new _)) as (E & _ & Q). rewrite avail_conn in *. change (br_net (conn_of segs)) with (map Seg segs) in Q. rewrite later_segs in *. split; [exact E|]. destruct Q as [[C L]|(_ & C & L)].
  - rewrite unread_avail by exact L. exact C.
  - rewrite L, C. reflexivity.
Qed.

(** Every call of every client: the result, and the bytes left for the next call, depend on the
    reply's bytes and not on how they were cut. *)
Theorem C28_every_reply : forall pr name o fuel segs, (length (concat segs) < fuel)%nat ->
  let x := run_bufio (reply_prog pr name fuel o) (conn_of segs) in
  fst x = fst (cl_resp (client_of pr name) o (concat segs)) /\ unread (snd x) = snd (cl_resp (client_of pr name) o (concat segs)).
Proof. intros pr name o fuel segs L x. rewrite <- (reply_prog_is pr name fuel o _ L). apply prog_on_segs. Qed.
Print Assumptions C28_every_reply.

(** ** The server *)
Lemma serve_on_bufio : forall H (h : handler H) fuel p st b, ready b -> serve_bufio h fuel p st b = serve h fuel p st (avail b).
Proof.
  intros H h. induction fuel as [|f IH]; intros p st b R; [reflexivity|]. cbn [serve_bufio serve].
  assert (Q : forall (q : rprog srequest) m b, ready b -> same q m -> fst (run_bufio q b) = fst (m (avail b)) /\ ready (snd (run_bufio q b))
              /\ (forall x, fst (m (avail b)) = Ok x -> avail (snd (run_bufio q b)) = snd (m (avail b)))).
  { clear b R. intros q m b R S. rewrite <- (S (avail b)). destruct (run_bufio_spec _ q b R) as (E & R' & Q). split; [exact E|]. split; [exact R'|].
    intros x Ex. destruct Q as [[Av _]|(Ex' & _)]; [exact Av|congruence]. }
  assert (P : forall o o' s' b' p', fst o = fst o' -> s' = snd o' -> b' = snd o -> ready b' -> (forall x : srequest, fst o' = Ok x -> avail b' = s') ->
    match (o, p') with
    | ((Err e, _), _) => (st, [], Closed e)
    | ((Panic, _), _) => (st, [], Crashed)
    | ((Ok req, b'), p') =>
        match h st req with
        | (st', Err e) => (st', [mkServed req []], Closed e)
        | (st', Panic) => (st', [mkServed req []], Crashed)
        | (st', Ok res) =>
            match p' with
            | None => (st', [mkServed req []], OutOfFuel)
            | Some pr =>
                match write_response pr req res with
                | Err e => (st', [mkServed req []], Closed e)
                | Panic => (st', [mkServed req []], Crashed)
                | Ok out => let '(st'', l, ft) := serve_bufio h f p' st' b' in (st'', mkServed req out :: l, ft)
                end
            end
        end
    end = match (o', p') with
    | ((Err e, _), _) => (st, [], Closed e)
    | ((Panic, _), _) => (st, [], Crashed)
    | ((Ok req, s'), p') =>
        match h st req with
        | (st', Err e) => (st', [mkServed req []], Closed e)
        | (st', Panic) => (st', [mkServed req []], Crashed)
        | (st', Ok res) =>
            match p' with
            | None => (st', [mkServed req []], OutOfFuel)
            | Some pr =>
                match write_response pr req res with
                | Err e => (st', [mkServed req []], Closed e)
                | Panic => (st', [mkServed req []], Crashed)
                | Ok out => let '(st'', l, ft) := serve h f p' st' s' in (st'', mkServed req out :: l, ft)
                end
            end
        end
    end).
  { clear b R Q. intros [o b0] [o' s0] s' b' p' E -> -> R A. cbn [fst snd] in *. subst o'. destruct o as [req|e|]; try reflexivity.
    destruct (h st req) as [st' [res|e|]]; try reflexivity. destruct p' as [pr|]; [|reflexivity]. destruct (write_response pr req res) as [out|e|]; try reflexivity.
    rewrite (IH (Some pr) st' b0 R), (A req eq_refl). reflexivity. }
  unfold bufio_request, read_request. destruct p as [[|]|].
  - destruct (Q _ _ b R same_ascii_request) as (E & R' & A). exact (P _ _ _ _ (Some ProtoAscii) E eq_refl eq_refl R' A).
  - destruct (Q _ _ b R same_binary_request) as (E & R' & A). exact (P _ _ _ _ (Some ProtoBinary) E eq_refl eq_refl R' A).
  - pose proof (br_peek_spec b R) as K. destruct (avail b) as [|c s] eqn:Av.
    + rewrite K. reflexivity.
    + destruct K as (b' & -> & R' & Av' & _). rewrite <- Av'. destruct (code c =? magic_request).
      * destruct (Q _ _ b' R' same_binary_request) as (E & R2 & A). exact (P _ _ _ _ (Some ProtoBinary) E eq_refl eq_refl R2 A).
      * destruct (Q _ _ b' R' same_ascii_request) as (E & R2 & A). exact (P _ _ _ _ (Some ProtoAscii) E eq_refl eq_refl R2 A).
Qed.
(** A whole server connection: every handler sees the same requests, writes the same replies and the
    connection ends in the same way. *)
Theorem C28_every_server_connection : forall H (h : handler H) st segs,
  serve_bufio h (S (length (concat segs))) None st (conn_of segs) = serve_conn h st (concat segs).
Proof.
  intros H h st segs. rewrite serve_on_bufio by apply ready_new. unfold avail. cbn [conn_of new_breader br_buf br_net app]. rewrite before_segs. reflexivity.
Qed.
Print Assumptions C28_every_server_connection.

(** ** Histories of calls over one connection *)

(** [call] and [run] of Call.v with a bufio.Reader in the client, fed with segments; [cut n] cuts the
    reply to the n-th call. *)
Record nlink := mkNlink { n_cache : cache; n_pending : bytes; n_reader : breader; n_header : req_header }.
Definition call_net (pr : proto) (name : bytes) (cut : bytes -> list bytes) (l : nlink) (o : op) : nlink * outcome result :=
  let rqh := cl_req (client_of pr name) (n_header l) o in
  match fst rqh with
  | Ok rq =>
      let '(c', reply, pending') := daemon (cl_wire (client_of pr name)) (n_cache l) (n_pending l ++ rq) in
      let b := mkBR (br_buf (n_reader l)) (br_err (n_reader l)) (br_net (n_reader l) ++ map Seg (cut reply)) in
      let ru := run_bufio (reply_prog pr name (S (length (unread b))) o) b in
      (mkNlink c' pending' (snd ru) (snd rqh), fst ru)
  | Err e => (mkNlink (n_cache l) (n_pending l) (n_reader l) (snd rqh), Err e)
  | Panic => (mkNlink (n_cache l) (n_pending l) (n_reader l) (snd rqh), Panic)
  end.
Fixpoint run_net (pr : proto) (name : bytes) (cut : nat -> bytes -> list bytes) (n : nat) (l : nlink) (evs : list event) : nlink * list (outcome result) :=
  match evs with
  | [] => (l, [])
  | Wait d :: evs' => run_net pr name cut n (mkNlink (tick (n_cache l) d) (n_pending l) (n_reader l) (n_header l)) evs'
  | Do o :: evs' =>
      let lr := call_net pr name (cut n) l o in
      let lrs := run_net pr name cut (S n) (fst lr) evs' in (fst lrs, snd lr :: snd lrs)
  end.
Definition seen_as (l : nlink) : link := mkLink (n_cache l) (n_pending l) (unread (n_reader l)) (n_header l).

Lemma in_flight_app : forall a c, in_flight (a ++ c) = in_flight a ++ in_flight c.
Proof. induction a as [|[b|] a IH]; intro c; [reflexivity| |exact (IH c)]. cbn [app in_flight]. rewrite IH, app_assoc. reflexivity. Qed.
Lemma in_flight_segs : forall segs, in_flight (map Seg segs) = concat segs.
Proof. induction segs as [|b segs IH]; [reflexivity|]. cbn [map in_flight concat]. rewrite IH. reflexivity. Qed.
Lemma later_app_segs : forall a segs, later a = None -> later (a ++ map Seg segs) = None.
Proof. induction a as [|[b|] a IH]; intros segs H; [apply later_segs|exact (IH segs H)|discriminate]. Qed.

Lemma call_net_is_call : forall pr name cut l o, (forall b, concat (cut b) = b) -> ready (n_reader l) -> later (br_net (n_reader l)) = None ->
  call (client_of pr name) (seen_as l) o = (seen_as (fst (call_net pr name cut l o)), snd (call_net pr name cut l o))
  /\ ready (n_reader (fst (call_net pr name cut l o))) /\ later (br_net (n_reader (fst (call_net pr name cut l o)))) = None.
Proof.
  intros pr name cut l o Hc R L. unfold call, call_net. cbn [seen_as l_header l_cache l_pending l_unread].
  destruct (cl_req (client_of pr name) (n_header l) o) as [[rq|e|] hd]; cbn [fst snd]; [|split; [reflexivity|split; assumption]|split; [reflexivity|split; assumption]].
  destruct (daemon _ _ _) as [[c' reply] pending']. set (b := mkBR _ _ _). cbn [fst snd n_reader].
  assert (Lb : later (br_net b) = None) by (apply later_app_segs; exact L).
  assert (Rb : ready b) by exact R.
  assert (Ub : unread b = unread (n_reader l) ++ reply) by (unfold unread, b; cbn [br_buf br_net]; rewrite in_flight_app, in_flight_segs, Hc, app_assoc; reflexivity).
  destruct (run_bufio_spec _ (reply_prog pr name (S (length (unread b))) o) b Rb) as (E & R' & Q). rewrite <- (unread_avail b Lb) in E, Q.
  rewrite (reply_prog_is pr name (S (length (unread b))) o (unread b) (le_n _)) in E, Q. rewrite Lb in Q. rewrite Ub in E, Q, R' |- *.
  assert (L' : later (br_net (snd (run_bufio (reply_prog pr name (S (length (unread (n_reader l) ++ reply))) o) b))) = None).
  { destruct Q as [[_ Q]|(_ & _ & Q)]; [exact Q|]. rewrite Q. reflexivity. }
  split; [|split; [exact R'|exact L']]. rewrite E. f_equal. unfold seen_as. cbn [n_cache n_pending n_reader n_header]. f_equal.
  destruct Q as [[Q _]|(_ & Q & Q')]; [rewrite (unread_avail _ L'); symmetry; exact Q|]. rewrite Q, Q'. reflexivity.
Qed.

(** A history of calls on one connection, whatever the cuts: the results, the state of the cache and
    the bytes left over are those of the calls on undivided replies (Call.v, the model in which the
    client properties are stated). *)
Theorem C28_every_history : forall pr name cut evs n l, (forall n b, concat (cut n b) = b) -> ready (n_reader l) -> later (br_net (n_reader l)) = None ->
  run (client_of pr name) (seen_as l) evs = (seen_as (fst (run_net pr name cut n l evs)), snd (run_net pr name cut n l evs)).
Proof.
  intros pr name cut evs. induction evs as [|[o|d] evs IH]; intros n l Hc R L; [reflexivity| |].
  - cbn [run run_net]. destruct (call_net_is_call pr name (cut n) l o (Hc n) R L) as (E & R' & L'). rewrite E. cbn [fst snd].
    rewrite (IH (S n) _ Hc R' L'). reflexivity.
  - cbn [run run_net]. exact (IH n (mkNlink (tick (n_cache l) d) (n_pending l) (n_reader l) (n_header l)) Hc R L).
Qed.
Print Assumptions C28_every_history.

(** In particular two ways of cutting give the same results. *)
Theorem C28_cuts_do_not_matter : forall pr name cut cut' evs c h, (forall n b, concat (cut n b) = b) -> (forall n b, concat (cut' n b) = b) ->
  let start := mkNlink c [] (conn_of []) h in
  snd (run_net pr name cut 0 start evs) = snd (run_net pr name cut' 0 start evs)
  /\ n_cache (fst (run_net pr name cut 0 start evs)) = n_cache (fst (run_net pr name cut' 0 start evs)).
Proof.
  intros pr name cut cut' evs c h Hc Hc' start.
  pose proof (C28_every_history pr name cut evs 0 start Hc (ready_new _) eq_refl) as E.
  pose proof (C28_every_history pr name cut' evs 0 start Hc' (ready_new _) eq_refl) as E'. rewrite E in E'. injection E' as E1 _ _ _ E2. auto.
Qed.
Print Assumptions C28_cuts_do_not_matter.

(** Bytes one at a time. *)
Definition one_by_one (_ : nat) (b : bytes) : list bytes := map (fun c => [c]) b.
Example C28_met : (forall n b, concat (one_by_one n b) = b)
  /\ run_bufio (reply_prog PText (B "s") 100 (OGet (B "k"))) (conn_of [B "VAL"; B "UE k 0 2 7" ++ [CR]; [LF; "a"%char]; B "b" ++ crlf ++ B "E"; B "ND" ++ crlf ++ B "x"])
     = (Ok (RItem (mkItem (B "k") (B "ab") (Some (be 4 0)) 0 7 (B "s"))), mkBR (B "x") false []).
Proof. split; [intros n b; induction b as [|c b IH]; [reflexivity|cbn; rewrite <- IH at 2; reflexivity]|]. vm_compute. reflexivity. Qed.
