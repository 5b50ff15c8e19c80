(** * Property C89: what a Handler can tell the client of this repository (server/server.go:507-735). *)
From Verif Require PClient.
From Verif Require Import GoBytes GoNum GoIO GoScan Item ClientText ClientMeta ClientBinary Cache Daemon Spec Call Guard
  ServerTypes ServerParse ServerWrite Serve ServerSpec PLib PScan PDaemon PCache PText PMeta PReader PBinary PServer PServe PReply PropServer PropServerReply.
Local Open Scope Z_scope.

(** ** Specification *)
(** The refusals memcached's protocol has: the item is not there (get, replace, delete, touch, counters), or it
    is (add). *)
Definition refusal_of (o : op) : option err :=
  match o with
  | OGet _ | OReplace _ | ODelete _ | OTouch _ _ | OIncr _ _ _ | ODecr _ _ _ => Some ENotFound
  | OAdd _ => Some EExists
  | _ => None
  end.
(** Some handler can make the call return that refusal. *)
Definition can_be_told (pr : proto) (o : op) (e : err) : Prop :=
  exists H (h : handler H) st name hd u, exchange pr name hd h st o = (Err e, u).
Definition C89_refusals_can_be_told : Prop := forall pr o e,
  legal pr o -> supported pr o -> refusal_of o = Some e -> can_be_told pr o e.

(** The calls no handler can refuse. *)
Definition irrefusable (pr : proto) (o : op) : bool :=
  match o with
  | OSet _ | OAdd _ | OReplace _ | ODelete _ | OTouch _ _ | OFlush => true
  | OGet _ | OIncr _ _ _ | ODecr _ _ _ => match pr with PBinary => true | _ => false end
  | _ => false
  end.
(** What the server writes for a call: nothing, or the answer to the handler's responses. *)
Definition written {H} (pr : proto) (name : bytes) (hd : req_header) (h : handler H) (st : H) (o : op) : bytes :=
  match fst (cl_req (client_of pr name) hd o) with
  | Ok rq => replies (snd (fst (serve_conn h st rq)))
  | _ => []
  end.

(** ** Proofs *)
Lemma exchange_cases : forall H (h : handler H) st pr name hd o w,
  legal pr o -> supported pr o -> intended pr o = [w] ->
  exists q, understood q = w /\ flavour pr q = true /\ tidy pr q = true
    /\ exchange pr name hd h st o = cl_resp (client_of pr name) o (written pr name hd h st o)
    /\ (written pr name hd h st o = [] \/ exists res, snd (h st q) = Ok res /\ write_response (proto_of pr) q res = Ok (written pr name hd h st o)).
Proof.
  intros H h st pr name hd o w L S W. destruct (request_ok pr name hd o L) as (rq & R). unfold exchange, written. rewrite R.
  destruct (call_serve H h st pr name hd o rq L S R) as (qs & U & F & ->). rewrite W in U.
  destruct qs as [|q [|? ?]]; try discriminate U. cbn in U. assert (Uq : understood q = w) by congruence.
  inversion F as [|? ? Fq _]; subst. apply andb_true_iff in Fq. destruct Fq as [Fq Tq]. exists q. split; [reflexivity|]. split; [exact Fq|]. split; [exact Tq|]. split; [reflexivity|].
  cbn [serve_list]. destruct (h st q) as [st' x] eqn:Hq. destruct x as [res| |]; [|left; reflexivity|left; reflexivity].
  destruct (write_response (proto_of pr) q res) as [out| |] eqn:Wr; [|left; reflexivity|left; reflexivity]. cbn [then_serve].
  destruct (serve_rest (proto_of pr) h st' []) as [[a b] c] eqn:Sr. cbn [fst snd].
  assert (Eb : b = []). { unfold serve_rest in Sr. cbn [length serve_as] in Sr. destruct (proto_of pr); cbn in Sr; congruence. }
  subst b. right. exists res. split; [reflexivity|]. unfold replies. cbn [app flat_map sd_reply]. rewrite app_nil_r. exact Wr.
Qed.

Lemma silence_is_an_error : forall pr name o, fst (cl_resp (client_of pr name) o []) = Err EIO.
Proof. intros [] name []; reflexivity. Qed.

Lemma ok_inj : forall A (a b : A), Ok a = Ok b -> a = b.
Proof. congruence. Qed.
Lemma read_reply : forall opc r rest, exists key extra,
  read_res_header (binary_response opc r ++ rest)
  = (Ok (mkResHeader (opcode_byte opc) key extra 0 0 (u32 (zlen (r_key r) + zlen (opt_bytes (r_flags r)) + zlen (r_value r))) 0 0),
     (opt_bytes (r_flags r) ++ r_key r ++ r_value r) ++ rest).
Proof.
  intros opc r rest. set (n := u32 (zlen (r_key r) + zlen (opt_bytes (r_flags r)) + zlen (r_value r))).
  set (body := opt_bytes (r_flags r) ++ r_key r ++ r_value r).
  set (hd := byte_of magic_response :: byte_of (opcode_byte opc) :: be 2 (u16 (zlen (r_key r)))
    ++ byte_of (u8 (zlen (opt_bytes (r_flags r)))) :: byte_of 0 :: be 2 0 ++ be 4 n ++ be 4 0 ++ be 8 0).
  assert (E : binary_response opc r = hd ++ body).
  { unfold binary_response, hd, body. fold n. cbn [app]. repeat (rewrite <- app_assoc; cbn [app]). reflexivity. }
  rewrite E, <- app_assoc. unfold read_res_header.
  assert (Rd : read_full 24 (hd ++ body ++ rest) = (Ok hd, body ++ rest)) by (apply read_full_eq; reflexivity).
  rewrite (bind_ok _ _ _ _ _ _ _ Rd). change (byte_at hd 0) with 129. change (negb (129 =? magic_response)) with false. cbv iota.
  eexists. eexists. unfold ret. f_equal. f_equal. 
  change (byte_at hd 5) with 0. change (unbe (sub hd 6 2)) with 0. change (sub hd 8 4) with (be 4 n). change (unbe (sub hd 12 4)) with 0. change (unbe (sub hd 16 8)) with 0.
  replace (byte_at hd 1) with (opcode_byte opc) by (destruct opc; reflexivity).
  rewrite unbe_be_small; [reflexivity|]. change (256 ^ Z.of_nat 4) with (2 ^ 32). unfold n, u32. apply Z.mod_pos_bound. lia.
Qed.
Lemma body_there : forall r rest, exists a b, make_read_full (u32 (zlen (r_key r) + zlen (opt_bytes (r_flags r)) + zlen (r_value r))) ((opt_bytes (r_flags r) ++ r_key r ++ r_value r) ++ rest) = (Ok a, b).
Proof.
  intros r rest. set (body := opt_bytes (r_flags r) ++ r_key r ++ r_value r). set (n := u32 _).
  assert (Hn : 0 <= n <= zlen body /\ n < 2 ^ 32).
  { assert (Ez : zlen body = zlen (r_key r) + zlen (opt_bytes (r_flags r)) + zlen (r_value r)) by (unfold body; rewrite !zlen_app; lia).
    rewrite Ez. unfold n, u32. pose proof (zlen_nonneg _ (r_key r)). pose proof (zlen_nonneg _ (opt_bytes (r_flags r))). pose proof (zlen_nonneg _ (r_value r)).
    pose proof (Z.mod_pos_bound (zlen (r_key r) + zlen (opt_bytes (r_flags r)) + zlen (r_value r)) (2 ^ 32) ltac:(lia)).
    pose proof (Z.mod_le (zlen (r_key r) + zlen (opt_bytes (r_flags r)) + zlen (r_value r)) (2 ^ 32) ltac:(lia) ltac:(lia)). lia. }
  exists (firstn (Z.to_nat n) body), (skipn (Z.to_nat n) body ++ rest).
  replace (body ++ rest) with (firstn (Z.to_nat n) body ++ (skipn (Z.to_nat n) body ++ rest)) by (rewrite app_assoc, firstn_skipn; reflexivity).
  apply make_read_full_app; [|unfold max_alloc; lia]. unfold zlen in *. rewrite firstn_length. lia.
Qed.

Lemma rmap_failed : forall A (f : A -> result) (m : reader A) s e, fst (rmap f m s) = Err e -> fst (m s) = Err e.
Proof. intros A f m s e. unfold rmap, bind, ret. destruct (m s) as [[x| |] s']; cbn; congruence. Qed.

(** No handler can refuse these calls: whatever it is and whatever it does, the call succeeds (or, binary get and
    counters, gives what it makes of the answer), or the server has written nothing at all and the client waits until its
    time-out or the end of the connection. ItemNotFound, ItemExists and the server's error messages cannot come back. *)
Theorem C89_no_refusal_can_be_told : forall H (h : handler H) st pr name hd o r u,
  irrefusable pr o = true -> legal pr o -> supported pr o -> exchange pr name hd h st o = (r, u) ->
  (acknowledged o = true -> r = Ok RUnit \/ (r = Err EIO /\ written pr name hd h st o = []))
  /\ (forall e, r = Err e -> e = EIO /\ written pr name hd h st o = []).
Proof.
  intros H h st pr name hd o r u I L S E.
  assert (W : exists w, intended pr o = [w]) by (destruct o; cbn in I |- *; try discriminate I; eauto). destruct W as [w W].
  destruct (exchange_cases H h st pr name hd o w L S W) as (q & Uq & Fq & Tq & Ex & Wr). rewrite E in Ex.
  assert (Er : r = fst (cl_resp (client_of pr name) o (written pr name hd h st o))) by (rewrite <- Ex; reflexivity).
  destruct Wr as [Wr|(res & _ & Wr)].
  { rewrite Wr, silence_is_an_error in Er. split; [intros _; right; auto|intros e Q; rewrite Er in Q; injection Q as <-; auto]. }
  set (out := written pr name hd h st o) in *. clearbody out. clear E Ex.
  assert (Oq : q_opcode q = w_op w) by (rewrite <- Uq; reflexivity).
  assert (Dn : r = Ok RUnit \/ out = [] -> (acknowledged o = true -> r = Ok RUnit \/ (r = Err EIO /\ out = [])) /\ (forall e, r = Err e -> e = EIO /\ out = [])).
  { intros [D|D]; [split; [auto|intros e Q; congruence]|]. rewrite D, silence_is_an_error in Er. split; [auto|]. intros e Q. rewrite Er in Q. injection Q as <-. auto. }
  destruct pr.
  - destruct o; try discriminate I; cbn [intended] in W; injection W as W; subst w; apply Dn; clear Dn; cbn [proto_of write_response] in Wr; unfold write_ascii_response in Wr; rewrite Oq in Wr;
      cbn [store_wish w_op delta_wish] in Wr; unfold flavour in Fq; rewrite Oq in Fq; cbn [store_wish w_op delta_wish] in Fq;
      unfold on_first in Wr; (destruct res as [|r0 res]; [discriminate Wr|]); (destruct (r_error r0); [injection Wr as <-; right; reflexivity|]); left; subst r.
    1,2,3: destruct (q_set q) as [so|]; [|discriminate Fq]; destruct (s_meta so); [discriminate Fq|]; injection Wr as <-; reflexivity.
    + destruct (q_del q) as [[]|]; try discriminate Fq. injection Wr as <-. reflexivity.
    + injection Wr as <-. reflexivity.
    + injection Wr as <-. reflexivity.
  - destruct o; try discriminate I; cbn [intended] in W; injection W as W; subst w; apply Dn; clear Dn; cbn [proto_of write_response] in Wr; unfold write_ascii_response in Wr; rewrite Oq in Wr;
      cbn [store_wish w_op delta_wish] in Wr; unfold flavour in Fq; rewrite Oq in Fq; cbn [store_wish w_op delta_wish] in Fq;
      unfold on_first in Wr; (destruct res as [|r0 res]; [discriminate Wr|]); (destruct (r_error r0); [injection Wr as <-; right; reflexivity|]); left; subst r.
    + destruct (q_set q) as [so|]; [|discriminate Fq]. destruct (s_meta so); [|discriminate Fq]. injection Wr as <-. reflexivity.
    + destruct (q_set q) as [so|]; [|discriminate Fq]. destruct (s_meta so); [discriminate Fq|]. injection Wr as <-. reflexivity.
    + destruct (q_set q) as [so|]; [|discriminate Fq]. destruct (s_meta so); [discriminate Fq|]. injection Wr as <-. reflexivity.
    + destruct (q_del q) as [[]|]; try discriminate Fq. injection Wr as <-. reflexivity.
    + destruct S.
    + injection Wr as <-. reflexivity.
  - cbn [proto_of write_response] in Wr. unfold write_binary_response in Wr. rewrite Oq in Wr.
    assert (St : forall opc r0, let s := binary_response opc r0 in
       runit (bin_store_resp (opcode_byte opc)) s = (Ok RUnit, opt_bytes (r_flags r0) ++ r_key r0 ++ r_value r0) /\ fst (runit (bin_body_resp (opcode_byte opc)) s) = Ok RUnit
       /\ fst (runit bin_touch_resp s) = Ok RUnit /\ (opc = OpcFlush -> fst (runit bin_flush_resp s) = Ok RUnit)).
    { intros opc r0 s. destruct (read_reply opc r0 []) as (kl & xl & Rd). rewrite !app_nil_r in Rd. fold s in Rd.
      assert (Oo : negb (opcode_byte opc =? opcode_byte opc) = false) by (rewrite Z.eqb_refl; reflexivity).
      split; [|split; [|split]].
      - unfold runit. apply (rmap_ok _ (fun _ : unit => RUnit) _ _ tt). unfold bin_store_resp. rewrite (bind_ok _ _ _ _ _ _ _ Rd). cbn [rs_opcode rs_status]. rewrite Oo. reflexivity.
      - destruct (body_there r0 []) as (a & b & Bt). rewrite app_nil_r in Bt.
        assert (X : bin_body_resp (opcode_byte opc) s = (Ok tt, b)).
        { unfold bin_body_resp. rewrite (bind_ok _ _ _ _ _ _ _ Rd). cbn [rs_opcode rs_status rs_total]. rewrite Oo. rewrite (bind_ok _ _ _ _ _ _ _ Bt). reflexivity. }
        unfold runit, rmap. rewrite (bind_ok _ _ _ _ _ _ _ X). reflexivity.
      - assert (X : bin_touch_resp s = (Ok tt, opt_bytes (r_flags r0) ++ r_key r0 ++ r_value r0)).
        { unfold bin_touch_resp. rewrite (bind_ok _ _ _ _ _ _ _ Rd). reflexivity. }
        unfold runit, rmap. rewrite (bind_ok _ _ _ _ _ _ _ X). reflexivity.
      - intros ->. assert (X : bin_flush_resp s = (Ok tt, opt_bytes (r_flags r0) ++ r_key r0 ++ r_value r0)).
        { unfold bin_flush_resp. rewrite (bind_ok _ _ _ _ _ _ _ Rd). reflexivity. }
        unfold runit, rmap. rewrite (bind_ok _ _ _ _ _ _ _ X). reflexivity. }
    cbn [client_of bin_client cl_resp] in Er.
    destruct o as [k| | | | | | | | | |]; try discriminate I; cbn [intended] in W; injection W as W; subst w; cbn [store_wish w_op delta_wish get_wish] in Wr.
    { (* get *)
      split; [discriminate|]. destruct res as [|r0 res]; [injection Wr as <-; intros e Q; rewrite Er in Q; cbn in Q; injection Q as <-; auto|].
      apply ok_inj in Wr. subst out. intros e Q. exfalso. rewrite Q in Er. symmetry in Er. cbn [bin_resp] in Er. apply rmap_failed in Er. cbn [flat_map] in Er.
      rewrite <- !app_assoc in Er. match type of Er with context [binary_response OpcGet r0 ++ ?t] => set (tl := t) in Er end.
      destruct (read_reply OpcGet r0 tl) as (kl & xl & Rd). destruct (body_there r0 tl) as (a & b & Bt). unfold bin_get_resp in Er. rewrite (bind_ok _ _ _ _ _ _ _ Rd) in Er. cbn [rs_total rs_status rs_extra_len rs_cas] in Er.
      rewrite (bind_ok _ _ _ _ _ _ _ Bt) in Er. change (negb (0 =? 0)) with false in Er. cbv iota in Er. unfold bind, go_sub, go_slice, ret, panic in Er.
      repeat match type of Er with context [if ?c then _ else _] => destruct c end; cbn in Er; discriminate Er. }
    all: unfold on_first in Wr; (destruct res as [|r0 res]; [discriminate Wr|]); (destruct (r_error r0); [injection Wr as <-; apply Dn; right; reflexivity|]); apply ok_inj in Wr; subst out.
    + apply Dn. left. rewrite Er. cbn [bin_resp]. change op_set with (opcode_byte OpcSet). rewrite (proj1 (St _ _)). reflexivity.
    + apply Dn. left. rewrite Er. cbn [bin_resp]. change op_add with (opcode_byte OpcAdd). rewrite (proj1 (St _ _)). reflexivity.
    + apply Dn. left. rewrite Er. cbn [bin_resp]. exact (proj1 (proj2 (St OpcReplace r0))).
    + apply Dn. left. rewrite Er. cbn [bin_resp]. exact (proj1 (proj2 (St OpcDelete r0))).
    + split; [discriminate|]. intros e Q. exfalso. rewrite Q in Er. symmetry in Er. cbn [bin_resp] in Er. apply rmap_failed in Er. destruct (read_reply OpcIncrement r0 []) as (kl & xl & Rd). rewrite !app_nil_r in Rd.
      destruct (body_there r0 []) as (a & b & Bt). rewrite app_nil_r in Bt. unfold bin_incr_resp in Er. rewrite (bind_ok _ _ _ _ _ _ _ Rd) in Er. cbn [rs_opcode rs_total rs_status] in Er.
      change (negb (opcode_byte OpcIncrement =? op_increment)) with false in Er. change (negb (0 =? 0)) with false in Er. cbv iota in Er.
      destruct (0 <? u32 _); [rewrite (bind_ok _ _ _ _ _ _ _ Bt) in Er|unfold bind, ret in Er; cbn in Er; discriminate Er]. destruct (zlen a <? 8); cbn in Er; discriminate Er.
    + split; [discriminate|]. intros e Q. exfalso. rewrite Q in Er. symmetry in Er. cbn [bin_resp] in Er. apply rmap_failed in Er. destruct (read_reply OpcDecrement r0 []) as (kl & xl & Rd). rewrite !app_nil_r in Rd.
      destruct (body_there r0 []) as (a & b & Bt). rewrite app_nil_r in Bt. unfold bin_incr_resp in Er. rewrite (bind_ok _ _ _ _ _ _ _ Rd) in Er. cbn [rs_opcode rs_total rs_status] in Er.
      change (negb (opcode_byte OpcDecrement =? op_decrement)) with false in Er. change (negb (0 =? 0)) with false in Er. cbv iota in Er.
      destruct (0 <? u32 _); [rewrite (bind_ok _ _ _ _ _ _ _ Bt) in Er|unfold bind, ret in Er; cbn in Er; discriminate Er]. destruct (zlen a <? 8); cbn in Er; discriminate Er.
    + apply Dn. left. rewrite Er. cbn [bin_resp]. exact (proj1 (proj2 (proj2 (St OpcTouch r0)))).
    + apply Dn. left. rewrite Er. cbn [bin_resp]. exact (proj2 (proj2 (proj2 (St OpcFlush r0))) eq_refl).
Qed.
Print Assumptions C89_no_refusal_can_be_told.

(** So the property fails for every one of these calls and every protocol. *)
Theorem C89_refusals_can_be_told_exactly : forall pr o e, legal pr o -> supported pr o -> refusal_of o = Some e ->
  (can_be_told pr o e <-> irrefusable pr o = false).
Proof.
  intros pr o e L S Re. split.
  - intros (H & h & st & name & hd & u & E). destruct (irrefusable pr o) eqn:I; [exfalso|reflexivity].
    destruct (C89_no_refusal_can_be_told H h st pr name hd o _ u I L S E) as [_ X]. destruct (X e eq_refl) as [-> _]. destruct o; discriminate Re.
  - intro I. destruct o as [k|ks|i|i|i|k|k delta exp|k delta exp|k exp| |]; try discriminate Re; cbn in I; try discriminate I; injection Re as <-.
    + (* get: no response *)
      assert (Np : pr <> PBinary) by (intros ->; discriminate I).
      exists unit, (fun _ _ => (tt, Ok [])), tt, [], reset_header, []. apply C38_miss; [exact Np|exact L|]. intros q _ _. reflexivity.
    + (* a counter: the words of the protocol as the value *)
      assert (Np : pr <> PBinary) by (intros ->; discriminate I).
      exists unit, (answering (mkRes [] None None (B "NOT_FOUND") 0 0)), tt, [], reset_header, [].
      rewrite (exchange_one unit _ tt pr [] reset_header (OIncr k delta exp) _ [mkRes [] None None (B "NOT_FOUND") 0 0] (B "NOT_FOUND" ++ crlf) L S eq_refl).
      * destruct pr; [reflexivity|reflexivity|congruence].
      * intros q _ _. reflexivity.
      * intros q Uq _. assert (Oq : q_opcode q = OpcIncrement) by (change OpcIncrement with (w_op (delta_wish pr OpcIncrement k delta exp)); rewrite <- Uq; reflexivity).
        destruct pr; [| |congruence]; cbn [proto_of write_response]; unfold write_ascii_response; rewrite Oq; reflexivity.
    + assert (Np : pr <> PBinary) by (intros ->; discriminate I).
      exists unit, (answering (mkRes [] None None (B "NOT_FOUND") 0 0)), tt, [], reset_header, [].
      rewrite (exchange_one unit _ tt pr [] reset_header (ODecr k delta exp) _ [mkRes [] None None (B "NOT_FOUND") 0 0] (B "NOT_FOUND" ++ crlf) L S eq_refl).
      * destruct pr; [reflexivity|reflexivity|congruence].
      * intros q _ _. reflexivity.
      * intros q Uq _. assert (Oq : q_opcode q = OpcDecrement) by (change OpcDecrement with (w_op (delta_wish pr OpcDecrement k delta exp)); rewrite <- Uq; reflexivity).
        destruct pr; [| |congruence]; cbn [proto_of write_response]; unfold write_ascii_response; rewrite Oq; reflexivity.
Qed.
Print Assumptions C89_refusals_can_be_told_exactly.

Theorem C89_refusals_can_be_told_refuted : ~ C89_refusals_can_be_told.
Proof.
  intro X. assert (L : forall pr, legal pr (ODelete (B "k"))) by (intros []; apply PClient.legal_keyb_ok; reflexivity).
  pose proof (X PText (ODelete (B "k")) ENotFound (L PText) Logic.I eq_refl) as C.
  apply (C89_refusals_can_be_told_exactly PText (ODelete (B "k")) ENotFound (L PText) Logic.I eq_refl) in C. discriminate C.
Qed.
Print Assumptions C89_refusals_can_be_told_refuted.

(** Non-vacuity: the handler that refuses everything in the documented way, Response.Error. Text Delete, binary Add and
    binary Get wait for a reply that never comes; the same handler without errors makes them succeed. *)
Definition refuses : handler unit := fun _ _ => (tt, Ok [mkRes [] (Some ENotFound) None [] 0 0]).
Example C89_met :
  irrefusable PText (ODelete (B "k")) = true /\ legal PText (ODelete (B "k")) /\ supported PText (ODelete (B "k"))
  /\ exchange PText [] reset_header refuses tt (ODelete (B "k")) = (Err EIO, []) /\ written PText [] reset_header refuses tt (ODelete (B "k")) = []
  /\ exchange PBinary [] reset_header refuses tt (OAdd (mkItem (B "k") (B "v") None 0 0 [])) = (Err EIO, [])
  /\ exchange PText [] reset_header (answering empty_response) tt (ODelete (B "k")) = (Ok RUnit, [])
  /\ irrefusable PText (OIncr (B "k") 1 0) = false /\ refusal_of (OIncr (B "k") 1 0) = Some ENotFound.
Proof.
  split; [reflexivity|]. split; [apply PClient.legal_keyb_ok; reflexivity|]. split; [exact Logic.I|]. split; [vm_compute; reflexivity|]. split; [vm_compute; reflexivity|].
  split; [vm_compute; reflexivity|]. split; [vm_compute; reflexivity|]. split; reflexivity.
Qed.
