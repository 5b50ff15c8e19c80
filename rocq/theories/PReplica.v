(** * ReplicaPool: proofs. *)
From Verif Require Import GoBytes GoNum GoIO Item ClientText ClientMeta Cache Spec Daemon Intent Hash Ring RingSpec Pool PoolSpec Call Guard Replica ReplicaSpec
  PLib PDaemon PCache PText PMeta PClient PRing PPool.
Local Open Scope Z_scope.

(** ** One call on one meta server *)
Definition chg (k : bytes) (c c' : cache) : Prop :=
  wf PMeta c' /\ c_cfg c' = c_cfg c /\ c_now c' = c_now c /\ c_cas c <= c_cas c' <= c_cas c + 1
  /\ forall j, j <> k -> c_map c' j = c_map c j.
Definition step1 (c : cache) (o : op) : cache := fst (spec_step PMeta [] c o).
Definition replica_op (o : op) : bool := match o with OTouch _ _ => false | _ => true end.

Lemma chg_refl : forall k c, wf PMeta c -> chg k c c.
Proof. intros k c W. split; [exact W|]. split; [reflexivity|]. split; [reflexivity|]. split; [lia|reflexivity]. Qed.
Lemma chg_step : forall c o k, wf PMeta c -> legal PMeta o -> op_key o = Some k -> chg k c (step1 c o).
Proof.
  intros c o k W L K. unfold chg, step1. split; [apply wf_spec_step; assumption|]. split; [apply cfg_spec_step|]. split; [apply now_spec_step|].
  split; [apply cas_spec_step|]. intros j Nj. apply spec_other with (k := k); assumption.
Qed.

Lemma meta_answers : forall c h o k, wf PMeta c -> c_cas c < 2 ^ 63 -> legal PMeta o -> op_key o = Some k -> replica_op o = true ->
  exists out, meta_server (fresh_link c h) o = (fresh_link (step1 c o) h, out)
    /\ (agrees (snd (spec_step PMeta [] c o)) out \/ (o = ODelete k /\ lookup c k = None /\ out = Ok RUnit)).
Proof.
  intros c h o k W C L K T. assert (S : meta_safe c o \/ (o = ODelete k /\ lookup c k = None)).
  { destruct o; try (left; exact I); try discriminate K; try discriminate T. cbn in K. inversion K; subst. cbn [meta_safe].
    destruct (lookup c k); [left; discriminate|right; auto]. }
  destruct S as [S|[-> Lk]].
  - destruct (meta_call_ok c h o W C L S) as (out & E & A). exists out. split; [exact E|left; exact A].
  - exists (Ok RUnit). split; [|right; auto]. unfold meta_server, call. cbn [meta_client cl_req cl_resp cl_wire fst snd fresh_link l_cache l_pending l_unread l_header].
    cbn [meta_req]. cbn [app]. rewrite (meta_daemon c (ODelete k) _ L eq_refl). cbn [meta_intent fst snd].
    unfold cache_delete. rewrite Lk. cbn [fst snd hd_nf]. unfold step1. cbn [spec_step fst]. unfold cache_delete. rewrite Lk. reflexivity.
Qed.

Definition stores (o : op) (i : item) : Prop := o = OSet i \/ o = OAdd i \/ o = OReplace i.
Definition stored (c : cache) (i : item) : cache := put c (it_key i) (it_value i) (item_flags i) (expire_at (c_now c) (it_exp i)).
Lemma store_effect : forall c o i, stores o i -> (exists x, snd (spec_step PMeta [] c o) = SOk x) -> step1 c o = stored c i.
Proof.
  intros c o i S [x E]. unfold step1, stored. destruct S as [->|[->| ->]]; cbn [spec_step fst snd] in *.
  - destruct (it_cas i =? 0); unfold cache_set, cache_cas in *; destruct (too_large c (it_value i)); try discriminate E; cbn [fst snd] in *; auto.
    destruct (lookup c (it_key i)) as [e|]; try discriminate E. destruct (e_cas e =? it_cas i); [reflexivity|discriminate E].
  - unfold cache_add in *. destruct (too_large c (it_value i)); try discriminate E. destruct (lookup c (it_key i)); [discriminate E|reflexivity].
  - unfold cache_replace in *. destruct (too_large c (it_value i)); try discriminate E. destruct (lookup c (it_key i)); [reflexivity|discriminate E].
Qed.
Lemma delete_effect : forall c k, lookup (step1 c (ODelete k)) k = None /\ c_cas (step1 c (ODelete k)) = c_cas c.
Proof.
  intros c k. unfold step1. cbn [spec_step fst]. unfold cache_delete. destruct (lookup c k) eqn:E; cbn [fst]; [|auto].
  split; [|reflexivity]. unfold lookup, drop, with_map, put_entry. cbn. rewrite beq_refl. reflexivity.
Qed.
Definition counts (o : op) (k : bytes) : Prop := exists d e, o = OIncr k d e \/ o = ODecr k d e.
Lemma delta_effect : forall c o k x, counts o k -> snd (spec_step PMeta [] c o) = SOk x ->
  exists e n, x = RInt n /\ lookup c k = Some e /\ step1 c o = put c k (counter_text (e_value e) n) (e_flags e) (e_expire e).
Proof.
  intros c o k x (d & ex & [->| ->]) E; unfold step1; cbn [spec_step fst snd spec_delta] in *; unfold spec_delta, cache_delta in *;
    (destruct (lookup c k) as [e|]; [|discriminate E]); (destruct (counter_value (e_value e)) as [n0|]; [|discriminate E]); cbn [fst snd delta_outcome] in *;
    match type of E with (if ?b then _ else _) = _ => destruct b; [|discriminate E] end; inversion E; eauto 6.
Qed.
Lemma agrees_ok : forall s x, agrees s (Ok x) -> s = SOk x.
Proof. intros [r|e|] x A; cbn in A; try contradiction. subst. reflexivity. Qed.

(** ** A pool call alone *)
Definition effect (o : rop) (x : result) (cp cs cp' cs' : cache) : Prop :=
  match o with
  | RGet k => cp' = cp /\ cs' = cs
  | RSet i | RAdd i | RReplace i => cp' = stored cp i /\ cs' = stored cs i
  | RDelete k => lookup cp' k = None /\ lookup cs' k = None /\ c_cas cp' = c_cas cp /\ c_cas cs' = c_cas cs
  | RIncr k _ _ | RDecr k _ _ => exists e n, x = RInt n /\ lookup cp k = Some e
      /\ cp' = put cp k (counter_text (e_value e) n) (e_flags e) (e_expire e)
      /\ cs' = put cs k (counter_text (e_value e) n) (e_flags e) (expire_at (c_now cs) (ttl cp e))
  end.

Lemma ttl_put : forall c k v f x e, ttl (put c k v f x) e = ttl c e. Proof. reflexivity. Qed.
Lemma lookup_put : forall c k v f x, lookup (put c k v f x) k =
  (let e := mkEntry v f x (c_cas c + 1) false in if alive (c_now c) e then Some e else None).
Proof. intros. unfold lookup, put, put_entry. cbn. rewrite beq_refl. reflexivity. Qed.

Lemma replica_item_legal : forall c k e, wf PMeta c -> legal_key PMeta k -> lookup c k = Some e ->
  legal_item PMeta (replica_item k (item_view PMeta [] false c k e)).
Proof.
  intros c k e W K Lk. destruct (lookup_map _ _ _ Lk) as [_ Al]. destruct (wf_lookup _ _ _ _ W Lk) as (E1 & E2 & E3 & E4). specialize (E4 eq_refl).
  destruct W as ((Wl & _) & _). unfold legal_item, replica_item. cbn [it_key it_flags it_exp it_cas it_value item_view].
  split; [exact K|]. split; [|split; [|split; [lia|lia]]].
  - unfold legal_flags. cbn [it_flags]. rewrite be_length. split; [reflexivity|]. intros _. rewrite unbe_be_small; [exact (proj2 E2)|]. cbn [flags_bound] in E2. lia.
  - unfold legal_exp, ttl. unfold alive in Al. destruct (e_expire e) as [t|]; [|lia]. apply Z.ltb_lt in Al. lia.
Qed.
Lemma replica_item_flags : forall c k e, wf PMeta c -> lookup c k = Some e ->
  item_flags (replica_item k (item_view PMeta [] false c k e)) = e_flags e.
Proof.
  intros c k e W Lk. destruct (wf_lookup _ _ _ _ W Lk) as (_ & E2 & _). unfold item_flags. cbn [replica_item item_view it_flags]. apply unbe_be_small. cbn [flags_bound] in E2. lia.
Qed.

Lemma pool_call_effect : forall pn sn w o p s cp cs hp hs w' r,
  legal_rop o -> pick pn (rop_key o) = Ok p -> pick sn (rop_key o) = Ok s -> sv_id p <> sv_id s ->
  w (sv_id p) = fresh_link cp hp -> w (sv_id s) = fresh_link cs hs -> wf PMeta cp -> wf PMeta cs ->
  c_cas cp + 1 < 2 ^ 63 -> c_cas cs + 1 < 2 ^ 63 ->
  exec meta_server (rp_prog pn sn o) w = (w', r) ->
  exists cp' cs', w' (sv_id p) = fresh_link cp' hp /\ w' (sv_id s) = fresh_link cs' hs
    /\ (forall i, i <> sv_id p -> i <> sv_id s -> w' i = w i)
    /\ chg (rop_key o) cp cp' /\ chg (rop_key o) cs cs' /\ (forall x, r = Ok x -> effect o x cp cs cp' cs').
Proof.
  intros pn sn w o p s cp cs hp hs w' r L Pp Ps D Ep Es Wp Ws Cp Cs E. unfold legal_rop in L.
  assert (Dn : sv_id s <> sv_id p) by congruence.
  assert (Store : forall first i, stores (first i) i -> legal PMeta (first i) -> legal_item PMeta i -> op_key (first i) = Some (it_key i) ->
     replica_op (first i) = true -> pick pn (it_key i) = Ok p -> pick sn (it_key i) = Ok s -> exec meta_server (rp_store pn sn first i) w = (w', r) ->
     exists cp' cs', w' (sv_id p) = fresh_link cp' hp /\ w' (sv_id s) = fresh_link cs' hs
    /\ (forall j, j <> sv_id p -> j <> sv_id s -> w' j = w j)
    /\ chg (it_key i) cp cp' /\ chg (it_key i) cs cs' /\ (forall x, r = Ok x -> cp' = stored cp i /\ cs' = stored cs i)).
  { clear o L Pp Ps E. intros first i Si L Li K T Pp Ps E. unfold rp_store, on_ring in E. rewrite Pp, Ps in E. cbn [exec] in E. unfold server_call in E. rewrite Ep in E.
    destruct (meta_answers cp hp _ _ Wp ltac:(lia) L K T) as (out & Em & A). rewrite Em in E. cbn [fst snd] in E.
    pose proof (chg_step cp _ _ Wp L K) as Chp. destruct out as [x|e|]; cbn [if_ok exec] in E.
    - assert (Ax : snd (spec_step PMeta [] cp (first i)) = SOk x).
      { destruct A as [A|[Q _]]; [apply agrees_ok; exact A|]. destruct Si as [Si|[Si|Si]]; rewrite Si in Q; discriminate Q. }
      unfold server_call in E. rewrite upd_other in E by exact Dn. rewrite Es in E.
      destruct (meta_answers cs hs (OSet i) (it_key i) Ws ltac:(lia) Li eq_refl eq_refl) as (out2 & Em2 & A2). rewrite Em2 in E. cbn [fst snd] in E.
      inversion E; subst; clear E. exists (step1 cp (first i)), (step1 cs (OSet i)).
      split; [rewrite upd_other, upd_same by exact D; reflexivity|]. split; [apply upd_same|].
      split; [intros j J1 J2; rewrite !upd_other by assumption; reflexivity|]. split; [exact Chp|]. split; [apply chg_step; [exact Ws|exact Li|reflexivity]|].
      intros y ->. split; [apply store_effect; [exact Si|eauto]|]. apply store_effect; [left; reflexivity|].
      destruct A2 as [A2|[Q _]]; [|discriminate Q]. exists y. apply agrees_ok. exact A2.
    - inversion E; subst; clear E. exists (step1 cp (first i)), cs. split; [apply upd_same|]. split; [rewrite upd_other by exact Dn; exact Es|].
      split; [intros j J1 J2; rewrite upd_other by assumption; reflexivity|]. split; [exact Chp|]. split; [apply chg_refl; exact Ws|]. discriminate.
    - inversion E; subst; clear E. exists (step1 cp (first i)), cs. split; [apply upd_same|]. split; [rewrite upd_other by exact Dn; exact Es|].
      split; [intros j J1 J2; rewrite upd_other by assumption; reflexivity|]. split; [exact Chp|]. split; [apply chg_refl; exact Ws|]. discriminate. }
  assert (Delta : forall od k, counts od k -> legal PMeta od -> pick pn k = Ok p -> pick sn k = Ok s ->
     exec meta_server (rp_delta pn sn od k) w = (w', r) ->
     exists cp' cs', w' (sv_id p) = fresh_link cp' hp /\ w' (sv_id s) = fresh_link cs' hs
    /\ (forall j, j <> sv_id p -> j <> sv_id s -> w' j = w j)
    /\ chg k cp cp' /\ chg k cs cs' /\ (forall x, r = Ok x -> exists e n, x = RInt n /\ lookup cp k = Some e /\ cp' = put cp k (counter_text (e_value e) n) (e_flags e) (e_expire e)
      /\ cs' = put cs k (counter_text (e_value e) n) (e_flags e) (expire_at (c_now cs) (ttl cp e)))).
  { clear o L Pp Ps E Store. intros od k Ct L Pp Ps E. unfold rp_delta, on_ring in E. rewrite Pp, Ps in E. cbn [exec] in E. unfold server_call in E at 1 2. rewrite Ep in E.
    assert (K : op_key od = Some k) by (destruct Ct as (d & ex & [->| ->]); reflexivity).
    assert (T : replica_op od = true) by (destruct Ct as (d & ex & [->| ->]); reflexivity).
    assert (Lk : legal_key PMeta k) by (destruct Ct as (d & ex & [->| ->]); apply L).
    destruct (meta_answers cp hp _ _ Wp ltac:(lia) L K T) as (out & Em & A). rewrite Em in E. cbn [fst snd] in E.
    pose proof (chg_step cp _ _ Wp L K) as Chp. set (cp1 := step1 cp od) in *.
    assert (Stop : forall (rr : outcome result), (forall x, rr <> Ok x) -> (upd w (sv_id p) (fresh_link cp1 hp), rr) = (w', r) ->
       exists cp' cs', w' (sv_id p) = fresh_link cp' hp /\ w' (sv_id s) = fresh_link cs' hs
    /\ (forall j, j <> sv_id p -> j <> sv_id s -> w' j = w j)
    /\ chg k cp cp' /\ chg k cs cs' /\ (forall x, r = Ok x -> exists e n, x = RInt n /\ lookup cp k = Some e /\ cp' = put cp k (counter_text (e_value e) n) (e_flags e) (e_expire e)
      /\ cs' = put cs k (counter_text (e_value e) n) (e_flags e) (expire_at (c_now cs) (ttl cp e)))).
    { intros rr Nr Q. inversion Q; subst. exists cp1, cs. split; [apply upd_same|]. split; [rewrite upd_other by exact Dn; exact Es|].
      split; [intros j J1 J2; rewrite upd_other by assumption; reflexivity|]. split; [exact Chp|]. split; [apply chg_refl; exact Ws|]. intros x Q'. exfalso. exact (Nr x Q'). }
    destruct out as [x|e|]; cbn [if_ok exec] in E; [|apply (Stop (Err e)); [discriminate|exact E]|apply (Stop Panic); [discriminate|exact E]].
    assert (Ax : snd (spec_step PMeta [] cp od) = SOk x).
    { destruct A as [A|[Q _]]; [apply agrees_ok; exact A|]. destruct Ct as (d & ex & [->| ->]); discriminate Q. }
    unfold server_call in E at 1 2. rewrite upd_same in E. destruct Chp as (Wp1 & Cf1 & Nw1 & Cs1 & Ot1).
    destruct (meta_answers cp1 hp (OGet k) k Wp1 ltac:(lia) Lk eq_refl eq_refl) as (og & Eg & Ag). rewrite Eg in E. cbn [fst snd] in E.
    assert (S1 : step1 cp1 (OGet k) = cp1) by reflexivity. rewrite S1 in E.
    destruct Ag as [Ag|[Q _]]; [|discriminate Q]. cbn [spec_step snd] in Ag.
    assert (Up : forall i, upd (upd w (sv_id p) (fresh_link cp1 hp)) (sv_id p) (fresh_link cp1 hp) i = upd w (sv_id p) (fresh_link cp1 hp) i).
    { intro i. unfold upd. destruct (Nat.eqb i (sv_id p)); reflexivity. }
    destruct (lookup cp1 k) as [e1|] eqn:Lk1.
    - destruct og as [g|eg|]; cbn [agrees] in Ag; try contradiction. subst g. cbn [if_ok] in E.
      set (ri := replica_item k (item_view PMeta [] false cp1 k e1)) in *.
      assert (Lri : legal_item PMeta ri) by (apply replica_item_legal; assumption).
      cbn [exec] in E. unfold server_call in E at 1 2. rewrite Up, upd_other in E by exact Dn. rewrite Es in E.
      destruct (meta_answers cs hs (OSet ri) k Ws ltac:(lia) Lri eq_refl eq_refl) as (out2 & Em2 & A2). rewrite Em2 in E. cbn [fst snd] in E.
      assert (Fin : w' (sv_id p) = fresh_link cp1 hp /\ w' (sv_id s) = fresh_link (step1 cs (OSet ri)) hs /\ (forall j, j <> sv_id p -> j <> sv_id s -> w' j = w j)
                /\ r = match out2 with Ok _ => Ok x | Err e => Err e | Panic => Panic end).
      { destruct out2; cbn [if_ok exec] in E; inversion E; subst; clear E;
          (split; [rewrite upd_other, Up, upd_same by exact D; reflexivity|]; split; [apply upd_same|]; split; [intros j J1 J2; rewrite upd_other, Up, upd_other by assumption; reflexivity|reflexivity]). }
      destruct Fin as (F1 & F2 & F3 & F4). exists cp1, (step1 cs (OSet ri)). split; [exact F1|]. split; [exact F2|]. split; [exact F3|].
      split; [split; [exact Wp1|split; [exact Cf1|split; [exact Nw1|split; [exact Cs1|exact Ot1]]]]|].
      split; [apply (chg_step cs (OSet ri) k); [exact Ws|exact Lri|reflexivity]|]. intros y Ry. rewrite F4 in Ry.
      destruct out2 as [y2|?|]; try discriminate Ry. destruct (delta_effect cp od k x Ct Ax) as (e & v & Xv & Le & P1). exists e, v. fold cp1 in P1.
      split; [congruence|]. split; [exact Le|]. split; [exact P1|].
      destruct A2 as [A2|[Q _]]; [|discriminate Q]. rewrite (store_effect cs (OSet ri) ri ltac:(left; reflexivity) ltac:(exists y2; apply agrees_ok; exact A2)).
      assert (Fl : item_flags ri = e_flags e1) by (apply (replica_item_flags cp1 k e1 Wp1 Lk1)).
      rewrite P1, lookup_put in Lk1. cbv zeta in Lk1. destruct (alive (c_now cp) _); [|discriminate Lk1].
      assert (E1 : e1 = mkEntry (counter_text (e_value e) v) (e_flags e) (e_expire e) (c_cas cp + 1) false) by congruence.
      unfold stored. rewrite Fl. unfold ri. cbn [replica_item it_key it_value it_exp item_view]. rewrite E1, P1. reflexivity.
    - cbn [agrees] in Ag. destruct og as [g|eg|]; try contradiction. cbn [if_ok exec] in E. inversion E; subst. exists cp1, cs.
      split; [rewrite Up; apply upd_same|]. split; [rewrite Up, upd_other by exact Dn; exact Es|].
      split; [intros j J1 J2; rewrite Up, upd_other by assumption; reflexivity|].
      split; [split; [exact Wp1|split; [exact Cf1|split; [exact Nw1|split; [exact Cs1|exact Ot1]]]]|]. split; [apply chg_refl; exact Ws|]. discriminate. }
  destruct o as [k|i|i|i|k|k d e|k d e]; cbn [rp_prog rop_key primary_op effect] in *.
  - unfold rp_get, on_ring in E. rewrite Pp in E. cbn [exec] in E. unfold server_call in E. rewrite Ep in E.
    destruct (meta_answers cp hp (OGet k) k Wp ltac:(lia) L eq_refl eq_refl) as (out & Em & A). rewrite Em in E. cbn [fst snd] in E. inversion E; subst.
    exists cp, cs. split; [apply upd_same|]. split; [rewrite upd_other by exact Dn; exact Es|]. split; [intros j J1 J2; rewrite upd_other by assumption; reflexivity|].
    split; [apply chg_refl; exact Wp|]. split; [apply chg_refl; exact Ws|]. auto.
  - apply (Store OSet i); auto. left. reflexivity.
  - apply (Store OAdd i); auto; [right; left; reflexivity|apply L].
  - apply (Store OReplace i); auto; [right; right; reflexivity|apply L].
  - unfold rp_delete, on_ring in E. rewrite Pp, Ps in E. cbn [exec] in E. unfold server_call in E. rewrite Ep in E.
    destruct (meta_answers cp hp (ODelete k) k Wp ltac:(lia) L eq_refl eq_refl) as (out & Em & A). rewrite Em in E. cbn [fst snd] in E.
    pose proof (chg_step cp (ODelete k) k Wp L eq_refl) as Chp. destruct out as [x|e|]; cbn [if_ok exec] in E.
    + unfold server_call in E. rewrite upd_other in E by exact Dn. rewrite Es in E.
      destruct (meta_answers cs hs (ODelete k) k Ws ltac:(lia) L eq_refl eq_refl) as (out2 & Em2 & A2). rewrite Em2 in E. cbn [fst snd] in E.
      inversion E; subst; clear E. exists (step1 cp (ODelete k)), (step1 cs (ODelete k)).
      split; [rewrite upd_other, upd_same by exact D; reflexivity|]. split; [apply upd_same|].
      split; [intros j J1 J2; rewrite !upd_other by assumption; reflexivity|]. split; [exact Chp|]. split; [apply chg_step; [exact Ws|exact L|reflexivity]|].
      intros y _. destruct (delete_effect cp k), (delete_effect cs k). auto.
    + inversion E; subst; clear E. exists (step1 cp (ODelete k)), cs. split; [apply upd_same|]. split; [rewrite upd_other by exact Dn; exact Es|].
      split; [intros j J1 J2; rewrite upd_other by assumption; reflexivity|]. split; [exact Chp|]. split; [apply chg_refl; exact Ws|]. discriminate.
    + inversion E; subst; clear E. exists (step1 cp (ODelete k)), cs. split; [apply upd_same|]. split; [rewrite upd_other by exact Dn; exact Es|].
      split; [intros j J1 J2; rewrite upd_other by assumption; reflexivity|]. split; [exact Chp|]. split; [apply chg_refl; exact Ws|]. discriminate.
  - apply (Delta (OIncr k d e) k); auto. exists d, e. left. reflexivity.
  - apply (Delta (ODecr k d e) k); auto. exists d, e. right. reflexivity.
Qed.

(** ** Histories *)
Section Histories.
Variables (ps ss : list server) (pn sn : list node).
Hypothesis Rings : two_rings ps ss pn sn.

Lemma owner_p : forall k, exists p, pick pn k = Ok p /\ In p ps.
Proof. intro k. destruct Rings as (A & _ & R & _). apply ring_pick_in; assumption. Qed.
Lemma owner_s : forall k, exists s, pick sn k = Ok s /\ In s ss.
Proof. intro k. destruct Rings as (_ & A & _ & R & _). apply ring_pick_in; assumption. Qed.
Lemma owner_in_p : forall k p, pick pn k = Ok p -> In p ps.
Proof. intros k p H. destruct (owner_p k) as (q & E & I). rewrite H in E. inversion E; subst. exact I. Qed.
Lemma owner_in_s : forall k p, pick sn k = Ok p -> In p ss.
Proof. intros k p H. destruct (owner_s k) as (q & E & I). rewrite H in E. inversion E; subst. exact I. Qed.
Lemma apart : forall p s, In p ps -> In s ss -> sv_id p <> sv_id s.
Proof. apply Rings. Qed.
Lemma id_p : forall a b, In a ps -> In b ps -> sv_id a = sv_id b -> a = b.
Proof. apply id_inj. apply Rings. Qed.
Lemma id_s : forall a b, In a ss -> In b ss -> sv_id a = sv_id b -> a = b.
Proof. apply id_inj. apply Rings. Qed.

Lemma good_at : forall n w sv, good_world n (ps ++ ss) w -> In sv (ps ++ ss) -> exists c h, w (sv_id sv) = fresh_link c h /\ wf PMeta c /\ c_cas c + n < 2 ^ 63.
Proof. intros n w sv [now G] I. destruct (G sv I) as (c & h & E & W & _ & C). eauto 6. Qed.

Lemma pool_step : forall n w o w' r, 0 <= n -> good_world (n + 1) (ps ++ ss) w -> legal_rop o ->
  exec meta_server (rp_prog pn sn o) w = (w', r) ->
  good_world n (ps ++ ss) w'
  /\ exists p s cp cs cp' cs' hp hs, pick pn (rop_key o) = Ok p /\ pick sn (rop_key o) = Ok s /\ In p ps /\ In s ss
     /\ w (sv_id p) = fresh_link cp hp /\ w (sv_id s) = fresh_link cs hs /\ wf PMeta cp /\ wf PMeta cs
     /\ w' (sv_id p) = fresh_link cp' hp /\ w' (sv_id s) = fresh_link cs' hs
     /\ c_now cp = c_now cs /\ chg (rop_key o) cp cp' /\ chg (rop_key o) cs cs'
     /\ (forall i, i <> sv_id p -> i <> sv_id s -> w' i = w i)
     /\ (forall x, r = Ok x -> effect o x cp cs cp' cs').
Proof.
  intros n w o w' r Hn G L E. destruct (owner_p (rop_key o)) as (p & Pp & Ip). destruct (owner_s (rop_key o)) as (s & Ps & Is).
  destruct G as [now G]. destruct (G p ltac:(apply in_or_app; auto)) as (cp & hp & Ep & Wp & Np & Cp).
  destruct (G s ltac:(apply in_or_app; auto)) as (cs & hs & Es & Ws & Ns & Cs).
  destruct (pool_call_effect pn sn w o p s cp cs hp hs w' r L Pp Ps (apart p s Ip Is) Ep Es Wp Ws ltac:(lia) ltac:(lia) E)
    as (cp' & cs' & Ep' & Es' & Ot & Chp & Chs & Ef). split.
  - exists now. intros sv Isv. destruct (Nat.eq_dec (sv_id sv) (sv_id p)) as [Qp|Qp].
    + rewrite Qp. exists cp', hp. destruct Chp as (A1 & A2 & A3 & A4 & A5). split; [exact Ep'|]. split; [exact A1|]. split; [congruence|lia].
    + destruct (Nat.eq_dec (sv_id sv) (sv_id s)) as [Qs|Qs].
      * rewrite Qs. exists cs', hs. destruct Chs as (A1 & A2 & A3 & A4 & A5). split; [exact Es'|]. split; [exact A1|]. split; [congruence|lia].
      * rewrite Ot by assumption. destruct (G sv Isv) as (c & h & A1 & A2 & A3 & A4). exists c, h. split; [exact A1|]. split; [exact A2|]. split; [exact A3|lia].
  - exists p, s, cp, cs, cp', cs', hp, hs. assert (c_now cp = c_now cs) by congruence. auto 20.
Qed.

Lemma chg_lookup : forall k c c' j, chg k c c' -> j <> k -> lookup c' j = lookup c j.
Proof. intros k c c' j (_ & _ & N & _ & M) J. unfold lookup. rewrite N, M by exact J. reflexivity. Qed.

Lemma held_p : forall w k p c h, pick pn k = Ok p -> w (sv_id p) = fresh_link c h -> held pn w k = lookup c k.
Proof. intros w k p c h P E. unfold held. rewrite P, E. reflexivity. Qed.
Lemma held_s : forall w k p c h, pick sn k = Ok p -> w (sv_id p) = fresh_link c h -> held sn w k = lookup c k.
Proof. intros w k p c h P E. unfold held. rewrite P, E. reflexivity. Qed.

Lemma expire_same : forall now t, now < t -> t - now <= month -> expire_at now (t - now) = Some t.
Proof.
  intros now t A M. unfold expire_at. replace (t - now =? 0) with false by (symmetry; apply Z.eqb_neq; lia).
  replace (t - now <? 0) with false by (symmetry; apply Z.ltb_ge; lia). replace (t - now <=? month) with true by (symmetry; apply Z.leb_le; lia). f_equal. lia.
Qed.

Lemma delta_expire : forall w k p cp hp cs e, pick pn k = Ok p -> w (sv_id p) = fresh_link cp hp -> c_now cp = c_now cs ->
  short_lived w pn k -> lookup cp k = Some e -> expire_at (c_now cs) (ttl cp e) = e_expire e.
Proof.
  intros w k p cp hp cs e P E N S Lk. unfold short_lived in S. rewrite P, (held_p w k p cp hp P E), Lk, E in S. destruct S as (t & Et & M).
  cbn [fresh_link l_cache] in M. apply lookup_map in Lk. destruct Lk as [_ Al]. unfold alive in Al. rewrite Et in Al. apply Z.ltb_lt in Al.
  unfold ttl. rewrite Et, <- N. apply expire_same; assumption.
Qed.

Lemma same_put : forall c1 c2 k v f x, c_now c1 = c_now c2 -> same_entry (lookup (put c1 k v f x) k) (lookup (put c2 k v f x) k).
Proof. intros c1 c2 k v f x N. rewrite !lookup_put. cbv zeta. unfold alive. cbn [e_expire]. rewrite N. destruct x as [t|]; [destruct (c_now c2 <? t)|]; cbn; auto. Qed.

Lemma effect_agree : forall w o x p cp cs cp' cs' hp, pick pn (rop_key o) = Ok p -> w (sv_id p) = fresh_link cp hp ->
  c_now cp = c_now cs -> counter_guard pn w o -> same_entry (lookup cp (rop_key o)) (lookup cs (rop_key o)) ->
  effect o x cp cs cp' cs' -> same_entry (lookup cp' (rop_key o)) (lookup cs' (rop_key o)).
Proof.
  intros w o x p cp cs cp' cs' hp P E N G A Ef. destruct o as [k|i|i|i|k|k d ex|k d ex]; cbn [effect rop_key counter_guard] in *.
  - destruct Ef as [-> ->]. exact A.
  - destruct Ef as [-> ->]. unfold stored. rewrite N. apply same_put. exact N.
  - destruct Ef as [-> ->]. unfold stored. rewrite N. apply same_put. exact N.
  - destruct Ef as [-> ->]. unfold stored. rewrite N. apply same_put. exact N.
  - destruct Ef as (-> & -> & _). exact Logic.I.
  - destruct Ef as (e & v & _ & Lk & -> & ->). rewrite (delta_expire w k p cp hp cs e P E N G Lk). apply same_put. exact N.
  - destruct Ef as (e & v & _ & Lk & -> & ->). rewrite (delta_expire w k p cp hp cs e P E N G Lk). apply same_put. exact N.
Qed.

Lemma agree_step : forall n w o w' x, 0 <= n -> good_world (n + 1) (ps ++ ss) w -> legal_rop o -> counter_guard pn w o -> replicas_agree pn sn w ->
  exec meta_server (rp_prog pn sn o) w = (w', Ok x) -> replicas_agree pn sn w'.
Proof.
  intros n w o w' x Hn G L Cg A E. destruct (pool_step n w o w' (Ok x) Hn G L E) as (_ & p & s & cp & cs & cp' & cs' & hp & hs & Pp & Ps & Ip & Is & Ep & Es & Wp & Ws & Ep' & Es' & N & Chp & Chs & Ot & Ef).
  specialize (Ef x eq_refl). intro j. destruct (beq_dec_cases j (rop_key o)) as [[_ ->]|[_ Nj]].
  - rewrite (held_p w' _ p cp' hp Pp Ep'), (held_s w' _ s cs' hs Ps Es'). specialize (A (rop_key o)).
    rewrite (held_p w _ p cp hp Pp Ep), (held_s w _ s cs hs Ps Es) in A. apply (effect_agree w o x p cp cs cp' cs' hp); assumption.
  - specialize (A j). destruct (owner_p j) as (q & Pq & Iq). destruct (owner_s j) as (t & Pt & It).
    assert (Hp : held pn w' j = held pn w j).
    { unfold held. rewrite Pq. destruct (Nat.eq_dec (sv_id q) (sv_id p)) as [Q|Q].
      - rewrite Q, Ep, Ep'. cbn [fresh_link l_cache]. apply chg_lookup with (k := rop_key o); assumption.
      - rewrite Ot; [reflexivity|exact Q|]. apply apart; assumption. }
    assert (Hs : held sn w' j = held sn w j).
    { unfold held. rewrite Pt. destruct (Nat.eq_dec (sv_id t) (sv_id s)) as [Q|Q].
      - rewrite Q, Es, Es'. cbn [fresh_link l_cache]. apply chg_lookup with (k := rop_key o); assumption.
      - rewrite Ot; [reflexivity| |exact Q]. intro Q'. symmetry in Q'. revert Q'. apply apart; assumption. }
    rewrite Hp, Hs. exact A.
Qed.

Lemma lookup_tick_agree : forall c1 c2 d k, 0 <= d -> c_now c1 = c_now c2 -> same_entry (lookup c1 k) (lookup c2 k) ->
  same_entry (lookup (tick c1 d) k) (lookup (tick c2 d) k).
Proof.
  intros c1 c2 d k D N A. unfold lookup, tick in *. cbn [c_map c_now]. rewrite N in *. unfold alive in *.
  destruct (c_map c1 k) as [e1|] eqn:E1, (c_map c2 k) as [e2|] eqn:E2.
  - destruct (e_expire e1) as [t1|] eqn:X1, (e_expire e2) as [t2|] eqn:X2.
    + destruct (c_now c2 <? t1) eqn:L1, (c_now c2 <? t2) eqn:L2; cbn in A; try contradiction.
      * destruct A as (A1 & A2 & A3). assert (t1 = t2) by congruence. subst. destruct (c_now c2 + d <? t2); cbn; auto.
      * apply Z.ltb_ge in L1, L2. replace (c_now c2 + d <? t1) with false by (symmetry; apply Z.ltb_ge; lia). replace (c_now c2 + d <? t2) with false by (symmetry; apply Z.ltb_ge; lia). exact Logic.I.
    + destruct (c_now c2 <? t1); cbn in A; [|contradiction]. destruct A as (_ & _ & A). congruence.
    + destruct (c_now c2 <? t2); cbn in A; [|contradiction]. destruct A as (_ & _ & A). congruence.
    + exact A.
  - destruct (e_expire e1) as [t1|]; [|contradiction]. destruct (c_now c2 <? t1) eqn:L1; [contradiction|]. apply Z.ltb_ge in L1.
    replace (c_now c2 + d <? t1) with false by (symmetry; apply Z.ltb_ge; lia). exact Logic.I.
  - destruct (e_expire e2) as [t2|]; [|contradiction]. destruct (c_now c2 <? t2) eqn:L1; [contradiction|]. apply Z.ltb_ge in L1.
    replace (c_now c2 + d <? t2) with false by (symmetry; apply Z.ltb_ge; lia). exact Logic.I.
  - exact Logic.I.
Qed.

Lemma good_tick : forall n w d, 0 <= d -> good_world n (ps ++ ss) w -> good_world n (ps ++ ss) (all_tick w d).
Proof.
  intros n w d D [now G]. exists (now + d). intros sv I. destruct (G sv I) as (c & h & E & W & N & C). exists (tick c d), h.
  unfold all_tick. rewrite E. split; [reflexivity|]. split; [apply wf_tick; assumption|]. cbn. split; [congruence|exact C].
Qed.
Lemma good_mono : forall n m w, m <= n -> good_world n (ps ++ ss) w -> good_world m (ps ++ ss) w.
Proof. intros n m w H [now G]. exists now. intros sv I. destruct (G sv I) as (c & h & E & W & N & C). exists c, h. split; [exact E|]. split; [exact W|]. split; [exact N|lia]. Qed.

Lemma agree_tick : forall n w d, 0 <= d -> good_world n (ps ++ ss) w -> replicas_agree pn sn w -> replicas_agree pn sn (all_tick w d).
Proof.
  intros n w d D [now G] A k. destruct (owner_p k) as (p & Pp & Ip). destruct (owner_s k) as (s & Ps & Is). specialize (A k). unfold held in *.
  rewrite Pp, Ps in *. unfold all_tick. destruct (G p ltac:(apply in_or_app; auto)) as (cp & hp & Ep & _ & Np & _).
  destruct (G s ltac:(apply in_or_app; auto)) as (cs & hs & Es & _ & Ns & _). rewrite Ep, Es in *. cbn [link_tick fresh_link l_cache] in *.
  apply lookup_tick_agree; [exact D|congruence|exact A].
Qed.

Lemma history_agree : forall evs w w' rs, good_world (zlen evs) (ps ++ ss) w -> replicas_agree pn sn w -> Forall legal_revent evs ->
  counters_expire pn sn w evs -> history pn sn w evs = (w', rs) -> Forall succeeded rs ->
  replicas_agree pn sn w' /\ good_world 0 (ps ++ ss) w'.
Proof.
  induction evs as [|ev evs IH]; intros w w' rs G A L C E F.
  - cbn in E. inversion E; subst. split; [exact A|exact G].
  - rewrite zlen_cons in G. pose proof (zlen_nonneg _ evs). inversion L; subst. destruct ev as [o|d]; cbn [history counters_expire] in *.
    + destruct (exec meta_server (rp_prog pn sn o) w) as [w1 r1] eqn:Ex. cbn [fst snd] in *. destruct (history pn sn w1 evs) as [w2 rs2] eqn:Eh. cbn [fst snd] in *.
      inversion E; subst. inversion F; subst. destruct H4 as [x ->]. destruct C as [Cg C].
      assert (G' : good_world (zlen evs + 1) (ps ++ ss) w) by (eapply good_mono; [|exact G]; lia).
      destruct (pool_step (zlen evs) w o w1 (Ok x) ltac:(lia) G' H2 Ex) as [G1 _].
      eapply IH; [exact G1| |exact H3|exact C|exact Eh|exact H5]. eapply (agree_step (zlen evs)); [lia|exact G'|exact H2|exact Cg|exact A|exact Ex].
    + cbn [legal_revent] in H2. eapply IH; [| |exact H3|exact C|exact E|exact F].
      * apply good_tick; [exact H2|]. eapply good_mono; [|exact G]. lia.
      * eapply agree_tick; [exact H2|exact G|exact A].
Qed.
End Histories.

(** ** Equal cas numbers *)
Section Twins.
Variables (ps ss : list server) (pn sn : list node).
Hypothesis Rings : two_rings ps ss pn sn.
Hypothesis Mirror : mirrored pn sn.

Definition twin (a b : option entry) : Prop := same_entry a b /\ option_map e_cas a = option_map e_cas b.
Definition in_step (w : world link) : Prop := equal_counters pn sn w /\ forall k, twin (held pn w k) (held sn w k).

Lemma twin_put : forall c1 c2 k v f x, c_now c1 = c_now c2 -> c_cas c1 = c_cas c2 -> twin (lookup (put c1 k v f x) k) (lookup (put c2 k v f x) k).
Proof.
  intros c1 c2 k v f x N C. split; [apply same_put; exact N|]. rewrite !lookup_put. cbv zeta. unfold alive. cbn [e_expire]. rewrite N, C. reflexivity.
Qed.
Lemma effect_twin : forall w o x p cp cs cp' cs' hp, pick pn (rop_key o) = Ok p -> w (sv_id p) = fresh_link cp hp ->
  c_now cp = c_now cs -> c_cas cp = c_cas cs -> counter_guard pn w o -> twin (lookup cp (rop_key o)) (lookup cs (rop_key o)) ->
  effect o x cp cs cp' cs' -> twin (lookup cp' (rop_key o)) (lookup cs' (rop_key o)) /\ c_cas cp' = c_cas cs'.
Proof.
  intros w o x p cp cs cp' cs' hp P E N C G A Ef. destruct o as [k|i|i|i|k|k d ex|k d ex]; cbn [effect rop_key counter_guard] in *.
  - destruct Ef as [-> ->]. auto.
  - destruct Ef as [-> ->]. unfold stored. rewrite N. split; [apply twin_put; assumption|cbn; congruence].
  - destruct Ef as [-> ->]. unfold stored. rewrite N. split; [apply twin_put; assumption|cbn; congruence].
  - destruct Ef as [-> ->]. unfold stored. rewrite N. split; [apply twin_put; assumption|cbn; congruence].
  - destruct Ef as (-> & -> & C1 & C2). split; [split; [exact I|reflexivity]|congruence].
  - destruct Ef as (e & v & _ & Lk & -> & ->). rewrite (delta_expire pn w k p cp hp cs e P E N G Lk). split; [apply twin_put; assumption|cbn; congruence].
  - destruct Ef as (e & v & _ & Lk & -> & ->). rewrite (delta_expire pn w k p cp hp cs e P E N G Lk). split; [apply twin_put; assumption|cbn; congruence].
Qed.

Lemma in_step_step : forall n w o w' x, 0 <= n -> good_world (n + 1) (ps ++ ss) w -> legal_rop o -> counter_guard pn w o -> in_step w ->
  exec meta_server (rp_prog pn sn o) w = (w', Ok x) -> in_step w'.
Proof.
  intros n w o w' x Hn G L Cg [Ec A] E.
  destruct (pool_step ps ss pn sn Rings n w o w' (Ok x) Hn G L E) as (_ & p & s & cp & cs & cp' & cs' & hp & hs & Pp & Ps & Ip & Is & Ep & Es & Wp & Ws & Ep' & Es' & N & Chp & Chs & Ot & Ef).
  specialize (Ef x eq_refl). pose proof (A (rop_key o)) as Ak. rewrite (held_p pn w _ p cp hp Pp Ep), (held_s sn w _ s cs hs Ps Es) in Ak.
  pose proof (Ec _ _ _ Pp Ps) as Ck. rewrite Ep, Es in Ck. cbn [fresh_link l_cache] in Ck.
  destruct (effect_twin w o x p cp cs cp' cs' hp Pp Ep N Ck Cg Ak Ef) as [T C'].
  assert (Own : forall j q t, pick pn j = Ok q -> pick sn j = Ok t ->
     (q = p /\ t = s) \/ (w' (sv_id q) = w (sv_id q) /\ w' (sv_id t) = w (sv_id t))).
  { intros j q t Pq Pt. pose proof (owner_in_p _ _ _ _ Rings j q Pq) as Iq. pose proof (owner_in_s _ _ _ _ Rings j t Pt) as It.
    destruct (Nat.eq_dec (sv_id q) (sv_id p)) as [Q|Q].
    - left. assert (q = p) by (eapply id_p; eassumption). subst q. split; [reflexivity|].
      assert (X : pick sn j = pick sn (rop_key o)) by (apply Mirror; congruence). congruence.
    - right. assert (Qs : sv_id t <> sv_id s).
      { intro Q'. assert (t = s) by (eapply id_s; eassumption). subst t. apply Q.
        assert (X : pick pn j = pick pn (rop_key o)) by (apply Mirror; congruence). congruence. }
      split; apply Ot; auto.
      + eapply apart; eassumption.
      + intro Q'. symmetry in Q'. revert Q'. eapply apart; eassumption. }
  split.
  - intros j q t Pq Pt. destruct (Own j q t Pq Pt) as [[-> ->]|[-> ->]]; [rewrite Ep', Es'; exact C'|]. exact (Ec j q t Pq Pt).
  - intro j. destruct (owner_p _ _ _ _ Rings j) as (q & Pq & Iq). destruct (owner_s _ _ _ _ Rings j) as (t & Pt & It). specialize (A j). unfold held in *. rewrite Pq, Pt in *.
    destruct (Own j q t Pq Pt) as [[-> ->]|[-> ->]]; [|exact A]. rewrite Ep, Es in A. rewrite Ep', Es'. cbn [fresh_link l_cache] in *.
    destruct (beq_dec_cases j (rop_key o)) as [[_ ->]|[_ Nj]]; [exact T|]. rewrite (chg_lookup _ _ _ _ Chp Nj), (chg_lookup _ _ _ _ Chs Nj). exact A.
Qed.

Lemma lookup_tick : forall c d k e, 0 <= d -> lookup (tick c d) k = Some e -> lookup c k = Some e.
Proof.
  intros c d k e D H. unfold lookup, tick in *. cbn [c_map c_now] in H. destruct (c_map c k) as [x|]; [|discriminate]. unfold alive in *.
  destruct (e_expire x) as [t|]; [|exact H]. destruct (c_now c + d <? t) eqn:Q; [|discriminate]. apply Z.ltb_lt in Q.
  replace (c_now c <? t) with true by (symmetry; apply Z.ltb_lt; lia). exact H.
Qed.
Lemma in_step_tick : forall n w d, 0 <= d -> good_world n (ps ++ ss) w -> in_step w -> in_step (all_tick w d).
Proof.
  intros n w d D G [Ec A]. split; [intros j q t Pq Pt; exact (Ec j q t Pq Pt)|]. intro k. split.
  - apply (agree_tick ps ss pn sn Rings n w d D G). intro j. apply A.
  - assert (S : same_entry (held pn (all_tick w d) k) (held sn (all_tick w d) k)) by (apply (agree_tick ps ss pn sn Rings n w d D G); intro j; apply A).
    specialize (A k). unfold held, all_tick in *. destruct (owner_p _ _ _ _ Rings k) as (p & Pp & _). destruct (owner_s _ _ _ _ Rings k) as (s & Ps & _). rewrite Pp, Ps in *.
    cbn [link_tick l_cache] in *.
    destruct (lookup (tick (l_cache (w (sv_id p))) d) k) as [e1|] eqn:E1, (lookup (tick (l_cache (w (sv_id s))) d) k) as [e2|] eqn:E2; cbn in S; try contradiction; [|reflexivity].
    apply (lookup_tick _ _ _ _ D) in E1. apply (lookup_tick _ _ _ _ D) in E2. rewrite E1, E2 in A. apply A.
Qed.
Lemma history_in_step : forall evs n w w' rs, 0 <= n -> good_world (zlen evs + n) (ps ++ ss) w -> in_step w -> Forall legal_revent evs ->
  counters_expire pn sn w evs -> history pn sn w evs = (w', rs) -> Forall succeeded rs ->
  in_step w' /\ good_world n (ps ++ ss) w'.
Proof.
  induction evs as [|ev evs IH]; intros n w w' rs Hn G A L C E F.
  - cbn in E. inversion E; subst. split; [exact A|exact G].
  - rewrite zlen_cons in G. pose proof (zlen_nonneg _ evs). inversion L; subst. destruct ev as [o|d]; cbn [history counters_expire] in *.
    + destruct (exec meta_server (rp_prog pn sn o) w) as [w1 r1] eqn:Ex. cbn [fst snd] in *. destruct (history pn sn w1 evs) as [w2 rs2] eqn:Eh. cbn [fst snd] in *.
      inversion E; subst. inversion F; subst. destruct H4 as [x ->]. destruct C as [Cg C].
      assert (G' : good_world (zlen evs + n + 1) (ps ++ ss) w) by (eapply good_mono; [|exact G]; lia).
      destruct (pool_step ps ss pn sn Rings (zlen evs + n) w o w1 (Ok x) ltac:(lia) G' H2 Ex) as [G1 _].
      eapply IH; [exact Hn|exact G1| |exact H3|exact C|exact Eh|exact H5]. eapply (in_step_step (zlen evs + n)); [lia|exact G'|exact H2|exact Cg|exact A|exact Ex].
    + cbn [legal_revent] in H2. eapply IH; [exact Hn| | |exact H3|exact C|exact E|exact F].
      * apply good_tick; [exact H2|]. eapply good_mono; [|exact G]. lia.
      * eapply in_step_tick; [exact H2|exact G|exact A].
Qed.

Lemma cas_set : forall w k v f ex p s cp cs hp hs e, in_step w -> pick pn k = Ok p -> pick sn k = Ok s ->
  w (sv_id p) = fresh_link cp hp -> w (sv_id s) = fresh_link cs hs -> wf PMeta cp -> wf PMeta cs -> c_cas cp + 1 < 2 ^ 63 -> c_cas cs + 1 < 2 ^ 63 ->
  sv_id p <> sv_id s -> lookup cp k = Some e -> legal_item PMeta (mkItem k v f ex (e_cas e) []) ->
  too_large cp v = false -> too_large cs v = false ->
  snd (exec meta_server (rp_prog pn sn (RSet (mkItem k v f ex (e_cas e) []))) w) = Ok RUnit.
Proof.
  intros w k v f ex p s cp cs hp hs e [Ec A] Pp Ps Ep Es Wp Ws Cp Cs D Lk L Tp Ts. set (i := mkItem k v f ex (e_cas e) []) in *.
  assert (One : forall c h e', wf PMeta c -> c_cas c + 1 < 2 ^ 63 -> lookup c k = Some e' -> e_cas e' = e_cas e -> too_large c v = false ->
    snd (meta_server (fresh_link c h) (OSet i)) = Ok RUnit).
  { intros c h e' W C Lc Ce T. destruct (meta_answers c h (OSet i) k W ltac:(lia) L eq_refl eq_refl) as (out & Em & B). rewrite Em. cbn [snd].
    destruct B as [B|[Q _]]; [|discriminate Q]. destruct (wf_lookup _ _ _ _ W Lc) as (_ & _ & E3 & _).
    cbn [spec_step snd i it_cas it_key it_value] in B. replace (e_cas e =? 0) with false in B by (symmetry; apply Z.eqb_neq; lia).
    unfold cache_cas in B. rewrite T, Lc, Ce, Z.eqb_refl in B. cbn in B. destruct out; try contradiction. subst. reflexivity. }
  cbn [rp_prog]. unfold rp_store, on_ring. cbn [i it_key]. rewrite Pp, Ps. cbn [exec]. unfold server_call. cbn [fst snd]. rewrite Ep.
  specialize (A k). rewrite (held_p pn w k p cp hp Pp Ep), (held_s sn w k s cs hs Ps Es), Lk in A. destruct A as [A1 A2].
  destruct (lookup cs k) as [e'|] eqn:Lk'; [|contradiction]. cbn in A2. assert (Ce : e_cas e' = e_cas e) by congruence.
  change (mkItem k v f ex (e_cas e) []) with i. rewrite (One cp hp e Wp Cp Lk eq_refl Tp). cbn [if_ok exec snd fst]. unfold server_call. cbn [fst snd]. rewrite upd_other by congruence. rewrite Es.
  change (mkItem k v f ex (e_cas e) []) with i. exact (One cs hs e' Ws Cs Lk' Ce Ts).
Qed.
End Twins.

(** ** Interleavings *)
Lemma set_nth_same : forall A i (x : A) l, (i < length l)%nat -> nth_error (set_nth i x l) i = Some x.
Proof. intros A. induction i as [|i IH]; intros x [|y l] H; cbn in *; try lia; [reflexivity|]. apply IH. lia. Qed.
Lemma set_nth_other : forall A i j (x : A) l, j <> i -> nth_error (set_nth i x l) j = nth_error l j.
Proof. intros A. induction i as [|i IH]; intros [|j] x [|y l] H; cbn in *; try congruence; try reflexivity. apply IH. congruence. Qed.
Lemma set_nth_length : forall A i (x : A) l, length (set_nth i x l) = length l.
Proof. intros A. induction i as [|i IH]; intros x [|y l]; cbn; auto. Qed.

Section Interleave.
Variables (ps ss : list server) (pn sn : list node).
Hypothesis Rings : two_rings ps ss pn sn.
Variable now : Z.

Definition good_now (n : Z) (w : world link) : Prop :=
  forall sv, In sv (ps ++ ss) -> exists c h, w (sv_id sv) = fresh_link c h /\ wf PMeta c /\ c_now c = now /\ c_cas c + n < 2 ^ 63.

Lemma one_call : forall n w sv o k, good_now (n + 1) w -> In sv (ps ++ ss) -> legal PMeta o -> op_key o = Some k -> replica_op o = true -> 0 <= n ->
  exists c h a, w (sv_id sv) = fresh_link c h /\ wf PMeta c /\ c_now c = now
    /\ server_call meta_server w sv o = (upd w (sv_id sv) (fresh_link (step1 c o) h), a)
    /\ (agrees (snd (spec_step PMeta [] c o)) a \/ (o = ODelete k /\ lookup c k = None /\ a = Ok RUnit))
    /\ good_now n (upd w (sv_id sv) (fresh_link (step1 c o) h))
    /\ (forall nodes j, j <> k -> held nodes (upd w (sv_id sv) (fresh_link (step1 c o) h)) j = held nodes w j)
    /\ (forall nodes j t, pick nodes j = Ok t -> sv_id t <> sv_id sv -> held nodes (upd w (sv_id sv) (fresh_link (step1 c o) h)) j = held nodes w j).
Proof.
  intros n w sv o k G I L K T Hn. destruct (G sv I) as (c & h & E & W & N & C). destruct (meta_answers c h o k W ltac:(lia) L K T) as (a & Em & A).
  exists c, h, a. unfold server_call. rewrite E, Em. cbn [fst snd]. pose proof (chg_step c o k W L K) as Ch.
  split; [reflexivity|]. split; [exact W|]. split; [exact N|]. split; [reflexivity|]. split; [exact A|]. split; [|split].
  - intros t It. unfold upd. destruct (Nat.eqb (sv_id t) (sv_id sv)).
    + exists (step1 c o), h. destruct Ch as (C1 & C2 & C3 & C4 & C5). split; [reflexivity|]. split; [exact C1|]. split; [congruence|lia].
    + destruct (G t It) as (c' & h' & E' & W' & N' & C'). exists c', h'. split; [exact E'|]. split; [exact W'|]. split; [exact N'|lia].
  - intros nodes j Nj. unfold held. destruct (pick nodes j) as [t|e|]; [|reflexivity|reflexivity]. unfold upd. destruct (Nat.eqb (sv_id t) (sv_id sv)) eqn:Q; [|reflexivity].
    apply Nat.eqb_eq in Q. rewrite Q, E. cbn [fresh_link l_cache]. apply chg_lookup with (k := k); assumption.
  - intros nodes j t Pt Nt. unfold held. rewrite Pt, upd_other by exact Nt. reflexivity.
Qed.

Definition as_stored (i : item) : option entry :=
  let e := mkEntry (it_value i) (item_flags i) (expire_at now (it_exp i)) 0 false in if alive now e then Some e else None.
Lemma stored_as : forall c i, c_now c = now -> same_entry (lookup (stored c i) (it_key i)) (as_stored i).
Proof. intros c i N. unfold stored, as_stored. rewrite lookup_put. cbv zeta. unfold alive. cbn [e_expire]. rewrite N. destruct (expire_at now (it_exp i)) as [t|]; [destruct (now <? t)|]; cbn; auto. Qed.
Lemma same_sym : forall a b, same_entry a b -> same_entry b a.
Proof. intros [a|] [b|] H; cbn in *; auto. destruct H as (A & B & C). auto. Qed.
Lemma same_trans : forall a b c, same_entry a b -> same_entry b c -> same_entry a c.
Proof. intros [a|] [b|] [c|] H1 H2; cbn in *; auto; try contradiction. destruct H1 as (A & B & C), H2 as (D & E & F). repeat split; congruence. Qed.

Definition agree_at (w : world link) (k : bytes) : Prop := same_entry (held pn w k) (held sn w k).
Definition soon (w : world link) (k : bytes) : Prop :=
  match held pn w k with Some e => exists t, e_expire e = Some t /\ t - now <= month | None => True end.
Definition needs_soon (o : rop) (w : world link) : Prop := match o with RIncr k _ _ | RDecr k _ _ => soon w k | _ => True end.
Definition delta_get (p : server) (k : bytes) (n : result) : prog :=
  Call p (OGet k) (fun r => if_ok r (fun g =>
          match g with
          | RItem i => on_ring sn k (OSet (replica_item k i)) (fun r => if_ok r (fun _ => Ret (Ok n)))
          | _ => Ret Panic
          end)).
Inductive phase (w : world link) (o : rop) : prog -> Prop :=
| ph_read : forall t, writes o = false -> t = rp_prog pn sn o \/ (exists r, t = Ret r) -> phase w o t
| ph_start : writes o = true -> needs_soon o w -> agree_at w (rop_key o) -> phase w o (rp_prog pn sn o)
| ph_store : forall i, writes o = true -> it_key i = rop_key o -> legal_item PMeta i -> same_entry (held pn w (rop_key o)) (as_stored i) -> phase w o (on_ring sn (rop_key o) (OSet i) Ret)
| ph_delete : writes o = true -> held pn w (rop_key o) = None -> phase w o (on_ring sn (rop_key o) (ODelete (rop_key o)) Ret)
| ph_get : forall p n, writes o = true -> pick pn (rop_key o) = Ok p -> soon w (rop_key o) -> phase w o (delta_get p (rop_key o) n)
| ph_copy : forall i n, writes o = true -> it_key i = rop_key o -> legal_item PMeta i -> same_entry (held pn w (rop_key o)) (as_stored i) ->
    phase w o (on_ring sn (rop_key o) (OSet i) (fun r => if_ok r (fun _ => Ret (Ok n))))
| ph_ok : forall x, agree_at w (rop_key o) -> phase w o (Ret (Ok x))
| ph_fail : forall r, (forall x, r <> Ok x) -> phase w o (Ret r).

Lemma phase_other : forall w w' o t, held pn w' (rop_key o) = held pn w (rop_key o) -> held sn w' (rop_key o) = held sn w (rop_key o) ->
  phase w o t -> phase w' o t.
Proof.
  intros w w' o t Hp Hs P. destruct P.
  - apply ph_read; assumption.
  - apply ph_start; [assumption| |unfold agree_at; rewrite Hp, Hs; assumption]. destruct o; auto; cbn [needs_soon rop_key] in *; unfold soon in *; rewrite Hp; assumption.
  - apply ph_store; [assumption|assumption|assumption|rewrite Hp; assumption].
  - apply ph_delete; [assumption|]. rewrite Hp. assumption.
  - apply ph_get; [assumption|assumption|]. unfold soon in *. rewrite Hp. assumption.
  - apply ph_copy; [assumption|assumption|assumption|rewrite Hp; assumption].
  - apply ph_ok. unfold agree_at. rewrite Hp, Hs. assumption.
  - apply ph_fail. assumption.
Qed.
Lemma phase_reader : forall w w' o t, writes o = false -> phase w o t -> (t = rp_prog pn sn o \/ exists r, t = Ret r) -> phase w' o t.
Proof. intros w w' o t R _ H. apply ph_read; assumption. Qed.

(** What one call does to the thread that makes it. *)
Lemma phase_step : forall n w o sv ox kx, 0 <= n -> good_now (n + 1) w -> legal_rop o -> phase w o (Call sv ox kx) ->
  exists w' a, server_call meta_server w sv ox = (w', a) /\ good_now n w' /\ phase w' o (kx a)
    /\ (forall nodes j, j <> rop_key o \/ writes o = false -> held nodes w' j = held nodes w j).
Proof.
  intros n w o sv ox kx Hn G L P. set (k := rop_key o) in *.
  destruct (owner_p _ _ _ _ Rings k) as (p & Pp & Ip). destruct (owner_s _ _ _ _ Rings k) as (s & Ps & Is).
  assert (Ips : In p (ps ++ ss)) by (apply in_or_app; auto). assert (Iss : In s (ps ++ ss)) by (apply in_or_app; auto).
  assert (D : sv_id p <> sv_id s) by (eapply apart; eassumption).
  assert (Lk : legal_key PMeta k).
  { unfold legal_rop, primary_op in L. unfold k. destruct o; cbn [legal rop_key] in *; try apply L. }
  (* a get changes nothing *)
  assert (Get : exists c h a, w (sv_id p) = fresh_link c h /\ wf PMeta c /\ c_now c = now /\ agrees (snd (spec_step PMeta [] c (OGet k))) a
     /\ server_call meta_server w p (OGet k) = (upd w (sv_id p) (fresh_link c h), a) /\ good_now n (upd w (sv_id p) (fresh_link c h))
     /\ (forall nodes j, held nodes (upd w (sv_id p) (fresh_link c h)) j = held nodes w j)).
  { destruct (one_call n w p (OGet k) k G Ips Lk eq_refl eq_refl Hn) as (c & h & a & E & W & N & S & A & G' & O1 & O2). exists c, h, a.
    destruct A as [A|[Q _]]; [|discriminate Q]. split; [exact E|]. split; [exact W|]. split; [exact N|]. split; [exact A|]. split; [exact S|]. split; [exact G'|]. intros nodes j. unfold held. destruct (pick nodes j) as [t|?|]; auto.
    unfold upd. destruct (Nat.eqb (sv_id t) (sv_id p)) eqn:Q; [|reflexivity]. apply Nat.eqb_eq in Q. rewrite Q, E. reflexivity. }
  (* the final Set on the secondary *)
  assert (Copy : forall i fin, it_key i = k -> legal_item PMeta i -> same_entry (held pn w k) (as_stored i) ->
     (forall a, (exists x, a = Ok x) -> exists y, fin a = Ret (Ok y)) -> (forall a, (forall x, a <> Ok x) -> exists r, fin a = Ret r /\ forall x, r <> Ok x) ->
     exists w' a, server_call meta_server w s (OSet i) = (w', a) /\ good_now n w' /\ phase w' o (fin a) /\ (forall nodes j, j <> k -> held nodes w' j = held nodes w j)).
  { intros i fin Ki Li Sm F1 F2. destruct (one_call n w s (OSet i) k G Iss Li ltac:(cbn; congruence) eq_refl Hn) as (c & h & a & E & W & N & S & A & G' & O1 & O2).
    exists (upd w (sv_id s) (fresh_link (step1 c (OSet i)) h)), a. split; [exact S|]. split; [exact G'|]. split; [|exact O1].
    destruct a as [x|e|].
    - destruct (F1 (Ok x) ltac:(eauto)) as (y & ->). apply ph_ok. unfold agree_at. fold k. rewrite (O2 pn k p Pp D).
      destruct A as [A|[Q _]]; [|discriminate Q]. rewrite (held_s sn _ k s (step1 c (OSet i)) h Ps (upd_same _ _ _)).
      rewrite (store_effect c (OSet i) i ltac:(left; reflexivity) ltac:(exists x; apply agrees_ok; exact A)). eapply same_trans; [exact Sm|]. apply same_sym. rewrite <- Ki. apply stored_as. exact N.
    - destruct (F2 (Err e) ltac:(discriminate)) as (r & -> & Nr). apply ph_fail. exact Nr.
    - destruct (F2 Panic ltac:(discriminate)) as (r & -> & Nr). apply ph_fail. exact Nr. }
  (* the first call of a store *)
  assert (Store : forall first i, stores (first i) i -> legal PMeta (first i) -> legal_item PMeta i -> op_key (first i) = Some k -> it_key i = k ->
     replica_op (first i) = true -> writes o = true -> exists w' a, server_call meta_server w p (first i) = (w', a) /\ good_now n w'
       /\ phase w' o (if_ok a (fun _ => on_ring sn k (OSet i) Ret)) /\ (forall nodes j, j <> k -> held nodes w' j = held nodes w j)).
  { intros first i Si Lf Li K Ki T Wr. destruct (one_call n w p (first i) k G Ips Lf K T Hn) as (c & h & a & E & W & N & S & A & G' & O1 & O2).
    exists (upd w (sv_id p) (fresh_link (step1 c (first i)) h)), a. split; [exact S|]. split; [exact G'|]. split; [|exact O1].
    destruct a as [x|e|]; cbn [if_ok]; [|apply ph_fail; discriminate|apply ph_fail; discriminate]. apply ph_store; [exact Wr|exact Ki|exact Li|]. fold k.
    assert (Ax : exists y, snd (spec_step PMeta [] c (first i)) = SOk y).
    { destruct A as [A|[Q _]]; [exists x; apply agrees_ok; exact A|]. destruct Si as [Si|[Si|Si]]; rewrite Si in Q; discriminate Q. }
    rewrite (held_p pn _ k p (step1 c (first i)) h Pp (upd_same _ _ _)). rewrite (store_effect c _ i Si Ax), <- Ki. apply stored_as. exact N. }
  (* the first call of a counter *)
  assert (Delta : forall od, counts od k -> legal PMeta od -> soon w k -> writes o = true -> exists w' a, server_call meta_server w p od = (w', a) /\ good_now n w'
       /\ phase w' o (if_ok a (fun n => delta_get p k n)) /\ (forall nodes j, j <> k -> held nodes w' j = held nodes w j)).
  { intros od Ct Lo So Wr. assert (K : op_key od = Some k) by (destruct Ct as (d & ex & [->| ->]); reflexivity).
    assert (T : replica_op od = true) by (destruct Ct as (d & ex & [->| ->]); reflexivity).
    destruct (one_call n w p od k G Ips Lo K T Hn) as (c & h & a & E & W & N & S & A & G' & O1 & O2).
    exists (upd w (sv_id p) (fresh_link (step1 c od) h)), a. split; [exact S|]. split; [exact G'|]. split; [|exact O1].
    destruct a as [x|e|]; cbn [if_ok]; [|apply ph_fail; discriminate|apply ph_fail; discriminate]. apply ph_get; [exact Wr|exact Pp|].
    assert (Ax : snd (spec_step PMeta [] c od) = SOk x).
    { destruct A as [A|[Q _]]; [apply agrees_ok; exact A|]. destruct Ct as (d & ex & [->| ->]); discriminate Q. }
    destruct (delta_effect c od k x Ct Ax) as (e & v & _ & Le & P1). unfold soon in *. fold k. rewrite (held_p pn w k p c h Pp E), Le in So.
    rewrite (held_p pn _ k p (step1 c od) h Pp (upd_same _ _ _)), P1, lookup_put. cbv zeta. destruct (alive _ _); [exact So|exact Logic.I]. }
  assert (W1 : forall w', (forall nodes j, j <> k -> held nodes w' j = held nodes w j) -> writes o = true ->
     forall nodes j, j <> k \/ writes o = false -> held nodes w' j = held nodes w j) by (intros w' H Wr nodes j [J|J]; [auto|congruence]).
  inversion P as [t Wr [Et|[r Et]]|Wr Sn Ag Et|i Wr Ki Li Sm Et|Wr Hd Et|p' nr Wr Pp' So Et|i nr Wr Ki Li Sm Et|x Ag Et|r Nr Et]; try discriminate Et.
  - destruct o; try discriminate Wr. cbn [rp_prog] in Et. unfold rp_get, on_ring in Et. change (rop_key (RGet k0)) with k0 in k. subst k. rewrite Pp in Et. inversion Et; subst.
    destruct Get as (c & h & a & E & W & N & A & S & G' & O). exists (upd w (sv_id p) (fresh_link c h)), a. split; [exact S|]. split; [exact G'|]. split; [|intros; apply O].
    apply ph_read; [reflexivity|]. right. eauto.
  - destruct o as [k0|i|i|i|k0|k0 d e|k0 d e]; try discriminate Wr; cbn [rp_prog needs_soon] in *.
    + unfold rp_store, on_ring in Et. change (it_key i) with k in Et. rewrite Pp in Et. inversion Et; subst.
      destruct (Store OSet i) as (w' & a & S & G' & Ph & O); auto; [left; reflexivity|]. exists w', a. split; [exact S|]. split; [exact G'|]. split; [exact Ph|]. apply W1; auto.
    + unfold rp_store, on_ring in Et. change (it_key i) with k in Et. rewrite Pp in Et. inversion Et; subst.
      destruct (Store OAdd i) as (w' & a & S & G' & Ph & O); auto; [right; left; reflexivity|apply L|]. exists w', a. split; [exact S|]. split; [exact G'|]. split; [exact Ph|]. apply W1; auto.
    + unfold rp_store, on_ring in Et. change (it_key i) with k in Et. rewrite Pp in Et. inversion Et; subst.
      destruct (Store OReplace i) as (w' & a & S & G' & Ph & O); auto; [right; right; reflexivity|apply L|]. exists w', a. split; [exact S|]. split; [exact G'|]. split; [exact Ph|]. apply W1; auto.
    + unfold rp_delete, on_ring in Et. change k0 with k in Et. rewrite Pp in Et. inversion Et; subst.
      destruct (one_call n w sv (ODelete k) k G Ips Lk eq_refl eq_refl Hn) as (c & h & a & E & W & N & S & A & G' & O1 & O2).
      eexists. exists a. split; [exact S|]. split; [exact G'|]. split; [|apply W1; auto].
      destruct a as [x|e|]; cbn [if_ok]; [|apply ph_fail; discriminate|apply ph_fail; discriminate]. apply (ph_delete _ (RDelete k)); [reflexivity|]. cbn [rop_key].
      rewrite (held_p pn _ k sv _ h Pp (upd_same _ _ _)). apply delete_effect.
    + unfold rp_delta in Et. change k0 with k in Et. rewrite Pp in Et. inversion Et; subst.
      destruct (Delta (OIncr k d e)) as (w' & a & S & G' & Ph & O); auto; [exists d, e; left; reflexivity|]. exists w', a. split; [exact S|]. split; [exact G'|]. split; [exact Ph|]. apply W1; auto.
    + unfold rp_delta in Et. change k0 with k in Et. rewrite Pp in Et. inversion Et; subst.
      destruct (Delta (ODecr k d e)) as (w' & a & S & G' & Ph & O); auto; [exists d, e; right; reflexivity|]. exists w', a. split; [exact S|]. split; [exact G'|]. split; [exact Ph|]. apply W1; auto.
  - unfold on_ring in Et. fold k in Et. rewrite Ps in Et. inversion Et; subst.
    destruct (Copy i Ret Ki Li Sm) as (w' & a & S & G' & Ph & O); [intros a [x ->]; eauto|intros a Na; eauto|].
    exists w', a. split; [exact S|]. split; [exact G'|]. split; [exact Ph|]. apply W1; auto.
  - unfold on_ring in Et. fold k in Et. rewrite Ps in Et. inversion Et; subst.
    destruct (one_call n w sv (ODelete k) k G Iss Lk eq_refl eq_refl Hn) as (c & h & a & E & W & N & S & A & G' & O1 & O2).
    eexists. exists a. split; [exact S|]. split; [exact G'|]. split; [|apply W1; auto].
    destruct a as [x|e|]; [|apply ph_fail; discriminate|apply ph_fail; discriminate]. apply ph_ok. unfold agree_at. fold k.
    rewrite (O2 pn k p Pp D). rewrite (held_s sn _ k sv _ h Ps (upd_same _ _ _)). fold k in Hd. rewrite Hd.
    rewrite (proj1 (delete_effect c k)). exact Logic.I.
  - fold k in Pp', So. assert (p' = p) by congruence. subst p' sv ox kx.
    destruct Get as (c & h & a & E & W & N & A & S & G' & O). exists (upd w (sv_id p) (fresh_link c h)), a. split; [exact S|]. split; [exact G'|]. split; [|intros; apply O].
    cbn [spec_step snd] in A. destruct a as [g|e|]; cbn [if_ok]; [|apply ph_fail; discriminate|apply ph_fail; discriminate].
    destruct (lookup c k) as [e1|] eqn:Lc; cbn [agrees] in A; [|contradiction]. subst g.
    apply ph_copy; [exact Wr|reflexivity|apply replica_item_legal; assumption|]. fold k. rewrite O, (held_p pn w k p c h Pp E), Lc.
    unfold soon in So. rewrite (held_p pn w k p c h Pp E), Lc in So. destruct So as (t & Et1 & M).
    pose proof (lookup_map _ _ _ Lc) as [_ Al]. unfold as_stored. rewrite (replica_item_flags c k e1 W Lc). cbn [replica_item item_view it_value it_exp].
    unfold ttl. rewrite Et1, N. unfold alive in Al. rewrite Et1, N in Al. assert (Al' := Al). apply Z.ltb_lt in Al'. rewrite expire_same by assumption.
    unfold alive. cbn [e_expire]. rewrite Al. cbn. auto.
  - unfold on_ring in Et. fold k in Et. rewrite Ps in Et. inversion Et; subst.
    destruct (Copy i (fun r => if_ok r (fun _ => Ret (Ok nr))) Ki Li Sm) as (w' & a & S & G' & Ph & O);
      [intros a [x ->]; exists nr; reflexivity|intros [x|e|] Na; [exfalso; exact (Na x eq_refl)|exists (Err e); split; [reflexivity|discriminate]|exists Panic; split; [reflexivity|discriminate]]|].
    exists w', a. split; [exact S|]. split; [exact G'|]. split; [exact Ph|]. apply W1; auto.
Qed.

Definition threads_ok (w : world link) (os : list rop) (ts : list prog) : Prop :=
  length ts = length os /\ forall i o t, nth_error os i = Some o -> nth_error ts i = Some t -> phase w o t.
Definition rest_agree (w : world link) (os : list rop) : Prop :=
  forall k, (forall o, In o os -> writes o = true -> rop_key o <> k) -> agree_at w k.

Lemma interleave_inv : forall n w os ts w' ts', interleave meta_server n w ts w' ts' ->
  good_now (Z.of_nat n) w -> Forall legal_rop os -> different_keys os -> threads_ok w os ts -> rest_agree w os ->
  threads_ok w' os ts' /\ rest_agree w' os /\ good_now 0 w'.
Proof.
  intros n w os ts w' ts' Il. induction Il as [w ts|n i sv ox kx w ts w' ts' Hi Il IH]; intros G L Dk [Len T] R.
  - split; [split; assumption|]. split; [exact R|exact G].
  - assert (Ho : exists o, nth_error os i = Some o).
    { destruct (nth_error os i) as [o|] eqn:Q; [eauto|]. apply nth_error_None in Q. rewrite <- Len in Q. apply nth_error_None in Q. congruence. }
    destruct Ho as [o Ho]. pose proof (T i o _ Ho Hi) as P. assert (Lo : legal_rop o) by (rewrite Forall_forall in L; apply L; eapply nth_error_In; eassumption).
    assert (G1 : good_now (Z.of_nat n + 1) w) by (replace (Z.of_nat n + 1) with (Z.of_nat (S n)) by lia; exact G).
    destruct (phase_step (Z.of_nat n) w o sv ox kx ltac:(lia) G1 Lo P) as (w1 & a & S & G' & P' & O). rewrite S in Il, IH. cbn [fst snd] in Il, IH.
    apply IH; [exact G'|exact L|exact Dk| |].
    + split; [rewrite set_nth_length; exact Len|]. intros j o' t Hj Ht. destruct (Nat.eq_dec j i) as [->|Nj].
      * rewrite set_nth_same in Ht by (apply nth_error_Some; congruence). rewrite Ho in Hj. congruence.
      * rewrite set_nth_other in Ht by exact Nj. pose proof (T j o' t Hj Ht) as Pj.
        destruct (writes o') eqn:Wj.
        -- destruct (writes o) eqn:Wo.
           ++ assert (rop_key o' <> rop_key o) by (eapply Dk; eassumption). apply (phase_other w w1); auto.
           ++ apply (phase_other w w1); auto.
        -- apply ph_read; [exact Wj|]. inversion Pj; subst; try congruence; eauto.
    + intros k Hk. unfold agree_at. destruct (writes o) eqn:Wo.
      * assert (k <> rop_key o) by (intro Q; apply (Hk o); [eapply nth_error_In; eassumption|exact Wo|auto]). rewrite !O by auto. apply R. exact Hk.
      * rewrite !O by auto. apply R. exact Hk.
Qed.

Lemma interleave_agree : forall n w os w' ts', interleave meta_server n w (map (rp_prog pn sn) os) w' ts' ->
  good_now (Z.of_nat n) w -> Forall legal_rop os -> different_keys os -> (forall o, In o os -> needs_soon o w) -> replicas_agree pn sn w ->
  (forall t, In t ts' -> exists x, t = Ret (Ok x)) -> replicas_agree pn sn w'.
Proof.
  intros n w os w' ts' Il G L Dk Ns A F.
  assert (T : threads_ok w os (map (rp_prog pn sn) os)).
  { split; [apply map_length|]. intros i o t Ho Ht. rewrite nth_error_map, Ho in Ht. cbn in Ht. inversion Ht; subst.
    destruct (writes o) eqn:Wo; [apply ph_start; [exact Wo|apply Ns; eapply nth_error_In; eassumption|apply A]|apply ph_read; auto]. }
  destruct (interleave_inv n w os _ w' ts' Il G L Dk T ltac:(intros k _; apply A)) as ([Len T'] & R & _).
  intro k. destruct (existsb (fun o => writes o && beq (rop_key o) k) os) eqn:Q.
  - apply existsb_exists in Q. destruct Q as (o & Io & Qo). apply andb_prop in Qo. destruct Qo as [Wo Ko].
    assert (Kk : rop_key o = k) by (destruct (beq_dec_cases (rop_key o) k) as [[_ ?]|[E _]]; [assumption|congruence]).
    apply In_nth_error in Io. destruct Io as [i Ho]. destruct (nth_error ts' i) as [t|] eqn:Ht.
    2:{ apply nth_error_None in Ht. rewrite Len in Ht. apply nth_error_None in Ht. congruence. }
    pose proof (T' i o t Ho Ht) as P. destruct (F t ltac:(eapply nth_error_In; eassumption)) as [x ->].
    rewrite <- Kk. remember (Ret (Ok x)) as tx eqn:Et. destruct P as [t Wr _|Wr Sn Ag|i' Wr Ki Li Sm|Wr Hd|p' nr Wr Pp' So|i' nr Wr Ki Li Sm|y Ag|r Nr].
    + congruence.
    + exfalso. destruct o; cbn [rp_prog] in Et; unfold rp_get, rp_store, rp_delete, rp_delta, on_ring in Et;
      match type of Et with context [pick pn ?b] => destruct (owner_p _ _ _ _ Rings b) as (pp & Pk & _); rewrite Pk in Et; discriminate Et end.
    + exfalso. unfold on_ring in Et. destruct (owner_s _ _ _ _ Rings (rop_key o)) as (pp & Pk & _); rewrite Pk in Et; discriminate Et.
    + exfalso. unfold on_ring in Et. destruct (owner_s _ _ _ _ Rings (rop_key o)) as (pp & Pk & _); rewrite Pk in Et; discriminate Et.
    + discriminate Et.
    + exfalso. unfold on_ring in Et. destruct (owner_s _ _ _ _ Rings (rop_key o)) as (pp & Pk & _); rewrite Pk in Et; discriminate Et.
    + exact Ag.
    + exfalso. inversion Et. exact (Nr x H0).
  - apply R. intros o Io Wo Ko. assert (X : existsb (fun o => writes o && beq (rop_key o) k) os = true); [|congruence].
    apply existsb_exists. exists o. split; [exact Io|]. rewrite Wo, Ko, beq_refl. reflexivity.
Qed.
End Interleave.
