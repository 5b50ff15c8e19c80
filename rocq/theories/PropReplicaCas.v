(** * Property C47, continued: exactly when a compare-and-swap through the ReplicaPool succeeds.
    cluster/cluster.go:55-68 (ReplicaPool.Set). *)
From Verif Require Import GoBytes GoNum GoIO Item ClientText ClientMeta ClientBinary Cache Daemon Spec Call Guard
  Hash Ring RingSpec RingData Pool PoolSpec Replica ReplicaSpec PLib PDaemon PCache PText PMeta PClient PRing PPool PMulti PReplica PropPool PropReplica.
Local Open Scope Z_scope.

(** ** Specification *)
(** The cas number of a visible item. *)
Definition cas_of (e : option entry) : option Z := option_map e_cas e.
(** Nothing any Get through the pool or on a secondary could see has changed. *)
Definition unchanged (nodes : list node) (w w' : world link) : Prop := forall k, held nodes w' k = held nodes w k.
(** The item is stored: value, flags and expiry are those of [i], and the cas number is one its
    server had not given out. *)
Definition new_item (nodes : list node) (w w' : world link) (i : item) : Prop :=
  exists sv, pick nodes (it_key i) = Ok sv
    /\ c_map (l_cache (w' (sv_id sv))) (it_key i)
       = Some (mkEntry (it_value i) (item_flags i) (expire_at (c_now (l_cache (w (sv_id sv)))) (it_exp i)) (c_cas (l_cache (w (sv_id sv))) + 1) false).
(** The error: a refusal of the server, not an error of the connection; memcached.ItemExists if an item
    with another cas number is there. *)
Definition refusal (there : option entry) (r : outcome result) : Prop :=
  exists e, r = Err e /\ completed e /\ (there <> None -> e = EExists).
Definition fits (nodes : list node) (w : world link) (k v : bytes) : Prop :=
  forall sv, pick nodes k = Ok sv -> too_large (l_cache (w (sv_id sv))) v = false.

Lemma same_held : forall nodes w w', (forall i, w' i = w i) -> unchanged nodes w w'.
Proof. intros nodes w w' E k. unfold held. destruct (pick nodes k); [rewrite E|..]; reflexivity. Qed.

(** One server: a Set with a cas number. *)
Lemma cas_alone : forall c h i, wf PMeta c -> c_cas c < 2 ^ 63 -> legal_item PMeta i -> it_cas i <> 0 -> too_large c (it_value i) = false ->
  (cas_of (lookup c (it_key i)) = Some (it_cas i) /\ meta_server (fresh_link c h) (OSet i)
     = (fresh_link (Cache.put c (it_key i) (it_value i) (item_flags i) (expire_at (c_now c) (it_exp i))) h, Ok RUnit))
  \/ (cas_of (lookup c (it_key i)) <> Some (it_cas i) /\ exists r, refusal (lookup c (it_key i)) r /\ meta_server (fresh_link c h) (OSet i) = (fresh_link c h, r)).
Proof.
  intros c h i W C L Nz T. destruct (meta_answers c h (OSet i) (it_key i) W C L eq_refl eq_refl) as (out & E & A).
  destruct A as [A|[Q _]]; [|discriminate Q]. unfold step1 in E. cbn [spec_step fst snd] in E, A. rewrite (proj2 (Z.eqb_neq _ _) Nz) in E, A.
  unfold cache_cas in E, A. rewrite T in E, A. unfold cas_of. destruct (lookup c (it_key i)) as [o|]; cbn [option_map].
  - destruct (e_cas o =? it_cas i) eqn:Q; cbn [fst snd store_outcome] in E, A.
    + left. apply Z.eqb_eq in Q. rewrite Q. split; [reflexivity|]. destruct out; cbn in A; try contradiction. subst. exact E.
    + right. apply Z.eqb_neq in Q. split; [congruence|]. destruct out; cbn in A; try contradiction. subst. exists (Err EExists). split; [|exact E].
      exists EExists. split; [reflexivity|]. split; [repeat split; discriminate|reflexivity].
  - cbn [fst snd store_outcome] in E, A. right. split; [discriminate|]. destruct out; cbn in A; try contradiction. exists (Err e). split; [|exact E].
    exists e. split; [reflexivity|]. split; [exact A|congruence].
Qed.

(** A Set with a cas number through the pool succeeds if and only if the item's cas number is the given
    one on the primary and on the secondary: the number is compared with both. If the primary refuses,
    nothing is changed and an error is returned. If the primary accepts and the secondary refuses, an
    error is returned although the item was replaced on the primary, where every Get reads it; the
    secondary keeps the old one. *)
Theorem C47_cas_exactly : forall ps ss pn sn w i w' r,
  two_rings ps ss pn sn -> good_world 1 (ps ++ ss) w -> legal_item PMeta i -> it_cas i <> 0 ->
  fits pn w (it_key i) (it_value i) -> fits sn w (it_key i) (it_value i) ->
  exec meta_server (rp_prog pn sn (RSet i)) w = (w', r) ->
  let on_primary := cas_of (held pn w (it_key i)) in let on_secondary := cas_of (held sn w (it_key i)) in
  (r = Ok RUnit <-> on_primary = Some (it_cas i) /\ on_secondary = Some (it_cas i))
  /\ (r = Ok RUnit -> new_item pn w w' i /\ new_item sn w w' i)
  /\ (on_primary <> Some (it_cas i) -> refusal (held pn w (it_key i)) r /\ unchanged pn w w' /\ unchanged sn w w')
  /\ (on_primary = Some (it_cas i) -> on_secondary <> Some (it_cas i) ->
        refusal (held sn w (it_key i)) r /\ new_item pn w w' i /\ unchanged sn w w').
Proof.
  intros ps ss pn sn w i w' r R G L Nz Fp Fs E P S.
  destruct (owner_p _ _ _ _ R (it_key i)) as (p & Pp & Ip). destruct (owner_s _ _ _ _ R (it_key i)) as (s & Ps & Is).
  destruct (good_at ps ss 1 w p G ltac:(apply in_or_app; auto)) as (cp & hp & Ep & Wp & Cp). destruct (good_at ps ss 1 w s G ltac:(apply in_or_app; auto)) as (cs & hs & Es & Ws & Cs).
  assert (D : sv_id p <> sv_id s) by (eapply apart; eassumption).
  specialize (Fp p Pp). specialize (Fs s Ps). rewrite Ep in Fp. rewrite Es in Fs. cbn [fresh_link l_cache] in Fp, Fs.
  subst P S. rewrite (held_p pn w _ p cp hp Pp Ep), (held_s sn w _ s cs hs Ps Es).
  cbn [rp_prog] in E. unfold rp_store, on_ring in E. rewrite Pp, Ps in E. cbn [exec] in E. unfold server_call in E. rewrite Ep in E.
  assert (Un : forall l, l = w (sv_id p) -> forall j, upd w (sv_id p) l j = w j).
  { intros l -> j. unfold upd. destruct (Nat.eqb_spec j (sv_id p)); congruence. }
  destruct (cas_alone cp hp i Wp ltac:(lia) L Nz Fp) as [[Qp A]|[Qp (x & (e & -> & Ce) & A)]]; rewrite A in E; cbn [fst snd if_ok exec] in E.
  - unfold server_call in E. rewrite upd_other in E by congruence. rewrite Es in E.
    destruct (cas_alone cs hs i Ws ltac:(lia) L Nz Fs) as [[Qs B]|[Qs (x & (e & -> & Ce) & B)]]; rewrite B in E; cbn [fst snd exec] in E; injection E as <- <-.
    + split; [split; [intros _; auto|reflexivity]|]. split; [|split; [congruence|congruence]]. intros _. split.
      * exists p. split; [exact Pp|]. rewrite upd_other by exact D. rewrite upd_same, Ep. cbn [fresh_link l_cache Cache.put c_map put_entry]. unfold put_entry. rewrite beq_refl. reflexivity.
      * exists s. split; [exact Ps|]. rewrite upd_same, Es. cbn [fresh_link l_cache Cache.put c_map]. unfold put_entry. rewrite beq_refl. reflexivity.
    + split; [split; [discriminate|intros [_ Q]; contradiction]|]. split; [discriminate|]. split; [congruence|]. intros _ _. split; [exists e; split; [reflexivity|exact Ce]|]. split.
      * exists p. split; [exact Pp|]. rewrite upd_other by exact D. rewrite upd_same, Ep. cbn [fresh_link l_cache Cache.put c_map]. unfold put_entry. rewrite beq_refl. reflexivity.
      * intro k. unfold held. destruct (owner_s _ _ _ _ R k) as (s' & Ps' & Is'). rewrite Ps'. assert (D' : sv_id s' <> sv_id p) by (intro Q; apply (apart _ _ _ _ R p s' Ip Is'); congruence).
        destruct (Nat.eq_dec (sv_id s') (sv_id s)) as [Q|Q]; [rewrite Q, upd_same, Es; reflexivity|]. rewrite !upd_other by assumption. reflexivity.
  - injection E as <- <-. split; [split; [discriminate|intros [Q _]; contradiction]|]. split; [discriminate|]. split; [|congruence]. intros _. split; [exists e; split; [reflexivity|exact Ce]|].
    split; apply same_held; apply Un; rewrite Ep; reflexivity.
Qed.
Print Assumptions C47_cas_exactly.

(** ** The retry loop *)
(** What the documentation of compare-and-swap tells a user to do: Get the item, Set the new value with
    the cas number of that item, and start again if that fails. *)
Definition attempt (pn sn : list node) (k v : bytes) (w : world link) : world link * outcome result :=
  let g := exec meta_server (rp_prog pn sn (RGet k)) w in
  match snd g with
  | Ok (RItem i) => exec meta_server (rp_prog pn sn (RSet (mkItem k v None 0 (it_cas i) []))) (fst g)
  | r => (fst g, r)
  end.
Fixpoint attempts (pn sn : list node) (k : bytes) (vs : list bytes) (w : world link) : world link * list (outcome result) :=
  match vs with
  | [] => (w, [])
  | v :: vs => let a := attempt pn sn k v w in let b := attempts pn sn k vs (fst a) in (fst b, snd a :: snd b)
  end.
(** The item has another cas number on the secondary than on the primary, and the primary has given out
    at least that many numbers (as it has when it serves all the keys and there are several
    secondaries). *)
Definition cas_behind (pn sn : list node) (w : world link) (k : bytes) : Prop :=
  exists p e e', pick pn k = Ok p /\ held pn w k = Some e /\ held sn w k = Some e' /\ e_cas e' <> e_cas e
    /\ e_cas e' <= c_cas (l_cache (w (sv_id p))).
Definition small_enough (pn sn : list node) (w : world link) (k v : bytes) : Prop := fits pn w k v /\ fits sn w k v.

Lemma attempt_half_done : forall ps ss pn sn n w k v,
  two_rings ps ss pn sn -> 0 <= n -> good_world (n + 2) (ps ++ ss) w -> legal_key PMeta k -> zlen v < 2 ^ 31 -> small_enough pn sn w k v -> cas_behind pn sn w k ->
  exists w' err, attempt pn sn k v w = (w', Err err) /\ completed err /\ good_world (n + 1) (ps ++ ss) w' /\ cas_behind pn sn w' k
    /\ (exists e, held pn w' k = Some e /\ e_value e = v) /\ held sn w' k = held sn w k
    /\ (forall u, small_enough pn sn w k u -> small_enough pn sn w' k u).
Proof.
  intros ps ss pn sn n w k v R Hn G Lk Lv [Fp Fs] (p & e & e' & Pp & Hp & Hs & Ne & Le).
  pose proof (owner_in_p _ _ _ _ R k p Pp) as Ip. destruct (owner_s _ _ _ _ R k) as (s & Ps & Is). assert (D : sv_id p <> sv_id s) by (eapply apart; eassumption).
  destruct (good_at ps ss (n + 2) w p G ltac:(apply in_or_app; auto)) as (cp & hp & Ep & Wp & Cp). destruct (good_at ps ss (n + 2) w s G ltac:(apply in_or_app; auto)) as (cs & hs & Es & Ws & Cs).
  rewrite (held_p pn w _ p cp hp Pp Ep) in Hp. pose proof Hs as Hs0. rewrite (held_s sn w _ s cs hs Ps Es) in Hs. rewrite Ep in Le. cbn [fresh_link l_cache] in Le.
  destruct (wf_lookup _ _ _ _ Wp Hp) as (_ & _ & E3 & _).
  unfold attempt. destruct (meta_answers cp hp (OGet k) k Wp ltac:(lia) Lk eq_refl eq_refl) as (out & Eg & Ag).
  destruct Ag as [Ag|[Q _]]; [|discriminate Q]. cbn [spec_step snd] in Ag. rewrite Hp in Ag. destruct out as [x| |]; cbn [agrees] in Ag; try contradiction. subst x.
  unfold step1 in Eg. cbn [spec_step fst] in Eg.
  set (g := exec meta_server (rp_prog pn sn (RGet k)) w).
  assert (Eg' : g = (upd w (sv_id p) (fresh_link cp hp), Ok (RItem (item_view PMeta [] false cp k e)))).
  { unfold g. cbn [rp_prog]. unfold rp_get, on_ring. rewrite Pp. cbn [exec]. unfold server_call. rewrite Ep, Eg. reflexivity. }
  rewrite Eg'. cbn [fst snd item_view it_cas].
  set (w1 := upd w (sv_id p) (fresh_link cp hp)). set (i := mkItem k v None 0 (e_cas e) []).
  assert (Sm : forall j, w1 j = w j). { intro j. unfold w1, upd. destruct (Nat.eqb_spec j (sv_id p)) as [->|]; congruence. }
  assert (G1 : good_world (n + 1 + 1) (ps ++ ss) w1).
  { destruct G as [now G]. exists now. intros sv I. destruct (G sv I) as (c & h & A1 & A2 & A3 & A4). exists c, h. rewrite Sm. split; [exact A1|]. split; [exact A2|]. split; [exact A3|lia]. }
  assert (Li : legal_item PMeta i).
  { split; [exact Lk|]. split; [exact Logic.I|]. split; [cbn; lia|]. split; [cbn [it_cas i]; destruct E3; lia|exact Lv]. }
  assert (Nz : it_cas i <> 0) by (cbn [it_cas i]; lia).
  destruct (exec meta_server (rp_prog pn sn (RSet i)) w1) as [w' r] eqn:E.
  assert (F1 : fits pn w1 (it_key i) (it_value i)) by (intros sv Q; rewrite Sm; apply Fp; exact Q).
  assert (F2 : fits sn w1 (it_key i) (it_value i)) by (intros sv Q; rewrite Sm; apply Fs; exact Q).
  assert (G1' : good_world 1 (ps ++ ss) w1).
  { destruct G1 as [now G1]. exists now. intros sv I. destruct (G1 sv I) as (c & h & A1 & A2 & A3 & A4). exists c, h. split; [exact A1|]. split; [exact A2|]. split; [exact A3|lia]. }
  destruct (C47_cas_exactly _ _ _ _ w1 i w' r R G1' Li Nz F1 F2 E) as (_ & _ & _ & Half).
  assert (Hp1 : held pn w1 k = Some e) by (unfold held; rewrite Pp, Sm, Ep; exact Hp). assert (Hs1 : held sn w1 k = Some e') by (unfold held; rewrite Ps, Sm, Es; exact Hs).
  cbn [it_key i] in Half. rewrite Hp1, Hs1 in Half. cbn [cas_of option_map it_cas i] in Half.
  destruct (Half eq_refl ltac:(congruence)) as ((err & -> & Ce & _) & (p' & Pp' & New) & Us). cbn [it_key i] in Pp'. assert (p' = p) by congruence. subst p'. clear Pp'. rewrite Sm, Ep in New. cbn [fresh_link l_cache it_key i it_value it_exp] in New.
  destruct (pool_step ps ss pn sn R (n + 1) w1 (RSet i) w' (Err err) ltac:(lia) G1 Li E) as (G2 & p2 & s2 & cp0 & cs0 & cp' & cs' & hp0 & hs0 & Pp2 & Ps2 & _ & _ & Ep0 & Es0 & _ & _ & Ep2 & Es2 & _ & Chp & Chs & _ & _).
  cbn [rop_key i it_key] in Pp2, Ps2, Chp, Chs. assert (p2 = p) by congruence. assert (s2 = s) by congruence. subst p2 s2. rewrite Sm, Ep in Ep0. rewrite Sm, Es in Es0.
  assert (X1 : cp0 = cp) by (apply (f_equal l_cache) in Ep0; exact (eq_sym Ep0)). assert (X2 : cs0 = cs) by (apply (f_equal l_cache) in Es0; exact (eq_sym Es0)). subst cp0 cs0.
  rewrite Ep2 in New. cbn [fresh_link l_cache] in New. destruct Chp as (Wp' & Kf & Kn & Kc & _). destruct Chs as (_ & Kf' & _).
  assert (Hp' : held pn w' k = Some (mkEntry v (item_flags i) (expire_at (c_now cp) 0) (c_cas cp + 1) false)).
  { unfold held. rewrite Pp, Ep2. cbn [fresh_link l_cache]. unfold lookup. rewrite New. reflexivity. }
  exists w', err. split; [reflexivity|]. split; [exact Ce|]. split; [exact G2|].
  assert (Hs' : held sn w' k = held sn w k) by (rewrite Us, Hs1, Hs0; reflexivity).
  split; [|split; [eexists; split; [exact Hp'|reflexivity]|split; [exact Hs'|]]].
  - exists p. eexists. exists e'. split; [exact Pp|]. split; [exact Hp'|]. split; [rewrite Hs'; exact Hs0|]. cbn [e_cas].
    rewrite Ep2. cbn [fresh_link l_cache].
    assert (c_cas cp + 1 <= c_cas cp').
    { destruct (wf_lookup PMeta cp' k (mkEntry v (item_flags i) (expire_at (c_now cp) 0) (c_cas cp + 1) false) Wp') as (_ & _ & [_ Q] & _).
      { unfold lookup. rewrite New. reflexivity. }
      cbn [e_cas] in Q. lia. }
    split; lia.
  - intros u [U1 U2]. split; intros sv Q.
    + assert (sv = p) by congruence. subst sv. specialize (U1 p Pp). rewrite Ep in U1. rewrite Ep2. cbn [fresh_link l_cache] in *. unfold too_large in *. congruence.
    + assert (sv = s) by congruence. subst sv. specialize (U2 s Ps). rewrite Es in U2. rewrite Es2. cbn [fresh_link l_cache] in *. unfold too_large in *. congruence.
Qed.

(** Such a loop never ends, however often it is repeated, and it does harm each time: every attempt
    returns an error and every attempt replaces the value on the primary. *)
Theorem C47_retry_never_succeeds : forall ps ss pn sn k vs w,
  two_rings ps ss pn sn -> good_world (zlen vs + 1) (ps ++ ss) w -> legal_key PMeta k ->
  Forall (fun v => zlen v < 2 ^ 31 /\ small_enough pn sn w k v) vs -> cas_behind pn sn w k ->
  Forall (fun r => exists e, r = Err e /\ completed e) (snd (attempts pn sn k vs w))
  /\ length (snd (attempts pn sn k vs w)) = length vs
  /\ option_map e_value (held pn (fst (attempts pn sn k vs w)) k) = Some (last vs (match held pn w k with Some e => e_value e | None => [] end))
  /\ held sn (fst (attempts pn sn k vs w)) k = held sn w k.
Proof.
  intros ps ss pn sn k vs. induction vs as [|v vs IH]; intros w R G Lk F Cb; cbn [attempts fst snd].
  - split; [constructor|]. split; [reflexivity|]. destruct Cb as (p & e & e' & _ & -> & _). split; reflexivity.
  - inversion F as [|? ? [Lv Sv] F']; subst. unfold zlen in G. cbn [length] in G. rewrite Nat2Z.inj_succ in G. 
    assert (G' : good_world (zlen vs + 2) (ps ++ ss) w) by (unfold zlen; replace (Z.of_nat (length vs) + 2) with (Z.succ (Z.of_nat (length vs)) + 1) by lia; exact G).
    destruct (attempt_half_done ps ss pn sn (zlen vs) w k v R ltac:(unfold zlen; lia) G' Lk Lv Sv Cb) as (w' & err & E & Ce & G2 & Cb' & (e & He & Hv) & Hs & Fit).
    rewrite E. cbn [fst snd]. destruct (IH w' R G2 Lk) as (A1 & A2 & A3 & A4); [eapply Forall_impl; [|exact F']; cbn; intros u [U1 U2]; auto|exact Cb'|].
    split; [constructor; [exists err; auto|exact A1]|]. split; [cbn; congruence|]. split; [|congruence].
    rewrite A3, He. destruct vs as [|u vs]; [cbn; congruence|]. f_equal. clear. cbn [last]. revert u. induction vs; intro u; [reflexivity|]. cbn [last]. apply IHvs.
Qed.
Print Assumptions C47_retry_never_succeeds.

(** Non-vacuity: one primary c, secondaries a and b. After Set x and Set hello through the pool, hello has
    the cas number 2 on the primary and 1 on its secondary; that world meets the hypotheses of both
    theorems, and two attempts fail and leave the second value on the primary only. *)
Definition two_sets : list revent := [RDo (set_x "1" 0); RDo (set_hello "1" 0)].
Definition set_twice : world link := fst (history (one sv_c) small_ab new_memcacheds two_sets).
Lemma legal_hello_item : forall v c, 0 <= c < 2 ^ 64 -> zlen (B v) < 2 ^ 31 -> legal_item PMeta (mkItem (B "hello") (B v) None 0 c []).
Proof. intros v c Hc Hv. split; [exact legal_hello|]. split; [exact Logic.I|]. split; [cbn [it_exp legal_exp]; lia|]. split; [exact Hc|exact Hv]. Qed.
Lemma set_twice_reached : history prim_c sec_ab new_memcacheds two_sets = (set_twice, [Ok RUnit; Ok RUnit]).
Proof. rewrite history_small by (repeat constructor; cbn; auto). apply injective_projections; [reflexivity|]. vm_compute. reflexivity. Qed.
Lemma history_good : forall ps ss pn sn, two_rings ps ss pn sn -> forall evs n w w' rs, 0 <= n -> good_world (n + zlen evs) (ps ++ ss) w ->
  Forall (fun ev => match ev with RDo o => legal_rop o | RWait _ => False end) evs -> history pn sn w evs = (w', rs) -> good_world n (ps ++ ss) w'.
Proof.
  intros ps ss pn sn R. induction evs as [|ev evs IH]; intros n w w' rs Hn G F H.
  - cbn [history] in H. injection H as <- _. replace (n + zlen (@nil revent)) with n in G by (unfold zlen; cbn [length]; lia). exact G.
  - inversion F as [|? ? Fo Fs]; subst. destruct ev as [o|d]; [|contradiction]. cbn [history] in H.
    destruct (exec meta_server (rp_prog pn sn o) w) as [w1 r] eqn:E. cbn [fst snd] in H. destruct (history pn sn w1 evs) as [w2 rs2] eqn:E2. cbn [fst snd] in H. injection H as <- _.
    unfold zlen in G. cbn [length] in G. rewrite Nat2Z.inj_succ in G.
    destruct (pool_step ps ss pn sn R (n + zlen evs) w o w1 r ltac:(unfold zlen; lia) ltac:(unfold zlen; replace (n + Z.of_nat (length evs) + 1) with (n + Z.succ (Z.of_nat (length evs))) by lia; exact G) Fo E) as [G1 _].
    exact (IH n w1 w2 rs2 Hn G1 Fs E2).
Qed.
Lemma two_sets_legal : Forall (fun ev => match ev with RDo o => legal_rop o | RWait _ => False end) two_sets.
Proof. constructor; [apply legal_set_x; [vm_compute; reflexivity|lia]|]. constructor; [|constructor]. exact (legal_hello_item "1" 0 ltac:(lia) ltac:(vm_compute; reflexivity)). Qed.
Lemma set_twice_good : good_world 3 ([sv_c] ++ [sv_a; sv_b]) set_twice.
Proof. exact (history_good _ _ _ _ rings_c_ab two_sets 3 _ _ _ ltac:(lia) (new_good (3 + zlen two_sets) _ ltac:(split; [vm_compute; discriminate|vm_compute; reflexivity])) two_sets_legal set_twice_reached). Qed.
Example C47_exactly_met : cas_behind prim_c sec_ab set_twice (B "hello") /\ good_world (zlen [B "2"; B "3"] + 1) ([sv_c] ++ [sv_a; sv_b]) set_twice
  /\ Forall (fun v => zlen v < 2 ^ 31 /\ small_enough prim_c sec_ab set_twice (B "hello") v) [B "2"; B "3"]
  /\ Forall (fun r => exists e, r = Err e /\ completed e) (snd (attempts prim_c sec_ab (B "hello") [B "2"; B "3"] set_twice))
  /\ option_map e_value (held prim_c (fst (attempts prim_c sec_ab (B "hello") [B "2"; B "3"] set_twice)) (B "hello")) = Some (B "3").
Proof.
  assert (Cb : cas_behind prim_c sec_ab set_twice (B "hello")).
  { exists sv_c. eexists. eexists. split; [apply pick_c|]. split; [unfold held; rewrite pick_c; vm_compute; reflexivity|].
    split; [unfold held; rewrite (proj2 ring_c_ab_picks); vm_compute; reflexivity|]. split; vm_compute; discriminate. }
  assert (F : Forall (fun v => zlen v < 2 ^ 31 /\ small_enough prim_c sec_ab set_twice (B "hello") v) [B "2"; B "3"]).
  { assert (P : forall v, too_large (l_cache (set_twice (sv_id sv_c))) v = false -> too_large (l_cache (set_twice (sv_id sv_b))) v = false -> small_enough prim_c sec_ab set_twice (B "hello") v).
    { intros v T1 T2. split; intros sv Q; [rewrite pick_c in Q|rewrite (proj2 ring_c_ab_picks) in Q]; injection Q as <-; [exact T1|exact T2]. }
    constructor; [|constructor; [|constructor]]; (split; [vm_compute; reflexivity|apply P; vm_compute; reflexivity]). }
  split; [exact Cb|]. split; [exact set_twice_good|]. split; [exact F|].
  destruct (C47_retry_never_succeeds _ _ _ _ (B "hello") [B "2"; B "3"] set_twice rings_c_ab set_twice_good legal_hello F Cb) as (A1 & _ & A3 & _). split; [exact A1|exact A3].
Qed.
