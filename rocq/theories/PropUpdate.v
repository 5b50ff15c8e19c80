(** * C74: read, modify and store again. *)
From Verif Require Import GoBytes GoNum GoIO Item ClientText ClientMeta ClientBinary Cache Daemon Spec Intent Call
  Guard PLib PDaemon PCache PText PMeta PBinary PClient PropClient PropCalls.
Local Open Scope Z_scope.

(** The item a program stores after changing the value of the item it got. *)
Definition update (i : item) (v : bytes) : item := mkItem (it_key i) v (it_flags i) (it_exp i) (it_cas i) (it_server i).

Lemma lookup_map : forall c k e, lookup c k = Some e -> c_map c k = Some e /\ alive (c_now c) e = true.
Proof. intros c k e H. unfold lookup in H. destruct (c_map c k) as [x|]; [|discriminate H]. destruct (alive (c_now c) x) eqn:A; [|discriminate H]. injection H as <-. auto. Qed.

(** The legal store of the updated item. *)
Lemma update_legal : forall pr name c k e v, wf pr c -> c_cas c < cas_bound pr -> legal_key pr k -> lookup c k = Some e -> zlen v <= cf_limit (c_cfg c) ->
  legal_item pr (update (item_view pr name false c k e) v).
Proof.
  intros pr name c k e v (Wc & Wn & Wu & We) C K L V. destruct (lookup_map _ _ _ L) as [M A]. destruct (We k e M) as (E1 & E2 & E3 & E4).
  unfold update, item_view. split; [exact K|]. cbn [it_flags it_exp it_cas it_value]. split; [|split; [|split]].
  - unfold legal_flags; cbn [it_flags]. split; [apply be_length|]. intros ->. cbn [flags_bound] in E2. rewrite unbe_be_small by (cbn; lia). lia.
  - destruct pr; cbn [legal_exp]; try lia. unfold ttl. unfold alive in A. destruct (e_expire e) as [t|]; [|lia]. apply Z.ltb_lt in A. specialize (E4 eq_refl). lia.
  - destruct pr; cbn [cas_bound] in C; lia.
  - destruct Wc as [Lim _]. cbn [update item_view it_value]. lia.
Qed.

(** Exactly what Get followed, [d] seconds later, by Set of the got item with another value does, if nobody
    else changed the item and it has not expired: Set succeeds (the cas numbers agree) and stores the
    value and the flags; the expiry is the remaining lifetime read by Get counted from the Set (meta), and
    none at all with text and binary. *)
Definition new_expiry (pr : proto) (c : cache) (e : entry) (d : Z) : option Z :=
  match pr with PMeta => expire_at (c_now c + d) (ttl c e) | _ => None end.
Theorem C74_update_exactly : forall pr name c h k e v d,
  wf pr c -> c_cas c + 3 < cas_bound pr -> legal_key pr k -> lookup c k = Some e -> 0 <= d -> lookup (tick c d) k = Some e ->
  zlen v <= cf_limit (c_cfg c) ->
  exists l i h', run (client_of pr name) (fresh_link c h) [Do (OGet k)] = (l, [Ok (RItem i)])
    /\ it_value i = e_value e
    /\ run (client_of pr name) l [Wait d; Do (OSet (update i v))]
       = (fresh_link (put (tick c d) k v (e_flags e) (new_expiry pr c e d)) h', [Ok RUnit]).
Proof.
  intros pr name c h k e v d W C K L D Ld V. pose proof (update_legal pr name c k e v W ltac:(lia) K L V) as Lg.
  set (i := item_view pr name false c k e) in *.
  destruct (lookup_map _ _ _ L) as [M A]. destruct W as (Wc & Wn & Wu & We). destruct (We k e M) as (E1 & E2 & E3 & E4). pose proof (conj Wc (conj Wn (conj Wu We)) : wf pr c) as W.
  assert (Cas : it_cas i = e_cas e) by (unfold i, item_view; destruct pr; reflexivity).
  assert (E2' : spec_step pr name (tick c d) (OSet (update i v)) = (put (tick c d) k v (e_flags e) (new_expiry pr c e d), SOk RUnit)).
  { cbn [spec_step]. assert (N : it_cas (update i v) =? 0 = false) by (apply Z.eqb_neq; cbn [update it_cas]; rewrite Cas; lia). rewrite N. unfold cache_cas.
    assert (T : too_large (tick c d) (it_value (update i v)) = false) by (unfold too_large; apply Z.ltb_ge; exact V). rewrite T.
    change (it_key (update i v)) with k. rewrite Ld. cbn [update it_cas]. rewrite Cas, Z.eqb_refl. cbn [fst snd store_outcome]. f_equal. cbn [update it_value it_exp].
    assert (Fl : item_flags (update i v) = e_flags e).
    { unfold item_flags, update, i, item_view; cbn [it_flags]. apply unbe_be_small. destruct pr; cbn [flags_bound] in E2; cbn; lia. }
    rewrite Fl. f_equal. unfold new_expiry, i, item_view. destruct pr; reflexivity. }
  destruct (run_ok pr name [Do (OGet k); Wait d; Do (OSet (update i v))] c h W) as (h' & outs & R & Ag).
  - rewrite !zlen_cons, zlen_nil. lia.
  - constructor; [exact K|]. constructor; [exact D|]. constructor; [exact Lg|constructor].
  - cbn [safe_run spec_step fst]. split; [destruct pr; exact I|]. split; [|exact I]. destruct pr; [exact I|exact I|].
    cbn [safe bin_safe]. rewrite <- (spec_name PBinary name) by discriminate. rewrite E2'. reflexivity.
  - cbn [spec_run] in R, Ag. change (fst (spec_step pr name c (OGet k))) with c in R, Ag. rewrite E2' in R, Ag. cbn [spec_step fst snd] in R, Ag. rewrite L in Ag. fold i in Ag.
    inversion Ag as [|? o1 ? os A1 Ag2]; subst. inversion Ag2 as [|? o2 ? os2 A2 Ag3]; subst. inversion Ag3; subst.
    destruct o1 as [r1| |]; try contradiction A1. cbn in A1. subst r1. destruct o2 as [r2| |]; try contradiction A2. cbn in A2. subst r2.
    cbn [run] in R. destruct (call (client_of pr name) (fresh_link c h) (OGet k)) as [l1 o1] eqn:C1. cbn [fst snd] in R.
    destruct (call (client_of pr name) (link_tick l1 d) (OSet (update i v))) as [l2 o2] eqn:C2. cbn [fst snd] in R. injection R as -> -> ->.
    exists l1, i, h'. cbn [run]. rewrite C1. cbn [fst snd]. rewrite C2. split; [reflexivity|split; [reflexivity|reflexivity]].
Qed.
Print Assumptions C74_update_exactly.

(** Desired: an update leaves the item stored with the new value, its flags and its expiry. *)
Definition C74_update_keeps_the_item (pr : proto) : Prop := forall name c h k e v,
  wf pr c -> c_cas c + 3 < cas_bound pr -> legal_key pr k -> lookup c k = Some e -> zlen v <= cf_limit (c_cfg c) ->
  exists l i l' e', run (client_of pr name) (fresh_link c h) [Do (OGet k)] = (l, [Ok (RItem i)])
    /\ run (client_of pr name) l [Do (OSet (update i v))] = (l', [Ok RUnit])
    /\ lookup (l_cache l') k = Some e' /\ e_value e' = v /\ e_flags e' = e_flags e /\ e_expire e' = e_expire e.
Lemma tick_0 : forall c, tick c 0 = c.
Proof. intros [cf n u m]. unfold tick; cbn. rewrite Z.add_0_r. reflexivity. Qed.
Lemma link_tick_0 : forall l, link_tick l 0 = l.
Proof. intros [c p u h]. unfold link_tick; cbn. rewrite tick_0. reflexivity. Qed.
Lemma update_now : forall pr name c h k e v,
  wf pr c -> c_cas c + 3 < cas_bound pr -> legal_key pr k -> lookup c k = Some e -> zlen v <= cf_limit (c_cfg c) ->
  exists l i h', run (client_of pr name) (fresh_link c h) [Do (OGet k)] = (l, [Ok (RItem i)])
    /\ run (client_of pr name) l [Do (OSet (update i v))] = (fresh_link (put c k v (e_flags e) (new_expiry pr c e 0)) h', [Ok RUnit]).
Proof.
  intros pr name c h k e v W C K L V. destruct (C74_update_exactly pr name c h k e v 0 W C K L ltac:(lia) ltac:(rewrite tick_0; exact L) V) as (l & i & h' & R1 & _ & R2).
  exists l, i, h'. split; [exact R1|]. cbn [run] in R2 |- *. rewrite link_tick_0, tick_0 in R2. exact R2.
Qed.
(** It does with the meta client for items that expire within 30 days, and with text and binary for items
    that never expire. *)
Theorem C74_update_keeps_the_item_partial : forall pr name c h k e v,
  wf pr c -> c_cas c + 3 < cas_bound pr -> legal_key pr k -> lookup c k = Some e -> zlen v <= cf_limit (c_cfg c) ->
  (match pr with PMeta => exists t, e_expire e = Some t /\ t - c_now c <= month | _ => e_expire e = None end) ->
  exists l i l' e', run (client_of pr name) (fresh_link c h) [Do (OGet k)] = (l, [Ok (RItem i)])
    /\ run (client_of pr name) l [Do (OSet (update i v))] = (l', [Ok RUnit])
    /\ lookup (l_cache l') k = Some e' /\ e_value e' = v /\ e_flags e' = e_flags e /\ e_expire e' = e_expire e.
Proof.
  intros pr name c h k e v W C K L V G. destruct (update_now pr name c h k e v W C K L V) as (l & i & h' & R1 & R2).
  destruct (lookup_map _ _ _ L) as [M A].
  assert (N : new_expiry pr c e 0 = e_expire e).
  { unfold new_expiry. destruct pr; [congruence| |congruence]. destruct G as (t & T & Lt). unfold ttl. unfold alive in A. rewrite T in *. apply Z.ltb_lt in A.
    rewrite Z.add_0_r. unfold expire_at. destruct (Z.eqb_spec (t - c_now c) 0); [lia|]. destruct (Z.ltb_spec (t - c_now c) 0); [lia|]. destruct (Z.leb_spec (t - c_now c) month); [|lia]. f_equal. lia. }
  exists l, i, (fresh_link (put c k v (e_flags e) (new_expiry pr c e 0)) h'). rewrite N in *.
  eexists. split; [exact R1|]. split; [exact R2|]. cbn [fresh_link l_cache]. split.
  - apply lookup_put. unfold alive in A. destruct (e_expire e) as [t|]; [|exact I]. apply Z.ltb_lt in A. exact A.
  - cbn. auto.
Qed.
Print Assumptions C74_update_keeps_the_item_partial.

(** With the meta client an item that never expires vanishes: Set reports success and the next Get a miss.
    (Get returns the expiration -1, which Set sends back and which means expired.) *)
Theorem C74_meta_update_loses_an_item_without_expiry : forall name c h k e v,
  wf PMeta c -> c_cas c + 3 < cas_bound PMeta -> legal_key PMeta k -> lookup c k = Some e -> zlen v <= cf_limit (c_cfg c) -> e_expire e = None ->
  exists l i l' h', run (client_of PMeta name) (fresh_link c h) [Do (OGet k)] = (l, [Ok (RItem i)])
    /\ run (client_of PMeta name) l [Do (OSet (update i v)); Do (OGet k)] = (fresh_link l' h', [Ok RUnit; Err ENotFound]).
Proof.
  intros name c h k e v W C K L V X. destruct (update_now PMeta name c h k e v W C K L V) as (l & i & h' & R1 & R2).
  set (c' := put c k v (e_flags e) (new_expiry PMeta c e 0)) in *.
  pose proof (update_legal PMeta name c k e v W ltac:(lia) K L V) as Lg.
  assert (W' : wf PMeta c').
  { destruct (lookup_map _ _ _ L) as [M A]. destruct W as (Wc & Wn & Wu & We). destruct (We k e M) as (E1 & E2 & E3 & E4). split; [exact Wc|split; [exact Wn|split; [unfold c', put; cbn [c_cas]; lia|]]].
    intros k' e' M'. unfold c', put in M'. cbn [c_map] in M'. unfold put_entry in M'. destruct (beq k' k).
    - injection M' as <-. split; [exact V|split; [exact E2|split; [cbn; lia|]]]. intros _. unfold new_expiry, ttl. rewrite X, Z.add_0_r. cbn. lia.
    - destruct (We k' e' M') as (F1 & F2 & F3 & F4). split; [exact F1|split; [exact F2|split; [cbn; lia|exact F4]]]. }
  destruct (run_ok PMeta name [Do (OGet k)] c' h' W') as (h2 & outs & R3 & Ag).
  - rewrite zlen_cons, zlen_nil. cbn [c' put c_cas]. lia.
  - constructor; [exact K|constructor].
  - cbn. auto.
  - assert (N : lookup c' k = None).
    { unfold lookup, c', put; cbn [c_map c_now]. unfold put_entry. rewrite beq_refl. unfold alive, new_expiry, ttl; cbn [e_expire]. rewrite X, Z.add_0_r. cbn. rewrite Z.ltb_irrefl. reflexivity. }
    cbn [spec_run spec_step fst snd] in R3, Ag. rewrite N in Ag. inversion Ag as [|? o1 ? os A1 Ag2]; subst. inversion Ag2; subst. destruct o1 as [r| |]; try contradiction A1. cbn in A1. subst.
    exists l, i, c', h2. split; [exact R1|]. cbn [run] in R2, R3 |- *. destruct (call (client_of PMeta name) l (OSet (update i v))) as [l1 o1]. cbn [fst snd] in *. injection R2 as -> ->.
    destruct (call (client_of PMeta name) (fresh_link c' h') (OGet k)) as [l3 o3]. cbn [fst snd] in *. injection R3 as -> ->. reflexivity.
Qed.
Print Assumptions C74_meta_update_loses_an_item_without_expiry.
(** With text and binary the expiry is lost: the item stays for ever. *)
Theorem C74_text_and_binary_updates_lose_the_expiry : forall pr name c h k e v,
  pr <> PMeta -> wf pr c -> c_cas c + 3 < cas_bound pr -> legal_key pr k -> lookup c k = Some e -> zlen v <= cf_limit (c_cfg c) ->
  exists l i l' e', run (client_of pr name) (fresh_link c h) [Do (OGet k)] = (l, [Ok (RItem i)])
    /\ run (client_of pr name) l [Do (OSet (update i v))] = (l', [Ok RUnit])
    /\ lookup (l_cache l') k = Some e' /\ e_value e' = v /\ e_flags e' = e_flags e /\ e_expire e' = None.
Proof.
  intros pr name c h k e v N W C K L V. destruct (update_now pr name c h k e v W C K L V) as (l & i & h' & R1 & R2).
  assert (X : new_expiry pr c e 0 = None) by (destruct pr; [reflexivity|congruence|reflexivity]). rewrite X in R2.
  exists l, i, (fresh_link (put c k v (e_flags e) None) h'). eexists. split; [exact R1|split; [exact R2|]]. cbn [fresh_link l_cache].
  split; [apply lookup_put; exact I|]. cbn. auto.
Qed.
Print Assumptions C74_text_and_binary_updates_lose_the_expiry.

(** So it is false of all three clients. *)
Definition with_entry (x : option Z) : cache := mkCache demo_cf 1000000 5 (fun k => if beq k (B "k") then Some (mkEntry (B "v") 7 x 3 false) else None).
Lemma with_entry_wf : forall pr x, (x = None \/ x = Some 1000060) -> wf pr (with_entry x).
Proof.
  intros pr x X. split; [apply demo_config|]. split; [cbn; lia|]. split; [cbn; lia|]. intros k e M. unfold with_entry in M; cbn [c_map] in M. destruct (beq k (B "k")); [|discriminate M]. injection M as <-.
  split; [cbn; lia|]. split; [destruct pr; cbn; lia|]. split; [cbn; lia|]. intros _. destruct X as [-> | ->]; cbn; [exact I|lia].
Qed.
Theorem C74_update_keeps_the_item_refuted : forall pr, ~ C74_update_keeps_the_item pr.
Proof.
  intros pr H. set (x := match pr with PMeta => None | _ => Some 1000060 end).
  assert (Wx : wf pr (with_entry x)) by (apply with_entry_wf; unfold x; destruct pr; auto).
  assert (Cx : c_cas (with_entry x) + 3 < cas_bound pr) by (destruct pr; vm_compute; reflexivity).
  assert (Kx : legal_key pr (B "k")) by (apply legal_keyb_ok; destruct pr; vm_compute; reflexivity).
  assert (Lx : lookup (with_entry x) (B "k") = Some (mkEntry (B "v") 7 x 3 false)) by (unfold x; destruct pr; reflexivity).
  assert (Vx : zlen (B "w") <= cf_limit (c_cfg (with_entry x))) by (vm_compute; discriminate).
  destruct (H [] (with_entry x) reset_header (B "k") _ (B "w") Wx Cx Kx Lx Vx) as (l & i & l' & e' & R1 & R2 & Q & _ & _ & Qx).
  destruct (update_now pr [] (with_entry x) reset_header (B "k") _ (B "w") Wx Cx Kx Lx Vx) as (l0 & i0 & h0 & R10 & R20).
  rewrite R1 in R10. injection R10 as <- <-. rewrite R2 in R20. injection R20 as ->. cbn [fresh_link l_cache] in Q.
  unfold x in Q, Qx; clear - Q Qx; destruct pr; vm_compute in Q; try discriminate Q. all: injection Q as <-.  all: vm_compute in Qx; discriminate Qx.
Qed.
Print Assumptions C74_update_keeps_the_item_refuted.
Example C74_met : wf PMeta (with_entry None) /\ wf PText (with_entry (Some 1000060)) /\ lookup (tick (with_entry (Some 1000060)) 5) (B "k") <> None
  /\ c_cas (with_entry None) + 3 < cas_bound PMeta /\ legal_key PBinary (B "k")
  /\ (exists t, e_expire (mkEntry (B "v") 7 (Some 1000060) 3 false) = Some t /\ t - 1000000 <= month).
Proof.
  split; [apply with_entry_wf; auto|]. split; [apply with_entry_wf; auto|]. split; [vm_compute; discriminate|]. split; [vm_compute; reflexivity|].
  split; [legal_tac|]. exists 1000060. split; [reflexivity|vm_compute; discriminate].
Qed.
