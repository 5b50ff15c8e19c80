(** * Properties C12, C13, C15, C21, C23, C53-C56: what single calls return against a conforming
    memcached. Proofs rest on PClient.v. *)
From Verif Require Import GoBytes GoNum GoIO GoScan Item ClientText ClientMeta ClientBinary Cache Daemon Spec Intent Call
  Guard PLib PScan PUtf8 PDaemon PCache PText PMeta PBinary PClient PropClient.
Local Open Scope Z_scope.

Lemma demo_c_wf : forall pr, wf pr demo_c.
Proof. intro pr. apply demo_wf; [apply demo_config|lia]. Qed.

(** An expiration given to Set with which the item is visible when it is read at once. *)
Definition lives (now e : Z) : Prop := e = 0 \/ (0 < e <= month) \/ (month < e /\ now < e).

Lemma lives_alive : forall now e, lives now e -> match expire_at now e with None => True | Some t => now < t end.
Proof.
  intros now e L. unfold expire_at. destruct (e =? 0) eqn:E0; [exact I|]. apply Z.eqb_neq in E0.
  destruct (e <? 0) eqn:E1.
  - apply Z.ltb_lt in E1. unfold lives, month in L. lia.
  - destruct (e <=? month) eqn:E2; [apply Z.leb_le in E2|apply Z.leb_gt in E2]; unfold lives in L; lia.
Qed.

Lemma lookup_put : forall c k v f x, match x with None => True | Some t => c_now c < t end ->
  lookup (put c k v f x) k = Some (mkEntry v f x (c_cas c + 1) false).
Proof.
  intros c k v f x L. unfold lookup, put, put_entry. cbn. rewrite beq_refl. unfold alive. cbn.
  destruct x as [t|]; [|reflexivity]. apply Z.ltb_lt in L. rewrite L. reflexivity.
Qed.

Lemma set_then_get : forall pr name c h i,
  wf pr c -> c_cas c + 2 < cas_bound pr -> legal_item pr i -> it_cas i = 0 ->
  zlen (it_value i) <= cf_limit (c_cfg c) -> lives (c_now c) (it_exp i) ->
  exists l g, run (client_of pr name) (fresh_link c h) [Do (OSet i); Do (OGet (it_key i))]
              = (l, [Ok RUnit; Ok (RItem g)])
    /\ it_key g = it_key i /\ it_value g = it_value i /\ it_flags g = Some (be 4 (item_flags i)).
Proof.
  intros pr name c h i W C L U S Lv.
  assert (T : too_large c (it_value i) = false) by (unfold too_large; apply Z.ltb_ge; exact S).
  assert (E1 : spec_step pr name c (OSet i)
               = (put c (it_key i) (it_value i) (item_flags i) (expire_at (c_now c) (it_exp i)), SOk RUnit)).
  { cbn [spec_step]. rewrite U. cbn [Z.eqb]. unfold cache_set. rewrite T. reflexivity. }
  assert (S1 : safe pr (rq_cas h) c (OSet i)).
  { destruct pr; [exact I|exact I|]. cbn [safe bin_safe]. rewrite <- (spec_name PBinary name) by discriminate. rewrite E1. reflexivity. }
  assert (B1 : c_cas c + 1 < cas_bound pr) by lia.
  destruct (call_ok pr name c h (OSet i) W B1 L S1) as (h1 & o1 & R1 & A1 & _).
  pose proof (wf_spec_step pr name c (OSet i) W L) as W1.
  rewrite E1 in *. cbn [fst snd] in *.
  destruct (call_ok pr name _ h1 (OGet (it_key i)) W1) as (h2 & o2 & R2 & A2 & _).
  { cbn [put c_cas]. lia. }
  { apply L. }
  { destruct pr; exact I. }
  destruct o1 as [r1| |]; try contradiction A1. cbn in A1. subst r1.
  cbn [spec_step snd] in A2. rewrite lookup_put in A2 by (apply lives_alive; exact Lv).
  destruct o2 as [r2| |]; try contradiction A2. cbn [agrees] in A2. subst r2.
  cbn [run]. rewrite R1. cbn [fst snd]. rewrite R2. cbn [fst snd].
  eexists. eexists. split; [reflexivity|]. destruct pr; repeat split.
Qed.

(** ** C12 *)
(** The value read back is the value stored: every content and every length the server accepts. *)
Theorem C12_values_are_binary_safe : forall pr name c h i,
  wf pr c -> c_cas c + 2 < cas_bound pr -> legal_item pr i -> it_cas i = 0 ->
  zlen (it_value i) <= cf_limit (c_cfg c) -> lives (c_now c) (it_exp i) ->
  exists l g, run (client_of pr name) (fresh_link c h) [Do (OSet i); Do (OGet (it_key i))]
              = (l, [Ok RUnit; Ok (RItem g)])
    /\ it_key g = it_key i /\ it_value g = it_value i.
Proof.
  intros pr name c h i W C L U S Lv. destruct (set_then_get pr name c h i W C L U S Lv) as (l & g & R & K & V & _).
  exists l, g. auto.
Qed.
Print Assumptions C12_values_are_binary_safe.

Definition nasty : item := mkItem (B "k") (B "END" ++ crlf ++ B "VALUE k 0 1" ++ crlf ++ ["000"%char; "255"%char] ++ crlf)
  (Some (be 4 7)) 60 0 [].
Example C12_met : forall pr, wf pr demo_c /\ c_cas demo_c + 2 < cas_bound pr /\ legal_item pr nasty /\ it_cas nasty = 0
  /\ zlen (it_value nasty) <= cf_limit (c_cfg demo_c) /\ lives (c_now demo_c) (it_exp nasty).
Proof.
  intro pr. split; [apply demo_wf; [apply demo_config|lia]|]. split; [destruct pr; vm_compute; reflexivity|].
  split; [apply legal_itemb_ok; destruct pr; vm_compute; reflexivity|]. split; [reflexivity|].
  split; [vm_compute; discriminate|]. right. left. split; vm_compute; [reflexivity|discriminate].
Qed.

(** ** C13 *)
Definition flags_round_trip (pr : proto) (name : bytes) (f : bytes) : Prop :=
  forall c h k v e,
  wf pr c -> c_cas c + 2 < cas_bound pr -> legal_key pr k -> legal_exp pr e -> length f = 4%nat ->
  zlen v <= cf_limit (c_cfg c) -> lives (c_now c) e ->
  exists l g, run (client_of pr name) (fresh_link c h) [Do (OSet (mkItem k v (Some f) e 0 [])); Do (OGet k)]
              = (l, [Ok RUnit; Ok (RItem g)])
    /\ it_flags g = Some f.

Lemma flags_rt : forall pr name f, (pr = PMeta -> unbe f < 2 ^ 31) -> flags_round_trip pr name f.
Proof.
  intros pr name f M c h k v e W C K X F S Lv.
  destruct (set_then_get pr name c h (mkItem k v (Some f) e 0 [])) as (l & g & R & _ & _ & G); cbn; auto.
  - split; [exact K|]. split; [split; [exact F|exact M]|]. split; [exact X|]. cbn. split; [lia|].
    destruct W as ((Lim & _) & _). lia.
  - exists l, g. split; [exact R|]. rewrite G. unfold item_flags. cbn. f_equal. pose proof (be_unbe f) as Q. rewrite F in Q. exact Q.
Qed.
(** Text and binary: every four bytes. *)
Theorem C13_text_flags_round_trip : forall name f, flags_round_trip PText name f.
Proof. intros. apply flags_rt. discriminate. Qed.
Print Assumptions C13_text_flags_round_trip.
Theorem C13_binary_flags_round_trip : forall name f, flags_round_trip PBinary name f.
Proof. intros. apply flags_rt. discriminate. Qed.
Print Assumptions C13_binary_flags_round_trip.
(** Meta: flags below 2^31; missing: the other half, where the client cannot parse the reply. *)
Theorem C13_meta_flags_round_trip_partial : forall name f, unbe f < 2 ^ 31 -> flags_round_trip PMeta name f.
Proof. intros. apply flags_rt. auto. Qed.
Print Assumptions C13_meta_flags_round_trip_partial.
Theorem C13_meta_flags_refuted : ~ forall name f, flags_round_trip PMeta name f.
Proof.
  intro H. destruct (H [] (be 4 (2 ^ 31)) demo_c reset_header (B "k") (B "v") 0) as (l & g & R & _).
  - apply demo_wf; [apply demo_config|lia].
  - vm_compute; reflexivity.
  - legal_tac.
  - split; vm_compute; [discriminate|reflexivity].
  - reflexivity.
  - vm_compute; discriminate.
  - left. reflexivity.
  - vm_compute in R. discriminate.
Qed.
Print Assumptions C13_meta_flags_refuted.
Example C13_met : length (be 4 (2 ^ 32 - 1)) = 4%nat /\ unbe (be 4 7) < 2 ^ 31 /\ legal_key PText (B "k") /\ legal_exp PText 0 /\ lives 5 0.
Proof. split; [reflexivity|]. split; [vm_compute; reflexivity|]. split; [legal_tac|]. split; [split; vm_compute; [discriminate|reflexivity]|left; reflexivity]. Qed.

(** ** C15 *)
Definition present (c : cache) (k : bytes) : bool := match lookup c k with Some _ => true | None => false end.
(** [i] is the item the cache holds under [k]. *)
Definition is_item_of (c : cache) (k : bytes) (i : item) : Prop :=
  it_key i = k /\ exists e, lookup c k = Some e /\ it_value i = e_value e /\ it_flags i = Some (be 4 (e_flags e)).

Definition getmulti_exact (pr : proto) (name : bytes) (c : cache) (ks : list bytes) : Prop :=
  forall h, exists h' items, call (client_of pr name) (fresh_link c h) (OGetMulti ks) = (fresh_link c h', Ok (RItems items))
    /\ Forall2 (is_item_of c) (filter (present c) ks) items.

Lemma views_exact : forall pr name c ks,
  Forall2 (is_item_of c) (filter (present c) ks)
    (flat_map (fun k => match lookup c k with Some e => [item_view pr name true c k e] | None => [] end) ks).
Proof.
  intros pr name c. induction ks as [|k ks IH]; [constructor|]. cbn [filter flat_map]. unfold present at 1.
  destruct (lookup c k) as [e|] eqn:E; [|exact IH]. cbn [app]. constructor; [|exact IH].
  split; [destruct pr; reflexivity|]. exists e. destruct pr; repeat split; assumption.
Qed.
Lemma getmulti_ok : forall pr name c ks, wf pr c -> c_cas c + 1 < cas_bound pr -> legal pr (OGetMulti ks) ->
  safe pr 0 c (OGetMulti ks) -> getmulti_exact pr name c ks.
Proof.
  intros pr name c ks W C L S h.
  destruct (call_ok pr name c h (OGetMulti ks) W C L) as (h' & out & R & A & _).
  { destruct pr; exact S. }
  cbn [spec_step fst snd] in *. destruct out as [r| |]; try contradiction A. cbn [agrees] in A. subst r.
  exists h'. eexists. split; [exact R|]. apply views_exact.
Qed.
Theorem C15_text_getmulti_is_exact : forall name c ks,
  wf PText c -> c_cas c + 1 < cas_bound PText -> ks <> [] -> Forall (legal_key PText) ks -> getmulti_exact PText name c ks.
Proof. intros. apply getmulti_ok; auto; [split; auto|exact I]. Qed.
Print Assumptions C15_text_getmulti_is_exact.
Theorem C15_binary_getmulti_is_exact : forall name c ks,
  wf PBinary c -> c_cas c + 1 < cas_bound PBinary -> ks <> [] -> Forall (legal_key PBinary) ks -> getmulti_exact PBinary name c ks.
Proof. intros. apply getmulti_ok; auto; [split; auto|exact I]. Qed.
Print Assumptions C15_binary_getmulti_is_exact.
(** Meta: only when every requested key is present. *)
Theorem C15_meta_getmulti_is_exact_partial : forall name c ks,
  wf PMeta c -> c_cas c + 1 < cas_bound PMeta -> ks <> [] -> Forall (legal_key PMeta) ks ->
  Forall (fun k => lookup c k <> None) ks -> getmulti_exact PMeta name c ks.
Proof. intros. apply getmulti_ok; auto. split; auto. Qed.
Print Assumptions C15_meta_getmulti_is_exact_partial.

(** What the meta client returns for every mix: the items before the first missing key, with the
    rest of the replies left unread. *)
Theorem C15_meta_getmulti_stops_at_first_miss : forall name c h pre k post,
  wf PMeta c -> c_cas c < 2 ^ 63 -> Forall (legal_key PMeta) (pre ++ k :: post) ->
  Forall (fun k => lookup c k <> None) pre -> lookup c k = None ->
  exists l items, call (client_of PMeta name) (fresh_link c h) (OGetMulti (pre ++ k :: post)) = (l, Ok (RItems items))
    /\ Forall2 (is_item_of c) pre items
    /\ l_cache l = c /\ l_pending l = []
    /\ l_unread l = flat_map (fun j => meta_get_reply c j (meta_get_flags true)) post ++ B "MN" ++ eol.
Proof.
  intros name c h pre k post W C F P M.
  assert (L : legal PMeta (OGetMulti (pre ++ k :: post))) by (split; [destruct pre; discriminate|exact F]).
  unfold call. cbn [client_of meta_client cl_req cl_wire cl_resp fst snd meta_req fresh_link l_cache l_pending l_unread l_header app].
  rewrite (meta_daemon c (OGetMulti (pre ++ k :: post)) _ L eq_refl).
  assert (LP : forall pre, Forall (fun k => lookup c k <> None) pre ->
    snd (live_prefix c (pre ++ k :: post)) = k :: post
    /\ Forall2 (is_item_of c) pre (map (fun ke => item_view PMeta [] true c (fst ke) (snd ke)) (fst (live_prefix c (pre ++ k :: post))))).
  { clear - M. induction pre as [|j pre IH]; intro P; cbn [app live_prefix].
    - rewrite M. cbn. split; [reflexivity|constructor].
    - inversion P; subst. destruct (lookup c j) as [e|] eqn:E; [|congruence]. destruct (IH H2) as [I1 I2]. cbn [fst snd map].
      split; [exact I1|]. constructor; [|exact I2]. split; [reflexivity|]. exists e. repeat split; assumption. }
  destruct (LP pre P) as [L1 L2].
  cbn [meta_resp].
  pose proof (meta_getmulti_any c (pre ++ k :: post) [] W C F) as G. rewrite app_nil_r in G.
  rewrite (rmap_ok _ RItems _ _ _ _ G). rewrite L1. cbn [meta_rest fst snd].
  eexists. eexists. split; [reflexivity|]. split; [exact L2|]. rewrite app_nil_r. repeat split.
Qed.
Print Assumptions C15_meta_getmulti_stops_at_first_miss.
Theorem C15_meta_getmulti_refuted : ~ forall name c ks,
  wf PMeta c -> c_cas c + 1 < cas_bound PMeta -> ks <> [] -> Forall (legal_key PMeta) ks -> getmulti_exact PMeta name c ks.
Proof.
  intro H. set (c := put demo_c (B "b") (B "v") 0 None).
  destruct (H [] c [B "a"; B "b"]) with (h := reset_header) as (h' & items & R & _).
  - apply wf_put; [apply demo_wf; [apply demo_config|lia]|vm_compute; discriminate|split; vm_compute; congruence|auto].
  - vm_compute. reflexivity.
  - discriminate.
  - repeat constructor; try (vm_compute; congruence).
  - vm_compute in R. discriminate.
Qed.
Print Assumptions C15_meta_getmulti_refuted.
Example C15_met : wf PText (put demo_c (B "b") (B "v") 0 None) /\ [B "a"; B "b"] <> [] /\ Forall (legal_key PText) [B "a"; B "b"]
  /\ Forall (fun k => lookup (put demo_c (B "b") (B "v") 0 None) k <> None) [B "b"]
  /\ lookup (put demo_c (B "b") (B "v") 0 None) (B "a") = None.
Proof.
  split; [apply wf_put; [apply demo_wf; [apply demo_config|lia]|vm_compute; discriminate|split; vm_compute; congruence|auto]|].
  split; [discriminate|]. split; [repeat (constructor; [legal_tac|]); constructor|]. split; [constructor; [vm_compute; discriminate|constructor]|reflexivity].
Qed.

(** ** C21 *)
(** The error a call must return: ItemNotFound for an operation that needs an absent key, ItemExists
    for an Add of a present key or a Set carrying an outdated cas. Values are of storable size (a
    server refuses a larger one before it looks at the key). *)
Definition must_fail (c : cache) (o : op) : option err :=
  match o with
  | OGet k | ODelete k | OTouch k _ | OIncr k _ _ | ODecr k _ _ =>
      match lookup c k with None => Some ENotFound | Some _ => None end
  | OReplace i => if too_large c (it_value i) then None
                  else match lookup c (it_key i) with None => Some ENotFound | Some _ => None end
  | OAdd i => if too_large c (it_value i) then None
              else match lookup c (it_key i) with Some _ => Some EExists | None => None end
  | OSet i => if too_large c (it_value i) || (it_cas i =? 0) then None
              else match lookup c (it_key i) with
                   | Some e => if e_cas e =? it_cas i then None else Some EExists
                   | None => None
                   end
  | OGetMulti _ | OFlush | OVersion => None
  end.
Definition fails_right (pr : proto) (name : bytes) (c : cache) (o : op) : Prop :=
  forall h e, rq_cas h = 0 -> must_fail c o = Some e -> snd (call (client_of pr name) (fresh_link c h) o) = Err e.
Definition C21_uniform (pr : proto) : Prop := forall name c o,
  wf pr c -> c_cas c + 1 < cas_bound pr -> legal pr o -> fails_right pr name c o.

Lemma must_fail_spec : forall pr name c o e, must_fail c o = Some e -> (match o with OIncr _ _ _ | ODecr _ _ _ => pr <> PBinary | _ => True end) ->
  snd (spec_step pr name c o) = SErr e.
Proof.
  intros pr name c o e M N. destruct o; cbn [must_fail spec_step] in *; try discriminate M.
  - destruct (lookup c k); [discriminate M|]. inversion M; reflexivity.
  - destruct (too_large c (it_value i)) eqn:T; [discriminate M|]. cbn [orb] in M.
    destruct (it_cas i =? 0) eqn:U; [discriminate M|]. unfold cache_cas. rewrite T.
    destruct (lookup c (it_key i)) as [x|]; [|discriminate M]. destruct (e_cas x =? it_cas i); inversion M; reflexivity.
  - destruct (too_large c (it_value i)) eqn:T; [discriminate M|]. unfold cache_add. rewrite T.
    destruct (lookup c (it_key i)) as [x|]; inversion M; reflexivity.
  - destruct (too_large c (it_value i)) eqn:T; [discriminate M|]. unfold cache_replace. rewrite T.
    destruct (lookup c (it_key i)) as [x|]; inversion M; reflexivity.
  - unfold cache_delete. destruct (lookup c k); inversion M; reflexivity.
  - rewrite spec_delta_snd by exact N. unfold cache_delta. destruct (lookup c k); inversion M; reflexivity.
  - rewrite spec_delta_snd by exact N. unfold cache_delta. destruct (lookup c k); inversion M; reflexivity.
  - unfold cache_touch. destruct (lookup c k); inversion M; reflexivity.
Qed.

Theorem C21_text_misses_and_conflicts : C21_uniform PText.
Proof.
  intros name c o W C L h e _ M. destruct (call_ok PText name c h o W C L I) as (h' & out & R & A & _).
  rewrite R. cbn [snd]. rewrite (must_fail_spec PText name c o e M) in A by (destruct o; exact I || discriminate).
  destruct out; try contradiction A. cbn in A. subst. reflexivity.
Qed.
Print Assumptions C21_text_misses_and_conflicts.

(** Meta: all but Delete and Touch. *)
Theorem C21_meta_misses_and_conflicts_partial : forall name c o,
  wf PMeta c -> c_cas c + 1 < cas_bound PMeta -> legal PMeta o ->
  (match o with ODelete _ | OTouch _ _ => False | _ => True end) -> fails_right PMeta name c o.
Proof.
  intros name c o W C L D h e _ M.
  assert (S : meta_safe c o) by (destruct o; try exact I; try contradiction D; discriminate M).
  destruct (call_ok PMeta name c h o W C L S) as (h' & out & R & A & _).
  rewrite R. cbn [snd]. rewrite (must_fail_spec PMeta name c o e M) in A by (destruct o; exact I || discriminate).
  destruct out; try contradiction A. cbn in A. subst. reflexivity.
Qed.
Print Assumptions C21_meta_misses_and_conflicts_partial.

(** Binary: all but Touch, Increment and Decrement. *)
Theorem C21_binary_misses_and_conflicts_partial : forall name c o,
  wf PBinary c -> c_cas c + 1 < cas_bound PBinary -> legal PBinary o ->
  (match o with OTouch _ _ | OIncr _ _ _ | ODecr _ _ _ => False | _ => True end) -> fails_right PBinary name c o.
Proof.
  intros name c o W C L D h e _ M.
  assert (Alt : (exists i, o = OSet i \/ o = OAdd i) \/ bin_safe (rq_cas h) c o).
  { destruct o; try (right; exact I); try contradiction D; left; exists i; auto. }
  destruct Alt as [[i Ho]|S].
  - destruct (bin_req_ok h o L) as [rq Q].
    assert (D2 : match o with OIncr _ _ _ | ODecr _ _ _ => rq_cas h = 0 | _ => True end) by (destruct Ho; subst; exact I).
    unfold call. cbn [client_of bin_client cl_req cl_wire cl_resp fresh_link l_cache l_pending l_unread l_header app].
    rewrite Q. rewrite (bin_daemon c h o rq L D2 Q). cbn [snd].
    pose proof (bin_store_refused) as Ref.
    destruct Ho; subst o; cbn [bin_resp bin_intent snd]; cbn [must_fail] in M.
    + assert (E : snd (run_store c i) = CasMismatch /\ e = EExists).
      { unfold run_store, cache_cas. destruct (too_large c (it_value i)); [discriminate M|]. destruct (it_cas i =? 0); [discriminate M|].
        cbn [orb] in M. destruct (lookup c (it_key i)); [|discriminate M]. destruct (e_cas e0 =? it_cas i); inversion M; auto. }
      destruct E as [E ->]. rewrite E. cbn [bin_store_packet].
      specialize (Ref op_set 2 (B "Data exists for key.") []). rewrite app_nil_r in Ref. unfold exists_packet.
      unfold op_set in *. unfold runit. rewrite (rmap_err _ _ _ _ _ _ (Ref ltac:(lia) ltac:(lia) ltac:(vm_compute; reflexivity))). reflexivity.
    + assert (E : snd (run_add c i) = NotStored /\ e = EExists).
      { unfold run_add, cache_add. destruct (too_large c (it_value i)); [discriminate M|].
        destruct (lookup c (it_key i)); inversion M; auto. }
      destruct E as [E ->]. rewrite E. cbn [bin_store_packet].
      specialize (Ref op_add 2 (B "Data exists for key.") []). rewrite app_nil_r in Ref. cbn [Z.eqb Pos.eqb]. unfold exists_packet.
      unfold op_add in *. unfold runit. rewrite (rmap_err _ _ _ _ _ _ (Ref ltac:(lia) ltac:(lia) ltac:(vm_compute; reflexivity))). reflexivity.
  - destruct (call_ok PBinary name c h o W C L S) as (h' & out & R & A & _).
    rewrite R. cbn [snd]. rewrite (must_fail_spec PBinary name c o e M) in A by (destruct o; exact I || contradiction D).
    destruct out; try contradiction A. cbn in A. subst. reflexivity.
Qed.
Print Assumptions C21_binary_misses_and_conflicts_partial.

(** A meta Delete of an absent key reports success. *)
Theorem C21_meta_refuted : ~ C21_uniform PMeta.
Proof.
  intro H. assert (X := H [] demo_c (ODelete (B "k")) (demo_c_wf _) ltac:(vm_compute; reflexivity) ltac:(legal_tac)
    reset_header ENotFound eq_refl eq_refl). vm_compute in X. discriminate.
Qed.
Print Assumptions C21_meta_refuted.
(** ... and a meta Touch of an absent key is not ItemNotFound either. *)
Theorem C21_meta_touch_refuted : exists c k e, wf PMeta c /\ legal PMeta (OTouch k e) /\ ~ fails_right PMeta [] c (OTouch k e).
Proof.
  exists demo_c, (B "k"), 5. split; [apply demo_wf; [apply demo_config|lia]|]. split; [legal_tac|].
  intro H. specialize (H reset_header ENotFound eq_refl eq_refl). vm_compute in H. discriminate.
Qed.
Print Assumptions C21_meta_touch_refuted.
(** A binary Increment of an absent key creates it instead. *)
Theorem C21_binary_refuted : ~ C21_uniform PBinary.
Proof.
  intro H. assert (X := H [] demo_c (OIncr (B "k") 1 0) (demo_c_wf _) ltac:(vm_compute; reflexivity) ltac:(legal_tac)
    reset_header ENotFound eq_refl eq_refl). vm_compute in X. discriminate.
Qed.
Print Assumptions C21_binary_refuted.
Theorem C21_binary_touch_refuted : exists c k e, wf PBinary c /\ legal PBinary (OTouch k e) /\ ~ fails_right PBinary [] c (OTouch k e).
Proof.
  exists demo_c, (B "k"), 5. split; [apply demo_wf; [apply demo_config|lia]|]. split; [legal_tac|].
  intro H. specialize (H reset_header ENotFound eq_refl eq_refl). vm_compute in H. discriminate.
Qed.
Print Assumptions C21_binary_touch_refuted.
Example C21_met :
  must_fail demo_c (OReplace (demo_item "k" "v" 0 0 0)) = Some ENotFound
  /\ must_fail (put demo_c (B "k") (B "v") 0 None) (OAdd (demo_item "k" "v" 0 0 0)) = Some EExists
  /\ must_fail (put demo_c (B "k") (B "v") 0 None) (OSet (demo_item "k" "v" 0 0 77)) = Some EExists.
Proof. repeat split; vm_compute; reflexivity. Qed.

(** ** C23 *)
(** On a key holding a decimal counter the result is the new value, which is what the server then
    holds. *)
Definition counter_exact (pr : proto) (name : bytes) (up : bool) (c : cache) (k : bytes) (d e n : Z) : Prop :=
  forall h, rq_cas h = 0 -> exists l,
    call (client_of pr name) (fresh_link c h) (if up then OIncr k d e else ODecr k d e)
    = (l, Ok (RInt (delta_apply up n d)))
    /\ exists x, lookup (l_cache l) k = Some x /\ counter_value (e_value x) = Some (delta_apply up n d).

Lemma strip_front_digits : forall a b, a <> [] -> Forall (fun ch => is_digit ch = true) a -> strip_spaces_front (a ++ b) = a ++ b.
Proof.
  intros a b N F. destruct a as [|x a]; [congruence|]. inversion F; subst. cbn [app strip_spaces_front].
  destruct (Ascii.eqb x SP) eqn:E; [|reflexivity]. apply Ascii.eqb_eq in E. subst. discriminate.
Qed.
Lemma strip_front_spaces : forall n b, strip_spaces_front (repeat SP n ++ b) = strip_spaces_front b.
Proof. induction n as [|n IH]; intro b; [reflexivity|]. cbn [repeat app strip_spaces_front]. change (Ascii.eqb SP SP) with true. apply IH. Qed.
Lemma counter_text_value : forall old n, 0 <= n < 2 ^ 64 -> counter_value (counter_text old n) = Some n.
Proof.
  intros old n R. unfold counter_value, counter_text, strip_spaces.
  rewrite rev_app_distr.
  assert (Rr : forall k, rev (repeat SP k) = repeat SP k).
  { induction k as [|k IH]; [reflexivity|]. cbn [repeat rev]. rewrite IH. clear. induction k as [|k IH]; [reflexivity|]. cbn [repeat app]. rewrite IH. reflexivity. }
  rewrite Rr, strip_front_spaces.
  rewrite <- (app_nil_r (rev (dec n))), strip_front_digits.
  - rewrite app_nil_r, rev_involutive. apply parse_uint_dec. lia.
  - intro Q. apply (f_equal (@rev ascii)) in Q. rewrite rev_involutive in Q. exact (dec_nonempty n Q).
  - apply Forall_rev. apply dec_digits. lia.
Qed.

Theorem C23_counters_are_exact_partial : forall pr name (up : bool) c k d e o n,
  wf pr c -> c_cas c + 1 < cas_bound pr -> legal_key pr k -> legal_delta pr d e ->
  lookup c k = Some o -> counter_value (e_value o) = Some n -> delta_apply up n d < 2 ^ 63 ->
  counter_exact pr name up c k d e n.
Proof.
  intros pr name up c k d e o n W C K D Lk Cv Sm h Hz.
  set (op := if up then OIncr k d e else ODecr k d e).
  assert (L : legal pr op) by (unfold op; destruct up; split; assumption).
  assert (S : safe pr (rq_cas h) c op) by (unfold op; destruct pr; destruct up; try exact I; exact Hz).
  destruct (call_ok pr name c h op W C L S) as (h' & out & R & A & _).
  assert (Rg := counter_value_range _ _ Cv). assert (D0 : 0 <= d) by (destruct D; lia).
  assert (Rn := delta_apply_range up n d Rg D0).
  assert (E : spec_step pr name c op = (put c k (counter_text (e_value o) (delta_apply up n d)) (e_flags o) (e_expire o),
                SOk (RInt (delta_apply up n d)))).
  { assert (E0 : spec_step pr name c op = spec_delta pr up c k d e) by (unfold op; destruct up; reflexivity). rewrite E0. clear E0.
    unfold spec_delta. unfold cache_delta. rewrite Lk, Cv. cbn [fst snd delta_outcome].
    destruct pr; cbn [fst snd]; try (destruct (delta_apply up n d <? 2 ^ 63) eqn:Q; [reflexivity|apply Z.ltb_ge in Q; lia]).
    rewrite i64_small by lia. reflexivity. }
  rewrite E in *. cbn [fst snd] in *. destruct out as [r| |]; try contradiction A. cbn in A. subst r.
  eexists. split; [exact R|]. cbn [fresh_link l_cache]. eexists. split.
  - apply lookup_put. apply lookup_map in Lk. destruct Lk as [_ Al]. unfold alive in Al. destruct (e_expire o); [|exact I].
    apply Z.ltb_lt. exact Al.
  - cbn [e_value]. apply counter_text_value. exact Rn.
Qed.
Print Assumptions C23_counters_are_exact_partial.
Definition big_counter : cache := put demo_c (B "n") (B "9223372036854775807") 0 None.
Lemma big_counter_wf : forall pr, wf pr big_counter.
Proof. intro pr. apply wf_put; [apply demo_wf; [apply demo_config|lia]|vm_compute; discriminate|split; destruct pr; vm_compute; congruence|auto]. Qed.
(** The full claim drops the bound 2^63 on the result; it fails with every protocol. *)
Theorem C23_counters_refuted : forall pr, ~ (forall name up c k d e o n,
  wf pr c -> c_cas c + 1 < cas_bound pr -> legal_key pr k -> legal_delta pr d e ->
  lookup c k = Some o -> counter_value (e_value o) = Some n -> counter_exact pr name up c k d e n).
Proof.
  intros pr H.
  destruct (H [] true big_counter (B "n") 1 0 (mkEntry (B "9223372036854775807") 0 None 1 false) (2 ^ 63 - 1)) with (h := reset_header)
    as (l & R & _).
  - apply big_counter_wf.
  - destruct pr; vm_compute; reflexivity.
  - apply legal_keyb_ok. destruct pr; vm_compute; reflexivity.
  - apply legal_deltab_ok. destruct pr; vm_compute; reflexivity.
  - vm_compute. reflexivity.
  - vm_compute. reflexivity.
  - reflexivity.
  - apply (f_equal snd) in R. destruct pr; vm_compute in R; discriminate.
Qed.
Print Assumptions C23_counters_refuted.
Example C23_met : forall pr, let c := put demo_c (B "n") (B "41  ") 5 (Some 2000000) in
  wf pr c /\ legal_key pr (B "n") /\ legal_delta pr 1 0
  /\ option_map (fun e => counter_value (e_value e)) (lookup c (B "n")) = Some (Some 41) /\ delta_apply true 41 1 = 42.
Proof.
  intros pr c. split; [apply wf_put; [apply demo_wf; [apply demo_config|lia]|vm_compute; discriminate|split; destruct pr; vm_compute; congruence|]|].
  - intros _. vm_compute. reflexivity.
  - split; [apply legal_keyb_ok; destruct pr; vm_compute; reflexivity|]. split; [apply legal_deltab_ok; destruct pr; vm_compute; reflexivity|].
    split; vm_compute; reflexivity.
Qed.

(** ** C53 *)
(** A key memcached accepts on an ASCII connection: 1 to 250 bytes, none a control byte or a space. *)
Definition daemon_key (k : bytes) : Prop := 1 <= zlen k <= 250 /\ Forall (fun ch => 33 <= code ch /\ code ch <> 127) k.
Definition key_returned (pr : proto) (k : bytes) : Prop := forall name c h e,
  wf pr c -> c_cas c + 1 < cas_bound pr -> lookup c k = Some e ->
  exists l i, call (client_of pr name) (fresh_link c h) (OGet k) = (l, Ok (RItem i)) /\ it_key i = k.
Lemma key_returned_legal : forall pr k, legal_key pr k -> key_returned pr k.
Proof.
  intros pr k L name c h e W C K. destruct (call_ok pr name c h (OGet k) W C L) as (h' & out & R & A & _).
  { destruct pr; exact I. }
  cbn [spec_step snd] in A. rewrite K in A. destruct out as [r| |]; try contradiction A. cbn [agrees] in A. subst r.
  eexists. eexists. split; [exact R|]. destruct pr; reflexivity.
Qed.
Theorem C53_meta_returns_the_key : forall k, daemon_key k -> key_returned PMeta k.
Proof. intros k H. apply key_returned_legal. exact H. Qed.
Print Assumptions C53_meta_returns_the_key.
Theorem C53_binary_returns_the_key : forall k, daemon_key k -> key_returned PBinary k.
Proof. intros k [H F]. apply key_returned_legal. split; [exact H|exact I]. Qed.
Print Assumptions C53_binary_returns_the_key.
(** Text: exactly the keys that are UTF-8 without white space. *)
Theorem C53_text_returns_the_key_partial : forall k, daemon_key k -> utf8_word k -> key_returned PText k.
Proof. intros k [H F] A. apply key_returned_legal. split; [exact H|exact A]. Qed.
Print Assumptions C53_text_returns_the_key_partial.
(** Whatever the server sends, the key of an item Get returns is UTF-8 without white space (it may contain
    control characters if the server sends some). *)
Theorem C53_text_keys_are_utf8 : forall name k s i rest, cl_resp (client_of PText name) (OGet k) s = (Ok (RItem i), rest) ->
  Forall (fun ch => 33 <= code ch /\ code ch <> 127) (it_key i) -> utf8_word (it_key i).
Proof.
  intros name k s i rest E F. cbn [client_of text_client cl_resp text_resp] in E.
  unfold text_get_resp, rmap, bind in E. destruct (read_slice s) as [[b|e|] s1]; [|discriminate E|discriminate E].
  destruct (beq b msg_end); [discriminate E|]. destruct (negb (has_prefix (B "VALUE") b)); [discriminate E|].
  destruct (fscanf_value (negb (count_sp b =? 3)) b) as [[[[key flags] size] cas]|] eqn:X; [|discriminate E]. cbn [lift_opt] in E. unfold ret in E at 1.
  destruct (make_read_full (i64 (size + 2)) s1) as [[buf|e|] s2]; [|discriminate E|discriminate E].
  destruct (go_sub buf 0 size s2) as [[value|e|] s3]; [|discriminate E|discriminate E].
  destruct (read_slice s3) as [[e|e|] s4]; [|discriminate E|discriminate E].
  destruct (beq e msg_end); cbn [negb] in E; [|discriminate E]. unfold ret in E. injection E as Ei _. subst i. cbn [it_key] in *.
  destruct (scanned_key _ _ _ _ _ _ X) as (rs & -> & Sc & Ns). apply encodes_utf8; assumption.
Qed.
Print Assumptions C53_text_keys_are_utf8.
Theorem C53_text_exactly : forall k, daemon_key k -> (key_returned PText k <-> utf8_word k).
Proof.
  intros k D. split; [|apply C53_text_returns_the_key_partial; exact D]. intro H.
  destruct (H [] (put demo_c k (B "v") 0 None) reset_header (mkEntry (B "v") 0 None 1 false)) as (l & i & R & K).
  - apply wf_put; [apply demo_wf; [apply demo_config|lia]|vm_compute; discriminate|split; vm_compute; congruence|auto].
  - vm_compute. reflexivity.
  - apply lookup_put. reflexivity.
  - subst k. unfold call in R. cbn [client_of text_client cl_req fst text_req l_header fresh_link] in R.
    destruct (daemon _ _ _) as [[c' reply] p']. apply (f_equal snd) in R. cbn [snd] in R.
    destruct (cl_resp (text_client []) (OGet (it_key i)) (l_unread (fresh_link (put demo_c (it_key i) (B "v") 0 None) reset_header) ++ reply)) as [o rest] eqn:E.
    cbn [fst] in R. subst o. apply (C53_text_keys_are_utf8 [] _ _ _ _ E). apply D.
Qed.
Print Assumptions C53_text_exactly.
(** A key with white space: Get may even return another item without an error. The key is "a", U+00A0, "7";
    the value starts with a line end; Get returns an item with key "a", flags 7, no value and cas 5. *)
Definition nbsp_key : bytes := B "a" ++ ["194"%char; "160"%char] ++ B "7".
Theorem C53_text_wrong_item_refuted : ~ forall k name c h e l i,
  daemon_key k -> wf PText c -> c_cas c + 1 < cas_bound PText -> lookup c k = Some e ->
  call (client_of PText name) (fresh_link c h) (OGet k) = (l, Ok (RItem i)) -> it_value i = e_value e.
Proof.
  intro H. pose (c := put demo_c nbsp_key (crlf ++ B "END") 0 None). pose (x := call (client_of PText []) (fresh_link c reset_header) (OGet nbsp_key)).
  assert (V : it_value (mkItem (B "a") [] (Some (be 4 7)) 0 5 []) = crlf ++ B "END"); [|discriminate V].
  apply (H nbsp_key [] c reset_header (mkEntry (crlf ++ B "END") 0 None 1 false) (fst x)).
  - split; [split; vm_compute; discriminate|]. repeat constructor; vm_compute; congruence.
  - apply wf_put; [apply demo_wf; [apply demo_config|lia]|vm_compute; discriminate|split; vm_compute; congruence|auto].
  - vm_compute. reflexivity.
  - vm_compute. reflexivity.
  - unfold x. vm_compute. reflexivity.
Qed.
Print Assumptions C53_text_wrong_item_refuted.
(** The one-byte key 0xFF is returned as the three bytes of U+FFFD. *)
Theorem C53_text_refuted : ~ forall k, daemon_key k -> key_returned PText k.
Proof.
  intro H. destruct (H ["255"%char]) with (name := @nil ascii) (c := put demo_c ["255"%char] (B "v") 0 None) (h := reset_header)
    (e := mkEntry (B "v") 0 None 1 false) as (l & i & R & K).
  - split; [split; vm_compute; discriminate|]. constructor; [split; vm_compute; congruence|constructor].
  - apply wf_put; [apply demo_wf; [apply demo_config|lia]|vm_compute; discriminate|split; vm_compute; congruence|auto].
  - vm_compute. reflexivity.
  - vm_compute. reflexivity.
  - apply (f_equal snd) in R. vm_compute in R. inversion R; subst. vm_compute in K. discriminate.
Qed.
Print Assumptions C53_text_refuted.
(** A key in UTF-8 that is not ASCII (U+00E9, U+20AC, U+1F600), and one that is not UTF-8. *)
Definition euro_key : bytes := map byte_of [195; 169; 226; 130; 172; 240; 159; 152; 128].
Example C53_met : daemon_key (B "abc") /\ daemon_key ["200"%char; "a"%char] /\ daemon_key euro_key /\ utf8_word euro_key
  /\ lookup (put demo_c euro_key (B "v") 0 None) euro_key <> None.
Proof.
  split; [split; [split; vm_compute; discriminate|repeat constructor; vm_compute; congruence]|].
  split; [split; [split; vm_compute; discriminate|repeat constructor; vm_compute; congruence]|].
  split; [split; [split; vm_compute; discriminate|repeat constructor; vm_compute; congruence]|].
  split; [|vm_compute; discriminate]. exists [[195; 169]; [226; 130; 172]; [240; 159; 152; 128]]. split; [reflexivity|].
  constructor; [apply Utf8_2; unfold tail_byte, white2; lia|]. constructor; [apply Utf8_3; unfold tail_byte, white3; lia|].
  constructor; [apply Utf8_4; unfold tail_byte; lia|constructor].
Qed.

(** ** C54 *)
(** An item stored with a negative expiration is expired at once. *)
Definition negative_expires (pr : proto) : Prop := forall name c h i,
  wf pr c -> c_cas c + 2 < cas_bound pr -> legal_key pr (it_key i) -> legal_flags pr i -> it_cas i = 0 ->
  zlen (it_value i) <= cf_limit (c_cfg c) -> - 2 ^ 31 <= it_exp i < 0 ->
  snd (run (client_of pr name) (fresh_link c h) [Do (OSet i); Do (OGet (it_key i))]) = [Ok RUnit; Err ENotFound].
Theorem C54_ascii_negative_expires : forall pr, pr <> PBinary -> negative_expires pr.
Proof.
  intros pr N name c h i W C K F U S X.
  assert (L : legal_item pr i).
  { split; [exact K|]. split; [exact F|]. split; [destruct pr; try congruence; cbn; lia|]. rewrite U. destruct W as ((Lim & _) & _). lia. }
  destruct (run_ok pr name [Do (OSet i); Do (OGet (it_key i))] c h W) as (h' & outs & R & A).
  - rewrite !zlen_cons, zlen_nil. lia.
  - constructor; [exact L|]. constructor; [exact K|constructor].
  - destruct pr; try congruence; cbn [safe_run safe meta_safe]; auto.
  - rewrite R. cbn [snd]. cbn [spec_run snd fst] in A. cbn [spec_step] in A. rewrite U in A. cbn [Z.eqb] in A. unfold cache_set in A.
    replace (too_large c (it_value i)) with false in A by (symmetry; unfold too_large; apply Z.ltb_ge; exact S).
    cbn [fst snd store_outcome] in A.
    assert (Lk : lookup (put c (it_key i) (it_value i) (item_flags i) (expire_at (c_now c) (it_exp i))) (it_key i) = None).
    { unfold lookup, put, put_entry. cbn. rewrite beq_refl. unfold expire_at.
      replace (it_exp i =? 0) with false by (symmetry; apply Z.eqb_neq; lia).
      replace (it_exp i <? 0) with true by (symmetry; apply Z.ltb_lt; lia). unfold alive. cbn. rewrite Z.ltb_irrefl. reflexivity. }
    rewrite Lk in A. inversion A as [|? o1 ? l1 A1 A2]; subst. inversion A2 as [|? o2 ? l2 A3 A4]; subst. inversion A4; subst.
    destruct o1; try contradiction A1. destruct o2; try contradiction A3. cbn in A1, A3. subst. reflexivity.
Qed.
Print Assumptions C54_ascii_negative_expires.
(** The binary client sends -1 as 4294967295, a time in the year 2106. *)
Theorem C54_binary_refuted : ~ negative_expires PBinary.
Proof.
  intro H. assert (X : snd (run (client_of PBinary []) (fresh_link demo_c reset_header) [Do (OSet (demo_item "k" "v" 0 (-1) 0)); Do (OGet (B "k"))])
    = [Ok RUnit; Err ENotFound]).
  { apply (H [] demo_c reset_header (demo_item "k" "v" 0 (-1) 0)).
    - apply demo_c_wf.
    - vm_compute; reflexivity.
    - apply legal_keyb_ok. vm_compute. reflexivity.
    - split; [reflexivity|discriminate].
    - reflexivity.
    - vm_compute; discriminate.
    - cbn; lia. }
  vm_compute in X. discriminate.
Qed.
Print Assumptions C54_binary_refuted.
Example C54_met : let i := demo_item "k" "v" 0 (-1) 0 in legal_key PText (it_key i) /\ legal_flags PText i /\ - 2 ^ 31 <= it_exp i < 0.
Proof. cbn zeta. split; [legal_tac|]. split; [split; [reflexivity|discriminate]|]. cbn. lia. Qed.

(** ** C55 *)
(** Add answers ItemExists only if the key is present, Replace answers ItemNotFound only if it is
    absent. *)
Definition C55_blame (pr : proto) : Prop := forall name c h i,
  wf pr c -> c_cas c + 1 < cas_bound pr -> legal_item pr i -> it_cas i = 0 ->
  (snd (call (client_of pr name) (fresh_link c h) (OAdd i)) = Err EExists -> lookup c (it_key i) <> None)
  /\ (snd (call (client_of pr name) (fresh_link c h) (OReplace i)) = Err ENotFound -> lookup c (it_key i) = None).
Theorem C55_ascii_blame_partial : forall pr name c h i, pr <> PBinary ->
  wf pr c -> c_cas c + 1 < cas_bound pr -> legal_item pr i -> zlen (it_value i) <= cf_limit (c_cfg c) ->
  (snd (call (client_of pr name) (fresh_link c h) (OAdd i)) = Err EExists -> lookup c (it_key i) <> None)
  /\ (snd (call (client_of pr name) (fresh_link c h) (OReplace i)) = Err ENotFound -> lookup c (it_key i) = None).
Proof.
  intros pr name c h i N W C L S.
  assert (T : too_large c (it_value i) = false) by (unfold too_large; apply Z.ltb_ge; exact S).
  split; intro R.
  - destruct (call_ok pr name c h (OAdd i) W C) as (h' & out & E & A & _).
    { split; [exact L|congruence]. } { destruct pr; try congruence; exact I. }
    rewrite E in R. cbn [snd] in R. subst out. cbn [spec_step snd] in A. unfold cache_add in A. rewrite T in A.
    destruct (lookup c (it_key i)); [discriminate|]. contradiction A.
  - destruct (call_ok pr name c h (OReplace i) W C) as (h' & out & E & A & _).
    { split; [exact L|congruence]. } { destruct pr; try congruence; exact I. }
    rewrite E in R. cbn [snd] in R. subst out. cbn [spec_step snd] in A. unfold cache_replace in A. rewrite T in A.
    destruct (lookup c (it_key i)); [|reflexivity]. contradiction A.
Qed.
Print Assumptions C55_ascii_blame_partial.
Theorem C55_binary_blame : C55_blame PBinary.
Proof.
  intros name c h i W C L U. split; intro R.
  - destruct (lookup c (it_key i)) eqn:K; [discriminate|]. exfalso.
    assert (LA : legal PBinary (OAdd i)) by (split; auto).
    destruct (bin_req_ok h (OAdd i) LA) as [rq Q]. unfold call in R.
    cbn [client_of bin_client cl_req cl_wire cl_resp fresh_link l_cache l_pending l_unread l_header app] in R.
    rewrite Q in R. rewrite (bin_daemon c h (OAdd i) rq LA I Q) in R. cbn [snd bin_intent bin_resp] in R.
    unfold run_add, cache_add in R. rewrite K in R. destruct (too_large c (it_value i)); cbn [fst snd bin_store_packet] in R.
    + pose proof (bin_store_refused op_add 3 (B "Too large.") []) as Ref. rewrite app_nil_r in Ref. unfold op_add in *. unfold runit in R.
      rewrite (rmap_err _ _ _ _ _ _ (Ref ltac:(lia) ltac:(lia) ltac:(vm_compute; reflexivity))) in R. discriminate R.
    + pose proof (bin_store_stored op_add (c_cas c + 1) []) as Ref. rewrite app_nil_r in Ref. unfold op_add in *. unfold runit in R.
      destruct W as (_ & _ & Cn & _). cbn [cas_bound] in C.
      cbn [put c_cas] in R. rewrite (rmap_ok _ _ _ _ _ _ (Ref ltac:(lia) ltac:(lia))) in R. discriminate R.
  - destruct (call_ok PBinary name c h (OReplace i) W C) as (h' & out & E & A & _).
    { split; [exact L|auto]. } { exact I. }
    rewrite E in R. cbn [snd] in R. subst out. cbn [spec_step snd] in A. unfold cache_replace in A.
    destruct (too_large c (it_value i)) eqn:T.
    + (* a value above the limit: the reply carries status 3 *)
      exfalso. assert (LA : legal PBinary (OReplace i)) by (split; auto).
      destruct (bin_req_ok h (OReplace i) LA) as [rq Q]. unfold call in E.
      cbn [client_of bin_client cl_req cl_wire cl_resp fresh_link l_cache l_pending l_unread l_header app] in E.
      rewrite Q in E. rewrite (bin_daemon c h (OReplace i) rq LA I Q) in E. cbn [snd bin_intent bin_resp] in E.
      unfold run_replace, cache_replace in E. rewrite T in E. cbn [fst snd bin_store_packet] in E.
      pose proof (bin_body_any op_replace 3 0 (B "Too large.") []) as Ref. rewrite app_nil_r in Ref. unfold op_replace in *. unfold runit in E.
      rewrite (rmap_err _ _ _ _ _ _ (Ref ltac:(lia) ltac:(lia) ltac:(lia) ltac:(vm_compute; reflexivity))) in E. apply (f_equal snd) in E. discriminate E.
    + destruct (lookup c (it_key i)); [|reflexivity]. contradiction A.
Qed.
Print Assumptions C55_binary_blame.
(** With the textual protocols a value above the server's limit is reported as ItemExists by Add and
    as ItemNotFound by Replace. *)
Definition tiny : cache := empty_cache (mkConfig 1024 (B "1") false) 5.
Definition large_item : item := mkItem (B "k") (repeat "x"%char 1025) None 0 0 [].
Theorem C55_ascii_blame_refuted : forall pr, pr <> PBinary -> ~ C55_blame pr.
Proof.
  intros pr N H.
  destruct (H [] tiny reset_header large_item) as [H1 _].
  - apply demo_wf; [|lia]. split; [split; vm_compute; discriminate|]. split; [vm_compute; discriminate|].
    constructor; [split; vm_compute; discriminate|constructor].
  - destruct pr; vm_compute; reflexivity.
  - apply legal_itemb_ok. destruct pr; vm_compute; reflexivity.
  - reflexivity.
  - apply H1; [destruct pr; try congruence; vm_compute; reflexivity|vm_compute; reflexivity].
Qed.
Print Assumptions C55_ascii_blame_refuted.
Example C55_met : let c := put demo_c (B "k") (B "v") 0 None in
  legal_item PText (demo_item "k" "w" 0 0 0) /\ snd (call (client_of PText []) (fresh_link c reset_header) (OAdd (demo_item "k" "w" 0 0 0))) = Err EExists.
Proof. cbn zeta. split; [legal_tac|vm_compute; reflexivity]. Qed.

(** ** C56 *)
(** GetMulti returns for every present key the cas number Get returns for it. *)
Definition C56_getmulti_cas (pr : proto) : Prop := forall name c h k e,
  wf pr c -> c_cas c + 1 < cas_bound pr -> legal_key pr k -> lookup c k = Some e ->
  exists i, snd (call (client_of pr name) (fresh_link c h) (OGetMulti [k])) = Ok (RItems [i]) /\ it_cas i = e_cas e.
Theorem C56_meta_getmulti_cas : C56_getmulti_cas PMeta.
Proof.
  intros name c h k e W C L K. destruct (call_ok PMeta name c h (OGetMulti [k]) W C) as (h' & out & R & A & _).
  - split; [discriminate|]. constructor; [exact L|constructor].
  - cbn. constructor; [congruence|constructor].
  - rewrite R. cbn [snd]. cbn [spec_step snd flat_map] in A. rewrite K in A. destruct out; try contradiction A.
    cbn [agrees app] in A. subst. eexists. split; [reflexivity|reflexivity].
Qed.
Print Assumptions C56_meta_getmulti_cas.
Theorem C56_getmulti_cas_refuted : forall pr, pr <> PMeta -> ~ C56_getmulti_cas pr.
Proof.
  intros pr N H. destruct (H [] (put demo_c (B "k") (B "v") 0 None) reset_header (B "k") (mkEntry (B "v") 0 None 1 false)) as (i & R & E).
  - apply wf_put; [apply demo_wf; [apply demo_config|lia]|vm_compute; discriminate|split; destruct pr; vm_compute; congruence|auto].
  - destruct pr; vm_compute; reflexivity.
  - apply legal_keyb_ok; destruct pr; vm_compute; reflexivity.
  - vm_compute; reflexivity.
  - destruct pr; try congruence; vm_compute in R; inversion R; subst; vm_compute in E; discriminate.
Qed.
Print Assumptions C56_getmulti_cas_refuted.
Example C56_met : wf PMeta (put demo_c (B "k") (B "v") 0 None) /\ legal_key PMeta (B "k") /\ lookup (put demo_c (B "k") (B "v") 0 None) (B "k") <> None.
Proof.
  split; [apply wf_put; [apply demo_wf; [apply demo_config|lia]|vm_compute; discriminate|split; vm_compute; congruence|auto]|].
  split; [legal_tac|vm_compute; discriminate].
Qed.
