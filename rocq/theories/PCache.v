(** * The abstract cache keeps its bounds. *)
From Verif Require Import GoBytes GoNum GoIO Item Cache Spec PLib.
Local Open Scope Z_scope.

Lemma lookup_map : forall c k e, lookup c k = Some e -> c_map c k = Some e /\ alive (c_now c) e = true.
Proof.
  intros c k e H. unfold lookup in H. destruct (c_map c k) as [e'|]; [|discriminate].
  destruct (alive (c_now c) e') eqn:A; [|discriminate]. inversion H; subst. auto.
Qed.
Lemma wf_lookup : forall pr c k e, wf pr c -> lookup c k = Some e -> wf_entry pr c e.
Proof. intros pr c k e (_ & _ & _ & W) H. apply lookup_map in H as [H _]. eapply W. exact H. Qed.

Lemma put_entry_some : forall m k e j x, put_entry m k e j = Some x ->
  (j = k /\ e = Some x) \/ m j = Some x.
Proof.
  intros m k e j x H. unfold put_entry in H. destruct (beq j k) eqn:E; auto.
  apply beq_eq in E. auto.
Qed.

Lemma wf_entry_mono : forall pr c c' e, wf_entry pr c e -> c_cfg c' = c_cfg c -> c_now c <= c_now c' ->
  c_cas c <= c_cas c' -> wf_entry pr c' e.
Proof.
  intros pr c c' e (H1 & H2 & H3 & H4) E N S. unfold wf_entry. rewrite E. repeat split; try lia.
  intro P. specialize (H4 P). destruct (e_expire e); auto. lia.
Qed.

Lemma wf_put : forall pr c k v f x, wf pr c -> zlen v <= cf_limit (c_cfg c) -> 0 <= f < flags_bound pr ->
  (pr = PMeta -> match x with None => True | Some t => t - c_now c < 2 ^ 31 end) ->
  wf pr (put c k v f x).
Proof.
  intros pr c k v f x (W1 & W2 & W3 & W4) Hv Hf Hx. unfold wf, put. cbn [c_cfg c_now c_cas c_map].
  split; [exact W1|]. split; [lia|]. split; [lia|]. intros j y H.
  destruct (put_entry_some _ _ _ _ _ H) as [[-> Q]|Q].
  - inversion Q; subst. unfold wf_entry. cbn. repeat split; auto; lia.
  - eapply wf_entry_mono; [exact (W4 _ _ Q)|reflexivity| |]; cbn; lia.
Qed.
Lemma wf_drop : forall pr c k, wf pr c -> wf pr (drop c k).
Proof.
  intros pr c k (W1 & W2 & W3 & W4). unfold wf, drop, with_map. cbn [c_cfg c_now c_cas c_map].
  split; [exact W1|]. split; [lia|]. split; [lia|]. intros j y H.
  destruct (put_entry_some _ _ _ _ _ H) as [[-> Q]|Q]; [discriminate|].
  eapply wf_entry_mono; [exact (W4 _ _ Q)|reflexivity| |]; cbn; lia.
Qed.
Lemma expire_bound : forall now e, 0 <= now -> - 2 ^ 31 <= e < 2 ^ 31 ->
  match expire_at now e with None => True | Some t => t - now < 2 ^ 31 end.
Proof.
  intros now e N H. unfold expire_at, month. destruct (e =? 0); auto.
  destruct (e <? 0); [lia|]. destruct (e <=? _) eqn:L; [apply Z.leb_le in L; lia|lia].
Qed.

Lemma item_flags_range : forall pr i, legal_flags pr i -> 0 <= item_flags i < flags_bound pr.
Proof.
  intros pr i H. unfold legal_flags, item_flags in *. destruct (it_flags i) as [f|].
  - destruct H as [L M]. pose proof (unbe_range f) as R. unfold zlen in R. rewrite L in R.
    change (2 ^ (8 * Z.of_nat 4)) with (2 ^ 32) in R. unfold flags_bound. destruct pr; try lia.
    specialize (M eq_refl). lia.
  - unfold flags_bound. destruct pr; lia.
Qed.

Lemma counter_value_range : forall v n, counter_value v = Some n -> 0 <= n < 2 ^ 64.
Proof.
  assert (P : forall s a n, parse_digits a s = Some n -> 0 <= a -> 0 <= n).
  { induction s as [|c s IH]; simpl; intros a n H A; [inversion H; lia|].
    destruct (is_digit c) eqn:D; [|discriminate]. apply is_digit_code in D. eapply IH; [exact H|lia]. }
  intros v n H. unfold counter_value, parse_uint in H. destruct (strip_spaces v) eqn:E; [discriminate|].
  rewrite <- E in H. destruct (parse_digits 0 (strip_spaces v)) as [m|] eqn:D; [|discriminate].
  destruct (m <? 2 ^ 64) eqn:L; [|discriminate]. inversion H; subst. apply Z.ltb_lt in L.
  apply P in D; lia.
Qed.
Lemma delta_apply_range : forall up n d, 0 <= n < 2 ^ 64 -> 0 <= d -> 0 <= delta_apply up n d < 2 ^ 64.
Proof.
  intros up n d H D. unfold delta_apply. destruct up.
  - apply Z.mod_pos_bound. lia.
  - destruct (d <=? n) eqn:E; [apply Z.leb_le in E; lia|lia].
Qed.
Lemma counter_text_len : forall old n, 0 <= n < 2 ^ 64 -> zlen (counter_text old n) <= Z.max (zlen old) 66.
Proof.
  intros old n H. unfold counter_text. rewrite zlen_app. pose proof (dec_len n ltac:(lia)).
  unfold zlen in *. rewrite repeat_length. lia.
Qed.

Lemma wf_delta : forall pr up c k d, wf pr c -> 0 <= d -> wf pr (fst (cache_delta up c k d)).
Proof.
  intros pr up c k d W D. unfold cache_delta. destruct (lookup c k) as [o|] eqn:L; [|exact W].
  destruct (counter_value (e_value o)) as [n|] eqn:C; [|exact W]. cbn [fst].
  destruct (wf_lookup _ _ _ _ W L) as (A1 & A2 & A3 & A4).
  apply counter_value_range in C. pose proof (delta_apply_range up n d C D).
  pose proof (counter_text_len (e_value o) _ H).
  destruct W as (W1 & W). apply wf_put; auto; try lia.
  - split; auto.
  - destruct W1 as (W1 & _). lia.
Qed.

Lemma wf_store : forall pr c k v f e, wf pr c -> 0 <= f < flags_bound pr -> legal_exp pr e ->
  too_large c v = false -> wf pr (put c k v f (expire_at (c_now c) e)).
Proof.
  intros pr c k v f e W F E T. apply wf_put; auto.
  - unfold too_large in T. apply Z.ltb_ge in T. lia.
  - intros ->. apply expire_bound; [apply W|exact E].
Qed.

Lemma cfg_spec_step : forall pr name c o, c_cfg (fst (spec_step pr name c o)) = c_cfg c.
Proof.
  intros pr name c o. destruct o; simpl; auto.
  - destruct (it_cas i =? 0); unfold cache_set, cache_cas; destruct (too_large c (it_value i)); auto;
      destruct (lookup c (it_key i)) as [o|]; auto. destruct (e_cas o =? it_cas i); auto.
  - unfold cache_add. destruct (too_large c (it_value i)); auto. destruct (lookup c (it_key i)); auto.
  - unfold cache_replace. destruct (too_large c (it_value i)); auto. destruct (lookup c (it_key i)); auto.
  - unfold cache_delete. destruct (lookup c k); auto.
  - unfold spec_delta. destruct pr, (lookup c k) eqn:L; cbn [fst]; auto; unfold cache_delta; rewrite L; auto;
      destruct (counter_value (e_value e)); auto.
  - unfold spec_delta. destruct pr, (lookup c k) eqn:L; cbn [fst]; auto; unfold cache_delta; rewrite L; auto;
      destruct (counter_value (e_value e)); auto.
  - unfold cache_touch. destruct (lookup c k); auto.
Qed.

Lemma wf_touch : forall pr c k e, wf pr c -> legal_exp pr e -> wf pr (fst (cache_touch c k e)).
Proof.
  intros pr c k e W E. unfold cache_touch. destruct (lookup c k) as [o|] eqn:L; [|exact W].
  destruct (wf_lookup _ _ _ _ W L) as (A1 & A2 & A3 & A4).
  destruct W as (W1 & W2 & W3 & W4). unfold wf. cbn [fst with_map c_cfg c_now c_cas c_map].
  split; [exact W1|]. split; [lia|]. split; [lia|]. intros j x H.
  destruct (put_entry_some _ _ _ _ _ H) as [[-> Q]|Q].
  - inversion Q; subst. unfold wf_entry. cbn [e_value e_flags e_cas e_expire set_expire c_cfg c_cas c_now with_map].
    repeat split; try lia. intros ->. apply expire_bound; [lia|exact E].
  - eapply wf_entry_mono; [exact (W4 _ _ Q)|reflexivity| |]; cbn; lia.
Qed.

Lemma wf_spec_step : forall pr name c o, wf pr c -> legal pr o -> wf pr (fst (spec_step pr name c o)).
Proof.
  intros pr name c o W L. destruct o; simpl in L; simpl spec_step; cbn [fst]; auto.
  - destruct L as (K & F & E & C & V). pose proof (item_flags_range _ _ F) as R.
    destruct (it_cas i =? 0); unfold cache_set, cache_cas; destruct (too_large c (it_value i)) eqn:T; cbn [fst]; auto using wf_drop.
    + apply wf_store; auto.
    + destruct (lookup c (it_key i)) as [o|]; cbn [fst]; auto. destruct (e_cas o =? it_cas i); cbn [fst]; auto.
      apply wf_store; auto.
  - destruct L as ((K & F & E & C & V) & _). pose proof (item_flags_range _ _ F) as R.
    unfold cache_add. destruct (too_large c (it_value i)) eqn:T; cbn [fst]; auto.
    destruct (lookup c (it_key i)); cbn [fst]; auto. apply wf_store; auto.
  - destruct L as ((K & F & E & C & V) & _). pose proof (item_flags_range _ _ F) as R.
    unfold cache_replace. destruct (too_large c (it_value i)) eqn:T; cbn [fst]; auto.
    destruct (lookup c (it_key i)); cbn [fst]; auto. apply wf_store; auto.
  - unfold cache_delete. destruct (lookup c k); cbn [fst]; auto using wf_drop.
  - destruct L as (K & D & E). unfold spec_delta. destruct pr, (lookup c k) eqn:Q; cbn [fst]; auto; try (apply wf_delta; auto; lia).
    apply wf_put; auto.
    + destruct W as ((W1 & _) & _). change (zlen (B "1")) with 1. lia.
    + unfold flags_bound. lia.
    + discriminate.
  - destruct L as (K & D & E). unfold spec_delta. destruct pr, (lookup c k) eqn:Q; cbn [fst]; auto; try (apply wf_delta; auto; lia).
    apply wf_put; auto.
    + destruct W as ((W1 & _) & _). change (zlen (B "1")) with 1. lia.
    + unfold flags_bound. lia.
    + discriminate.
  - destruct L as (K & E). apply wf_touch; auto.
  - destruct W as (W1 & W2 & W3 & W4). unfold wf, cache_flush, with_map. cbn. repeat split; try apply W1; try lia; discriminate.
Qed.

Lemma wf_tick : forall pr c d, wf pr c -> 0 <= d -> wf pr (tick c d).
Proof.
  intros pr c d (W1 & W2 & W3 & W4) D. unfold wf, tick. cbn [c_cfg c_now c_cas c_map].
  split; [exact W1|]. split; [lia|]. split; [lia|]. intros k e H.
  eapply wf_entry_mono; [exact (W4 _ _ H)|reflexivity| |]; cbn; lia.
Qed.

Lemma cas_spec_step : forall pr name c o,
  c_cas c <= c_cas (fst (spec_step pr name c o)) <= c_cas c + 1.
Proof.
  intros pr name c o. destruct o; simpl; try lia.
  - destruct (it_cas i =? 0); unfold cache_set, cache_cas; destruct (too_large c (it_value i)); cbn; try lia;
      destruct (lookup c (it_key i)) as [o|]; cbn; try lia. destruct (e_cas o =? it_cas i); cbn; lia.
  - unfold cache_add. destruct (too_large c (it_value i)); cbn; try lia. destruct (lookup c (it_key i)); cbn; lia.
  - unfold cache_replace. destruct (too_large c (it_value i)); cbn; try lia. destruct (lookup c (it_key i)); cbn; lia.
  - unfold cache_delete. destruct (lookup c k); cbn; lia.
  - unfold spec_delta. destruct pr, (lookup c k) eqn:L; cbn [fst]; unfold cache_delta; rewrite ?L; cbn; try lia;
      destruct (counter_value (e_value e)); cbn; lia.
  - unfold spec_delta. destruct pr, (lookup c k) eqn:L; cbn [fst]; unfold cache_delta; rewrite ?L; cbn; try lia;
      destruct (counter_value (e_value e)); cbn; lia.
  - unfold cache_touch. destruct (lookup c k); cbn; lia.
Qed.
