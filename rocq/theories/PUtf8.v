(** * What fmt.Fscanf's %s delivers is always UTF-8 without white space. *)
From Verif Require Import GoBytes GoNum GoIO GoScan PLib Item Cache Spec PScan.
Local Open Scope Z_scope.

Definition scalar (r : Z) : Prop := 0 <= r < 55296 \/ 57344 <= r <= 1114111.
Ltac rngs := repeat match goal with
  | H : in_rng _ _ _ = true |- _ => apply in_rng_iff in H
  | H : _ && _ = true |- _ => apply andb_prop in H; destruct H
  | H : (_ <? _) = true |- _ => apply Z.ltb_lt in H
  | H : (_ <? _) = false |- _ => apply Z.ltb_ge in H
  | H : (_ =? _) = true |- _ => apply Z.eqb_eq in H
  | H : (_ =? _) = false |- _ => apply Z.eqb_neq in H
  end.
Lemma decode_scalar : forall b rest, 0 <= b -> scalar (fst (decode_rune b rest)).
Proof.
  intros b rest H. unfold decode_rune, rune_error, scalar.
  destruct (b <? 128) eqn:E; [rngs; cbn; lia|].
  destruct (in_rng 194 223 b) eqn:E2.
  { destruct rest as [|b1 r]; [cbn; lia|]. destruct (in_rng 128 191 b1) eqn:R1; rngs; cbn [fst]; lia. }
  destruct (in_rng 224 239 b) eqn:E3.
  { destruct rest as [|b1 [|b2 r]]; [cbn; lia|cbn; lia|].
    destruct (b =? 224) eqn:X; destruct (b =? 237) eqn:Y;
      destruct (in_rng _ _ b1 && in_rng 128 191 b2) eqn:R1; rngs; cbn [fst]; lia. }
  destruct (in_rng 240 244 b) eqn:E4.
  { destruct rest as [|b1 [|b2 [|b3 r]]]; [cbn; lia|cbn; lia|cbn; lia|].
    destruct (b =? 240) eqn:X; destruct (b =? 244) eqn:Y;
      destruct (in_rng _ _ b1 && in_rng 128 191 b2 && in_rng 128 191 b3) eqn:R1; rngs; cbn [fst]; lia. }
  cbn. lia.
Qed.
Lemma runes_scalar : forall b skip, Forall (fun x => 0 <= x) b -> Forall scalar (runes_from skip b).
Proof.
  induction b as [|c b IH]; intros skip H; [constructor|]. inversion H; subst. cbn [runes_from].
  destruct skip; [|apply IH; assumption]. constructor; [apply decode_scalar; assumption|apply IH; assumption].
Qed.
Lemma code_byte_small : forall x, 0 <= x <= 255 -> code (byte_of x) = x.
Proof. intros x H. rewrite code_byte_of. apply Z.mod_small. lia. Qed.
Lemma encode_utf8 : forall r, scalar r -> is_space r = false -> Forall (fun c => 33 <= code c /\ code c <> 127) (encode_rune r) ->
  utf8_char (map code (encode_rune r)).
Proof.
  intros r Sc Ns F. assert (Nw : ~ (9 <= r <= 13 \/ r = 32 \/ r = 133 \/ r = 160 \/ r = 5760 \/ 8192 <= r <= 8202 \/ 8232 <= r <= 8233 \/ r = 8239 \/ r = 8287 \/ r = 12288)).
  { intro W. apply space_iff in W. congruence. }
  clear Ns. unfold scalar in Sc. unfold encode_rune in *. destruct (r <? 128) eqn:E1; [|destruct (r <? 2048) eqn:E2; [|destruct (r <? 65536) eqn:E3]]; rngs.
  - inversion F as [|x y A A0]; subst. cbn [map]. rewrite code_byte_small in * by lia. apply Utf8_1. lia.
  - cbn [map]. rewrite !code_byte_small by (Z.to_euclidean_division_equations; lia). clear F. apply Utf8_2; unfold tail_byte, white2; Z.to_euclidean_division_equations; lia.
  - cbn [map]. rewrite !code_byte_small by (Z.to_euclidean_division_equations; lia). clear F. apply Utf8_3; unfold tail_byte, white3; Z.to_euclidean_division_equations; lia.
  - cbn [map]. rewrite !code_byte_small by (Z.to_euclidean_division_equations; lia). clear F. apply Utf8_4; unfold tail_byte; Z.to_euclidean_division_equations; lia.
Qed.
Lemma encodes_utf8 : forall rs, Forall scalar rs -> Forall (fun r => is_space r = false) rs ->
  Forall (fun c => 33 <= code c /\ code c <> 127) (flat_map encode_rune rs) -> utf8_word (flat_map encode_rune rs).
Proof.
  intros rs A N F. exists (map (fun r => map code (encode_rune r)) rs).
  induction rs as [|r rs IH]; [split; [reflexivity|constructor]|]. inversion A; subst. inversion N; subst.
  cbn [flat_map] in F. apply Forall_app in F. destruct F as [F1 F2]. destruct (IH H2 H4 F2) as [E G]. split.
  - cbn [flat_map map concat]. rewrite map_app, E. reflexivity.
  - cbn [map]. constructor; [apply encode_utf8; assumption|exact G].
Qed.

(** ** Through the scanner: what is left to scan consists of runes of the input. *)
Definition sub_of (a b : list Z) : Prop := exists p, b = p ++ a.
Lemma sub_refl : forall a, sub_of a a.
Proof. intro a. exists []. reflexivity. Qed.
Lemma sub_cons : forall a b x, sub_of a b -> sub_of a (x :: b).
Proof. intros a b x [p ->]. exists (x :: p). reflexivity. Qed.
Lemma sub_trans : forall a b c, sub_of a b -> sub_of b c -> sub_of a c.
Proof. intros a b c [p ->] [q ->]. exists (q ++ p). rewrite app_assoc. reflexivity. Qed.
Lemma adv_lit_sub : forall l s t, adv_lit l s = Some t -> sub_of t s.
Proof.
  induction l as [|x l IH]; intros s t E; [injection E as <-; apply sub_refl|]. destruct s as [|y s]; [discriminate E|].
  cbn in E. destruct (x =? y); [|discriminate E]. apply sub_cons, IH. exact E.
Qed.
Lemma drop_spaces_sub : forall s, sub_of (drop_spaces s) s.
Proof. induction s as [|x s IH]; [apply sub_refl|]. cbn [drop_spaces]. destruct (_ && _); [apply sub_cons; exact IH|apply sub_refl]. Qed.
Lemma adv_space_sub : forall s t, adv_space s = Some t -> sub_of t s.
Proof.
  intros s t E. unfold adv_space in E. destruct s as [|x s]; [injection E as <-; apply sub_refl|].
  destruct (_ && _); [|discriminate E]. injection E as <-. apply drop_spaces_sub.
Qed.
Lemma skip_space_sub : forall s t, skip_space s = Some t -> sub_of t s.
Proof.
  induction s as [|x s IH]; intros t E; [injection E as <-; apply sub_refl|]. cbn [skip_space] in E.
  destruct (x =? nl); [discriminate E|]. destruct (is_space x); [apply sub_cons, IH; exact E|injection E as <-; apply sub_refl].
Qed.
Lemma take_word_split : forall s, s = fst (take_word s) ++ snd (take_word s) /\ Forall (fun r => is_space r = false) (fst (take_word s)).
Proof.
  induction s as [|x s [IH1 IH2]]; [split; [reflexivity|constructor]|]. cbn [take_word]. destruct (is_space x) eqn:E; [split; [reflexivity|constructor]|].
  cbn [fst snd app]. split; [congruence|constructor; assumption].
Qed.
Lemma sub_forall : forall (P : Z -> Prop) a b, sub_of a b -> Forall P b -> Forall P a.
Proof. intros P a b [p ->] F. apply Forall_app in F. apply F. Qed.

Lemma scanned_key : forall wc line key f n c, fscanf_value wc line = Some (key, f, n, c) ->
  exists rs, key = flat_map encode_rune rs /\ Forall scalar rs /\ Forall (fun r => is_space r = false) rs.
Proof.
  intros wc line key f n c E. unfold fscanf_value in E.
  destruct (adv_lit (map code (B "VALUE")) (runes line)) as [s0|] eqn:E0; [|discriminate E]. cbn [obind] in E.
  destruct (adv_space s0) as [s1|] eqn:E1; [|discriminate E]. cbn [obind] in E.
  destruct (scan_string s1) as [[key' s1']|] eqn:E2; [|discriminate E]. cbn [obind fst snd] in E.
  assert (K : key' = key).
  { destruct (adv_space s1') as [s2|]; [|discriminate E]. cbn [obind] in E. destruct (scan_uint 32 s2) as [[f' s2']|]; [|discriminate E]. cbn [obind fst snd] in E.
    destruct (adv_space s2') as [s3|]; [|discriminate E]. cbn [obind] in E. destruct (scan_int s3) as [[n' s3']|]; [|discriminate E]. cbn [obind fst snd] in E.
    destruct wc; [|congruence]. destruct (adv_space s3') as [s4|]; [|discriminate E]. cbn [obind] in E. destruct (scan_uint 64 s4) as [[c' s4']|]; [|discriminate E]. cbn [obind fst snd] in E. congruence. }
  subst key'. clear E. unfold scan_string in E2. destruct (skip_space s1) as [[|r s]|] eqn:E3; [discriminate E2| |discriminate E2].
  assert (Sc : Forall scalar (r :: s)).
  { eapply sub_forall; [|apply (runes_scalar (map code line) 0); rewrite Forall_map, Forall_forall; intros x _; apply code_range].
    eapply sub_trans; [apply skip_space_sub; exact E3|]. eapply sub_trans; [apply adv_space_sub; exact E1|]. apply adv_lit_sub with (1 := E0). }
  destruct (take_word_split (r :: s)) as [T N]. exists (fst (take_word (r :: s))). split; [congruence|]. split; [|exact N].
  rewrite T in Sc. apply Forall_app in Sc. apply Sc.
Qed.
