(** * fmt.Fscanf on the VALUE lines a server sends for keys in UTF-8. *)
From Verif Require Import GoBytes GoNum GoIO GoScan PLib Item Cache Spec.
Local Open Scope Z_scope.

Lemma runes_ascii : forall b, ascii7 b -> runes b = map code b.
Proof.
  unfold runes. induction b as [|c b IH]; intro H; [reflexivity|]. inversion H; subst.
  simpl map. simpl runes_from. unfold decode_rune.
  destruct (code c <? 128) eqn:E; [|apply Z.ltb_ge in E; lia]. simpl. f_equal. apply IH. assumption.
Qed.

Lemma runes_from_ascii : forall b rest, ascii7 b -> runes_from 0 (map code b ++ rest) = map code b ++ runes_from 0 rest.
Proof.
  induction b as [|c b IH]; intros rest H; [reflexivity|]. inversion H; subst.
  cbn [map app runes_from]. unfold decode_rune at 1 2.
  destruct (code c <? 128) eqn:E; [|apply Z.ltb_ge in E; lia]. cbn [fst snd pred]. f_equal. apply IH. assumption.
Qed.

(** ** UTF-8: decoding and encoding again *)
Lemma in_rng_true : forall lo hi x, lo <= x <= hi -> in_rng lo hi x = true.
Proof. intros lo hi x H. unfold in_rng. apply andb_true_iff. split; apply Z.leb_le; lia. Qed.
Lemma in_rng_false : forall lo hi x, x < lo \/ hi < x -> in_rng lo hi x = false.
Proof. intros lo hi x H. unfold in_rng. apply andb_false_iff. destruct H; [left|right]; apply Z.leb_gt; lia. Qed.
Lemma in_rng_iff : forall lo hi x, in_rng lo hi x = true <-> lo <= x <= hi.
Proof. intros lo hi x. unfold in_rng. rewrite andb_true_iff, !Z.leb_le. reflexivity. Qed.
Ltac rng := repeat match goal with
  | |- context [in_rng ?a ?b ?x] => first [rewrite (in_rng_true a b x) by lia | rewrite (in_rng_false a b x) by lia]
  | |- context [?x <? ?y] => first [rewrite (proj2 (Z.ltb_lt x y)) by lia | rewrite (proj2 (Z.ltb_ge x y)) by lia]
  | |- context [?x =? ?y] => first [rewrite (proj2 (Z.eqb_eq x y)) by lia | rewrite (proj2 (Z.eqb_neq x y)) by lia]
  end.
Lemma byte_of_nth : forall x y, x mod 256 = y mod 256 -> byte_of x = byte_of y.
Proof. intros x y H. unfold byte_of. rewrite H. reflexivity. Qed.
Lemma space_iff : forall r, is_space r = true <->
  (9 <= r <= 13 \/ r = 32 \/ r = 133 \/ r = 160 \/ r = 5760 \/ 8192 <= r <= 8202 \/ 8232 <= r <= 8233 \/ r = 8239 \/ r = 8287 \/ r = 12288).
Proof. intro r. unfold is_space. rewrite !orb_true_iff, !in_rng_iff, !Z.eqb_eq. lia. Qed.
Lemma not_space : forall r, ~ (9 <= r <= 13 \/ r = 32 \/ r = 133 \/ r = 160 \/ r = 5760 \/ 8192 <= r <= 8202 \/ 8232 <= r <= 8233 \/ r = 8239 \/ r = 8287 \/ r = 12288) -> is_space r = false.
Proof. intros r H. destruct (is_space r) eqn:E; [|reflexivity]. apply space_iff in E. contradiction. Qed.

(** The number of a character. *)
Definition char_number (ch : list Z) : Z :=
  match ch with
  | [a] => a
  | [a; b] => (a - 192) * 64 + (b - 128)
  | [a; b; c] => (a - 224) * 4096 + (b - 128) * 64 + (c - 128)
  | [a; b; c; d] => (a - 240) * 262144 + (b - 128) * 4096 + (c - 128) * 64 + (d - 128)
  | _ => 0
  end.
Lemma char_decodes : forall ch rest, utf8_char ch -> runes_from 0 (ch ++ rest) = char_number ch :: runes_from 0 rest.
Proof.
  intros ch rest H. unfold char_number.
  destruct H as [a A|a b A Hb W|a b c A Hb C X Y W|a b c d A Hb C D X Y]; unfold tail_byte in *; cbn [app runes_from]; unfold decode_rune.
  - rng. reflexivity.
  - rng. reflexivity.
  - rng. destruct (a =? 224) eqn:E1; destruct (a =? 237) eqn:E2; rewrite ?Z.eqb_eq, ?Z.eqb_neq in *; try lia; rng; reflexivity.
  - rng. destruct (a =? 240) eqn:E1; destruct (a =? 244) eqn:E2; rewrite ?Z.eqb_eq, ?Z.eqb_neq in *; try lia; rng; reflexivity.
Qed.
Lemma char_encodes : forall ch, utf8_char ch -> encode_rune (char_number ch) = map byte_of ch.
Proof.
  intros ch H. unfold char_number, encode_rune.
  destruct H as [a A|a b A Hb W|a b c A Hb C X Y W|a b c d A Hb C D X Y]; unfold tail_byte in *; cbn [map].
  - rng. reflexivity.
  - rng. repeat (apply (f_equal2 (@cons ascii)); [apply byte_of_nth; Z.to_euclidean_division_equations; lia|]). reflexivity.
  - rng. repeat (apply (f_equal2 (@cons ascii)); [apply byte_of_nth; Z.to_euclidean_division_equations; lia|]). reflexivity.
  - rng. repeat (apply (f_equal2 (@cons ascii)); [apply byte_of_nth; Z.to_euclidean_division_equations; lia|]). reflexivity.
Qed.
Lemma char_not_space : forall ch, utf8_char ch -> is_space (char_number ch) = false.
Proof.
  intros ch H. apply not_space. unfold char_number.
  destruct H as [a A|a b A Hb W|a b c A Hb C X Y W|a b c d A Hb C D X Y]; unfold tail_byte, white2, white3 in *; lia.
Qed.
Lemma map_byte_of_code : forall w, map byte_of (map code w) = w.
Proof. intro w. rewrite map_map. erewrite map_ext; [apply map_id|]. intro. apply byte_of_code. Qed.
Lemma utf8_word_runes : forall k, utf8_word k -> exists rs, Forall (fun r => is_space r = false) rs
  /\ (forall rest, runes_from 0 (map code k ++ rest) = rs ++ runes_from 0 rest) /\ flat_map encode_rune rs = k.
Proof.
  intros k (chars & E & F). exists (map char_number chars). split; [|split].
  - clear E. induction F; cbn [map]; constructor; auto using char_not_space.
  - intro rest. rewrite E. clear E. induction F as [|ch chars H F IH]; [reflexivity|].
    cbn [concat map app]. rewrite <- app_assoc, char_decodes by assumption. f_equal. apply IH.
  - rewrite <- (map_byte_of_code k), E. clear E.
    induction F as [|ch chars H F IH]; [reflexivity|]. cbn [concat map flat_map]. rewrite char_encodes, map_app, IH by assumption. reflexivity.
Qed.
Lemma utf8_word_word : forall k, utf8_word k -> Forall (fun c => 33 <= code c /\ code c <> 127) k.
Proof.
  intros k (chars & E & F). rewrite Forall_forall. intros c I.
  assert (J : In (code c) (concat chars)) by (rewrite <- E; apply in_map; exact I).
  apply in_concat in J. destruct J as (ch & J1 & J2). rewrite Forall_forall in F. specialize (F ch J1).
  destruct F; unfold tail_byte in *; cbn [In] in J2; lia.
Qed.

(** A token of printable ASCII followed by a space, CR or the end. *)
Definition printable (w : bytes) : Prop := Forall (fun c => 33 <= code c <= 126) w.
Definition stops (r : list Z) : Prop := match r with [] => True | x :: _ => x = 32 \/ x = 13 end.

Lemma not_space_printable : forall x, 33 <= x <= 126 -> is_space x = false.
Proof.
  intros x H. unfold is_space, in_rng.
  repeat (apply orb_false_iff; split); try (apply Z.eqb_neq; lia);
    apply andb_false_iff; ((left; apply Z.leb_gt; lia) || (right; apply Z.leb_gt; lia)).
Qed.
Lemma skip_space_printable : forall c r, 33 <= c <= 126 -> skip_space (c :: r) = Some (c :: r).
Proof.
  intros c r H. simpl. unfold nl. destruct (c =? 10) eqn:E; [apply Z.eqb_eq in E; lia|].
  rewrite not_space_printable by lia. reflexivity.
Qed.
Lemma adv_space_one : forall c r, 33 <= c <= 126 -> adv_space (32 :: c :: r) = Some (c :: r).
Proof. intros c r H. cbn. rewrite not_space_printable by lia. reflexivity. Qed.

Lemma take_word_printable : forall w r, printable w -> stops r ->
  take_word (map code w ++ r) = (map code w, r).
Proof.
  induction w as [|c w IH]; intros r H S.
  - simpl. destruct r as [|x r]; [reflexivity|]. simpl in *. destruct S as [-> | ->]; reflexivity.
  - inversion H; subst. simpl. rewrite not_space_printable by lia. rewrite IH by assumption. reflexivity.
Qed.
Lemma encode_ascii : forall w, ascii7 w -> flat_map encode_rune (map code w) = w.
Proof.
  induction w as [|c w IH]; intro H; [reflexivity|]. inversion H; subst. cbn [map flat_map].
  rewrite IH by assumption.
  unfold encode_rune. destruct (code c <? 128) eqn:E; [|apply Z.ltb_ge in E; lia].
  rewrite byte_of_code. reflexivity.
Qed.
Lemma printable_ascii7 : forall w, printable w -> ascii7 w.
Proof. intros w. apply Forall_impl. intros; lia. Qed.
Lemma printable_word : forall w, printable w -> word w.
Proof. intros w. apply Forall_impl. intros; lia. Qed.
Lemma dec_printable : forall n, printable (dec n).
Proof.
  intro n. generalize (dec_chars n). apply Forall_impl. intros c [H| ->].
  - apply is_digit_code in H. lia.
  - vm_compute. split; discriminate.
Qed.

Lemma printable_utf8 : forall w, printable w -> utf8_word w.
Proof.
  intros w H. exists (map (fun x => [x]) (map code w)). split.
  - induction (map code w) as [|x l IH]; [reflexivity|]. cbn. rewrite <- IH. reflexivity.
  - induction H; constructor; auto. apply Utf8_1. assumption.
Qed.
Lemma take_word_not_space : forall w r, Forall (fun x => is_space x = false) w -> stops r -> take_word (w ++ r) = (w, r).
Proof.
  induction w as [|c w IH]; intros r H S.
  - simpl. destruct r as [|x r]; [reflexivity|]. simpl in *. destruct S as [-> | ->]; reflexivity.
  - inversion H; subst. cbn [app take_word]. rewrite H2, IH by assumption. reflexivity.
Qed.
Lemma not_space_nl : forall r, is_space r = false -> (r =? nl) = false.
Proof. intros r H. apply Z.eqb_neq. intros ->. discriminate H. Qed.
Lemma scan_string_word : forall w r, w <> [] -> Forall (fun x => is_space x = false) w -> stops r ->
  scan_string (w ++ r) = Some (flat_map encode_rune w, r).
Proof.
  intros w r N H S. destruct w as [|c w]; [congruence|]. unfold scan_string.
  assert (K : skip_space ((c :: w) ++ r) = Some ((c :: w) ++ r)).
  { inversion H; subst. cbn [app skip_space]. rewrite not_space_nl, H2 by assumption. reflexivity. }
  rewrite K. rewrite take_word_not_space by assumption. reflexivity.
Qed.
Lemma adv_space_runes : forall w r, w <> [] -> Forall (fun x => is_space x = false) w ->
  adv_space (32 :: w ++ r) = Some (w ++ r).
Proof.
  intros w r N H. destruct w as [|c w]; [congruence|]. inversion H; subst. cbn. rewrite H2. reflexivity.
Qed.

Lemma take_digits_all : forall w r, Forall (fun c => is_digit c = true) w -> stops r ->
  take_digits (map code w ++ r) = (map code w, r).
Proof.
  induction w as [|c w IH]; intros r H S.
  - simpl. destruct r as [|x r]; [reflexivity|]. simpl in *. destruct S as [-> | ->]; reflexivity.
  - inversion H; subst. simpl. apply is_digit_code in H2 as R. unfold in_rng.
    destruct (48 <=? code c) eqn:E1; [|apply Z.leb_gt in E1; lia].
    destruct (code c <=? 57) eqn:E2; [|apply Z.leb_gt in E2; lia]. simpl.
    rewrite IH by assumption. reflexivity.
Qed.

Lemma scan_uint_dec : forall bits n r, 0 <= n < 2 ^ bits -> bits <= 64 -> 0 <= bits -> stops r ->
  scan_uint bits (map code (dec n) ++ r) = Some (n, r).
Proof.
  intros bits n r H B64 B0 S. unfold scan_uint.
  pose proof (dec_nonempty n) as N. pose proof (dec_printable n) as P.
  destruct (dec n) as [|c w] eqn:E; [congruence|]. inversion P; subst.
  cbn [map app]. rewrite skip_space_printable by lia.
  change (code c :: map code w ++ r) with (map code (c :: w) ++ r). rewrite <- E.
  rewrite take_digits_all; [|apply dec_digits; lia|assumption]. cbn [fst snd].
  assert (2 ^ bits <= 2 ^ 64) by (apply Z.pow_le_mono_r; lia).
  rewrite map_byte_of_code, parse_uint_dec by lia.
  destruct (n <? 2 ^ bits) eqn:L; auto. apply Z.ltb_ge in L. lia.
Qed.

Lemma scan_int_dec : forall n r, 0 <= n < 2 ^ 63 -> stops r ->
  scan_int (map code (dec n) ++ r) = Some (n, r).
Proof.
  intros n r H S. unfold scan_int.
  pose proof (dec_nonempty n) as N. pose proof (dec_printable n) as P.
  pose proof (dec_digits n ltac:(lia)) as D.
  destruct (dec n) as [|c w] eqn:E; [congruence|]. inversion P; subst. inversion D; subst.
  cbn [map app]. rewrite skip_space_printable by lia. cbv zeta.
  apply is_digit_code in H4.
  destruct (code c =? 43) eqn:E1; [apply Z.eqb_eq in E1; lia|].
  destruct (code c =? 45) eqn:E2; [apply Z.eqb_eq in E2; lia|]. cbn [orb fst snd app].
  change (code c :: map code w ++ r) with (map code (c :: w) ++ r).
  rewrite take_digits_all by assumption. cbn [fst snd].
  cbn [map]. rewrite byte_of_code, map_byte_of_code, <- E, parse_int_dec by lia. reflexivity.
Qed.

Lemma adv_lit_value : forall r, adv_lit (map code (B "VALUE")) (map code (B "VALUE") ++ r) = Some r.
Proof. reflexivity. Qed.

Lemma adv_space_word : forall w r, w <> [] -> printable w ->
  adv_space (32 :: map code w ++ r) = Some (map code w ++ r).
Proof.
  intros w r N H. destruct w as [|c w]; [congruence|]. inversion H; subst. cbn [map app].
  apply adv_space_one. assumption.
Qed.

Section Value.
Variables (k : bytes) (f n u : Z).
Hypothesis Kn : k <> [].
Hypothesis Kp : utf8_word k.
Hypothesis Hf : 0 <= f < 2 ^ 32.
Hypothesis Hn : 0 <= n < 2 ^ 63.
Hypothesis Hu : 0 <= u < 2 ^ 64.

Definition value_head : bytes := B "VALUE " ++ k ++ B " " ++ dec f ++ B " " ++ dec n.

Lemma value_runes : forall tail, ascii7 tail -> exists rs, rs <> [] /\ Forall (fun r => is_space r = false) rs /\ flat_map encode_rune rs = k /\
  runes (value_head ++ tail) =
  map code (B "VALUE") ++ 32 :: rs ++ 32 :: map code (dec f) ++ 32 :: map code (dec n) ++ map code tail.
Proof.
  intros tail T. destruct (utf8_word_runes k Kp) as (rs & Ns & Dec & Enc). exists rs. split; [intros ->; apply Kn; rewrite <- Enc; reflexivity|].
  split; [exact Ns|]. split; [exact Enc|]. unfold runes, value_head. rewrite <- !app_assoc, map_app, runes_from_ascii by repeat constructor.
  rewrite map_app, Dec. change (B "VALUE ") with (B "VALUE" ++ B " "). rewrite map_app, <- app_assoc. f_equal.
  change (map code (B " ")) with [32]. cbn [app]. f_equal. f_equal.
  rewrite <- (app_nil_r (map code _)), runes_from_ascii.
  - cbn [runes_from]. rewrite app_nil_r, !map_app. reflexivity.
  - repeat (apply Forall_app; split); try apply dec_ascii7; try assumption; repeat constructor.
Qed.

Lemma fscanf_nocas : fscanf_value false (value_head ++ crlf) = Some (k, f, n, 0).
Proof.
  unfold fscanf_value. destruct (value_runes crlf ltac:(repeat constructor)) as (rs & Rn & Rs & <- & ->).
  rewrite adv_lit_value. cbn [obind].
  rewrite adv_space_runes by assumption. cbn [obind].
  rewrite scan_string_word by (auto; simpl; auto). cbn [obind fst snd].
  rewrite adv_space_word by (apply dec_nonempty || apply dec_printable). cbn [obind].
  rewrite scan_uint_dec by (try lia; simpl; auto). cbn [obind fst snd].
  rewrite adv_space_word by (apply dec_nonempty || apply dec_printable). cbn [obind].
  rewrite scan_int_dec by (try lia; simpl; auto). reflexivity.
Qed.

Lemma fscanf_cas : fscanf_value true (value_head ++ B " " ++ dec u ++ crlf) = Some (k, f, n, u).
Proof.
  unfold fscanf_value. destruct (value_runes (B " " ++ dec u ++ crlf)) as (rs & Rn & Rs & <- & ->).
  { repeat (apply Forall_app; split); try apply dec_ascii7; repeat constructor. }
  rewrite adv_lit_value. cbn [obind].
  rewrite adv_space_runes by assumption. cbn [obind].
  rewrite scan_string_word by (auto; simpl; auto). cbn [obind fst snd].
  rewrite adv_space_word by (apply dec_nonempty || apply dec_printable). cbn [obind].
  rewrite scan_uint_dec by (try lia; simpl; auto). cbn [obind fst snd].
  rewrite adv_space_word by (apply dec_nonempty || apply dec_printable). cbn [obind].
  rewrite scan_int_dec by (try lia; simpl; auto). cbn [obind fst snd].
  change (map code (B " " ++ dec u ++ crlf)) with (32 :: map code (dec u ++ crlf)).
  rewrite map_app.
  rewrite adv_space_word by (apply dec_nonempty || apply dec_printable). cbn [obind].
  rewrite scan_uint_dec by (try lia; simpl; auto). reflexivity.
Qed.

Lemma key_is_word : word k.
Proof. eapply Forall_impl; [|apply utf8_word_word; exact Kp]. cbn. intros; lia. Qed.
Lemma count_nocas : count_sp (value_head ++ crlf) = 3.
Proof.
  unfold value_head. rewrite !count_sp_app. rewrite !(count_sp_word (dec _)) by apply dec_word.
  rewrite (count_sp_word k) by apply key_is_word. reflexivity.
Qed.
Lemma count_cas : count_sp (value_head ++ B " " ++ dec u ++ crlf) = 4.
Proof.
  unfold value_head. rewrite !count_sp_app. rewrite !(count_sp_word (dec _)) by apply dec_word.
  rewrite (count_sp_word k) by apply key_is_word. reflexivity.
Qed.
End Value.
