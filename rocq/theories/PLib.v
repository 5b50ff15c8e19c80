(** * Library lemmas: bytes, numbers, decimal text, lines and tokens. *)
From Verif Require Import GoBytes GoNum GoIO.
Local Open Scope Z_scope.

(** ** Bytes *)
Lemma beq_eq : forall a b, beq a b = true <-> a = b.
Proof.
  induction a as [|x a IH]; destruct b as [|y b]; simpl; split; intro H; try discriminate; auto.
  - apply andb_true_iff in H as [H1 H2]. apply Ascii.eqb_eq in H1. apply IH in H2. congruence.
  - inversion H; subst. rewrite Ascii.eqb_refl. simpl. apply IH. reflexivity.
Qed.
Lemma beq_refl : forall a, beq a a = true.
Proof. intro a. apply beq_eq. reflexivity. Qed.
Lemma beq_neq : forall a b, beq a b = false <-> a <> b.
Proof.
  intros a b. split; intro H.
  - intro E. apply beq_eq in E. congruence.
  - destruct (beq a b) eqn:E; auto. apply beq_eq in E. contradiction.
Qed.
Lemma beq_sym : forall a b, beq a b = beq b a.
Proof.
  intros. destruct (beq a b) eqn:E; symmetry.
  - apply beq_eq in E. subst. apply beq_refl.
  - apply beq_neq. apply beq_neq in E. congruence.
Qed.

Lemma code_range : forall c, 0 <= code c <= 255.
Proof. intro c. unfold code. pose proof (N_ascii_bounded c). lia. Qed.
Lemma code_byte_of : forall n, code (byte_of n) = n mod 256.
Proof.
  intro n. unfold code, byte_of. pose proof (Z.mod_pos_bound n 256 ltac:(lia)).
  rewrite N_ascii_embedding by lia. rewrite Z2N.id; lia.
Qed.
Lemma byte_of_code : forall c, byte_of (code c) = c.
Proof.
  intro c. unfold byte_of. pose proof (code_range c). rewrite Z.mod_small by lia.
  unfold code. rewrite N2Z.id. apply ascii_N_embedding.
Qed.
Lemma code_inj : forall a b, code a = code b -> a = b.
Proof. intros a b H. rewrite <- (byte_of_code a), <- (byte_of_code b). congruence. Qed.
Lemma eqb_code : forall a b, Ascii.eqb a b = (code a =? code b).
Proof.
  intros. destruct (Ascii.eqb a b) eqn:E; symmetry.
  - apply Ascii.eqb_eq in E. subst. apply Z.eqb_refl.
  - apply Z.eqb_neq. intro H. apply code_inj in H. apply Ascii.eqb_neq in E. contradiction.
Qed.
Lemma eqb_neq_code : forall a b, code a <> code b -> Ascii.eqb a b = false.
Proof. intros. rewrite eqb_code. apply Z.eqb_neq. assumption. Qed.
Lemma code_LF : code LF = 10. Proof. reflexivity. Qed.
Lemma code_CR : code CR = 13. Proof. reflexivity. Qed.
Lemma code_SP : code SP = 32. Proof. reflexivity. Qed.

Lemma zlen_nil : forall A, zlen (@nil A) = 0. Proof. reflexivity. Qed.
Lemma zlen_cons : forall A (a : A) l, zlen (a :: l) = 1 + zlen l.
Proof. intros. unfold zlen. simpl length. lia. Qed.
Lemma zlen_app : forall A (a b : list A), zlen (a ++ b) = zlen a + zlen b.
Proof. intros. unfold zlen. rewrite app_length. lia. Qed.
Lemma zlen_nonneg : forall A (a : list A), 0 <= zlen a.
Proof. intros. unfold zlen. lia. Qed.
Lemma zlen_to_nat : forall A (a : list A), Z.to_nat (zlen a) = length a.
Proof. intros. unfold zlen. lia. Qed.
Lemma zlen_zero : forall A (a : list A), zlen a = 0 -> a = [].
Proof. intros A [|x a] H; auto. rewrite zlen_cons in H. pose proof (zlen_nonneg _ a). lia. Qed.

Lemma firstn_app_exact : forall A (a b : list A), firstn (length a) (a ++ b) = a.
Proof. intros. rewrite firstn_app, Nat.sub_diag, firstn_all. simpl. apply app_nil_r. Qed.
Lemma skipn_app_exact : forall A (a b : list A), skipn (length a) (a ++ b) = b.
Proof. intros. rewrite skipn_app, Nat.sub_diag, skipn_all. reflexivity. Qed.
Lemma firstn_app_zlen : forall A (a b : list A), firstn (Z.to_nat (zlen a)) (a ++ b) = a.
Proof. intros. rewrite zlen_to_nat. apply firstn_app_exact. Qed.
Lemma skipn_app_zlen : forall A (a b : list A), skipn (Z.to_nat (zlen a)) (a ++ b) = b.
Proof. intros. rewrite zlen_to_nat. apply skipn_app_exact. Qed.

Lemma has_prefix_app : forall p b, has_prefix p (p ++ b) = true.
Proof. induction p as [|x p IH]; simpl; intros; auto. rewrite Ascii.eqb_refl. simpl. apply IH. Qed.
Lemma has_prefix_spec : forall p b, has_prefix p b = true <-> exists r, b = p ++ r.
Proof.
  split.
  - revert b. induction p as [|x p IH]; simpl; intros b H.
    + exists b. reflexivity.
    + destruct b as [|y b]; [discriminate|]. apply andb_true_iff in H as [H1 H2].
      apply Ascii.eqb_eq in H1. subst. destruct (IH _ H2) as [r Hr]. exists r. subst. reflexivity.
  - intros [r ->]. apply has_prefix_app.
Qed.
Lemma trim_prefix_app : forall p b, trim_prefix p (p ++ b) = b.
Proof. intros. unfold trim_prefix. rewrite has_prefix_app. apply skipn_app_exact. Qed.
Lemma trim_suffix_app : forall s b, trim_suffix s (b ++ s) = b.
Proof.
  intros. unfold trim_suffix. rewrite rev_app_distr, has_prefix_app, app_length.
  replace (length b + length s - length s)%nat with (length b) by lia. apply firstn_app_exact.
Qed.

(** ** Big endian *)
Lemma be_length : forall k n, length (be k n) = k.
Proof. induction k; simpl; intros; auto. Qed.
Lemma zlen_be : forall k n, zlen (be k n) = Z.of_nat k.
Proof. intros. unfold zlen. rewrite be_length. reflexivity. Qed.

Lemma fold_unbe : forall b a, fold_left (fun a c => a * 256 + code c) b a
                              = a * 2 ^ (8 * zlen b) + unbe b.
Proof.
  unfold unbe. induction b as [|c b IH]; intro a.
  - change (2 ^ (8 * zlen (@nil ascii))) with 1. simpl. lia.
  - simpl fold_left. rewrite IH. rewrite (IH (code c)). rewrite zlen_cons.
    replace (8 * (1 + zlen b)) with (8 + 8 * zlen b) by lia.
    rewrite Z.pow_add_r by (pose proof (zlen_nonneg _ b); lia). change (2 ^ 8) with 256. nia.
Qed.
Lemma unbe_cons : forall c b, unbe (c :: b) = code c * 2 ^ (8 * zlen b) + unbe b.
Proof. intros. unfold unbe at 1. simpl fold_left. rewrite fold_unbe. reflexivity. Qed.
Lemma unbe_nil : unbe [] = 0. Proof. reflexivity. Qed.
Lemma unbe_range : forall b, 0 <= unbe b < 2 ^ (8 * zlen b).
Proof.
  induction b as [|c b IH].
  - change (2 ^ (8 * zlen (@nil ascii))) with 1. rewrite unbe_nil. lia.
  - rewrite unbe_cons, zlen_cons. pose proof (code_range c).
    replace (8 * (1 + zlen b)) with (8 + 8 * zlen b) by lia.
    rewrite Z.pow_add_r by (pose proof (zlen_nonneg _ b); lia). change (2 ^ 8) with 256. nia.
Qed.
Lemma unbe_be : forall k n, unbe (be k n) = n mod 2 ^ (8 * Z.of_nat k).
Proof.
  induction k as [|k IH]; intro n.
  - simpl be. change (2 ^ (8 * Z.of_nat 0)) with 1. rewrite Z.mod_1_r. reflexivity.
  - cbn [be]. rewrite unbe_cons, IH, code_byte_of, zlen_be.
    replace (8 * Z.of_nat (S k)) with (8 * Z.of_nat k + 8) by lia.
    rewrite (Z.pow_add_r 2 (8 * Z.of_nat k) 8) by lia. change (2 ^ 8) with 256.
    assert (0 < 2 ^ (8 * Z.of_nat k)) by (apply Z.pow_pos_nonneg; lia).
    rewrite (Z.rem_mul_r n (2 ^ (8 * Z.of_nat k)) 256) by lia. ring.
Qed.
Lemma unbe_be_small : forall k n, 0 <= n < 2 ^ (8 * Z.of_nat k) -> unbe (be k n) = n.
Proof. intros. rewrite unbe_be. apply Z.mod_small. assumption. Qed.
Lemma be_unbe : forall b, be (length b) (unbe b) = b.
Proof.
  induction b as [|c b IH]; [reflexivity|].
  cbn [length be]. rewrite unbe_cons. fold (zlen b).
  assert (P : 0 < 2 ^ (8 * zlen b)) by (apply Z.pow_pos_nonneg; pose proof (zlen_nonneg _ b); lia).
  change (Z.of_nat (length b)) with (zlen b).
  f_equal.
  - rewrite Z.add_comm, Z.div_add by lia. pose proof (unbe_range b).
    rewrite Z.div_small by lia. simpl. apply byte_of_code.
  - transitivity (be (length b) (unbe b)); [|exact IH].
    assert (G : forall k x y, x mod 2 ^ (8 * Z.of_nat k) = y mod 2 ^ (8 * Z.of_nat k) -> be k x = be k y).
    { clear. induction k as [|k IH]; intros x y H; [reflexivity|]. cbn [be].
      replace (8 * Z.of_nat (S k)) with (8 * Z.of_nat k + 8) in H by lia.
      assert (P : 0 < 2 ^ (8 * Z.of_nat k)) by (apply Z.pow_pos_nonneg; lia).
      rewrite Z.pow_add_r in H by lia. change (2 ^ 8) with 256 in H.
      rewrite (Z.rem_mul_r x), (Z.rem_mul_r y) in H by lia.
      pose proof (Z.mod_pos_bound x (2 ^ (8 * Z.of_nat k)) P).
      pose proof (Z.mod_pos_bound y (2 ^ (8 * Z.of_nat k)) P).
      assert (E1 : (x / 2 ^ (8 * Z.of_nat k)) mod 256 = (y / 2 ^ (8 * Z.of_nat k)) mod 256) by nia.
      assert (E2 : x mod 2 ^ (8 * Z.of_nat k) = y mod 2 ^ (8 * Z.of_nat k)) by nia.
      f_equal.
      - unfold byte_of. congruence.
      - apply IH. assumption. }
    apply G. rewrite Z.add_comm. change (Z.of_nat (length b)) with (zlen b).
    rewrite Z.mod_add by lia. reflexivity.
Qed.

(** ** Decimal text *)
Lemma code_digit : forall d, 0 <= d <= 9 -> code (digit d) = 48 + d.
Proof. intros. unfold digit. rewrite code_byte_of, Z.mod_small; lia. Qed.
Lemma is_digit_digit : forall d, 0 <= d <= 9 -> is_digit (digit d) = true.
Proof. intros. unfold is_digit. rewrite code_digit by lia. apply andb_true_iff. split; apply Z.leb_le; lia. Qed.

Lemma parse_digits_app : forall a b acc,
  parse_digits acc (a ++ b) = match parse_digits acc a with Some n => parse_digits n b | None => None end.
Proof.
  induction a as [|c a IH]; simpl; intros; auto. destruct (is_digit c); auto.
Qed.

Lemma dec_aux_acc : forall f n acc, dec_aux f n acc = dec_aux f n [] ++ acc.
Proof.
  induction f as [|f IH]; intros; simpl; auto.
  destruct (n <? 10); [reflexivity|].
  rewrite IH. rewrite (IH (n / 10) [_]). rewrite <- app_assoc. reflexivity.
Qed.

Lemma log2_div10 : forall n, 10 <= n -> Z.log2 (n / 10) < Z.log2 n.
Proof.
  intros n H. assert (Hd : n / 10 <= n / 2) by (apply Z.div_le_compat_l; lia).
  apply Z.log2_le_mono in Hd.
  assert (E : Z.log2 (n / 2) = Z.log2 n - 1).
  { change (n / 2) with (n / 2 ^ 1). rewrite <- Z.shiftr_div_pow2 by lia.
    rewrite Z.log2_shiftr by lia. assert (1 <= Z.log2 n) by (change 1 with (Z.log2 2); apply Z.log2_le_mono; lia).
    lia. }
  lia.
Qed.

Lemma dec_aux_spec : forall f n, 0 <= n -> (Z.to_nat (Z.log2 n) < f)%nat ->
  dec_aux f n [] <> [] /\ Forall (fun c => is_digit c = true) (dec_aux f n [])
  /\ parse_digits 0 (dec_aux f n []) = Some n /\ (length (dec_aux f n []) <= f)%nat.
Proof.
  induction f as [|f IH]; intros n Hn Hf; [lia|].
  simpl. pose proof (Z.mod_pos_bound n 10 ltac:(lia)) as Hm.
  destruct (n <? 10) eqn:E.
  - apply Z.ltb_lt in E. rewrite Z.mod_small by lia. simpl. rewrite is_digit_digit by lia.
    rewrite code_digit by lia. repeat split; try discriminate; try (simpl; lia).
    + constructor; [apply is_digit_digit; lia|constructor].
    + f_equal. lia.
  - apply Z.ltb_ge in E. rewrite dec_aux_acc.
    assert (Hd : 0 <= n / 10) by (apply Z.div_pos; lia).
    pose proof (log2_div10 n E). pose proof (Z.log2_nonneg (n / 10)).
    destruct (IH (n / 10) Hd ltac:(lia)) as (I1 & I2 & I3 & I4).
    repeat split.
    + intro C. apply app_eq_nil in C as [_ C]. discriminate.
    + apply Forall_app. split; auto. constructor; [apply is_digit_digit; lia|constructor].
    + rewrite parse_digits_app, I3. simpl. rewrite is_digit_digit by lia. rewrite code_digit by lia.
      f_equal. pose proof (Z.div_mod n 10 ltac:(lia)). lia.
    + rewrite app_length. simpl. lia.
Qed.

Lemma dec_nonneg_spec : forall n, 0 <= n ->
  dec_nonneg n <> [] /\ Forall (fun c => is_digit c = true) (dec_nonneg n)
  /\ parse_digits 0 (dec_nonneg n) = Some n /\ (length (dec_nonneg n) <= S (Z.to_nat (Z.log2 n)))%nat.
Proof. intros. unfold dec_nonneg. apply dec_aux_spec; lia. Qed.

Lemma dec_pos : forall n, 0 <= n -> dec n = dec_nonneg n.
Proof. intros. unfold dec. destruct (n <? 0) eqn:E; auto. apply Z.ltb_lt in E. lia. Qed.

Lemma parse_uint_dec : forall bits n, 0 <= n < 2 ^ bits -> parse_uint bits (dec n) = Some n.
Proof.
  intros bits n H. rewrite dec_pos by lia. destruct (dec_nonneg_spec n ltac:(lia)) as (N & _ & P & _).
  unfold parse_uint. destruct (dec_nonneg n) eqn:E; [congruence|]. rewrite P.
  destruct (n <? 2 ^ bits) eqn:L; auto. apply Z.ltb_ge in L. lia.
Qed.

Lemma digit_not_sign : forall c, is_digit c = true -> Ascii.eqb c "-"%char = false /\ Ascii.eqb c "+"%char = false.
Proof.
  intros c H. unfold is_digit in H. apply andb_true_iff in H as [H1 H2].
  apply Z.leb_le in H1. apply Z.leb_le in H2.
  split; apply eqb_neq_code; [change (code "-"%char) with 45|change (code "+"%char) with 43]; lia.
Qed.

Lemma parse_int_digits : forall bits s n, s <> [] -> Forall (fun c => is_digit c = true) s ->
  parse_digits 0 s = Some n -> parse_int bits s = if n <? 2 ^ (bits - 1) then Some n else None.
Proof.
  intros bits s n N F P. unfold parse_int. destruct s as [|c s]; [congruence|].
  inversion F; subst. destruct (digit_not_sign c H1) as [E1 E2]. rewrite E1, E2. cbn [fst snd].
  rewrite P. reflexivity.
Qed.
Lemma parse_int_dec : forall bits n, 0 < bits -> - 2 ^ (bits - 1) <= n < 2 ^ (bits - 1) ->
  parse_int bits (dec n) = Some n.
Proof.
  intros bits n Hb H. unfold dec. destruct (n <? 0) eqn:E.
  - apply Z.ltb_lt in E. destruct (dec_nonneg_spec (- n) ltac:(lia)) as (N & F & P & _).
    unfold parse_int. change (Ascii.eqb "-" "-") with true. cbn [fst snd].
    destruct (dec_nonneg (- n)) eqn:D; [congruence|]. rewrite P.
    destruct (- n <=? 2 ^ (bits - 1)) eqn:L; [f_equal; lia|]. apply Z.leb_gt in L. lia.
  - apply Z.ltb_ge in E. destruct (dec_nonneg_spec n ltac:(lia)) as (N & F & P & _).
    rewrite (parse_int_digits bits _ n N F P). destruct (n <? 2 ^ (bits - 1)) eqn:L; auto.
    apply Z.ltb_ge in L. lia.
Qed.
Lemma parse_int_dec_big : forall bits n, 0 <= n -> 2 ^ (bits - 1) <= n -> parse_int bits (dec n) = None.
Proof.
  intros bits n H0 H. rewrite dec_pos by lia. destruct (dec_nonneg_spec n ltac:(lia)) as (N & F & P & _).
  rewrite (parse_int_digits bits _ n N F P). destruct (n <? 2 ^ (bits - 1)) eqn:L; auto.
  apply Z.ltb_lt in L. lia.
Qed.

Lemma dec_len : forall n, - 2 ^ 64 <= n <= 2 ^ 64 -> 1 <= zlen (dec n) <= 66.
Proof.
  assert (P : forall n, 0 <= n <= 2 ^ 64 -> 1 <= zlen (dec_nonneg n) <= 65).
  { intros n H. destruct (dec_nonneg_spec n ltac:(lia)) as (N & _ & _ & L).
    assert (Z.log2 n <= 64).
    { transitivity (Z.log2 (2 ^ 64)); [apply Z.log2_le_mono; lia|]. rewrite Z.log2_pow2; lia. }
    unfold zlen. destruct (dec_nonneg n); [congruence|]. simpl length in *. lia. }
  intros n H. unfold dec. destruct (n <? 0) eqn:E.
  - apply Z.ltb_lt in E. rewrite zlen_cons. specialize (P (- n)). lia.
  - apply Z.ltb_ge in E. specialize (P n). lia.
Qed.
Lemma dec_nonempty : forall n, dec n <> [].
Proof.
  intros n. unfold dec. destruct (n <? 0) eqn:E; [discriminate|]. apply Z.ltb_ge in E.
  apply dec_nonneg_spec. lia.
Qed.

(** ** Words and lines *)
(** No space and no control byte. *)
Definition word (w : bytes) : Prop := Forall (fun c => 33 <= code c) w.
(** No control byte. *)
Definition line (w : bytes) : Prop := Forall (fun c => 32 <= code c) w.
Definition ascii7 (w : bytes) : Prop := Forall (fun c => code c < 128) w.

Definition wordb (w : bytes) : bool := forallb (fun c => 33 <=? code c) w.
Definition lineb (w : bytes) : bool := forallb (fun c => 32 <=? code c) w.
Lemma wordb_word : forall w, wordb w = true -> word w.
Proof.
  intros w H. apply Forall_forall. intros c I. unfold wordb in H. rewrite forallb_forall in H.
  apply Z.leb_le. apply H. assumption.
Qed.
Lemma lineb_line : forall w, lineb w = true -> line w.
Proof.
  intros w H. apply Forall_forall. intros c I. unfold lineb in H. rewrite forallb_forall in H.
  apply Z.leb_le. apply H. assumption.
Qed.
Lemma word_line : forall w, word w -> line w.
Proof. intros w. apply Forall_impl. intros. lia. Qed.
Lemma line_app : forall a b, line a -> line b -> line (a ++ b).
Proof. intros. apply Forall_app. split; assumption. Qed.
Lemma word_app : forall a b, word a -> word b -> word (a ++ b).
Proof. intros. apply Forall_app. split; assumption. Qed.
Lemma dec_digits : forall n, 0 <= n -> Forall (fun c => is_digit c = true) (dec n).
Proof. intros. rewrite dec_pos by lia. apply dec_nonneg_spec. lia. Qed.
Lemma dec_chars : forall n, Forall (fun c => is_digit c = true \/ c = "-"%char) (dec n).
Proof.
  intro n. unfold dec. destruct (n <? 0) eqn:E.
  - apply Z.ltb_lt in E. constructor; [right; reflexivity|].
    destruct (dec_nonneg_spec (- n) ltac:(lia)) as (_ & F & _). revert F. apply Forall_impl. auto.
  - apply Z.ltb_ge in E. destruct (dec_nonneg_spec n ltac:(lia)) as (_ & F & _). revert F. apply Forall_impl. auto.
Qed.
Lemma is_digit_code : forall c, is_digit c = true -> 48 <= code c <= 57.
Proof. intros c H. unfold is_digit in H. apply andb_true_iff in H as [H1 H2]. apply Z.leb_le in H1, H2. lia. Qed.
Lemma dec_word : forall n, word (dec n).
Proof.
  intro n. generalize (dec_chars n). apply Forall_impl. intros c [H| ->].
  - apply is_digit_code in H. lia.
  - vm_compute. discriminate.
Qed.
Lemma dec_ascii7 : forall n, ascii7 (dec n).
Proof.
  intro n. generalize (dec_chars n). apply Forall_impl. intros c [H| ->].
  - apply is_digit_code in H. lia.
  - reflexivity.
Qed.

Ltac solve_word := repeat (apply word_app); first [ assumption | apply dec_word | apply wordb_word; reflexivity ].
Ltac solve_line :=
  repeat (apply line_app);
  first [ assumption | apply word_line; solve_word | apply lineb_line; reflexivity ].

Lemma split_sp_word : forall w, word w -> split_sp w = [w].
Proof.
  induction w as [|c w IH]; intro H; [reflexivity|]. inversion H; subst. simpl.
  rewrite eqb_neq_code by (rewrite code_SP; lia). rewrite IH by assumption. reflexivity.
Qed.
Lemma split_sp_app : forall w r, word w -> split_sp (w ++ SP :: r) = w :: split_sp r.
Proof.
  induction w as [|c w IH]; intros r H.
  - simpl. reflexivity.
  - inversion H; subst. simpl. rewrite eqb_neq_code by (rewrite code_SP; lia).
    rewrite IH by assumption. reflexivity.
Qed.
Lemma split_sp_nonempty : forall b, split_sp b <> [].
Proof. destruct b as [|c b]; simpl; [discriminate|]. destruct (Ascii.eqb c SP); [discriminate|]. destruct (split_sp b); discriminate. Qed.
Lemma split_join : forall ws, ws <> [] -> Forall word ws -> split_sp (join_sp ws) = ws.
Proof.
  induction ws as [|w ws IH]; intros N F; [congruence|]. inversion F; subst.
  destruct ws as [|w' ws]; simpl join_sp.
  - apply split_sp_word. assumption.
  - rewrite split_sp_app by assumption. f_equal. apply IH; [discriminate|assumption].
Qed.
Lemma join_line : forall ws, Forall word ws -> line (join_sp ws).
Proof.
  induction ws as [|w ws IH]; intros F; [constructor|]. inversion F; subst.
  destruct ws as [|w' ws]; simpl join_sp.
  - apply word_line. assumption.
  - apply line_app; [apply word_line; assumption|]. constructor; [rewrite code_SP; lia|].
    apply IH. assumption.
Qed.
Lemma count_sp_app : forall a b, count_sp (a ++ b) = count_sp a + count_sp b.
Proof. induction a as [|c a IH]; intros; [reflexivity|]. simpl. rewrite IH. lia. Qed.
Lemma count_sp_word : forall w, word w -> count_sp w = 0.
Proof.
  induction w as [|c w IH]; intro H; [reflexivity|]. inversion H; subst. simpl.
  rewrite eqb_neq_code by (rewrite code_SP; lia). rewrite IH by assumption. reflexivity.
Qed.

Lemma find_line_app : forall l r, line l -> find_line (l ++ CR :: LF :: r) = Some (l ++ crlf, r).
Proof.
  induction l as [|c l IH]; intros r H.
  - reflexivity.
  - inversion H; subst. simpl. rewrite eqb_neq_code by (rewrite code_LF; lia).
    rewrite IH by assumption. reflexivity.
Qed.
Lemma read_slice_line : forall l r, line l -> zlen l <= 4094 ->
  read_slice (l ++ CR :: LF :: r) = (Ok (l ++ crlf), r).
Proof.
  intros. unfold read_slice. rewrite find_line_app by assumption. rewrite zlen_app.
  change (zlen crlf) with 2. unfold buf_size. destruct (zlen l + 2 <=? 4096) eqn:E; auto.
  apply Z.leb_gt in E. lia.
Qed.
Lemma read_bytes_line : forall l r, line l -> read_bytes (l ++ CR :: LF :: r) = (Ok (l ++ crlf), r).
Proof. intros. unfold read_bytes. rewrite find_line_app by assumption. reflexivity. Qed.
Lemma read_full_app : forall a r, read_full (zlen a) (a ++ r) = (Ok a, r).
Proof.
  intros. unfold read_full. rewrite zlen_app. pose proof (zlen_nonneg _ r).
  destruct (zlen a <=? zlen a + zlen r) eqn:E; [|apply Z.leb_gt in E; lia].
  rewrite firstn_app_zlen, skipn_app_zlen. reflexivity.
Qed.
Lemma read_full_eq : forall n a r, n = zlen a -> read_full n (a ++ r) = (Ok a, r).
Proof. intros; subst. apply read_full_app. Qed.
Lemma make_read_full_app : forall n a r, n = zlen a -> n <= max_alloc ->
  make_read_full n (a ++ r) = (Ok a, r).
Proof.
  intros n a r -> H. unfold make_read_full, bind, go_make. pose proof (zlen_nonneg _ a).
  destruct (zlen a <? 0) eqn:E; [apply Z.ltb_lt in E; lia|].
  destruct (max_alloc <? zlen a) eqn:E2; [apply Z.ltb_lt in E2; lia|]. simpl.
  apply read_full_app.
Qed.
Lemma go_slice_prefix : forall a b, go_slice (a ++ b) 0 (zlen a) = Ok a.
Proof.
  intros. unfold go_slice. rewrite zlen_app. pose proof (zlen_nonneg _ a). pose proof (zlen_nonneg _ b).
  destruct (0 <=? zlen a) eqn:E; [|apply Z.leb_gt in E; lia].
  destruct (zlen a <=? zlen a + zlen b) eqn:E2; [|apply Z.leb_gt in E2; lia]. simpl.
  rewrite Z.sub_0_r, firstn_app_zlen. reflexivity.
Qed.
Lemma go_sub_prefix : forall n a b s, n = zlen a -> go_sub (a ++ b) 0 n s = (Ok a, s).
Proof. intros; subst. unfold go_sub. rewrite go_slice_prefix. reflexivity. Qed.
Lemma i64_small : forall n, - 2 ^ 63 <= n < 2 ^ 63 -> i64 n = n.
Proof. intros. unfold i64. rewrite Z.mod_small; lia. Qed.
Lemma u32_small : forall n, 0 <= n < 2 ^ 32 -> u32 n = n.
Proof. intros. unfold u32. apply Z.mod_small. lia. Qed.
Lemma u16_small : forall n, 0 <= n < 2 ^ 16 -> u16 n = n.
Proof. intros. unfold u16. apply Z.mod_small. lia. Qed.
Lemma u64_small : forall n, 0 <= n < 2 ^ 64 -> u64 n = n.
Proof. intros. unfold u64. apply Z.mod_small. lia. Qed.
