(** * The daemon works incrementally: bytes that arrive later do not change what earlier ones did. *)
From Verif Require Import GoBytes GoNum Cache Daemon PLib PDaemon.
Local Open Scope Z_scope.

Lemma cut_line_more : forall s l r t, cut_line s = Some (l, r) -> cut_line (s ++ t) = Some (l, r ++ t).
Proof.
  assert (U : forall c s, cut_line (c :: s) = if Ascii.eqb c LF then Some ([], s)
       else match s with
            | d :: s'' => if Ascii.eqb c CR && Ascii.eqb d LF then Some ([], s'')
                          else match cut_line s with Some (l, r) => Some (c :: l, r) | None => None end
            | [] => None end) by reflexivity.
  induction s as [|c s IH]; intros l r t H; [discriminate|]. cbn [app]. rewrite U in *. destruct (Ascii.eqb c LF); [injection H as <- <-; reflexivity|].
  destruct s as [|d s]; [discriminate|]. cbn [app]. destruct (Ascii.eqb c CR && Ascii.eqb d LF); [injection H as <- <-; reflexivity|].
  destruct (cut_line (d :: s)) as [[l' r']|] eqn:E; [|discriminate]. rewrite (IH _ _ t eq_refl : cut_line (d :: s ++ t) = _). injection H as <- <-. reflexivity.
Qed.
Lemma firstn_more : forall A (s t : list A) n, (n <= length s)%nat -> firstn n (s ++ t) = firstn n s.
Proof. intros A s t n H. rewrite firstn_app. replace (n - length s)%nat with 0%nat by lia. rewrite firstn_O, app_nil_r. reflexivity. Qed.
Lemma skipn_more : forall A (s t : list A) n, (n <= length s)%nat -> skipn n (s ++ t) = skipn n s ++ t.
Proof. intros A s t n H. rewrite skipn_app. replace (n - length s)%nat with 0%nat by lia. reflexivity. Qed.
Lemma data_block_more : forall n s v tr r t, 0 <= n -> data_block n s = Some (v, tr, r) -> data_block n (s ++ t) = Some (v, tr, r ++ t).
Proof.
  intros n s v tr r t Hn H. unfold data_block in *. rewrite zlen_app. pose proof (zlen_nonneg _ t). destruct (Z.leb_spec (n + 2) (zlen s)) as [L|L]; [|discriminate].
  destruct (Z.leb_spec (n + 2) (zlen s + zlen t)); [|lia]. unfold zlen in L. rewrite firstn_more by lia. rewrite skipn_more by lia. rewrite firstn_more by (rewrite skipn_length; lia). rewrite skipn_more by lia. injection H as <- <- <-. reflexivity.
Qed.
Lemma parse_digits_range : forall s acc n, 0 <= acc -> parse_digits acc s = Some n -> 0 <= n.
Proof.
  induction s as [|c s IH]; intros acc n H E; cbn [parse_digits] in E; [congruence|]. destruct (is_digit c) eqn:D; [|discriminate]. apply IH in E; [exact E|].
  unfold is_digit in D. apply andb_prop in D. destruct D as [D _]. apply Z.leb_le in D. lia.
Qed.
Lemma parse_uint_range : forall bits s n, parse_uint bits s = Some n -> 0 <= n.
Proof.
  intros bits s n E. unfold parse_uint in E. destruct s as [|c s]; [discriminate|]. destruct (parse_digits 0 (c :: s)) as [m|] eqn:P; [|discriminate]. destruct (m <? 2 ^ bits); [|discriminate]. injection E as <-.
  exact (parse_digits_range _ _ _ (Z.le_refl 0) P).
Qed.
Definition more (r : dresult) (t : bytes) : dresult := match r with Some (c, reply, rest) => Some (c, reply, rest ++ t) | None => None end.
Lemma text_store_more : forall c k f e n rest run t, text_store c k f e n rest run <> None -> text_store c k f e n (rest ++ t) run = more (text_store c k f e n rest run) t.
Proof.
  intros c k f e n rest run t. unfold text_store, done. destruct (parse_uint 32 f); [|reflexivity]. destruct (parse_int 32 e); [|reflexivity].
  destruct (parse_uint 31 n) as [n'|] eqn:Pn; [|reflexivity]. destruct (key_ok k); [|reflexivity]. destruct (data_block n' rest) as [[[v tr] r']|] eqn:D; [|congruence].
  intros _. rewrite (data_block_more _ _ _ _ _ t) with (2 := D) by (apply parse_uint_range in Pn; lia).
  destruct (cf_limit (c_cfg c) <? n'); [reflexivity|]. destruct (beq tr eol); reflexivity.
Qed.
Lemma meta_set_more : forall c k n fl rest t, meta_set c k n fl rest <> None -> meta_set c k n fl (rest ++ t) = more (meta_set c k n fl rest) t.
Proof.
  intros c k n fl rest t. unfold meta_set, done. destruct (parse_uint 31 n) as [n'|] eqn:Pn; [|reflexivity]. destruct (num_flag (parse_uint 32) "F" 0 fl); [|reflexivity].
  destruct (num_flag (parse_int 32) "T" 0 fl); [|reflexivity]. destruct (num_flag (parse_uint 64) "C" 0 fl); [|reflexivity]. destruct (key_ok k); [|reflexivity].
  destruct (data_block n' rest) as [[[v tr] r']|] eqn:D; [|congruence]. intros _. rewrite (data_block_more _ _ _ _ _ t) with (2 := D) by (apply parse_uint_range in Pn; lia). cbv zeta.
  destruct (cf_limit (c_cfg c) <? n'); [reflexivity|]. destruct (beq tr eol); reflexivity.
Qed.
Lemma meta_delete_more : forall c k fl rest t, meta_delete c k fl (rest ++ t) = more (meta_delete c k fl rest) t.
Proof.
  intros c k fl rest t. unfold meta_delete, done. cbv zeta. destruct (key_ok k); [|reflexivity]. destruct (has_flag "I" fl); [|reflexivity].
  destruct (flag_token "T" fl) as [tk|]; [|reflexivity]. destruct (parse_int 32 tk); reflexivity.
Qed.
Lemma ascii_cmd_more : forall c cmd args rest t, ascii_cmd c cmd args rest <> None -> ascii_cmd c cmd args (rest ++ t) = more (ascii_cmd c cmd args rest) t.
Proof.
  intros c cmd args rest t. unfold ascii_cmd. cbv zeta.
  repeat match goal with
         | |- context [if beq cmd ?x || beq cmd ?y then _ else _] => destruct (beq cmd x || beq cmd y)
         | |- context [if beq cmd ?x then _ else _] => destruct (beq cmd x)
         end;
  repeat match goal with
         | |- context [match ?l with [] => _ | _ :: _ => _ end] => destruct l
         | |- context [if forallb ?f ?l then _ else _] => destruct (forallb f l)
         | |- context [if key_ok ?k then _ else _] => destruct (key_ok k)
         | |- context [match parse_uint ?b ?k with Some _ => _ | None => _ end] => destruct (parse_uint b k)
         | |- context [match parse_int ?b ?k with Some _ => _ | None => _ end] => destruct (parse_int b k)
         end;
  try (intro; reflexivity); try (apply text_store_more); try (apply meta_set_more); try (intro; apply meta_delete_more).
Qed.
Lemma num_at_more : forall s t lo n, (lo + n <= length s)%nat -> num_at (s ++ t) lo n = num_at s lo n.
Proof. intros s t lo n H. unfold num_at. rewrite skipn_more by lia. rewrite firstn_more by (rewrite skipn_length; lia). reflexivity. Qed.
Lemma binary_cmd_more : forall c opc cas body k v rest t, binary_cmd c opc cas body k v (rest ++ t) = more (binary_cmd c opc cas body k v rest) t.
Proof.
  intros c opc cas body k v rest t. unfold binary_cmd, done. cbv zeta.
  destruct ((opc =? 0) || (opc =? 13)); [destruct (lookup c k); reflexivity|]. repeat match goal with |- context [if ?b then Some _ else _] => destruct b; [reflexivity|] end. reflexivity.
Qed.
Lemma daemon_step_more : forall w c s c' r rest t, daemon_step w c s = Some (c', r, rest) -> daemon_step w c (s ++ t) = Some (c', r, rest ++ t).
Proof.
  intros [] c s c' r rest t H; cbn [daemon_step] in *.
  - unfold ascii_step in *. destruct (cut_line s) as [[l r']|] eqn:E; [|discriminate]. rewrite (cut_line_more _ _ _ t E). destruct (tokens l) as [|cmd args].
    + unfold done in *. injection H as <- <- <-. reflexivity.
    + rewrite ascii_cmd_more by congruence. rewrite H. reflexivity.
  - unfold binary_step in *. cbv zeta in *. destruct (Z.ltb_spec (zlen s) 24) as [|L]; [discriminate|]. rewrite zlen_app. pose proof (zlen_nonneg _ t) as Zt. destruct (Z.ltb_spec (zlen s + zlen t) 24); [lia|].
    assert (L' : (24 <= length s)%nat) by (unfold zlen in L; lia). rewrite !num_at_more by (cbn; lia).
    destruct (negb (num_at s 0 1 =? 128)); [discriminate|]. set (total := num_at s 8 4) in *. assert (T : 0 <= total) by apply unbe_range.
    destruct (Z.ltb_spec (zlen s) (24 + total)) as [|M]; [discriminate|]. destruct (Z.ltb_spec (zlen s + zlen t) (24 + total)); [lia|].
    destruct ((total <? num_at s 4 1 + num_at s 2 2) || (key_max <? num_at s 2 2)); [discriminate|].
    assert (M' : (Z.to_nat (24 + total) <= length s)%nat) by (unfold zlen in M; lia).
    rewrite (skipn_more _ s t 24 L'). rewrite firstn_more by (rewrite skipn_length; lia). rewrite (skipn_more _ s t _ M'). rewrite binary_cmd_more, H. reflexivity.
Qed.
(** What comes later is handled after what is there. *)
Lemma daemon_app : forall w s c t, daemon w c (s ++ t) = let '(c1, r1, p1) := daemon w c s in let '(c2, r2, p2) := daemon w c1 (p1 ++ t) in (c2, r1 ++ r2, p2).
Proof.
  intros w s. remember (length s) as n eqn:Hn. revert s Hn. induction n as [n IH] using lt_wf_ind. intros s -> c t.
  destruct (daemon_step w c s) as [[[c' r] rest]|] eqn:E.
  - rewrite (daemon_cons _ _ _ _ _ _ (daemon_step_more _ _ _ _ _ _ t E)), (daemon_cons _ _ _ _ _ _ E). rewrite (IH (length rest) (daemon_step_shrink _ _ _ _ _ _ E) rest eq_refl c' t).
    destruct (daemon w c' rest) as [[c1 r1] p1]. destruct (daemon w c1 (p1 ++ t)) as [[c2 r2] p2]. rewrite app_assoc. reflexivity.
  - rewrite (daemon_none _ _ _ E). destruct (daemon w c (s ++ t)) as [[c2 r2] p2]. reflexivity.
Qed.
