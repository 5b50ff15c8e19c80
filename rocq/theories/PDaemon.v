(** * The specification daemon: framing lemmas. *)
From Verif Require Import GoBytes GoNum GoIO Cache Daemon PLib.
Local Open Scope Z_scope.

Lemma cut_line_app : forall l r, line l -> cut_line (l ++ CR :: LF :: r) = Some (l, r).
Proof.
  induction l as [|c l IH]; intros r H.
  - reflexivity.
  - inversion H; subst. specialize (IH r H3). cbn [app].
    change (cut_line (c :: l ++ CR :: LF :: r)) with
      (if Ascii.eqb c LF then Some ([], l ++ CR :: LF :: r)
       else match l ++ CR :: LF :: r with
            | d :: s'' => if Ascii.eqb c CR && Ascii.eqb d LF then Some ([], s'')
                          else match cut_line (l ++ CR :: LF :: r) with
                               | Some (l, r) => Some (c :: l, r) | None => None end
            | [] => None end).
    rewrite eqb_neq_code by (rewrite code_LF; lia). rewrite (eqb_neq_code c CR) by (rewrite code_CR; lia).
    rewrite IH. destruct l; reflexivity.
Qed.

Lemma tokens_word : forall w, w <> [] -> word w -> tokens w = [w].
Proof.
  intros w N H. unfold tokens. rewrite split_sp_word by assumption. destruct w; [congruence|reflexivity].
Qed.
Lemma tokens_cons : forall w r, w <> [] -> word w -> tokens (w ++ SP :: r) = w :: tokens r.
Proof.
  intros w r N H. unfold tokens. rewrite split_sp_app by assumption. destruct w; [congruence|reflexivity].
Qed.
Lemma tokens_cons' : forall w r, w <> [] -> word w -> tokens (w ++ B " " ++ r) = w :: tokens r.
Proof. exact tokens_cons. Qed.
Lemma filter_nonempty : forall ws : list bytes, Forall (fun w => w <> []) ws ->
  filter (fun w => match w with [] => false | _ => true end) ws = ws.
Proof.
  induction ws as [|w ws IH]; intro H; [reflexivity|]. inversion H; subst. simpl.
  destruct w; [congruence|]. rewrite IH by assumption. reflexivity.
Qed.
Lemma tokens_join : forall ws, ws <> [] -> Forall word ws -> Forall (fun w => w <> []) ws ->
  tokens (join_sp ws) = ws.
Proof. intros. unfold tokens. rewrite split_join by assumption. apply filter_nonempty. assumption. Qed.

Lemma ascii_step_line : forall c l cmd args rest, line l -> tokens l = cmd :: args ->
  ascii_step c (l ++ crlf ++ rest) = ascii_cmd c cmd args rest.
Proof.
  intros c l cmd args rest L T. unfold ascii_step.
  change (l ++ crlf ++ rest) with (l ++ CR :: LF :: rest).
  rewrite cut_line_app by assumption. rewrite T. reflexivity.
Qed.

Lemma data_block_app : forall v rest, data_block (zlen v) (v ++ crlf ++ rest) = Some (v, eol, rest).
Proof.
  intros v rest. unfold data_block. rewrite !zlen_app. change (zlen crlf) with 2.
  pose proof (zlen_nonneg _ rest).
  destruct (zlen v + 2 <=? zlen v + (2 + zlen rest)) eqn:E; [|apply Z.leb_gt in E; lia].
  rewrite firstn_app_zlen, skipn_app_zlen.
  replace (skipn (Z.to_nat (zlen v + 2)) (v ++ crlf ++ rest)) with rest; [reflexivity|].
  rewrite app_assoc. replace (zlen v + 2) with (zlen (v ++ crlf)) by (rewrite zlen_app; reflexivity).
  rewrite skipn_app_zlen. reflexivity.
Qed.

(** ** Every command consumes input; the fuel of [daemon] is never exhausted. *)
Lemma cut_line_shrink : forall s l r, cut_line s = Some (l, r) -> (length r < length s)%nat.
Proof.
  induction s as [|c s IH]; intros l r H; [discriminate|].
  change (cut_line (c :: s)) with
      (if Ascii.eqb c LF then Some ([], s)
       else match s with
            | d :: s'' => if Ascii.eqb c CR && Ascii.eqb d LF then Some ([], s'')
                          else match cut_line s with
                               | Some (l, r) => Some (c :: l, r) | None => None end
            | [] => None end) in H.
  destruct (Ascii.eqb c LF); [inversion H; subst; simpl; lia|].
  destruct s as [|d s]; [discriminate|].
  destruct (Ascii.eqb c CR && Ascii.eqb d LF); [inversion H; subst; simpl; lia|].
  destruct (cut_line (d :: s)) as [[l' r']|] eqn:E; [|discriminate]. inversion H; subst.
  specialize (IH _ _ eq_refl). simpl in *. lia.
Qed.
Lemma data_block_shrink : forall n s v t r, data_block n s = Some (v, t, r) -> (length r <= length s)%nat.
Proof.
  intros n s v t r H. unfold data_block in H. destruct (n + 2 <=? zlen s); [|discriminate].
  inversion H; subst. rewrite skipn_length. lia.
Qed.

Lemma text_store_shrink : forall c k f e n rest run c' rep r,
  text_store c k f e n rest run = Some (c', rep, r) -> (length r <= length rest)%nat.
Proof.
  intros c k f e n rest run c' rep r. unfold text_store, done.
  destruct (parse_uint 32 f); [|intro H; inversion H; subst; lia].
  destruct (parse_int 32 e); [|intro H; inversion H; subst; lia].
  destruct (parse_uint 31 n) as [n'|]; [|intro H; inversion H; subst; lia].
  destruct (key_ok k); [|intro H; inversion H; subst; lia].
  destruct (data_block n' rest) as [[[v t] r']|] eqn:D; [|discriminate].
  apply data_block_shrink in D.
  destruct (cf_limit (c_cfg c) <? n'); [intro H; inversion H; subst; lia|].
  destruct (beq t eol); intro H; inversion H; subst; lia.
Qed.
Lemma meta_set_shrink : forall c k n fl rest c' rep r,
  meta_set c k n fl rest = Some (c', rep, r) -> (length r <= length rest)%nat.
Proof.
  intros c k n fl rest c' rep r. unfold meta_set, done.
  destruct (parse_uint 31 n) as [n'|]; [|intro H; inversion H; subst; lia].
  destruct (num_flag (parse_uint 32) "F" 0 fl); [|intro H; inversion H; subst; lia].
  destruct (num_flag (parse_int 32) "T" 0 fl); [|intro H; inversion H; subst; lia].
  destruct (num_flag (parse_uint 64) "C" 0 fl); [|intro H; inversion H; subst; lia].
  destruct (key_ok k); [|intro H; inversion H; subst; lia].
  destruct (data_block n' rest) as [[[v t] r']|] eqn:D; [|discriminate].
  apply data_block_shrink in D. cbv zeta.
  destruct (cf_limit (c_cfg c) <? n'); [intro H; inversion H; subst; lia|].
  destruct (beq t eol); intro H; inversion H; subst; lia.
Qed.
Lemma meta_delete_shrink : forall c k fl rest c' rep r,
  meta_delete c k fl rest = Some (c', rep, r) -> (length r <= length rest)%nat.
Proof.
  intros c k fl rest c' rep r. unfold meta_delete, done. cbv zeta.
  destruct (key_ok k); [|intro H; inversion H; subst; lia].
  destruct (has_flag "I" fl); [|intro H; inversion H; subst; lia].
  destruct (flag_token "T" fl) as [t|]; [|intro H; inversion H; subst; lia].
  destruct (parse_int 32 t); intro H; inversion H; subst; lia.
Qed.

Lemma ascii_cmd_shrink : forall c cmd args rest c' rep r,
  ascii_cmd c cmd args rest = Some (c', rep, r) -> (length r <= length rest)%nat.
Proof.
  intros c cmd args rest c' rep r. unfold ascii_cmd. cbv zeta.
  repeat match goal with
         | |- context [if beq cmd ?x || beq cmd ?y then _ else _] => destruct (beq cmd x || beq cmd y)
         | |- context [if beq cmd ?x then _ else _] => destruct (beq cmd x)
         end;
  repeat match goal with
         | |- context [match ?l with [] => _ | _ :: _ => _ end] => destruct l
         | |- context [if forallb ?f ?l then _ else _] => destruct (forallb f l)
         | |- context [if key_ok ?k then _ else _] => destruct (key_ok k)
         | |- context [match parse_uint ?b ?k with Some _ => _ | None => _ end] => destruct (parse_uint b k)
         | |- context [match parse_int ?b ?k with Some _ => _ | None => _ end] => destruct (parse_int b k)
         end;
  try (intro H; unfold done in H; inversion H; subst; lia);
  try (apply text_store_shrink); try (apply meta_set_shrink); try (apply meta_delete_shrink).
Qed.

Lemma daemon_step_shrink : forall w c s c' rep r,
  daemon_step w c s = Some (c', rep, r) -> (length r < length s)%nat.
Proof.
  intros [] c s c' rep r H; simpl in H.
  - unfold ascii_step in H. destruct (cut_line s) as [[l r']|] eqn:E; [|discriminate].
    apply cut_line_shrink in E. destruct (tokens l).
    + inversion H; subst; lia.
    + apply ascii_cmd_shrink in H. lia.
  - unfold binary_step in H. cbv zeta in H. destruct (zlen s <? 24) eqn:E; [discriminate|].
    apply Z.ltb_ge in E.
    assert (L : (24 <= length s)%nat) by (unfold zlen in E; lia).
    assert (G : forall n : Z, 24 <= n -> (length (skipn (Z.to_nat n) s) < length s)%nat)
      by (intros; rewrite skipn_length; lia).
    set (total := num_at s 8 4) in *.
    assert (T : 0 <= total) by apply unbe_range.
    specialize (G (24 + total) ltac:(lia)).
    destruct (negb (num_at s 0 1 =? 128)); [inversion H; subst; simpl; lia|].
    destruct (zlen s <? 24 + total); [discriminate|].
    destruct ((total <? num_at s 4 1 + num_at s 2 2) || (key_max <? num_at s 2 2));
      [inversion H; subst; simpl; lia|].
    unfold binary_cmd, done in H. cbv zeta in H.
    repeat match type of H with
    | (if ?b then _ else _) = _ => destruct b
    | match lookup ?c ?k with Some _ => _ | None => _ end = _ => destruct (lookup c k)
    end; inversion H; subst; assumption.
Qed.

Lemma daemon_run_fuel : forall w f1 f2 c s, (length s < f1)%nat -> (length s < f2)%nat ->
  daemon_run w f1 c s = daemon_run w f2 c s.
Proof.
  intros w. induction f1 as [|f1 IH]; intros f2 c s H1 H2; [lia|]. destruct f2 as [|f2]; [lia|].
  simpl. destruct (daemon_step w c s) as [[[c' rep] r]|] eqn:E; [|reflexivity].
  apply daemon_step_shrink in E. rewrite (IH f2 c' r) by lia. reflexivity.
Qed.

Lemma daemon_cons : forall w c s c' rep r, daemon_step w c s = Some (c', rep, r) ->
  daemon w c s = let '(c'', reps, p) := daemon w c' r in (c'', rep ++ reps, p).
Proof.
  intros w c s c' rep r H. unfold daemon at 1. simpl. rewrite H. apply daemon_step_shrink in H.
  unfold daemon. rewrite (daemon_run_fuel w (length s) (S (length r)) c' r) by lia. reflexivity.
Qed.
Lemma daemon_nil : forall w c, daemon w c [] = (c, [], []).
Proof. intros [] c; reflexivity. Qed.
Lemma daemon_one : forall w c s c' rep, daemon_step w c s = Some (c', rep, []) ->
  daemon w c s = (c', rep, []).
Proof. intros w c s c' rep H. rewrite (daemon_cons _ _ _ _ _ _ H), daemon_nil, app_nil_r. reflexivity. Qed.
Lemma daemon_none : forall w c s, daemon_step w c s = None -> daemon w c s = (c, [], s).
Proof. intros w c s H. unfold daemon. simpl. rewrite H. reflexivity. Qed.
