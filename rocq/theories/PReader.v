(** * Readers are local: their outcome is determined by the bytes they consume, and any shorter input
    is an input/output error. *)
From Verif Require Import GoBytes GoNum GoIO GoScan Item ClientText ClientMeta ClientBinary PLib PText.
Local Open Scope Z_scope.

Definition local {A} (m : reader A) : Prop := forall s o rest, m s = (o, rest) -> o <> Err EIO ->
  exists used, s = used ++ rest
    /\ (forall t, m (used ++ t) = (o, t))
    /\ (forall p q, used = p ++ q -> q <> [] -> m p = (Err EIO, [])).
(** A reader that consumes at least one byte whenever it returns. *)
Definition eats {A} (m : reader A) : Prop := forall s o rest, m s = (o, rest) -> o <> Err EIO -> (length rest < length s)%nat.

Lemma app_eq_app' : forall (A : Type) (a b p q : list A), a ++ b = p ++ q ->
  (exists d, p = a ++ d /\ b = d ++ q) \/ (exists d, a = p ++ d /\ q = d ++ b /\ d <> []).
Proof.
  intros A a. induction a as [|x a IH]; intros b p q E.
  - left. exists p. auto.
  - destruct p as [|y p].
    + right. exists (x :: a). cbn in E. split; [reflexivity|]. split; [symmetry; exact E|discriminate].
    + cbn in E. inversion E; subst. destruct (IH b p q H1) as [(d & -> & ->)|(d & -> & -> & N)].
      * left. exists d. auto.
      * right. exists d. auto.
Qed.

Lemma local_ret : forall A (a : A), local (ret a).
Proof.
  intros A a s o rest E N. inversion E; subst. exists []. repeat split. intros p q H Q. destruct p; [|discriminate]. cbn in H. congruence.
Qed.
Lemma local_const : forall A (o : outcome A), o <> Err EIO -> local (fun s => (o, s)).
Proof.
  intros A o0 N0 s o rest E N. inversion E; subst. exists []. repeat split. intros p q H Q. destruct p; [|discriminate]. cbn in H. congruence.
Qed.
Lemma local_fail : forall A e, e <> EIO -> local (@fail A e).
Proof. intros A e N. apply local_const. congruence. Qed.
Lemma local_panic : forall A, local (@panic A).
Proof. intro A. apply local_const. discriminate. Qed.
Lemma local_lift : forall A (o : option A), local (lift_opt o).
Proof. intros A [a|]; [apply local_ret|apply local_fail; discriminate]. Qed.
Lemma local_sub : forall b lo hi, local (go_sub b lo hi).
Proof. intros. apply local_const. unfold go_slice. destruct (_ && _); discriminate. Qed.
Lemma local_index : forall A (l : list A) i, local (go_index l i).
Proof. intros. unfold go_index. destruct (nth_error l i); [apply local_ret|apply local_panic]. Qed.

Lemma local_bind : forall A C (m : reader A) (f : A -> reader C), local m -> (forall a, local (f a)) -> local (bind m f).
Proof.
  intros A C m f Lm Lf s o rest E N. unfold bind in E. destruct (m s) as [om s1] eqn:Em. destruct om as [a|e|].
  - destruct (Lm s (Ok a) s1 Em ltac:(discriminate)) as (u1 & -> & F1 & P1).
    destruct (Lf a s1 o rest E N) as (u2 & -> & F2 & P2). exists (u1 ++ u2). split; [apply app_assoc|]. split.
    + intro t. unfold bind. rewrite <- app_assoc, F1. apply F2.
    + intros p q H Q. unfold bind. destruct (app_eq_app' _ _ _ _ _ H) as [(d & -> & ->)|(d & -> & -> & Nd)].
      * rewrite F1. eapply P2; [reflexivity|exact Q].
      * rewrite (P1 p d eq_refl Nd). reflexivity.
  - inversion E; subst. destruct (Lm s (Err e) rest Em) as (u1 & -> & F1 & P1); [congruence|]. exists u1. split; [reflexivity|].
    split; [intro t; unfold bind; rewrite F1; reflexivity|]. intros p q H Q. unfold bind. rewrite (P1 p q H Q). reflexivity.
  - inversion E; subst. destruct (Lm s Panic rest Em) as (u1 & -> & F1 & P1); [congruence|]. exists u1. split; [reflexivity|].
    split; [intro t; unfold bind; rewrite F1; reflexivity|]. intros p q H Q. unfold bind. rewrite (P1 p q H Q). reflexivity.
Qed.

(** ** read_slice *)
Lemma find_line_some : forall s l r, find_line s = Some (l, r) -> s = l ++ r /\ l <> []
  /\ (forall t, find_line (l ++ t) = Some (l, t)) /\ (forall p q, l = p ++ q -> q <> [] -> find_line p = None).
Proof.
  induction s as [|c s IH]; intros l r E; [discriminate|]. cbn [find_line] in E. destruct (Ascii.eqb c LF) eqn:C.
  - inversion E; subst. split; [reflexivity|]. split; [discriminate|]. split.
    + intro t. cbn. rewrite C. reflexivity.
    + intros p q H Q. destruct p as [|x p]; [reflexivity|]. inversion H; subst. destruct p; destruct q; try discriminate; congruence.
  - destruct (find_line s) as [[l' r']|] eqn:F; [|discriminate]. inversion E; subst. destruct (IH l' r eq_refl) as (-> & Nl & Ft & Fp).
    split; [reflexivity|]. split; [discriminate|]. split.
    + intro t. cbn. rewrite C, Ft. reflexivity.
    + intros p q H Q. destruct p as [|x p]; [reflexivity|]. inversion H; subst. cbn. rewrite C, (Fp p q eq_refl Q). reflexivity.
Qed.
Lemma find_line_none_prefix : forall p q, find_line (p ++ q) = None -> find_line p = None.
Proof.
  induction p as [|c p IH]; intros q E; [reflexivity|]. cbn [app find_line] in *. destruct (Ascii.eqb c LF); [discriminate|].
  destruct (find_line (p ++ q)) as [[? ?]|] eqn:F; [discriminate|]. rewrite (IH q F). reflexivity.
Qed.
Lemma find_line_none_app : forall u t, find_line u = None ->
  find_line (u ++ t) = match find_line t with Some (l, r) => Some (u ++ l, r) | None => None end.
Proof.
  induction u as [|c u IH]; intros t E; [cbn; destruct (find_line t) as [[? ?]|]; reflexivity|]. cbn [app find_line] in *.
  destruct (Ascii.eqb c LF); [discriminate|]. destruct (find_line u) as [[? ?]|]; [discriminate|]. rewrite IH by reflexivity.
  destruct (find_line t) as [[? ?]|]; reflexivity.
Qed.
(** The first 4096 bytes contain no newline. *)
Lemma full_head : forall u, zlen u = buf_size -> find_line u = None -> forall t, read_slice (u ++ t) = (Err EBufFull, t).
Proof.
  intros u Z F t. unfold read_slice. rewrite (find_line_none_app u t F).
  assert (S : skipn (Z.to_nat buf_size) (u ++ t) = t) by (rewrite <- Z; apply skipn_app_zlen).
  destruct (find_line t) as [[l r]|] eqn:E.
  - apply find_line_some in E. destruct E as (_ & Nl & _). rewrite zlen_app, Z. assert (0 < zlen l) by (destruct l; [congruence|rewrite zlen_cons; pose proof (zlen_nonneg _ l); lia]).
    destruct (buf_size + zlen l <=? buf_size) eqn:L; [apply Z.leb_le in L; lia|]. rewrite S. reflexivity.
  - rewrite zlen_app, Z. pose proof (zlen_nonneg _ t). destruct (buf_size <=? buf_size + zlen t) eqn:L; [|apply Z.leb_gt in L; lia].
    rewrite S. reflexivity.
Qed.
Lemma short_none : forall p, find_line p = None -> zlen p < buf_size -> read_slice p = (Err EIO, []).
Proof. intros p F Z. unfold read_slice. rewrite F. destruct (buf_size <=? zlen p) eqn:L; [apply Z.leb_le in L; lia|reflexivity]. Qed.
Lemma prefix_shorter : forall (u p q : bytes), u = p ++ q -> q <> [] -> zlen p < zlen u.
Proof. intros u p q -> Q. rewrite zlen_app. destruct q; [congruence|]. rewrite zlen_cons. pose proof (zlen_nonneg _ q). lia. Qed.

Lemma local_full : forall s rest, read_slice s = (Err EBufFull, rest) ->
  exists used, s = used ++ rest /\ zlen used = buf_size /\ find_line used = None.
Proof.
  intros s rest E. unfold read_slice in E. destruct (find_line s) as [[l r]|] eqn:F.
  - destruct (zlen l <=? buf_size) eqn:L; [discriminate|]. inversion E; subst. apply Z.leb_gt in L.
    apply find_line_some in F. destruct F as (-> & Nl & Ft & Fp).
    exists (firstn (Z.to_nat buf_size) (l ++ r)). split; [symmetry; apply firstn_skipn|].
    assert (Lf : firstn (Z.to_nat buf_size) (l ++ r) = firstn (Z.to_nat buf_size) l).
    { rewrite firstn_app. replace (Z.to_nat buf_size - length l)%nat with 0%nat by (unfold zlen in L; lia). cbn. apply app_nil_r. }
    rewrite Lf. split.
    + unfold zlen, buf_size in *. rewrite firstn_length. lia.
    + apply Fp with (q := skipn (Z.to_nat buf_size) l); [symmetry; apply firstn_skipn|].
      intro Q. apply (f_equal (@length ascii)) in Q. rewrite skipn_length in Q. unfold zlen, buf_size in *. cbn [length] in Q. lia.
  - destruct (buf_size <=? zlen s) eqn:L; [|discriminate]. inversion E; subst. apply Z.leb_le in L.
    exists (firstn (Z.to_nat buf_size) s). split; [symmetry; apply firstn_skipn|]. split.
    + unfold zlen, buf_size in *. rewrite firstn_length. lia.
    + apply find_line_none_prefix with (q := skipn (Z.to_nat buf_size) s). rewrite firstn_skipn. exact F.
Qed.

Lemma local_slice : local read_slice.
Proof.
  intros s o rest E N. assert (E' := E). unfold read_slice in E. destruct (find_line s) as [[l r]|] eqn:F.
  - destruct (zlen l <=? buf_size) eqn:L.
    + inversion E; subst. apply Z.leb_le in L. apply find_line_some in F. destruct F as (-> & Nl & Ft & Fp).
      exists l. split; [reflexivity|]. split.
      * intro t. unfold read_slice. rewrite Ft. destruct (zlen l <=? buf_size) eqn:L'; [reflexivity|apply Z.leb_gt in L'; lia].
      * intros p q H Q. apply short_none; [eapply Fp; eassumption|]. pose proof (prefix_shorter _ _ _ H Q). lia.
    + inversion E; subst. apply local_full in E'. destruct E' as (u & Es & Zu & Fu). exists u. split; [exact Es|]. split.
      * apply full_head; assumption.
      * intros p q H Q. apply short_none; [|pose proof (prefix_shorter _ _ _ H Q); lia]. subst u. eapply find_line_none_prefix. exact Fu.
  - destruct (buf_size <=? zlen s) eqn:L; [|inversion E; subst; congruence]. inversion E; subst.
    apply local_full in E'. destruct E' as (u & Es & Zu & Fu). exists u. split; [exact Es|]. split.
    + apply full_head; assumption.
    + intros p q H Q. apply short_none; [|pose proof (prefix_shorter _ _ _ H Q); lia]. subst u. eapply find_line_none_prefix. exact Fu.
Qed.
Lemma eats_slice : eats read_slice.
Proof.
  intros s o rest E N. destruct (local_slice s o rest E N) as (u & -> & F & P). rewrite app_length.
  destruct u as [|x u]; [|cbn; lia]. exfalso. specialize (F []). cbn in F. inversion F; subst. congruence.
Qed.

(** ** read_full *)
Lemma local_read_full : forall n, local (read_full n).
Proof.
  intros n s o rest E N. unfold read_full in E. destruct (n <=? zlen s) eqn:L; [|inversion E; subst; congruence].
  inversion E; subst. apply Z.leb_le in L. exists (firstn (Z.to_nat n) s). split; [symmetry; apply firstn_skipn|].
  assert (Zf : zlen (firstn (Z.to_nat n) s) = Z.max n 0) by (unfold zlen in *; rewrite firstn_length; lia).
  split.
  - intro t. unfold read_full. rewrite zlen_app, Zf. pose proof (zlen_nonneg _ t).
    destruct (n <=? Z.max n 0 + zlen t) eqn:L'; [|apply Z.leb_gt in L'; lia].
    assert (Q : Z.to_nat n = length (firstn (Z.to_nat n) s)) by (unfold zlen in Zf; lia).
    f_equal; [f_equal|].
    + rewrite Q at 1. apply firstn_app_exact.
    + rewrite Q at 1. apply skipn_app_exact.
  - intros p q H Q. unfold read_full. pose proof (prefix_shorter _ _ _ H Q). rewrite Zf in H0. pose proof (zlen_nonneg _ p).
    destruct (n <=? zlen p) eqn:L'; [apply Z.leb_le in L'; lia|reflexivity].
Qed.
Lemma local_make : forall n, local (go_make n).
Proof. intro n. unfold go_make. destruct (_ || _); [apply local_panic|apply local_ret]. Qed.
Lemma local_make_read : forall n, local (make_read_full n).
Proof. intro n. apply local_bind; [apply local_make|intros; apply local_read_full]. Qed.

Lemma local_if : forall A (b : bool) (m n : reader A), local m -> local n -> local (if b then m else n).
Proof. intros A [] m n H1 H2; assumption. Qed.
Lemma local_rmap : forall A (f : A -> result) (m : reader A), local m -> local (rmap f m).
Proof. intros A f m H. apply local_bind; [exact H|intro; apply local_ret]. Qed.

Ltac loc :=
  repeat first
    [ apply local_if | apply local_bind; [|intro] | apply local_rmap | apply local_ret | apply local_slice
    | apply local_read_full | apply local_make_read | apply local_make | apply local_lift | apply local_sub | apply local_index
    | apply local_panic | (apply local_fail; (discriminate || (unfold invalid_response; discriminate)))
    | match goal with |- local (let '(_, _) := ?x in _) => destruct x
                    | |- local (match ?x with _ => _ end) => destruct x
                    | |- local (let x := ?y in _) => cbv zeta end ].

Lemma eats_bind : forall A C (m : reader A) (f : A -> reader C), eats m -> local m -> (forall a, local (f a)) -> eats (bind m f).
Proof.
  intros A C m f Em Lm Lf s o rest E N. unfold bind in E. destruct (m s) as [om s1] eqn:Ms. destruct om as [a|e|].
  - specialize (Em _ _ _ Ms ltac:(discriminate)). destruct (Lf a s1 o rest E N) as (u & -> & _). rewrite app_length in Em. lia.
  - inversion E; subst. apply (Em _ _ _ Ms). congruence.
  - inversion E; subst. apply (Em _ _ _ Ms). congruence.
Qed.
Lemma eats_read_full : forall n, 0 < n -> eats (read_full n).
Proof.
  intros n Hn s o rest E N. unfold read_full in E. destruct (n <=? zlen s) eqn:L; [|inversion E; subst; congruence].
  apply Z.leb_le in L. inversion E; subst. rewrite skipn_length. unfold zlen in L. lia.
Qed.

(** ** Loops: a step returns [Some a] to go on and [None] to stop. *)
Section Loop.
Context {A : Type}.
Variable step : reader (option A).
Hypothesis Ls : local step.
Hypothesis Es : eats step.
Fixpoint loop (fuel : nat) (acc : list A) (s : bytes) : option (outcome (list A) * bytes) :=
  match fuel with
  | O => None
  | S f => match step s with
           | (Ok (Some i), s') => loop f (i :: acc) s'
           | (Ok None, s') => Some (Ok (rev acc), s')
           | (Err e, s') => Some (Err e, s')
           | (Panic, s') => Some (Panic, s')
           end
  end.
Lemma loop_fuel : forall f acc s, (length s < f)%nat -> loop f acc s <> None.
Proof.
  induction f as [|f IH]; intros acc s L; [lia|]. cbn [loop]. destruct (step s) as [[[i|]|e|] s'] eqn:E; try discriminate.
  apply IH. specialize (Es _ _ _ E ltac:(discriminate)). lia.
Qed.
Lemma loop_local : forall f acc s o rest, loop f acc s = Some (o, rest) -> o <> Err EIO ->
  exists used, s = used ++ rest
    /\ (forall t f', (length used < f')%nat -> loop f' acc (used ++ t) = Some (o, t))
    /\ (forall p q f', used = p ++ q -> q <> [] -> (length p < f')%nat -> loop f' acc p = Some (Err EIO, [])).
Proof.
  induction f as [|f IH]; intros acc s o rest E N; [discriminate|]. cbn [loop] in E.
  destruct (step s) as [os s1] eqn:Ss.
  assert (Hd : forall o', os = o' -> o' <> Err EIO -> exists u, s = u ++ s1 /\ u <> [] /\ (forall t, step (u ++ t) = (o', t))
             /\ (forall p q, u = p ++ q -> q <> [] -> step p = (Err EIO, []))).
  { intros o' -> No. destruct (Ls _ _ _ Ss No) as (u & -> & F & P). exists u. repeat split; auto. intros ->.
    specialize (Es _ _ _ Ss No). cbn in Es. lia. }
  destruct os as [[i|]|e|].
  - destruct (Hd _ eq_refl ltac:(discriminate)) as (u & -> & Nu & F & P). clear Hd.
    destruct (IH _ _ _ _ E N) as (u2 & -> & F2 & P2). exists (u ++ u2). split; [apply app_assoc|]. split.
    + intros t f' L. rewrite app_length in L. destruct f' as [|f']; [lia|]. cbn [loop]. rewrite <- app_assoc, F. apply F2.
      destruct u; [congruence|]. cbn in L. lia.
    + intros p q f' H Q L. destruct f' as [|f']; [lia|]. cbn [loop].
      destruct (app_eq_app' _ _ _ _ _ H) as [(d & -> & ->)|(d & -> & -> & Nd)].
      * rewrite F. eapply P2; [reflexivity|exact Q|]. rewrite app_length in L. destruct u; [congruence|]. cbn in L. lia.
      * rewrite (P p d eq_refl Nd). reflexivity.
  - inversion E; subst. destruct (Hd _ eq_refl ltac:(discriminate)) as (u & -> & Nu & F & P). exists u. split; [reflexivity|]. split.
    + intros t f' L. destruct f' as [|f']; [lia|]. cbn [loop]. rewrite F. reflexivity.
    + intros p q f' H Q L. destruct f' as [|f']; [lia|]. cbn [loop]. rewrite (P p q H Q). reflexivity.
  - inversion E; subst. destruct (Hd _ eq_refl ltac:(congruence)) as (u & -> & Nu & F & P). exists u. split; [reflexivity|]. split.
    + intros t f' L. destruct f' as [|f']; [lia|]. cbn [loop]. rewrite F. reflexivity.
    + intros p q f' H Q L. destruct f' as [|f']; [lia|]. cbn [loop]. rewrite (P p q H Q). reflexivity.
  - inversion E; subst. destruct (Hd _ eq_refl ltac:(congruence)) as (u & -> & Nu & F & P). exists u. split; [reflexivity|]. split.
    + intros t f' L. destruct f' as [|f']; [lia|]. cbn [loop]. rewrite F. reflexivity.
    + intros p q f' H Q L. destruct f' as [|f']; [lia|]. cbn [loop]. rewrite (P p q H Q). reflexivity.
Qed.
Definition loop_reader : reader (list A) := fun s =>
  match loop (S (length s)) [] s with Some r => r | None => (Panic, s) end.
Lemma local_loop : local loop_reader.
Proof.
  intros s o rest E N. unfold loop_reader in *. destruct (loop (S (length s)) [] s) as [r|] eqn:L.
  - subst r. destruct (loop_local _ _ _ _ _ L N) as (u & -> & F & P). exists u. split; [reflexivity|]. split.
    + intro t. rewrite F; [reflexivity|]. rewrite app_length. lia.
    + intros p q H Q. rewrite (P p q _ H Q); [reflexivity|]. lia.
  - exfalso. apply (loop_fuel (S (length s)) [] s); [lia|exact L].
Qed.
End Loop.

(** ** The three GetMulti loops. *)
Definition text_multi_step : reader (option item) :=
  b <- read_slice ;; if beq b (B "END" ++ crlf) then ret None else (i <- text_value_block b ;; ret (Some i)).
Lemma text_values_loop : forall f acc s, text_values f acc s = loop text_multi_step f acc s.
Proof.
  induction f as [|f IH]; intros acc s; [reflexivity|]. cbn [text_values loop]. unfold text_multi_step, bind.
  destruct (read_slice s) as [[b|e|] s1]; try reflexivity. destruct (beq b (B "END" ++ crlf)); [reflexivity|].
  destruct (text_value_block b s1) as [[i|e|] s2]; try reflexivity. apply IH.
Qed.
Lemma local_text_block : forall b, local (text_value_block b).
Proof. intro b. unfold text_value_block. cbv zeta. loc. Qed.
Lemma local_text_step : local text_multi_step.
Proof. unfold text_multi_step. apply local_bind; [apply local_slice|]. intro b. apply local_if; [apply local_ret|]. apply local_bind; [apply local_text_block|]. intro; apply local_ret. Qed.
Lemma eats_text_step : eats text_multi_step.
Proof.
  apply eats_bind; [apply eats_slice|apply local_slice|]. intro b. apply local_if; [apply local_ret|].
  apply local_bind; [apply local_text_block|]. intro; apply local_ret.
Qed.
Lemma text_values_fuel : forall s acc, text_values (S (length s)) acc s <> None.
Proof. intros s acc. rewrite text_values_loop. apply loop_fuel; [apply eats_text_step|lia]. Qed.
Lemma local_text_getmulti : forall name, local (text_getmulti_resp name).
Proof.
  intros name. assert (E : forall s, text_getmulti_resp name s = bind (loop_reader text_multi_step) (fun l => ret (map (set_server name) l)) s).
  { intro s. unfold text_getmulti_resp, bind, loop_reader. rewrite text_values_loop.
    destruct (loop text_multi_step (S (length s)) [] s) as [[[l|e|] s']|]; reflexivity. }
  assert (L : local (bind (loop_reader text_multi_step) (fun l => ret (map (set_server name) l)))).
  { apply local_bind; [apply local_loop; [apply local_text_step|apply eats_text_step]|intro; apply local_ret]. }
  intros s o rest H N. rewrite E in H. destruct (L s o rest H N) as (u & Eu & F & P). exists u. split; [exact Eu|]. split.
  - intro t. rewrite E. apply F.
  - intros p q H1 H2. rewrite E. eapply P; eassumption.
Qed.

Definition meta_multi_step : reader (option item) := fun s =>
  match meta_get_block s with
  | (Ok i, s') => (Ok (Some i), s')
  | (Err ENotFound, s') => (Ok None, s')
  | (Err e, s') => (Err e, s')
  | (Panic, s') => (Panic, s')
  end.
Lemma meta_values_loop : forall f acc s, meta_values f acc s = loop meta_multi_step f acc s.
Proof.
  induction f as [|f IH]; intros acc s; [reflexivity|]. cbn [meta_values loop]. unfold meta_multi_step.
  destruct (meta_get_block s) as [[i|e|] s1]; try reflexivity; [apply IH|]. destruct e; reflexivity.
Qed.
Lemma local_meta_block : local meta_get_block.
Proof. unfold meta_get_block. loc. Qed.
Lemma eats_meta_block : eats meta_get_block.
Proof. apply eats_bind; [apply eats_slice|apply local_slice|]. intro b. loc. Qed.
Lemma meta_multi_outcome : forall s o rest, meta_multi_step s = (o, rest) ->
  exists o', meta_get_block s = (o', rest) /\ (o <> Err EIO -> o' <> Err EIO)
    /\ forall t, meta_get_block t = (o', t) -> True.
Proof.
  intros s o rest E. unfold meta_multi_step in E. destruct (meta_get_block s) as [o' s'] eqn:M.
  destruct o' as [i|e|]; [| destruct e |]; inversion E; subst; eexists; (split; [reflexivity|]); (split; [|auto]); congruence.
Qed.
Lemma local_meta_step : local meta_multi_step.
Proof.
  intros s o rest E N. destruct (meta_multi_outcome s o rest E) as (o' & M & No & _).
  destruct (local_meta_block s o' rest M (No N)) as (u & -> & F & P). exists u. split; [reflexivity|]. split.
  - intro t. unfold meta_multi_step in *. rewrite M in E. rewrite F. destruct o' as [i|e|]; [| destruct e |]; inversion E; reflexivity.
  - intros p q H Q. unfold meta_multi_step. rewrite (P p q H Q). reflexivity.
Qed.
Lemma eats_meta_step : eats meta_multi_step.
Proof.
  intros s o rest E N. destruct (meta_multi_outcome s o rest E) as (o' & M & No & _). eapply eats_meta_block; [exact M|apply No; exact N].
Qed.
Lemma meta_values_fuel : forall s acc, meta_values (S (length s)) acc s <> None.
Proof. intros s acc. rewrite meta_values_loop. apply loop_fuel; [apply eats_meta_step|lia]. Qed.
Lemma local_ext : forall A (m n : reader A), (forall s, m s = n s) -> local n -> local m.
Proof.
  intros A m n E L s o rest H N. rewrite E in H. destruct (L s o rest H N) as (u & Eu & F & P). exists u. split; [exact Eu|]. split.
  - intro t. rewrite E. apply F.
  - intros p q H1 H2. rewrite E. eapply P; eassumption.
Qed.
Lemma local_meta_getmulti : local meta_getmulti_resp.
Proof.
  apply local_ext with (n := loop_reader meta_multi_step).
  - intro s. unfold meta_getmulti_resp, loop_reader. rewrite meta_values_loop. reflexivity.
  - apply local_loop; [apply local_meta_step|apply eats_meta_step].
Qed.

Lemma status_not_io : forall st, status_error st <> EIO.
Proof. intro st. unfold status_error. destruct (binary_status st); discriminate. Qed.
Lemma local_res_header : local read_res_header.
Proof. unfold read_res_header. loc. Qed.
Lemma eats_res_header : eats read_res_header.
Proof. apply eats_bind; [apply eats_read_full; lia|apply local_read_full|]. intro b. loc. Qed.
Lemma bin_values_loop : forall f acc s, bin_values f acc s = loop bin_getmulti_step f acc s.
Proof.
  induction f as [|f IH]; intros acc s; [reflexivity|]. cbn [bin_values loop].
  destruct (bin_getmulti_step s) as [[[i|]|e|] s1]; solve [reflexivity|apply IH].
Qed.

Ltac loc2 := repeat first [ progress loc | (apply local_fail; apply status_not_io) ].
Lemma fail_if : forall (b : bool) st, (if b then ENotFound else status_error st) <> EIO.
Proof. intros [] st; [discriminate|apply status_not_io]. Qed.
Lemma fail_if2 : forall (b : bool) st, (if b then EExists else status_error st) <> EIO.
Proof. intros [] st; [discriminate|apply status_not_io]. Qed.
Lemma local_bin_step : local bin_getmulti_step.
Proof. unfold bin_getmulti_step. apply local_bind; [apply local_res_header|]. intro h. loc2. Qed.
Lemma eats_bin_step : eats bin_getmulti_step.
Proof. apply eats_bind; [apply eats_res_header|apply local_res_header|]. intro h. loc2. Qed.
Lemma bin_values_fuel : forall s acc, bin_values (S (length s)) acc s <> None.
Proof. intros s acc. rewrite bin_values_loop. apply loop_fuel; [apply eats_bin_step|lia]. Qed.
Lemma local_bin_getmulti : local bin_getmulti_resp.
Proof.
  apply local_ext with (n := loop_reader bin_getmulti_step).
  - intro s. unfold bin_getmulti_resp, loop_reader. rewrite bin_values_loop. reflexivity.
  - apply local_loop; [apply local_bin_step|apply eats_bin_step].
Qed.

(** ** Every reply reader is local. *)
Lemma local_text : forall name o, local (text_resp name o).
Proof.
  intros name o; destruct o; cbn [text_resp]; unfold runit; apply local_rmap;
    try apply local_text_getmulti;
    unfold text_get_resp, text_set_resp, text_add_resp, text_replace_resp, text_delete_resp, text_incr_resp, text_touch_resp,
      text_flush_resp, text_version_resp; loc.
Qed.
Lemma local_meta : forall o, local (meta_resp o).
Proof.
  intros o; destruct o; cbn [meta_resp]; unfold runit; apply local_rmap; try apply local_meta_getmulti;
    unfold meta_get_resp, meta_set_resp, meta_delete_resp, meta_touch_resp,
      text_add_resp, text_replace_resp, text_incr_resp, text_flush_resp, text_version_resp; loc;
    try apply local_meta_block.
Qed.
Lemma local_bin : forall o, local (bin_resp o).
Proof.
  intros o; destruct o; cbn [bin_resp]; unfold runit; apply local_rmap; try apply local_bin_getmulti;
    unfold bin_get_resp, bin_store_resp, bin_body_resp, bin_incr_resp, bin_touch_resp, bin_flush_resp, bin_version_resp;
    (apply local_bind; [apply local_res_header|]; intro h); loc2;
    try (apply local_fail; first [apply fail_if|apply fail_if2|destruct (binary_status (rs_status h)); discriminate]).
Qed.
