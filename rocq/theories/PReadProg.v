(** * The programs of ReadProg.v are the readers of the client and the server. *)
From Verif Require Import GoBytes GoNum GoIO GoScan GoBufio Item ClientText ClientMeta ClientBinary ServerTypes ServerParse Serve ServerWrite ReadProg PLib PReader PBufio Call Spec.
Local Open Scope Z_scope.

Definition same {A} (p : rprog A) (m : reader A) : Prop := forall s, run_stream p s = m s.

Lemma run_bind : forall A C (p : rprog A) (f : A -> rprog C) s,
  run_stream (p_bind p f) s = match run_stream p s with
                              | (Ok a, s') => run_stream (f a) s'
                              | (Err e, s') => (Err e, s')
                              | (Panic, s') => (Panic, s')
                              end.
Proof.
  intros A C p f. induction p as [[a|e|]|r k IH]; intro s; try reflexivity. cbn [p_bind run_stream].
  destruct (prim_stream r s) as [[b|e|] s']; try reflexivity. apply IH.
Qed.
Lemma same_bind : forall A C (p : rprog A) m (f : A -> rprog C) g, same p m -> (forall a, same (f a) (g a)) -> same (p_bind p f) (bind m g).
Proof. intros A C p m f g H K s. rewrite run_bind, H. unfold bind. destruct (m s) as [[a|e|] s']; try reflexivity. apply K. Qed.
Lemma same_ret : forall A (a : A), same (p_ret a) (ret a). Proof. intros A a s. reflexivity. Qed.
Lemma same_fail : forall A e, same (@p_fail A e) (fail e). Proof. intros A a s. reflexivity. Qed.
Lemma same_panic : forall A, same (@p_panic A) panic. Proof. intros A s. reflexivity. Qed.
Lemma same_lift : forall A (o : outcome A), same (p_lift o) (lift o). Proof. intros A a s. reflexivity. Qed.
Lemma same_lift_opt : forall A (o : option A), same (p_lift_opt o) (lift_opt o). Proof. intros A [a|] s; reflexivity. Qed.
Lemma same_go_sub : forall b lo hi, same (p_go_sub b lo hi) (go_sub b lo hi). Proof. intros b lo hi s. reflexivity. Qed.
Lemma same_go_index : forall A (l : list A) i, same (p_go_index l i) (go_index l i).
Proof. intros A l i s. unfold p_go_index, go_index. destruct (nth_error l i); reflexivity. Qed.
Lemma same_go_make : forall n, same (p_go_make n) (go_make n). Proof. intros n s. unfold p_go_make, go_make. destruct (_ || _); reflexivity. Qed.
Lemma same_prim : forall r, same (PRead r p_ret) (prim_stream r).
Proof. intros r s. cbn [run_stream]. destruct (prim_stream r s) as [[b|e|] s']; reflexivity. Qed.
Lemma same_slice : same p_read_slice read_slice. Proof. exact (same_prim RSlice). Qed.
Lemma same_bytes : same p_read_bytes read_bytes. Proof. exact (same_prim RBytes). Qed.
Lemma same_full : forall n, same (p_read_full n) (read_full n). Proof. intro n. exact (same_prim (RFull n)). Qed.
Lemma same_make_read_full : forall n, same (p_make_read_full n) (make_read_full n).
Proof. intro n. apply same_bind; [apply same_go_make|]. intro. apply same_full. Qed.
Ltac same_step :=
  first [ apply same_ret | apply same_fail | apply same_panic | apply same_lift | apply same_lift_opt | apply same_go_sub | apply same_go_index
        | apply same_go_make | apply same_slice | apply same_bytes | apply same_full | apply same_make_read_full
        | apply same_bind; [|intro]
        | match goal with
          | |- same (if ?c then _ else _) _ => destruct c
          | |- same (match ?x with _ => _ end) _ => destruct x
          | |- same (let '(_, _) := ?x in _) _ => destruct x
          end ].
Ltac same_auto := repeat same_step.

Lemma same_text_get : forall name, same (p_text_get_resp name) (text_get_resp name).
Proof. intro. unfold p_text_get_resp, text_get_resp. same_auto. Qed.
Lemma same_text_block : forall b, same (p_text_value_block b) (text_value_block b).
Proof. intro. unfold p_text_value_block, text_value_block. cbv zeta. same_auto. Qed.
Lemma loop_more : forall A (step : reader (option A)) f acc s r, loop step f acc s = Some r -> forall f', (f <= f')%nat -> loop step f' acc s = Some r.
Proof.
  induction f as [|f IH]; intros acc s r E f' L; [discriminate|]. destruct f' as [|f']; [lia|]. cbn [loop] in *.
  destruct (step s) as [[[i|]|e|] s']; try exact E. apply IH; [exact E|lia].
Qed.
Lemma loop_enough : forall A (step : reader (option A)) s r f, eats step -> loop step (S (length s)) [] s = r -> (length s < f)%nat -> loop step f [] s = r.
Proof.
  intros A step s r f Es E L. destruct r as [r|].
  - apply (loop_more _ _ _ _ _ _ E). lia.
  - exfalso. apply (loop_fuel step Es (S (length s)) [] s); [lia|exact E].
Qed.

Lemma text_values_prog : forall f acc s r, text_values f acc s = Some r -> run_stream (p_text_values f acc) s = r.
Proof.
  induction f as [|f IH]; intros acc s r E; [discriminate|]. cbn [text_values p_text_values] in *. rewrite run_bind, same_slice.
  destruct (read_slice s) as [[b|e|] s1]; try (injection E as <-; reflexivity). destruct (beq b (B "END" ++ crlf)); [injection E as <-; reflexivity|].
  rewrite run_bind, same_text_block. destruct (text_value_block b s1) as [[i|e|] s2]; try (injection E as <-; reflexivity). apply IH. exact E.
Qed.
Lemma same_text_getmulti : forall name f s, (length s < f)%nat -> run_stream (p_text_getmulti_resp f name) s = text_getmulti_resp name s.
Proof.
  intros name f s L. unfold p_text_getmulti_resp, text_getmulti_resp. rewrite run_bind.
  destruct (text_values (S (length s)) [] s) as [r|] eqn:E; [|exfalso; exact (text_values_fuel s [] E)].
  assert (E' : text_values f [] s = Some r) by (rewrite text_values_loop in *; apply (loop_enough _ _ _ _ _ eats_text_step E L)).
  rewrite (text_values_prog _ _ _ _ E'). destruct r as [[l|e|] s']; reflexivity.
Qed.

Lemma same_meta_block : same p_meta_get_block meta_get_block.
Proof. unfold p_meta_get_block, meta_get_block. same_auto. Qed.
Lemma run_until : forall A C (p : rprog A) (f : outcome A -> rprog C) s,
  (forall e, f (Err e) = p_fail e \/ e = ENotFound) -> f Panic = p_panic ->
  run_stream (p_until p f) s = let '(o, s') := run_stream p s in run_stream (f o) s'.
Proof.
  intros A C p f s He Hp. revert s. induction p as [o|r k IH]; intro s; [reflexivity|]. cbn [p_until run_stream].
  destruct (prim_stream r s) as [[b|e|] s'] eqn:E; [apply IH| |rewrite Hp; reflexivity].
  destruct (He e) as [Q| ->]; [rewrite Q; reflexivity|]. exfalso. destruct r; cbn in E.
  - unfold read_slice in E. destruct (find_line s) as [[l q]|]; [destruct (_ <=? _); discriminate|destruct (_ <=? _); discriminate].
  - unfold read_bytes in E. destruct (find_line s) as [[l q]|]; discriminate.
  - unfold read_full in E. destruct (_ <=? _); discriminate.
Qed.
Lemma meta_values_prog : forall f acc s r, meta_values f acc s = Some r -> run_stream (p_meta_values f acc) s = r.
Proof.
  induction f as [|f IH]; intros acc s r E; [discriminate|]. cbn [meta_values p_meta_values] in *. rewrite run_until; [|intros []; auto|reflexivity].
  rewrite same_meta_block. destruct (meta_get_block s) as [[i|e|] s1].
  - apply IH. exact E.
  - destruct e; injection E as <-; reflexivity.
  - injection E as <-; reflexivity.
Qed.
Lemma same_meta_getmulti : forall f s, (length s < f)%nat -> run_stream (p_meta_getmulti_resp f) s = meta_getmulti_resp s.
Proof.
  intros f s L. unfold p_meta_getmulti_resp, meta_getmulti_resp.
  destruct (meta_values (S (length s)) [] s) as [r|] eqn:E; [|exfalso; exact (meta_values_fuel s [] E)].
  assert (E' : meta_values f [] s = Some r) by (rewrite meta_values_loop in *; apply (loop_enough _ _ _ _ _ eats_meta_step E L)).
  exact (meta_values_prog _ _ _ _ E').
Qed.

Lemma same_header : same p_read_res_header read_res_header.
Proof. unfold p_read_res_header, read_res_header. same_auto. Qed.
Ltac same_auto2 := repeat first [apply same_header | same_step].
Lemma same_bin_step : same p_bin_getmulti_step bin_getmulti_step.
Proof. unfold p_bin_getmulti_step, bin_getmulti_step. same_auto2. Qed.
Lemma bin_values_prog : forall f acc s r, bin_values f acc s = Some r -> run_stream (p_bin_values f acc) s = r.
Proof.
  induction f as [|f IH]; intros acc s r E; [discriminate|]. cbn [bin_values p_bin_values] in *. rewrite run_bind, same_bin_step.
  destruct (bin_getmulti_step s) as [[[i|]|e|] s1]; try (injection E as <-; reflexivity). apply IH. exact E.
Qed.
Lemma same_bin_getmulti : forall f s, (length s < f)%nat -> run_stream (p_bin_getmulti_resp f) s = bin_getmulti_resp s.
Proof.
  intros f s L. unfold p_bin_getmulti_resp, bin_getmulti_resp.
  destruct (bin_values (S (length s)) [] s) as [r|] eqn:E; [|exfalso; exact (bin_values_fuel s [] E)].
  assert (E' : bin_values f [] s = Some r) by (rewrite bin_values_loop in *; apply (loop_enough _ _ _ _ _ eats_bin_step E L)).
  exact (bin_values_prog _ _ _ _ E').
Qed.

Lemma same_rmap : forall A (f : A -> result) p m s, run_stream p s = m s -> run_stream (p_rmap f p) s = rmap f m s.
Proof. intros A f p m s E. unfold p_rmap, rmap, bind. rewrite run_bind, E. destruct (m s) as [[a|e|] s']; reflexivity. Qed.

Lemma text_prog : forall f name o s, (length s < f)%nat -> run_stream (p_text_resp f name o) s = text_resp name o s.
Proof.
  intros f name o s L. destruct o; cbn [p_text_resp text_resp]; unfold p_runit, runit; apply same_rmap; try (apply same_text_get); try (apply same_text_getmulti; exact L);
    match goal with |- run_stream ?p _ = ?m _ => unfold p, m end; revert s L; intros s _; revert s; change (fun s => ?a) with a; fold (@same unit); 
    match goal with |- forall s, run_stream ?p s = ?m s => change (same p m) end; same_auto.
Qed.
Lemma meta_prog : forall f o s, (length s < f)%nat -> run_stream (p_meta_resp f o) s = meta_resp o s.
Proof.
  intros f o s L. destruct o; cbn [p_meta_resp meta_resp]; unfold p_runit, runit; apply same_rmap; try (apply same_meta_getmulti; exact L);
    try (unfold p_meta_get_resp, meta_get_resp; apply same_bind; [apply same_meta_block|intro; apply same_ret]);
    match goal with |- run_stream ?p _ = ?m _ => unfold p, m end; revert s L; intros s _; revert s;
    match goal with |- forall s, run_stream ?p s = ?m s => change (same p m) end; same_auto.
Qed.
Lemma bin_prog : forall f o s, (length s < f)%nat -> run_stream (p_bin_resp f o) s = bin_resp o s.
Proof.
  intros f o s L. destruct o; cbn [p_bin_resp bin_resp]; unfold p_runit, runit; apply same_rmap; try (apply same_bin_getmulti; exact L);
    unfold p_bin_get_resp, bin_get_resp, p_bin_store_resp, bin_store_resp, p_bin_body_resp, bin_body_resp, p_bin_incr_resp, bin_incr_resp, p_bin_touch_resp, bin_touch_resp,
      p_bin_flush_resp, bin_flush_resp, p_bin_version_resp, bin_version_resp; clear L; revert s;
    match goal with |- forall s, run_stream ?p s = ?m s => change (same p m) end; same_auto2.
Qed.

Lemma same_ascii_command : forall ws, same (p_ascii_command ws) (ascii_command ws).
Proof. intro ws. unfold p_ascii_command, ascii_command. same_auto. Qed.
Lemma same_ascii_request : same p_read_ascii_request read_ascii_request.
Proof. unfold p_read_ascii_request, read_ascii_request. apply same_bind; [apply same_bytes|]. intro. apply same_ascii_command. Qed.
Lemma same_be_at : forall b lo hi, same (p_be_at b lo hi) (be_at b lo hi).
Proof. intros. unfold p_be_at, be_at. same_auto. Qed.
Lemma same_binary_request : same p_read_binary_request read_binary_request.
Proof. unfold p_read_binary_request, read_binary_request. cbv zeta. repeat first [apply same_be_at | same_step]. Qed.
