(** * Lemmas on items in memory. *)
From Verif Require Import GoBytes GoNum GoIO GoScan GoSlice Item ClientText ClientMeta ClientBinary Cache Daemon Spec Call PLib PReader Memory PWriter PropWriter.
Local Open Scope nat_scope.

(** The result of a call, with its slices replaced by what they contain. *)
Definition omap {A C} (f : A -> C) (o : outcome A) : outcome C :=
  match o with Ok a => Ok (f a) | Err e => Err e | Panic => Panic end.

Lemma array_app_l : forall h x a, a < length h -> array (h ++ x) a = array h a.
Proof. intros. unfold array. apply app_nth1. assumption. Qed.
Lemma valid_app : forall h x s, valid h s -> valid (h ++ x) s.
Proof. intros h x s (A & L & C). unfold valid. rewrite app_length, array_app_l by exact A. repeat split; try lia. Qed.
Lemma contents_app : forall h x s, valid h s -> contents (h ++ x) s = contents h s.
Proof. intros h x s (A & _). unfold contents. rewrite array_app_l by exact A. reflexivity. Qed.
Lemma contents_length : forall h s, valid h s -> length (contents h s) = s_len s.
Proof. intros h s (A & L & C). unfold contents. rewrite firstn_length, skipn_length. lia. Qed.

(** The slice of a new array, and its parts. *)
Definition whole (h : heap) (b : bytes) : slice := mkSlice (length h) 0 (length b) (length b).
Lemma array_new : forall h b x, array (h ++ b :: x) (length h) = b.
Proof. intros. unfold array. rewrite app_nth2, Nat.sub_diag by lia. reflexivity. Qed.
Lemma whole_valid : forall h b x, valid (h ++ b :: x) (whole h b).
Proof. intros. unfold valid, whole; cbn. rewrite array_new, app_length. cbn. lia. Qed.
Lemma whole_contents : forall h b x, contents (h ++ b :: x) (whole h b) = b.
Proof. intros. unfold contents, whole; cbn [s_arr s_off s_len skipn]. rewrite array_new. apply firstn_all. Qed.
Lemma reslice_new : forall h b lo hi,
  match go_slice b lo hi with
  | Ok v => exists s, reslice (whole h b) lo hi = Ok s /\ s_arr s = length h /\ s_off s = Z.to_nat lo /\ s_len s = Z.to_nat (hi - lo)
            /\ s_cap s = length b - Z.to_nat lo /\ (0 <= lo <= hi)%Z /\ (hi <= zlen b)%Z
            /\ (forall x, contents (h ++ b :: x) s = v /\ valid (h ++ b :: x) s)
  | Err e => False
  | Panic => reslice (whole h b) lo hi = Panic
  end.
Proof.
  intros h b lo hi. unfold go_slice, reslice, whole. cbn [s_cap s_arr s_off s_len]. unfold zlen.
  destruct ((0 <=? lo)%Z && (lo <=? hi)%Z && (hi <=? Z.of_nat (length b))%Z) eqn:E; [|reflexivity].
  apply andb_prop in E; destruct E as [E E3]; apply andb_prop in E; destruct E as [E1 E2].
  apply Z.leb_le in E1, E2, E3. eexists; split; [reflexivity|]. cbn [s_cap s_arr s_off s_len]. repeat (split; [lia|]).
  intro x. unfold contents, valid. cbn [s_cap s_arr s_off s_len]. rewrite array_new, app_length. cbn [length]. repeat split; lia.
Qed.

(** What a call knows of an item it returns: its slices are on arrays that did not exist before, and
    (text and meta: [b]) the flags are on another array than the value. *)
Definition own (b : bool) (n : nat) (h : heap) (i : mitem) : Prop :=
  valid h (mi_value i) /\ n <= s_arr (mi_value i)
  /\ match mi_flags i with
     | None => True
     | Some f => valid h f /\ n <= s_arr f /\ (b = true -> s_arr f <> s_arr (mi_value i))
     end.
Lemma own_app : forall b n h x i, own b n h i -> own b n (h ++ x) i.
Proof. intros b n h x i (V & N & F). split; [apply valid_app; exact V|split; [exact N|]]. destruct (mi_flags i); [|exact F]. destruct F as (F1 & F2 & F3). split; [apply valid_app; exact F1|split; assumption]. Qed.
Lemma own_le : forall b n m h i, n <= m -> own b m h i -> own b n h i.
Proof. intros b n m h i L (V & N & F). split; [exact V|split; [lia|]]. destruct (mi_flags i); [|exact F]. destruct F as (F1 & F2 & F3). repeat split; try assumption; try lia; destruct F1 as (?&?&?); assumption. Qed.
Lemma deref_app : forall b n h x i, own b n h i -> deref (h ++ x) i = deref h i.
Proof. intros b n h x i (V & N & F). unfold deref. rewrite contents_app by exact V. f_equal. destruct (mi_flags i); [|reflexivity]. cbn. rewrite contents_app by apply F. reflexivity. Qed.

(** No array in common. *)
Definition disjoint (i j : mitem) : Prop :=
  forall s t, In s (item_slices i) -> In t (item_slices j) -> s_arr s <> s_arr t.
Lemma own_slices : forall b n h i s, own b n h i -> In s (item_slices i) -> valid h s /\ n <= s_arr s.
Proof.
  intros b n h i s (V & N & F) [<-|H]; [auto|]. destruct (mi_flags i) as [f|]; [|destruct H].
  destruct H as [<-|[]]. split; apply F.
Qed.
Lemma own_disjoint : forall b n h i m h' j, own b n h i -> own b m h' j -> length h <= m -> disjoint i j.
Proof. intros b n h i m h' j Oi Oj L s t Hs Ht. destruct (own_slices _ _ _ _ _ Oi Hs) as ((A & _) & _). destruct (own_slices _ _ _ _ _ Oj Ht) as (_ & M). lia. Qed.

(** ** Reading *)

(** [m] computes what [r] computes, in new memory. *)
Definition reads {A C} (ok : nat -> heap -> A -> Prop) (D : heap -> A -> C) (m : mreader A) (r : reader C) : Prop :=
  forall h s, exists o x s', m h s = (o, h ++ x, s') /\ r s = (omap (D (h ++ x)) o, s')
    /\ forall a, o = Ok a -> ok (length h) (h ++ x) a.

Ltac done0 := eexists _, [], _; rewrite app_nil_r; split; [reflexivity|split; [reflexivity|intros ? Q; discriminate Q]].

Lemma text_get_reads : forall name, reads (own true) deref (m_text_get_resp name) (text_get_resp name).
Proof.
  intros name h s. unfold m_text_get_resp, text_get_resp, mbind, bind, pure.
  destruct (read_slice s) as [[b|e|] s1]; try done0.
  destruct (beq b msg_end); [done0|]. destruct (negb (has_prefix (B "VALUE") b)); [done0|].
  destruct (fscanf_value (negb (count_sp b =? 3)%Z) b) as [[[[key flags] size] cas]|]; [|done0]. cbn [lift_opt ret fail].
  unfold alloc_read_full, mbind, pure, alloc.
  destruct (make_read_full (i64 (size + 2)) s1) as [[d|e|] s2].
  2,3: eexists _, [_], _; split; [reflexivity|split; [reflexivity|intros ? Q; discriminate Q]].
  unfold mreslice, go_sub. rewrite <- app_assoc. cbn [app].
  pose proof (reslice_new (h ++ [be 4 flags]) d 0 size) as R. unfold whole in R.
  destruct (go_slice d 0 size) as [v|e|]; [|destruct R|rewrite R; eexists _, [_; _], _; split; [reflexivity|split; [reflexivity|intros ? Q; discriminate Q]]].
  destruct R as (vs & -> & Ra & Ro & Rl & Rc & _ & _ & Rx). specialize (Rx []). rewrite <- app_assoc in Rx. cbn [app] in Rx. destruct Rx as [Rx Rv].
  destruct (read_slice s2) as [[b'|e|] s3].
  2,3: eexists _, [_; _], _; split; [reflexivity|split; [reflexivity|intros ? Q; discriminate Q]].
  destruct (negb (beq b' msg_end)); eexists _, [_; _], _; (split; [reflexivity|split; [|]]).
  - reflexivity.
  - intros ? Q; discriminate Q.
  - cbn [omap]. apply (f_equal (fun x => (Ok x, s3))). unfold deref; cbn [mi_key mi_value mi_flags mi_exp mi_cas mi_server option_map].
    change (mkSlice (length h) 0 (length (be 4 flags)) (length (be 4 flags))) with (whole h (be 4 flags)). rewrite whole_contents, Rx. reflexivity.
  - intros a Q. injection Q as <-. unfold own; cbn [mi_value mi_flags]. rewrite app_length in Ra. cbn in Ra.
    split; [exact Rv|]. split; [lia|]. change (mkSlice (length h) 0 (length (be 4 flags)) (length (be 4 flags))) with (whole h (be 4 flags)).
    split; [apply whole_valid|]. cbn. split; lia.
Qed.

Ltac done1 := eexists _, [_], _; split; [reflexivity|split; [reflexivity|intros ? Q; discriminate Q]].
Ltac done2 := eexists _, [_; _], _; split; [reflexivity|split; [reflexivity|intros ? Q; discriminate Q]].
Lemma text_block_reads : forall b, reads (own true) deref (m_text_value_block b) (text_value_block b).
Proof.
  intros b h s. unfold m_text_value_block, text_value_block, mbind, bind, pure.
  destruct (go_index (split_sp b) 0 s) as [[x0|e|] s1]; try done0. destruct (negb (beq x0 (B "VALUE"))); [done0|].
  destruct (go_index (split_sp b) 2 s1) as [[x2|e|] s2]; try done0.
  destruct (atoi x2) as [f|]; [|done0]. cbn [lift_opt ret]. unfold alloc.
  destruct (go_index (split_sp b) 3 s2) as [[x3|e|] s3]; try done1.
  destruct ((if (zlen (split_sp b) =? 4)%Z then go_sub x3 0 (zlen x3 - 2) else ret x3) s3) as [[sz|e|] s4]; try done1.
  destruct (atoi sz) as [size|]; [|done1]. cbn [lift_opt ret].
  destruct (go_make (i64 (size + 2)) s4) as [[u|e|] s5]; try done1.
  destruct (go_index (split_sp b) 1 s5) as [[x1|e|] s6]; try done1.
  destruct (read_full (i64 (size + 2)) s6) as [[d|e|] s7]; try done1.
  unfold mreslice, go_sub. rewrite <- app_assoc. cbn [app].
  pose proof (reslice_new (h ++ [be 4 (u32 f)]) d 0 size) as R. unfold whole in R.
  destruct (go_slice d 0 size) as [v|e|]; [|destruct R|rewrite R; done2].
  destruct R as (vs & -> & Ra & Ro & Rl & Rc & _ & _ & Rx). specialize (Rx []). rewrite <- app_assoc in Rx. cbn [app] in Rx. destruct Rx as [Rx Rv].
  eexists _, [_; _], _; (split; [reflexivity|split; [|]]).
  - cbn [omap]. apply (f_equal (fun x => (Ok x, s7))). unfold deref; cbn [mi_key mi_value mi_flags mi_exp mi_cas mi_server option_map].
    change (mkSlice (length h) 0 (length (be 4 (u32 f))) (length (be 4 (u32 f)))) with (whole h (be 4 (u32 f))). rewrite whole_contents, Rx. reflexivity.
  - intros a Q. injection Q as <-. unfold own; cbn [mi_value mi_flags]. rewrite app_length in Ra. cbn in Ra.
    split; [exact Rv|]. split; [lia|]. change (mkSlice (length h) 0 (length (be 4 (u32 f))) (length (be 4 (u32 f)))) with (whole h (be 4 (u32 f))).
    split; [apply whole_valid|]. cbn. split; lia.
Qed.

Lemma meta_block_reads : reads (own true) deref m_meta_get_block meta_get_block.
Proof.
  intros h s. unfold m_meta_get_block, meta_get_block, mbind, bind, pure.
  destruct (read_slice s) as [[b|e|] s1]; try done0.
  destruct (beq b meta_end); [done0|]. destruct (beq b meta_noop); [done0|]. destruct (negb (has_prefix (B "VA") b)); [done0|].
  destruct (meta_scan (MSize []) 0 zero_item (skipn 3 b)) as [[size i]|]; [|done0]. cbn [lift_opt ret].
  unfold alloc_read_full, mbind, pure, alloc, mret.
  destruct (it_flags i) as [fb|] eqn:Fi.
  - destruct (make_read_full (i64 (size + 2)) s1) as [[d|e|] s2]; try done1.
    unfold mreslice, go_sub. rewrite <- app_assoc. cbn [app].
    pose proof (reslice_new (h ++ [fb]) d 0 size) as R. unfold whole in R.
    destruct (go_slice d 0 size) as [v|e|]; [|destruct R|rewrite R; done2].
    destruct R as (vs & -> & Ra & Ro & Rl & Rc & _ & _ & Rx). specialize (Rx []). rewrite <- app_assoc in Rx. cbn [app] in Rx. destruct Rx as [Rx Rv].
    eexists _, [_; _], _; (split; [reflexivity|split; [|]]).
    + cbn [omap]. apply (f_equal (fun x => (Ok x, s2))). unfold deref; cbn [mi_key mi_value mi_flags mi_exp mi_cas mi_server option_map].
      change (mkSlice (length h) 0 (length fb) (length fb)) with (whole h fb). rewrite whole_contents, Rx. reflexivity.
    + intros a Q. injection Q as <-. unfold own; cbn [mi_value mi_flags]. rewrite app_length in Ra. cbn in Ra.
      split; [exact Rv|]. split; [lia|]. change (mkSlice (length h) 0 (length fb) (length fb)) with (whole h fb).
      split; [apply whole_valid|]. cbn. split; lia.
  - destruct (make_read_full (i64 (size + 2)) s1) as [[d|e|] s2]; try done0.
    unfold mreslice, go_sub.
    pose proof (reslice_new h d 0 size) as R. unfold whole in R.
    destruct (go_slice d 0 size) as [v|e|]; [|destruct R|rewrite R; done1].
    destruct R as (vs & -> & Ra & Ro & Rl & Rc & _ & _ & Rx). specialize (Rx []). destruct Rx as [Rx Rv].
    eexists _, [_], _; (split; [reflexivity|split; [|]]).
    + cbn [omap]. apply (f_equal (fun x => (Ok x, s2))). unfold deref; cbn [mi_key mi_value mi_flags mi_exp mi_cas mi_server option_map].
      rewrite Rx. reflexivity.
    + intros a Q. injection Q as <-. unfold own; cbn [mi_value mi_flags]. split; [exact Rv|]. split; [lia|exact Logic.I].
Qed.
Lemma meta_get_reads : forall k, reads (own true) deref (m_meta_get_resp k) (meta_get_resp k).
Proof.
  intros k h s. destruct (meta_block_reads h s) as (o & x & s' & E & R & O). unfold m_meta_get_resp, meta_get_resp, mbind, bind, mret, ret. rewrite E, R.
  destruct o as [i|e|]; cbn [omap]; (eexists _, x, _; split; [reflexivity|split; [reflexivity|]]); intros a Q; [|discriminate Q|discriminate Q].
  injection Q as <-. exact (O i eq_refl).
Qed.

Lemma bin_get_reads : forall k, reads (own false) deref (m_bin_get_resp k) (bin_get_resp k).
Proof.
  intros k h s. unfold m_bin_get_resp, bin_get_resp, mbind, bind, pure.
  destruct (read_res_header s) as [[hd|e|] s1]; try done0.
  unfold alloc_read_full, mbind, pure, alloc.
  destruct (make_read_full (rs_total hd) s1) as [[d|e|] s2]; try done0.
  destruct (negb (rs_status hd =? 0)%Z); [done1|].
  unfold mreslice, go_sub. cbn [s_len]. fold (zlen d).
  pose proof (reslice_new h d (body_off hd) (zlen d)) as R. pose proof (reslice_new h d 0 (rs_extra_len hd)) as R2. unfold whole in R, R2.
  destruct (go_slice d (body_off hd) (zlen d)) as [v|e|]; [|destruct R|rewrite R; done1].
  destruct R as (vs & -> & Ra & Ro & Rl & Rc & _ & _ & Rx). specialize (Rx []). destruct Rx as [Rx Rv].
  destruct (go_slice d 0 (rs_extra_len hd)) as [fv|e|]; [|destruct R2|rewrite R2; done1].
  destruct R2 as (fs & -> & Fa & Fo & Fl & Fc & _ & _ & Fx). specialize (Fx []). destruct Fx as [Fx Fv].
  eexists _, [_], _; (split; [reflexivity|split; [|]]).
  - cbn [omap]. apply (f_equal (fun x => (Ok x, s2))). unfold deref; cbn [mi_key mi_value mi_flags mi_exp mi_cas mi_server option_map].
    rewrite Rx, Fx. reflexivity.
  - intros a Q. injection Q as <-. unfold own; cbn [mi_value mi_flags]. split; [exact Rv|]. split; [lia|]. split; [exact Fv|]. split; [lia|discriminate].
Qed.

(** An optional item. *)
Definition own_opt (b : bool) (n : nat) (h : heap) (i : option mitem) : Prop := match i with Some i => own b n h i | None => True end.
Lemma bin_step_reads : reads (own_opt false) (fun h => option_map (deref h)) m_bin_getmulti_step bin_getmulti_step.
Proof.
  intros h s. unfold m_bin_getmulti_step, bin_getmulti_step, mbind, bind, pure.
  destruct (read_res_header s) as [[hd|e|] s1]; try done0.
  destruct (rs_opcode hd =? op_noop)%Z. { eexists _, [], _. rewrite app_nil_r. split; [reflexivity|split; [reflexivity|]]. intros a Q. injection Q as <-. exact Logic.I. }
  destruct (negb (rs_status hd =? 0)%Z); [done0|].
  destruct (make_read_full (rs_total hd) s1) as [[d|e|] s2]; try done0. unfold alloc.
  unfold mreslice, go_sub. cbn [s_len]. fold (zlen d).
  destruct (go_slice d (rs_extra_len hd) (body_off hd)) as [key|e|]; try done1.
  pose proof (reslice_new h d (body_off hd) (zlen d)) as R. pose proof (reslice_new h d 0 (rs_extra_len hd)) as R2. unfold whole in R, R2.
  destruct (go_slice d (body_off hd) (zlen d)) as [v|e|]; [|destruct R|rewrite R; done1].
  destruct R as (vs & -> & Ra & Ro & Rl & Rc & _ & _ & Rx). specialize (Rx []). destruct Rx as [Rx Rv].
  destruct (go_slice d 0 (rs_extra_len hd)) as [fv|e|]; [|destruct R2|rewrite R2; done1].
  destruct R2 as (fs & -> & Fa & Fo & Fl & Fc & _ & _ & Fx). specialize (Fx []). destruct Fx as [Fx Fv].
  eexists _, [_], _; (split; [reflexivity|split; [|]]).
  - cbn [omap option_map]. apply (f_equal (fun x => (Ok (Some x), s2))). unfold deref; cbn [mi_key mi_value mi_flags mi_exp mi_cas mi_server option_map].
    rewrite Rx, Fx. reflexivity.
  - intros a Q. injection Q as <-. unfold own_opt, own; cbn [mi_value mi_flags]. split; [exact Rv|]. split; [lia|]. split; [exact Fv|]. split; [lia|discriminate].
Qed.

(** ** The items of GetMulti *)
Definition owns (b : bool) (n : nat) (h : heap) (l : list mitem) : Prop := Forall (own b n h) l /\ ForallOrdPairs disjoint l.
Lemma disjoint_sym : forall i j, disjoint i j -> disjoint j i.
Proof. intros i j D s t Hs Ht E. exact (D t s Ht Hs (eq_sym E)). Qed.
Lemma pairs_snoc : forall A (R : A -> A -> Prop) l x, ForallOrdPairs R l -> Forall (fun y => R y x) l -> ForallOrdPairs R (l ++ [x]).
Proof.
  intros A R l x P F. induction P as [|y l Fy P IH]; cbn; [repeat constructor|]. inversion F as [|? ? F1 F2]; subst.
  constructor; [|apply IH; exact F2]. apply Forall_app. split; [exact Fy|repeat constructor; exact F1].
Qed.
Lemma pairs_rev : forall A (R : A -> A -> Prop) l, (forall x y, R x y -> R y x) -> ForallOrdPairs R l -> ForallOrdPairs R (rev l).
Proof.
  intros A R l S P. induction P as [|y l Fy P IH]; cbn; [constructor|]. apply pairs_snoc; [exact IH|].
  apply Forall_rev. eapply Forall_impl; [|exact Fy]. intros z Q. apply S. exact Q.
Qed.
Lemma owns_rev : forall b n h l, owns b n h l -> owns b n h (rev l).
Proof. intros b n h l [F P]. split; [apply Forall_rev; exact F|apply pairs_rev; [exact disjoint_sym|exact P]]. Qed.
Lemma owns_app : forall b n h x l, owns b n h l -> owns b n (h ++ x) l.
Proof. intros b n h x l [F P]. split; [|exact P]. eapply Forall_impl; [|exact F]. intros i. apply own_app. Qed.
Lemma owns_cons : forall b n h x i l, owns b n h l -> own b (length h) (h ++ x) i -> n <= length h -> owns b n (h ++ x) (i :: l).
Proof.
  intros b n h x i l [F P] O L. split; constructor.
  - eapply own_le; [exact L|exact O].
  - eapply Forall_impl; [|exact F]. intros j. apply own_app.
  - eapply Forall_impl; [|exact F]. intros j Oj. apply disjoint_sym. eapply own_disjoint; [exact Oj|exact O|lia].
  - exact P.
Qed.
Lemma deref_list_app : forall b n h x l, Forall (own b n h) l -> map (deref (h ++ x)) l = map (deref h) l.
Proof. intros b n h x l F. apply map_ext_in. intros i Hi. rewrite Forall_forall in F. eapply deref_app. apply F. exact Hi. Qed.

(** A loop that has collected [acc] in memory goes on like the loop that has collected its contents. *)
Definition goes_on (b : bool) (m : list mitem -> mreader (list mitem)) (r : list item -> bytes -> option (outcome (list item) * bytes)) : Prop :=
  forall n h acc s, owns b n h acc -> n <= length h -> forall res, r (map (deref h) acc) s = Some res ->
  exists o x s', m acc h s = (o, h ++ x, s') /\ res = (omap (map (deref (h ++ x))) o, s') /\ forall l, o = Ok l -> owns b n (h ++ x) l.

Lemma text_values_go_on : forall fuel, goes_on true (m_text_values fuel) (text_values fuel).
Proof.
  induction fuel as [|f IH]; intros n h acc s O L res E; [discriminate E|]. cbn [text_values m_text_values] in *. unfold mbind, pure.
  destruct (read_slice s) as [[b|e|] s1]; try (injection E as <-; done0).
  destruct (beq b (B "END" ++ crlf)).
  { injection E as <-. eexists _, [], _. rewrite app_nil_r. split; [reflexivity|]. split; [cbn [omap]; rewrite map_rev; reflexivity|]. intros l Q. injection Q as <-. apply owns_rev. exact O. }
  destruct (text_block_reads b h s1) as (o & x & s2 & Em & Er & Ok1). rewrite Em. rewrite Er in E.
  destruct o as [i|e|]; cbn [omap] in E; try (injection E as <-; eexists _, x, _; split; [reflexivity|split; [reflexivity|intros ? Q; discriminate Q]]).
  specialize (Ok1 i eq_refl). destruct O as [OF OP].
  assert (E' : text_values f (map (deref (h ++ x)) (i :: acc)) s2 = Some res). { cbn [map]. rewrite (deref_list_app true n) by exact OF. exact E. }
  destruct (IH n (h ++ x) (i :: acc) s2 (owns_cons _ _ _ _ _ _ (conj OF OP) Ok1 L) ltac:(rewrite app_length; lia) res E') as (o & y & s3 & Em3 & -> & Ok3).
  exists o, (x ++ y), s3. rewrite app_assoc. auto.
Qed.
Lemma meta_values_go_on : forall fuel, goes_on true (m_meta_values fuel) (meta_values fuel).
Proof.
  induction fuel as [|f IH]; intros n h acc s O L res E; [discriminate E|]. cbn [meta_values m_meta_values] in *.
  destruct (meta_block_reads h s) as (o & x & s2 & Em & Er & Ok1). rewrite Em. rewrite Er in E.
  destruct o as [i|e|]; cbn [omap] in E.
  - specialize (Ok1 i eq_refl). destruct O as [OF OP].
    assert (E' : meta_values f (map (deref (h ++ x)) (i :: acc)) s2 = Some res). { cbn [map]. rewrite (deref_list_app true n) by exact OF. exact E. }
    destruct (IH n (h ++ x) (i :: acc) s2 (owns_cons _ _ _ _ _ _ (conj OF OP) Ok1 L) ltac:(rewrite app_length; lia) res E') as (o & y & s3 & Em3 & -> & Ok3).
    exists o, (x ++ y), s3. rewrite app_assoc. auto.
  - assert (Q : (e = ENotFound /\ res = (Ok (rev (map (deref h) acc)), s2)) \/ (e <> ENotFound /\ res = (Err e, s2))).
    { destruct e; injection E as <-; (left; split; [reflexivity|reflexivity]) || (right; split; [discriminate|reflexivity]). }
    destruct Q as [[-> ->]|[N ->]].
    + eexists _, x, _. split; [reflexivity|]. split; [cbn [omap]; rewrite map_rev, (deref_list_app true n) by apply O; reflexivity|].
      intros l Q. injection Q as <-. apply owns_rev, owns_app. exact O.
    + eexists (Err e), x, s2. split; [destruct e; first [contradiction (N eq_refl)|reflexivity]|]. split; [reflexivity|intros ? Q; discriminate Q].
  - injection E as <-. eexists _, x, _. split; [reflexivity|split; [reflexivity|intros ? Q; discriminate Q]].
Qed.
Lemma bin_values_go_on : forall fuel, goes_on false (m_bin_values fuel) (bin_values fuel).
Proof.
  induction fuel as [|f IH]; intros n h acc s O L res E; [discriminate E|]. cbn [bin_values m_bin_values] in *. unfold mbind.
  destruct (bin_step_reads h s) as (o & x & s2 & Em & Er & Ok1). rewrite Em. rewrite Er in E.
  destruct o as [[i|]|e|]; cbn [omap option_map] in E.
  - specialize (Ok1 _ eq_refl). cbn in Ok1. destruct O as [OF OP].
    assert (E' : bin_values f (map (deref (h ++ x)) (i :: acc)) s2 = Some res). { cbn [map]. rewrite (deref_list_app false n) by exact OF. exact E. }
    destruct (IH n (h ++ x) (i :: acc) s2 (owns_cons _ _ _ _ _ _ (conj OF OP) Ok1 L) ltac:(rewrite app_length; lia) res E') as (o & y & s3 & Em3 & -> & Ok3).
    exists o, (x ++ y), s3. rewrite app_assoc. auto.
  - injection E as <-. eexists _, x, _. split; [reflexivity|]. split; [cbn [omap]; rewrite map_rev, (deref_list_app false n) by apply O; reflexivity|].
    intros l Q. injection Q as <-. apply owns_rev, owns_app. exact O.
  - injection E as <-. eexists _, x, _. split; [reflexivity|split; [reflexivity|intros ? Q; discriminate Q]].
  - injection E as <-. eexists _, x, _. split; [reflexivity|split; [reflexivity|intros ? Q; discriminate Q]].
Qed.
Lemma owns_nil : forall b n h, owns b n h [].
Proof. intros. split; constructor. Qed.

Lemma text_getmulti_reads : forall name, reads (owns true) (fun h => map (deref h)) (m_text_getmulti_resp name) (text_getmulti_resp name).
Proof.
  intros name h s. unfold m_text_getmulti_resp, text_getmulti_resp. destruct (text_values (S (length s)) [] s) as [res|] eqn:E; [|destruct (text_values_fuel s [] E)].
  destruct (text_values_go_on (S (length s)) (length h) h [] s (owns_nil _ _ _) (le_n _) res E) as (o & x & s' & Em & -> & O). unfold mbind. rewrite Em.
  destruct o as [l|e|]; cbn [omap]; (eexists _, x, _; split; [reflexivity|]); [|split; [reflexivity|intros ? Q; discriminate Q]|split; [reflexivity|intros ? Q; discriminate Q]].
  split. { cbn [omap]. rewrite !map_map. reflexivity. }
  intros l' Q. injection Q as <-. destruct (O l eq_refl) as [OF OP]. split.
  - apply Forall_map. eapply Forall_impl; [|exact OF]. intros i Oi. exact Oi.
  - clear -OP. induction OP as [|i l Fi P IH]; cbn; constructor; [|exact IH]. apply Forall_map. eapply Forall_impl; [|exact Fi]. intros j D. exact D.
Qed.
Lemma meta_getmulti_reads : reads (owns true) (fun h => map (deref h)) m_meta_getmulti_resp meta_getmulti_resp.
Proof.
  intros h s. unfold m_meta_getmulti_resp, meta_getmulti_resp. destruct (meta_values (S (length s)) [] s) as [res|] eqn:E; [|destruct (meta_values_fuel s [] E)].
  destruct (meta_values_go_on (S (length s)) (length h) h [] s (owns_nil _ _ _) (le_n _) res E) as (o & x & s' & Em & -> & O). eauto 8.
Qed.
Lemma bin_getmulti_reads : reads (owns false) (fun h => map (deref h)) m_bin_getmulti_resp bin_getmulti_resp.
Proof.
  intros h s. unfold m_bin_getmulti_resp, bin_getmulti_resp. destruct (bin_values (S (length s)) [] s) as [res|] eqn:E; [|destruct (bin_values_fuel s [] E)].
  destruct (bin_values_go_on (S (length s)) (length h) h [] s (owns_nil _ _ _) (le_n _) res E) as (o & x & s' & Em & -> & O). eauto 8.
Qed.

(** ** Requests *)
Lemma text_line_same : forall cmd h i tail, Forall (valid h) (item_slices i) ->
  m_text_line cmd h i tail = cmd ++ B " " ++ it_key (deref h i) ++ B " " ++ dec (text_flags (deref h i)) ++ B " " ++ dec (it_exp (deref h i))
  ++ B " " ++ dec (zlen (it_value (deref h i))) ++ tail ++ crlf.
Proof.
  intros cmd h i tail V. unfold m_text_line, deref. cbn [it_key it_exp it_value]. inversion V as [|? ? V1 V2]; subst.
  unfold zlen. rewrite contents_length by exact V1. do 5 f_equal. unfold m_text_flags, text_flags; cbn [it_flags].
  destruct (mi_flags i) as [f|]; [|reflexivity]. inversion V2 as [|? ? V3 _]; subst. cbn [option_map]. unfold zlen. rewrite contents_length by exact V3. reflexivity.
Qed.
Lemma plain_req_same : forall cmd h i, Forall (valid h) (item_slices i) -> m_plain_req cmd h i = Ok (text_store_req cmd (deref h i)).
Proof.
  intros cmd h i V. unfold m_plain_req, text_store_req. rewrite text_line_same by exact V. f_equal. cbn [store_writes snd concat]. rewrite app_nil_r, app_nil_l.
  cbn [it_value deref]. rewrite <- !app_assoc. reflexivity.
Qed.
(** The flags of an item of the binary client are complete, or there is nothing behind them. *)
Definition flags_complete (k : kind) (o : mop) : Prop :=
  match k, o with
  | KBinary, (MSet i | MAdd i | MReplace i) => match mi_flags i with Some f => 4 <= s_len f \/ s_cap f < 4 | None => True end
  | _, _ => True
  end.
Lemma set_req_same : forall k grown h i, Forall (valid h) (item_slices i) -> k <> KBinary ->
  snd (m_set_req k grown h i) = fst (cl_req (client_of k) reset_header (OSet (deref h i))).
Proof.
  intros k grown h i V N. inversion V as [|? ? V1 V2]; subst. destruct k as [n| |]; [| |congruence]; cbn [m_set_req client_of cl_req text_client meta_client fst text_req meta_req].
  - pose proof (C27_value_and_crlf_are_sent TextSet grown h (mi_value i) V1 (or_introl eq_refl)) as W. destruct (store_writes TextSet grown h (mi_value i)) as [h' ws]. cbn [snd] in *. subst ws.
    rewrite !text_line_same by exact V. unfold text_set_req, text_store_req. cbn [it_cas deref]. f_equal. cbn [concat]. rewrite app_nil_r.
    destruct (0 <? mi_cas i)%Z; rewrite <- ?app_assoc; cbn [app]; rewrite <- ?app_assoc; reflexivity.
  - pose proof (C27_value_and_crlf_are_sent MetaSet grown h (mi_value i) V1 (or_intror eq_refl)) as W. destruct (store_writes MetaSet grown h (mi_value i)) as [h' ws]. cbn [snd] in *. subst ws.
    unfold meta_set_req. unfold deref at 1 2 3 4 5 6 7 8 9 10. cbn [it_key it_value it_exp it_cas it_flags]. unfold zlen. rewrite !contents_length by exact V1.
    destruct (mi_flags i) as [f|]; cbn [option_map].
    + inversion V2 as [|? ? V3 _]; subst. rewrite contents_length by exact V3. destruct (Z.of_nat (s_len f) <? 4)%Z; [reflexivity|]. cbn [snd concat]. rewrite app_nil_r. f_equal.
    + cbn [snd concat]. rewrite app_nil_r. f_equal. 
Qed.

Lemma bin_req_same : forall opc h i, Forall (valid h) (item_slices i) ->
  match mi_flags i with Some f => 4 <= s_len f \/ s_cap f < 4 | None => True end ->
  m_bin_store_req opc h i = bin_store_req opc (deref h i).
Proof.
  intros opc h i V G. inversion V as [|? ? V1 V2]; subst. unfold m_bin_store_req, bin_store_req, m_store_header, store_header.
  cbn [deref it_key it_value it_exp it_cas it_flags]. unfold zlen. rewrite contents_length by exact V1. cbn [store_writes snd concat]. rewrite app_nil_r.
  destruct (mi_flags i) as [f|]; cbn [option_map]; [|reflexivity]. inversion V2 as [|? ? V3 _]; subst. rewrite contents_length by exact V3. f_equal.
  unfold reslice. destruct V3 as (Va & Vl & Vc). destruct (Z.ltb_spec (Z.of_nat (s_len f)) 4) as [Q|Q].
  - destruct (Z.leb_spec 4 (Z.of_nat (s_cap f))); [lia|]. reflexivity.
  - destruct (Z.leb_spec 4 (Z.of_nat (s_cap f))); [|lia]. cbn [Z.leb Z.compare andb]. f_equal. f_equal. f_equal. unfold contents. cbn [s_len s_off s_arr]. change (Z.to_nat (4 - 0)) with 4. change (Z.to_nat 0) with 0. rewrite Nat.add_0_r.
    rewrite firstn_firstn. f_equal. lia.
Qed.
Lemma req_same : forall k grown h rh o, op_ok h o -> flags_complete k o ->
  snd (m_req k grown h rh o) = cl_req (client_of k) rh (deref_op h o).
Proof.
  intros k grown h rh o [V Oo] G.
  destruct o as [key|ks|i|i|i|o]; try (destruct k; reflexivity); cbn [op_slices] in V.
  - destruct k as [n| |]; cbn [m_req].
    + pose proof (set_req_same (KText n) grown h i V ltac:(discriminate)) as E. destruct (m_set_req (KText n) grown h i) as [h' r]. cbn [snd] in *. rewrite E. reflexivity.
    + pose proof (set_req_same KMeta grown h i V ltac:(discriminate)) as E. destruct (m_set_req KMeta grown h i) as [h' r]. cbn [snd] in *. rewrite E. reflexivity.
    + cbn [snd]. apply bin_req_same; [exact V|exact G].
  - destruct k as [n| |]; cbn [m_req snd]; [rewrite plain_req_same by exact V; reflexivity|rewrite plain_req_same by exact V; reflexivity|apply bin_req_same; [exact V|exact G]].
  - destruct k as [n| |]; cbn [m_req snd]; [rewrite plain_req_same by exact V; reflexivity|rewrite plain_req_same by exact V; reflexivity|apply bin_req_same; [exact V|exact G]].
Qed.

(** ** Replies *)
Definition ascii_kind (k : kind) : bool := match k with KBinary => false | _ => true end.
Definition own_result (b : bool) (n : nat) (h : heap) (r : mresult) : Prop :=
  match r with MRItem i => own b n h i | MRItems l => owns b n h l | MROther _ => True end.
Lemma item_reads : forall b m r, reads (own b) deref m r -> reads (own_result b) deref_result (i <+ m ;; mret (MRItem i)) (rmap RItem r).
Proof.
  intros b m r H h s. destruct (H h s) as (o & x & s' & E & R & O). unfold mbind, rmap, bind. rewrite E, R.
  destruct o as [i|e|]; (eexists _, x, s'; split; [reflexivity|split; [reflexivity|]]); intros a Q; [|discriminate Q|discriminate Q]. injection Q as <-. exact (O i eq_refl).
Qed.
Lemma items_reads : forall b m r, reads (owns b) (fun h => map (deref h)) m r -> reads (own_result b) deref_result (l <+ m ;; mret (MRItems l)) (rmap RItems r).
Proof.
  intros b m r H h s. destruct (H h s) as (o & x & s' & E & R & O). unfold mbind, rmap, bind. rewrite E, R.
  destruct o as [i|e|]; (eexists _, x, s'; split; [reflexivity|split; [reflexivity|]]); intros a Q; [|discriminate Q|discriminate Q]. injection Q as <-. exact (O i eq_refl).
Qed.
Lemma plain_reads : forall b r, reads (own_result b) deref_result (a <+ pure r ;; mret (MROther a)) r.
Proof.
  intros b r h s. unfold mbind, pure. destruct (r s) as [[a|e|] s']; (eexists _, [], s'; rewrite app_nil_r; split; [reflexivity|split; [reflexivity|]]); intros a' Q; [|discriminate Q|discriminate Q]. injection Q as <-. exact Logic.I.
Qed.
Lemma resp_reads : forall k h o, op_ok h o -> reads (own_result (ascii_kind k)) deref_result (m_resp k o) (cl_resp (client_of k) (deref_op h o)).
Proof.
  intros k h o [_ Oo]. destruct o as [key|ks|i|i|i|o]; cbn [deref_op].
  - destruct k as [n| |]; cbn [m_resp client_of cl_resp text_client meta_client bin_client text_resp meta_resp bin_resp ascii_kind]; apply item_reads; [apply text_get_reads|apply meta_get_reads|apply bin_get_reads].
  - destruct k as [n| |]; cbn [m_resp client_of cl_resp text_client meta_client bin_client text_resp meta_resp bin_resp ascii_kind]; apply items_reads; [apply text_getmulti_reads|apply meta_getmulti_reads|apply bin_getmulti_reads].
  - destruct k; apply plain_reads.
  - destruct k; apply plain_reads.
  - destruct k; apply plain_reads.
  - destruct k; apply plain_reads.
Qed.

(** ** What a step does to memory *)
(** Arrays are never removed or resized. *)
Definition extends (h h' : heap) : Prop :=
  length h <= length h' /\ forall a, a < length h -> length (array h' a) = length (array h a).
Lemma extends_refl : forall h, extends h h.
Proof. intro h. split; auto. Qed.
Lemma extends_trans : forall h h' h'', extends h h' -> extends h' h'' -> extends h h''.
Proof. intros h h' h'' [L1 A1] [L2 A2]. split; [lia|]. intros a La. rewrite A2, A1 by lia. reflexivity. Qed.
Lemma extends_app : forall h x, extends h (h ++ x).
Proof. intros h x. split; [rewrite app_length; lia|]. intros a La. rewrite array_app_l by exact La. reflexivity. Qed.
Lemma valid_extends : forall h h' s, extends h h' -> valid h s -> valid h' s.
Proof. intros h h' s [L A] (Va & Vl & Vc). unfold valid. rewrite A by exact Va. repeat split; lia. Qed.
Lemma set_array_length : forall h a b, length (set_array h a b) = length h.
Proof. induction h as [|x h IH]; intros [|a] b; cbn; [reflexivity|reflexivity|reflexivity|rewrite IH; reflexivity]. Qed.
Lemma extends_write : forall h a i d, a < length h -> i + length d <= length (array h a) -> extends h (set_array h a (write_at (array h a) i d)).
Proof.
  intros h a i d La Li. split; [rewrite set_array_length; lia|]. intros a' La'. destruct (Nat.eq_dec a a') as [<-|N].
  - rewrite array_set_same by exact La. apply length_write_at. exact Li.
  - rewrite array_set_other by exact N. reflexivity.
Qed.
(** The window [lo, hi) of array [a]. *)
Definition apart (a lo hi : nat) (t : slice) : Prop := s_arr t <> a \/ s_off t + s_len t <= lo \/ hi <= s_off t.
Lemma contents_nth : forall h h' t, (forall j, s_off t <= j < s_off t + s_len t -> nth j (array h' (s_arr t)) "000"%char = nth j (array h (s_arr t)) "000"%char) ->
  length (array h' (s_arr t)) = length (array h (s_arr t)) -> contents h' t = contents h t.
Proof.
  intros h h' t H L. unfold contents. apply nth_ext with (d := "000"%char) (d' := "000"%char).
  - rewrite !firstn_length, !skipn_length, L. reflexivity.
  - intros j Hj. rewrite firstn_length, skipn_length in Hj.
    assert (G : forall l, nth j (firstn (s_len t) (skipn (s_off t) l)) "000"%char = nth (s_off t + j) l "000"%char).
    { intro l. rewrite <- (firstn_skipn (s_off t + s_len t) l) at 2. destruct (Nat.le_gt_cases (length l) (s_off t + j)) as [Q|Q].
      - rewrite !nth_overflow; [reflexivity|rewrite app_length, firstn_length, skipn_length; lia|rewrite firstn_length, skipn_length; lia].
      - rewrite app_nth1 by (rewrite firstn_length; lia). rewrite firstn_skipn_comm. rewrite <- (firstn_skipn (s_off t) (firstn _ l)) at 2.
        rewrite app_nth2; rewrite firstn_length, firstn_length; [|lia]. f_equal. lia. }
    rewrite !G. apply H. lia.
Qed.
Lemma write_apart : forall h a i d t, a < length h -> i + length d <= length (array h a) -> apart a i (i + length d) t ->
  contents (set_array h a (write_at (array h a) i d)) t = contents h t.
Proof.
  intros h a i d t La Li Q. destruct (Nat.eq_dec (s_arr t) a) as [E|N].
  - destruct Q as [Q|Q]; [congruence|]. apply contents_nth; rewrite E, array_set_same by exact La.
    + intros j Hj. apply nth_write_at; [exact Li|lia].
    + apply length_write_at. exact Li.
  - unfold contents. rewrite array_set_other by congruence. reflexivity.
Qed.
Lemma append_frame : forall grown h s d, valid h s -> extends h (fst (append grown h s d))
  /\ forall t, valid h t -> (s_cap s < s_len s + length d \/ apart (s_arr s) (s_off s + s_len s) (s_off s + s_len s + length d) t) -> contents (fst (append grown h s d)) t = contents h t.
Proof.
  intros grown h s d (Va & Vl & Vc). unfold append. destruct (Nat.leb_spec (s_len s + length d) (s_cap s)) as [Q|Q]; cbn [fst].
  - split; [apply extends_write; lia|]. intros t Vt [G|G]; [lia|]. apply write_apart; [exact Va|lia|exact G].
  - split; [apply extends_app|]. intros t Vt _. apply contents_app. exact Vt.
Qed.

(** The event writes nothing inside the window of [t]. *)
Definition spares (k : kind) (t : slice) (e : mevent) : Prop :=
  match e with
  | ECall (MSet i) _ =>
      k = KBinary \/ s_cap (mi_value i) < s_len (mi_value i) + 2
      \/ apart (s_arr (mi_value i)) (s_off (mi_value i) + s_len (mi_value i)) (s_off (mi_value i) + s_len (mi_value i) + 2) t
  | EAssign s i _ => s_len s <= i \/ apart (s_arr s) (s_off s + i) (s_off s + i + 1) t
  | EAppend s d _ => s_cap s < s_len s + length d \/ apart (s_arr s) (s_off s + s_len s) (s_off s + s_len s + length d) t
  | _ => True
  end.
Lemma store_heap : forall c grown h s, (c = TextSet \/ c = MetaSet) -> fst (store_writes c grown h s) = fst (append grown h s crlf).
Proof. intros c grown h s [-> | ->]; unfold store_writes; destruct (append grown h s crlf); reflexivity. Qed.
Lemma req_frame : forall k grown h rh o, op_ok h o -> extends h (fst (m_req k grown h rh o))
  /\ forall t, valid h t -> spares k t (ECall o grown) -> contents (fst (m_req k grown h rh o)) t = contents h t.
Proof.
  intros k grown h rh o [V _].
  assert (N : fst (m_req k grown h rh o) = h \/ (exists i, o = MSet i /\ k <> KBinary /\ fst (m_req k grown h rh o) = fst (append grown h (mi_value i) crlf))).
  { destruct o as [key|ks|i|i|i|o]; try (left; destruct k; reflexivity). destruct k as [n| |]; [| |left; reflexivity].
    - right. exists i. split; [reflexivity|split; [discriminate|]]. cbn [m_req m_set_req]. rewrite <- (store_heap TextSet) by auto. destruct (store_writes TextSet grown h (mi_value i)). reflexivity.
    - cbn [m_req m_set_req]. assert (E : fst (store_writes MetaSet grown h (mi_value i)) = fst (append grown h (mi_value i) crlf)) by (apply store_heap; auto).
      destruct (store_writes MetaSet grown h (mi_value i)) as [h' ws]. cbn [fst] in E. destruct (mi_flags i) as [f|].
      + destruct (Z.of_nat (s_len f) <? 4)%Z; [left; reflexivity|right]. exists i. split; [reflexivity|split; [discriminate|exact E]].
      + right. exists i. split; [reflexivity|split; [discriminate|exact E]]. }
  destruct N as [-> | (i & -> & Nk & ->)]; [split; [apply extends_refl|auto]|].
  inversion V as [|? ? V1 _]; subst. destruct (append_frame grown h (mi_value i) crlf V1) as [X F]. split; [exact X|]. intros t Vt [S|S]; [congruence|]. apply F; assumption.
Qed.
Lemma own_result_items : forall b n h r, own_result b n h r -> owns b n h (items_of (Ok r)).
Proof. intros b n h [i|l|r] H; cbn [items_of own_result] in *; [split; [constructor; [exact H|constructor]|constructor; constructor]|exact H|apply owns_nil]. Qed.
Lemma mcall_frame : forall k grown h l o h' l' r, op_ok h o -> mcall k grown h l o = (h', l', r) -> extends h h'
  /\ (forall t, valid h t -> spares k t (ECall o grown) -> contents h' t = contents h t) /\ owns (ascii_kind k) (length h) h' (items_of r).
Proof.
  intros k grown h l o h' l' r O E. unfold mcall in E. destruct (req_frame k grown h (l_header l) o O) as [X F]. destruct (m_req k grown h (l_header l) o) as [h1 [rq hd]]. cbn [fst] in X, F.
  destruct rq as [rq|e|].
  - destruct (daemon (cl_wire (client_of k)) (l_cache l) (l_pending l ++ rq)) as [[c' reply] pending'].
    destruct (resp_reads k h o O h1 (l_unread l ++ reply)) as (o' & x & s' & Em & _ & Ow). rewrite Em in E. injection E as <- <- <-.
    split; [eapply extends_trans; [exact X|apply extends_app]|]. split.
    + intros t Vt S. rewrite contents_app; [apply F; assumption|eapply valid_extends; [exact X|exact Vt]].
    + destruct o' as [a|e|]; [|apply owns_nil|apply owns_nil]. specialize (Ow a eq_refl). apply own_result_items in Ow. destruct Ow as [OF OP]. split; [|exact OP].
      eapply Forall_impl; [|exact OF]. intros i. apply own_le. apply X.
  - injection E as <- <- <-. split; [exact X|split; [exact F|apply owns_nil]].
  - injection E as <- <- <-. split; [exact X|split; [exact F|apply owns_nil]].
Qed.
Lemma mstep_frame : forall k h l e h' l' rs, event_ok h e -> mstep k h l e = (h', l', rs) -> extends h h'
  /\ (forall t, valid h t -> spares k t e -> contents h' t = contents h t) /\ owns (ascii_kind k) (length h) h' (returned rs).
Proof.
  intros k h l e h' l' rs [V O] E. destruct e as [o grown|d|s i c|s d grown|b]; cbn [mstep] in E.
  - destruct (mcall k grown h l o) as [[h1 l1] r] eqn:C. injection E as <- <- <-. cbn [returned flat_map]. rewrite app_nil_r. eapply mcall_frame; [exact O|exact C].
  - injection E as <- <- <-. split; [apply extends_refl|split; [auto|apply owns_nil]].
  - injection E as <- <- <-. inversion V as [|? ? V1 _]; subst. destruct V1 as (Va & Vl & Vc). unfold assign. destruct (Nat.ltb_spec i (s_len s)) as [Q|Q].
    + split; [apply extends_write; cbn; lia|]. split; [|apply owns_nil]. intros t Vt [S|S]; [lia|]. apply write_apart; [exact Va|cbn; lia|exact S].
    + split; [apply extends_refl|split; [auto|apply owns_nil]].
  - injection E as <- <- <-. inversion V as [|? ? V1 _]; subst. destruct (append_frame grown h s d V1) as [X F]. split; [exact X|split; [exact F|apply owns_nil]].
  - injection E as <- <- <-. split; [apply extends_app|split; [|apply owns_nil]]. intros t Vt _. apply contents_app. exact Vt.
Qed.
Lemma owns_extends : forall b n h h' l, extends h h' -> owns b n h l -> owns b n h' l.
Proof.
  intros b n h h' l X [F P]. split; [|exact P]. eapply Forall_impl; [|exact F]. intros i (V & N & Fl). split; [eapply valid_extends; eassumption|split; [exact N|]].
  destruct (mi_flags i) as [f|]; [|exact Logic.I]. destruct Fl as (F1 & F2). split; [eapply valid_extends; eassumption|exact F2].
Qed.
Lemma owns_join : forall b n h h' l l', owns b n h l -> owns b (length h) h' l' -> extends h h' -> n <= length h -> owns b n h' (l ++ l').
Proof.
  intros b n h h' l l' [F P] [F' P'] X L. split.
  - apply Forall_app. split; [apply (owns_extends b n h h' l X (conj F P))|]. eapply Forall_impl; [|exact F']. intros i. apply own_le. exact L.
  - clear X L. induction P as [|i l Fi P IH]; [exact P'|]. inversion F as [|? ? O1 F1]; subst. cbn. constructor; [|apply IH; exact F1].
    apply Forall_app. split; [exact Fi|]. eapply Forall_impl; [|exact F']. intros j Oj. eapply own_disjoint; [exact O1|exact Oj|lia].
Qed.
Lemma mrun_frame : forall k evs h l h' l' rs, events_ok k h l evs -> mrun k h l evs = (h', l', rs) -> extends h h'
  /\ (forall t, valid h t -> Forall (spares k t) evs -> contents h' t = contents h t) /\ owns (ascii_kind k) (length h) h' (returned rs).
Proof.
  intros k evs. induction evs as [|e evs IH]; intros h l h' l' rs O E.
  - injection E as <- <- <-. split; [apply extends_refl|split; [auto|apply owns_nil]].
  - cbn [mrun events_ok] in *. destruct O as [O1 O2]. destruct (mstep k h l e) as [[h1 l1] r1] eqn:S1. destruct (mrun k h1 l1 evs) as [[h2 l2] r2] eqn:S2. injection E as <- <- <-.
    destruct (mstep_frame k h l e h1 l1 r1 O1 S1) as (X1 & F1 & W1). destruct (IH h1 l1 h2 l2 r2 O2 S2) as (X2 & F2 & W2).
    split; [eapply extends_trans; eassumption|]. split.
    + intros t Vt S. inversion S as [|? ? Sa Sb]; subst. rewrite F2; [apply F1; assumption|eapply valid_extends; [exact X1|exact Vt]|exact Sb].
    + unfold returned in *. rewrite flat_map_app. eapply owns_join; [|exact W2|exact X2|apply X1]. exact W1.
Qed.
Lemma mrun_app : forall k a b h l, mrun k h l (a ++ b) = let '(h1, l1, r1) := mrun k h l a in let '(h2, l2, r2) := mrun k h1 l1 b in (h2, l2, r1 ++ r2).
Proof.
  intros k a. induction a as [|e a IH]; intros b h l; cbn [app mrun].
  - destruct (mrun k h l b) as [[h2 l2] r2]. reflexivity.
  - destruct (mstep k h l e) as [[h1 l1] r1]. rewrite IH. destruct (mrun k h1 l1 a) as [[h2 l2] r2]. destruct (mrun k h2 l2 b) as [[h3 l3] r3]. rewrite app_assoc. reflexivity.
Qed.
Lemma events_ok_app : forall k a b h l, events_ok k h l (a ++ b) -> events_ok k h l a /\ let '(h1, l1, _) := mrun k h l a in events_ok k h1 l1 b.
Proof.
  intros k a. induction a as [|e a IH]; intros b h l O; cbn [app mrun events_ok] in *; [auto|]. destruct O as [O1 O2]. destruct (mstep k h l e) as [[h1 l1] r1].
  destruct (IH _ _ _ O2) as [Oa Ob]. destruct (mrun k h1 l1 a) as [[h2 l2] r2]. auto.
Qed.
