(** * SinglePool: proofs. *)
From Verif Require Import GoBytes GoNum GoIO Item Cache Spec Hash Ring RingSpec Pool PoolSpec PLib PCache PRing.
Local Open Scope Z_scope.

(** ** Operations on one key depend only on that key. *)
Lemma beq_dec_cases : forall j k : bytes, (beq j k = true /\ j = k) \/ (beq j k = false /\ j <> k).
Proof. intros j k. destruct (beq j k) eqn:E; [left|right]; split; auto; [apply beq_eq|apply beq_neq]; exact E. Qed.

Definition alike (c1 c2 : cache) (k : bytes) : Prop :=
  c_cfg c1 = c_cfg c2 /\ c_now c1 = c_now c2 /\ c_cas c1 = c_cas c2 /\ c_map c1 k = c_map c2 k.
Lemma alike_lookup : forall c1 c2 k, alike c1 c2 k -> lookup c1 k = lookup c2 k.
Proof. intros c1 c2 k (_ & N & _ & M). unfold lookup. rewrite M, N. reflexivity. Qed.
Lemma alike_put : forall c1 c2 k v f x, alike c1 c2 k -> alike (put c1 k v f x) (put c2 k v f x) k.
Proof.
  intros c1 c2 k v f x (A1 & A2 & A3 & A4). unfold alike, put. cbn. repeat split; auto; try congruence.
  unfold put_entry. rewrite beq_refl, A3. reflexivity.
Qed.
Lemma alike_with : forall c1 c2 k e, alike c1 c2 k -> alike (with_map c1 (put_entry (c_map c1) k e)) (with_map c2 (put_entry (c_map c2) k e)) k.
Proof.
  intros c1 c2 k e (A1 & A2 & A3 & A4). unfold alike, with_map. cbn. repeat split; auto.
  unfold put_entry. rewrite beq_refl. reflexivity.
Qed.
Lemma alike_large : forall c1 c2 k v, alike c1 c2 k -> too_large c1 v = too_large c2 v.
Proof. intros c1 c2 k v (A & _). unfold too_large. rewrite A. reflexivity. Qed.
Lemma alike_delta : forall up c1 c2 k d, alike c1 c2 k ->
  snd (cache_delta up c1 k d) = snd (cache_delta up c2 k d) /\ alike (fst (cache_delta up c1 k d)) (fst (cache_delta up c2 k d)) k.
Proof.
  intros up c1 c2 k d A. unfold cache_delta. rewrite (alike_lookup _ _ _ A).
  destruct (lookup c2 k) as [e|]; [|split; [reflexivity|exact A]].
  destruct (counter_value (e_value e)); [|split; [reflexivity|exact A]]. split; [reflexivity|]. apply alike_put. exact A.
Qed.
Lemma alike_spec_delta : forall pr up c1 c2 k d e, alike c1 c2 k ->
  snd (spec_delta pr up c1 k d e) = snd (spec_delta pr up c2 k d e)
  /\ alike (fst (spec_delta pr up c1 k d e)) (fst (spec_delta pr up c2 k d e)) k.
Proof.
  intros pr up c1 c2 k d e A. unfold spec_delta. rewrite (alike_lookup _ _ _ A).
  destruct (alike_delta up c1 c2 k d A) as [E1 E2]. destruct A as (A1 & A2 & A3 & A4). rewrite A2.
  destruct pr, (lookup c2 k); cbn [fst snd]; rewrite ?E1; split; auto. apply alike_put. repeat split; assumption.
Qed.
Lemma spec_alike : forall pr name c1 c2 o k, op_key o = Some k -> alike c1 c2 k ->
  snd (spec_step pr name c1 o) = snd (spec_step pr name c2 o)
  /\ alike (fst (spec_step pr name c1 o)) (fst (spec_step pr name c2 o)) k.
Proof.
  intros pr name c1 c2 o k K A. assert (L := alike_lookup _ _ _ A). assert (A' := A). destruct A' as (A1 & A2 & A3 & A4).
  destruct o; cbn [op_key] in K; inversion K; subst; clear K; cbn [spec_step fst snd].
  - rewrite L. split; [|exact A]. destruct (lookup c2 k) as [e|]; [|reflexivity]. unfold item_view, ttl. rewrite A2. reflexivity.
  - destruct (it_cas i =? 0); unfold cache_set, cache_cas; rewrite (alike_large _ _ _ (it_value i) A).
    + destruct (too_large c2 (it_value i)); cbn [fst snd]; split; auto; [apply alike_with|rewrite A2; apply alike_put]; exact A.
    + destruct (too_large c2 (it_value i)); cbn [fst snd]; [split; auto|]. rewrite L. destruct (lookup c2 (it_key i)) as [e|]; cbn [fst snd]; [|split; auto].
      destruct (e_cas e =? it_cas i); cbn [fst snd]; split; auto. rewrite A2. apply alike_put; exact A.
  - unfold cache_add; rewrite (alike_large _ _ _ (it_value i) A).
    destruct (too_large c2 (it_value i)); cbn [fst snd]; [split; auto|]. rewrite L. destruct (lookup c2 (it_key i)) as [e|]; cbn [fst snd]; split; auto.
    rewrite A2. apply alike_put; exact A.
  - unfold cache_replace; rewrite (alike_large _ _ _ (it_value i) A).
    destruct (too_large c2 (it_value i)); cbn [fst snd]; [split; auto|]. rewrite L. destruct (lookup c2 (it_key i)) as [e|]; cbn [fst snd]; split; auto.
    rewrite A2. apply alike_put; exact A.
  - unfold cache_delete. rewrite L. destruct (lookup c2 k); cbn [fst snd]; split; auto. apply alike_with. exact A.
  - apply alike_spec_delta. exact A.
  - apply alike_spec_delta. exact A.
  - unfold cache_touch. rewrite L, A2. destruct (lookup c2 k) as [e|]; cbn [fst snd]; split; auto. apply alike_with. exact A.
Qed.
Lemma put_other : forall c k v f x j, j <> k -> c_map (put c k v f x) j = c_map c j.
Proof. intros c k v f x j N. unfold put, put_entry. cbn. apply beq_neq in N. rewrite N. reflexivity. Qed.
Lemma with_other : forall c k e j, j <> k -> c_map (with_map c (put_entry (c_map c) k e)) j = c_map c j.
Proof. intros c k e j N. unfold put_entry. cbn. apply beq_neq in N. rewrite N. reflexivity. Qed.
Lemma delta_other : forall pr up c k d e j, j <> k -> c_map (fst (spec_delta pr up c k d e)) j = c_map c j.
Proof.
  intros pr up c k d e j N. unfold spec_delta. destruct pr, (lookup c k) eqn:L; cbn [fst]; try (apply put_other; exact N);
    unfold cache_delta; rewrite L; try reflexivity; destruct (counter_value (e_value e0)); cbn [fst]; try reflexivity; apply put_other; exact N.
Qed.
Lemma spec_other : forall pr name c o k j, op_key o = Some k -> j <> k -> c_map (fst (spec_step pr name c o)) j = c_map c j.
Proof.
  intros pr name c o k j K N. destruct o; cbn [op_key] in K; inversion K; subst; clear K; cbn [spec_step fst].
  - reflexivity.
  - destruct (it_cas i =? 0); unfold cache_set, cache_cas; destruct (too_large c (it_value i)); cbn [fst].
    + apply with_other. exact N.
    + apply put_other. exact N.
    + reflexivity.
    + destruct (lookup c (it_key i)) as [e|]; [|reflexivity]. destruct (e_cas e =? it_cas i); [|reflexivity]. apply put_other. exact N.
  - unfold cache_add. destruct (too_large c (it_value i)); [reflexivity|]. destruct (lookup c (it_key i)); [reflexivity|]. apply put_other. exact N.
  - unfold cache_replace. destruct (too_large c (it_value i)); [reflexivity|]. destruct (lookup c (it_key i)); [|reflexivity]. apply put_other. exact N.
  - unfold cache_delete. destruct (lookup c k); [|reflexivity]. apply with_other. exact N.
  - apply delta_other. exact N.
  - apply delta_other. exact N.
  - unfold cache_touch. destruct (lookup c k); [|reflexivity]. apply with_other. exact N.
Qed.
Lemma now_spec_step : forall pr name c o, c_now (fst (spec_step pr name c o)) = c_now c.
Proof.
  intros pr name c o. destruct o; simpl; auto.
  - destruct (it_cas i =? 0); unfold cache_set, cache_cas; destruct (too_large c (it_value i)); auto;
      destruct (lookup c (it_key i)) as [o|]; auto. destruct (e_cas o =? it_cas i); auto.
  - unfold cache_add. destruct (too_large c (it_value i)); auto. destruct (lookup c (it_key i)); auto.
  - unfold cache_replace. destruct (too_large c (it_value i)); auto. destruct (lookup c (it_key i)); auto.
  - unfold cache_delete. destruct (lookup c k); auto.
  - unfold spec_delta. destruct pr, (lookup c k) eqn:L; cbn [fst]; auto; unfold cache_delta; rewrite L; auto;
      destruct (counter_value (e_value e)); auto.
  - unfold spec_delta. destruct pr, (lookup c k) eqn:L; cbn [fst]; auto; unfold cache_delta; rewrite L; auto;
      destruct (counter_value (e_value e)); auto.
  - unfold cache_touch. destruct (lookup c k); auto.
Qed.

(** The server's name only shows in the Server field. *)
Definition hide_sres (s : sres) : sres := match s with SOk r => SOk (hide r) | s => s end.
Lemma hide_spec : forall pr n1 n2 c o, hide_sres (snd (spec_step pr n1 c o)) = hide_sres (snd (spec_step pr n2 c o)).
Proof.
  intros pr n1 n2 c o. destruct o; try reflexivity; cbn [spec_step snd].
  - destruct (lookup c k); reflexivity.
  - cbn [hide_sres hide]. do 2 f_equal. induction ks as [|k ks IH]; [reflexivity|]. cbn [flat_map]. rewrite !map_app, IH.
    f_equal. destruct (lookup c k); reflexivity.
Qed.
Lemma fst_spec_name : forall pr n1 n2 c o, fst (spec_step pr n1 c o) = fst (spec_step pr n2 c o).
Proof. intros. destruct o; reflexivity. Qed.
Lemma matches_hide : forall s1 s2 o, hide_sres s1 = hide_sres s2 -> matches s1 o -> matches s2 o.
Proof.
  intros [r1|e1|] [r2|e2|] o E M; cbn in E; inversion E; subst; destruct o; cbn in *; congruence.
Qed.
Lemma agrees_matches : forall s o, agrees s o -> matches s o.
Proof. intros [r|e|] [r'|e'|] A; cbn in *; subst; auto. Qed.

(** ** The server map *)
Lemma existsb_name : forall s rest, existsb (fun t => beq (sv_name t) (sv_name s)) rest = true -> In (sv_name s) (map sv_name rest).
Proof.
  intros s rest H. apply existsb_exists in H. destruct H as (t & I & E). apply beq_eq in E. rewrite <- E. apply in_map. exact I.
Qed.
Lemma map_entries_nodup : forall servers, NoDup (map sv_name servers) -> map_entries servers = servers.
Proof.
  induction servers as [|s rest IH]; intro N; [reflexivity|]. inversion N; subst. cbn [map_entries].
  destruct (existsb (fun t => beq (sv_name t) (sv_name s)) rest) eqn:E.
  - exfalso. apply H1. apply existsb_name. exact E.
  - f_equal. apply IH. assumption.
Qed.
Lemma map_entries_in : forall servers s, In s (map_entries servers) -> In s servers.
Proof.
  induction servers as [|t rest IH]; intros s I; [exact I|]. cbn [map_entries] in I.
  destruct (existsb _ rest); [right; auto|]. destruct I as [->|I]; [left; reflexivity|right; auto].
Qed.
Lemma find_server_ok : forall servers s, NoDup (map sv_name servers) -> In s servers -> find_server servers (sv_name s) = Some s.
Proof.
  intros servers s N I. unfold find_server. apply in_rev in I. assert (N' : NoDup (map sv_name (rev servers))).
  { rewrite map_rev. apply Permutation_NoDup with (l := map sv_name servers); [apply Permutation_rev|exact N]. }
  revert I N'. generalize (rev servers). induction l as [|t l IH]; intros I N'; [contradiction|]. cbn [find].
  inversion N'; subst. destruct (beq (sv_name t) (sv_name s)) eqn:E.
  - apply beq_eq in E. destruct I as [->|I]; [reflexivity|]. exfalso. apply H1. rewrite E. apply in_map. exact I.
  - destruct I as [->|I]; [rewrite beq_refl in E; discriminate|]. apply IH; assumption.
Qed.
Lemma ring_pick_in : forall servers nodes k, servers <> [] -> NewRing servers nodes -> exists sv, pick nodes k = Ok sv /\ In sv servers.
Proof.
  intros servers nodes key N R. assert (NN := ring_nonempty _ _ R N). destruct R as [P S].
  destruct (pick_hash_in nodes (crc32 key) S NN) as (n & E & I). exists (nd_server n). split; [exact E|].
  apply points_server. eapply Permutation_in; eassumption.
Qed.

(** ** Each *)
Section Each.
Context {ST : Type}.
Lemma upd_same : forall (w : world ST) i s, upd w i s i = s.
Proof. intros. unfold upd. rewrite Nat.eqb_refl. reflexivity. Qed.
Lemma upd_other : forall (w : world ST) i s j, j <> i -> upd w i s j = w j.
Proof. intros. unfold upd. apply Nat.eqb_neq in H. rewrite H. reflexivity. Qed.
(** [f] is a per-server action. *)
Variable f : ST -> ST * outcome unit.
Definition act (w : world ST) (sv : server) : world ST * outcome unit :=
  let sr := f (w (sv_id sv)) in (upd w (sv_id sv) (fst sr), snd sr).
Lemma each_ok : forall order w w', NoDup (map sv_id order) -> each act order w = (w', Ok tt) ->
  (forall sv, In sv order -> snd (f (w (sv_id sv))) = Ok tt /\ w' (sv_id sv) = fst (f (w (sv_id sv))))
  /\ (forall i, ~ In i (map sv_id order) -> w' i = w i).
Proof.
  induction order as [|s rest IH]; intros w w' N E; cbn [each] in E.
  - inversion E; subst. split; [contradiction|]. reflexivity.
  - inversion N; subst. unfold act in E at 1. destruct (f (w (sv_id s))) as [st [[]|e|]] eqn:F; cbn [fst snd] in E; try discriminate E.
    destruct (IH _ _ H2 E) as [G1 G2]. split.
    + intros sv [->|I].
      * rewrite F. cbn [fst snd]. split; [reflexivity|]. rewrite G2 by assumption. apply upd_same.
      * destruct (G1 sv I) as [A1 A2]. rewrite upd_other in A1, A2; [split; assumption| |];
          intro Q; apply H1; rewrite <- Q; apply in_map; exact I.
    + intros i I. cbn [map In] in I. rewrite G2 by tauto. apply upd_other. intro Q. apply I. left. auto.
Qed.
Lemma each_all_ok : forall order w, NoDup (map sv_id order) -> (forall sv, In sv order -> snd (f (w (sv_id sv))) = Ok tt) ->
  snd (each act order w) = Ok tt.
Proof.
  induction order as [|s rest IH]; intros w N A; [reflexivity|]. cbn [each]. unfold act at 1. inversion N; subst.
  pose proof (A s (or_introl eq_refl)) as As. destruct (f (w (sv_id s))) as [st o] eqn:F. cbn [fst snd] in *. subst o.
  apply IH; [assumption|]. intros sv I. rewrite upd_other; [apply A; right; exact I|]. intro Q. apply H1. rewrite <- Q. apply in_map. exact I.
Qed.
(** A failing call returns the failure of one of the servers. *)
Lemma each_err : forall order w, NoDup (map sv_id order) -> snd (each act order w) <> Ok tt ->
  exists sv, In sv order /\ snd (each act order w) = snd (f (w (sv_id sv))).
Proof.
  induction order as [|s rest IH]; intros w N E; [exfalso; apply E; reflexivity|]. cbn [each] in *. unfold act at 1 in E. unfold act at 1. inversion N; subst.
  destruct (f (w (sv_id s))) as [st [[]|e|]] eqn:F; cbn [fst snd] in *.
  - destruct (IH _ H2 E) as (sv & I & Q). exists sv. split; [right; exact I|]. rewrite Q. rewrite upd_other; [reflexivity|].
    intro X. apply H1. rewrite <- X. apply in_map. exact I.
  - exists s. split; [left; reflexivity|]. rewrite F. reflexivity.
  - exists s. split; [left; reflexivity|]. rewrite F. reflexivity.
Qed.
End Each.

Lemma each_ext : forall ST (f g : world ST -> server -> world ST * outcome unit), (forall w s, f w s = g w s) ->
  forall order w, each f order w = each g order w.
Proof.
  intros ST f g H. induction order as [|s rest IH]; intro w; [reflexivity|]. cbn [each]. rewrite H.
  destruct (g w s) as [w' [[]|e|]]; auto.
Qed.
Definition unit_of (p : outcome result) : outcome unit := match p with Ok _ => Ok tt | Err e => Err e | Panic => Panic end.
Lemma pool_flush_act : forall ST (step : ST -> op -> ST * outcome result) order w,
  pool_flush step order w = each (act (fun s => (fst (step s OFlush), unit_of (snd (step s OFlush))))) order w.
Proof. intros. unfold pool_flush. apply each_ext. intros w0 s. reflexivity. Qed.

(** ** The pool simulates one cache *)
Section Simulation.
Context {ST : Type}.
Variable pr : proto.
Variable step : ST -> op -> ST * outcome result.
Variable pass : ST -> Z -> ST.
Variable rep : bytes -> ST -> cache -> Prop.
Hypothesis rep_step : forall name s c o, rep name s c -> wf pr c -> c_cas c + 1 < cas_bound pr -> legal pr o ->
  rep name (fst (step s o)) (fst (spec_step pr name c o)) /\ matches (snd (spec_step pr name c o)) (snd (step s o)).
Hypothesis rep_pass : forall name s c d, rep name s c -> rep name (pass s d) (tick c d).
Variable servers : list server.
Variable nodes : list node.
Hypothesis Ne : servers <> [].
Hypothesis Ring : NewRing servers nodes.
Hypothesis Names : NoDup (map sv_name servers).
Hypothesis Ids : NoDup (map sv_id servers).

Definition inv (n : Z) (w : world ST) (cw : nat -> cache) (c : cache) (last : bytes -> Z) : Prop :=
  (forall sv, In sv servers -> rep (sv_name sv) (w (sv_id sv)) (cw (sv_id sv)) /\ wf pr (cw (sv_id sv))
     /\ c_cfg (cw (sv_id sv)) = c_cfg c /\ c_now (cw (sv_id sv)) = c_now c /\ c_cas (cw (sv_id sv)) + n < cas_bound pr)
  /\ (forall k sv, pick nodes k = Ok sv -> c_map (cw (sv_id sv)) k = c_map c k /\ last k <= c_cas (cw (sv_id sv))).

Lemma id_inj : forall a b, In a servers -> In b servers -> sv_id a = sv_id b -> a = b.
Proof.
  intros a b. revert Ids. clear. induction servers as [|s l IH]; intros N Ia Ib E; [contradiction|]. inversion N; subst.
  destruct Ia as [->|Ia], Ib as [->|Ib]; auto.
  - exfalso. apply H1. rewrite E. apply in_map. exact Ib.
  - exfalso. apply H1. rewrite <- E. apply in_map. exact Ia.
Qed.

Lemma simulation : forall evs w rs, pool_run step pass servers nodes w evs rs -> forall cw c last,
  Forall (legal_event pr) evs -> inv (zlen evs) w cw c last ->
  exists ss, one_cache pr c last evs ss /\ Forall2 matches ss rs.
Proof.
  intros evs w rs R. induction R as [w|w o k w' r evs rs K Rt R IH|w order w' u evs rs Po Fl R IH|w d evs rs R IH]; intros cw c last L [I1 I2].
  - exists []. split; constructor.
  - inversion L as [|? ? Lo Levs]; subst. cbn [legal_event] in Lo. rewrite zlen_cons in I1. pose proof (zlen_nonneg _ evs) as Zn.
    destruct (ring_pick_in servers nodes k Ne Ring) as (sv & Pk & Isv). unfold routed, server_call in Rt. rewrite Pk in Rt.
    destruct (I1 sv Isv) as (Rep & W & Cf & Nw & Cs). destruct (I2 k sv Pk) as [Mk Lk].
    destruct (rep_step _ _ _ o Rep W ltac:(lia) Lo) as [Rep' M]. destruct (step (w (sv_id sv)) o) as [st out] eqn:St. cbn [fst snd] in *.
    inversion Rt; subst. clear Rt.
    set (n := c_cas (cw (sv_id sv))). assert (A : alike (cw (sv_id sv)) (with_cas c n) k) by (repeat split; cbn; auto).
    destruct (spec_alike pr [] _ _ o k K A) as [Es As].
    set (cw' := fun i => if Nat.eqb i (sv_id sv) then fst (spec_step pr (sv_name sv) (cw (sv_id sv)) o) else cw i).
    destruct (IH cw' (fst (spec_step pr [] (with_cas c n) o))
      (fun j => if beq j k then c_cas (fst (spec_step pr [] (with_cas c n) o)) else last j) Levs) as (ss & Oc & F2).
    { split.
      - intros t It. rewrite cfg_spec_step, now_spec_step. cbn [with_cas c_cfg c_now]. unfold cw'. destruct (Nat.eqb (sv_id t) (sv_id sv)) eqn:E.
        + apply Nat.eqb_eq in E. assert (t = sv) by (apply id_inj; assumption). subst t. rewrite upd_same, cfg_spec_step, now_spec_step.
          split; [exact Rep'|]. split; [apply wf_spec_step; assumption|]. split; [exact Cf|]. split; [exact Nw|].
          pose proof (cas_spec_step pr (sv_name sv) (cw (sv_id sv)) o). lia.
        + apply Nat.eqb_neq in E. rewrite upd_other by exact E. destruct (I1 t It) as (T1 & T2 & T3 & T4 & T5).
          split; [exact T1|]. split; [exact T2|]. split; [exact T3|]. split; [exact T4|]. lia.
      - intros j t Pj. unfold cw'. destruct (beq_dec_cases j k) as [[Ej ->]|[Ej Nj]].
        + rewrite Pk in Pj. inversion Pj; subst t. rewrite Nat.eqb_refl, Ej. rewrite (fst_spec_name pr (sv_name sv) []).
          destruct As as (_ & _ & As1 & As2). split; [exact As2|]. rewrite As1. lia.
        + rewrite Ej. rewrite (spec_other pr [] (with_cas c n) o k j K Nj). cbn [with_cas c_map]. destruct (I2 j t Pj) as [Mj Lj].
          destruct (Nat.eqb (sv_id t) (sv_id sv)) eqn:E; [|split; assumption].
          apply Nat.eqb_eq in E. rewrite E in *. rewrite (spec_other pr (sv_name sv) (cw (sv_id sv)) o k j K Nj). split; [exact Mj|].
          pose proof (cas_spec_step pr (sv_name sv) (cw (sv_id sv)) o). lia. }
    exists (snd (spec_step pr [] (with_cas c n) o) :: ss). split.
    + apply oc_key with (k := k); [exact K| |exact Oc]. unfold n. lia.
    + constructor; [|exact F2]. rewrite <- Es. eapply matches_hide; [|exact M]. apply hide_spec.
  - inversion L as [|? ? Lo Levs]; subst. rewrite zlen_cons in I1. pose proof (zlen_nonneg _ evs) as Zn.
    rewrite map_entries_nodup in Po by exact Names.
    assert (No : NoDup (map sv_id order)).
    { apply Permutation_NoDup with (l := map sv_id servers); [apply Permutation_map, Permutation_sym; exact Po|exact Ids]. }
    assert (In_o : forall sv, In sv order <-> In sv servers).
    { intro sv. split; apply Permutation_in; [exact Po|apply Permutation_sym; exact Po]. }
    rewrite pool_flush_act in Fl.
    assert (Hok : forall sv, In sv servers -> unit_of (snd (step (w (sv_id sv)) OFlush)) = Ok tt
              /\ rep (sv_name sv) (fst (step (w (sv_id sv)) OFlush)) (cache_flush (cw (sv_id sv)))).
    { intros sv Isv. destruct (I1 sv Isv) as (Rep & W & Cf & Nw & Cs). destruct (rep_step _ _ _ OFlush Rep W ltac:(lia) Logic.I) as [Rep' M].
      cbn [spec_step fst snd] in *. split; [|exact Rep']. destruct (snd (step (w (sv_id sv)) OFlush)); cbn in *; [reflexivity|contradiction|contradiction]. }
    assert (u = Ok tt).
    { pose proof (each_all_ok (fun s => (fst (step s OFlush), unit_of (snd (step s OFlush)))) order w No) as G.
      rewrite Fl in G. cbn [snd] in G. apply G. intros sv Iv. cbn [snd]. apply Hok. apply In_o. exact Iv. }
    subst u. destruct (each_ok _ _ _ _ No Fl) as [G1 G2].
    destruct (IH (fun i => cache_flush (cw i)) (cache_flush c) last Levs) as (ss & Oc & F2).
    { split.
      - intros sv Isv. destruct (I1 sv Isv) as (Rep & W & Cf & Nw & Cs). destruct (G1 sv (proj2 (In_o sv) Isv)) as [_ G]. cbn [fst] in G. rewrite G.
        split; [apply Hok; exact Isv|]. split; [change (cache_flush (cw (sv_id sv))) with (fst (spec_step pr [] (cw (sv_id sv)) OFlush)); apply wf_spec_step; [exact W|exact Logic.I]|].
        cbn. repeat split; auto. lia.
      - intros k sv Pk. cbn. split; [reflexivity|]. apply I2. exact Pk. }
    exists (SOk RUnit :: ss). split; [constructor; exact Oc|]. constructor; [reflexivity|exact F2].
  - inversion L as [|? ? Lo Levs]; subst. cbn [legal_event] in Lo. rewrite zlen_cons in I1.
    destruct (IH (fun i => tick (cw i) d) (tick c d) last Levs) as (ss & Oc & F2).
    { split.
      - intros sv Isv. destruct (I1 sv Isv) as (Rep & W & Cf & Nw & Cs). split; [apply rep_pass; exact Rep|]. split; [apply wf_tick; assumption|].
        cbn. repeat split; auto; [congruence|lia].
      - intros k sv Pk. cbn. apply I2. exact Pk. }
    exists ss. split; [constructor; exact Oc|exact F2].
Qed.
End Simulation.
