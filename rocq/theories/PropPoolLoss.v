(** * Property C96: a SinglePool some of whose servers are lost. *)
From Verif Require Import GoBytes GoNum GoIO Item ClientText ClientMeta ClientBinary Cache Daemon Spec Call Guard
  Hash Ring RingSpec RingData Pool PoolSpec ReplicaSpec RouterFail PoolLoss PLib PCache PText PClient PRing PPool PMulti PropRing PropPool.
Local Open Scope Z_scope.

(** ** Specification *)
Definition calls_of (evs : list event) : list op := flat_map (fun ev => match ev with Do o => [o] | Wait _ => [] end) evs.
(** The calls that concern server [i]. *)
Definition concerns (nodes : list node) (i : nat) (o : op) : bool :=
  match op_key o with Some k => match pick nodes k with Ok sv => Nat.eqb (sv_id sv) i | _ => false end | None => false end.
Definition calls_to (nodes : list node) (i : nat) (os : list op) : nat := length (filter (concerns nodes i) os).
Definition is_fine (f : call_fault) : bool := match f with Fine => true | _ => false end.
(** Its connection is in order for its first [n] calls. *)
Definition in_order (faults : list call_fault) (n : nat) : bool := forallb is_fine (firstn n faults).
Definition on_keys (ev : event) : Prop := match ev with Do o => op_key o <> None | Wait _ => True end.

(** ** Proofs *)
Section Loss.
Context {ST : Type}.
Variable step : ST -> op -> ST * outcome result.
Variable pass : ST -> Z -> ST.
Variable servers : list server.
Variable nodes : list node.
Hypothesis Ne : servers <> [].
Hypothesis R : NewRing servers nodes.

Lemma keys_run : forall evs fw rs, pool_run (flaky_step step) (flaky_pass pass) servers nodes fw evs rs -> forall w rs0, pool_run step pass servers nodes w evs rs0 ->
  Forall on_keys evs -> (forall i, fl_up (fw i) = true -> fl_state (fw i) = w i) ->
  forall n o k sv, nth_error (calls_of evs) n = Some o -> op_key o = Some k -> pick nodes k = Ok sv ->
  nth_error rs n = if fl_up (fw (sv_id sv)) && in_order (fl_faults (fw (sv_id sv))) (calls_to nodes (sv_id sv) (firstn (S n) (calls_of evs)))
                   then nth_error rs0 n else Some (Err EIO).
Proof.
  intros evs fw rs H. induction H as [fw|fw o k fw' r evs rs K E H IH|fw order fw' u evs rs P E H IH|fw d evs rs H IH]; intros w rs0 H0 F I n o' k' sv N K' Pk.
  - destruct n; discriminate N.
  - inversion F as [|? ? Fo F']; subst. clear F. inversion H0 as [|? ? k0 w1 r0 ? rs1 K0 E0 H1|? order w1 u ? ? P0 E0 H1|]; subst; [|discriminate K].
    rewrite K in K0. injection K0 as <-. unfold routed in E, E0.
    destruct (pick nodes k) as [t|e|] eqn:Pt; [|exfalso; destruct (ring_pick_in servers nodes k Ne R) as (t & Q & _); congruence|exfalso; destruct (ring_pick_in servers nodes k Ne R) as (t & Q & _); congruence].
    unfold server_call in E, E0. apply pair_equal_spec in E, E0. destruct E as [<- <-]. destruct E0 as [<- <-].
    assert (C : forall j, concerns nodes j o = Nat.eqb (sv_id t) j) by (intro j; unfold concerns; rewrite K, Pt; reflexivity).
    cbn [calls_of flat_map app firstn] in *.
    destruct n as [|n].
    + cbn [nth_error firstn] in *. injection N as <-. rewrite K in K'. injection K' as <-. rewrite Pt in Pk. injection Pk as <-.
      unfold calls_to. cbn [filter length]. rewrite C, Nat.eqb_refl. cbn [filter length]. unfold in_order, flaky_step.
      specialize (I (sv_id t)). destruct (fw (sv_id t)) as [st up fs]. cbn [fl_up fl_state fl_faults] in *. destruct up; [|reflexivity]. rewrite I by reflexivity.
      destruct fs as [|[] fs]; reflexivity.
    + cbn [nth_error] in *. 
      assert (I' : forall i, fl_up (upd fw (sv_id t) (fst (flaky_step step (fw (sv_id t)) o)) i) = true ->
        fl_state (upd fw (sv_id t) (fst (flaky_step step (fw (sv_id t)) o)) i) = upd w (sv_id t) (fst (step (w (sv_id t)) o)) i).
      { intros i U. destruct (Nat.eq_dec i (sv_id t)) as [->|D]; [|rewrite upd_other in U |- * by exact D; rewrite upd_other by exact D; apply I; exact U].
        rewrite upd_same in U |- *. rewrite upd_same. specialize (I (sv_id t)). unfold flaky_step in *. destruct (fw (sv_id t)) as [st up fs]. cbn [fl_up fl_state fl_faults] in *.
        destruct up; [|discriminate U]. rewrite <- I by reflexivity. destruct fs as [|[] fs]; try reflexivity; discriminate U. }
      rewrite (IH _ _ H1 F' I' n o' k' sv N K' Pk). unfold calls_to. cbn [filter]. rewrite C.
      destruct (Nat.eqb_spec (sv_id t) (sv_id sv)) as [Q|Q].
      * rewrite <- Q, upd_same. cbn [length]. unfold flaky_step, in_order. destruct (fw (sv_id t)) as [st up fs]. cbn [fl_up fl_state fl_faults].
        destruct up; [|reflexivity]. destruct fs as [|[] fs]; [rewrite firstn_nil; reflexivity|reflexivity|reflexivity|reflexivity].
      * rewrite upd_other by congruence. reflexivity.
  - inversion F as [|? ? Fo F']; subst. exfalso. apply Fo. reflexivity.
  - inversion F as [|? ? Fo F']; subst. inversion H0; subst. cbn [calls_of flat_map app] in *.
    rewrite (IH _ _ ltac:(eassumption) F' (fun i U => f_equal (fun s => pass s d) (I i U)) n o' k' sv N K' Pk). reflexivity.
Qed.
End Loss.

(** ** C96 *)
(** A history of single-key calls, any time between them, on a pool whose connections meet any faults:
    a call returns exactly what it returns if no connection is ever lost, as long as its own server's
    connection is in order; otherwise it fails. What happens to the other servers does not matter. *)
Theorem C96_a_lost_server_costs_its_own_keys : forall ST (step : ST -> op -> ST * outcome result) pass servers nodes w faults evs rs rs0,
  good_pool servers nodes -> Forall on_keys evs ->
  pool_run (flaky_step step) (flaky_pass pass) servers nodes (with_faults w faults) evs rs ->
  pool_run step pass servers nodes w evs rs0 ->
  forall n o k sv, nth_error (calls_of evs) n = Some o -> op_key o = Some k -> pick nodes k = Ok sv ->
  nth_error rs n = if in_order (faults (sv_id sv)) (calls_to nodes (sv_id sv) (firstn (S n) (calls_of evs)))
                   then nth_error rs0 n else Some (Err EIO).
Proof.
  intros ST step pass servers nodes w faults evs rs rs0 (Ne & R & _) F H H0 n o k sv N K P.
  exact (keys_run step pass servers nodes Ne R evs _ rs H w rs0 H0 F (fun i _ => eq_refl) n o k sv N K P).
Qed.
Print Assumptions C96_a_lost_server_costs_its_own_keys.

(** With text servers: what the calls on the keys of the other servers return is what one single cache returns. *)
Theorem C96_the_rest_is_one_cache : forall servers nodes cf now w faults evs rs,
  good_pool servers nodes -> wf_config cf -> 0 <= now -> zlen evs < 2 ^ 64 ->
  (forall sv, In sv servers -> exists h, w (sv_id sv) = (sv_name sv, fresh_link (empty_cache cf now) h)) ->
  Forall (legal_event PText) evs -> Forall on_keys evs ->
  pool_run (flaky_step text_server) (flaky_pass text_pass) servers nodes (with_faults w faults) evs rs ->
  exists ss, one_cache PText (empty_cache cf now) (fun _ => 0) evs ss
    /\ forall n o k sv, nth_error (calls_of evs) n = Some o -> op_key o = Some k -> pick nodes k = Ok sv ->
       if in_order (faults (sv_id sv)) (calls_to nodes (sv_id sv) (firstn (S n) (calls_of evs)))
       then exists s r, nth_error ss n = Some s /\ nth_error rs n = Some r /\ matches s r
       else nth_error rs n = Some (Err EIO).
Proof.
  intros servers nodes cf now w faults evs rs GP Wc Nw Le Hw L F H.
  destruct (pool_run_exists _ text_server text_pass servers nodes evs w) as [rs0 H0].
  { eapply Forall_impl; [|exact F]. intros [o|d] Q; [left; exact Q|exact I]. }
  destruct (C05_pool_of_text_servers_is_one_cache servers nodes cf now w evs rs0 GP Wc Nw Le Hw L H0) as (ss & One & M). exists ss. split; [exact One|].
  intros n o k sv N K P. pose proof (C96_a_lost_server_costs_its_own_keys _ _ _ _ _ _ _ _ _ _ GP F H H0 n o k sv N K P) as E.
  destruct (in_order _ _); [|exact E]. 
  assert (Ln : length rs0 = length (calls_of evs)).
  { clear - H0. induction H0 as [w|w o k w' r evs rs K E H IH|w order w' u evs rs P E H IH|w d evs rs H IH]; cbn [calls_of flat_map app length]; [reflexivity|f_equal; exact IH|f_equal; exact IH|exact IH]. }
  assert (B : (n < length rs0)%nat) by (rewrite Ln; apply nth_error_Some; congruence).
  destruct (nth_error rs0 n) as [r|] eqn:E0; [|apply nth_error_None in E0; lia].
  clear - M E E0. revert n E0 E. generalize (nth_error rs). intros f n E0 E. revert n f E0 E. induction M as [|s x ss rs0 Mx M IH]; intros n f E0 E; [destruct n; discriminate E0|].
  destruct n as [|n]; cbn [nth_error] in *; [exists s, r; injection E0 as ->; auto|]. apply (IH n (fun m => f (S m)) E0 E).
Qed.
Print Assumptions C96_the_rest_is_one_cache.

(** ** What the lost server itself has done *)
(** The state of one server after these calls and times. *)
Fixpoint alone {S : Type} (step : S -> op -> S * outcome result) (pass : S -> Z -> S) (s : S) (evs : list event) : S :=
  match evs with
  | [] => s
  | Do o :: evs' => alone step pass (fst (step s o)) evs'
  | Wait d :: evs' => alone step pass (pass s d) evs'
  end.
(** The first [n] calls and all times of a history. *)
Fixpoint first_calls (n : nat) (evs : list event) : list event :=
  match evs with
  | [] => []
  | Wait d :: evs' => Wait d :: first_calls n evs'
  | Do o :: evs' => match n with O => first_calls O evs' | S m => Do o :: first_calls m evs' end
  end.
Lemma alone_lost : forall ST (step : ST -> op -> ST * outcome result) pass evs s fs,
  alone (flaky_step step) (flaky_pass pass) (mkFlaky s false fs) evs = mkFlaky (alone step pass s (first_calls 0 evs)) false fs.
Proof. intros ST step pass evs. induction evs as [|[o|d] evs IH]; intros s fs; cbn [alone first_calls]; [reflexivity| |]; apply IH. Qed.
(** A server whose connection is lost at its call number [n], before or after the request has arrived, has
    executed its first [n] calls, or that one too, and no call after it; its clock goes on. *)
Theorem C96_what_a_lost_server_has_done : forall ST (step : ST -> op -> ST * outcome result) pass evs s n fault fs, fault <> Fine ->
  fl_state (alone (flaky_step step) (flaky_pass pass) (mkFlaky s true (repeat Fine n ++ fault :: fs)) evs)
  = alone step pass s (first_calls (match fault with LostAfter => S n | _ => n end) evs).
Proof.
  intros ST step pass evs. induction evs as [|[o|d] evs IH]; intros s n fault fs N.
  - reflexivity.
  - destruct n as [|n]; cbn [repeat app alone first_calls]; unfold flaky_step at 2; cbn [fl_up fl_faults fl_state tl].
    + destruct fault; [contradiction| |]; cbn [fst]; rewrite alone_lost; reflexivity.
    + cbn [fst]. rewrite (IH _ n fault fs N). destruct fault; reflexivity.
  - cbn [alone]. unfold flaky_pass at 2. cbn [fl_up fl_faults fl_state]. rewrite (IH _ n fault fs N). destruct fault; reflexivity.
Qed.
Print Assumptions C96_what_a_lost_server_has_done.

(** ** Calls on several keys or on all servers *)
Section All.
Context {ST : Type}.
Variable step : ST -> op -> ST * outcome result.
Definition lost (s : flaky ST) : Prop := fl_up s = false.

(** GetMulti with a key of a lost server returns no item at all. *)
Theorem C96_getmulti_with_a_lost_key_fails : forall servers nodes w ks w' r k sv,
  good_pool servers nodes -> pool_getmulti (flaky_step step) servers nodes w ks w' r ->
  In k ks -> pick nodes k = Ok sv -> lost (w (sv_id sv)) -> forall items, r <> Ok items.
Proof.
  intros servers nodes w ks w' r k sv GP H Ik P L items ->.
  destruct (C06_getmulti_asks_each_owner_once _ _ _ _ _ _ _ _ GP H) as (_ & Ok_ & _). destruct (Ok_ items eq_refl) as [_ All].
  destruct GP as (Ne & R & _). destruct (ring_pick_in servers nodes k Ne R) as (t & Pt & It). rewrite P in Pt. injection Pt as <-.
  assert (Nn : own_keys nodes sv ks <> []).
  { intro Q. assert (X : In k (own_keys nodes sv ks)); [|rewrite Q in X; destruct X]. unfold own_keys. apply filter_In. split; [exact Ik|]. rewrite P. apply Nat.eqb_refl. }
  destruct (All sv It Nn) as [[l A] _]. unfold answer in A. unfold flaky_step, lost in *. rewrite L in A. discriminate A.
Qed.

(** Flush with a lost server reports an error, and each set of the other servers can be the one that is
    flushed: the servers are visited in the order of a Go map until the lost one is met. *)
Lemma each_until : forall before s after w, NoDup (map sv_id (before ++ s :: after)) ->
  (forall sv, In sv before -> fl_up (w (sv_id sv)) = true /\ fl_faults (w (sv_id sv)) = [] /\ exists x, snd (step (fl_state (w (sv_id sv))) OFlush) = Ok x) ->
  lost (w (sv_id s)) ->
  exists w', pool_flush (flaky_step step) (before ++ s :: after) w = (w', Err EIO)
    /\ (forall sv, In sv before -> fl_state (w' (sv_id sv)) = fst (step (fl_state (w (sv_id sv))) OFlush))
    /\ (forall i, ~ In i (map sv_id before) -> w' i = w i).
Proof.
  unfold pool_flush. induction before as [|t before IH]; intros s after w N U L; cbn [app each map] in *.
  - unfold drop_result, server_call, flaky_step, lost in *. rewrite L. cbn [fst snd]. eexists. split; [reflexivity|]. split; [intros sv []|].
    intros i _. unfold upd. destruct (Nat.eqb_spec i (sv_id s)); [subst; reflexivity|reflexivity].
  - inversion N as [|? ? Nt N']; subst. destruct (U t (or_introl eq_refl)) as (Up & Fa & x & E).
    assert (D : forall sv, In sv (before ++ s :: after) -> sv_id sv <> sv_id t) by (intros sv I Q; apply Nt; rewrite <- Q; apply in_map; exact I).
    remember (flaky_step step (w (sv_id t)) OFlush) as fs eqn:Ef.
    assert (Es : fl_state (fst fs) = fst (step (fl_state (w (sv_id t))) OFlush) /\ exists y, snd fs = Ok y) by (subst fs; unfold flaky_step; rewrite Up, Fa; split; [reflexivity|exists x; exact E]).
    destruct Es as [Es [y Ey]].
    assert (X : drop_result (server_call (flaky_step step) w t OFlush) = (upd w (sv_id t) (fst fs), Ok tt)).
    { unfold drop_result, server_call. cbv zeta. rewrite <- Ef. cbn [fst snd]. rewrite Ey. reflexivity. }
    rewrite X. clear X.
    destruct (IH s after (upd w (sv_id t) (fst fs)) N') as (w' & E' & A & C).
    + intros sv I. rewrite upd_other by (apply D, in_or_app; left; exact I). apply U. right. exact I.
    + rewrite upd_other by (apply D, in_or_app; right; left; reflexivity). exact L.
    + exists w'. split; [exact E'|]. split.
      * intros sv [<-|I].
        -- rewrite C; [rewrite upd_same; exact Es|]. intro Q. apply Nt. rewrite map_app. apply in_or_app. left. exact Q.
        -- rewrite A by exact I. rewrite upd_other by (apply D, in_or_app; left; exact I). reflexivity.
      * intros i Ni. rewrite C by (intro Q; apply Ni; right; exact Q). apply upd_other. intro Q. apply Ni. left. auto.
Qed.
Theorem C96_flush_with_a_lost_server : forall servers nodes w s (flushed : list server),
  good_pool servers nodes -> In s servers -> lost (w (sv_id s)) ->
  (* it always reports an error *)
  (forall order w' r, Permutation order (map_entries servers) -> pool_flush (flaky_step step) order w = (w', r) -> r <> Ok tt)
  (* and any of the others may be flushed while the rest keep everything *)
  /\ (NoDup flushed -> incl flushed servers ->
      (forall sv, In sv flushed -> fl_up (w (sv_id sv)) = true /\ fl_faults (w (sv_id sv)) = [] /\ exists x, snd (step (fl_state (w (sv_id sv))) OFlush) = Ok x) ->
      exists order w', Permutation order (map_entries servers) /\ pool_flush (flaky_step step) order w = (w', Err EIO)
        /\ (forall sv, In sv flushed -> fl_state (w' (sv_id sv)) = fst (step (fl_state (w (sv_id sv))) OFlush))
        /\ (forall sv, In sv servers -> ~ In sv flushed -> w' (sv_id sv) = w (sv_id sv))).
Proof.
  intros servers nodes w s flushed GP Is L. split.
  - intros order w' r P E. destruct (C07_flush_covers_every_server (flaky_step step) _ _ _ _ _ _ GP P E) as (_ & _ & Bad). apply Bad.
    exists s. split; [exact Is|]. intros x. unfold flaky_step, lost in *. rewrite L. discriminate.
  - intros Nf Inf Up. destruct GP as (Ne & R & Nn & Ni). rewrite map_entries_nodup by exact Nn.
    assert (Ns : ~ In s flushed) by (intro I; destruct (Up s I) as [U _]; unfold lost in L; congruence).
    assert (P : exists after, Permutation (flushed ++ s :: after) servers).
    { assert (Nd : NoDup (s :: flushed)) by (constructor; assumption). assert (In' : incl (s :: flushed) servers) by (intros x [<-|I]; [exact Is|apply Inf; exact I]).
      assert (G : forall (l m : list server), NoDup l -> incl l m -> exists rest, Permutation (l ++ rest) m).
      { clear. induction l as [|x l IH]; intros m N I; [exists m; reflexivity|]. inversion N; subst.
        destruct (in_split x m (I x (or_introl eq_refl))) as (a & b & ->).
        destruct (IH (a ++ b)) as (rest & P); [assumption| |exists rest; cbn [app]; transitivity (x :: a ++ b); [constructor; exact P|apply Permutation_middle]].
        intros y Iy. assert (Q := I y (or_intror Iy)). apply in_app_or in Q. apply in_or_app. destruct Q as [Q|[->|Q]]; [left; exact Q|contradiction|right; exact Q]. }
      destruct (G _ _ Nd In') as (after & P). exists after. transitivity (s :: flushed ++ after); [symmetry; apply Permutation_middle|exact P]. }
    destruct P as (after & P). assert (No : NoDup (map sv_id (flushed ++ s :: after))).
    { apply Permutation_NoDup with (l := map sv_id servers); [apply Permutation_map, Permutation_sym; exact P|exact Ni]. }
    destruct (each_until flushed s after w No Up L) as (w' & E & A & C). exists (flushed ++ s :: after), w'. split; [exact P|]. split; [exact E|]. split; [exact A|].
    intros sv Iv Nv. apply C. intro Q. apply in_map_iff in Q. destruct Q as (t & Et & It). apply Nv.
    assert (X : t = sv); [|subst; exact It]. apply (id_inj servers Ni); [apply Inf; exact It|exact Iv|exact Et].
Qed.
End All.
Print Assumptions C96_getmulti_with_a_lost_key_fails.
Print Assumptions C96_flush_with_a_lost_server.

(** GetMulti of keys of servers whose connections are up and stay so: what it returns on servers that
    cannot be lost. *)
Theorem C96_getmulti_of_the_others : forall ST (step : ST -> op -> ST * outcome result) servers nodes fw w ks fw' r,
  good_pool servers nodes ->
  (forall k sv, In k ks -> pick nodes k = Ok sv -> fl_up (fw (sv_id sv)) = true /\ fl_faults (fw (sv_id sv)) = [] /\ fl_state (fw (sv_id sv)) = w (sv_id sv)) ->
  pool_getmulti (flaky_step step) servers nodes fw ks fw' r ->
  exists w', pool_getmulti step servers nodes w ks w' r.
Proof.
  intros ST step servers nodes fw w ks fw' r (Ne & R & Nn & Ni) Up H.
  apply (pool_getmulti_iff (flaky_step step) servers nodes Ne R Nn Ni) in H. destruct H as (order & Po & E).
  assert (X : exists w', run_groups step servers w (map (fun sv => (sv_name sv, own_keys nodes sv ks)) order) [] = (w', r)).
  { assert (U : forall sv, In sv order -> In sv servers /\ fl_up (fw (sv_id sv)) = true /\ fl_faults (fw (sv_id sv)) = [] /\ fl_state (fw (sv_id sv)) = w (sv_id sv)).
    { intros sv I. apply (Permutation_in _ Po) in I. apply filter_In in I. destruct I as [I A]. split; [exact I|]. apply asked_spec in A.
      destruct (own_keys nodes sv ks) as [|k l] eqn:Ek; [contradiction|]. assert (Ik : In k (own_keys nodes sv ks)) by (rewrite Ek; left; reflexivity).
      apply filter_In in Ik. destruct Ik as [Ik P]. destruct (pick nodes k) as [t|e|] eqn:Pt; try discriminate P. apply Nat.eqb_eq in P.
      destruct (ring_pick_in servers nodes k Ne R) as (t' & Pt' & It). rewrite Pt in Pt'. injection Pt' as <-.
      assert (Q : t = sv) by (apply (id_inj servers Ni); assumption). subst t. exact (Up k sv Ik Pt). }
    clear Po Up. revert fw w E U. generalize (@nil item). induction order as [|s order IH]; intros acc fw w E U; cbn [map run_groups] in *; [injection E as _ <-; eexists; reflexivity|].
    destruct (U s (or_introl eq_refl)) as (Is & U1 & U2 & U3). rewrite (find_server_ok servers s Nn Is) in *. unfold server_call in *.
    assert (F : flaky_step step (fw (sv_id s)) (OGetMulti (own_keys nodes s ks)) = (mkFlaky (fst (step (w (sv_id s)) (OGetMulti (own_keys nodes s ks)))) true [], snd (step (w (sv_id s)) (OGetMulti (own_keys nodes s ks))))).
    { unfold flaky_step. rewrite U1, U2, U3. reflexivity. }
    rewrite F in E. cbn [fst snd] in E. clear F. destruct (step (w (sv_id s)) (OGetMulti (own_keys nodes s ks))) as [st o]. cbn [fst snd] in *.
    destruct o as [[i|l| |n|v]|e|]; try (injection E as _ <-; eexists; reflexivity).
    apply (IH _ _ _ E). intros sv I. destruct (U sv (or_intror I)) as (V & V1 & V2 & V3). split; [exact V|].
    destruct (Nat.eq_dec (sv_id sv) (sv_id s)) as [Q|Q]; [rewrite Q, !upd_same; auto|rewrite !upd_other by exact Q; auto]. }
  destruct X as [w' X]. exists w'. apply (pool_getmulti_iff step servers nodes Ne R Nn Ni). exists order. split; [exact Po|exact X].
Qed.
Print Assumptions C96_getmulti_of_the_others.

(** The full property for these calls: what is left of the pool goes on working. *)
Definition getmulti_returns_what_is_left : Prop := forall servers nodes w up ks w' r,
  good_pool servers nodes -> pool_getmulti (flaky_step text_server) servers nodes (fun i => mkFlaky (w i) (up i) []) ks w' r ->
  exists items, r = Ok items.
Lemma getmulti_exists : forall ST (step : ST -> op -> ST * outcome result) servers nodes w ks, good_pool servers nodes ->
  exists w' r, pool_getmulti step servers nodes w ks w' r.
Proof.
  intros ST step servers nodes w ks (Ne & R & Nn & Ni).
  destruct (run_groups step servers w (map (fun sv => (sv_name sv, own_keys nodes sv ks)) (filter (asked nodes ks) servers)) []) as [w' r] eqn:E.
  exists w', r. apply (pool_getmulti_iff step servers nodes Ne R Nn Ni). eexists. split; [apply Permutation_refl|exact E].
Qed.
Theorem C96_getmulti_returns_what_is_left_refuted : ~ getmulti_returns_what_is_left.
Proof.
  intro H. set (w := fun i : nat => (if Nat.eqb i 0 then B "a" else B "b", fresh_link (empty_cache demo_cfg 100) reset_header)).
  set (up := fun i : nat => negb (Nat.eqb i 0)). set (fw := fun i => mkFlaky (w i) (up i) []).
  assert (X : exists w' r, pool_getmulti (flaky_step text_server) [sv_a; sv_b] (new_ring [sv_a; sv_b]) fw [B "hello"; B "x"] w' r) by (apply getmulti_exists; exact (proj1 C05_met)).
  destruct X as (w' & r & X). destruct (H _ _ w up _ _ _ (proj1 C05_met) X) as [items Q].
  refine (C96_getmulti_with_a_lost_key_fails text_server _ _ _ _ _ _ (B "x") sv_a (proj1 C05_met) X _ _ _ items Q).
  - right. left. reflexivity.
  - exact (proj2 (proj2 (proj2 C01_met))).
  - reflexivity.
Qed.
Print Assumptions C96_getmulti_returns_what_is_left_refuted.
Definition flush_reaches_what_is_left : Prop := forall ST (step : ST -> op -> ST * outcome result) servers nodes w order w' r,
  good_pool servers nodes -> Permutation order (map_entries servers) -> pool_flush (flaky_step step) order w = (w', r) ->
  forall sv, In sv servers -> fl_up (w (sv_id sv)) = true -> fl_faults (w (sv_id sv)) = [] ->
  fl_state (w' (sv_id sv)) = fst (step (fl_state (w (sv_id sv))) OFlush).
Definition one_down : world (flaky (nat * bool)) := fun i => mkFlaky (0%nat, true) (negb (Nat.eqb i 0)) [].
Theorem C96_flush_reaches_what_is_left_refuted : ~ flush_reaches_what_is_left.
Proof.
  intro H. destruct (proj2 (C96_flush_with_a_lost_server count_or_fail [sv_a; sv_b] (new_ring [sv_a; sv_b]) one_down sv_a [] (proj1 C05_met) (or_introl eq_refl) eq_refl))
    as (order & w' & P & E & _ & K); [constructor|intros x []|intros x []|].
  assert (X := H _ _ _ _ _ _ _ _ (proj1 C05_met) P E sv_b (or_intror (or_introl eq_refl)) eq_refl eq_refl).
  rewrite (K sv_b) in X; [discriminate X|right; left; reflexivity|intros []].
Qed.
Print Assumptions C96_flush_reaches_what_is_left_refuted.

(** The hypotheses are met: six calls on two servers, of which the first loses its connection at its
    second call. *)
Definition loss_history : list event :=
  [Do (demo_set "x" "1" 0); Do (demo_set "hello" "2" 0); Do (OIncr (B "x") 5 0); Wait 3; Do (OGet (B "hello")); Do (OGet (B "x"))].
Example C96_met : good_pool [sv_a; sv_b] (new_ring [sv_a; sv_b]) /\ Forall on_keys loss_history /\ Forall (legal_event PText) loss_history
  /\ (forall w, exists rs, pool_run (flaky_step text_server) (flaky_pass text_pass) [sv_a; sv_b] (new_ring [sv_a; sv_b]) (with_faults w (fun i => if Nat.eqb i 0 then [Fine; LostAfter] else [])) loss_history rs)
  /\ pick (new_ring [sv_a; sv_b]) (B "hello") = Ok sv_b /\ pick (new_ring [sv_a; sv_b]) (B "x") = Ok sv_a
  /\ in_order [Fine; LostAfter] 1 = true /\ in_order [Fine; LostAfter] 2 = false
  /\ snd (flaky_step text_server (mkFlaky (B "a", fresh_link (empty_cache demo_cfg 100) reset_header) true [Fine; LostAfter]) (OGet (B "x"))) = Err ENotFound
  /\ lost (one_down 0%nat) /\ fl_up (one_down 1%nat) = true.
Proof.
  split; [apply C05_met|]. split; [repeat constructor; discriminate|]. split; [apply legal_events_ok; vm_compute; reflexivity|].
  split; [intro w; apply pool_run_exists; repeat constructor; cbn; try discriminate; auto; left; discriminate|].
  split; [exact (proj1 (proj2 (proj2 C01_met)))|]. split; [exact (proj2 (proj2 (proj2 C01_met)))|].
  split; [reflexivity|]. split; [reflexivity|]. split; [vm_compute; reflexivity|]. split; reflexivity.
Qed.
