(** * C102: every goroutine that uses a shared SinglePool can finish. *)
From Verif Require Import GoBytes GoNum GoIO Item ClientText ClientMeta ClientBinary Cache Daemon Spec Call Guard Exact Ring RingSpec Pool PoolSpec.
From Verif Require Import PLib RingData PDaemon PStream PCache PText PClient PropClient PropExact PropReply PReply PropWriter PLifecycle PropLifecycle Conc PropConc PropHandler PRing PropRing PPool PMulti PropPool PoolConc PropPoolConc TimeConc PropTimeConc TimePool PropTimePool ManyConc PropManyConc ManyProto PropManyProto PropManyEnds TimeProto PropTimeProto.
Local Open Scope nat_scope.

Lemma vs_trans : forall cl v u w, vsteps cl v u -> vsteps cl u w -> vsteps cl v w.
Proof. intros cl v u w A B. induction B as [u|u x w B IH S]; [exact A|]. exact (vs_step _ _ _ _ (IH A) S). Qed.
Lemma lift_silent : forall cl p L j s', silent (cl j) (ps_server p j) s' ->
  exists p', vsteps cl (p, L) (p', L) /\ ps_server p' j = s' /\ ps_at p' = ps_at p /\ ps_prog p' = ps_prog p.
Proof.
  intros cl p L j s' S. remember (ps_server p j) as s eqn:E. revert p E. induction S as [s|s u w St Lg S IH]; intros p E.
  - exists p. split; [apply vs_refl|]. split; [symmetry; exact E|]. split; reflexivity.
  - subst s. destruct (IH (mkP (put_at (ps_server p) j u) (ps_at p) (ps_prog p) (ps_log p))) as (p' & A & B & C & D); [cbn [ps_server]; rewrite put_same; reflexivity|].
    exists p'. split; [|split; [exact B|split; [exact C|exact D]]]. eapply vs_front; [|exact A]. apply V_inside; assumption.
Qed.
Lemma explained_no_io : forall pr name M c t j o r, explained_exactly pr name c M -> In (Effect t j o r) M -> r <> Err EIO.
Proof.
  intros pr name M. induction M as [|[[t0 j0 o0|t0 j0 o0 r0|d]|u i x y] M IH]; intros c t j o r Ex H; [destruct H| | | |]; cbn [explained_exactly] in Ex.
  - destruct H as [H|H]; [discriminate H|exact (IH _ _ _ _ _ Ex H)].
  - destruct H as [H|H]; [discriminate H|exact (IH _ _ _ _ _ Ex H)].
  - destruct H as [H|H]; [discriminate H|exact (IH _ _ _ _ _ Ex H)].
  - destruct Ex as [A Ex]. destruct H as [H|H]; [|exact (IH _ _ _ _ _ Ex H)]. injection H as -> -> -> ->. exact (effect_not_io _ _ _ _ _ _ A).
Qed.
Lemma makes_then_makes : forall p l q, makes p l q -> forall l' q', makes q l' q' -> makes p (l ++ l') q'.
Proof. intros p l q M. induction M as [p|j o k r l q M IH]; intros l' q' M'; [exact M'|]. cbn [app]. constructor. exact (IH _ _ M'). Qed.

Section Finish.
Variables (pr : nat -> proto) (name : nat -> bytes) (c : nat -> cache) (h : nat -> req_header) (progs : nat -> prog).
Let cl (j : nat) : client := client_of (pr j) (name j).
(** The call of goroutine [t] at server [j] can return; the others stay where they are. *)
Definition may_leave (p : pstate) (L : list vevent) (j t : nat) : Prop :=
  exists p' o r, vsteps cl (p, L) (p', L ++ [VEnd t j o r]) /\ cs_lock (ps_server p' j) = None /\ ps_at p' t = None /\ (forall u, u <> t -> ps_at p' u = ps_at p u) /\ forall k, ps_at p t = Some (j, k) -> ps_prog p' t = k r.
Lemma leave : forall p L j t o os k r rest, cs_threads (ps_server p j) t = mkThread (Waiting o) os -> cl_resp (cl j) o (cs_buf (ps_server p j)) = (r, rest) -> r <> Err EIO -> ps_at p t = Some (j, k) -> may_leave p L j t.
Proof.
  intros p L j t o os k r rest Th Re N At. eexists. exists o, r. split; [eapply vs_front; [|apply vs_refl]; eapply (V_end cl p L j t o r k); [eapply S_done; eassumption|reflexivity|exact At]|].
  cbn [ps_server ps_at]. rewrite !put_same. split; [reflexivity|]. split; [reflexivity|]. split; [intros u Du; apply put_other; exact Du|]. intros k' At'. cbn [ps_prog]. rewrite put_same. rewrite At in At'. injection At' as ->. reflexivity.
Qed.
Lemma may_leave_after : forall p p1 L j t, vsteps cl (p, L) (p1, L) -> ps_at p1 = ps_at p -> may_leave p1 L j t -> may_leave p L j t.
Proof. intros p p1 L j t S Ea (p' & o & r & S' & A & B & C). exists p', o, r. split; [exact (vs_trans _ _ _ _ S S')|]. split; [exact A|]. split; [exact B|]. rewrite <- Ea. exact C. Qed.
Lemma holder_leaves : forall p L j t, vinv pr name c progs (p, L) -> (c_cas (c j) + zlen L + 1 < 2 ^ 63)%Z -> cs_lock (ps_server p j) = Some t -> (exists k, ps_at p t = Some (j, k)) /\ may_leave p L j t.
Proof.
  intros p L j t (M & mk & cw & El & Ex & _ & Kw & G & Lc) Bd Lk. cbn [fst snd] in *.
  assert (Few : (zlen (answers M) <= zlen L)%Z) by (apply effects_are_few; split; [exact El|exact (turns _ _ _ _ _ _ G)]).
  specialize (Lc j). unfold local in Lc. rewrite Lk in Lc. destruct Lc as (_ & o & rq & Co & As & Ec & Q). specialize (G t). unfold goroutine_at in G.
  assert (Nr : cs_threads (ps_server p j) t <> resting) by (intro X; rewrite X in Co; discriminate Co).
  destruct (ps_at p t) as [[i k]|] eqn:At; [|elim Nr; apply G]. destruct G as (Gr & o' & x & Pe & Wh & _ & G). destruct (Nat.eq_dec i j) as [->|D]; [|elim Nr; apply Gr; congruence].
  split; [exists k; reflexivity|]. assert (o' = o) as -> by (unfold pending_of in Pe; rewrite Co in Pe; injection Pe as -> _; reflexivity).
  destruct (send_all (cl j) (ps_server p j) t o Lk Co) as (s1 & os & S1 & Th1 & _ & Lk1 & Eo1 & Ep1 & Ec1 & Ei1 & Eb1).
  destruct (mk t) as [r|].
  - destruct Q as (Qp & Qo & Ql & Qr). destruct G as (_ & Em & _). destruct (lift_silent cl p L j s1 S1) as (p1 & R1 & Es & Ea & _). apply (may_leave_after p p1); [exact R1|exact Ea|].
    apply (leave p1 L j t o os k r []).
    + rewrite Es. exact Th1.
    + rewrite Es, Eb1. exact Qr.
    + apply (explained_no_io pr name M c t j o r Ex). assert (X : In (Effect t j o r) (mine t M)) by (rewrite Em; apply in_app_iff; right; right; left; reflexivity). apply filter_In in X. apply X.
    + rewrite Ea. exact At.
  - destruct Q as (Qp & Qb & Qi). rewrite Qp in Ep1. destruct (Kw j) as (Kc & _ & Cc).
    destruct (effect (pr j) (name j) (c j) (cw j) o rq Wh As Kc ltac:(lia)) as (rep & out & Ds & Re & Agr).
    assert (S2 : cstep (cl j) s1 _) by (apply (S_daemon (cl j) s1); rewrite Ec1, Ec, Ep1; exact Ds). set (s2 := mkC _ _ _ _ _ _ _ _ _) in S2.
    assert (S3 : cstep (cl j) s2 _) by (apply (S_net_in (cl j) s2 rep []); unfold s2; cbn [cs_in]; rewrite Ei1, app_nil_r; reflexivity). set (s3 := mkC _ _ _ _ _ _ _ _ _) in S3.
    assert (S13 : silent (cl j) (ps_server p j) s3).
    { eapply silent_trans; [exact S1|]. eapply si_step; [exact S2|reflexivity|]. eapply si_step; [exact S3|reflexivity|]. apply si_refl. }
    destruct (lift_silent cl p L j s3 S13) as (p1 & R1 & Es & Ea & _). apply (may_leave_after p p1); [exact R1|exact Ea|].
    apply (leave p1 L j t o os k out []).
    + rewrite Es. exact Th1.
    + rewrite Es. unfold s3, s2. cbn [cs_buf]. rewrite Eb1, Qb, Qi. exact Re.
    + exact (effect_not_io _ _ _ _ _ _ Agr).
    + rewrite Ea. exact At.
Qed.
Hypothesis whole_calls : forall t l j o k, makes (progs t) l (Then j o k) -> whole (pr j) (c j) o.
Hypothesis good : forall j, wf (pr j) (c j) /\ rq_cas (h j) = 0%Z.
Definition room (L : list vevent) (n : Z) : Prop := forall j, (c_cas (c j) + zlen L + n < 2 ^ 63)%Z.
Lemma reached : forall p L, vsteps cl (pool_started c h progs, []) (p, L) -> room L 1 -> vinv pr name c progs (p, L).
Proof. intros p L S R. apply (vinv_steps pr name c h progs whole_calls _ S). intro j. destruct (good j) as [A B]. split; [exact A|]. split; [exact B|]. exact (R j). Qed.
Lemma can_leave : forall p L t, vsteps cl (pool_started c h progs, []) (p, L) -> room L 2 -> exists p' E, vsteps cl (p, L) (p', L ++ E) /\ (zlen E <= 2)%Z /\ ps_at p' t = None
  /\ (forall j k, ps_at p t = Some (j, k) -> exists r, ps_prog p' t = k r) /\ (ps_at p t = None -> ps_prog p' t = ps_prog p t).
Proof.
  intros p L t S R. destruct (ps_at p t) as [[j k]|] eqn:At; [|exists p, []; rewrite app_nil_r; split; [apply vs_refl|split; [discriminate|split; [exact At|split; [discriminate|reflexivity]]]]].
  assert (R1 : room L 1) by (intro i; specialize (R i); lia). pose proof (reached p L S R1) as Iv.
  assert (Free : forall p L, vsteps cl (pool_started c h progs, []) (p, L) -> room L 1 -> ps_at p t = Some (j, k) -> cs_lock (ps_server p j) = None -> may_leave p L j t).
  { clear - whole_calls good. intros p L S R At Lk. destruct (reached p L S R) as (M & mk & cw & _ & _ & _ & _ & G & Lc). cbn [fst snd] in *. specialize (G t). unfold goroutine_at in G. rewrite At in G.
    destruct G as (_ & o & x & Pe & Wh & _). specialize (Lc j). unfold local in Lc. rewrite Lk in Lc. destruct Lc as (Qi & _). specialize (Qi t).
    assert (Th : cs_threads (ps_server p j) t = mkThread Idle [o]) by (destruct (cs_threads (ps_server p j) t) as [pc td]; cbn [th_pc] in Qi; subst pc; unfold pending_of, current in Pe; cbn [th_pc th_todo app] in Pe; subst td; reflexivity).
    destruct (request_ok (pr j) (name j) (cs_header (ps_server p j)) o (proj1 Wh)) as (rq & Rq). pose proof (i_lock cl p L j t o [] rq Lk Th Rq) as S1. cbv zeta in S1. eapply may_leave_after; [exact (vs_step _ _ _ _ (vs_refl _ _) S1)|reflexivity|].
    eapply holder_leaves; [exact (reached _ L (vs_step _ _ _ _ S S1) R)|exact (R j)|]. cbn [ps_server]. rewrite put_same. reflexivity. }
  destruct (cs_lock (ps_server p j)) as [u|] eqn:Lk.
  - destruct (holder_leaves p L j u Iv (R1 j) Lk) as ((k' & Au) & p1 & o & r & S1 & Lk1 & A1 & Oth & Pg1). destruct (Nat.eq_dec u t) as [->|D].
    + exists p1, [VEnd t j o r]. split; [exact S1|]. split; [discriminate|]. split; [exact A1|]. split; [|discriminate]. intros j' k2 X. injection X as -> ->. exists r. exact (Pg1 _ At).
    + destruct (Free p1 (L ++ [VEnd u j o r])) as (p2 & o2 & r2 & S2 & _ & A2 & _ & Pg2).
      * exact (vs_trans _ _ _ _ S S1).
      * intro i. rewrite zlen_app. change (zlen [VEnd u j o r]) with 1%Z. specialize (R i). lia.
      * rewrite Oth by congruence. exact At.
      * exact Lk1.
      * exists p2, [VEnd u j o r; VEnd t j o2 r2]. rewrite <- app_assoc in S2. split; [exact (vs_trans _ _ _ _ S1 S2)|]. split; [discriminate|]. split; [exact A2|]. split; [|discriminate]. intros j' k2 X. injection X as -> ->. exists r2. apply Pg2. rewrite Oth by congruence. exact At.
  - destruct (Free p L S R1 At Lk) as (p1 & o & r & S1 & _ & A1 & _ & Pg1). exists p1, [VEnd t j o r]. split; [exact S1|]. split; [discriminate|]. split; [exact A1|]. split; [|discriminate]. intros j' k2 X. injection X as -> ->. exists r. exact (Pg1 _ At).
Qed.
Lemma can_finish : forall t m p L, (forall l q, makes (ps_prog p t) l q -> length l <= m) -> ps_at p t = None ->
  vsteps cl (pool_started c h progs, []) (p, L) -> room L (3 * Z.of_nat m + 1) ->
  exists p' E, vsteps cl (p, L) (p', L ++ E) /\ ps_at p' t = None /\ ps_prog p' t = Stop.
Proof.
  intros t m. induction m as [|m IH]; intros p L D At S R.
  - destruct (ps_prog p t) as [|j o k] eqn:Pg; [exists p, []; rewrite app_nil_r; split; [apply vs_refl|split; assumption]|].
    specialize (D [(j, o, Ok RUnit)] (k (Ok RUnit)) (mk_call _ _ _ _ _ _ (mk_none _))). cbn [length] in D. lia.
  - destruct (ps_prog p t) as [|j o k] eqn:Pg; [exists p, []; rewrite app_nil_r; split; [apply vs_refl|split; assumption]|].
    pose proof (V_begin cl p L t j o k At Pg) as S1. set (p1 := mkP _ _ _ _) in S1. pose proof (vs_step _ _ _ _ S S1) as S2.
    destruct (can_leave p1 _ t S2) as (p2 & E & S3 & Ze & A2 & Pr & _).
    { intro i. specialize (R i). rewrite zlen_app. change (zlen [VBegin t j o]) with 1%Z. lia. }
    destruct (Pr j k) as (r & Pr'); [apply put_same|].
    destruct (IH p2 ((L ++ [VBegin t j o]) ++ E)) as (p3 & E3 & S4 & A3 & P3); [|exact A2|exact (vs_trans _ _ _ _ S2 S3)| |].
    + intros l q Mk. rewrite Pr' in Mk. specialize (D ((j, o, r) :: l) q (mk_call _ _ _ _ _ _ Mk)). cbn [length] in D. lia.
    + intro i. specialize (R i). rewrite !zlen_app. change (zlen [VBegin t j o]) with 1%Z. lia.
    + exists p3, ([VBegin t j o] ++ E ++ E3). split; [|split; [exact A3|exact P3]]. rewrite <- !app_assoc in S4. refine (vs_front _ _ _ _ S1 (vs_trans _ _ _ _ S3 _)). rewrite <- !app_assoc. exact S4.
Qed.
End Finish.

(** ** C102 *)
(** Goroutines share a pool whose servers are spoken to in any protocols; each makes calls of servers as a
    program says, at most [d] of them. At every moment of every run, every goroutine can come to the end of
    its program: no goroutine waits for ever for a mutex, an answer or another server. *)
Theorem C102_every_goroutine_of_a_pool_can_finish : forall pr name c h progs p L t d,
  vsteps (fun j => client_of (pr j) (name j)) (pool_started c h progs, []) (p, L) ->
  (forall t l j o k, makes (progs t) l (Then j o k) -> whole (pr j) (c j) o) ->
  (forall j, wf (pr j) (c j) /\ rq_cas (h j) = 0%Z /\ (c_cas (c j) + zlen L + 3 * Z.of_nat d + 3 < 2 ^ 63)%Z) ->
  (forall l q, makes (progs t) l q -> length l <= d) ->
  exists p' E, vsteps (fun j => client_of (pr j) (name j)) (p, L) (p', L ++ E) /\ ps_at p' t = None /\ ps_prog p' t = Stop.
Proof.
  intros pr name c h progs p L t d S Wh Hc D. assert (Gd : forall j, wf (pr j) (c j) /\ rq_cas (h j) = 0%Z) by (intro j; destruct (Hc j) as (A & B & _); split; assumption).
  assert (R : room c L (3 * Z.of_nat d + 3)) by (intro j; destruct (Hc j) as (_ & _ & X); lia).
  destruct (can_leave pr name c h progs Wh Gd p L t S) as (p1 & E1 & S1 & Ze & A1 & _); [intro j; specialize (R j); lia|]. pose proof (vs_trans _ _ _ _ S S1) as S2.
  destruct (can_finish pr name c h progs Wh Gd t d p1 (L ++ E1)) as (p2 & E2 & S3 & A2 & P2); [|exact A1|exact S2| |].
  - destruct (reached pr name c h progs Wh Gd p1 (L ++ E1) S2) as (M & mk & cw & _ & _ & _ & _ & G & _).
    { intro j. specialize (R j). rewrite zlen_app. lia. }
    specialize (G t). unfold goroutine_at in G. cbn [fst] in G. rewrite A1 in G. destruct G as (_ & _ & Mk & _). intros l q Mk'. specialize (D _ _ (makes_then_makes _ _ _ Mk _ _ Mk')). rewrite app_length in D. lia.
  - intro j. specialize (R j). rewrite zlen_app. lia.
  - exists p2, (E1 ++ E2). rewrite app_assoc. split; [exact (vs_trans _ _ _ _ S1 S3)|]. split; assumption.
Qed.
Print Assumptions C102_every_goroutine_of_a_pool_can_finish.

(** The hypotheses are met: one goroutine is in the middle of its request, the other waits for the mutex. *)
Definition both_begun : list vevent := [VBegin 0 1 (OSet (demo_item "hello" "one" 7 10 0)); VBegin 1 1 (OGet (B "hello"))].
Lemma demo_both : forall nodes, pick nodes (B "hello") = Ok sv_b -> exists p,
  vsteps (fun j => client_of (two_kinds j) (ab_name j)) (demo_pool (fun t => calls_each nodes (storer_and_reader t)), []) (p, both_begun)
  /\ cs_lock (ps_server p 1) = Some 0 /\ (exists k, ps_at p 1 = Some (1, k)).
Proof.
  intros nodes Kh. eexists. split.
  - unfold demo_pool, pool_started, started, both_begun.
    vquick ltac:(eapply (V_begin _ _ _ 0 1); [reflexivity|exact (late_set _ Kh)]).
    vquick ltac:(eapply (V_begin _ _ _ 1 1); [reflexivity|exact (late_get _ Kh)]).
    vquick ltac:(eapply (i_lock _ _ _ 1 0); [reflexivity|reflexivity|vm_compute; reflexivity]).
    vquick ltac:(eapply (i_send _ _ _ 1 0); reflexivity). apply vs_refl.
  - cbn. split; [reflexivity|]. eexists. reflexivity.
Qed.
Example C102_met :
  (exists p, vsteps (fun j => client_of (two_kinds j) (ab_name j)) (pool_started (fun _ => empty_cache demo_cfg 100) (fun _ => reset_header) (fun t => calls_each (new_ring [sv_a; sv_b]) (storer_and_reader t)), []) (p, both_begun)
     /\ cs_lock (ps_server p 1) = Some 0 /\ (exists k, ps_at p 1 = Some (1, k)))
  /\ (forall t l j o k, makes (calls_each (new_ring [sv_a; sv_b]) (storer_and_reader t)) l (Then j o k) -> whole (two_kinds j) (empty_cache demo_cfg 100) o)
  /\ (forall j, wf (two_kinds j) (empty_cache demo_cfg 100)) /\ rq_cas reset_header = 0%Z /\ (c_cas (empty_cache demo_cfg 100) + zlen both_begun + 3 * Z.of_nat 1 + 3 < 2 ^ 63)%Z
  /\ (forall t l q, makes (calls_each (new_ring [sv_a; sv_b]) (storer_and_reader t)) l q -> length l <= 1).
Proof.
  pose proof (proj1 (proj2 (proj2 C01_met))) as Kh. split; [exact (demo_both _ Kh)|]. split; [intros t l j o k M; destruct (late_at _ _ _ _ _ _ Kh M) as [-> H]; exact H|].
  split; [intro j; apply wf_empty; [apply C05_met|lia]|]. split; [reflexivity|]. split; [reflexivity|].
  intros t l q M. destruct (calls_each_makes _ _ _ _ M) as [(more & E) _]. assert (X : length (storer_and_reader t) <= 1) by (destruct t as [|[|t]]; cbn; lia). rewrite E, app_length, map_length in X. lia.
Qed.
