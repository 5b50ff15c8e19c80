(** * C101: in a process with many server objects, of which some have lost their connection, every call can return. *)
From Verif Require Import GoBytes GoNum GoIO Item ClientText ClientMeta ClientBinary Cache Daemon Spec Intent Call Guard Exact.
From Verif Require Import PLib PDaemon PStream PCache PText PMeta PBinary PClient PropClient PropExact PropReply PReply PropWriter PLifecycle PropLifecycle Conc PropConc PropHandler PoolConc PropPoolConc TimeConc PropTimeConc ManyConc PropManyConc ManyProto PropManyProto.
Local Open Scope nat_scope.

Lemma ns_trans : forall cl v u w, nsteps cl v u -> nsteps cl u w -> nsteps cl v w.
Proof. intros cl v u w A B. induction B as [u|u x w B IH S]; [exact A|]. exact (ns_step _ _ _ _ (IH A) S). Qed.
Lemma begun_once_all : forall L n t i o t' i' o', NoDup (numbers L) -> In (NBegin n t i o) L -> In (NBegin n t' i' o') L -> t = t' /\ i = i' /\ o = o'.
Proof.
  assert (Nin : forall L n t i o, In (NBegin n t i o) L -> In n (numbers L)) by (intros L n t i o H; apply in_flat_map; exists (NBegin n t i o); split; [exact H|left; reflexivity]).
  intros L n t i o t' i' o'. induction L as [|e L IH]; intros N X Y; [destruct X|]. destruct X as [X|X], Y as [Y|Y]; subst.
  - injection Y as A1 A2 A3. subst. repeat split.
  - exfalso. cbn [numbers flat_map app] in N. inversion N as [|? ? N1 N2]; subst. apply N1. exact (Nin _ _ _ _ _ Y).
  - exfalso. cbn [numbers flat_map app] in N. inversion N as [|? ? N1 N2]; subst. apply N1. exact (Nin _ _ _ _ _ X).
  - apply IH; [|exact X|exact Y]. destruct e; cbn [numbers flat_map app] in N; try exact N. inversion N; assumption.
Qed.
(** The specification has no io errors. *)
Lemma store_no_io : forall f r, f <> SErr EIO -> store_outcome f r <> SErr EIO.
Proof. intros f [] H; cbn [store_outcome]; try discriminate. exact H. Qed.
Lemma delta_no_io : forall p r, delta_outcome p r <> SErr EIO.
Proof. intros p r. destruct r; cbn [delta_outcome]; try discriminate. destruct p; [destruct (n <? 2 ^ 63)%Z|destruct (n <? 2 ^ 63)%Z|]; discriminate. Qed.
Lemma spec_no_io : forall p name c o, snd (spec_step p name c o) <> SErr EIO.
Proof.
  intros p name c o. assert (D : forall up k d e, snd (spec_delta p up c k d e) <> SErr EIO).
  { intros up k d e. unfold spec_delta. destruct p, (lookup c k); cbn [snd]; try apply delta_no_io; discriminate. }
  destruct o as [k|ks|i|i|i|k|k d e|k d e|k e| |]; cbn [spec_step snd]; try (apply store_no_io; discriminate); try apply D; try discriminate.
  - destruct (lookup c k); discriminate.
  - destruct (snd (cache_delete c k)); discriminate.
  - destruct (snd (cache_touch c k e)); discriminate.
Qed.
Lemma exact_no_io : forall p name last c o, snd (exact_step p name last c o) <> SErr EIO.
Proof.
  intros p name last c o. assert (D : forall up k d e, snd (bin_counter last up c k d e) <> SErr EIO).
  { intros up k d e. unfold bin_counter. destruct (lookup c k) as [x|]; [destruct (negb (last =? 0)%Z && negb (e_cas x =? last)%Z)%bool|destruct (e =? 2 ^ 32 - 1)%Z]; cbn [snd]; try apply delta_no_io; discriminate. }
  destruct p; cbn [exact_step]; [apply spec_no_io| |].
  - destruct o as [k|ks|i|i|i|k|k d e|k d e|k e| |]; cbn [meta_exact]; try apply spec_no_io; cbn [snd]; try discriminate. destruct (snd (cache_invalidate c k (Some e))); discriminate.
  - destruct o as [k|ks|i|i|i|k|k d e|k d e|k e| |]; cbn [bin_exact]; try apply spec_no_io; try apply D.
    + destruct (it_cas i =? 0)%Z; [apply spec_no_io|]. cbn [snd]. apply store_no_io. discriminate.
    + destruct (it_cas i =? 0)%Z; [apply spec_no_io|]. cbn [snd]. destruct (snd (cas_store c i)); discriminate.
    + cbn [snd]. destruct (snd (cache_touch c k e)); discriminate.
Qed.
Lemma effect_not_io : forall p name last c o r, agrees (snd (exact_step p name last c o)) r -> r <> Err EIO.
Proof.
  intros p name last c o r A ->. pose proof (exact_no_io p name last c o) as N. destruct (snd (exact_step p name last c o)) as [x|e|]; cbn [agrees] in A; try contradiction; [congruence|]. destruct A as (A & _). contradiction.
Qed.
Lemma results_not_io : forall pr name M c r, Forall2 agrees (snd (exact_moments pr name c M)) (results M) -> In r (results M) -> r <> Err EIO.
Proof.
  intros pr name M. induction M as [|[[n t i o|n r|d|i]|n i o x] M IH]; intros c r0 F H; cbn [exact_moments results flat_map app snd] in *; try exact (IH _ _ F H); try contradiction.
  apply F2_cons in F. destruct F as [A F]. destruct H as [<-|H]; [exact (effect_not_io _ _ _ _ _ _ A)|exact (IH _ _ F H)].
Qed.
Lemma took_result : forall M n i o r, In (Took n i o r) M -> In r (results M).
Proof. intros M n i o r H. unfold results. apply in_flat_map. exists (Took n i o r). split; [exact H|left; reflexivity]. Qed.
Lemma io_or_not : forall r : outcome result, r = Err EIO \/ r <> Err EIO.
Proof. intros [x|e|]; try (right; discriminate). destruct e; (left; reflexivity) || (right; discriminate). Qed.

(** ** Steps of one object that end no call *)
Inductive silent (cl : client) : cstate -> cstate -> Prop :=
| si_refl : forall s, silent cl s s
| si_step : forall s u w, cstep cl s u -> cs_log u = cs_log s -> silent cl u w -> silent cl s w.
Lemma silent_trans : forall cl a b w, silent cl a b -> silent cl b w -> silent cl a w.
Proof. intros cl a b w A B. induction A as [s|s u x S Lg A IH]; [exact B|]. exact (si_step _ _ _ _ S Lg (IH B)). Qed.
Lemma lift_up : forall cl v L i s', n_up v i = true -> silent (cl i) (object v i) s' ->
  exists v', nsteps cl (v, L) (v', L) /\ object v' i = s' /\ n_now v' = n_now v /\ n_up v' = n_up v.
Proof.
  intros cl v L i s' Up S. remember (object v i) as s eqn:E. revert v Up E. induction S as [s|s u w St Lg S IH]; intros v Up E.
  - exists v. split; [apply ns_refl|]. split; [symmetry; exact E|]. split; reflexivity.
  - subst s. destruct (IH (with_object v i u)) as (v' & A & B & C & D).
    + exact Up.
    + unfold object. cbn [with_object n_object n_cache]. rewrite put_same. apply facing_self.
    + exists v'. split; [|split; [exact B|split; [exact C|exact D]]]. eapply ns_front; [|exact A]. apply with_up; assumption.
Qed.
(** The holder of the mutex sends what is left, and all of it arrives. *)
Lemma send_all : forall cl s t o, cs_lock s = Some t -> current (cs_threads s t) = [o] ->
  exists s' os, silent cl s s' /\ cs_threads s' t = mkThread (Waiting o) os /\ (forall u, u <> t -> cs_threads s' u = cs_threads s u) /\ cs_lock s' = Some t
    /\ cs_out s' = [] /\ cs_pending s' = cs_pending s ++ cs_out s ++ left_of (cs_threads s t) /\ cs_cache s' = cs_cache s /\ cs_in s' = [] /\ cs_buf s' = cs_buf s ++ cs_in s.
Proof.
  intros cl s t o Lk Co.
  assert (Net : forall s os, cs_lock s = Some t -> cs_threads s t = mkThread (Waiting o) os ->
    exists s', silent cl s s' /\ cs_threads s' = cs_threads s /\ cs_lock s' = Some t /\ cs_out s' = [] /\ cs_pending s' = cs_pending s ++ cs_out s /\ cs_cache s' = cs_cache s /\ cs_in s' = [] /\ cs_buf s' = cs_buf s ++ cs_in s).
  { clear. intros s os Lk Th. eexists. split.
    - eapply si_step; [apply (S_net_out cl s (cs_out s) []); symmetry; apply app_nil_r|reflexivity|]. eapply si_step; [eapply (S_net_in cl _ (cs_in s) []); cbn [cs_in]; symmetry; apply app_nil_r|reflexivity|]. apply si_refl.
    - cbn [cs_threads cs_lock cs_out cs_pending cs_cache cs_in cs_buf]. repeat split. exact Lk. }
  destruct (cs_threads s t) as [pc os] eqn:Th. unfold current in Co. cbn [th_pc] in Co. destruct pc as [|o' rq|o']; [discriminate Co| |]; injection Co as ->.
  - assert (S1 : cstep cl s _) by (apply (S_send cl s t o rq [] os); rewrite app_nil_r; exact Th). set (s1 := mkC _ _ _ _ _ _ _ _ _) in S1.
    assert (S2 : cstep cl s1 _) by (apply (S_sent cl s1 t o os); apply set_same). set (s2 := mkC _ _ _ _ _ _ _ _ _) in S2.
    destruct (Net s2 os) as (s' & Si & A & B & C & D & E & F & G); [exact Lk|apply set_same|]. exists s', os.
    split; [eapply si_step; [exact S1|reflexivity|]; eapply si_step; [exact S2|reflexivity|exact Si]|]. split; [rewrite A; apply set_same|]. split; [intros u Du; rewrite A; unfold s2, s1; cbn [cs_threads]; rewrite !set_other by exact Du; reflexivity|].
    split; [exact B|]. split; [exact C|]. split; [exact D|]. split; [exact E|]. split; [exact F|exact G].
  - destruct (Net s os Lk Th) as (s' & Si & A & B & C & D & E & F & G). exists s', os. split; [exact Si|]. split; [rewrite A; exact Th|]. split; [intros u _; rewrite A; reflexivity|]. split; [exact B|]. split; [exact C|].
    split; [rewrite D; cbn [left_of th_pc]; rewrite app_nil_r; reflexivity|]. split; [exact E|]. split; [exact F|exact G].
Qed.

(** ** The holder of a mutex can return *)
Section Ends.
Variables (pr : nat -> proto) (name : nat -> bytes) (c : cache) (progs : nat -> list (nat * op)).
Let cl : nat -> client := speaking pr name.
Definition may_end (v : nstate) (L : list nevent) (i t n : nat) : Prop :=
  exists v' r, nsteps cl (v, L) (v', L ++ [NEnd n r]) /\ (n_up v i = true -> r <> Err EIO) /\ cs_lock (n_object v' i) = None /\ n_up v' = n_up v /\ n_now v' t = None /\ forall u, u <> t -> n_now v' u = n_now v u.
Lemma finish : forall v L i t n o os r rest, cs_threads (n_object v i) t = mkThread (Waiting o) os -> cl_resp (cl i) o (cs_buf (n_object v i)) = (r, rest) -> r <> Err EIO -> n_now v t = Some n -> may_end v L i t n.
Proof.
  intros v L i t n o os r rest Th Re N Nw. eexists. exists r. split; [eapply ns_front; [|apply ns_refl]; exact (m_end cl v L i t n o os r rest Th Re N Nw)|].
  cbn [n_object n_up n_now]. split; [intros _; exact N|]. rewrite put_same. split; [reflexivity|]. split; [reflexivity|]. split; [apply put_same|]. intros u Du. apply put_other. exact Du.
Qed.
Lemma may_end_after : forall v v1 L i t n, nsteps cl (v, L) (v1, L) -> n_up v1 = n_up v -> n_now v1 = n_now v -> may_end v1 L i t n -> may_end v L i t n.
Proof.
  intros v v1 L i t n S Eu En (v' & r & S' & A & B & C & D). exists v', r. split; [exact (ns_trans _ _ _ _ S S')|]. rewrite <- Eu, <- En. repeat (split; [assumption|]). exact D.
Qed.
Lemma ends_up : forall v L i t n, ninv pr name c progs (v, L) -> (c_cas c + zlen L + 1 < 2 ^ 63)%Z -> n_up v i = true -> cs_lock (n_object v i) = Some t -> n_now v t = Some n -> may_end v L i t n.
Proof.
  intros v L i t n (M & info & eff & Ri & _ & Ag & Kc & Cc & _ & _ & If & _ & Es & _ & _ & G & Q) Bd Up Lk Nw. cbn [fst snd] in *.
  pose proof (moments_few _ _ Ri) as Few.
  destruct (holder_call pr name (n_object v i) (n_object v) (n_now v) info eff (n_up v i) i (n_cache v) t (Q i) (G t) Lk eq_refl) as (n' & o & Nw' & In & Co & _). rewrite Nw in Nw'. injection Nw' as <-.
  specialize (Q i). rewrite Up in Q. cbn [conn] in Q. change (facing (n_object v i) (n_cache v)) with (object v i) in Q. unfold local in Q. change (cs_lock (object v i)) with (cs_lock (n_object v i)) in Q. rewrite Lk in Q.
  destruct Q as (_ & o' & rq & Co' & As & Ec & Q). change (cs_threads (object v i)) with (cs_threads (n_object v i)) in Co'. rewrite Co in Co'. injection Co' as <-. unfold mark in Q. rewrite Nw in Q.
  destruct (send_all (cl i) (object v i) t o Lk Co) as (s1 & os & S1 & Th1 & _ & Lk1 & Eo1 & Ep1 & Ec1 & Ei1 & Eb1).
  destruct (eff n) as [x|] eqn:Ef.
  - destruct Q as (Qp & Qo & Ql & Qr). destruct (lift_up cl v L i s1 Up S1) as (v1 & R1 & Ob & En & Eu). apply (may_end_after v v1); try assumption.
    apply (finish v1 L i t n o os x []).
    + change (cs_threads (object v1 i) t = mkThread (Waiting o) os). rewrite Ob. exact Th1.
    + change (cl_resp (cl i) o (cs_buf (object v1 i)) = (x, [])). rewrite Ob, Eb1. exact Qr.
    + apply (results_not_io _ _ _ _ _ Ag). eapply took_result. exact (Es _ _ _ _ _ Ef In).
    + rewrite En. exact Nw.
  - destruct Q as (Qp & Qb & Qi). rewrite Qp in Ep1. destruct (If _ _ _ _ In) as (_ & _ & Wh & _).
    destruct (effect (pr i) (name i) c (n_cache v) o rq Wh As (conj (wf_weaken _ _ (proj1 Kc)) (proj2 Kc)) ltac:(lia)) as (rep & out & Ds & Re & Agr).
    assert (S2 : cstep (cl i) s1 _) by (apply (S_daemon (cl i) s1); rewrite Ec1, Ec, Ep1; exact Ds). set (s2 := mkC _ _ _ _ _ _ _ _ _) in S2.
    assert (S3 : cstep (cl i) s2 _) by (apply (S_net_in (cl i) s2 rep []); unfold s2; cbn [cs_in]; rewrite Ei1, app_nil_r; reflexivity). set (s3 := mkC _ _ _ _ _ _ _ _ _) in S3.
    assert (S13 : silent (cl i) (object v i) s3).
    { eapply silent_trans; [exact S1|]. eapply si_step; [exact S2|reflexivity|]. eapply si_step; [exact S3|reflexivity|]. apply si_refl. }
    destruct (lift_up cl v L i s3 Up S13) as (v1 & R1 & Ob & En & Eu). apply (may_end_after v v1); try assumption.
    apply (finish v1 L i t n o os out []).
    + change (cs_threads (object v1 i) t = mkThread (Waiting o) os). rewrite Ob. exact Th1.
    + change (cl_resp (cl i) o (cs_buf (object v1 i)) = (out, [])). rewrite Ob. unfold s3, s2. cbn [cs_buf]. rewrite Eb1, Qb, Qi. exact Re.
    + exact (effect_not_io _ _ _ _ _ _ Agr).
    + rewrite En. exact Nw.
Qed.
Lemma waiting_down : forall v L i t n o os, n_up v i = false -> cs_threads (n_object v i) t = mkThread (Waiting o) os -> n_now v t = Some n -> may_end v L i t n.
Proof.
  intros v L i t n o os Up Th Nw. destruct (cl_resp (cl i) o (cs_buf (n_object v i))) as [r rest] eqn:Re. destruct (io_or_not r) as [->|N]; [|exact (finish v L i t n o os r rest Th Re N Nw)].
  eexists. exists (Err EIO). split; [eapply ns_front; [|apply ns_refl]; eapply (N_fail_read cl v L i t n o os); [exact Up|exact Th|rewrite Re; reflexivity|exact Nw]|].
  cbn [n_object n_up n_now]. split; [congruence|]. rewrite put_same. split; [reflexivity|]. split; [reflexivity|]. split; [apply put_same|]. intros u Du. apply put_other. exact Du.
Qed.
Lemma ends_down : forall v L i t n o, n_up v i = false -> current (cs_threads (n_object v i) t) = [o] -> n_now v t = Some n -> may_end v L i t n.
Proof.
  intros v L i t n o Up Co Nw. destruct (cs_threads (n_object v i) t) as [pc os] eqn:Th. unfold current in Co. cbn [th_pc] in Co. destruct pc as [|o' rq|o']; [discriminate Co| |]; injection Co as ->.
  - destruct rq as [|x rq].
    + pose proof (with_down cl v L i _ Up (S_sent (cl i) (object v i) t o os Th) eq_refl) as S1. refine (may_end_after _ _ _ _ _ _ (ns_step _ _ _ _ (ns_refl _ _) S1) eq_refl eq_refl _).
      apply (waiting_down _ _ _ _ _ o os); [exact Up| |exact Nw]. cbn [with_object n_object]. rewrite put_same. apply set_same.
    + eexists. exists (Err EIO). split; [eapply ns_front; [|apply ns_refl]; eapply (N_fail_write cl v L i t n o (x :: rq) os); [exact Up|exact Th|discriminate|exact Nw]|].
      cbn [n_object n_up n_now]. split; [congruence|]. rewrite put_same. split; [reflexivity|]. split; [reflexivity|]. split; [apply put_same|]. intros u Du. apply put_other. exact Du.
  - exact (waiting_down v L i t n o os Up Th Nw).
Qed.
Lemma holder_ends : forall v L i t n, ninv pr name c progs (v, L) -> (c_cas c + zlen L + 1 < 2 ^ 63)%Z -> cs_lock (n_object v i) = Some t -> n_now v t = Some n -> may_end v L i t n.
Proof.
  intros v L i t n Iv Bd Lk Nw. destruct (n_up v i) eqn:Up; [apply ends_up; assumption|].
  destruct Iv as (M & info & eff & _ & _ & _ & _ & _ & _ & _ & _ & _ & _ & _ & _ & _ & Q). destruct (conn_current _ _ _ _ _ _ _ _ _ _ (Q i) Lk) as (o & Co). cbn [fst snd] in Co. exact (ends_down v L i t n o Up Co Nw).
Qed.
(** A goroutine that waits for a free mutex can take it. *)
Lemma can_lock : forall v L i t o, cs_lock (n_object v i) = None -> cs_threads (n_object v i) t = mkThread Idle [o] -> legal (pr i) o ->
  exists v', nsteps cl (v, L) (v', L) /\ cs_lock (n_object v' i) = Some t /\ n_now v' = n_now v /\ n_up v' = n_up v.
Proof.
  intros v L i t o Lk Th Lg. destruct (request_ok (pr i) (name i) (cs_header (object v i)) o Lg) as (rq & Rq).
  eexists. split; [eapply ns_front; [|apply ns_refl]; eapply (N_inside cl v L i); [exact (S_lock (cl i) (object v i) t o [] rq Lk Th Rq)|reflexivity]|].
  cbn [with_object n_object n_now n_up]. rewrite put_same. split; [destruct (n_up v i); reflexivity|]. split; reflexivity.
Qed.
End Ends.

(** ** What the log tells *)
Lemma began_now : forall cl v0 w, nsteps cl v0 w -> snd v0 = [] -> forall n t i o, In (NBegin n t i o) (snd w) -> n_now (fst w) t = Some n \/ exists r, In (NEnd n r) (snd w).
Proof.
  intros cl v0 w S. induction S as [w|v u w S IH St]; intros E n t i o H; [rewrite E in H; destruct H|]. specialize (IH E).
  assert (Old : forall L e, In (NBegin n t i o) (L ++ [e]) -> (forall t' i' o', e <> NBegin n t' i' o') -> In (NBegin n t i o) L).
  { intros L e X Ne. apply in_app_iff in X. destruct X as [X|[X|[]]]; [exact X|]. elim (Ne _ _ _ X). }
  assert (Clear : forall now L t' n' r, now t' = Some n' -> (forall n t i o, In (NBegin n t i o) L -> now t = Some n \/ exists r, In (NEnd n r) L) -> In (NBegin n t i o) (L ++ [NEnd n' r]) ->
            put_at now t' None t = Some n \/ exists r0, In (NEnd n r0) (L ++ [NEnd n' r])).
  { intros now L t' n' r Nw Hi X. apply Old in X; [|discriminate]. destruct (Hi _ _ _ _ X) as [A|[r0 A]]; [|right; exists r0; apply in_app_iff; left; exact A].
    destruct (Nat.eq_dec t t') as [->|D]; [|left; rewrite put_other by exact D; exact A]. right. exists r. apply in_app_iff. right. left. congruence. }
  destruct St as [v1 L t1 i1 o1 os Nw Td|v1 L i1 s' S' Lg|v1 L i1 t1 n1 o1 r s' S' Lg Nw|v1 L d D|v1 L i1 a a' b b' Up Eo Ei s|v1 L i1 t1 n1 o1 rq os Up s Th Ne Nw|v1 L i1 t1 n1 o1 os Up s Th Re Nw]; cbn [fst snd n_now with_object] in *.
  - apply in_app_iff in H. destruct H as [H|[H|[]]].
    + destruct (IH _ _ _ _ H) as [A|[r A]]; [|right; exists r; apply in_app_iff; left; exact A]. destruct (Nat.eq_dec t t1) as [->|D]; [congruence|]. left. rewrite put_other by exact D. exact A.
    + injection H as -> -> -> ->. left. apply put_same.
  - exact (IH _ _ _ _ H).
  - exact (Clear _ _ _ _ _ Nw IH H).
  - apply Old in H; [|discriminate]. destruct (IH _ _ _ _ H) as [A|[r A]]; [left; exact A|right; exists r; apply in_app_iff; left; exact A].
  - apply Old in H; [|discriminate]. destruct (IH _ _ _ _ H) as [A|[r A]]; [left; exact A|right; exists r; apply in_app_iff; left; exact A].
  - exact (Clear _ _ _ _ _ Nw IH H).
  - exact (Clear _ _ _ _ _ Nw IH H).
Qed.
Lemma lost_down : forall cl v0 w, nsteps cl v0 w -> (forall i, n_up (fst v0) i = true) -> forall i, ~ In (NLoss i) (snd w) -> n_up (fst w) i = true.
Proof.
  intros cl v0 w S. induction S as [w|v u w S IH St]; intros E i H; [apply E|]. specialize (IH E).
  destruct St; cbn [fst snd n_up with_object] in *; try (apply IH; intro X; apply H; try (apply in_app_iff; left); exact X).
  destruct (Nat.eq_dec i i0) as [->|D].
  - elim H. apply in_app_iff. right. left. reflexivity.
  - rewrite put_other by exact D. apply IH. intro X. apply H. apply in_app_iff. left. exact X.
Qed.

(** ** The theorems *)
Lemma can_return : forall pr name c h progs v L n t i o,
  wf PMeta c -> (forall t, Forall (fun x => whole (pr (fst x)) c (snd x) /\ common (snd x)) (progs t)) -> (forall i, rq_cas (h i) = 0%Z) -> (c_cas c + zlen L + 2 < 2 ^ 63)%Z ->
  nsteps (speaking pr name) (many_started c h progs, []) (v, L) -> In (NBegin n t i o) L -> n_now v t = Some n ->
  exists v' r others, nsteps (speaking pr name) (v, L) (v', L ++ others ++ [NEnd n r])
    /\ (others = [] \/ exists n' r', others = [NEnd n' r'] /\ (~ In (NLoss i) L -> r' <> Err EIO))
    /\ (~ In (NLoss i) L -> r <> Err EIO) /\ n_now v' t = None.
Proof.
  intros pr name c h progs v L n t i o W Hl H0 Hc S Hb Nw.
  assert (Iv : ninv pr name c progs (v, L)) by (apply (ninv_steps pr name c h progs Hl _ S W H0); cbn [snd]; lia).
  assert (Upl : ~ In (NLoss i) L -> n_up v i = true) by (intro X; exact (lost_down _ _ _ S (fun _ => eq_refl) i X)).
  (* where a call of t stands *)
  assert (At : forall v L, ninv pr name c progs (v, L) -> In (NBegin n t i o) L -> n_now v t = Some n ->
            pending_of (cs_threads (n_object v i) t) = [o] /\ legal (pr i) o /\ (cs_lock (n_object v i) = None -> cs_threads (n_object v i) t = mkThread Idle [o])).
  { clear - Hl. intros v L (M & info & eff & Ri & _ & _ & _ & _ & Nd & _ & If & _ & _ & _ & _ & G & Q) Hb Nw. cbn [fst snd] in *. specialize (G t). unfold goro in G. rewrite Nw in G. destruct G as (i' & o' & In' & P & _).
    destruct (If _ _ _ _ In') as (Ib & _ & (Lg & _) & _). apply saw_in in Ib. rewrite (proj1 Ri) in Ib. destruct (begun_once_all _ _ _ _ _ _ _ _ Nd Hb Ib) as (_ & <- & <-).
    split; [exact P|]. split; [exact Lg|]. intro Lk. specialize (Q i). pose proof (conn_holder _ _ _ _ _ _ _ _ _ t Q) as Ho.
    destruct (cs_threads (n_object v i) t) as [pc os] eqn:Th. destruct pc; [|specialize (Ho ltac:(discriminate)); congruence|specialize (Ho ltac:(discriminate)); congruence]. unfold pending_of, current in P. cbn [th_pc th_todo app] in P. subst os. reflexivity. }
  (* with a free mutex *)
  assert (Free : forall v L, nsteps (speaking pr name) (many_started c h progs, []) (v, L) -> (c_cas c + zlen L + 1 < 2 ^ 63)%Z -> In (NBegin n t i o) L -> n_now v t = Some n -> cs_lock (n_object v i) = None -> may_end pr name v L i t n).
  { clear - Hl W H0 At. intros v L S Bd Hb Nw Lk. assert (Iv : ninv pr name c progs (v, L)) by (apply (ninv_steps pr name c h progs Hl _ S W H0); exact Bd).
    destruct (At v L Iv Hb Nw) as (_ & Lg & Th). destruct (can_lock pr name v L i t o Lk (Th Lk) Lg) as (v1 & S1 & Lk1 & En & Eu).
    apply (may_end_after pr name v v1 L i t n S1 Eu En). apply (holder_ends pr name c progs); [|exact Bd|exact Lk1|rewrite En; exact Nw].
    apply (ninv_steps pr name c h progs Hl _ (ns_trans _ _ _ _ S S1) W H0). exact Bd. }
  destruct (cs_lock (n_object v i)) as [u|] eqn:Lk.
  - destruct (Nat.eq_dec u t) as [->|D].
    + destruct (holder_ends pr name c progs v L i t n Iv ltac:(lia) Lk Nw) as (v' & r & S' & N & _ & _ & Nn & _). exists v', r, []. split; [exact S'|]. split; [left; reflexivity|]. split; [|exact Nn]. intro X. exact (N (Upl X)).
    + assert (Hu : exists m, n_now v u = Some m).
      { destruct Iv as (M & info & eff & _ & _ & _ & _ & _ & _ & _ & _ & _ & _ & _ & _ & G & Q). cbn [fst snd] in *. destruct (holder_call pr name (n_object v i) (n_object v) (n_now v) info eff (n_up v i) i (n_cache v) u (Q i) (G u) Lk eq_refl) as (m & _ & X & _). exists m. exact X. }
      destruct Hu as (m & Nm). destruct (holder_ends pr name c progs v L i u m Iv ltac:(lia) Lk Nm) as (v1 & r' & S1 & N1 & Lk1 & Eu & _ & En).
      destruct (Free v1 (L ++ [NEnd m r'])) as (v' & r & S' & N' & _ & _ & Nn & _).
      * exact (ns_trans _ _ _ _ S S1).
      * rewrite zlen_app. change (zlen [NEnd m r']) with 1%Z. lia.
      * apply in_app_iff. left. exact Hb.
      * rewrite (En t) by congruence. exact Nw.
      * exact Lk1.
      * exists v', r, [NEnd m r']. rewrite app_assoc. split; [exact (ns_trans _ _ _ _ S1 S')|]. split.
        -- right. exists m, r'. split; [reflexivity|]. intro X. exact (N1 (Upl X)).
        -- split; [|exact Nn]. intro X. apply N'. rewrite Eu. exact (Upl X).
  - destruct (Free v L S ltac:(lia) Hb Nw Lk) as (v' & r & S' & N' & _ & _ & Nn & _). exists v', r, []. split; [exact S'|]. split; [left; reflexivity|]. split; [|exact Nn]. intro X. exact (N' (Upl X)).
Qed.
(** Whatever has happened so far - connections lost in the middle of requests and of replies, other
    goroutines waiting - every call that has begun and has not returned can return, after at most one other
    call has; and on an object whose connection is not lost, with something else than an io error. *)
Theorem C101_every_call_can_return : forall pr name c h progs v L n t i o,
  wf PMeta c -> (forall t, Forall (fun x => whole (pr (fst x)) c (snd x) /\ common (snd x)) (progs t)) -> (forall i, rq_cas (h i) = 0%Z) -> (c_cas c + zlen L + 2 < 2 ^ 63)%Z ->
  nsteps (speaking pr name) (many_started c h progs, []) (v, L) ->
  In (NBegin n t i o) L -> (forall r, ~ In (NEnd n r) L) ->
  exists v' r others, nsteps (speaking pr name) (v, L) (v', L ++ others ++ [NEnd n r])
    /\ (others = [] \/ exists n' r', others = [NEnd n' r'] /\ (~ In (NLoss i) L -> r' <> Err EIO))
    /\ (~ In (NLoss i) L -> r <> Err EIO).
Proof.
  intros pr name c h progs v L n t i o W Hl H0 Hc S Hb Hn.
  assert (Nw : n_now v t = Some n). { destruct (began_now _ _ _ S eq_refl _ _ _ _ Hb) as [A|[r A]]; [exact A|]. elim (Hn r A). }
  destruct (can_return pr name c h progs v L n t i o W Hl H0 Hc S Hb Nw) as (v' & r & others & S' & A & B & _). exists v', r, others. repeat (split; [assumption|]). exact B.
Qed.
Print Assumptions C101_every_call_can_return.

(** So every goroutine can make all the calls it is to make, and all of them return. *)
Lemma rest_of : forall pr name c h progs v L t, wf PMeta c -> (forall t, Forall (fun x => whole (pr (fst x)) c (snd x) /\ common (snd x)) (progs t)) -> (forall i, rq_cas (h i) = 0%Z) -> (c_cas c + zlen L + 1 < 2 ^ 63)%Z ->
  nsteps (speaking pr name) (many_started c h progs, []) (v, L) -> called t L ++ n_todo v t = progs t /\ forall n, n_now v t = Some n -> exists i o, In (NBegin n t i o) L.
Proof.
  intros pr name c h progs v L t W Hl H0 Hc S. destruct (ninv_steps pr name c h progs Hl _ S W H0 Hc) as (M & info & eff & Ri & _ & _ & _ & _ & _ & _ & If & _ & _ & _ & Cd & G & _). cbn [fst snd] in *.
  split; [apply Cd|]. intros n Nw. specialize (G t). unfold goro in G. rewrite Nw in G. destruct G as (i & o & In' & _). destruct (If _ _ _ _ In') as (Ib & _). exists i, o. rewrite <- (proj1 Ri). apply saw_in. exact Ib.
Qed.
Lemma can_rest : forall pr name c h progs v L t,
  wf PMeta c -> (forall t, Forall (fun x => whole (pr (fst x)) c (snd x) /\ common (snd x)) (progs t)) -> (forall i, rq_cas (h i) = 0%Z) -> (c_cas c + zlen L + 3 < 2 ^ 63)%Z ->
  nsteps (speaking pr name) (many_started c h progs, []) (v, L) ->
  exists v' E, nsteps (speaking pr name) (v, L) (v', L ++ E) /\ (zlen E <= 2)%Z /\ n_now v' t = None /\ n_todo v' t = n_todo v t.
Proof.
  intros pr name c h progs v L t W Hl H0 Hc S. destruct (rest_of pr name c h progs v L t W Hl H0 ltac:(lia) S) as (Td & Ib). destruct (n_now v t) as [n|] eqn:Nw.
  - destruct (Ib n eq_refl) as (i & o & Hb). destruct (can_return pr name c h progs v L n t i o W Hl H0 ltac:(lia) S Hb Nw) as (v' & r & others & S' & A & _ & Nn).
    exists v', (others ++ [NEnd n r]). assert (Ze : (zlen (others ++ [NEnd n r]) <= 2)%Z) by (destruct A as [->|(n' & r' & -> & _)]; discriminate).
    assert (Ce : called t (others ++ [NEnd n r]) = []) by (destruct A as [->|(n' & r' & -> & _)]; reflexivity).
    split; [exact S'|]. split; [exact Ze|]. split; [exact Nn|]. destruct (rest_of pr name c h progs v' (L ++ others ++ [NEnd n r]) t W Hl H0) as (Td' & _); [rewrite zlen_app; lia|exact (ns_trans _ _ _ _ S S')|].
    rewrite called_app, Ce, app_nil_r, <- Td in Td'. apply app_inv_head in Td'. exact Td'.
  - exists v, []. rewrite app_nil_r. split; [apply ns_refl|]. split; [discriminate|]. split; [exact Nw|reflexivity].
Qed.
Theorem C101_every_goroutine_can_finish : forall pr name c h progs v L t,
  wf PMeta c -> (forall t, Forall (fun x => whole (pr (fst x)) c (snd x) /\ common (snd x)) (progs t)) -> (forall i, rq_cas (h i) = 0%Z) -> (c_cas c + zlen L + 3 * zlen (progs t) + 3 < 2 ^ 63)%Z ->
  nsteps (speaking pr name) (many_started c h progs, []) (v, L) ->
  exists v' E, nsteps (speaking pr name) (v, L) (v', L ++ E) /\ called t (L ++ E) = progs t /\ forall n i o, In (NBegin n t i o) (L ++ E) -> exists r, In (NEnd n r) (L ++ E).
Proof.
  intros pr name c h progs v L t W Hl H0 Hc S.
  assert (Main : forall k v L, length (n_todo v t) = k -> (c_cas c + zlen L + 3 * Z.of_nat k + 3 < 2 ^ 63)%Z -> nsteps (speaking pr name) (many_started c h progs, []) (v, L) ->
            exists v' E, nsteps (speaking pr name) (v, L) (v', L ++ E) /\ (zlen E <= 3 * Z.of_nat k + 2)%Z /\ n_now v' t = None /\ n_todo v' t = []).
  { clear - W Hl H0. induction k as [|k IH]; intros v L Ek Hc S; destruct (can_rest pr name c h progs v L t W Hl H0 ltac:(lia) S) as (v1 & E1 & S1 & Ze & Nn & Td).
    - exists v1, E1. split; [exact S1|]. split; [lia|]. split; [exact Nn|]. rewrite Td. destruct (n_todo v t); [reflexivity|discriminate Ek].
    - destruct (n_todo v t) as [|[i o] os]; [discriminate Ek|]. injection Ek as Ek. pose proof (N_begin (speaking pr name) v1 (L ++ E1) t i o os Nn Td) as S2.
      destruct (fun X Y => IH _ _ X Y (ns_step _ _ _ _ (ns_trans _ _ _ _ S S1) S2)) as (v' & E2 & S3 & Z2 & A & B);
        [cbn [n_todo]; rewrite put_same; exact Ek|rewrite !zlen_app; change (zlen [NBegin (n_next v1) t i o]) with 1%Z; lia|].
      exists v', (E1 ++ [NBegin (n_next v1) t i o] ++ E2). rewrite <- !app_assoc in S3. split; [|split; [rewrite !zlen_app; change (zlen [NBegin (n_next v1) t i o]) with 1%Z; lia|split; [exact A|exact B]]]. exact (ns_trans _ _ _ _ S1 (ns_front _ _ _ _ ltac:(rewrite <- app_assoc in S2; exact S2) S3)). }
  destruct (rest_of pr name c h progs v L t W Hl H0 ltac:(unfold zlen in *; lia) S) as (Td & _).
  destruct (Main (length (n_todo v t)) v L eq_refl) as (v' & E & S' & Ze & Nn & Tn); [|exact S|].
  { rewrite <- Td, zlen_app in Hc. unfold zlen in *. lia. }
  exists v', E. split; [exact S'|]. pose proof (ns_trans _ _ _ _ S S') as S2. split; [|intros n i o Hb; destruct (began_now _ _ _ S2 eq_refl _ _ _ _ Hb) as [A|A]; [cbn [fst] in A; congruence|exact A]].
  destruct (rest_of pr name c h progs v' (L ++ E) t W Hl H0) as (Td' & _); [|exact S2|rewrite Tn, app_nil_r in Td'; exact Td'].
  rewrite <- Td in Hc. rewrite !zlen_app in *. unfold zlen in *. lia.
Qed.
Print Assumptions C101_every_goroutine_can_finish.

(** The hypotheses are met: a connection is lost in the middle of a request while another goroutine waits. *)
Definition two_at_once (t : nat) : list (nat * op) :=
  match t with O => [(0, OSet (demo_item "hello" "one" 7 0 0))] | 1 => [(0, OGet (B "hello"))] | _ => [] end.
Definition waiting_log : list nevent :=
  [NBegin 0 0 0 (OSet (demo_item "hello" "one" 7 0 0)); NBegin 1 1 0 (OGet (B "hello")); NLoss 0].
Lemma demo_waiting : exists v, nsteps (speaking mixed mixed_names) (many_started demo_c (fun _ => reset_header) two_at_once, []) (v, waiting_log) /\ cs_lock (n_object v 0) = Some 0 /\ n_up v 0 = false.
Proof.
  eexists. split.
  - unfold many_started, started, waiting_log.
    nquick ltac:(eapply (N_begin _ _ _ 0 0); reflexivity). nquick ltac:(eapply (N_begin _ _ _ 1 0); reflexivity).
    nquick ltac:(eapply (m_lock _ _ _ 0 0); [reflexivity|reflexivity|reflexivity|vm_compute; reflexivity]).
    nquick ltac:(eapply (m_send _ _ _ 0 0); reflexivity).
    nquick ltac:(eapply (N_loss _ _ _ 0 (B "set hel") _ [] []); [reflexivity|vm_compute; reflexivity|reflexivity]). apply ns_refl.
  - cbn. split; reflexivity.
Qed.
Example C101_met : (exists v, nsteps (speaking mixed mixed_names) (many_started demo_c (fun _ => reset_header) two_at_once, []) (v, waiting_log) /\ cs_lock (n_object v 0) = Some 0 /\ n_up v 0 = false)
  /\ wf PMeta demo_c /\ (forall t, Forall (fun x => whole (mixed (fst x)) demo_c (snd x) /\ common (snd x)) (two_at_once t)) /\ rq_cas reset_header = 0%Z /\ (c_cas demo_c + zlen waiting_log + 2 < 2 ^ 63)%Z
  /\ (c_cas demo_c + zlen waiting_log + 3 * zlen (two_at_once 1) + 3 < 2 ^ 63)%Z
  /\ In (NBegin 1 1 0 (OGet (B "hello"))) waiting_log /\ (forall r, ~ In (NEnd 1 r) waiting_log).
Proof.
  split; [exact demo_waiting|]. split; [exact demo_meta_wf|]. split.
  { intros [|[|t]]; repeat constructor; cbn [fst snd mixed whole legal one_command]; try discriminate; try legal_tac. }
  split; [reflexivity|]. split; [reflexivity|]. split; [reflexivity|]. split; [right; left; reflexivity|]. intros r [X|[X|[X|[]]]]; discriminate X.
Qed.
