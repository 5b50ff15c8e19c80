(** * C88: a silent backend delays only the requests for its keys. *)
From Verif Require Import GoBytes GoNum GoIO Item ClientText ClientMeta Cache Daemon Spec Call Guard Hash Ring RingSpec RingData Pool PoolSpec Replica ReplicaSpec
  ServerTypes ServerParse ServerWrite Serve ServerConc ServerSpec Proxy RouterConc RouterWait PLib PDaemon PCache PMeta PClient PRing PPool PMulti PReplica PServer PServe PropServer PropServerConc
  PropReplica PropProxy PropRouter PropRouterLin PropRouterRest PropRouterSync PropRouterFail.
Local Open Scope Z_scope.

Definition all_but (b : nat) : nat -> Prop := fun id => id <> b.
Definition everyone : nat -> Prop := fun _ => True.

(** ** Locks *)
Lemma set_holder_same : forall f id x, set_holder f id x id = x.
Proof. intros. unfold set_holder. rewrite Nat.eqb_refl. reflexivity. Qed.
Lemma set_holder_other : forall f id x j, j <> id -> set_holder f id x j = f j.
Proof. intros f id x j N. unfold set_holder. apply Nat.eqb_neq in N. rewrite N. reflexivity. Qed.
Lemma snoc_not : forall A (l : list A) x, l <> l ++ [x].
Proof. intros A l x E. apply (f_equal (@length _)) in E. rewrite app_length in E. cbn in E. lia. Qed.
Lemma snoc_inj : forall A (l : list A) x y, l ++ [x] = l ++ [y] -> x = y.
Proof. intros A l x y E. apply app_inv_head in E. congruence. Qed.
Lemma wsteps_trans : forall ST (step : ST -> op -> ST * outcome result) later pn sn an a b c, wsteps step later pn sn an a b -> wsteps step later pn sn an b c -> wsteps step later pn sn an a c.
Proof. intros ST step later pn sn an a b c H G. induction G as [|b u x G IH S]; [exact H|]. exact (w_step _ _ _ _ _ _ _ _ (IH H) S). Qed.
Lemma wsteps_more : forall ST (step : ST -> op -> ST * outcome result) later pn sn (an an' : nat -> Prop) a b, (forall id, an id -> an' id) -> wsteps step later pn sn an a b -> wsteps step later pn sn an' a b.
Proof.
  intros ST step later pn sn an an' a b H G. induction G as [|b u x G IH S]; [apply w_refl|]. eapply w_step; [exact IH|].
  destruct S; [apply W_step; assumption|eapply W_take; eassumption|eapply W_answer; try eassumption; auto].
Qed.

(** A mutex is held by a goroutine that is in a call on that backend. *)
Definition in_call {ST} (v : router_state ST) (i id : nat) : Prop :=
  exists s p out q sv o k, rt_conns v i = mkSC s p (Calling q) out /\ rt_prog v i = Call sv o k /\ sv_id sv = id.
Definition locks_ok {ST} (x : wait_state ST) : Prop := forall id i, wt_holder x id = Some i -> in_call (wt_router x) i id.

Lemma stays_in_call : forall ST (step : ST -> op -> ST * outcome result) later pn sn v u i id, rtstep step later pn sn v u -> no_call v u -> in_call v i id -> in_call u i id
  /\ rt_conns u i = rt_conns v i /\ rt_prog u i = rt_prog v i.
Proof.
  intros ST step later pn sn v u i id S N C. assert (X : rt_conns u i = rt_conns v i /\ rt_prog u i = rt_prog v i).
  2: { split; [|exact X]. destruct X as [X1 X2]. unfold in_call. rewrite X1, X2. exact C. }
  destruct C as (s & p & out & q & sv & o & k & Hc & Hp & _).
  destruct S as [v j s' p' out' D Ls Hc'|v D Ls|v j x' q' D Mv Ph|v j s' p' out' q' sv' o' k' D Hc' Hp' wr|v j s' p' out' q' r D Hc' Hp'|v j x' D Mv Cl|v d D Dd]; cbn [rt_conns rt_prog].
  - destruct (Nat.eq_dec i j) as [->|Ne]; [rewrite Hc in Hc'; discriminate Hc'|]. rewrite set_conn_other by exact Ne. split; reflexivity.
  - split; reflexivity.
  - destruct (Nat.eq_dec i j) as [->|Ne]; [rewrite Hc in Mv; inversion Mv|]. rewrite set_conn_other, set_prog_other by exact Ne. split; reflexivity.
  - exfalso. apply (N j sv' o' (snd wr)). reflexivity.
  - destruct (Nat.eq_dec i j) as [->|Ne]; [rewrite Hp in Hp'; discriminate Hp'|]. rewrite set_conn_other by exact Ne. split; reflexivity.
  - destruct (Nat.eq_dec i j) as [->|Ne]; [rewrite Hc in Mv; inversion Mv|]. rewrite set_conn_other by exact Ne. split; reflexivity.
  - split; reflexivity.
Qed.
Lemma locks_step : forall ST (step : ST -> op -> ST * outcome result) later pn sn an x y, wstep step later pn sn an x y -> locks_ok x -> locks_ok y.
Proof.
  intros ST step later pn sn an x y S L id j H. destruct S as [v u hd S N|v hd i s p out q sv o k D Hc Hp Hf|v hd i s p out q sv o k D Hc Hp Hh An wr]; cbn [wt_router wt_holder] in *.
  - eapply stays_in_call; [exact S|exact N|]. exact (L id j H).
  - destruct (Nat.eq_dec id (sv_id sv)) as [->|Ne]; [rewrite set_holder_same in H; injection H as <-; exists s, p, out, q, sv, o, k; auto|rewrite set_holder_other in H by exact Ne; exact (L id j H)].
  - destruct (Nat.eq_dec id (sv_id sv)) as [->|Ne]; [rewrite set_holder_same in H; discriminate H|]. rewrite set_holder_other in H by exact Ne.
    destruct (L id j H) as (s' & p' & out' & q' & sv' & o' & k' & Hc' & Hp' & Ei). cbn [wt_router] in Hc', Hp'. exists s', p', out', q', sv', o', k'. cbn [wt_router rt_conns rt_prog]. split; [exact Hc'|].
    destruct (Nat.eq_dec j i) as [->|Nj]; [rewrite Hp in Hp'; injection Hp' as <- _ _; congruence|]. rewrite set_prog_other by exact Nj. split; [exact Hp'|exact Ei].
Qed.
Lemma locks_steps : forall ST (step : ST -> op -> ST * outcome result) later pn sn an x y, wsteps step later pn sn an x y -> locks_ok x -> locks_ok y.
Proof. intros ST step later pn sn an x y S L. induction S as [|x u y S IH St]; [exact L|]. eapply locks_step; [exact St|exact (IH L)]. Qed.
Lemma locks_start : forall ST (w : world ST) streams, locks_ok (waiting_started w streams).
Proof. intros ST w streams id i H. discriminate H. Qed.

(** ** C88 *)
(** The locks add no behaviour and take none away: the runs are those of C76 to C87, whoever answers first. *)
Theorem C88_locks_change_nothing : forall ST (step : ST -> op -> ST * outcome result) later pn sn w streams v,
  (exists hd, wsteps step later pn sn everyone (waiting_started w streams) (mkW v hd)) <-> rtsteps step later pn sn (router_started w streams) v.
Proof.
  intros ST step later pn sn w streams v. split.
  - intros [hd S]. remember (waiting_started w streams) as x eqn:Ex. remember (mkW v hd) as y eqn:Ey. revert v hd Ey. induction S as [x|x u y S IH St]; intros v hd Ey; subst.
    + injection Ey as <- _. apply rt_refl.
    + destruct u as [v0 hd0]. specialize (IH eq_refl v0 hd0 eq_refl).
      inversion St as [? u0 ? S0 N|? ? i s p out q sv o k D Hc Hp Hf|? ? i s p out q sv o k D Hc Hp Hh An]; subst.
      * eapply rt_step; eassumption.
      * exact IH.
      * eapply rt_step; [exact IH|]. eapply Rt_call; eassumption.
  - intro S. assert (G : exists hd, (forall id, hd id = None) /\ wsteps step later pn sn everyone (waiting_started w streams) (mkW v hd)).
    2: { destruct G as (hd & _ & G). exists hd. exact G. }
    unfold waiting_started. remember (router_started w streams) as v0 eqn:E0. induction S as [v|v u t S IH St]; [exists (fun _ => None); split; [reflexivity|apply w_refl]|]. destruct (IH E0) as (hd & Hd & IHs). clear IH.
    assert (Cs : no_call u t \/ exists i sv o a, rt_log t = rt_log u ++ [ECall i sv o a]).
    { destruct St; cbn [rt_log]; try (left; intros ? ? ? ? E; cbn [rt_log] in E; try (exact (snoc_not _ _ _ E)); apply snoc_inj in E; discriminate E). right. eauto. }
    destruct Cs as [N|(i0 & sv0 & o0 & a0 & El)]; [exists hd; split; [exact Hd|]; eapply w_step; [exact IHs|apply W_step; assumption]|].
    destruct St as [u j s' p' out' D Ls Hc'|u D Ls|u j x' q' D Mv Ph|u j s p out q sv o k D Hc Hp wr|u j s' p' out' q' r D Hc' Hp'|u j x' D Mv Cl|u d D Dd]; cbn [rt_log] in El;
      try (exfalso; exact (snoc_not _ _ _ El)); try (exfalso; apply snoc_inj in El; discriminate El).
    pose proof (W_take step later pn sn everyone u hd j s p out q sv o k D Hc Hp (Hd _)) as S1.
    pose proof (W_answer step later pn sn everyone u _ j s p out q sv o k D Hc Hp (set_holder_same hd (sv_id sv) (Some j)) Logic.I) as S2. cbn zeta in S2.
    eexists. split; [|exact (w_step _ _ _ _ _ _ _ _ (w_step _ _ _ _ _ _ _ _ IHs S1) S2)].
    intro id. destruct (Nat.eq_dec id (sv_id sv)) as [->|Ne]; [apply set_holder_same|rewrite !set_holder_other by exact Ne; apply Hd].
Qed.
Print Assumptions C88_locks_change_nothing.

(** A backend that does not answer: a request that waits for it waits for ever ... *)
Theorem C88_waits_for_ever : forall ST (step : ST -> op -> ST * outcome result) later pn sn b x y i,
  wsteps step later pn sn (all_but b) x y -> in_call (wt_router x) i b ->
  rt_conns (wt_router y) i = rt_conns (wt_router x) i /\ in_call (wt_router y) i b.
Proof.
  intros ST step later pn sn b x y i S C. induction S as [x|x u y S IH St]; [split; [reflexivity|exact C]|]. destruct (IH C) as [E Cu]. clear IH.
  destruct St as [v u hd St N|v hd j s p out q sv o k D Hc Hp Hf|v hd j s p out q sv o k D Hc Hp Hh An wr]; cbn [wt_router] in *.
  - destruct (stays_in_call _ _ _ _ _ _ _ _ _ St N Cu) as (C' & E' & _). split; [congruence|exact C'].
  - split; [exact E|exact Cu].
  - cbn [rt_conns]. split; [exact E|]. destruct Cu as (s' & p' & out' & q' & sv' & o' & k' & Hc' & Hp' & Ei). exists s', p', out', q', sv', o', k'. cbn [rt_conns rt_prog]. split; [exact Hc'|].
    destruct (Nat.eq_dec i j) as [->|Ne]; [exfalso; rewrite Hp in Hp'; injection Hp' as -> _ _; exact (An Ei)|]. rewrite set_prog_other by exact Ne. split; [exact Hp'|exact Ei].
Qed.
Print Assumptions C88_waits_for_ever.

Lemma never_called : forall ST (step : ST -> op -> ST * outcome result) later pn sn b x y, wsteps step later pn sn (all_but b) x y ->
  (forall n i sv o a, at_ (rt_log (wt_router x)) n (ECall i sv o a) -> sv_id sv <> b) -> forall n i sv o a, at_ (rt_log (wt_router y)) n (ECall i sv o a) -> sv_id sv <> b.
Proof.
  intros ST step later pn sn b x y S H. induction S as [x|x u y S IH St]; [exact H|]. specialize (IH H).
  destruct St as [v u hd St N|v hd j s p out q sv o k D Hc Hp Hf|v hd j s p out q sv o k D Hc Hp Hh An wr]; cbn [wt_router] in *; [|exact IH|].
  - destruct (log_grows _ _ _ _ _ _ _ St) as (l & El & Ll). intros n i sv o a A. rewrite El in A. destruct l as [|e [|]]; [rewrite app_nil_r in A; exact (IH _ _ _ _ _ A)| |cbn in Ll; lia].
    apply at_snoc in A. destruct A as [A|[_ <-]]; [exact (IH _ _ _ _ _ A)|]. exfalso. exact (N i sv o a El).
  - cbn [rt_log]. intros n i sv' o' a A. apply at_snoc in A. destruct A as [A|[_ A]]; [exact (IH _ _ _ _ _ A)|]. injection A as _ -> _ _. exact An.
Qed.
Lemma to_router : forall ST (step : ST -> op -> ST * outcome result) later pn sn an w streams x,
  wsteps step later pn sn an (waiting_started w streams) x -> rtsteps step later pn sn (router_started w streams) (wt_router x).
Proof.
  intros ST step later pn sn an w streams x S. apply C88_locks_change_nothing. exists (wt_holder x). destruct x as [v hd]. cbn [wt_router wt_holder].
  eapply wsteps_more; [|exact S]. intros; exact Logic.I.
Qed.
Lemma read_sane : forall ST (step : ST -> op -> ST * outcome result) later pn sn w streams v, rtsteps step later pn sn (router_started w streams) v ->
  forall n i q, at_ (rt_log v) n (ERead i q) -> sane q.
Proof.
  intros ST step later pn sn w streams v S. remember (router_started w streams) as v0 eqn:E0. induction S as [v|v u t S IH St]; subst; [intros n i q A; destruct n; discriminate A|]. specialize (IH eq_refl).
  destruct St as [u j s' p' out' D Ls Hc'|u D Ls|u j x' q' D Mv Ph|u j s p out q sv o k D Hc Hp wr|u j s' p' out' q' r D Hc' Hp'|u j x' D Mv Cl|u d D Dd]; cbn [rt_log]; try exact IH;
    intros n i q0 A; apply at_snoc in A; destruct A as [A|[_ A]]; try exact (IH _ _ _ A); try discriminate A.
  injection A as <- <-. inversion Mv; subst; cbn in Ph; try discriminate Ph. injection Ph as ->. eapply read_flags. eassumption.
Qed.
(** ... so, if a backend never answers from the start, no get or set of a key whose primary it is is ever answered, and
    no set of a key whose secondary it is, unless the primary refuses it. *)
Theorem C88_its_keys_are_never_answered : forall ST (step : ST -> op -> ST * outcome result) later ps ss pn sn b w streams x n i q r,
  two_rings ps ss pn sn -> wsteps step later pn sn (all_but b) (waiting_started w streams) x -> at_ (rt_log (wt_router x)) n (EAnswer i q r) ->
  (q_opcode q = OpcGet \/ q_opcode q = OpcSet -> forall p, pick pn (q_key q) = Ok p -> sv_id p <> b)
  /\ (q_opcode q = OpcSet -> forall s, pick sn (q_key q) = Ok s -> sv_id s = b ->
      exists c p o a, pick pn (q_key q) = Ok p /\ (c < n)%nat /\ at_ (rt_log (wt_router x)) c (ECall i p (OSet (proxy_item q o)) a) /\ (forall res, a <> Ok res) /\ r = proxy_answer q a).
Proof.
  intros ST step later ps ss pn sn b w streams x n i q r R Sx A. pose proof (to_router _ _ _ _ _ _ _ _ _ Sx) as Sv.
  assert (Nc : forall n i sv o a, at_ (rt_log (wt_router x)) n (ECall i sv o a) -> sv_id sv <> b) by (apply (never_called _ _ _ _ _ _ _ _ Sx); intros m j sv o a Q; destruct m; discriminate Q).
  destruct (C76_requests_take_effect_once ST step later ps ss pn sn w streams _ R Sv n i q r A) as (m & r0 & Lm & Am & Hd & Er).
  pose proof (read_sane _ _ _ _ _ _ _ _ Sv m i q Am) as [_ Sq].
  destruct Hd as [c p a Oq Pp Rc Ac _ _|c p o a Oq Qs Pp Rc Ac Na _ _|c c2 p s o y a Oq Qs Pp Ps Rc Rc2 Ac Ac2 _ _ _|Oq Qs _|Np _].
  - split; [|intro Q; congruence]. intros _ p' Pp'. rewrite Pp in Pp'. injection Pp' as <-. exact (Nc _ _ _ _ _ Ac).
  - split; [intros _ p' Pp'; rewrite Pp in Pp'; injection Pp' as <-; exact (Nc _ _ _ _ _ Ac)|]. intros _ s Ps Es. exists c, p, o, a. split; [exact Pp|]. split; [lia|]. auto.
  - split; [intros _ p' Pp'; rewrite Pp in Pp'; injection Pp' as <-; exact (Nc _ _ _ _ _ Ac)|]. intros _ s' Ps' Es. exfalso. rewrite Ps in Ps'. injection Ps' as <-. exact (Nc _ _ _ _ _ Ac2 Es).
  - exfalso. exact (Sq Oq Qs).
  - split; [intros [Q|Q]; rewrite Q in Np; discriminate Np|]. intro Q. rewrite Q in Np. discriminate Np.
Qed.
Print Assumptions C88_its_keys_are_never_answered.

(** ** The others *)
(** A request that needs nothing from backend [b]: a get needs the primary of its key, a set also the secondary. *)
Definition avoids (pn sn : list node) (b : nat) (q : srequest) : Prop :=
  (q_opcode q = OpcGet \/ q_opcode q = OpcSet -> forall p, pick pn (q_key q) = Ok p -> sv_id p <> b)
  /\ (q_opcode q = OpcSet -> forall s, pick sn (q_key q) = Ok s -> sv_id s <> b).
Fixpoint avoiding (b : nat) (p : prog) : Prop := match p with Ret _ => True | Call sv _ k => sv_id sv <> b /\ forall a, avoiding b (k a) end.
Lemma avoids_prog : forall pn sn b q, avoids pn sn b q -> avoiding b (proxy_prog pn sn q).
Proof.
  intros pn sn b q [A1 A2]. unfold proxy_prog. destruct (q_opcode q) eqn:Oq; try exact Logic.I.
  - cbn [rp_prog]. unfold rp_get, on_ring. destruct (pick pn (q_key q)) as [p| |] eqn:Pp; try exact Logic.I. split; [apply (A1 (or_introl eq_refl) p eq_refl)|intro; exact Logic.I].
  - destruct (q_set q) as [o|]; [|exact Logic.I]. cbn [rp_prog]. unfold rp_store, on_ring. cbn [proxy_item it_key]. destruct (pick pn (q_key q)) as [p| |] eqn:Pp; try exact Logic.I.
    split; [apply (A1 (or_intror eq_refl) p eq_refl)|]. intros [x|e|]; try exact Logic.I. cbn [if_ok]. destruct (pick sn (q_key q)) as [s| |] eqn:Ps; try exact Logic.I. split; [apply (A2 eq_refl s eq_refl)|intro; exact Logic.I].
Qed.

Section Others.
Context {ST : Type}.
Variable step : ST -> op -> ST * outcome result.
Variable later : ST -> Z -> ST.
Variable pn sn : list node.
Variable b : nat.
Local Notation runs := (wsteps step later pn sn (all_but b)).
(** What is kept on the way: the process is up, the locks are in order, connection [i] holds none. *)
Definition fine (i : nat) (x : wait_state ST) : Prop := rt_down (wt_router x) = false /\ locks_ok x /\ forall id, wt_holder x id <> Some i.

Lemma freed : forall i x id, fine i x -> id <> b -> exists y, runs x y /\ fine i y /\ wt_holder y id = None /\ rt_conns (wt_router y) = rt_conns (wt_router x) /\ rt_prog (wt_router y) i = rt_prog (wt_router x) i.
Proof.
  intros i [v hd] id (D & L & F) N. cbn [wt_router wt_holder] in *. destruct (hd id) as [j|] eqn:Hj.
  2: { exists (mkW v hd). split; [apply w_refl|]. split; [split; [exact D|split; [exact L|exact F]]|]. auto. }
  destruct (L id j Hj) as (s & p & out & q & sv & o & k & Hc & Hp & Ei). cbn [wt_router] in Hc, Hp. subst id.
  pose proof (W_answer step later pn sn (all_but b) v hd j s p out q sv o k D Hc Hp Hj N) as S1. cbn zeta in S1.
  eexists. split; [exact (w_step _ _ _ _ _ _ _ _ (w_refl _ _ _ _ _ _) S1)|]. split; [split; [reflexivity|split]|].
  - eapply locks_step; [exact S1|exact L].
  - cbn [wt_holder]. intros id Q. destruct (Nat.eq_dec id (sv_id sv)) as [->|Ne]; [rewrite set_holder_same in Q; discriminate Q|rewrite set_holder_other in Q by exact Ne; exact (F id Q)].
  - cbn [wt_holder wt_router rt_conns rt_prog]. split; [apply set_holder_same|]. split; [reflexivity|]. apply set_prog_other. intros ->. exact (F _ Hj).
Qed.
Lemma call_through : forall i x s p out q sv o k, fine i x -> rt_conns (wt_router x) i = mkSC s p (Calling q) out -> rt_prog (wt_router x) i = Call sv o k -> sv_id sv <> b ->
  exists y a, runs x y /\ fine i y /\ rt_conns (wt_router y) i = mkSC s p (Calling q) out /\ rt_prog (wt_router y) i = k a.
Proof.
  intros i x s p out q sv o k Fx Hc Hp N. destruct (freed i x (sv_id sv) Fx N) as ([v hd] & S1 & (D & L & F) & Hf & Ec & Ep). cbn [wt_router wt_holder] in *. rewrite Hp in Ep.
  assert (Hc' : rt_conns v i = mkSC s p (Calling q) out) by (rewrite Ec; exact Hc).
  pose proof (W_take step later pn sn (all_but b) v hd i s p out q sv o k D Hc' Ep Hf) as S2. pose proof (locks_step _ _ _ _ _ _ _ _ S2 L) as L2.
  pose proof (W_answer step later pn sn (all_but b) v _ i s p out q sv o k D Hc' Ep (set_holder_same hd (sv_id sv) (Some i)) N) as S3. cbn zeta in S3. pose proof (locks_step _ _ _ _ _ _ _ _ S3 L2) as L3.
  eexists. exists (snd (server_call step (rt_world v) sv o)). split; [exact (w_step _ _ _ _ _ _ _ _ (w_step _ _ _ _ _ _ _ _ S1 S2) S3)|]. split; [split; [reflexivity|split; [exact L3|]]|].
  - cbn [wt_holder]. intros id Q. destruct (Nat.eq_dec id (sv_id sv)) as [->|Ne]; [rewrite set_holder_same in Q; discriminate Q|rewrite !set_holder_other in Q by exact Ne; exact (F id Q)].
  - cbn [wt_router rt_conns rt_prog]. split; [exact Hc'|apply set_prog_same].
Qed.
Lemma run_through : forall i s p out q pr x, fine i x -> rt_conns (wt_router x) i = mkSC s p (Calling q) out -> rt_prog (wt_router x) i = pr -> avoiding b pr ->
  exists y r, runs x y /\ fine i y /\ rt_conns (wt_router y) i = mkSC s p (Calling q) out /\ rt_prog (wt_router y) i = Ret r.
Proof.
  intros i s p out q pr. induction pr as [r|sv o k IH]; intros x F Hc Hp Av; [exists x, r; split; [apply w_refl|]; auto|]. destruct Av as [N Av].
  destruct (call_through i x s p out q sv o k F Hc Hp N) as (y & a & S1 & Fy & Hcy & Hpy). destruct (IH a y Fy Hcy Hpy (Av a)) as (z & r & S2 & Fz & Hcz & Hpz).
  exists z, r. split; [eapply wsteps_trans; eassumption|]. auto.
Qed.
End Others.
(** ... while every other request can be served without its help, whatever state the router is in and
    however many goroutines wait for [b]: only calls that are under way need to end. In particular gets of
    keys whose secondary is silent. *)
Theorem C88_others_are_served : forall ST (step : ST -> op -> ST * outcome result) later pn sn b w streams x i s p out q s' p',
  wsteps step later pn sn everyone (waiting_started w streams) x -> rt_down (wt_router x) = false ->
  rt_conns (wt_router x) i = mkSC s p Reading out -> read_request p s = ((Ok q, s'), p') -> avoids pn sn b q ->
  exists y r, wsteps step later pn sn (all_but b) x y /\ rt_conns (wt_router y) i = mkSC s' p' (Answered q r) out.
Proof.
  intros ST step later pn sn b w streams x i s p out q s' p' Sx D Hc E Av. pose proof (locks_steps _ _ _ _ _ _ _ _ Sx (locks_start _ _ _)) as L.
  assert (F : forall id, wt_holder x id <> Some i) by (intros id Q; destruct (L id i Q) as (s1 & p1 & o1 & q1 & sv & o & k & Hc1 & _); rewrite Hc in Hc1; discriminate Hc1).
  destruct x as [v hd]. cbn [wt_router wt_holder] in *.
  assert (M : move no_handler tt (rt_conns v i) tt (mkSC s' p' (Calling q) out) []) by (rewrite Hc; apply M_read; exact E).
  pose proof (Rt_read step later pn sn v i _ q D M eq_refl) as S1.
  match type of S1 with rtstep _ _ _ _ _ ?uu => set (u := uu) in * end.
  assert (W1 : wstep step later pn sn (all_but b) (mkW v hd) (mkW u hd)) by (apply W_step; [exact S1|]; intros j sv o a Q; unfold u in Q; cbn [rt_log] in Q; apply snoc_inj in Q; discriminate Q).
  assert (Fu : fine i (mkW u hd)) by (split; [reflexivity|]; split; [eapply locks_step; [exact W1|exact L]|exact F]).
  destruct (run_through step later pn sn b i s' p' out q (proxy_prog pn sn q) (mkW u hd) Fu) as ([y hy] & r & S2 & (Dy & _) & Hcy & Hpy).
  - cbn [wt_router u rt_conns]. apply set_conn_same.
  - cbn [wt_router u rt_prog]. apply set_prog_same.
  - apply avoids_prog. exact Av.
  - cbn [wt_router] in *. pose proof (Rt_return step later pn sn y i s' p' out q r Dy Hcy Hpy) as S3.
    eexists. exists (proxy_answer q r). split.
    + eapply w_step; [eapply wsteps_trans; [exact (w_step _ _ _ _ _ _ _ _ (w_refl _ _ _ _ _ _) W1)|exact S2]|]. apply W_step; [exact S3|]. intros j sv o a Q. cbn [rt_log] in Q. apply snoc_inj in Q. discriminate Q.
    + cbn [wt_router rt_conns]. apply set_conn_same.
Qed.
Print Assumptions C88_others_are_served.

(** The hypotheses are met: client 0 sets x, the primary has stored it, the secondary (backend 1) is silent;
    client 1 gets x. *)
Example C88_met : two_rings [sv_a] [sv_b] prim_a sec_b
  /\ exists x, wsteps meta_server link_tick prim_a sec_b everyone (waiting_started new_memcacheds set_and_get) x
     /\ rt_down (wt_router x) = false /\ in_call (wt_router x) 0 1
     /\ exists s p out q s' p', rt_conns (wt_router x) 1%nat = mkSC s p Reading out /\ read_request p s = ((Ok q, s'), p') /\ q_opcode q = OpcGet /\ avoids prim_a sec_b 1 q.
Proof.
  split; [apply rings_a_b|].
  cut (exists v, rtsteps meta_server link_tick prim_a sec_b (router_started new_memcacheds set_and_get) v
     /\ (rt_down v = false /\ in_call v 0 1 /\ exists s p out q s' p', rt_conns v 1%nat = mkSC s p Reading out /\ read_request p s = ((Ok q, s'), p') /\ q_opcode q = OpcGet)).
  - intros (v & Sv & D & C & s & p & out & q & s' & p' & Hc & E & Oq). apply C88_locks_change_nothing in Sv. destruct Sv as [hd Sx]. exists (mkW v hd). split; [exact Sx|]. split; [exact D|]. split; [exact C|].
    exists s, p, out, q, s', p'. split; [exact Hc|]. split; [exact E|]. split; [exact Oq|]. split; [|intro Q; rewrite Oq in Q; discriminate Q].
    intros _ p0 Pp. rewrite pick_a in Pp. injection Pp as <-. discriminate.
  - apply (ran _ _ [CAccept 0; CAccept 1; CRead 0; CCall 0]%nat). set (r := ab_run _ _ _). vm_compute in r. subst r. cbn [rt_down rt_conns rt_prog].
    split; [reflexivity|]. split; [do 7 eexists; split; [reflexivity|]; split; [reflexivity|reflexivity]|]. do 6 eexists. split; [reflexivity|]. split; [vm_compute; reflexivity|reflexivity].
Qed.
