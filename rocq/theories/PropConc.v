(** * C19, C33: goroutines sharing a server. *)
From Verif Require Import GoBytes GoNum GoIO Item ClientText ClientMeta ClientBinary Cache Daemon Spec Call Guard.
From Verif Require Import PLib PDaemon PStream PCache PClient PropClient PReader PropReply PReply PropWriter PLifecycle PropLifecycle Conc.

(** ** C19 *)
(** The calls of the log as a history, their results, and the calls of goroutine [t] in it. *)
Definition event_of (e : entry) : event := match e with LDone _ o _ => Do o | LTick d => Wait d end.
Definition results_of (log : list entry) : list (outcome result) := flat_map (fun e => match e with LDone _ _ r => [r] | LTick _ => [] end) log.
Definition calls_of (t : nat) (log : list entry) : list op := flat_map (fun e => match e with LDone u o _ => if Nat.eqb u t then [o] else [] | LTick _ => [] end) log.
Definition current (x : thread) : list op := match th_pc x with Idle => [] | Sending o _ | Waiting o => [o] end.

Lemma run_app : forall cl evs evs' l, run cl l (evs ++ evs') = (fst (run cl (fst (run cl l evs)) evs'), snd (run cl l evs) ++ snd (run cl (fst (run cl l evs)) evs')).
Proof.
  intros cl evs evs'. induction evs as [|[o|d] evs IH]; intro l; cbn [run app fst snd].
  - destruct (run cl l evs'); reflexivity.
  - rewrite IH. reflexivity.
  - apply IH.
Qed.

(** The link the completed calls lead to. *)
Definition link_of (cl : client) (c : cache) (h : req_header) (log : list entry) : link := fst (run cl (fresh_link c h) (map event_of log)).
(** Once everything under way has been handled: cache, unhandled input, and all bytes the client will
    not have read. *)
Definition settled (cl : client) (s : cstate) (left : bytes) : cache * bytes * bytes :=
  let '(c', r, p') := daemon (cl_wire cl) (cs_cache s) (cs_pending s ++ cs_out s ++ left) in (c', p', cs_buf s ++ cs_in s ++ r).
Definition expected (cl : client) (l : link) (o : op) : option (cache * bytes * bytes * req_header) :=
  match fst (cl_req cl (l_header l) o) with
  | Ok rq => let '(c2, reply, p2) := daemon (cl_wire cl) (l_cache l) (l_pending l ++ rq) in Some (c2, p2, l_unread l ++ reply, snd (cl_req cl (l_header l) o))
  | _ => None
  end.
Definition left_of (x : thread) : bytes := match th_pc x with Sending _ b => b | _ => [] end.
Definition cinv (cl : client) (c : cache) (h : req_header) (progs : nat -> list op) (s : cstate) : Prop :=
  let l := link_of cl c h (cs_log s) in
  (forall t, calls_of t (cs_log s) ++ current (cs_threads s t) ++ th_todo (cs_threads s t) = progs t)
  /\ results_of (cs_log s) = snd (run cl (fresh_link c h) (map event_of (cs_log s)))
  /\ match cs_lock s with
     | None => (forall t, th_pc (cs_threads s t) = Idle) /\ (settled cl s [], cs_header s) = ((l_cache l, l_pending l, l_unread l), l_header l)
     | Some t => (forall u, u <> t -> th_pc (cs_threads s u) = Idle)
                 /\ exists o, current (cs_threads s t) = [o] /\ expected cl l o = Some (settled cl s (left_of (cs_threads s t)), cs_header s)
     end.
Lemma set_same : forall f t x, set_thread f t x t = x.
Proof. intros. unfold set_thread. rewrite Nat.eqb_refl. reflexivity. Qed.
Lemma set_other : forall f t x u, u <> t -> set_thread f t x u = f u.
Proof. intros f t x u N. unfold set_thread. apply Nat.eqb_neq in N. rewrite N. reflexivity. Qed.
Lemma holder : forall cl c h progs s t, cinv cl c h progs s -> th_pc (cs_threads s t) <> Idle -> cs_lock s = Some t.
Proof.
  intros cl c h progs s t (_ & _ & Q) N. destruct (cs_lock s) as [u|].
  - destruct Q as [Q _]. destruct (Nat.eq_dec t u) as [->|D]; [reflexivity|]. elim N. apply Q. exact D.
  - destruct Q as [Q _]. elim N. apply Q.
Qed.
Lemma cinv_step : forall pr name c h progs s s', cinv (client_of pr name) c h progs s -> cstep (client_of pr name) s s' -> cinv (client_of pr name) c h progs s'.
Proof.
  intros pr name c h progs s s' I S. set (cl := client_of pr name) in *. pose proof I as (P & R & Q).
  destruct S as [s t o os rq Lk Th Rq|s t o a b os Th|s t o os Th|s a b E|s c' r rest E|s a b E|s t o os r rest Th E N|s d Lk Eo Ep].
  - (* lock *) rewrite Lk in Q. destruct Q as [Qi Qs]. split; [|split; [exact R|]]; cbn [cs_lock cs_threads cs_log cs_header cs_out cs_pending cs_cache cs_in cs_buf].
    + intro u. destruct (Nat.eq_dec u t) as [->|D]; [rewrite set_same; rewrite <- (P t), Th; reflexivity|rewrite set_other by exact D; apply P].
    + split; [intros u D; rewrite set_other by exact D; apply Qi|]. exists o. rewrite set_same. split; [reflexivity|]. cbn [left_of th_pc].
      set (l := link_of cl c h (cs_log s)) in *. unfold settled in Qs. unfold settled, expected. rewrite app_nil_r in Qs.
      destruct (daemon (cl_wire cl) (cs_cache s) (cs_pending s ++ cs_out s)) as [[c1 r1] p1] eqn:D1. injection Qs as E1 E2 E3 E4. rewrite <- E4. rewrite Rq. cbn [cs_cache cs_pending cs_out cs_buf cs_in].
      replace (cs_pending s ++ cs_out s ++ rq) with ((cs_pending s ++ cs_out s) ++ rq) by (rewrite <- app_assoc; reflexivity). rewrite (daemon_app _ (cs_pending s ++ cs_out s)), D1, <- E1, <- E2, <- E3. destruct (daemon (cl_wire cl) c1 (p1 ++ rq)) as [[c2 r2] p2]. rewrite !app_assoc. reflexivity.
  - (* send *) pose proof (holder _ _ _ _ _ t I ltac:(rewrite Th; discriminate)) as Lk. rewrite Lk in Q. destruct Q as [Qi (o' & Co & Qs)]. split; [|split; [exact R|]]; cbn [cs_lock cs_threads cs_log cs_header cs_out cs_pending cs_cache cs_in cs_buf].
    + intro u. destruct (Nat.eq_dec u t) as [->|D]; [rewrite set_same; rewrite <- (P t), Th; reflexivity|rewrite set_other by exact D; apply P].
    + rewrite Lk. split; [intros u D; rewrite set_other by exact D; apply Qi; exact D|]. exists o'. rewrite set_same. split; [rewrite Th in Co; exact Co|]. rewrite Th in Qs. cbn [left_of th_pc] in *. rewrite Qs.
      unfold settled. cbn [cs_cache cs_pending cs_out cs_buf cs_in]. rewrite <- !app_assoc. reflexivity.
  - (* sent *) pose proof (holder _ _ _ _ _ t I ltac:(rewrite Th; discriminate)) as Lk. rewrite Lk in Q. destruct Q as [Qi (o' & Co & Qs)]. split; [|split; [exact R|]]; cbn [cs_lock cs_threads cs_log cs_header cs_out cs_pending cs_cache cs_in cs_buf].
    + intro u. destruct (Nat.eq_dec u t) as [->|D]; [rewrite set_same; rewrite <- (P t), Th; reflexivity|rewrite set_other by exact D; apply P].
    + rewrite Lk. split; [intros u D; rewrite set_other by exact D; apply Qi; exact D|]. exists o'. rewrite set_same. split; [rewrite Th in Co; exact Co|]. rewrite Th in Qs. exact Qs.
  - (* net out *) split; [exact P|split; [exact R|]]; cbn [cs_lock cs_threads cs_log cs_header cs_out cs_pending cs_cache cs_in cs_buf].
    assert (Se : forall left, settled cl (mkC (cs_lock s) (cs_threads s) (cs_header s) b (cs_pending s ++ a) (cs_cache s) (cs_in s) (cs_buf s) (cs_log s)) left = settled cl s left).
    { intro left. unfold settled. cbn [cs_cache cs_pending cs_out cs_buf cs_in]. rewrite E, <- !app_assoc. reflexivity. }
    destruct (cs_lock s) as [t|]; rewrite Se; exact Q.
  - (* daemon *) split; [exact P|split; [exact R|]]; cbn [cs_lock cs_threads cs_log cs_header cs_out cs_pending cs_cache cs_in cs_buf].
    assert (Se : forall left, settled cl (mkC (cs_lock s) (cs_threads s) (cs_header s) (cs_out s) rest c' (cs_in s ++ r) (cs_buf s) (cs_log s)) left = settled cl s left).
    { intro left. unfold settled. cbn [cs_cache cs_pending cs_out cs_buf cs_in]. rewrite (daemon_cons _ _ _ _ _ _ (daemon_step_more _ _ _ _ _ _ (cs_out s ++ left) E)).
      destruct (daemon (cl_wire cl) c' (rest ++ cs_out s ++ left)) as [[c2 r2] p2]. rewrite <- !app_assoc. reflexivity. }
    destruct (cs_lock s) as [t|]; rewrite Se; exact Q.
  - (* net in *) split; [exact P|split; [exact R|]]; cbn [cs_lock cs_threads cs_log cs_header cs_out cs_pending cs_cache cs_in cs_buf].
    assert (Se : forall left, settled cl (mkC (cs_lock s) (cs_threads s) (cs_header s) (cs_out s) (cs_pending s) (cs_cache s) b (cs_buf s ++ a) (cs_log s)) left = settled cl s left).
    { intro left. unfold settled. cbn [cs_cache cs_pending cs_out cs_buf cs_in]. destruct (daemon (cl_wire cl) (cs_cache s) (cs_pending s ++ cs_out s ++ left)) as [[c2 r2] p2]. rewrite E, <- !app_assoc. reflexivity. }
    destruct (cs_lock s) as [t|]; rewrite Se; exact Q.
  - (* done *) pose proof (holder _ _ _ _ _ t I ltac:(rewrite Th; discriminate)) as Lk. rewrite Lk in Q. destruct Q as [Qi (o' & Co & Qs)]. rewrite Th in Co, Qs. cbn [current th_pc left_of] in Co, Qs. injection Co as <-.
    set (l := link_of cl c h (cs_log s)) in *.
    assert (Ca : call cl l o = (mkLink (fst (fst (settled cl s []))) (snd (fst (settled cl s []))) (rest ++ skipn (length (cs_buf s)) (snd (settled cl s []))) (cs_header s), r)).
    { unfold expected in Qs. unfold call. destruct (fst (cl_req cl (l_header l) o)) as [rq|e|]; try discriminate Qs. destruct (daemon (cl_wire cl) (l_cache l) (l_pending l ++ rq)) as [[c2 reply] p2].
      injection Qs as Q1 Q2. unfold settled in *. destruct (daemon (cl_wire cl) (cs_cache s) (cs_pending s ++ cs_out s ++ [])) as [[c3 r3] p3]. injection Q1 as -> -> Q3. rewrite Q3. cbn [fst snd].
      rewrite skipn_app, skipn_all, Nat.sub_diag. cbn [skipn app].
      rewrite (C17_cut_reply_is_an_error_or_complete pr name o (cs_buf s) (cs_in s ++ r3) r rest E N : cl_resp cl o (cs_buf s ++ cs_in s ++ r3) = _). cbn [fst snd]. rewrite Q2. reflexivity. }
    assert (Li : link_of cl c h (cs_log s ++ [LDone t o r]) = fst (call cl l o)).
    { unfold link_of. rewrite map_app, run_app. reflexivity. }
    split; [|split]; cbn [cs_lock cs_threads cs_log cs_header cs_out cs_pending cs_cache cs_in cs_buf].
    + intro u. unfold calls_of. rewrite flat_map_app. cbn [flat_map]. rewrite app_nil_r. fold (calls_of u (cs_log s)). destruct (Nat.eq_dec u t) as [->|D].
      * rewrite set_same, Nat.eqb_refl. rewrite <- (P t), Th. cbn [current th_pc th_todo app]. rewrite <- app_assoc. reflexivity.
      * rewrite set_other by exact D. rewrite (proj2 (Nat.eqb_neq t u)) by congruence. rewrite app_nil_r. apply P.
    + unfold results_of. rewrite flat_map_app, map_app, run_app. fold (results_of (cs_log s)). rewrite R. cbn [flat_map app snd run map event_of fst]. fold (link_of cl c h (cs_log s)). fold l. rewrite Ca. reflexivity.
    + split; [intro u; destruct (Nat.eq_dec u t) as [->|D]; [rewrite set_same; reflexivity|rewrite set_other by exact D; apply Qi; exact D]|].
      rewrite Li, Ca. cbn [fst l_cache l_pending l_unread l_header]. unfold settled. cbn [cs_cache cs_pending cs_out cs_buf cs_in].
      destruct (daemon (cl_wire cl) (cs_cache s) (cs_pending s ++ cs_out s ++ [])) as [[c3 r3] p3]. cbn [fst snd]. rewrite skipn_app, skipn_all, Nat.sub_diag. reflexivity.
  - (* tick *) rewrite Lk in Q. destruct Q as [Qi Qs]. split; [|split]; cbn [cs_lock cs_threads cs_log cs_header cs_out cs_pending cs_cache cs_in cs_buf].
    + intro u. unfold calls_of. rewrite flat_map_app. cbn [flat_map]. rewrite !app_nil_r. apply P.
    + unfold results_of. rewrite flat_map_app, map_app, run_app. fold (results_of (cs_log s)). rewrite R. cbn. rewrite !app_nil_r. reflexivity.
    + split; [exact Qi|]. assert (Li : link_of cl c h (cs_log s ++ [LTick d]) = link_tick (link_of cl c h (cs_log s)) d) by (unfold link_of; rewrite map_app, run_app; reflexivity).
      rewrite Li. unfold settled in *. cbn [cs_cache cs_pending cs_out cs_buf cs_in app link_tick l_cache l_pending l_unread l_header]. rewrite Eo, Ep in Qs. cbn [app] in Qs. rewrite daemon_nil in *. injection Qs as <- <- <- <-. reflexivity.
Qed.
Lemma cinv_steps : forall pr name c h progs s, csteps (client_of pr name) (started c h progs) s -> cinv (client_of pr name) c h progs s.
Proof.
  intros pr name c h progs s St. remember (started c h progs) as s0 eqn:E0. induction St as [s|s u v St IH S]; subst.
  - split; [intro t; reflexivity|]. split; [reflexivity|]. cbn [started cs_lock]. split; [intro t; reflexivity|]. unfold settled. cbn [started cs_cache cs_pending cs_out cs_buf cs_in cs_header app]. rewrite daemon_nil. reflexivity.
  - eapply cinv_step; [exact (IH eq_refl)|exact S].
Qed.

(** Any number of goroutines, any programs, any interleaving of their steps with the network's and the
    daemon's: the calls completed so far have the results they have when executed one after the other
    in the order of the log, and each goroutine's calls are in that order as it made them. *)
Theorem C19_calls_are_atomic : forall pr name c h progs s, csteps (client_of pr name) (started c h progs) s ->
  results_of (cs_log s) = snd (run (client_of pr name) (fresh_link c h) (map event_of (cs_log s)))
  /\ (forall t, calls_of t (cs_log s) ++ current (cs_threads s t) ++ th_todo (cs_threads s t) = progs t).
Proof. intros pr name c h progs s St. destruct (cinv_steps pr name c h progs s St) as (P & R & _). split; [exact R|exact P]. Qed.
Print Assumptions C19_calls_are_atomic.
(** With C09-C11: they return what memcached's specification says of that order. *)
Theorem C19_concurrent_calls_are_faithful : forall pr name c h progs s, csteps (client_of pr name) (started c h progs) s ->
  wf pr c -> (c_cas c + zlen (cs_log s) < cas_bound pr)%Z -> Forall (legal_event pr) (map event_of (cs_log s)) -> safe_run pr name (rq_cas h) c (map event_of (cs_log s)) ->
  Forall2 agrees (snd (spec_run pr name c (map event_of (cs_log s)))) (results_of (cs_log s)).
Proof.
  intros pr name c h progs s St W C L S. rewrite (proj1 (C19_calls_are_atomic _ _ _ _ _ _ St)).
  destruct (run_ok pr name (map event_of (cs_log s)) c h W) as (h' & outs & -> & A); [unfold zlen in *; rewrite map_length; exact C|exact L|exact S|exact A].
Qed.
Print Assumptions C19_concurrent_calls_are_faithful.
(** At most one goroutine is inside a call. *)
Theorem C19_one_at_a_time : forall pr name c h progs s t u, csteps (client_of pr name) (started c h progs) s ->
  current (cs_threads s t) <> [] -> current (cs_threads s u) <> [] -> t = u.
Proof.
  intros pr name c h progs s t u St Ht Hu. pose proof (cinv_steps pr name c h progs s St) as I.
  assert (A : forall v, current (cs_threads s v) <> [] -> th_pc (cs_threads s v) <> Idle) by (intros v Hv E; apply Hv; unfold current; rewrite E; reflexivity).
  pose proof (holder _ _ _ _ _ t I (A t Ht)) as E1. pose proof (holder _ _ _ _ _ u I (A u Hu)) as E2. congruence.
Qed.
Print Assumptions C19_one_at_a_time.

Lemma csteps_trans : forall cl s u v, csteps cl s u -> csteps cl u v -> csteps cl s v.
Proof. intros cl s u v A C. induction C as [u|u w v C IH S]; [exact A|]. exact (cs_step _ _ _ _ (IH A) S). Qed.
Lemma csteps_one : forall cl s u, cstep cl s u -> csteps cl s u.
Proof. intros cl s u S. exact (cs_step _ _ _ _ (cs_refl _ _) S). Qed.
(** The daemon works off what it has received. *)
Lemma daemon_works : forall cl n s c' r p', length (cs_pending s) = n -> daemon (cl_wire cl) (cs_cache s) (cs_pending s) = (c', r, p') ->
  csteps cl s (mkC (cs_lock s) (cs_threads s) (cs_header s) (cs_out s) p' c' (cs_in s ++ r) (cs_buf s) (cs_log s)).
Proof.
  intros cl n. induction n as [n IH] using lt_wf_ind. intros s c' r p' En D.
  destruct (daemon_step (cl_wire cl) (cs_cache s) (cs_pending s)) as [[[c1 r1] p1]|] eqn:E.
  - rewrite (daemon_cons _ _ _ _ _ _ E) in D. destruct (daemon (cl_wire cl) c1 p1) as [[c2 r2] p2] eqn:D2. injection D as <- <- <-.
    eapply csteps_trans; [apply csteps_one; apply (S_daemon cl s _ _ _ E)|]. pose proof (daemon_step_shrink _ _ _ _ _ _ E) as Sh.
    pose proof (IH (length p1) ltac:(lia) (mkC (cs_lock s) (cs_threads s) (cs_header s) (cs_out s) p1 c1 (cs_in s ++ r1) (cs_buf s) (cs_log s)) c2 r2 p2 eq_refl D2) as C.
    cbn [cs_lock cs_threads cs_header cs_out cs_in cs_buf cs_log] in C. rewrite app_assoc. exact C.
  - rewrite (daemon_none _ _ _ E) in D. injection D as <- <- <-. rewrite app_nil_r. destruct s; apply cs_refl.
Qed.
Lemma finish : forall cl s t o os c2 p2 u2, cs_threads s t = mkThread (Waiting o) os -> settled cl s [] = (c2, p2, u2) -> fst (cl_resp cl o u2) <> Err EIO ->
  exists s', csteps cl s s' /\ cs_log s' = cs_log s ++ [LDone t o (fst (cl_resp cl o u2))] /\ cs_lock s' = None.
Proof.
  intros cl s t o os c2 p2 u2 Th Se N. unfold settled in Se. destruct (daemon (cl_wire cl) (cs_cache s) (cs_pending s ++ cs_out s ++ [])) as [[c3 r3] p3] eqn:D. injection Se as <- <- <-. rewrite app_nil_r in D.
  destruct (cl_resp cl o (cs_buf s ++ cs_in s ++ r3)) as [r rest] eqn:Er. cbn [fst] in *.
  eexists. split.
  - eapply csteps_trans; [apply csteps_one; apply (S_net_out cl s (cs_out s) []); rewrite app_nil_r; reflexivity|].
    eapply csteps_trans; [eapply daemon_works; [reflexivity|]; cbn [cs_cache cs_pending]; exact D|]. cbn [cs_lock cs_threads cs_header cs_out cs_in cs_buf cs_log].
    eapply csteps_trans; [apply csteps_one; eapply (S_net_in cl _ (cs_in s ++ r3) []); cbn [cs_in]; rewrite app_nil_r; reflexivity|]. cbn [cs_lock cs_threads cs_header cs_out cs_pending cs_cache cs_in cs_buf cs_log].
    apply csteps_one. eapply (S_done cl _ t o os r rest); cbn [cs_threads cs_buf]; [exact Th|exact Er|exact N].
  - split; reflexivity.
Qed.
Lemma spec_run_last : forall pr name o evs c, snd (spec_run pr name c (evs ++ [Do o])) = snd (spec_run pr name c evs) ++ [snd (spec_step pr name (fst (spec_run pr name c evs)) o)].
Proof.
  intros pr name o evs. induction evs as [|[o'|d] evs IH]; intro c; cbn [app spec_run fst snd]; [reflexivity| |apply IH]. rewrite IH. reflexivity.
Qed.
Lemma can_complete : forall pr name c h progs s t o, cinv (client_of pr name) c h progs s ->
  wf pr c -> (c_cas c + zlen (cs_log s) + 1 < cas_bound pr)%Z -> Forall (legal_event pr) (map event_of (cs_log s) ++ [Do o]) -> safe_run pr name (rq_cas h) c (map event_of (cs_log s) ++ [Do o]) ->
  (current (cs_threads s t) = [o] \/ cs_lock s = None /\ exists os, th_todo (cs_threads s t) = o :: os) ->
  exists s' r, csteps (client_of pr name) s s' /\ cs_log s' = cs_log s ++ [LDone t o r] /\ cs_lock s' = None.
Proof.
  intros pr name c h progs s t o I W C L S Cur. set (cl := client_of pr name) in *. set (l := link_of cl c h (cs_log s)) in *.
  assert (N : snd (call cl l o) <> Err EIO).
  { destruct (run_ok pr name (map event_of (cs_log s) ++ [Do o]) c h W) as (h' & outs & E & A); [unfold zlen in *; rewrite app_length, map_length; cbn [length]; lia|exact L|exact S|].
    fold cl in E. rewrite run_app in E. cbn [run snd fst] in E. injection E as _ Eo. fold (link_of cl c h (cs_log s)) in Eo. rewrite <- Eo, spec_run_last in A.
    apply Forall2_app_inv_r in A. destruct A as (l1 & l2 & _ & A & E2). inversion A as [|x y a b Axy Az]; subst. inversion Az; subst. apply app_inj_tail in E2. destruct E2 as [_ E2]. rewrite <- E2 in Axy.
    exact (spec_not_io _ _ _ _ _ Axy). }
  assert (Lo : legal pr o) by (apply Forall_app in L; destruct L as [_ L]; inversion L; subst; assumption).
  assert (Go : forall u os, csteps cl s u -> cinv cl c h progs u -> cs_log u = cs_log s -> cs_lock u = Some t -> cs_threads u t = mkThread (Waiting o) os ->
               exists s' r, csteps cl s s' /\ cs_log s' = cs_log s ++ [LDone t o r] /\ cs_lock s' = None).
  { intros u os Su (_ & _ & Q) El Lk Th. rewrite Lk in Q. destruct Q as [_ (o' & Co & Q)]. rewrite Th in Co, Q. cbn [current th_pc left_of] in Co, Q. injection Co as <-. rewrite El in Q. fold l in Q.
    destruct (settled cl u []) as [[c2 p2] u2] eqn:Se. destruct (finish cl u t o os c2 p2 u2 Th Se) as (s' & Ss & Es & Ln).
    - unfold expected in Q. unfold call in N. destruct (fst (cl_req cl (l_header l) o)) as [rq|e|]; try discriminate Q. destruct (daemon (cl_wire cl) (l_cache l) (l_pending l ++ rq)) as [[c4 r4] p4]. injection Q as _ _ <- _. cbn [snd] in N. exact N.
    - exists s'. eexists. split; [exact (csteps_trans _ _ _ _ Su Ss)|]. split; [rewrite Es, El; reflexivity|exact Ln]. }
  assert (Snd : forall u lf os, csteps cl s u -> cinv cl c h progs u -> cs_log u = cs_log s -> cs_threads u t = mkThread (Sending o lf) os ->
               exists s' r, csteps cl s s' /\ cs_log s' = cs_log s ++ [LDone t o r] /\ cs_lock s' = None).
  { intros u lf os Su Iu El Th. pose proof (holder _ _ _ _ _ t Iu ltac:(rewrite Th; discriminate)) as Lk.
    pose proof (S_send cl u t o lf [] os ltac:(rewrite app_nil_r; exact Th)) as S1. pose proof (cinv_step pr name c h progs _ _ Iu S1) as I1.
    set (u1 := mkC _ _ _ _ _ _ _ _ _) in S1, I1. pose proof (S_sent cl u1 t o os ltac:(unfold u1; cbn [cs_threads]; apply set_same)) as S2. pose proof (cinv_step pr name c h progs _ _ I1 S2) as I2.
    eapply (Go _ os); [exact (cs_step _ _ _ _ (cs_step _ _ _ _ Su S1) S2)|exact I2|exact El|exact Lk|]. cbn [cs_threads]. apply set_same. }
  destruct Cur as [Cur|[Lk (os & Td)]].
  - unfold current in Cur. destruct (cs_threads s t) as [[|o' lf|o'] td] eqn:Th; cbn [th_pc] in Cur; try discriminate Cur; injection Cur as ->.
    + exact (Snd s lf td (cs_refl _ _) I eq_refl Th).
    + exact (Go s td (cs_refl _ _) I eq_refl (holder _ _ _ _ _ t I ltac:(rewrite Th; discriminate)) Th).
  - destruct (request_ok pr name (cs_header s) o Lo) as (rq & Rq). fold cl in Rq.
    assert (Th : cs_threads s t = mkThread Idle (o :: os)).
    { destruct I as (_ & _ & Q). rewrite Lk in Q. destruct Q as [Q _]. specialize (Q t). destruct (cs_threads s t) as [pc td]. cbn [th_pc th_todo] in *. subst. reflexivity. }
    pose proof (S_lock cl s t o os rq Lk Th Rq) as S1. pose proof (cinv_step pr name c h progs _ _ I S1) as I1.
    eapply (Snd _ rq os); [exact (csteps_one _ _ _ S1)|exact I1|reflexivity|]. cbn [cs_threads]. apply set_same.
Qed.
(** No deadlock and no starvation by the connection: in every reachable state, the call that holds the
    mutex, or, when nobody does, the next call of any goroutine, can be completed (and then returns what
    C19_concurrent_calls_are_faithful says). *)
Theorem C19_calls_can_complete : forall pr name c h progs s t o, csteps (client_of pr name) (started c h progs) s ->
  wf pr c -> (c_cas c + zlen (cs_log s) + 1 < cas_bound pr)%Z -> Forall (legal_event pr) (map event_of (cs_log s) ++ [Do o]) -> safe_run pr name (rq_cas h) c (map event_of (cs_log s) ++ [Do o]) ->
  (current (cs_threads s t) = [o] \/ cs_lock s = None /\ exists os, th_todo (cs_threads s t) = o :: os) ->
  exists s' r, csteps (client_of pr name) s s' /\ cs_log s' = cs_log s ++ [LDone t o r] /\ cs_lock s' = None.
Proof.
  intros pr name c h progs s t o St. apply can_complete with (progs := progs). exact (cinv_steps pr name c h progs s St).
Qed.
Print Assumptions C19_calls_can_complete.

(** Two goroutines; the second one's call comes between the first one's. *)
Definition duet (t : nat) : list op := match t with O => [OSet (demo_item "a" "one" 7 0 0); ODelete (B "a")] | 1 => [OGet (B "a")] | _ => [] end.
Definition duet_order : list event := map Do [OSet (demo_item "a" "one" 7 0 0); OGet (B "a"); ODelete (B "a")].
Example C19_met : exists s, csteps (client_of PText (B "s1")) (started demo_c reset_header duet) s
  /\ cs_log s = [LDone 0 (OSet (demo_item "a" "one" 7 0 0)) (Ok RUnit); LDone 1 (OGet (B "a")) (Ok (RItem (mkItem (B "a") (B "one") (Some (be 4 7)) 0 1 (B "s1")))); LDone 0 (ODelete (B "a")) (Ok RUnit)]
  /\ wf PText demo_c /\ (c_cas demo_c + zlen (cs_log s) + 1 < cas_bound PText)%Z /\ Forall (legal_event PText) (map event_of (cs_log s)) /\ safe_run PText (B "s1") (rq_cas reset_header) demo_c (map event_of (cs_log s)).
Proof.
  pose proof (demo_wf PText demo_cf 1000000 demo_config ltac:(lia)) as W. fold demo_c in W.
  assert (Lg : Forall (legal_event PText) duet_order) by (unfold duet_order; legal_tac). unfold duet_order in Lg. cbn [map] in Lg.
  inversion Lg as [|x1 y1 G1 Z1]; subst. inversion Z1 as [|x2 y2 G2 Z2]; subst. inversion Z2 as [|x3 y3 G3 _]; subst.
  assert (Go : forall s t o os, csteps (client_of PText (B "s1")) (started demo_c reset_header duet) s -> (c_cas demo_c + zlen (cs_log s) + 1 < cas_bound PText)%Z ->
     Forall (legal_event PText) (map event_of (cs_log s) ++ [Do o]) -> cs_lock s = None -> calls_of t (cs_log s) ++ o :: os = duet t ->
     exists s' r, csteps (client_of PText (B "s1")) (started demo_c reset_header duet) s' /\ cs_log s' = cs_log s ++ [LDone t o r] /\ cs_lock s' = None).
  { intros s t o os St C L Lk Td. pose proof (proj2 (C19_calls_are_atomic _ _ _ _ _ _ St) t) as P. rewrite <- Td in P. apply app_inv_head in P.
    destruct (C19_calls_can_complete PText (B "s1") demo_c reset_header duet s t o St W C L (safe_run_text _ _ _ _)) as (s' & r & S' & R).
    - destruct (cs_threads s t) as [[|o' lf|o'] td] eqn:Th; cbn [current th_pc th_todo app] in P.
      + right. split; [exact Lk|]. exists os. exact P.
      + left. injection P as -> _. reflexivity.
      + left. injection P as -> _. reflexivity.
    - exists s', r. split; [exact (csteps_trans _ _ _ _ St S')|exact R]. }
  destruct (Go _ 0 (OSet (demo_item "a" "one" 7 0 0)) [ODelete (B "a")] (cs_refl _ _)) as (s1 & r1 & S1 & L1 & K1); [vm_compute; reflexivity| |reflexivity|reflexivity|]; [constructor; [exact G1|constructor]|]. cbn [started cs_log app] in L1.
  destruct (Go s1 1 (OGet (B "a")) [] S1) as (s2 & r2 & S2 & L2 & K2); [rewrite L1; vm_compute; reflexivity|rewrite L1; repeat (constructor; [assumption|]); constructor|exact K1|rewrite L1; reflexivity|]. rewrite L1 in L2. cbn [app] in L2.
  destruct (Go s2 0 (ODelete (B "a")) [] S2) as (s3 & r3 & S3 & L3 & K3); [rewrite L2; vm_compute; reflexivity|rewrite L2; repeat (constructor; [assumption|]); constructor|exact K2|rewrite L2; reflexivity|]. rewrite L2 in L3. cbn [app] in L3.
  assert (L : Forall (legal_event PText) (map event_of (cs_log s3))) by (rewrite L3; repeat (constructor; [assumption|]); constructor).
  exists s3. split; [exact S3|]. split; [|split; [exact W|split; [rewrite L3; vm_compute; reflexivity|split; [exact L|apply safe_run_text]]]].
  pose proof (C19_concurrent_calls_are_faithful PText (B "s1") demo_c reset_header duet s3 S3 W ltac:(rewrite L3; vm_compute; reflexivity) L (safe_run_text _ _ _ _)) as A. rewrite L3 in A |- *.
  cbn [map event_of results_of flat_map app] in A.
  assert (E : snd (spec_run PText (B "s1") demo_c [Do (OSet (demo_item "a" "one" 7 0 0)); Do (OGet (B "a")); Do (ODelete (B "a"))]) = [SOk RUnit; SOk (RItem (mkItem (B "a") (B "one") (Some (be 4 7)) 0 1 (B "s1"))); SOk RUnit]) by (vm_compute; reflexivity).
  rewrite E in A. inversion A as [|a1 b1 d1 f1 A1 B1]; subst. inversion B1 as [|a2 b2 d2 f2 A2 B2]; subst. inversion B2 as [|a3 b3 d3 f3 A3 B3]; subst.
  destruct r1, r2, r3; cbn [agrees] in A1, A2, A3; try contradiction. subst. reflexivity.
Qed.

(** ** C33 *)
(** No goroutine ever panics, whatever each of them calls and however their accesses interleave. *)
Definition never_panics (pr : proto) (timeout : bool) : Prop :=
  forall progs schedule t, rt_pc (rs_threads (interleave pr timeout (rstart progs) schedule) t) <> Crashed.

Lemma raccess_same : forall pr tm s t u, rs_threads (raccess_of pr tm s t) u = if Nat.eqb u t then match raccess pr tm t (rs_shared s) (rs_threads s t) with Some (_, x) => x | None => rs_threads s t end else rs_threads s u.
Proof.
  intros pr tm s t u. unfold raccess_of. destruct (raccess pr tm t (rs_shared s) (rs_threads s t)) as [[sh x]|]; cbn [rs_threads]; [reflexivity|]. destruct (Nat.eqb u t) eqn:E; [apply Nat.eqb_eq in E; subst; reflexivity|reflexivity].
Qed.
Lemma interleave_inv : forall pr tm (P : rstate -> Prop), (forall s t, P s -> P (raccess_of pr tm s t)) -> forall schedule s, P s -> P (interleave pr tm s schedule).
Proof. intros pr tm P St schedule. induction schedule as [|t ts IH]; intros s H; cbn [interleave]; [exact H|]. apply IH, St, H. Qed.

(** The meta and binary servers never clear their connection: they never panic. *)
Definition calm (s : rstate) : Prop := sh_raw (rs_shared s) = true /\ forall t, rt_pc (rs_threads s t) <> Crashed /\ rt_pc (rs_threads s t) <> ClNil /\ rt_pc (rs_threads s t) <> ClClose.
Theorem C33_meta_and_binary_never_panic : forall pr timeout, pr <> PText -> never_panics pr timeout.
Proof.
  intros pr tm N progs schedule t.
  assert (H : calm (interleave pr tm (rstart progs) schedule)).
  { apply interleave_inv.
    - intros s u [R T]. unfold calm, raccess_of. destruct (raccess pr tm u (rs_shared s) (rs_threads s u)) as [[sh x]|] eqn:E; [|split; [exact R|exact T]].
      assert (A : sh_raw sh = true /\ rt_pc x <> Crashed /\ rt_pc x <> ClNil /\ rt_pc x <> ClClose).
      { destruct (T u) as (T1 & T2 & T3). unfold raccess in E. rewrite R in E. destruct (rs_threads s u) as [pc js]. cbn [rt_pc rt_jobs] in *.
        destruct pc as [| | | | | | | | |ok|ok| | |]; try congruence; try (injection E as <- <-; cbn [sh_raw rt_pc]; repeat split; try exact R; try discriminate; destruct tm; discriminate);
          try (destruct ok; injection E as <- <-; cbn [sh_raw rt_pc]; repeat split; try exact R; discriminate).
        - destruct (sh_chan (rs_shared s)); injection E as <- <-; cbn [sh_raw rt_pc]; repeat split; try exact R; discriminate.
        - destruct pr; [congruence| |]; injection E as <- <-; cbn [sh_raw rt_pc]; repeat split; try exact R; discriminate.
        - destruct js as [|[| |ok] js]; [discriminate E| | |]; try (destruct (sh_mu (rs_shared s)); [discriminate E|]); injection E as <- <-; cbn [sh_raw rt_pc]; destruct pr; try congruence; destruct tm; repeat split; try exact R; discriminate. }
      split; cbn [rs_shared rs_threads]; [apply A|]. intro v. destruct (Nat.eqb v u); [apply A|apply T].
    - split; [reflexivity|]. intro u. repeat split; discriminate. }
  apply H.
Qed.
Print Assumptions C33_meta_and_binary_never_panic.

(** The text server: full statements that fail, each with its schedule. *)
Definition two (a b : list job) (t : nat) : list job := match t with O => a | 1 => b | _ => [] end.
(** With a Timeout, Close during an operation: the connection is nil when the deadline is set. *)
Theorem C33_text_close_during_operation_refuted : ~ never_panics PText true.
Proof. intro H. apply (H (two [JOp] [JClose]) [0; 0; 1; 1; 1; 1; 0] 0). reflexivity. Qed.
Print Assumptions C33_text_close_during_operation_refuted.
(** Without: two concurrent Close calls (one may be the heartbeat's), or Close during Reconnect. *)
Theorem C33_text_two_closes_refuted : exists schedule, rt_pc (rs_threads (interleave PText false (rstart (two [JClose] [JClose])) schedule) 1) = Crashed.
Proof. exists [0; 1; 0; 1; 0; 0; 0; 1]. reflexivity. Qed.
Print Assumptions C33_text_two_closes_refuted.
Theorem C33_text_close_during_reconnect_refuted : exists schedule, rt_pc (rs_threads (interleave PText false (rstart (two [JReconnect true] [JClose])) schedule) 0) = Crashed.
Proof. exists [0; 0; 1; 1; 1; 1; 0]. reflexivity. Qed.
Print Assumptions C33_text_close_during_reconnect_refuted.

(** What holds of the text server. Without Timeout, and if one goroutine makes all the Close and
    Reconnect calls: any number of other goroutines may be calling operations. *)
Definition solo (k : nat) (s : rstate) : Prop :=
  let sh := rs_shared s in
  (forall u, u <> k -> Forall (fun j => j = JOp) (rt_jobs (rs_threads s u)) /\ (rt_pc (rs_threads s u) = Next \/ rt_pc (rs_threads s u) = OpCheck \/ rt_pc (rs_threads s u) = OpIO))
  /\ match rt_pc (rs_threads s k) with
     | Crashed | OpDeadlineW | OpDeadlineR => False
     | ClRaw | ClNil => sh_raw sh = true /\ sh_chan sh = true /\ sh_chan_closed sh = false
     | ClClose => sh_chan sh = true /\ sh_chan_closed sh = false
     | ClChanNil => True
     | RcClose _ => sh_raw sh = true /\ (sh_chan sh = true -> sh_chan_closed sh = false)
     | _ => sh_chan sh = true -> sh_raw sh = true /\ sh_chan_closed sh = false
     end.
Lemma solo_step : forall k s t, solo k s -> solo k (raccess_of PText false s t).
Proof.
  intros k [[rw ch cc mu] th] t [O K]. cbn [rs_shared rs_threads] in *. unfold raccess_of. cbn [rs_shared rs_threads].
  destruct (raccess PText false t (mkShared rw ch cc mu) (th t)) as [[sh x]|] eqn:E; [|split; [exact O|exact K]].
  destruct (Nat.eq_dec t k) as [->|N].
  - split; cbn [rs_shared rs_threads].
    + intros u D. rewrite (proj2 (Nat.eqb_neq u k) D). apply O. exact D.
    + rewrite Nat.eqb_refl. unfold raccess in E. destruct (th k) as [pc js]. cbn [rt_pc rt_jobs sh_raw sh_chan sh_chan_closed sh_mu] in *.
      destruct pc as [| | | | | | | | |ok|ok| | |]; try contradiction.
      * destruct rw; injection E as <- <-; cbn; exact K.
      * injection E as <- <-; cbn; exact K.
      * destruct ch; injection E as <- <-; cbn; [destruct (K eq_refl) as [-> ->]; repeat split|discriminate].
      * destruct K as (-> & -> & ->). injection E as <- <-; cbn. repeat split.
      * destruct K as (-> & -> & ->). injection E as <- <-; cbn. repeat split.
      * destruct K as (-> & ->). injection E as <- <-; cbn. exact Logic.I.
      * injection E as <- <-; cbn. discriminate.
      * destruct rw; [|destruct ok]; injection E as <- <-; cbn; [split; [reflexivity|intro H; apply (K H)]|exact K|exact K].
      * destruct K as [-> K]. destruct ok; injection E as <- <-; cbn; intro H; split; auto.
      * injection E as <- <-; cbn. intro H. split; [reflexivity|apply (K H)].
      * destruct js as [|[| |ok] js]; [discriminate E| | |]; try (destruct mu; [discriminate E|]); injection E as <- <-; cbn; exact K.
  - split; cbn [rs_shared rs_threads].
    + intros u D. destruct (Nat.eqb u t) eqn:Eu; [|apply O; exact D]. apply Nat.eqb_eq in Eu. subst u. destruct (O t N) as [Oj Op]. unfold raccess in E. destruct (th t) as [pc js]. cbn [rt_pc rt_jobs sh_raw sh_chan sh_chan_closed sh_mu] in *.
      destruct Op as [->|[->| ->]].
      * destruct js as [|j js]; [discriminate E|]. inversion Oj as [|? ? -> Oj']; subst. destruct mu; [discriminate E|]. injection E as <- <-. cbn. auto.
      * destruct rw; injection E as <- <-; cbn; auto.
      * injection E as <- <-. cbn. auto.
    + rewrite (proj2 (Nat.eqb_neq k t)) by congruence. destruct (O t N) as [Oj Op]. unfold raccess in E. destruct (th t) as [pc js]. cbn [rt_pc rt_jobs sh_raw sh_chan sh_chan_closed sh_mu] in *.
      assert (Sh : sh_raw sh = rw /\ sh_chan sh = ch /\ sh_chan_closed sh = cc).
      { destruct Op as [->|[->| ->]].
        - destruct js as [|j js]; [discriminate E|]. inversion Oj as [|? ? -> Oj']; subst. destruct mu; [discriminate E|]. injection E as <- <-. auto.
        - destruct rw; injection E as <- <-; auto.
        - injection E as <- <-. auto. }
      destruct Sh as (-> & -> & ->). exact K.
Qed.
Theorem C33_text_one_closer_partial : forall progs k, (forall u, u <> k -> Forall (fun j => j = JOp) (progs u)) ->
  forall schedule t, rt_pc (rs_threads (interleave PText false (rstart progs) schedule) t) <> Crashed.
Proof.
  intros progs k Pk schedule t.
  assert (H : solo k (interleave PText false (rstart progs) schedule)).
  { apply interleave_inv; [intros s u; apply solo_step|]. split; [intros u D; split; [exact (Pk u D)|left; reflexivity]|]. cbn. auto. }
  destruct H as [O K]. intro E. destruct (Nat.eq_dec t k) as [->|N]; [rewrite E in K; exact K|]. destruct (O t N) as [_ Op]. rewrite E in Op. destruct Op as [Q|[Q|Q]]; discriminate Q.
Qed.
Print Assumptions C33_text_one_closer_partial.
(** With or without Timeout, any number of goroutines calling operations and Reconnect, no Close. *)
Definition open (s : rstate) : Prop := sh_raw (rs_shared s) = true
  /\ forall t, Forall (fun j => j <> JClose) (rt_jobs (rs_threads s t)) /\ ~ In (rt_pc (rs_threads s t)) [Crashed; ClChan; ClRaw; ClNil; ClClose; ClChanNil].
Theorem C33_text_no_close_partial : forall timeout progs, (forall u, Forall (fun j => j <> JClose) (progs u)) ->
  forall schedule t, rt_pc (rs_threads (interleave PText timeout (rstart progs) schedule) t) <> Crashed.
Proof.
  intros tm progs Pn schedule t.
  assert (H : open (interleave PText tm (rstart progs) schedule)).
  { apply interleave_inv.
    - intros s u [R T]. unfold open, raccess_of. destruct (raccess PText tm u (rs_shared s) (rs_threads s u)) as [[sh x]|] eqn:E; [|split; [exact R|exact T]].
      assert (A : sh_raw sh = true /\ Forall (fun j => j <> JClose) (rt_jobs x) /\ ~ In (rt_pc x) [Crashed; ClChan; ClRaw; ClNil; ClClose; ClChanNil]).
      { destruct (T u) as (T1 & T2). unfold raccess in E. rewrite R in E. destruct (rs_threads s u) as [pc js]. cbn [rt_pc rt_jobs] in *.
        assert (Y : forall p, p <> Crashed -> p <> ClChan -> p <> ClRaw -> p <> ClNil -> p <> ClClose -> p <> ClChanNil -> ~ In p [Crashed; ClChan; ClRaw; ClNil; ClClose; ClChanNil]) by (intros p N1 N2 N3 N4 N5 N6 I; cbn in I; intuition congruence).
        destruct pc as [| | | | | | | | |ok|ok| | |]; try (exfalso; apply T2; cbn; tauto);
          try (injection E as <- <-; cbn [sh_raw rt_pc rt_jobs]; split; [first [exact R|reflexivity]|split; [exact T1|]]; apply Y; destruct tm; discriminate).
        { destruct ok; injection E as <- <-; cbn [sh_raw rt_pc rt_jobs]; (split; [first [exact R|reflexivity]|split; [exact T1|]]); (apply Y; discriminate). }
        destruct js as [|j js]; [discriminate E|]. inversion T1 as [|? ? Nj T1']; subst. destruct j as [| |ok]; [|congruence|]; destruct (sh_mu (rs_shared s)); try discriminate E; injection E as <- <-; cbn [sh_raw rt_pc rt_jobs]; split; try (first [exact R|reflexivity]); (split; [exact T1'|apply Y; discriminate]). }
      split; cbn [rs_shared rs_threads]; [apply A|]. intro v. destruct (Nat.eqb v u); [apply A|apply T].
    - split; [reflexivity|]. intro u. split; [apply Pn|]. cbn. intros [Q|[Q|[Q|[Q|[Q|[Q|Q]]]]]]; (discriminate Q || exact Q). }
  destruct H as [_ H]. intro E. apply (H t). rewrite E. left. reflexivity.
Qed.
Print Assumptions C33_text_no_close_partial.
(** An operation under way while the closer closes, reopens and closes: it ends, nobody panics. *)
Example C33_met : let progs := two [JOp; JOp] [JClose; JReconnect true; JClose] in (forall u, u <> 1 -> Forall (fun j => j = JOp) (progs u))
  /\ rt_jobs (rs_threads (interleave PText false (rstart progs) [0; 0; 1; 1; 1; 1; 1; 1; 0; 1; 1; 1; 1; 1; 0; 0; 0]) 0) = []
  /\ rt_jobs (rs_threads (interleave PText false (rstart progs) [0; 0; 1; 1; 1; 1; 1; 1; 0; 1; 1; 1; 1; 1; 0; 0; 0]) 1) = [].
Proof. cbv zeta. split; [|split; reflexivity]. intros [|[|u]] N; [repeat constructor|congruence|constructor]. Qed.
