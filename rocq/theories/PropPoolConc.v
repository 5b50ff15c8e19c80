(** * C65-C67: goroutines sharing a SinglePool. *)
From Verif Require Import GoBytes GoNum GoIO Item ClientText ClientMeta ClientBinary Cache Daemon Spec Call Guard Ring RingSpec Pool PoolSpec.
From Verif Require Import PLib RingData PDaemon PStream PCache PClient PText PropClient PReader PropReply PReply PropWriter PLifecycle PropLifecycle Conc PropConc PRing PropRing PPool PMulti PropPool PoolConc.
Local Open Scope nat_scope.

(** ** Definitions of the statements *)
(** The calls of a log made one after the other on server objects in the states [w] have the results in
    the log. *)
Definition world_tick (w : nat -> link) (d : Z) : nat -> link := fun j => link_tick (w j) d.
Fixpoint explained (cl : nat -> client) (w : nat -> link) (log : list pentry) : Prop :=
  match log with
  | [] => True
  | PDone j t o r :: log' => snd (call (cl j) (w j) o) = r /\ explained cl (put_at w j (fst (call (cl j) (w j) o))) log'
  | PTick d :: log' => explained cl (world_tick w d) log'
  end.
(** The calls of goroutine [t] in a log. *)
Definition made_by (t : nat) (log : list pentry) : list (nat * op * outcome result) :=
  flat_map (fun e => match e with PDone j u o r => if Nat.eqb u t then [(j, o, r)] else [] | PTick _ => [] end) log.
(** A program may make these calls with these results, and has the given rest left. *)
Inductive makes : prog -> list (nat * op * outcome result) -> prog -> Prop :=
| mk_none : forall p, makes p [] p
| mk_call : forall j o k r l p', makes (k r) l p' -> makes (Then j o k) ((j, o, r) :: l) p'.

(** ** Each server's system inside the pool *)
Definition on_server (j : nat) (log : list pentry) : list entry :=
  flat_map (fun e => match e with PDone i t o r => if Nat.eqb i j then [LDone t o r] else [] | PTick d => [LTick d] end) log.
Lemma put_same : forall A (f : nat -> A) i x, put_at f i x i = x.
Proof. intros. unfold put_at. rewrite Nat.eqb_refl. reflexivity. Qed.
Lemma put_other : forall A (f : nat -> A) i x j, j <> i -> put_at f i x j = f j.
Proof. intros A f i x j N. unfold put_at. apply Nat.eqb_neq in N. rewrite N. reflexivity. Qed.
Lemma on_server_app : forall j a b, on_server j (a ++ b) = on_server j a ++ on_server j b.
Proof. intros. unfold on_server. apply flat_map_app. Qed.
Lemma made_by_app : forall t a b, made_by t (a ++ b) = made_by t a ++ made_by t b.
Proof. intros. unfold made_by. apply flat_map_app. Qed.
Definition resting : thread := mkThread Idle [].
Lemma cstep_resting : forall cl s s' t, cstep cl s s' -> cs_threads s t = resting -> cs_threads s' t = resting.
Proof.
  intros cl s s' t S E. destruct S as [s u o os rq Lk Th Rq|s u o a b os Th|s u o os Th|s a b Eo|s c' r rest Ed|s a b Ei|s u o os r rest Th Er N|s d Lk Eo Ep]; cbn [cs_threads]; try exact E;
    (destruct (Nat.eq_dec t u) as [->|D]; [rewrite Th in E; discriminate E|rewrite set_other by exact D; exact E]).
Qed.
Definition pending_of (x : thread) : list op := current x ++ th_todo x.
Lemma cstep_pending : forall cl s s' t, cstep cl s s' -> cs_log s' = cs_log s \/ (exists u o r, u <> t /\ cs_log s' = cs_log s ++ [LDone u o r]) -> pending_of (cs_threads s' t) = pending_of (cs_threads s t).
Proof.
  intros cl s s' t S E. destruct S as [s u o os rq Lk Th Rq|s u o a b os Th|s u o os Th|s a b Eo|s c' r rest Ed|s a b Ei|s u o os r rest Th Er N|s d Lk Eo Ep]; cbn [cs_threads cs_log] in *; try reflexivity;
    try (destruct (Nat.eq_dec t u) as [->|D]; [rewrite set_same, Th; reflexivity|rewrite set_other by exact D; reflexivity]).
  destruct E as [E|(v & o' & r' & D & E)]; [exfalso; apply (f_equal (@length _)) in E; rewrite app_length in E; cbn in E; lia|].
  apply app_inv_head in E. injection E as -> _ _. rewrite set_other by congruence. reflexivity.
Qed.
Lemma cstep_return : forall cl s s' t o r, cstep cl s s' -> cs_log s' = cs_log s ++ [LDone t o r] ->
  exists os, pending_of (cs_threads s t) = o :: os /\ cs_threads s' t = mkThread Idle os.
Proof.
  intros cl s s' t o r S E.
  assert (Ne : forall x y : list entry, x <> x ++ [LDone t o r]) by (intros x _ X; apply (f_equal (@length _)) in X; rewrite app_length in X; cbn in X; lia).
  destruct S as [s u o' os rq Lk Th Rq|s u o' a b os Th|s u o' os Th|s a b Eo|s c' r' rest Ed|s a b Ei|s u o' os r' rest Th Er N|s d Lk Eo Ep]; cbn [cs_threads cs_log] in *;
    try (exfalso; eapply Ne; [exact []|exact E]).
  - apply app_inv_head in E. injection E as -> -> ->. exists os. rewrite Th, set_same. split; reflexivity.
  - apply app_inv_head in E. discriminate E.
Qed.
Lemma enter_inv : forall pr name c h progs s t o, cinv (client_of pr name) c h progs s -> cs_threads s t = resting ->
  cinv (client_of pr name) c h (put_at progs t (progs t ++ [o])) (enter s t o).
Proof.
  intros pr name c h progs s t o (P & R & Q) Th. split; [|split; [exact R|]]; cbn [enter cs_threads cs_log cs_lock].
  - intro u. destruct (Nat.eq_dec u t) as [->|D].
    + rewrite set_same, put_same. specialize (P t). rewrite Th in P. cbn [resting current th_pc th_todo app] in *. rewrite app_nil_r in P. rewrite P. reflexivity.
    + rewrite set_other, put_other by exact D. apply P.
  - assert (Pc : forall u, th_pc (set_thread (cs_threads s) t (mkThread Idle [o]) u) = th_pc (cs_threads s u)).
    { intro u. destruct (Nat.eq_dec u t) as [->|D]; [rewrite set_same, Th; reflexivity|rewrite set_other by exact D; reflexivity]. }
    destruct (cs_lock s) as [u|].
    + destruct Q as [Qi (o' & Co & Qs)]. split; [intros v D; rewrite Pc; apply Qi; exact D|]. exists o'.
      assert (D : u <> t) by (intros ->; rewrite Th in Co; discriminate Co). rewrite set_other by exact D. split; [exact Co|exact Qs].
    + destruct Q as [Qi Qs]. split; [intro v; rewrite Pc; apply Qi|exact Qs].
Qed.
Lemma link_snoc : forall cl c h log e, link_of cl c h (log ++ [e]) = match e with LDone _ o _ => fst (call cl (link_of cl c h log) o) | LTick d => link_tick (link_of cl c h log) d end.
Proof. intros cl c h log e. unfold link_of. rewrite map_app, run_app. destruct e; reflexivity. Qed.
Lemma snoc_result : forall cl c h log t o r, results_of log = snd (run cl (fresh_link c h) (map event_of log)) ->
  results_of (log ++ [LDone t o r]) = snd (run cl (fresh_link c h) (map event_of (log ++ [LDone t o r]))) -> snd (call cl (link_of cl c h log) o) = r.
Proof.
  intros cl c h log t o r E1 E2. unfold results_of in E2. rewrite flat_map_app, map_app, run_app in E2. fold (results_of log) in E2. rewrite E1 in E2. cbn [flat_map app snd run map event_of] in E2.
  apply app_inv_head in E2. fold (link_of cl c h log) in E2. injection E2 as E2. symmetry. exact E2.
Qed.

(** ** The pool *)
Section Reach.
Variables (pr : nat -> proto) (name : nat -> bytes) (c : nat -> cache) (h : nat -> req_header) (progs : nat -> prog).
Let cl (j : nat) : client := client_of (pr j) (name j).
Definition w0 : nat -> link := fun j => fresh_link (c j) (h j).
Fixpoint world_after (w : nat -> link) (log : list pentry) : nat -> link :=
  match log with
  | [] => w
  | PDone j t o r :: log' => world_after (put_at w j (fst (call (cl j) (w j) o))) log'
  | PTick d :: log' => world_after (world_tick w d) log'
  end.
Lemma world_after_app : forall a b w, world_after w (a ++ b) = world_after (world_after w a) b.
Proof. induction a as [|[j t o r|d] a IH]; intros b w; cbn [app world_after]; [reflexivity|apply IH|apply IH]. Qed.
Lemma explained_app : forall a b w, explained cl w (a ++ b) <-> explained cl w a /\ explained cl (world_after w a) b.
Proof. induction a as [|[j t o r|d] a IH]; intros b w; cbn [app world_after explained]; rewrite ?IH; tauto. Qed.
Lemma world_link : forall log j, world_after w0 log j = link_of (cl j) (c j) (h j) (on_server j log).
Proof.
  intro log. induction log as [|e log IH] using rev_ind; intro j; [reflexivity|]. rewrite world_after_app, on_server_app. destruct e as [i t o r|d]; cbn [world_after on_server flat_map]; rewrite ?app_nil_r.
  - destruct (Nat.eqb_spec i j) as [->|D].
    + rewrite put_same, IH, link_snoc. reflexivity.
    + rewrite put_other by congruence. rewrite app_nil_r. apply IH.
  - unfold world_tick. rewrite IH, link_snoc. reflexivity.
Qed.
Definition pinv (p : pstate) : Prop :=
  (forall j, (exists ps, cinv (cl j) (c j) (h j) ps (ps_server p j)) /\ cs_log (ps_server p j) = on_server j (ps_log p))
  /\ explained cl w0 (ps_log p)
  /\ forall t, match ps_at p t with
               | None => (forall j, cs_threads (ps_server p j) t = resting) /\ makes (progs t) (made_by t (ps_log p)) (ps_prog p t)
               | Some (j, k) => (forall i, i <> j -> cs_threads (ps_server p i) t = resting)
                                /\ exists o, pending_of (cs_threads (ps_server p j) t) = [o] /\ makes (progs t) (made_by t (ps_log p)) (Then j o k)
               end.
Lemma makes_snoc : forall p l j o k r, makes p l (Then j o k) -> makes p (l ++ [(j, o, r)]) (k r).
Proof. intros p l. revert p. induction l as [|x l IH]; intros p j o k r M; inversion M; subst; cbn [app]; constructor; [constructor|apply IH; assumption]. Qed.
Lemma pinv_step : forall p p', pinv p -> pstep cl p p' -> pinv p'.
Proof.
  intros p p' (Sv & Ex & Th) S. destruct S as [p t j o k At Pg|p j s' S L|p j t o r k s' S L At|p d Rest].
  - (* call *) pose proof (Th t) as Tt. rewrite At in Tt. destruct Tt as [Tr Tm]. split; [|split; [exact Ex|]]; cbn [ps_server ps_at ps_prog ps_log].
    + intro i. destruct (Nat.eq_dec i j) as [->|D]; [rewrite put_same|rewrite put_other by exact D; apply Sv]. destruct (Sv j) as [[ps C] Lg]. split; [|exact Lg].
      exists (put_at ps t (ps t ++ [o])). apply enter_inv; [exact C|apply Tr].
    + intro u. destruct (Nat.eq_dec u t) as [->|D].
      * rewrite put_same. split; [intros i Di; rewrite put_other by exact Di; apply Tr|]. exists o. rewrite put_same. cbn [enter cs_threads]. rewrite set_same. split; [reflexivity|]. rewrite <- Pg. exact Tm.
      * rewrite !put_other by exact D. assert (Same : forall i, cs_threads (put_at (ps_server p) j (enter (ps_server p j) t o) i) u = cs_threads (ps_server p i) u).
        { intro i. destruct (Nat.eq_dec i j) as [->|Di]; [rewrite put_same; cbn [enter cs_threads]; apply set_other; exact D|rewrite put_other by exact Di; reflexivity]. }
        specialize (Th u). destruct (ps_at p u) as [[i k']|].
        -- destruct Th as [T1 (o' & T2 & T3)]. split; [intros i' Di; rewrite Same; apply T1; exact Di|]. exists o'. rewrite Same. auto.
        -- destruct Th as [T1 T2]. split; [intro i; rewrite Same; apply T1|exact T2].
  - (* inside *) split; [|split; [exact Ex|]]; cbn [ps_server ps_at ps_prog ps_log].
    + intro i. destruct (Nat.eq_dec i j) as [->|D]; [rewrite put_same|rewrite put_other by exact D; apply Sv]. destruct (Sv j) as [[ps C] Lg]. split; [|rewrite L; exact Lg]. exists ps. exact (cinv_step _ _ _ _ _ _ _ C S).
    + intro u. assert (Rs : forall i, cs_threads (ps_server p i) u = resting -> cs_threads (put_at (ps_server p) j s' i) u = resting).
      { intros i E. destruct (Nat.eq_dec i j) as [->|Di]; [rewrite put_same; exact (cstep_resting _ _ _ _ S E)|rewrite put_other by exact Di; exact E]. }
      specialize (Th u). destruct (ps_at p u) as [[i k']|].
      * destruct Th as [T1 (o' & T2 & T3)]. split; [intros i' Di; apply Rs, T1; exact Di|]. exists o'. split; [|exact T3].
        destruct (Nat.eq_dec i j) as [->|Di]; [rewrite put_same, (cstep_pending _ _ _ u S (or_introl L)); exact T2|rewrite put_other by exact Di; exact T2].
      * destruct Th as [T1 T2]. split; [intro i; apply Rs, T1|exact T2].
  - (* return *) destruct (Sv j) as [[ps C] Lg]. pose proof (cinv_step _ _ _ _ _ _ _ C S) as C'. pose proof (Th t) as Tt. rewrite At in Tt. destruct Tt as [T1 (o' & T2 & T3)].
    destruct (cstep_return _ _ _ _ _ _ S L) as (os & Pd & Td). rewrite T2 in Pd. injection Pd as -> <-.
    assert (Res : snd (call (cl j) (world_after w0 (ps_log p) j) o) = r).
    { rewrite world_link, <- Lg. destruct C as (_ & R & _). destruct C' as (_ & R' & _). rewrite L in R'. exact (snoc_result _ _ _ _ _ _ _ R R'). }
    split; [|split]; cbn [ps_server ps_at ps_prog ps_log].
    + intro i. rewrite on_server_app. cbn [on_server flat_map]. rewrite app_nil_r. destruct (Nat.eq_dec i j) as [->|D].
      * rewrite put_same, Nat.eqb_refl. split; [exists ps; exact C'|]. rewrite L, Lg. reflexivity.
      * rewrite put_other by exact D. rewrite (proj2 (Nat.eqb_neq j i)) by congruence. rewrite app_nil_r. apply Sv.
    + apply explained_app. split; [exact Ex|]. cbn [explained]. split; [exact Res|exact Logic.I].
    + intro u. rewrite made_by_app. cbn [made_by flat_map]. rewrite app_nil_r. destruct (Nat.eq_dec u t) as [->|D].
      * rewrite !put_same, Nat.eqb_refl. split.
        -- intro i. destruct (Nat.eq_dec i j) as [->|Di]; [rewrite put_same; exact Td|rewrite put_other by exact Di; apply T1; exact Di].
        -- apply makes_snoc. exact T3.
      * rewrite !put_other by exact D. rewrite (proj2 (Nat.eqb_neq t u)) by congruence. rewrite app_nil_r. specialize (Th u).
        assert (Rs : forall i, cs_threads (ps_server p i) u = resting -> cs_threads (put_at (ps_server p) j s' i) u = resting).
        { intros i E. destruct (Nat.eq_dec i j) as [->|Di]; [rewrite put_same; exact (cstep_resting _ _ _ _ S E)|rewrite put_other by exact Di; exact E]. }
        destruct (ps_at p u) as [[i k']|].
        -- destruct Th as [U1 (o2 & U2 & U3)]. split; [intros i' Di; apply Rs, U1; exact Di|]. exists o2. split; [|exact U3].
           destruct (Nat.eq_dec i j) as [->|Di]; [rewrite put_same, (cstep_pending _ _ _ u S); [exact U2|right; exists t, o, r; split; [congruence|exact L]]|rewrite put_other by exact Di; exact U2].
        -- destruct Th as [U1 U2]. split; [intro i; apply Rs, U1|exact U2].
  - (* clock *) split; [|split]; cbn [ps_server ps_at ps_prog ps_log].
    + intro j. destruct (Sv j) as [[ps C] Lg]. destruct (Rest j) as (R1 & R2 & R3). split; [exists ps; exact (cinv_step _ _ _ _ _ _ _ C (S_tick _ _ d R1 R2 R3))|].
      rewrite on_server_app. cbn [ticked cs_log on_server flat_map]. rewrite Lg. reflexivity.
    + apply explained_app. split; [exact Ex|exact Logic.I].
    + intro u. rewrite made_by_app. cbn [made_by flat_map]. rewrite app_nil_r. exact (Th u).
Qed.
Lemma pinv_steps : forall p, psteps cl (pool_started c h progs) p -> pinv p.
Proof.
  intros p S. remember (pool_started c h progs) as p0 eqn:E0. induction S as [p|p u v S IH St]; subst.
  - split; [|split; [exact Logic.I|]].
    + intro j. split; [|reflexivity]. exists (fun _ => []). exact (cinv_steps _ _ _ _ _ _ (cs_refl _ _)).
    + intro t. cbn [pool_started ps_at]. split; [intro j; reflexivity|constructor].
  - exact (pinv_step _ _ (IH eq_refl) St).
Qed.
End Reach.

(** ** C65 *)
(** Any number of goroutines calling any methods of a pool of servers of any protocols; all interleavings:
    the calls of server methods completed so far have the results they have when made one after the other
    in the order of the log, and each goroutine made the calls its methods are to make, in order. *)
Theorem C65_pool_calls_are_calls_in_sequence : forall pr name c h progs p,
  psteps (fun j => client_of (pr j) (name j)) (pool_started c h progs) p ->
  explained (fun j => client_of (pr j) (name j)) (fun j => fresh_link (c j) (h j)) (ps_log p)
  /\ forall t, exists rest, makes (progs t) (made_by t (ps_log p)) rest.
Proof.
  intros pr name c h progs p S. destruct (pinv_steps pr name c h progs p S) as (_ & Ex & Th). split; [exact Ex|]. intro t. specialize (Th t).
  destruct (ps_at p t) as [[j k]|]; [destruct Th as [_ (o & _ & M)]|destruct Th as [_ M]]; eexists; exact M.
Qed.
Print Assumptions C65_pool_calls_are_calls_in_sequence.

(** A goroutine that calls these single-key methods, one after the other. *)
Fixpoint calls_each (nodes : list node) (ops : list op) : prog :=
  match ops with
  | [] => Stop
  | o :: os => match op_key o with Some k => prog_key nodes k o (fun _ => calls_each nodes os) | None => Stop end
  end.
Definition pevents (log : list pentry) : list event := map (fun e => match e with PDone _ _ o _ => Do o | PTick d => Wait d end) log.
Definition presults (log : list pentry) : list (outcome result) := flat_map (fun e => match e with PDone _ _ _ r => [r] | PTick _ => [] end) log.
Definition pcalls (t : nat) (log : list pentry) : list op := map (fun x => snd (fst x)) (made_by t log).
Definition at_owner (nodes : list node) (e : pentry) : Prop :=
  match e with PDone j _ o _ => exists k sv, op_key o = Some k /\ pick nodes k = Ok sv /\ sv_id sv = j | PTick _ => True end.
Lemma calls_each_makes : forall nodes ops l rest, makes (calls_each nodes ops) l rest ->
  (exists more, ops = map (fun x => snd (fst x)) l ++ more)
  /\ Forall (fun x => exists k sv, op_key (snd (fst x)) = Some k /\ pick nodes k = Ok sv /\ sv_id sv = fst (fst x)) l.
Proof.
  intros nodes ops l. revert ops. induction l as [|[[j o] r] l IH]; intros ops rest M.
  - split; [exists ops; reflexivity|constructor].
  - remember (calls_each nodes ops) as pg eqn:Ep. inversion M as [|j' o' k r' l' p' M' E]; subst j' o' r' l' p'. rewrite <- E in Ep. clear M E. destruct ops as [|o1 os]; [discriminate|]. cbn [calls_each] in Ep. destruct (op_key o1) as [key|] eqn:K; [|discriminate].
    unfold prog_key in Ep. destruct (pick nodes key) as [sv|e|] eqn:P; try discriminate. injection Ep as -> -> ->. destruct (IH os _ M') as [[more ->] F]. split; [exists more; reflexivity|].
    constructor; [|exact F]. exists key, sv. cbn. auto.
Qed.
Lemma log_owned : forall nodes ops log, (forall t, exists rest, makes (calls_each nodes (ops t)) (made_by t log) rest) -> Forall (at_owner nodes) log.
Proof.
  intros nodes ops log M. apply Forall_forall. intros [j t o r|d] I; [|exact Logic.I]. destruct (M t) as [rest Mt]. destruct (calls_each_makes _ _ _ _ Mt) as [_ F]. rewrite Forall_forall in F.
  specialize (F (j, o, r)). cbn [fst snd] in F. apply F. unfold made_by. apply in_flat_map. eexists. split; [exact I|]. cbn. rewrite Nat.eqb_refl. left. reflexivity.
Qed.
Lemma explained_pool_run : forall name servers nodes log (w : nat -> link) W, (forall i, W i = (name i, w i)) -> Forall (at_owner nodes) log ->
  explained (fun j => client_of PText (name j)) w log -> pool_run text_server text_pass servers nodes W (pevents log) (presults log).
Proof.
  intros name servers nodes. induction log as [|[j t o r|d] log IH]; intros w W E F X; cbn [pevents presults map flat_map explained app] in *.
  - constructor.
  - destruct X as [X1 X2]. inversion F as [|x l Fo F']; subst x l. cbn [at_owner] in Fo. destruct Fo as (k & sv & K & P & <-). eapply (pr_key _ _ _ _ W o k); [exact K| |].
    + unfold routed. rewrite P. unfold server_call, text_server. rewrite E. cbn [fst snd]. rewrite <- X1. reflexivity.
    + apply (IH (put_at w (sv_id sv) (fst (call (client_of PText (name (sv_id sv))) (w (sv_id sv)) o)))); [|exact F'|exact X2].
      intro i. unfold upd, put_at. cbn [fst snd]. destruct (Nat.eqb_spec i (sv_id sv)) as [->|D]; [reflexivity|apply E].
  - inversion F; subst. constructor. apply (IH (world_tick w d)); [|assumption|exact X]. intro i. unfold text_pass, world_tick. rewrite E. reflexivity.
Qed.

(** Goroutines calling single-key methods of one SinglePool of text servers: the completed calls, in the
    order of the log, are a history of one cache (PoolSpec.v, C05), and each goroutine's calls are in it
    in the order in which it made them. *)
Theorem C65_shared_pool_is_one_cache : forall servers nodes name cf now h ops p,
  good_pool servers nodes -> wf_config cf -> (0 <= now)%Z -> (forall sv, In sv servers -> name (sv_id sv) = sv_name sv) ->
  psteps (fun j => client_of PText (name j)) (pool_started (fun _ => empty_cache cf now) h (fun t => calls_each nodes (ops t))) p ->
  (zlen (ps_log p) < 2 ^ 64)%Z -> Forall (legal_event PText) (pevents (ps_log p)) ->
  (exists ss, one_cache PText (empty_cache cf now) (fun _ => 0%Z) (pevents (ps_log p)) ss /\ Forall2 matches ss (presults (ps_log p)))
  /\ forall t, exists more, ops t = pcalls t (ps_log p) ++ more.
Proof.
  intros servers nodes name cf now h ops p G W N Nm S Lz Lg.
  destruct (C65_pool_calls_are_calls_in_sequence (fun _ => PText) name _ h _ p S) as [Ex M]. split.
  - apply (C05_pool_of_text_servers_is_one_cache servers nodes cf now (fun i => (name i, fresh_link (empty_cache cf now) (h i)))); auto.
    + unfold pevents, zlen in *. rewrite map_length. exact Lz.
    + intros sv I. exists (h (sv_id sv)). rewrite Nm by exact I. reflexivity.
    + eapply explained_pool_run; [reflexivity|eapply log_owned; exact M|exact Ex].
  - intro t. destruct (M t) as [rest Mt]. exact (proj1 (calls_each_makes _ _ _ _ Mt)).
Qed.
Print Assumptions C65_shared_pool_is_one_cache.

(** ** Calls can be completed *)
Lemma cstep_log : forall cl s s', cstep cl s s' -> cs_log s' = cs_log s \/ (exists t o r, cs_log s' = cs_log s ++ [LDone t o r]) \/ exists d, cs_log s' = cs_log s ++ [LTick d].
Proof. intros cl s s' S. destruct S; cbn [cs_log]; eauto 6. Qed.
Lemma csteps_log : forall cl s s', csteps cl s s' -> exists new, cs_log s' = cs_log s ++ new.
Proof.
  intros cl s s' S. induction S as [s|s u v S [new IH] St]; [exists []; symmetry; apply app_nil_r|].
  destruct (cstep_log _ _ _ St) as [E|[(t & o & r & E)|(d & E)]]; rewrite E, IH, <- ?app_assoc; eexists; reflexivity.
Qed.
Lemma psteps_trans : forall cl p u v, psteps cl p u -> psteps cl u v -> psteps cl p v.
Proof. intros cl p u v A C. induction C as [u|u w v C IH S]; [exact A|]. exact (ps_step _ _ _ _ (IH A) S). Qed.
Lemma nil_snoc : forall A (x : list A) e, [] <> x ++ [e].
Proof. intros A [|? x] e; discriminate. Qed.
Lemma lift_steps : forall cl j t o r k s s', csteps (cl j) s s' -> forall p, ps_server p j = s -> ps_at p t = Some (j, k) ->
  (cs_log s' = cs_log s -> exists p', psteps cl p p' /\ ps_server p' j = s' /\ (forall i, i <> j -> ps_server p' i = ps_server p i) /\ ps_at p' = ps_at p /\ ps_prog p' = ps_prog p /\ ps_log p' = ps_log p)
  /\ (cs_log s' = cs_log s ++ [LDone t o r] -> exists p', psteps cl p p' /\ ps_server p' j = s' /\ (forall i, i <> j -> ps_server p' i = ps_server p i)
        /\ ps_at p' = put_at (ps_at p) t None /\ ps_prog p' = put_at (ps_prog p) t (k r) /\ ps_log p' = ps_log p ++ [PDone j t o r]).
Proof.
  intros cl j t o r k s s' S. induction S as [s|s u v S IH St]; intros p Es At.
  - split.
    + intros _. exists p. split; [constructor|]. repeat split; auto.
    + intro E. exfalso. apply (f_equal (@length _)) in E. rewrite app_length in E. cbn in E. lia.
  - destruct (IH p Es At) as [I0 I1]. destruct (csteps_log _ _ _ S) as [new En]. destruct (cstep_log _ _ _ St) as [E|[(t' & o' & r' & E)|(d & E)]].
    + assert (In : forall q, ps_server q j = u -> pstep cl q (mkP (put_at (ps_server q) j v) (ps_at q) (ps_prog q) (ps_log q))).
      { intros q Eq. apply P_inside; [rewrite Eq; exact St|rewrite Eq; exact E]. }
      split; intro Ev; rewrite E in Ev.
      * destruct (I0 Ev) as (q & Sq & Q1 & Q2 & Q3 & Q4 & Q5). eexists. split; [exact (ps_step _ _ _ _ Sq (In q Q1))|]. cbn [ps_server ps_at ps_prog ps_log]. rewrite put_same. repeat split; auto.
        intros i D. rewrite put_other by exact D. apply Q2. exact D.
      * destruct (I1 Ev) as (q & Sq & Q1 & Q2 & Q3 & Q4 & Q5). eexists. split; [exact (ps_step _ _ _ _ Sq (In q Q1))|]. cbn [ps_server ps_at ps_prog ps_log]. rewrite put_same. repeat split; auto.
        intros i D. rewrite put_other by exact D. apply Q2. exact D.
    + split; intro Ev; rewrite E, En in Ev.
      * exfalso. rewrite <- app_assoc in Ev. rewrite <- (app_nil_r (cs_log s)) in Ev at 2. apply app_inv_head in Ev. exact (nil_snoc _ _ _ (eq_sym Ev)).
      * rewrite <- app_assoc in Ev. apply app_inv_head in Ev. destruct new as [|x new]; [|destruct new; discriminate Ev]. cbn [app] in Ev. injection Ev as -> -> ->. rewrite app_nil_r in En.
        destruct (I0 En) as (q & Sq & Q1 & Q2 & Q3 & Q4 & Q5). subst u. rewrite <- Q3 in At. eexists. split; [exact (ps_step _ _ _ _ Sq (P_return cl q j t o r k v St E At))|].
        cbn [ps_server ps_at ps_prog ps_log]. rewrite put_same, Q3, Q4, Q5. repeat split; auto. intros i D. rewrite put_other by exact D. apply Q2. exact D.
    + split; intro Ev; rewrite E, En in Ev; exfalso.
      * rewrite <- app_assoc in Ev. rewrite <- (app_nil_r (cs_log s)) in Ev at 2. apply app_inv_head in Ev. exact (nil_snoc _ _ _ (eq_sym Ev)).
      * rewrite <- app_assoc in Ev. apply app_inv_head in Ev. destruct new as [|x new]; [discriminate Ev|destruct new; discriminate Ev].
Qed.
Lemma put_put_at : forall A (f : nat -> A) i x y u, put_at (put_at f i x) i y u = put_at f i y u.
Proof. intros. unfold put_at. destruct (Nat.eqb u i); reflexivity. Qed.
Lemma call_completes : forall pr name c h progs p t j o k, let cl := fun j => client_of (pr j) (name j) in
  psteps cl (pool_started c h progs) p -> (forall i, cs_lock (ps_server p i) = None) -> ps_at p t = None -> ps_prog p t = Then j o k ->
  wf (pr j) (c j) -> (c_cas (c j) + zlen (on_server j (ps_log p)) + 1 < cas_bound (pr j))%Z ->
  Forall (legal_event (pr j)) (map event_of (on_server j (ps_log p)) ++ [Do o]) -> safe_run (pr j) (name j) (rq_cas (h j)) (c j) (map event_of (on_server j (ps_log p)) ++ [Do o]) ->
  exists p' r, psteps cl (pool_started c h progs) p' /\ ps_log p' = ps_log p ++ [PDone j t o r] /\ (forall i, cs_lock (ps_server p' i) = None)
    /\ (forall u, ps_at p' u = ps_at p u) /\ ps_prog p' t = k r /\ (forall u, u <> t -> ps_prog p' u = ps_prog p u).
Proof.
  intros pr name c h progs p t j o k cl S Lk At Pg W C L Sf.
  pose proof (P_call cl p t j o k At Pg) as S1. set (p1 := mkP _ _ _ _) in S1. pose proof (ps_step _ _ _ _ S S1) as R1.
  destruct (pinv_steps pr name c h progs p1 R1) as (Sv & _ & _). destruct (Sv j) as [[ps Ci] Lg].
  assert (Ej : ps_server p1 j = enter (ps_server p j) t o) by (unfold p1; cbn [ps_server]; apply put_same).
  assert (L1 : ps_log p1 = ps_log p) by reflexivity. rewrite L1 in Lg.
  destruct (can_complete (pr j) (name j) (c j) (h j) ps (ps_server p1 j) t o Ci W) as (s' & r & Ss & Es & Ls).
  - rewrite Lg. exact C.
  - rewrite Lg. exact L.
  - rewrite Lg. exact Sf.
  - right. rewrite Ej. cbn [enter cs_lock cs_threads]. rewrite set_same. split; [apply Lk|]. exists []. reflexivity.
  - assert (At1 : ps_at p1 t = Some (j, k)) by (unfold p1; cbn [ps_at]; apply put_same).
    destruct (proj2 (lift_steps cl j t o r k _ _ Ss p1 eq_refl At1) Es) as (p' & Sp & Q1 & Q2 & Q3 & Q4 & Q5).
    exists p', r. split; [exact (psteps_trans _ _ _ _ R1 Sp)|]. split; [exact Q5|]. split.
    + intro i. destruct (Nat.eq_dec i j) as [->|D]; [rewrite Q1; exact Ls|rewrite Q2 by exact D; unfold p1; cbn [ps_server]; rewrite put_other by exact D; apply Lk].
    + rewrite Q3, Q4. split; [|split; [apply put_same|]].
      * intro u. unfold p1. cbn [ps_at]. rewrite put_put_at. unfold put_at. destruct (Nat.eqb_spec u t) as [->|D]; [symmetry; exact At|reflexivity].
      * intros u D. rewrite put_other by exact D. unfold p1. cbn [ps_prog]. apply put_other. exact D.
Qed.

(** ** C67 *)
(** A goroutine that calls single-key methods and Flush; Flush visits the servers in the given order. *)
Fixpoint calls_all (nodes : list node) (order : list server) (ops : list op) : prog :=
  match ops with
  | [] => Stop
  | OFlush :: os => prog_flush order (fun _ => calls_all nodes order os)
  | o :: os => match op_key o with Some k => prog_key nodes k o (fun _ => calls_all nodes order os) | None => Stop end
  end.
Definition all_done (p : pstate) : Prop := forall t, ps_at p t = None /\ ps_prog p t = Stop.
(** The whole calls in some order: who, what, with which result. *)
Definition deed := (nat * (op * outcome result))%type.
Definition deeds_of (t : nat) (l : list deed) : list (op * outcome result) := flat_map (fun d => if Nat.eqb (fst d) t then [snd d] else []) l.
Definition no_flush (x : op * outcome result) : bool := match fst x with OFlush => false | _ => true end.
(** The results of the pool's single-key calls are those of one cache executing whole calls, Flush
    included, one after the other in some order that keeps every goroutine's own order. *)
Definition explained_by_one_cache (cf : config) (now : Z) (ops : nat -> list op) (log : list pentry) : Prop :=
  exists l ss, (forall t, map fst (deeds_of t l) = ops t)
    /\ (forall t, filter no_flush (deeds_of t l) = filter no_flush (map (fun x => (snd (fst x), snd x)) (made_by t log)))
    /\ one_cache PText (empty_cache cf now) (fun _ => 0%Z) (map (fun d => Do (fst (snd d))) l) ss
    /\ Forall2 matches ss (map (fun d => snd (snd d)) l).
Definition single_key_or_flush (o : op) : Prop := op_key o <> None \/ o = OFlush.
Definition no_tick (e : pentry) : Prop := match e with PDone _ _ _ _ => True | PTick _ => False end.
Definition C67_flush_is_atomic : Prop := forall servers nodes name cf now h order ops p,
  good_pool servers nodes -> wf_config cf -> (0 <= now)%Z -> (forall sv, In sv servers -> name (sv_id sv) = sv_name sv) ->
  (forall t, Permutation (order t) (map_entries servers)) -> (forall t, Forall (legal PText) (ops t)) -> (forall t, Forall single_key_or_flush (ops t)) ->
  psteps (fun j => client_of PText (name j)) (pool_started (fun _ => empty_cache cf now) h (fun t => calls_all nodes (order t) (ops t))) p ->
  all_done p -> Forall no_tick (ps_log p) -> (zlen (ps_log p) < 2 ^ 64)%Z -> explained_by_one_cache cf now ops (ps_log p).

Definition flusher_and_user (t : nat) : list op :=
  match t with
  | O => [OFlush]
  | 1 => [demo_set "hello" "1" 0; demo_set "x" "2" 0; OGet (B "hello"); OGet (B "hello"); OGet (B "x")]
  | _ => []
  end.
Lemma one_among : forall l x (y : list (op * outcome result)), deeds_of 0 l = [x] -> deeds_of 1 l = y -> (forall t, 2 <= t -> deeds_of t l = []) ->
  exists a b, y = a ++ b /\ l = map (pair 1) a ++ (0, x) :: map (pair 1) b.
Proof.
  assert (R : forall l, deeds_of 0 l = [] -> (forall t, 2 <= t -> deeds_of t l = []) -> l = map (pair 1) (deeds_of 1 l)).
  { induction l as [|[t x] l IH]; intros E0 E2; [reflexivity|]. destruct t as [|[|t]].
    - discriminate E0.
    - cbn [deeds_of flat_map fst Nat.eqb app map snd] in *. f_equal. apply IH; [exact E0|]. intros u Hu. specialize (E2 u Hu). cbn in E2. destruct u as [|[|u]]; try lia. exact E2.
    - exfalso. specialize (E2 (S (S t)) ltac:(lia)). cbn in E2. rewrite Nat.eqb_refl in E2. discriminate E2. }
  induction l as [|[t z] l IH]; intros x y E0 E1 E2; [discriminate E0|]. destruct t as [|[|t]].
  - cbn [deeds_of flat_map fst Nat.eqb app snd] in E0, E1. injection E0 as -> E0. exists [], y. split; [reflexivity|]. cbn [map app]. f_equal. rewrite <- E1. apply R; [exact E0|].
    intros u Hu. specialize (E2 u Hu). cbn in E2. destruct u as [|[|u]]; try lia. exact E2.
  - cbn [deeds_of flat_map fst Nat.eqb app snd] in E0, E1. destruct (IH x (deeds_of 1 l) E0 eq_refl) as (a & b & Ey & El).
    { intros u Hu. specialize (E2 u Hu). cbn in E2. destruct u as [|[|u]]; try lia. exact E2. }
    exists (z :: a), b. subst y. split; [cbn [app]; f_equal; exact Ey|]. cbn [map app]. f_equal. exact El.
  - exfalso. specialize (E2 (S (S t)) ltac:(lia)). cbn in E2. rewrite Nat.eqb_refl in E2. discriminate E2.
Qed.

(** The schedule: Set hello; Flush of server a; Set x (on a); Get hello (on b) finds it; Flush of server b;
    Get hello misses; Get x finds it. *)
Definition ab_name (j : nat) : bytes := match j with O => B "a" | _ => B "b" end.
Definition demo_pool (progs : nat -> prog) : pstate := pool_started (fun _ => empty_cache demo_cfg 100) (fun _ => reset_header) progs.
Lemma demo_call : forall progs p t j o k log, psteps (fun j => client_of PText (ab_name j)) (demo_pool progs) p -> (forall i, cs_lock (ps_server p i) = None) -> (forall u, ps_at p u = None) ->
  ps_prog p t = Then j o k -> ps_log p = log -> forallb (legal_eventb PText) (map event_of (on_server j log) ++ [Do o]) = true -> (zlen log < 100)%Z ->
  exists p' r, psteps (fun j => client_of PText (ab_name j)) (demo_pool progs) p' /\ ps_log p' = log ++ [PDone j t o r] /\ (forall i, cs_lock (ps_server p' i) = None)
    /\ (forall u, ps_at p' u = None) /\ ps_prog p' t = k r /\ (forall u, u <> t -> ps_prog p' u = ps_prog p u).
Proof.
  intros progs p t j o k log S Lk At Pg El Lg Zl. subst log.
  assert (W : wf PText (empty_cache demo_cfg 100)) by (apply wf_empty; [apply C05_met|lia]).
  destruct (call_completes (fun _ => PText) ab_name _ _ _ p t j o k S Lk (At t) Pg W) as (p' & r & S' & L' & K' & A' & P' & Q').
  - assert (X : (zlen (on_server j (ps_log p)) <= zlen (ps_log p))%Z).
    { unfold zlen. apply inj_le. unfold on_server. generalize (ps_log p). intro l. induction l as [|e l IHl]; [cbn; lia|]. cbn [flat_map]. rewrite app_length. destruct e as [i u o' r'|d]; [destruct (Nat.eqb i j)|]; cbn [length]; lia. }
    change (c_cas (empty_cache demo_cfg 100)) with 0%Z. change (cas_bound PText) with (2 ^ 64)%Z. lia.
  - apply legal_events_ok. exact Lg.
  - apply safe_run_text.
  - exists p', r. split; [exact S'|]. split; [exact L'|]. split; [exact K'|]. split; [intro u; rewrite A'; apply At|]. split; [exact P'|exact Q'].
Qed.
Definition clash_start (nodes : list node) : pstate := demo_pool (fun t => calls_all nodes [sv_a; sv_b] (flusher_and_user t)).
Definition hello_item : item := mkItem (B "hello") (B "1") (Some (be 4 0)) 0 1 (B "b").
Definition clash_log : list pentry :=
  [ PDone 1 1 (demo_set "hello" "1" 0) (Ok RUnit); PDone 0 0 OFlush (Ok RUnit); PDone 0 1 (demo_set "x" "2" 0) (Ok RUnit);
    PDone 1 1 (OGet (B "hello")) (Ok (RItem hello_item)); PDone 1 0 OFlush (Ok RUnit); PDone 1 1 (OGet (B "hello")) (Err ENotFound);
    PDone 0 1 (OGet (B "x")) (Ok (RItem (mkItem (B "x") (B "2") (Some (be 4 0)) 0 1 (B "a")))) ].
Lemma clash : forall nodes, pick nodes (B "hello") = Ok sv_b -> pick nodes (B "x") = Ok sv_a ->
  exists p, psteps (fun j => client_of PText (ab_name j)) (clash_start nodes) p /\ all_done p
  /\ ps_log p = clash_log.
Proof.
  intros nodes Kh Kx. set (st := clash_start nodes).
  pose proof (demo_call (fun t => calls_all nodes [sv_a; sv_b] (flusher_and_user t))) as G. fold (clash_start nodes) in G. fold st in G.
  assert (P0 : ps_prog st 0 = prog_flush [sv_a; sv_b] (fun _ => Stop)) by reflexivity.
  assert (P1 : ps_prog st 1 = calls_all nodes [sv_a; sv_b] (flusher_and_user 1)) by reflexivity.
  cbn [flusher_and_user] in P1. unfold demo_set in P1. cbn [calls_all op_key it_key] in P1. unfold prog_key in P1. rewrite Kh, Kx in P1. cbn [sv_a sv_b sv_id] in P1. cbn [prog_flush sv_a sv_b sv_id] in P0.
  destruct (G st 1 1 _ _ [] (ps_refl _ _) ltac:(reflexivity) ltac:(reflexivity) P1 eq_refl ltac:(vm_compute; reflexivity) ltac:(vm_compute; reflexivity)) as (p1 & r1 & S1 & L1 & K1 & A1 & N1 & M1). clear P1. cbn [app] in L1.
  rewrite <- (M1 0 ltac:(discriminate)) in P0.
  destruct (G p1 0 0 _ _ _ S1 K1 A1 P0 L1 ltac:(vm_compute; reflexivity) ltac:(vm_compute; reflexivity)) as (p2 & r2 & S2 & L2 & K2 & A2 & N2 & M2). clear P0. cbn [app] in L2.
  rewrite <- (M2 1 ltac:(discriminate)) in N1.
  destruct (G p2 1 0 _ _ _ S2 K2 A2 N1 L2 ltac:(vm_compute; reflexivity) ltac:(vm_compute; reflexivity)) as (p3 & r3 & S3 & L3 & K3 & A3 & N3 & M3). clear N1. cbn [app] in L3.
  destruct (G p3 1 1 _ _ _ S3 K3 A3 N3 L3 ltac:(vm_compute; reflexivity) ltac:(vm_compute; reflexivity)) as (p4 & r4 & S4 & L4 & K4 & A4 & N4 & M4). clear N3. cbn [app] in L4.
  rewrite <- (M3 0 ltac:(discriminate)), <- (M4 0 ltac:(discriminate)) in N2.
  assert (R2 : r2 = Ok RUnit). { pose proof (proj1 (C65_pool_calls_are_calls_in_sequence (fun _ => PText) ab_name _ _ _ p2 S2)) as Ex. rewrite L2 in Ex. vm_compute in Ex. symmetry. apply Ex. }
  rewrite R2 in N2.
  destruct (G p4 0 1 _ _ _ S4 K4 A4 N2 L4 ltac:(vm_compute; reflexivity) ltac:(vm_compute; reflexivity)) as (p5 & r5 & S5 & L5 & K5 & A5 & N5 & M5). clear N2. cbn [app] in L5.
  rewrite <- (M5 1 ltac:(discriminate)) in N4.
  destruct (G p5 1 1 _ _ _ S5 K5 A5 N4 L5 ltac:(vm_compute; reflexivity) ltac:(vm_compute; reflexivity)) as (p6 & r6 & S6 & L6 & K6 & A6 & N6 & M6). clear N4. cbn [app] in L6.
  destruct (G p6 1 0 _ _ _ S6 K6 A6 N6 L6 ltac:(vm_compute; reflexivity) ltac:(vm_compute; reflexivity)) as (p7 & r7 & S7 & L7 & K7 & A7 & N7 & M7). clear N6. cbn [app] in L7.
  pose proof (proj1 (C65_pool_calls_are_calls_in_sequence (fun _ => PText) ab_name _ _ _ p7 S7)) as Ex. rewrite L7 in Ex. vm_compute in Ex. destruct Ex as (E1 & E2 & E3 & E4 & E5 & E6 & E7 & _).
  exists p7. split; [exact S7|]. split.
  - intro t. split; [apply A7|]. destruct t as [|[|t]].
    + rewrite (M7 0), (M6 0), N5 by discriminate. rewrite <- E5. reflexivity.
    + rewrite N7. reflexivity.
    + rewrite (M7 (S (S t))), (M6 (S (S t))), (M5 (S (S t))), (M4 (S (S t))), (M3 (S (S t))), (M2 (S (S t))), (M1 (S (S t))) by discriminate. reflexivity.
  - rewrite L7. rewrite <- E1, <- E2, <- E3, <- E4, <- E5, <- E6, <- E7. reflexivity.
Qed.

Lemma keyless : forall o, op_key o <> None -> o <> OFlush.
Proof. intros o H ->. apply H. reflexivity. Qed.
Theorem C67_flush_is_atomic_refuted : ~ C67_flush_is_atomic.
Proof.
  intro H. destruct C01_met as (_ & _ & Kh & Kx). destruct C05_met as (Gp & Wc & _ & _).
  assert (En : map_entries [sv_a; sv_b] = [sv_a; sv_b]) by (vm_compute; reflexivity).
  remember (new_ring [sv_a; sv_b]) as nodes eqn:En0. clear En0.
  destruct (clash nodes Kh Kx) as (p & S & D & R).
  destruct (H [sv_a; sv_b] nodes ab_name demo_cfg 100%Z (fun _ => reset_header) (fun _ => [sv_a; sv_b]) flusher_and_user p Gp Wc ltac:(lia)) as (l & ss & L1 & L2 & Oc & Mt).
  - intros sv [<-|[<-|[]]]; reflexivity.
  - intros _. rewrite En. apply Permutation_refl.
  - intros [|[|t]]; cbn [flusher_and_user]; [constructor; [apply legalb_ok; vm_compute; reflexivity|constructor]| |constructor].
    repeat (constructor; [apply legalb_ok; vm_compute; reflexivity|]). constructor.
  - intros [|[|t]]; cbn [flusher_and_user]; [constructor; [right; reflexivity|constructor]| |constructor].
    repeat (constructor; [left; discriminate|]). constructor.
  - exact S.
  - exact D.
  - rewrite R. repeat (constructor; [exact Logic.I|]). constructor.
  - rewrite R. vm_compute. reflexivity.
  - clear H Gp Wc En S D Kh Kx.
    assert (E1 : deeds_of 1 l = map (fun x => (snd (fst x), snd x)) (made_by 1 (ps_log p))).
    { assert (Id : forall x : list (op * outcome result), Forall (fun o => o <> OFlush) (map fst x) -> filter no_flush x = x).
      { induction x as [|[o r] x IH]; intro F; [reflexivity|]. cbn [map fst] in F. inversion F as [|? ? Fo Fx]; subst. cbn [filter no_flush fst]. rewrite (IH Fx). destruct o; try reflexivity. exfalso. apply Fo. reflexivity. }
      specialize (L2 1). rewrite !Id in L2; [exact L2| |rewrite L1; cbn; repeat (constructor; [discriminate|]); constructor].
      rewrite R. cbn. repeat (constructor; [discriminate|]); constructor. }
    rewrite R in E1. cbn [clash_log made_by flat_map Nat.eqb app map fst snd] in E1. clear R L2. pose proof (L1 0) as E0. cbn [flusher_and_user] in E0. destruct (deeds_of 0 l) as [|[o r] [|? ?]] eqn:D0; try discriminate E0. injection E0 as ->.
    destruct (one_among l (OFlush, r) _ D0 E1) as (a & b & Eab & El).
    { intros t Ht. specialize (L1 t). destruct t as [|[|t]]; try lia. cbn [flusher_and_user] in L1. destruct (deeds_of (S (S t)) l); [reflexivity|discriminate L1]. }
    subst l. clear L1 D0 E1. cbn [flusher_and_user combine] in Eab.
    repeat (destruct a as [|? a]; [cbn [app] in Eab; try (subst b)|cbn [app] in Eab; first [discriminate Eab|injection Eab as <- Eab]]);
    cbn [map app fst snd] in Oc, Mt;
    repeat match goal with H : one_cache _ _ _ (_ :: _) _ |- _ => inversion H; clear H; subst; try discriminate end;
    repeat match goal with H : Forall2 matches (_ :: _) (_ :: _) |- _ => inversion H; clear H; subst end.
    all: match goal with H : matches _ _ |- _ => solve [exfalso; vm_compute in H; first [exact H|discriminate H]] end.
Qed.
Print Assumptions C67_flush_is_atomic_refuted.

(** It holds for a pool of one server: there Flush is one call. *)
Lemma one_server_calls : forall nodes sv ops l rest, (forall k, pick nodes k = Ok sv) -> makes (calls_all nodes [sv] ops) l rest ->
  Forall (fun x => fst (fst x) = sv_id sv /\ In (snd (fst x)) ops) l
  /\ (Forall single_key_or_flush ops -> Forall (fun x => snd x <> Panic) l -> rest = Stop -> map (fun x => snd (fst x)) l = ops).
Proof.
  intros nodes sv ops l rest Pk. revert l. induction ops as [|o ops IH]; intros l M.
  - cbn [calls_all] in M. inversion M; subst. split; [constructor|]. intros _ _ _. reflexivity.
  - destruct (op_key o) as [k|] eqn:K.
    + assert (E : calls_all nodes [sv] (o :: ops) = Then (sv_id sv) o (fun _ => calls_all nodes [sv] ops)) by (destruct o; try discriminate K; cbn [calls_all]; rewrite K; unfold prog_key; rewrite Pk; reflexivity).
      rewrite E in M. inversion M; subst.
      * split; [constructor|]. intros _ _ X. discriminate X.
      * match goal with X : makes _ _ rest |- _ => destruct (IH _ X) as [I1 I2] end. split.
        -- constructor; [split; [reflexivity|left; reflexivity]|]. eapply Forall_impl; [|exact I1]. intros x [X1 X2]. split; [exact X1|right; exact X2].
        -- intros F P X. inversion F; subst. inversion P; subst. cbn [map fst snd]. f_equal. apply I2; auto.
    + destruct o; try discriminate K.
      * cbn in M. inversion M; subst. split; [constructor|]. intros F _ _. inversion F as [|? ? Xo _]; subst. destruct Xo as [X|X]; [elim X; reflexivity|discriminate X].
      * cbn [calls_all prog_flush] in M. inversion M as [|j o' k r l' p' M' E1 E2 E3]; subst.
        -- split; [constructor|]. intros _ _ X. discriminate X.
        -- destruct r as [v|e|].
           ++ destruct (IH _ M') as [I1 I2]. split.
              ** constructor; [split; [reflexivity|left; reflexivity]|]. eapply Forall_impl; [|exact I1]. intros x [X1 X2]. split; [exact X1|right; exact X2].
              ** intros F P X. inversion F; subst. inversion P; subst. cbn [map fst snd]. f_equal. apply I2; auto.
           ++ destruct (IH _ M') as [I1 I2]. split.
              ** constructor; [split; [reflexivity|left; reflexivity]|]. eapply Forall_impl; [|exact I1]. intros x [X1 X2]. split; [exact X1|right; exact X2].
              ** intros F P X. inversion F; subst. inversion P; subst. cbn [map fst snd]. f_equal. apply I2; auto.
           ++ inversion M'; subst. split; [constructor; [split; [reflexivity|left; reflexivity]|constructor]|]. intros _ P. inversion P as [|? ? X _]; subst. elim X. reflexivity.
      * cbn in M. inversion M; subst. split; [constructor|]. intros F _ _. inversion F as [|? ? Xo _]; subst. destruct Xo as [X|X]; [elim X; reflexivity|discriminate X].
Qed.
Lemma spec_one_cache : forall pr evs c last, (forall k, last k <= c_cas c)%Z -> Forall (fun e => match e with Do o => single_key_or_flush o | Wait _ => True end) evs ->
  one_cache pr c last evs (snd (spec_run pr [] c evs)).
Proof.
  intros pr evs. induction evs as [|[o | d] evs IH]; intros c last L F; cbn [spec_run snd]; [constructor| |]; inversion F as [|? ? Fo Fe]; subst.
  - destruct (op_key o) as [k|] eqn:K.
    + assert (E : with_cas c (c_cas c) = c) by (destruct c; reflexivity).
      pose proof (oc_key pr c last o k (c_cas c) evs) as O. rewrite E in O. apply O; [exact K|apply L|]. apply IH; [|exact Fe].
      intro j. pose proof (cas_spec_step pr [] c o) as [Cs _]. specialize (L j). destruct (beq j k); lia.
    + destruct Fo as [X| ->]; [elim X; exact K|]. cbn [spec_step fst snd]. constructor. apply IH; [exact L|exact Fe].
  - constructor. apply IH; [exact L|exact Fe].
Qed.
Lemma spec_run_name : forall pr n1 n2 evs c rs, Forall2 matches (snd (spec_run pr n1 c evs)) rs -> Forall2 matches (snd (spec_run pr n2 c evs)) rs.
Proof.
  intros pr n1 n2 evs. induction evs as [|[o|d] evs IH]; intros c rs F; cbn [spec_run snd] in *; [exact F| |apply IH; exact F].
  inversion F; subst. rewrite (fst_spec_name pr n2 n1). constructor; [eapply matches_hide; [apply hide_spec|eassumption]|]. apply IH. assumption.
Qed.
Lemma agrees_no_panic : forall (l : list deed) ss, Forall2 agrees ss (map (fun d => snd (snd d)) l) -> forall d, In d l -> snd (snd d) <> Panic.
Proof.
  induction l as [|x l IH]; intros ss A d I; [contradiction|]. cbn [map] in A. inversion A as [|s r sl rl Ag Al]; subst.
  destruct I as [<-|I]; [|exact (IH _ Al _ I)]. intro X. rewrite X in Ag. destruct s; exact Ag.
Qed.
Lemma Forall2_impl' : forall A C (P Q : A -> C -> Prop) l m, (forall a c, P a c -> Q a c) -> Forall2 P l m -> Forall2 Q l m.
Proof. intros A C P Q l m I F. induction F; constructor; auto. Qed.
Definition whole (e : pentry) : list deed := match e with PDone _ t o r => [(t, (o, r))] | PTick _ => [] end.
Theorem C67_flush_is_atomic_partial : forall sv nodes name cf now h ops p,
  good_pool [sv] nodes -> wf_config cf -> (0 <= now)%Z -> name (sv_id sv) = sv_name sv ->
  (forall t, Forall (legal PText) (ops t)) -> (forall t, Forall single_key_or_flush (ops t)) ->
  psteps (fun j => client_of PText (name j)) (pool_started (fun _ => empty_cache cf now) h (fun t => calls_all nodes [sv] (ops t))) p ->
  all_done p -> Forall no_tick (ps_log p) -> (zlen (ps_log p) < 2 ^ 64)%Z -> explained_by_one_cache cf now ops (ps_log p).
Proof.
  intros sv nodes name cf now h ops p G Wc Nw Nm Lg Sk S D Nt Zl.
  destruct (pinv_steps (fun _ => PText) name _ h _ p S) as (Sv & _ & Th).
  assert (Pk : forall k, pick nodes k = Ok sv).
  { intro k. destruct G as (Ne & Rg & _). destruct (ring_pick_in [sv] nodes k Ne Rg) as (sv' & Pk & [<-|[]]). exact Pk. }
  assert (Mk : forall t, makes (calls_all nodes [sv] (ops t)) (made_by t (ps_log p)) Stop).
  { intro t. specialize (Th t). destruct (D t) as [E1 E2]. rewrite E1, E2 in Th. apply Th. }
  assert (In1 : forall j t o r, In (PDone j t o r) (ps_log p) -> In (j, o, r) (made_by t (ps_log p))).
  { intros j t o r I. unfold made_by. apply in_flat_map. eexists. split; [exact I|]. cbn. rewrite Nat.eqb_refl. left. reflexivity. }
  assert (At : forall j t o r, In (PDone j t o r) (ps_log p) -> j = sv_id sv /\ In o (ops t)).
  { intros j t o r I. destruct (one_server_calls _ _ _ _ _ Pk (Mk t)) as [F _]. rewrite Forall_forall in F. exact (F _ (In1 _ _ _ _ I)). }
  assert (Os : on_server (sv_id sv) (ps_log p) = flat_map (fun e => match e with PDone _ t o r => [LDone t o r] | PTick _ => [] end) (ps_log p)).
  { clear - At Nt. induction (ps_log p) as [|[j t o r|d] l IH]; [reflexivity| |inversion Nt; subst; contradiction]. inversion Nt; subst. cbn [on_server flat_map]. fold (on_server (sv_id sv) l). rewrite IH; [|assumption|intros; eapply At; right; eassumption].
    destruct (At j t o r (or_introl eq_refl)) as [-> _]. rewrite Nat.eqb_refl. reflexivity. }
  destruct (Sv (sv_id sv)) as [[ps (_ & Rs & _)] Lo]. rewrite Lo, Os in Rs. clear Sv Th Lo.
  set (l := flat_map whole (ps_log p)).
  assert (Ev : map event_of (flat_map (fun e => match e with PDone _ t o r => [LDone t o r] | PTick _ => [] end) (ps_log p)) = map (fun d => Do (fst (snd d))) l).
  { unfold l. clear. induction (ps_log p) as [|[j t o r|d] l IH]; [reflexivity| |exact IH]. cbn [flat_map map app event_of whole fst snd]. rewrite IH. reflexivity. }
  assert (Rv : results_of (flat_map (fun e => match e with PDone _ t o r => [LDone t o r] | PTick _ => [] end) (ps_log p)) = map (fun d => snd (snd d)) l).
  { unfold l. clear. induction (ps_log p) as [|[j t o r|d] l IH]; [reflexivity| |exact IH]. cbn [flat_map map app results_of whole fst snd] in *. f_equal. exact IH. }
  rewrite Ev, Rv in Rs.
  assert (Ll : (zlen l <= zlen (ps_log p))%Z).
  { unfold zlen, l. apply inj_le. clear. induction (ps_log p) as [|[j t o r|d] l IH]; cbn [flat_map whole app length]; lia. }
  assert (Il : forall d, In d l -> In (fst (snd d)) (ops (fst d))).
  { intros [t [o r]] I. unfold l in I. apply in_flat_map in I. destruct I as ([j t' o' r'|d] & I & X); [|contradiction]. destruct X as [X|[]]. injection X as -> -> ->. cbn. eapply At. exact I. }
  destruct (run_ok PText (name (sv_id sv)) (map (fun d => Do (fst (snd d))) l) (empty_cache cf now) (h (sv_id sv))) as (h' & outs & Er & A).
  { apply wf_empty; assumption. }
  { change (c_cas (empty_cache cf now)) with 0%Z. change (cas_bound PText) with (2 ^ 64)%Z. unfold zlen in *. rewrite map_length. rewrite Z.add_0_l. exact (Z.le_lt_trans _ _ _ Ll Zl). }
  { apply Forall_forall. intros e I. apply in_map_iff in I. destruct I as (d & <- & I). cbn [legal_event]. specialize (Lg (fst d)). rewrite Forall_forall in Lg. apply Lg, Il, I. }
  { apply safe_run_text. }
  rewrite Er in Rs. cbn [snd] in Rs. rewrite <- Rs in A. clear Er Rs.
  assert (Np : forall d, In d l -> snd (snd d) <> Panic).
  { intros d I. exact (agrees_no_panic _ _ A _ I). }
  assert (Dm : forall t, deeds_of t l = map (fun x => (snd (fst x), snd x)) (made_by t (ps_log p))).
  { intro t. unfold l. clear. induction (ps_log p) as [|[j u o r|d] l IH]; [reflexivity| |exact IH]. cbn [flat_map whole deeds_of made_by app fst snd]. fold (made_by t l). destruct (Nat.eqb u t); cbn [app map fst snd]; [f_equal|]; exact IH. }
  exists l, (snd (spec_run PText [] (empty_cache cf now) (map (fun d => Do (fst (snd d))) l))). split; [|split; [|split]].
  - intro t. rewrite Dm, map_map. cbn [fst]. apply (proj2 (one_server_calls _ _ _ _ _ Pk (Mk t))); [apply Sk| |reflexivity].
    apply Forall_forall. intros [[j o] r] I. cbn [snd]. unfold made_by in I. apply in_flat_map in I. destruct I as ([j' t' o' r'|d] & I & X); [|contradiction]. destruct (Nat.eqb_spec t' t) as [->|]; [|contradiction]. destruct X as [X|[]]. injection X as -> -> ->.
    apply (Np (t, (o, r))). unfold l. apply in_flat_map. eexists. split; [exact I|left; reflexivity].
  - intro t. rewrite Dm. reflexivity.
  - apply spec_one_cache; [intro; cbn; lia|]. apply Forall_forall. intros e I. apply in_map_iff in I. destruct I as (d & <- & I). specialize (Sk (fst d)). rewrite Forall_forall in Sk. apply Sk, Il, I.
  - apply (spec_run_name PText (name (sv_id sv))). eapply Forall2_impl'; [|exact A]. apply agrees_matches.
Qed.
Print Assumptions C67_flush_is_atomic_partial.

(** ** C66 *)
(** Calls that can make an absent key present. *)
Definition may_create (pr : proto) (key : bytes) (o : op) : Prop :=
  match o with
  | OSet i | OAdd i => it_key i = key
  | OIncr k _ _ | ODecr k _ _ => pr = PBinary /\ k = key
  | _ => False
  end.
Lemma stays_absent : forall pr name c o key, c_map c key = None -> ~ may_create pr key o -> c_map (fst (spec_step pr name c o)) key = None.
Proof.
  intros pr name c o key E N. destruct (op_key o) as [k|] eqn:K.
  - destruct (beq_dec_cases key k) as [[_ <-]|[_ D]]; [|rewrite (spec_other pr name c o k key K D); exact E].
    assert (L : lookup c key = None) by (unfold lookup; rewrite E; reflexivity).
    destruct o; cbn [op_key may_create] in *; try discriminate K; injection K as K; rewrite <- K in *; try (exfalso; apply N; reflexivity); cbn [spec_step fst]; try exact E.
    + unfold cache_replace. rewrite L. destruct (too_large c (it_value i)); exact E.
    + unfold cache_delete. rewrite L. exact E.
    + unfold spec_delta, cache_delta. rewrite L. destruct pr; [exact E|exact E|]. exfalso. apply N. split; reflexivity.
    + unfold spec_delta, cache_delta. rewrite L. destruct pr; [exact E|exact E|]. exfalso. apply N. split; reflexivity.
    + unfold cache_touch. rewrite L. exact E.
  - destruct o; try discriminate K; cbn [spec_step fst]; [exact E|reflexivity|exact E].
Qed.
Definition creates_none (pr : proto) (key : bytes) (e : event) : Prop := match e with Do o => ~ may_create pr key o | Wait _ => True end.
Lemma run_absent : forall pr name key evs c, c_map c key = None -> Forall (creates_none pr key) evs -> c_map (fst (spec_run pr name c evs)) key = None.
Proof.
  intros pr name key evs. induction evs as [|[o|d] evs IH]; intros c E F; cbn [spec_run fst]; [exact E| |]; inversion F; subst.
  - apply IH; [apply stays_absent; assumption|assumption].
  - apply IH; assumption.
Qed.
Lemma spec_run_app : forall pr name a b c, spec_run pr name c (a ++ b) = (fst (spec_run pr name (fst (spec_run pr name c a)) b), snd (spec_run pr name c a) ++ snd (spec_run pr name (fst (spec_run pr name c a)) b)).
Proof.
  intros pr name a b. induction a as [|[o|d] a IH]; intro c; cbn [app spec_run fst snd].
  - destruct (spec_run pr name c b); reflexivity.
  - rewrite IH. reflexivity.
  - apply IH.
Qed.

(** These calls are Flush of these servers in this order, and all returned nil. *)
Definition flushed (order : list server) (l : list (nat * op * outcome result)) : Prop :=
  Forall2 (fun sv x => exists r, x = (sv_id sv, OFlush, Ok r)) order l.
(** What Flush does: it calls Flush of the servers one after the other and stops at the first that fails.
    It has returned nil, or it has returned the error of the server it stopped at, or it is under way, or
    a server's Flush panicked. *)
Theorem C66_flush_calls_every_server : forall order k l rest, makes (prog_flush order k) l rest ->
  (exists l1 l2, l = l1 ++ l2 /\ flushed order l1 /\ makes (k (Ok RUnit)) l2 rest)
  \/ exists done sv more l1 l2, order = done ++ sv :: more /\ flushed done l1 /\ l = l1 ++ l2
     /\ ((exists e l3, l2 = (sv_id sv, OFlush, Err e) :: l3 /\ makes (k (Err e)) l3 rest)
         \/ (exists k', l2 = [] /\ rest = Then (sv_id sv) OFlush k')
         \/ (l2 = [(sv_id sv, OFlush, Panic)] /\ rest = Stop)).
Proof.
  intros order k. induction order as [|sv order IH]; intros l rest M; cbn [prog_flush] in M.
  - left. exists [], l. split; [reflexivity|]. split; [constructor|exact M].
  - remember (Then _ _ _) as pg eqn:Ep in M. inversion M as [p E1 E2 E3|j o k' r l' p' M' E1]; subst.
    + right. exists [], sv, order, [], []. split; [reflexivity|]. split; [constructor|]. split; [reflexivity|]. right. left. eexists. split; reflexivity.
    + injection E1 as -> -> ->. destruct r as [v|e|].
      * destruct (IH _ _ M') as [(l1 & l2 & -> & F & Mk)|(done & sv' & more & l1 & l2 & -> & F & -> & C)].
        -- left. exists ((sv_id sv, OFlush, Ok v) :: l1), l2. split; [reflexivity|]. split; [|exact Mk]. constructor; [exists v; reflexivity|exact F].
        -- right. exists (sv :: done), sv', more, ((sv_id sv, OFlush, Ok v) :: l1), l2. split; [reflexivity|]. split; [constructor; [exists v; reflexivity|exact F]|]. split; [reflexivity|exact C].
      * right. exists [], sv, order, [], ((sv_id sv, OFlush, Err e) :: l'). split; [reflexivity|]. split; [constructor|]. split; [reflexivity|]. left. exists e, l'. split; [reflexivity|exact M'].
      * inversion M'; subst. right. exists [], sv, order, [], [(sv_id sv, OFlush, Panic)]. split; [reflexivity|]. split; [constructor|]. split; [reflexivity|]. right. right. split; reflexivity.
Qed.
Print Assumptions C66_flush_calls_every_server.

Definition create_none (pr : proto) (key : bytes) (e : pentry) : Prop := match e with PDone _ _ o _ => ~ may_create pr key o | PTick _ => True end.
Lemma on_server_create : forall pr key j l, Forall (create_none pr key) l -> Forall (creates_none pr key) (map event_of (on_server j l)).
Proof.
  intros pr key j l. induction l as [|[i t o r|d] l IH]; intro F; [constructor| |]; inversion F; subst; cbn [on_server flat_map]; fold (on_server j l).
  - destruct (Nat.eqb i j); cbn [app map event_of]; [constructor; [assumption|]|]; apply IH; assumption.
  - cbn [app map event_of]. constructor; [exact Logic.I|apply IH; assumption].
Qed.
Lemma made_on_server : forall f j o r l, In (j, o, r) (made_by f l) -> In (LDone f o r) (on_server j l).
Proof.
  intros f j o r l I. unfold made_by in I. apply in_flat_map in I. destruct I as ([i t o' r'|d] & Ie & I); [|contradiction].
  destruct (Nat.eqb_spec t f) as [->|]; [|contradiction]. destruct I as [I|[]]. injection I as -> -> ->. unfold on_server. apply in_flat_map. eexists. split; [exact Ie|]. cbn. rewrite Nat.eqb_refl. left. reflexivity.
Qed.
(** Goroutines calling any methods of a shared pool of servers of any protocols. A Flush of the whole pool
    returned nil to goroutine [f] in the part [l2] of the log. From the call of Flush on, nobody called a
    method that could create [key]. Then Get of [key] from its server, after Flush returned, reports that
    the key is absent. *)
Theorem C66_flush_clears_a_shared_pool : forall pr name c h progs p servers nodes order f key sv l1 l2 l3 t r,
  psteps (fun j => client_of (pr j) (name j)) (pool_started c h progs) p ->
  good_pool servers nodes -> Permutation order (map_entries servers) -> pick nodes key = Ok sv ->
  ps_log p = l1 ++ l2 ++ l3 ++ [PDone (sv_id sv) t (OGet key) r] -> flushed order (made_by f l2) ->
  Forall (create_none (pr (sv_id sv)) key) (l2 ++ l3) ->
  wf (pr (sv_id sv)) (c (sv_id sv)) -> (c_cas (c (sv_id sv)) + zlen (ps_log p) < cas_bound (pr (sv_id sv)))%Z ->
  Forall (legal_event (pr (sv_id sv))) (map event_of (on_server (sv_id sv) (ps_log p))) ->
  safe_run (pr (sv_id sv)) (name (sv_id sv)) (rq_cas (h (sv_id sv))) (c (sv_id sv)) (map event_of (on_server (sv_id sv) (ps_log p))) ->
  r = Err ENotFound.
Proof.
  intros pr name c h progs p servers nodes order f key sv l1 l2 l3 t r S G Po Pk El Fl Cn W Cs Lg Sf.
  destruct (pinv_steps pr name c h progs p S) as (Sv & _ & _). destruct (Sv (sv_id sv)) as [[ps (_ & Rs & _)] Lo]. rewrite Lo in Rs. clear Sv Lo.
  set (j := sv_id sv) in *.
  destruct (run_ok (pr j) (name j) (map event_of (on_server j (ps_log p))) (c j) (h j) W) as (h' & outs & Er & A); [|exact Lg|exact Sf|].
  { assert (X : (zlen (on_server j (ps_log p)) <= zlen (ps_log p))%Z).
    { unfold zlen. apply inj_le. unfold on_server. generalize (ps_log p). intro l. induction l as [|e l IHl]; [cbn; lia|]. cbn [flat_map]. rewrite app_length. destruct e as [i u o' r'|d]; [destruct (Nat.eqb i j)|]; cbn [length]; lia. }
    unfold zlen in *. rewrite map_length. lia. }
  rewrite Er in Rs. cbn [snd] in Rs. subst outs. clear Er Lg Sf.
  assert (Isv : In sv servers).
  { destruct G as (Ne & Rg & _). destruct (ring_pick_in servers nodes key Ne Rg) as (sv' & Pk' & I). rewrite Pk in Pk'. injection Pk' as <-. exact I. }
  assert (Io : In sv order).
  { apply Permutation_sym in Po. apply (Permutation_in _ Po). destruct (order_props servers nodes order G (Permutation_sym Po)) as (_ & Q). apply (Permutation_in _ (Permutation_sym Po)). apply Q. exact Isv. }
  assert (If : exists v, In (LDone f OFlush (Ok v)) (on_server j l2)).
  { clear - Fl Io. unfold flushed in Fl. remember (made_by f l2) as m eqn:Em. assert (Sub : forall x, In x m -> In x (made_by f l2)) by (subst; auto). clear Em.
    induction Fl as [|s x order m [v ->] Fl IH]; [contradiction|]. destruct Io as [->|Io]; [exists v; apply made_on_server, Sub; left; reflexivity|apply IH; [exact Io|intros x Ix; apply Sub; right; exact Ix]]. }
  destruct If as [v If]. apply in_split in If. destruct If as (b1 & b2 & Eb).
  rewrite El in A. rewrite !on_server_app in A. cbn [on_server flat_map] in A. rewrite Nat.eqb_refl in A. cbn [app] in A. rewrite app_assoc, app_assoc in A. unfold results_of in A. rewrite flat_map_app, map_app, spec_run_app in A. cbn [flat_map map event_of app spec_run snd] in A.
  apply Forall2_app_inv_l in A. destruct A as (x1 & x2 & _ & A2 & Ex). inversion A2 as [|sx y sl yl Ag An]; subst. inversion An; subst. apply app_inj_tail in Ex. destruct Ex as [_ <-]. clear A2 An x1.
  assert (Ab : c_map (fst (spec_run (pr j) (name j) (c j) (map event_of ((on_server j l1 ++ on_server j l2) ++ on_server j l3)))) key = None).
  { apply Forall_app in Cn. destruct Cn as [C2 C3]. apply (on_server_create _ _ j) in C2. apply (on_server_create _ _ j) in C3. rewrite Eb in C2 |- *. rewrite map_app in C2. cbn [map event_of] in C2. apply Forall_app in C2. destruct C2 as [_ C2]. inversion C2; subst.
    rewrite !map_app. cbn [map event_of]. rewrite <- !app_assoc, spec_run_app, spec_run_app. cbn [fst app spec_run]. apply run_absent; [reflexivity|]. apply Forall_app. split; assumption. }
  cbn [spec_step snd agrees] in Ag. unfold lookup in Ag. rewrite Ab in Ag. destruct r as [v'|e|]; cbn [agrees] in Ag; [contradiction|subst e; reflexivity|contradiction].
Qed.
Print Assumptions C66_flush_clears_a_shared_pool.

(** The run of [clash] meets the hypotheses of the C66 and C65 theorems: Flush overlaps calls of another
    goroutine, and the second Get of "hello" is the one the theorem speaks of. *)
Example C66_met : exists p, psteps (fun j => client_of PText (ab_name j)) (clash_start (new_ring [sv_a; sv_b])) p
  /\ good_pool [sv_a; sv_b] (new_ring [sv_a; sv_b]) /\ Permutation [sv_a; sv_b] (map_entries [sv_a; sv_b]) /\ pick (new_ring [sv_a; sv_b]) (B "hello") = Ok sv_b
  /\ exists l1 l2 l4, ps_log p = l1 ++ l2 ++ [] ++ [PDone (sv_id sv_b) 1 (OGet (B "hello")) (Err ENotFound)] ++ l4 /\ flushed [sv_a; sv_b] (made_by 0 l2)
       /\ Forall (create_none PText (B "hello")) (l2 ++ []) /\ l1 <> [] /\ In (PDone 0 1 (demo_set "x" "2" 0) (Ok RUnit)) l2.
Proof.
  destruct C01_met as (_ & _ & Kh & Kx). destruct C05_met as (Gp & Wc & _ & _). assert (En : map_entries [sv_a; sv_b] = [sv_a; sv_b]) by (vm_compute; reflexivity).
  remember (new_ring [sv_a; sv_b]) as nodes eqn:En0. clear En0. destruct (clash nodes Kh Kx) as (p & S & _ & R).
  exists p. split; [exact S|]. split; [exact Gp|]. split; [rewrite En; apply Permutation_refl|]. split; [exact Kh|].
  exists (firstn 1 clash_log), (firstn 4 (skipn 1 clash_log)), (skipn 6 clash_log). split; [rewrite R; reflexivity|]. split; [|split; [|split]].
  - constructor; [eexists; reflexivity|]. constructor; [eexists; reflexivity|constructor].
  - cbn [firstn skipn clash_log app]. repeat (constructor; [intro X; vm_compute in X; first [discriminate X|exact X]|]). constructor.
  - discriminate.
  - right. left. reflexivity.
Qed.
(** Two goroutines sharing the pool, one storing and one reading: the hypotheses of
    [C65_shared_pool_is_one_cache] are met by a run in which both calls are complete. *)
Definition writer_and_reader (t : nat) : list op := match t with O => [demo_set "hello" "1" 0] | 1 => [OGet (B "hello")] | _ => [] end.
Lemma demo_two : forall nodes, pick nodes (B "hello") = Ok sv_b -> exists p, psteps (fun j => client_of PText (ab_name j)) (demo_pool (fun t => calls_each nodes (writer_and_reader t))) p
  /\ ps_log p = [PDone 1 0 (demo_set "hello" "1" 0) (Ok RUnit); PDone 1 1 (OGet (B "hello")) (Ok (RItem hello_item))].
Proof.
  intros nodes Kh. set (progs := fun t => calls_each nodes (writer_and_reader t)).
  assert (P0 : ps_prog (demo_pool progs) 0 = calls_each nodes [demo_set "hello" "1" 0]) by reflexivity.
  assert (P1 : ps_prog (demo_pool progs) 1 = calls_each nodes [OGet (B "hello")]) by reflexivity.
  unfold demo_set in P0. cbn [calls_each op_key it_key] in P0, P1. unfold prog_key in P0, P1. rewrite Kh in P0, P1. cbn [sv_b sv_id] in P0, P1.
  destruct (demo_call progs (demo_pool progs) 0 1 _ _ [] (ps_refl _ _) ltac:(reflexivity) ltac:(reflexivity) P0 eq_refl ltac:(vm_compute; reflexivity) ltac:(vm_compute; reflexivity)) as (p1 & r1 & S1 & L1 & K1 & A1 & N1 & M1). cbn [app] in L1.
  rewrite <- (M1 1 ltac:(discriminate)) in P1.
  destruct (demo_call progs p1 1 1 _ _ _ S1 K1 A1 P1 L1 ltac:(vm_compute; reflexivity) ltac:(vm_compute; reflexivity)) as (p2 & r2 & S2 & L2 & K2 & A2 & N2 & M2). cbn [app] in L2.
  pose proof (proj1 (C65_pool_calls_are_calls_in_sequence (fun _ => PText) ab_name _ _ _ p2 S2)) as Ex. rewrite L2 in Ex. vm_compute in Ex. destruct Ex as (E1 & E2 & _).
  exists p2. split; [exact S2|]. rewrite L2, <- E1, <- E2. reflexivity.
Qed.
Example C65_met : exists p, psteps (fun j => client_of PText (ab_name j)) (demo_pool (fun t => calls_each (new_ring [sv_a; sv_b]) (writer_and_reader t))) p
  /\ good_pool [sv_a; sv_b] (new_ring [sv_a; sv_b]) /\ (forall sv, In sv [sv_a; sv_b] -> ab_name (sv_id sv) = sv_name sv)
  /\ ps_log p = [PDone 1 0 (demo_set "hello" "1" 0) (Ok RUnit); PDone 1 1 (OGet (B "hello")) (Ok (RItem hello_item))]
  /\ Forall (legal_event PText) (pevents (ps_log p)).
Proof.
  destruct C01_met as (_ & _ & Kh & _). destruct C05_met as (Gp & _). destruct (demo_two _ Kh) as (p & S & L).
  exists p. split; [exact S|]. split; [exact Gp|]. split; [intros sv [<-|[<-|[]]]; reflexivity|]. split; [exact L|].
  rewrite L. apply legal_events_ok. vm_compute. reflexivity.
Qed.
(** A pool of one server, one goroutine storing and one flushing: a finished run. *)
Definition writer_and_flusher (t : nat) : list op := match t with O => [demo_set "hello" "1" 0] | 1 => [OFlush] | _ => [] end.
Lemma demo_one : forall nodes, (forall k, pick nodes k = Ok sv_a) -> exists p, psteps (fun j => client_of PText (ab_name j)) (demo_pool (fun t => calls_all nodes [sv_a] (writer_and_flusher t))) p
  /\ all_done p /\ ps_log p = [PDone 0 0 (demo_set "hello" "1" 0) (Ok RUnit); PDone 0 1 OFlush (Ok RUnit)].
Proof.
  intros nodes Kh. set (progs := fun t => calls_all nodes [sv_a] (writer_and_flusher t)).
  assert (P0 : ps_prog (demo_pool progs) 0 = calls_all nodes [sv_a] [demo_set "hello" "1" 0]) by reflexivity.
  assert (P1 : ps_prog (demo_pool progs) 1 = calls_all nodes [sv_a] [OFlush]) by reflexivity.
  unfold demo_set in P0. cbn [calls_all op_key it_key] in P0, P1. unfold prog_key in P0. rewrite Kh in P0. cbn [sv_a sv_id prog_flush] in P0, P1.
  destruct (demo_call progs (demo_pool progs) 0 0 _ _ [] (ps_refl _ _) ltac:(reflexivity) ltac:(reflexivity) P0 eq_refl ltac:(vm_compute; reflexivity) ltac:(vm_compute; reflexivity)) as (p1 & r1 & S1 & L1 & K1 & A1 & N1 & M1). cbn [app] in L1.
  rewrite <- (M1 1 ltac:(discriminate)) in P1.
  destruct (demo_call progs p1 1 0 _ _ _ S1 K1 A1 P1 L1 ltac:(vm_compute; reflexivity) ltac:(vm_compute; reflexivity)) as (p2 & r2 & S2 & L2 & K2 & A2 & N2 & M2). cbn [app] in L2.
  pose proof (proj1 (C65_pool_calls_are_calls_in_sequence (fun _ => PText) ab_name _ _ _ p2 S2)) as Ex. rewrite L2 in Ex. vm_compute in Ex. destruct Ex as (E1 & E2 & _).
  exists p2. split; [exact S2|]. split; [|rewrite L2, <- E1, <- E2; reflexivity]. intro t. split; [apply A2|]. destruct t as [|[|t]].
  - rewrite (M2 0), N1 by discriminate. reflexivity.
  - rewrite N2, <- E2. reflexivity.
  - rewrite (M2 (S (S t))), (M1 (S (S t))) by discriminate. reflexivity.
Qed.
Example C67_met : exists p, psteps (fun j => client_of PText (ab_name j)) (demo_pool (fun t => calls_all (new_ring [sv_a]) [sv_a] (writer_and_flusher t))) p
  /\ good_pool [sv_a] (new_ring [sv_a]) /\ all_done p /\ Forall no_tick (ps_log p) /\ length (ps_log p) = 2.
Proof.
  assert (G : good_pool [sv_a] (new_ring [sv_a])) by (split; [discriminate|]; split; [apply new_ring_ok|]; split; (constructor; [intros []|constructor])).
  assert (Pk : forall k, pick (new_ring [sv_a]) k = Ok sv_a).
  { intro k. destruct G as (Ne & Rg & _). destruct (ring_pick_in [sv_a] _ k Ne Rg) as (sv' & Pk & [<-|[]]). exact Pk. }
  destruct (demo_one _ Pk) as (p & S & D & L). exists p. split; [exact S|]. split; [exact G|]. split; [exact D|]. rewrite L. split; [|reflexivity].
  repeat (constructor; [exact Logic.I|]). constructor.
Qed.
