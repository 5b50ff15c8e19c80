(** * C97: concurrent calls stay atomic while time passes. *)
From Verif Require Import GoBytes GoNum GoIO Item ClientText ClientMeta ClientBinary Cache Daemon Spec Intent Call Guard Exact.
From Verif Require Import PLib PScan PDaemon PStream PCache PText PMeta PBinary PClient PropClient PropExact PropReply PReply PropWriter PLifecycle PropLifecycle Conc PropConc PropHandler TimeConc.

Lemma one_step : forall pr name h c o rq, legal pr o -> one_command pr o -> (0 <= rq_cas h < 2 ^ 64)%Z -> fst (cl_req (client_of pr name) h o) = Ok rq ->
  exists c' r, daemon_step (cl_wire (client_of pr name)) c rq = Some (c', r, []).
Proof.
  intros pr name h c o rq L O H R. destruct pr; cbn [client_of cl_wire text_client meta_client bin_client cl_req fst daemon_step] in *; rewrite <- (app_nil_r rq).
  - do 2 eexists. apply text_step; eassumption.
  - do 2 eexists. apply meta_step_ok; [exact L| |exact R]. intros ks ->. discriminate O.
  - assert (N : forall ks, o <> OGetMulti ks) by (intros ks ->; discriminate O).
    assert (D : (match o with OIncr _ _ _ | ODecr _ _ _ => False | _ => True end) \/ (match o with OIncr _ _ _ | ODecr _ _ _ => True | _ => False end)) by (destruct o; auto).
    destruct D as [D|D].
    + do 2 eexists. eapply bin_step_ok; [exact L|exact N|destruct o; auto; contradiction|exact R].
    + destruct o; try contradiction; cbn [legal] in L; destruct L as (K & De).
      * destruct De as [De E']. specialize (E' eq_refl). do 2 eexists. rewrite (bin_incr_sent c h 5 k delta expiration rq []) by (auto; lia). reflexivity.
      * destruct De as [De E']. specialize (E' eq_refl). do 2 eexists. rewrite (bin_incr_sent c h 6 k delta expiration rq []) by (auto; lia). reflexivity.
Qed.
Definition ticks (c : cache) (ds : list Z) : cache := fold_left tick ds c.
Lemma run_waits : forall cl c h ds, run cl (fresh_link c h) (map Wait ds) = (fresh_link (ticks c ds) h, []).
Proof. intros cl c h ds. revert c. induction ds as [|d ds IH]; intro c; cbn [map run]; [reflexivity|]. exact (IH (tick c d)). Qed.
Lemma orders_app : forall L E R, orders L E R -> forall M F Q, orders M F Q -> orders (L ++ M) (E ++ F) (R ++ Q).
Proof.
  intros L E R H. induction H as [|d L E R H IH|t o r a b L E R H IH]; intros M F Q J; cbn [app].
  - exact J.
  - apply o_time. apply IH. exact J.
  - rewrite <- !app_assoc. cbn [app]. rewrite <- !app_assoc. apply o_call. apply IH. exact J.
Qed.
Lemma orders_length : forall L E R, orders L E R -> (length E <= length L)%nat.
Proof.
  intros L E R H. induction H as [|d L E R H IH|t o r a b L E R H IH]; cbn [length]; [lia|lia|]. rewrite !app_length, !map_length. cbn [length]. rewrite !app_length, !map_length. cbn [length]. lia.
Qed.
Lemma ended_app : forall t a b, ended t (a ++ b) = ended t a ++ ended t b.
Proof. intros. apply flat_map_app. Qed.
Lemma ended_times : forall t a, ended t (map TTime a) = [].
Proof. intros t a. induction a as [|d a IH]; [reflexivity|exact IH]. Qed.
Lemma safe_in_time_prefix : forall pr name last c L M, safe_in_time pr name last c (L ++ M) -> safe_in_time pr name last c L.
Proof. intros pr name last c L M H L1 L2 E R -> O. apply (H L1 (L2 ++ M) E R); [rewrite app_assoc; reflexivity|exact O]. Qed.
Lemma header_range : forall pr name h o, legal pr o -> (0 <= rq_cas h < 2 ^ 64)%Z -> (0 <= rq_cas (snd (cl_req (client_of pr name) h o)) < 2 ^ 64)%Z.
Proof.
  intros pr name h o L H. destruct pr; [exact H|exact H|]. cbn [client_of bin_client cl_req]. rewrite bin_req_header.
  destruct o; cbn [legal next_cas] in *; unfold legal_item in *; try exact H; try (split; [discriminate|reflexivity]); intuition lia.
Qed.

(** The call under way: not executed yet, or executed after the times [a1]. *)
Definition progress (cl : client) (c0 : cache) (h0 : req_header) (s : cstate) (x : thread) (o : op) (a : list Z) : Prop :=
  exists rq, fst (cl_req cl h0 o) = Ok rq /\ cs_header s = snd (cl_req cl h0 o) /\
  ((cs_pending s ++ cs_out s ++ left_of x = rq /\ cs_cache s = ticks c0 a /\ cs_buf s = [] /\ cs_in s = [])
   \/ exists a1 a2 c' reply, a = a1 ++ a2 /\ daemon_step (cl_wire cl) (ticks c0 a1) rq = Some (c', reply, []) /\ cs_cache s = ticks c' a2
      /\ cs_pending s = [] /\ cs_out s = [] /\ left_of x = [] /\ cs_buf s ++ cs_in s = reply).
Definition quiet (c0 : cache) (h0 : req_header) (s : cstate) : Prop :=
  (forall t, th_pc (cs_threads s t) = Idle) /\ cs_out s = [] /\ cs_pending s = [] /\ cs_buf s = [] /\ cs_in s = [] /\ cs_cache s = c0 /\ cs_header s = h0.
Definition tinv (pr : proto) (name : bytes) (c : cache) (h : req_header) (progs : nat -> list op) (v : cstate * list tevent) : Prop :=
  let cl := client_of pr name in
  let s := fst v in
  (forall t, ended t (snd v) ++ current (cs_threads s t) ++ th_todo (cs_threads s t) = progs t) /\
  exists Lc Lo E R c0 h0, snd v = Lc ++ Lo /\ orders Lc E R /\ Forall (legal_event pr) E /\ (0 <= rq_cas h0 < 2 ^ 64)%Z /\
  run cl (fresh_link c h) E = (fresh_link c0 h0, R) /\
  match cs_lock s with
  | None => Lo = [] /\ quiet c0 h0 s
  | Some t => (forall u, u <> t -> th_pc (cs_threads s u) = Idle)
      /\ exists o a, Lo = TBegin t o :: map TTime a /\ Forall (fun d => 0 <= d)%Z a /\ current (cs_threads s t) = [o] /\ legal pr o /\ one_command pr o
         /\ progress cl c0 h0 s (cs_threads s t) o a
  end.

Lemma current_shape : forall x o, current x = [o] -> exists os, (exists rq, x = mkThread (Sending o rq) os) \/ x = mkThread (Waiting o) os.
Proof. intros [[|o' rq|o'] os] o E; cbn in E; try discriminate; injection E as ->; exists os; eauto. Qed.
Lemma tinv_holder : forall pr name c h progs v t, tinv pr name c h progs v -> th_pc (cs_threads (fst v) t) <> Idle -> cs_lock (fst v) = Some t.
Proof.
  intros pr name c h progs v t (_ & Lc & Lo & E & R & c0 & h0 & _ & _ & _ & _ & _ & Q) N. destruct (cs_lock (fst v)) as [u|].
  - destruct Q as [Q _]. destruct (Nat.eq_dec t u) as [->|D]; [reflexivity|]. elim N. apply Q. exact D.
  - destruct Q as (_ & Q & _). elim N. apply Q.
Qed.
Lemma ticks_app : forall c a b, ticks c (a ++ b) = ticks (ticks c a) b.
Proof. intros. apply fold_left_app. Qed.
Lemma legal_waits : forall pr a, Forall (fun d => 0 <= d)%Z a -> Forall (legal_event pr) (map Wait a).
Proof. intros pr a F. induction F as [|d a D F IH]; cbn [map]; constructor; assumption. Qed.

(** A step of the connection keeps the invariant. *)
Lemma tinv_quiet : forall pr name c h progs s u L, tinv pr name c h progs (s, L) -> cstep (client_of pr name) s u -> cs_lock u = cs_lock s -> cs_log u = cs_log s -> tinv pr name c h progs (u, L).
Proof.
  intros pr name c h progs s u L I S Lk Lg. pose proof (fun t => tinv_holder pr name c h progs (s, L) t I) as Ho. cbn [fst] in Ho.
  pose proof I as (P & Lc & Lo & E & R & c0 & h0 & El & Or & Le & Hr & Ru & Q). cbn [fst snd] in *. set (cl := client_of pr name) in *.
  destruct S as [s t o os rq Lk0 Th Rq|s t o a b os Th|s t o os Th|s a b Eo|s c' r rest Ed|s a b Ei|s t o os r rest Th Ed N|s d Lk0 Eo Ep].
  - cbn [cs_lock] in Lk. congruence.
  - (* send *) pose proof (Ho t ltac:(rewrite Th; discriminate)) as Lt. rewrite Lt in Q. destruct Q as (Qi & o' & a' & Eo & Fa & Co & Lo' & Si & rq & Rq & Hh & Pr).
    split; cbn [fst snd cs_threads].
    + intro v. destruct (Nat.eq_dec v t) as [->|D]; [rewrite set_same, <- (P t), Th; reflexivity|rewrite set_other by exact D; apply P].
    + exists Lc, Lo, E, R, c0, h0. repeat (split; [assumption|]). cbn [cs_lock]. rewrite Lt. split; [intros v D; cbn [cs_threads]; rewrite set_other by exact D; apply Qi; exact D|].
      exists o', a'. cbn [cs_threads]. rewrite set_same. rewrite Th in Co. repeat (split; [assumption|]). exists rq. cbn [cs_header cs_pending cs_out cs_cache cs_buf cs_in left_of th_pc]. repeat (split; [assumption|]).
      rewrite Th in Pr. cbn [left_of th_pc] in Pr. destruct Pr as [(Pq & Pr)|(a1 & a2 & c' & reply & Ea & Ds & Ec & Pp & Po & Pl & Pb)].
      * left. split; [|exact Pr]. rewrite <- Pq, <- !app_assoc. reflexivity.
      * right. exists a1, a2, c', reply. apply app_eq_nil in Pl. destruct Pl as [-> ->]. rewrite Po. repeat (split; [assumption|]). repeat split; assumption.
  - (* sent *) pose proof (Ho t ltac:(rewrite Th; discriminate)) as Lt. rewrite Lt in Q. destruct Q as (Qi & o' & a' & Eo & Fa & Co & Lo' & Si & rq & Rq & Hh & Pr).
    split; cbn [fst snd cs_threads].
    + intro v. destruct (Nat.eq_dec v t) as [->|D]; [rewrite set_same, <- (P t), Th; reflexivity|rewrite set_other by exact D; apply P].
    + exists Lc, Lo, E, R, c0, h0. repeat (split; [assumption|]). cbn [cs_lock]. rewrite Lt. split; [intros v D; cbn [cs_threads]; rewrite set_other by exact D; apply Qi; exact D|].
      exists o', a'. cbn [cs_threads]. rewrite set_same. rewrite Th in Co. repeat (split; [assumption|]). exists rq. rewrite Th in Pr. repeat (split; [assumption|]). exact Pr.
  - (* net out *) split; [exact P|]. exists Lc, Lo, E, R, c0, h0. repeat (split; [assumption|]). cbn [fst cs_lock]. destruct (cs_lock s) as [t|].
    + destruct Q as (Qi & o' & a' & Eo' & Fa & Co & Lo' & Si & rq & Rq & Hh & Pr). split; [exact Qi|]. exists o', a'. repeat (split; [assumption|]). exists rq. repeat (split; [assumption|]).
      cbn [cs_pending cs_out cs_threads cs_cache cs_buf cs_in]. destruct Pr as [(Pq & Pr)|(a1 & a2 & c' & reply & Ea & Ds & Ec & Pp & Po & Pl & Pb)].
      * left. split; [|exact Pr]. rewrite <- Pq, Eo, <- !app_assoc. reflexivity.
      * right. exists a1, a2, c', reply. rewrite Po in Eo. symmetry in Eo. apply app_eq_nil in Eo. destruct Eo as [-> ->]. rewrite Pp. repeat (split; [assumption|]). repeat split; assumption.
    + destruct Q as (E0 & Qi & Qo & Qp & Qb & Qn & Qc & Qh). rewrite Qo in Eo. symmetry in Eo. apply app_eq_nil in Eo. destruct Eo as [-> ->]. split; [exact E0|]. unfold quiet. cbn. rewrite Qp. repeat split; assumption.
  - (* daemon *) split; [exact P|]. exists Lc, Lo, E, R, c0, h0. repeat (split; [assumption|]). cbn [fst cs_lock]. destruct (cs_lock s) as [t|].
    + destruct Q as (Qi & o' & a' & Eo' & Fa & Co & Lo' & Si & rq & Rq & Hh & Pr). split; [exact Qi|]. exists o', a'. repeat (split; [assumption|]). exists rq. repeat (split; [assumption|]).
      cbn [cs_pending cs_out cs_threads cs_cache cs_buf cs_in]. destruct Pr as [(Pq & Pc & Pb & Pn)|(a1 & a2 & c1 & reply & Ea & Ds & Ec & Pp & Po & Pl & Pb)].
      * right. destruct (one_step pr name h0 (ticks c0 a') o' rq Lo' Si Hr Rq) as (c1 & r1 & D1). fold cl in D1.
        pose proof (daemon_step_more _ _ _ _ _ _ (cs_out s ++ left_of (cs_threads s t)) Ed) as D2. rewrite Pq, Pc, D1 in D2. injection D2 as -> -> D2. symmetry in D2.
        apply app_eq_nil in D2. destruct D2 as [-> D2]. apply app_eq_nil in D2. destruct D2 as [D2 D3].
        exists a', [], c', r. rewrite app_nil_r, D2, Pb, Pn. split; [reflexivity|]. split; [exact D1|]. split; [reflexivity|]. split; [reflexivity|]. split; [reflexivity|]. split; [exact D3|reflexivity].
      * rewrite Pp in Ed. exfalso. pose proof (daemon_step_shrink _ _ _ _ _ _ Ed) as X. cbn in X. lia.
    + destruct Q as (E0 & Qi & Qo & Qp & Qb & Qn & Qc & Qh). rewrite Qp in Ed. exfalso. pose proof (daemon_step_shrink _ _ _ _ _ _ Ed) as X. cbn in X. lia.
  - (* net in *) split; [exact P|]. exists Lc, Lo, E, R, c0, h0. repeat (split; [assumption|]). cbn [fst cs_lock]. destruct (cs_lock s) as [t|].
    + destruct Q as (Qi & o' & a' & Eo' & Fa & Co & Lo' & Si & rq & Rq & Hh & Pr). split; [exact Qi|]. exists o', a'. repeat (split; [assumption|]). exists rq. repeat (split; [assumption|]).
      cbn [cs_pending cs_out cs_threads cs_cache cs_buf cs_in]. destruct Pr as [(Pq & Pc & Pb & Pn)|(a1 & a2 & c1 & reply & Ea & Ds & Ec & Pp & Po & Pl & Pb)].
      * left. rewrite Pn in Ei. symmetry in Ei. apply app_eq_nil in Ei. destruct Ei as [-> ->]. rewrite Pb. repeat split; assumption.
      * right. exists a1, a2, c1, reply. repeat (split; [assumption|]). rewrite <- Pb, Ei, <- app_assoc. reflexivity.
    + destruct Q as (E0 & Qi & Qo & Qp & Qb & Qn & Qc & Qh). rewrite Qn in Ei. symmetry in Ei. apply app_eq_nil in Ei. destruct Ei as [-> ->]. split; [exact E0|]. unfold quiet. cbn. rewrite Qb. repeat split; assumption.
  - cbn [cs_log] in Lg. exfalso. apply (f_equal (@length entry)) in Lg. rewrite app_length in Lg. cbn in Lg. lia.
  - cbn [cs_log] in Lg. exfalso. apply (f_equal (@length entry)) in Lg. rewrite app_length in Lg. cbn in Lg. lia.
Qed.
Lemma log_longer : forall (l : list entry) e, l <> l ++ [e].
Proof. intros l e H. apply (f_equal (@length entry)) in H. rewrite app_length in H. cbn in H. lia. Qed.
Lemma tinv_begin : forall pr name c h progs s u L t o rq os, tinv pr name c h progs (s, L) -> (forall t, Forall (fun o => legal pr o /\ one_command pr o) (progs t)) ->
  cstep (client_of pr name) s u -> cs_lock s = None -> cs_lock u = Some t -> cs_threads u t = mkThread (Sending o rq) os -> tinv pr name c h progs (u, L ++ [TBegin t o]).
Proof.
  intros pr name c h progs s u L t o rq os I G S Ls Lu Tu.
  pose proof I as (P & Lc & Lo & E & R & c0 & h0 & El & Or & Le & Hr & Ru & Q). cbn [fst snd] in *. rewrite Ls in Q.
  destruct S; cbn [cs_lock] in Lu; try congruence. injection Lu as ->. cbn [cs_threads] in Tu. rewrite set_same in Tu. injection Tu as -> -> ->.
  destruct Q as (-> & Qi & Qo & Qp & Qb & Qn & Qc & Qh). rewrite app_nil_r in El. subst L.
  assert (Go : legal pr o /\ one_command pr o).
  { specialize (G t). rewrite <- (P t), H0 in G. cbn [current th_pc th_todo app] in G. apply Forall_app in G. destruct G as [_ G]. inversion G; subst. assumption. }
  split; cbn [fst snd cs_threads].
  - intro v. rewrite ended_app. cbn [ended flat_map]. rewrite app_nil_r. destruct (Nat.eq_dec v t) as [->|D]; [rewrite set_same, <- (P t), H0; reflexivity|rewrite set_other by exact D; apply P].
  - exists Lc, [TBegin t o], E, R, c0, h0. repeat (split; [first [assumption|reflexivity]|]). cbn [cs_lock]. split; [intros v D; rewrite set_other by exact D; apply Qi|].
    exists o, []. rewrite set_same. split; [reflexivity|]. split; [constructor|]. split; [reflexivity|]. split; [apply Go|]. split; [apply Go|].
    subst h0. exists rq. split; [exact H1|]. cbn [cs_header cs_pending cs_out cs_cache cs_buf cs_in left_of th_pc]. split; [reflexivity|]. left. rewrite Qo, Qp. repeat split; assumption.
Qed.
Lemma tinv_time : forall pr name c h progs s L d, tinv pr name c h progs (s, L) -> (0 <= d)%Z ->
  tinv pr name c h progs (mkC (cs_lock s) (cs_threads s) (cs_header s) (cs_out s) (cs_pending s) (tick (cs_cache s) d) (cs_in s) (cs_buf s) (cs_log s), L ++ [TTime d]).
Proof.
  intros pr name c h progs s L d (P & Lc & Lo & E & R & c0 & h0 & El & Or & Le & Hr & Ru & Q) D. cbn [fst snd] in *.
  split; cbn [fst snd cs_threads]; [intro v; rewrite ended_app; cbn [ended flat_map]; rewrite app_nil_r; apply P|].
  cbn [cs_lock]. destruct (cs_lock s) as [t|].
  - destruct Q as (Qi & o' & a' & Eo' & Fa & Co & Lo' & Si & rq & Rq & Hh & Pr).
    exists Lc, (Lo ++ [TTime d]), E, R, c0, h0. split; [rewrite El, app_assoc; reflexivity|]. repeat (split; [assumption|]).
    exists o', (a' ++ [d]). split; [rewrite Eo', map_app; reflexivity|]. split; [apply Forall_app; split; [exact Fa|constructor; [exact D|constructor]]|]. repeat (split; [assumption|]). exists rq. repeat (split; [assumption|]).
    cbn [cs_pending cs_out cs_threads cs_cache cs_buf cs_in]. destruct Pr as [(Pq & Pc & Pb & Pn)|(a1 & a2 & c1 & reply & Ea & Ds & Ec & Pp & Po & Pl & Pb)].
    + left. rewrite ticks_app, <- Pc. repeat split; assumption.
    + right. exists a1, (a2 ++ [d]), c1, reply. split; [rewrite Ea, app_assoc; reflexivity|]. split; [exact Ds|]. split; [rewrite ticks_app, <- Ec; reflexivity|]. repeat split; assumption.
  - destruct Q as (-> & Qi & Qo & Qp & Qb & Qn & Qc & Qh). rewrite app_nil_r in El. subst L.
    exists (Lc ++ [TTime d]), [], (E ++ [Wait d]), R, (tick c0 d), h0. split; [rewrite app_nil_r; reflexivity|].
    split; [rewrite <- (app_nil_r R); apply orders_app; [exact Or|apply o_time, o_nil]|]. split; [apply Forall_app; split; [exact Le|constructor; [exact D|constructor]]|]. split; [exact Hr|].
    split; [rewrite run_app, Ru; cbn [fst snd run]; rewrite app_nil_r; reflexivity|]. split; [reflexivity|]. unfold quiet. cbn. rewrite Qc. repeat split; assumption.
Qed.
Lemma tinv_end : forall pr name c h progs s u L t o r, tinv pr name c h progs (s, L) -> cstep (client_of pr name) s u -> cs_log u = cs_log s ++ [LDone t o r] ->
  wf pr c -> (c_cas c + zlen (L ++ [TEnd t o r]) < cas_bound pr)%Z -> safe_in_time pr name (rq_cas h) c (L ++ [TEnd t o r]) -> tinv pr name c h progs (u, L ++ [TEnd t o r]).
Proof.
  intros pr name c h progs s u L t o r I S Lg W C Sf. pose proof (fun t => tinv_holder pr name c h progs (s, L) t I) as Ho. cbn [fst] in Ho.
  pose proof I as (P & Lc & Lo & E & R & c0 & h0 & El & Or & Le & Hr & Ru & Q). cbn [fst snd] in *. set (cl := client_of pr name) in *.
  destruct S as [s ? ? ? ? _ _ _|s ? ? ? ? ? _|s ? ? ? _|s ? ? _|s ? ? ? _|s ? ? _|s t' o' os r' rest Th Ed N|s d _ _ _]; cbn [cs_log] in Lg; try (exfalso; exact (log_longer _ _ Lg)); try (apply app_inv_head in Lg; discriminate Lg).
  apply app_inv_head in Lg. injection Lg as -> -> ->.
  pose proof (Ho t ltac:(rewrite Th; discriminate)) as Lt. rewrite Lt in Q. destruct Q as (Qi & o' & a & Eo & Fa & Co & Lo' & Si & rq & Rq & Hh & Pr).
  rewrite Th in Co, Pr. cbn [current th_pc left_of] in Co, Pr. injection Co as <-. destruct Pr as [(Pq & Pc & Pb & Pn)|(a1 & a2 & c1 & reply & -> & Ds & Ec & Pp & Po & Pl & Pb)].
  { exfalso. apply N. rewrite Pb in Ed. pose proof (silence_is_an_error pr name o) as X. fold cl in X. rewrite Ed in X. exact X. }
  assert (Oc : orders (Lc ++ TBegin t o :: map TTime a1 ++ map TTime a2 ++ TEnd t o r :: []) (E ++ map Wait a1 ++ Do o :: map Wait a2 ++ []) (R ++ [r])) by (apply orders_app; [exact Or|apply o_call, o_nil]).
  rewrite app_nil_r in Oc.
  assert (EL : L ++ [TEnd t o r] = Lc ++ TBegin t o :: map TTime a1 ++ map TTime a2 ++ [TEnd t o r]) by (rewrite El, Eo, map_app; cbn [app]; rewrite <- !app_assoc; cbn [app]; rewrite <- ?app_assoc; reflexivity).
  rewrite <- EL in Oc. apply Forall_app in Fa. destruct Fa as [Fa1 Fa2].
  assert (Le' : Forall (legal_event pr) (E ++ map Wait a1 ++ Do o :: map Wait a2)) by (apply Forall_app; split; [exact Le|apply Forall_app; split; [apply legal_waits; exact Fa1|constructor; [exact Lo'|apply legal_waits; exact Fa2]]]).
  pose proof (C17_cut_reply_is_an_error_or_complete pr name o (cs_buf s) (cs_in s) r rest Ed N : cl_resp cl o (cs_buf s ++ cs_in s) = _) as Er. rewrite Pb in Er.
  assert (Ca : call cl (fresh_link (ticks c0 a1) h0) o = (mkLink c1 [] (rest ++ cs_in s) (snd (cl_req cl h0 o)), r)).
  { unfold call, fresh_link. cbn [l_header l_cache l_pending l_unread app]. rewrite Rq. rewrite (daemon_one _ _ _ _ _ Ds), Er. reflexivity. }
  assert (Ru' : run cl (fresh_link c h) (E ++ map Wait a1 ++ Do o :: map Wait a2) = (fst (run cl (mkLink c1 [] (rest ++ cs_in s) (snd (cl_req cl h0 o))) (map Wait a2)), R ++ r :: snd (run cl (mkLink c1 [] (rest ++ cs_in s) (snd (cl_req cl h0 o))) (map Wait a2)))).
  { rewrite run_app, Ru. cbn [fst snd]. rewrite run_app, run_waits. cbn [fst snd run app]. rewrite Ca. reflexivity. }
  assert (Fr : rest ++ cs_in s = []).
  { destruct (run_ok pr name (E ++ map Wait a1 ++ Do o :: map Wait a2) c h W) as (h' & outs & X & _).
    - pose proof (orders_length _ _ _ Oc). unfold zlen in *. lia.
    - exact Le'.
    - apply (Sf (L ++ [TEnd t o r]) [] _ (R ++ [r])); [rewrite app_nil_r; reflexivity|exact Oc].
    - fold cl in X. rewrite Ru' in X. apply (f_equal (fun x => l_unread (fst x))) in X. cbn [fst fresh_link l_unread] in X.
      assert (K : forall ds l, l_unread (fst (run cl l (map Wait ds))) = l_unread l) by (intro ds; induction ds as [|d ds IH]; intro l; cbn [map run]; [reflexivity|rewrite IH; reflexivity]).
      rewrite K in X. exact X. }
  rewrite Fr in Ru'. fold (fresh_link c1 (snd (cl_req cl h0 o))) in Ru'. rewrite run_waits in Ru'. cbn [fst snd] in Ru'.
  split; cbn [fst snd cs_threads].
  - intro v. rewrite ended_app. cbn [ended flat_map]. rewrite app_nil_r. destruct (Nat.eq_dec v t) as [->|D].
    + rewrite set_same, Nat.eqb_refl, <- (P t), Th. cbn [current th_pc th_todo app]. rewrite <- app_assoc. reflexivity.
    + rewrite set_other by exact D. rewrite (proj2 (Nat.eqb_neq t v)) by congruence. rewrite app_nil_r. apply P.
  - exists (L ++ [TEnd t o r]), [], (E ++ map Wait a1 ++ Do o :: map Wait a2), (R ++ [r]), (ticks c1 a2), (snd (cl_req cl h0 o)).
    split; [rewrite app_nil_r; reflexivity|]. split; [exact Oc|]. split; [exact Le'|]. split; [apply header_range; [exact Lo'|exact Hr]|]. split; [exact Ru'|].
    cbn [cs_lock]. split; [reflexivity|]. unfold quiet. cbn [cs_threads cs_out cs_pending cs_buf cs_in cs_cache cs_header]. apply app_eq_nil in Fr. destruct Fr as [-> ->].
    split; [intro v; destruct (Nat.eq_dec v t) as [->|D]; [rewrite set_same; reflexivity|rewrite set_other by exact D; apply Qi; exact D]|]. repeat split; assumption.
Qed.

Lemma tinv_steps : forall pr name c h progs v, tsteps (client_of pr name) (started c h progs, []) v ->
  (forall t, Forall (fun o => legal pr o /\ one_command pr o) (progs t)) -> (0 <= rq_cas h < 2 ^ 64)%Z ->
  wf pr c -> (c_cas c + zlen (snd v) < cas_bound pr)%Z -> safe_in_time pr name (rq_cas h) c (snd v) -> tinv pr name c h progs v.
Proof.
  intros pr name c h progs v St G Hh W. remember (started c h progs, @nil tevent) as v0 eqn:E0. induction St as [v|v u w St IH S]; intros C Sf.
  - subst v. split; [intro t; reflexivity|]. exists [], [], [], [], c, h. split; [reflexivity|]. split; [constructor|]. split; [constructor|]. split; [exact Hh|]. split; [reflexivity|]. cbn. split; [reflexivity|]. unfold quiet. cbn. repeat split; reflexivity.
  - subst v. specialize (IH eq_refl). destruct S as [s u L t o rq os S Ls Lu Tu|s u L S Lk Lg|s u L t o r S Lg|s L d D]; cbn [snd] in *.
    + eapply tinv_begin; try eassumption. apply IH; [rewrite zlen_app in C; unfold zlen at 2 in C; cbn in C; lia|eapply safe_in_time_prefix; exact Sf].
    + eapply tinv_quiet; try eassumption. apply IH; assumption.
    + eapply tinv_end; try eassumption. apply IH; [rewrite zlen_app in C; unfold zlen at 2 in C; cbn in C; lia|eapply safe_in_time_prefix; exact Sf].
    + apply tinv_time; [|exact D]. apply IH; [rewrite zlen_app in C; unfold zlen at 2 in C; cbn in C; lia|eapply safe_in_time_prefix; exact Sf].
Qed.

(** Any number of goroutines calling operations of one server that are one command each, every step of
    theirs, of the network and of the daemon interleaved in any order, and time passing at any moment: what
    the calls ended so far returned is what memcached's specification says when each call is executed at
    one moment between its beginning and its end; and every goroutine's calls are in the order in which
    it makes them. *)
Theorem C97_calls_take_effect_at_one_moment_partial : forall pr name c h progs s L, tsteps (client_of pr name) (started c h progs, []) (s, L) ->
  (forall t, Forall (fun o => legal pr o /\ one_command pr o) (progs t)) -> (0 <= rq_cas h < 2 ^ 64)%Z ->
  wf pr c -> (c_cas c + zlen L < cas_bound pr)%Z -> safe_in_time pr name (rq_cas h) c L ->
  (exists L1 L2 E R, L = L1 ++ L2 /\ under_way L2 /\ orders L1 E R /\ Forall2 agrees (snd (spec_run pr name c E)) R)
  /\ (forall t, exists rest, ended t L ++ rest = progs t).
Proof.
  intros pr name c h progs s L St G Hh W C Sf. destruct (tinv_steps _ _ _ _ _ _ St G Hh W C Sf) as (P & Lc & Lo & E & R & c0 & h0 & El & Or & Le & Hr & Ru & Q). cbn [fst snd] in *. split; [|intro t; eexists; apply P].
  exists Lc, Lo, E, R. split; [exact El|]. split.
  - destruct (cs_lock s) as [t|]; [|left; apply Q]. destruct Q as (_ & o & a & Eo & _). right. exists t, o, a. exact Eo.
  - split; [exact Or|]. destruct (run_ok pr name E c h W) as (h' & outs & X & A).
    + pose proof (orders_length _ _ _ Or). rewrite El in C. rewrite zlen_app in C. unfold zlen in *. lia.
    + exact Le.
    + apply (Sf Lc Lo E R El Or).
    + rewrite Ru in X. injection X as -> -> ->. exact A.
Qed.
Print Assumptions C97_calls_take_effect_at_one_moment_partial.
(** The text client needs no conditions. *)
Theorem C97_text_calls_take_effect_at_one_moment : forall name c h progs s L, tsteps (text_client name) (started c h progs, []) (s, L) ->
  (forall t, Forall (legal PText) (progs t)) -> (0 <= rq_cas h < 2 ^ 64)%Z -> wf PText c -> (c_cas c + zlen L < cas_bound PText)%Z ->
  (exists L1 L2 E R, L = L1 ++ L2 /\ under_way L2 /\ orders L1 E R /\ Forall2 agrees (snd (spec_run PText name c E)) R)
  /\ (forall t, exists rest, ended t L ++ rest = progs t).
Proof.
  intros name c h progs s L St G Hh W C. apply (C97_calls_take_effect_at_one_moment_partial PText name c h progs s L St); try assumption.
  - intro t. eapply Forall_impl; [|exact (G t)]. intros o Lo. split; [exact Lo|destruct o; exact Logic.I || reflexivity].
  - intros L1 L2 E R _ _. apply safe_run_text.
Qed.
Print Assumptions C97_text_calls_take_effect_at_one_moment.

Lemma ts_front : forall cl v u w, tstep cl v u -> tsteps cl u w -> tsteps cl v w.
Proof. intros cl v u w S St. induction St as [u|u x w St IH T]; [exact (ts_step _ _ _ _ (ts_refl _ _) S)|]. exact (ts_step _ _ _ _ (IH S) T). Qed.
Lemma q_send : forall cl s t o rq os L, cs_threads s t = mkThread (Sending o rq) os ->
  tstep cl (s, L) (mkC (cs_lock s) (set_thread (cs_threads s) t (mkThread (Sending o []) os)) (cs_header s) (cs_out s ++ rq) (cs_pending s) (cs_cache s) (cs_in s) (cs_buf s) (cs_log s), L).
Proof. intros. apply T_quiet; [|reflexivity|reflexivity]. apply (S_send cl s t o rq [] os). rewrite app_nil_r. assumption. Qed.
Lemma q_sent : forall cl s t o os L, cs_threads s t = mkThread (Sending o []) os ->
  tstep cl (s, L) (mkC (cs_lock s) (set_thread (cs_threads s) t (mkThread (Waiting o) os)) (cs_header s) (cs_out s) (cs_pending s) (cs_cache s) (cs_in s) (cs_buf s) (cs_log s), L).
Proof. intros. apply T_quiet; [|reflexivity|reflexivity]. apply S_sent. assumption. Qed.
Lemma q_out : forall cl s L, tstep cl (s, L) (mkC (cs_lock s) (cs_threads s) (cs_header s) [] (cs_pending s ++ cs_out s) (cs_cache s) (cs_in s) (cs_buf s) (cs_log s), L).
Proof. intros. apply T_quiet; [|reflexivity|reflexivity]. apply (S_net_out cl s (cs_out s) []). rewrite app_nil_r. reflexivity. Qed.
Lemma q_daemon : forall cl s c' r rest L, daemon_step (cl_wire cl) (cs_cache s) (cs_pending s) = Some (c', r, rest) ->
  tstep cl (s, L) (mkC (cs_lock s) (cs_threads s) (cs_header s) (cs_out s) rest c' (cs_in s ++ r) (cs_buf s) (cs_log s), L).
Proof. intros. apply T_quiet; [|reflexivity|reflexivity]. apply S_daemon. assumption. Qed.
Lemma q_in : forall cl s L, tstep cl (s, L) (mkC (cs_lock s) (cs_threads s) (cs_header s) (cs_out s) (cs_pending s) (cs_cache s) [] (cs_buf s ++ cs_in s) (cs_log s), L).
Proof. intros. apply T_quiet; [|reflexivity|reflexivity]. apply (S_net_in cl s (cs_in s) []). rewrite app_nil_r. reflexivity. Qed.
Lemma q_begin : forall cl s t o os rq L, cs_lock s = None -> cs_threads s t = mkThread Idle (o :: os) -> fst (cl_req cl (cs_header s) o) = Ok rq ->
  tstep cl (s, L) (mkC (Some t) (set_thread (cs_threads s) t (mkThread (Sending o rq) os)) (snd (cl_req cl (cs_header s) o)) (cs_out s) (cs_pending s) (cs_cache s) (cs_in s) (cs_buf s) (cs_log s), L ++ [TBegin t o]).
Proof. intros. eapply T_begin; [apply S_lock; eassumption|assumption|reflexivity|]. cbn [cs_threads]. apply set_same. Qed.
Lemma q_end : forall cl s t o os r rest L, cs_threads s t = mkThread (Waiting o) os -> cl_resp cl o (cs_buf s) = (r, rest) -> r <> Err EIO ->
  tstep cl (s, L) (mkC None (set_thread (cs_threads s) t (mkThread Idle os)) (cs_header s) (cs_out s) (cs_pending s) (cs_cache s) (cs_in s) rest (cs_log s ++ [LDone t o r]), L ++ [TEnd t o r]).
Proof. intros. eapply T_end; [eapply S_done; eassumption|reflexivity]. Qed.

(** A call whose item expires while the request is under way. *)
Definition late (t : nat) : list op := match t with O => [OSet (demo_item "a" "one" 7 10 0); OGet (B "a")] | _ => [] end.
Ltac quick tac := eapply ts_front; [tac|]; cbn [cs_lock cs_threads cs_header cs_out cs_pending cs_cache cs_in cs_buf cs_log app].
Example C97_met : exists s r, tsteps (text_client (B "s1")) (started demo_c reset_header late, [])
    (s, [TBegin 0 (OSet (demo_item "a" "one" 7 10 0)); TEnd 0 (OSet (demo_item "a" "one" 7 10 0)) (Ok RUnit); TBegin 0 (OGet (B "a")); TTime 20; TEnd 0 (OGet (B "a")) r])
  /\ r = Err ENotFound
  /\ (forall t, Forall (legal PText) (late t)) /\ wf PText demo_c /\ (c_cas demo_c + 5 < cas_bound PText)%Z.
Proof.
  eexists. eexists. split; [|split; [reflexivity|split; [|split; [apply demo_wf; [exact demo_config|lia]|reflexivity]]]].
  - unfold started. cbn [late].
    quick ltac:(eapply (q_begin _ _ 0); [reflexivity|reflexivity|vm_compute; reflexivity]).
    quick ltac:(eapply (q_send _ _ 0); reflexivity). quick ltac:(eapply (q_sent _ _ 0); reflexivity). quick ltac:(eapply q_out). quick ltac:(eapply q_daemon; vm_compute; reflexivity). quick ltac:(eapply q_in).
    quick ltac:(eapply (q_end _ _ 0); [reflexivity|vm_compute; reflexivity|discriminate]).
    quick ltac:(eapply (q_begin _ _ 0); [reflexivity|reflexivity|vm_compute; reflexivity]).
    quick ltac:(eapply (q_send _ _ 0); reflexivity). quick ltac:(eapply (q_sent _ _ 0); reflexivity). quick ltac:(eapply q_out).
    quick ltac:(eapply (T_time _ _ _ 20); lia).
    quick ltac:(eapply q_daemon; vm_compute; reflexivity). quick ltac:(eapply q_in).
    quick ltac:(eapply (q_end _ _ 0); [reflexivity|vm_compute; reflexivity|discriminate]). apply ts_refl.
  - intros [|t]; [|constructor]. cbn [late]. repeat (constructor; [legal_tac|]). constructor.
Qed.

(** Of all calls, GetMulti of the binary client included, it is false: it sends one request for each key,
    and items may expire between them. *)
Definition C97_calls_take_effect_at_one_moment : Prop := forall pr name c h progs s L, tsteps (client_of pr name) (started c h progs, []) (s, L) ->
  (forall t, Forall (legal pr) (progs t)) -> (0 <= rq_cas h < 2 ^ 64)%Z ->
  wf pr c -> (c_cas c + zlen L < cas_bound pr)%Z -> safe_in_time pr name (rq_cas h) c L ->
  exists L1 L2 E R, L = L1 ++ L2 /\ under_way L2 /\ orders L1 E R /\ Forall2 agrees (snd (spec_run pr name c E)) R.
Definition two_items : cache := fst (spec_run PBinary [] demo_c [Do (OSet (demo_item "a" "one" 7 10 0)); Do (OSet (demo_item "b" "two" 7 10 0))]).
Definition both : op := OGetMulti [B "a"; B "b"].
Definition only_a : outcome result := Ok (RItems [mkItem (B "a") (B "one") (Some (be 4 7)) 0 0 []]).
Lemma half_expired : exists s, tsteps bin_client (started two_items reset_header (fun t => match t with O => [both] | _ => [] end), []) (s, [TBegin 0 both; TTime 20; TEnd 0 both only_a]).
Proof.
  eexists. unfold started.
  quick ltac:(eapply (q_begin _ _ 0); [reflexivity|reflexivity|vm_compute; reflexivity]).
  quick ltac:(eapply (q_send _ _ 0); reflexivity). quick ltac:(eapply (q_sent _ _ 0); reflexivity). quick ltac:(eapply q_out).
  quick ltac:(eapply q_daemon; vm_compute; reflexivity).
  quick ltac:(eapply (T_time _ _ _ 20); lia).
  quick ltac:(eapply q_daemon; vm_compute; reflexivity).
  quick ltac:(eapply q_daemon; vm_compute; reflexivity).
  quick ltac:(eapply q_in).
  quick ltac:(eapply (q_end _ _ 0); [reflexivity|vm_compute; reflexivity|discriminate]). apply ts_refl.
Qed.
Lemma times_end : forall a t o r M L, map TTime a ++ TEnd t o r :: M = L -> match L with
  | TEnd t' o' r' :: M' => a = [] /\ t = t' /\ o = o' /\ r = r' /\ M = M'
  | TTime d :: M' => exists a', a = d :: a' /\ map TTime a' ++ TEnd t o r :: M = M'
  | _ => False end.
Proof. intros [|d a] t o r M L <-; cbn; [auto 6|]. exists a. auto. Qed.
Lemma orders_half : forall E R r, orders [TBegin 0 both; TTime 20; TEnd 0 both r] E R -> (E = [Wait 20; Do both] \/ E = [Do both; Wait 20]) /\ R = [r].
Proof.
  intros E R r H. remember [TBegin 0 both; TTime 20; TEnd 0 both r] as L0 eqn:EL. destruct H as [|d L' E' R' H'|t o r' a b L' E' R' H']; [discriminate|discriminate|]. injection EL as -> -> EL.
  destruct a as [|d a]; cbn [map app] in EL |- *.
  - apply times_end in EL. destruct EL as (b' & -> & EL). apply times_end in EL. destruct EL as (-> & _ & _ & -> & ->). inversion H'; subst. split; [right; reflexivity|reflexivity].
  - injection EL as -> EL. rewrite app_assoc, <- map_app in EL. apply times_end in EL. destruct EL as (Ea & _ & _ & -> & ->). apply app_eq_nil in Ea. destruct Ea as [-> ->]. inversion H'; subst. split; [left; reflexivity|reflexivity].
Qed.
Lemma safe_both : forall L E R, orders L E R -> Forall (fun e => match e with TBegin _ o => o = both | _ => True end) L -> forall c last, safe_run PBinary [] last c E.
Proof.
  intros L E R H. induction H as [|d L E R H IH|t o r a b L E R H IH]; intros F c last.
  - exact Logic.I.
  - inversion F; subst. cbn [safe_run]. apply IH. assumption.
  - pose proof (Forall_inv F) as Eo. pose proof (Forall_inv_tail F) as F'. cbv beta iota in Eo. subst o.
    assert (W : forall ds E' z c', (forall z c', safe_run PBinary [] z c' E') -> safe_run PBinary [] z c' (map Wait ds ++ E')) by (intro ds; induction ds as [|d ds IHd]; intros E' z c' K; cbn [map app safe_run]; auto).
    apply W. intros z c'. cbn [safe_run]. split; [exact Logic.I|]. apply W. intros z1 c1. apply IH. apply Forall_app in F'. destruct F' as [_ F']. apply Forall_app in F'. destruct F' as [_ F']. exact (Forall_inv_tail F').
Qed.
Theorem C97_calls_take_effect_at_one_moment_refuted : ~ C97_calls_take_effect_at_one_moment.
Proof.
  intro H. destruct half_expired as (s & St).
  assert (W : wf PBinary two_items) by (unfold two_items; cbn [spec_run fst]; apply wf_spec_step; [apply wf_spec_step; [apply demo_wf; [exact demo_config|lia]|legal_tac]|legal_tac]).
  destruct (H PBinary [] two_items reset_header _ s _ St) as (L1 & L2 & E & R & EL & U & Or & A).
  - intros [|t]; [|constructor]. constructor; [|constructor]. legal_tac.
  - split; [discriminate|reflexivity].
  - exact W.
  - reflexivity.
  - intros L1 L2 E R EL Or. apply (safe_both L1 E R Or). assert (F : Forall (fun e => match e with TBegin _ o => o = both | _ => True end) (L1 ++ L2)) by (rewrite <- EL; repeat constructor). apply Forall_app in F. apply F.
  - destruct U as [->|(t & o & a & ->)].
    + rewrite app_nil_r in EL. subst L1. apply orders_half in Or. destruct Or as [[-> | ->] ->]; vm_compute in A; inversion A as [|x y l1 l2 Ax Al]; discriminate Ax.
    + assert (Ev : last (L1 ++ TBegin t o :: map TTime a) (TTime 0) = TEnd 0 both only_a) by (rewrite <- EL; reflexivity).
      destruct a as [|d a] using rev_ind; [rewrite last_last in Ev; discriminate Ev|]. rewrite map_app in Ev. cbn [map] in Ev.
      change (L1 ++ TBegin t o :: map TTime a ++ [TTime d]) with (L1 ++ (TBegin t o :: map TTime a) ++ [TTime d]) in Ev. rewrite app_assoc, last_last in Ev. discriminate Ev.
Qed.
Print Assumptions C97_calls_take_effect_at_one_moment_refuted.
