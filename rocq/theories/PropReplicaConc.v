(** * C82: goroutines sharing a ReplicaPool. *)
From Verif Require Import GoBytes GoNum GoIO Item ClientText ClientMeta Cache Daemon Spec Intent Call Guard Hash Ring RingSpec RingData Pool PoolSpec Replica ReplicaSpec ReplicaConc
  ServerTypes ServerParse ServerWrite Serve ServerConc ServerSpec Proxy RouterConc PLib PDaemon PCache PMeta PClient PRing PPool PMulti PReplica PServer PServe PropServer PropServerConc PropReplica PropProxy PropRouter PropRouterLin.
Local Open Scope Z_scope.

(** ** Definitions of the statements *)
Definition gat (log : list gevent) (n : nat) (e : gevent) : Prop := nth_error log n = Some e.
Definition own (t : nat) (e : gevent) : bool := match e with GBegin j _ | GReturn j _ _ => Nat.eqb j t | _ => false end.
(** Goroutine [t] called method [o] at moment [m] and it returned [r] at [n]. *)
Definition called (log : list gevent) (t : nat) (o : rop) (m n : nat) (r : outcome result) : Prop :=
  (m < n)%nat /\ gat log m (GBegin t o) /\ gat log n (GReturn t o r) /\ forall x e, (m < x < n)%nat -> gat log x e -> own t e = false.
(** What began at [a], a call or the passing of time, was over at [n]. *)
Definition over (log : list gevent) (a n : nat) : Prop :=
  (exists d, gat log a (GTime d) /\ n = a) \/ exists t o r, called log t o a n r.

(** One thing at a time: calls, known by the moments they began, and the passing of time. *)
Inductive turn := TCall (m : nat) (o : rop) | TWait (m : nat) (d : Z).
Definition began (e : turn) : nat := match e with TCall m _ | TWait m _ => m end.
Fixpoint in_turn (pn sn : list node) (w : world link) (l : list turn) : world link * list (nat * outcome result) :=
  match l with
  | [] => (w, [])
  | TCall m o :: l' => let wr := exec meta_server (rp_prog pn sn o) w in let x := in_turn pn sn (fst wr) l' in (fst x, (m, snd wr) :: snd x)
  | TWait _ d :: l' => in_turn pn sn (all_tick w d) l'
  end.
(** [l] is an order of what happened that respects time: whatever was over before something else began comes
    before it. Calls that have not returned may be in it or not. *)
Definition fair_order (log : list gevent) (l : list turn) : Prop :=
  NoDup (map began l)
  /\ (forall m o, In (TCall m o) l -> exists t, gat log m (GBegin t o))
  /\ (forall m d, In (TWait m d) l <-> gat log m (GTime d))
  /\ (forall t o m n r, called log t o m n r -> In (TCall m o) l)
  /\ (forall a n b, over log a n -> (n < b)%nat -> In b (map began l) -> before (map began l) a b).

(** Legal arguments without a cas number (C47 is about those). *)
Definition plain_rop (o : rop) : Prop := legal_rop o /\ match o with RSet i | RAdd i | RReplace i => it_cas i = 0 | _ => True end.
Definition plain_calls (log : list gevent) : Prop := forall m t o, gat log m (GBegin t o) -> plain_rop o.
Definition counter (o : rop) : Prop := match o with RIncr _ _ _ | RDecr _ _ _ => True | _ => False end.
(** The secondaries take values as large as the primaries do. *)
Definition as_large (ps ss : list server) (w : world link) : Prop :=
  forall p s, In p ps -> In s ss -> cf_limit (c_cfg (l_cache (w (sv_id p)))) <= cf_limit (c_cfg (l_cache (w (sv_id s)))).

(** ** Lists and logs *)
Lemma in_turn_app : forall pn sn a w b, in_turn pn sn w (a ++ b)
  = (fst (in_turn pn sn (fst (in_turn pn sn w a)) b), snd (in_turn pn sn w a) ++ snd (in_turn pn sn (fst (in_turn pn sn w a)) b)).
Proof.
  induction a as [|[m q|m d] a IH]; intros w b; cbn [app in_turn fst snd]; [apply surjective_pairing| |apply IH].
  rewrite IH. reflexivity.
Qed.
Lemma in_turn_moments : forall pn sn l w m r, In (m, r) (snd (in_turn pn sn w l)) -> In m (map began l).
Proof.
  induction l as [|[x q|x d] l IH]; intros w m r H; cbn [in_turn snd map began] in *; [exact H| |right; eapply IH; exact H].
  destruct H as [H|H]; [left; congruence|right; eapply IH; exact H].
Qed.
Lemma NoDup_app_snoc : forall (l : list nat) a, NoDup l -> ~ In a l -> NoDup (l ++ [a]).
Proof.
  induction l as [|x l IH]; intros a N H; [constructor; [exact H|constructor]|]. inversion N as [|? ? Nx Nl]; subst. cbn [app]. constructor; [|apply IH; [exact Nl|intro Q; apply H; right; exact Q]].
  intro Q. apply in_app_or in Q. destruct Q as [Q|[Q|[]]]; [contradiction|]. apply H. left. symmetry. exact Q.
Qed.
Lemma gat_app : forall log l n e, gat log n e -> gat (log ++ l) n e.
Proof. intros log l n e H. unfold gat in *. rewrite nth_error_app1; [exact H|]. apply nth_error_Some. congruence. Qed.
Lemma gat_lt : forall log n e, gat log n e -> (n < length log)%nat.
Proof. intros log n e H. apply nth_error_Some. unfold gat in H. congruence. Qed.
Lemma gat_old : forall log l n e, (n < length log)%nat -> gat (log ++ l) n e -> gat log n e.
Proof. intros log l n e L H. unfold gat in *. rewrite nth_error_app1 in H by exact L. exact H. Qed.
Lemma gat_last : forall log e, gat (log ++ [e]) (length log) e.
Proof. intros. unfold gat. rewrite nth_error_app2, Nat.sub_diag by lia. reflexivity. Qed.
Lemma gat_snoc : forall log e n x, gat (log ++ [e]) n x -> gat log n x \/ (n = length log /\ x = e).
Proof.
  intros log e n x H. destruct (Nat.lt_ge_cases n (length log)) as [L|L]; [left; eapply gat_old; eassumption|right].
  unfold gat in H. rewrite nth_error_app2 in H by exact L. destruct (n - length log)%nat as [|k] eqn:E; [injection H as <-; split; [lia|reflexivity]|destruct k; discriminate H].
Qed.
Lemma gat_fun : forall log n e e', gat log n e -> gat log n e' -> e = e'.
Proof. intros log n e e' A A'. unfold gat in *. congruence. Qed.
Definition gidle (log : list gevent) (t m : nat) : Prop := forall x e, (m < x)%nat -> gat log x e -> own t e = false.
Lemma gidle_snoc : forall log e t m, own t e = false -> gidle log t m -> gidle (log ++ [e]) t m.
Proof. intros log e t m N Q x y Lx A. apply gat_snoc in A. destruct A as [A|[_ ->]]; [eapply Q; eassumption|exact N]. Qed.
Lemma called_snoc : forall log e t o m n r, called (log ++ [e]) t o m n r ->
  called log t o m n r \/ (n = length log /\ e = GReturn t o r /\ gat log m (GBegin t o) /\ gidle log t m).
Proof.
  intros log e t o m n r (A & B' & C & D). pose proof C as C'. apply gat_snoc in C'. destruct C' as [C'|[-> C']].
  - left. pose proof (gat_lt _ _ _ C'). split; [exact A|]. split; [eapply gat_old; [|exact B']; lia|]. split; [exact C'|]. intros x y Rx Ax. apply (D x y Rx). apply gat_app. exact Ax.
  - right. split; [reflexivity|]. split; [congruence|]. split; [eapply gat_old; [|exact B']; lia|]. intros x y Rx Ax. apply (D x y); [|apply gat_app; exact Ax]. pose proof (gat_lt _ _ _ Ax). lia.
Qed.
Lemma set_now_same : forall f t x, set_now f t x t = x.
Proof. intros. unfold set_now. rewrite Nat.eqb_refl. reflexivity. Qed.
Lemma set_now_other : forall f t x j, j <> t -> set_now f t x j = f j.
Proof. intros f t x j N. unfold set_now. apply Nat.eqb_neq in N. rewrite N. reflexivity. Qed.

(** ** Calls on the servers *)
Lemma meta_delete_ok : forall c h k, wf PMeta c -> c_cas c < 2 ^ 63 -> legal_key PMeta k ->
  meta_server (fresh_link c h) (ODelete k) = (fresh_link (step1 c (ODelete k)) h, Ok RUnit).
Proof.
  intros c h k W C L. destruct (lookup c k) as [e|] eqn:Lk.
  - destruct (meta_call_ok c h (ODelete k) W C L) as (out & E & A); [cbn [meta_safe]; rewrite Lk; discriminate|].
    unfold meta_server. rewrite E. f_equal. cbn [spec_step snd] in A. unfold cache_delete in A. rewrite Lk in A. cbn [snd] in A. destruct out; cbn in A; try contradiction. subst. reflexivity.
  - unfold meta_server, call. cbn [meta_client cl_req cl_resp cl_wire fst snd fresh_link l_cache l_pending l_unread l_header].
    cbn [meta_req]. cbn [app]. rewrite (meta_daemon c (ODelete k) _ L eq_refl). cbn [meta_intent fst snd].
    unfold cache_delete. rewrite Lk. cbn [fst snd hd_nf]. unfold step1. cbn [spec_step fst]. unfold cache_delete. rewrite Lk. reflexivity.
Qed.

Section Shared.
Variables (ps ss : list server) (pn sn : list node).
Hypothesis R : two_rings ps ss pn sn.
Variable w : world link.
Hypothesis Lim : as_large ps ss w.
Local Notation allok := (sec_ok (ps ++ ss) w).
Local Notation roomy := (room (ps ++ ss) w).
(** Keys that are there at all times. *)
Variable kept : bytes -> Prop.
Definition present (w1 : world link) : Prop := forall k, kept k -> held pn w1 k <> None.
Local Notation limit sv := (cf_limit (c_cfg (l_cache (w (sv_id sv))))).

Lemma in_ps : forall p, In p ps -> In p (ps ++ ss). Proof. intros. apply in_or_app. auto. Qed.
Lemma in_ss : forall s, In s ss -> In s (ps ++ ss). Proof. intros. apply in_or_app. auto. Qed.

Lemma one_step : forall n w1 sv c k, roomy (S n) -> allok n w1 -> In sv (ps ++ ss) -> legal PMeta c -> op_key c = Some k -> replica_op c = true ->
  exists cc h out, w1 (sv_id sv) = fresh_link cc h /\ wf PMeta cc /\ c_cfg cc = c_cfg (l_cache (w (sv_id sv))) /\ c_cas cc + 1 < 2 ^ 63
    /\ meta_server (w1 (sv_id sv)) c = (fresh_link (step1 cc c) h, out)
    /\ (agrees (snd (spec_step PMeta [] cc c)) out \/ (c = ODelete k /\ lookup cc k = None /\ out = Ok RUnit))
    /\ allok (S n) (upd w1 (sv_id sv) (fresh_link (step1 cc c) h)).
Proof.
  intros n w1 sv c k Rm H Is L K T. destruct (H sv Is) as (cc & h & A & W & F & C). pose proof (Rm sv Is) as Rs.
  destruct (meta_answers cc h c k W ltac:(lia) L K T) as (out & E & Ag). exists cc, h, out. split; [exact A|]. split; [exact W|]. split; [exact F|]. split; [lia|].
  split; [rewrite A; exact E|]. split; [exact Ag|]. intros s' Is'. destruct (Nat.eq_dec (sv_id s') (sv_id sv)) as [Q|Q].
  - rewrite Q, upd_same. destruct (chg_step cc c k W L K) as (X1 & X2 & X3 & X4 & _). exists (step1 cc c), h. split; [reflexivity|]. split; [exact X1|]. split; [congruence|lia].
  - rewrite upd_other by exact Q. destruct (H s' Is') as (c' & h' & A' & W' & F' & C'). exists c', h'. split; [exact A'|]. split; [exact W'|]. split; [exact F'|lia].
Qed.
Lemma sec_not_prim : forall (w1 : world link) s l p, In s ss -> In p ps -> upd w1 (sv_id s) l (sv_id p) = w1 (sv_id p).
Proof. intros w1 s l p Is Ip. apply upd_other. intro Q. apply (apart _ _ _ _ R p s Ip Is). congruence. Qed.

(** What is left of a call whose outcome is already decided: it will be [x], or ItemNotFound for a counter. *)
Inductive finishing (o : rop) (x : result) : prog -> Prop :=
| F_done : finishing o x (Ret (Ok x))
| F_lost : counter o -> ~ kept (rop_key o) -> finishing o x (Ret (Err ENotFound))
| F_set : forall s i k, In s ss -> legal_item PMeta i -> it_cas i = 0 -> zlen (it_value i) <= limit s ->
    finishing o x (k (Ok RUnit)) -> finishing o x (Call s (OSet i) k)
| F_del : forall s key k, In s ss -> legal_key PMeta key -> finishing o x (k (Ok RUnit)) -> finishing o x (Call s (ODelete key) k)
| F_get : forall p key k, pick pn key = Ok p -> In p ps -> legal_key PMeta key -> (~ kept key -> finishing o x (k (Err ENotFound))) ->
    (forall c e, wf PMeta c -> c_cfg c = c_cfg (l_cache (w (sv_id p))) -> lookup c key = Some e -> finishing o x (k (Ok (RItem (item_view PMeta [] false c key e))))) ->
    finishing o x (Call p (OGet key) k).

Lemma fin_step : forall n w1 o x sv c k, roomy (S n) -> allok n w1 -> present w1 -> finishing o x (Call sv c k) ->
  finishing o x (k (snd (meta_server (w1 (sv_id sv)) c))) /\ allok (S n) (upd w1 (sv_id sv) (fst (meta_server (w1 (sv_id sv)) c)))
  /\ forall p, In p ps -> upd w1 (sv_id sv) (fst (meta_server (w1 (sv_id sv)) c)) (sv_id p) = w1 (sv_id p).
Proof.
  intros n w1 o x sv c k Rm H Pr F. remember (Call sv c k) as q eqn:Eq. destruct F as [|Co Nk|s i k' Is L K V F|s key k' Is L F|p key k' Pp Ip L Fn Fi]; try discriminate Eq; injection Eq as <- <- <-.
  - destruct (sec_ok_set (ps ++ ss) w n w1 s i Rm (in_ss _ Is) H L K V) as [-> A]. split; [exact F|]. split; [exact A|]. intros p Ip. apply sec_not_prim; assumption.
  - destruct (one_step n w1 s (ODelete key) key Rm H (in_ss _ Is) L eq_refl eq_refl) as (cc & h & out & A & W & Fc & C & E & _ & A2).
    assert (E2 := meta_delete_ok cc h key W ltac:(lia) L). rewrite A in E |- *. rewrite E2 in E |- *. injection E as <-. cbn [fst snd]. split; [exact F|]. split; [exact A2|]. intros p Ip. apply sec_not_prim; assumption.
  - destruct (one_step n w1 p (OGet key) key Rm H (in_ps _ Ip) L eq_refl eq_refl) as (cc & h & out & A & W & Fc & C & E & Ag & A2).
    rewrite E. cbn [fst snd]. split; [|split; [exact A2|]].
    + destruct Ag as [Ag|[Q _]]; [|discriminate Q]. cbn [spec_step snd] in Ag. destruct (lookup cc key) as [e|] eqn:Lk; destruct out; cbn in Ag; try contradiction; subst; [apply Fi; assumption|apply Fn]. intro Kp. apply (Pr key Kp). unfold held. rewrite Pp, A. exact Lk.
    + intros p' Ip'. change (step1 cc (OGet key)) with cc. rewrite <- A. unfold upd. destruct (Nat.eqb_spec (sv_id p') (sv_id p)) as [->|]; reflexivity.
Qed.

Lemma store_fits : forall c o i x, stores o i -> it_cas i = 0 -> snd (spec_step PMeta [] c o) = SOk x -> x = RUnit /\ zlen (it_value i) <= cf_limit (c_cfg c).
Proof.
  intros c o i x S K E. assert (T : too_large c (it_value i) = false /\ x = RUnit).
  { destruct S as [->|[->| ->]]; cbn [spec_step snd] in E; rewrite ?K in E; cbn [Z.eqb] in E.
    - unfold cache_set in E. destruct (too_large c (it_value i)); [discriminate E|]. cbn in E. split; [reflexivity|congruence].
    - unfold cache_add in E. destruct (too_large c (it_value i)); [discriminate E|]. destruct (lookup c (it_key i)); [discriminate E|]. cbn in E. split; [reflexivity|congruence].
    - unfold cache_replace in E. destruct (too_large c (it_value i)); [discriminate E|]. destruct (lookup c (it_key i)); [|discriminate E]. cbn in E. split; [reflexivity|congruence]. }
  destruct T as [T ->]. split; [reflexivity|]. unfold too_large in T. apply Z.ltb_ge in T. exact T.
Qed.
Lemma limit_s : forall p s c, In p ps -> In s ss -> c_cfg c = c_cfg (l_cache (w (sv_id p))) -> cf_limit (c_cfg c) <= limit s.
Proof. intros p s c Ip Is ->. apply Lim; assumption. Qed.

(** A call alone: its first call on the primary decides. *)
Definition decided (n : nat) (w1 : world link) (o : rop) (p : server) (c : op) (k : outcome result -> prog) : Prop :=
  exists w2 r, exec meta_server (rp_prog pn sn o) w1 = (w2, r) /\ allok (3 + n) w2
    /\ (forall p', In p' ps -> w2 (sv_id p') = upd w1 (sv_id p) (fst (meta_server (w1 (sv_id p)) c)) (sv_id p'))
    /\ r = snd (meta_server (w1 (sv_id p)) c)
    /\ ((exists e, k (snd (meta_server (w1 (sv_id p)) c)) = Ret (Err e) /\ r = Err e)
        \/ exists x, r = Ok x /\ finishing o x (k (snd (meta_server (w1 (sv_id p)) c)))).
Lemma alone : forall n w1 o, roomy (3 + n) -> allok n w1 -> plain_rop o ->
  exists p c k, rp_prog pn sn o = Call p c k /\ In p ps /\ legal PMeta c /\ op_key c = Some (rop_key o) /\ replica_op c = true /\ decided n w1 o p c k.
Proof.
  intros n w1 o Rm H [L Pl]. destruct (owner_p _ _ _ _ R (rop_key o)) as (p & Pp & Ip). destruct (owner_s _ _ _ _ R (rop_key o)) as (s & Psn & Is).
  assert (Rle : forall m, (m <= 3 + n)%nat -> roomy m) by (intros m Lm sv Hs; specialize (Rm sv Hs); lia).
  assert (R1 : roomy (S n)) by (apply Rle; lia). assert (R2 : roomy (S (S n))) by (apply Rle; lia). assert (R3 : roomy (S (S (S n)))) by (apply Rle; lia).
  assert (Sle : forall m m' w', (m <= m')%nat -> allok m w' -> allok m' w') by (intros; eapply sec_ok_le; eassumption).
  assert (Store : forall first i, o = RSet i \/ o = RAdd i \/ o = RReplace i -> rp_prog pn sn o = rp_store pn sn first i -> primary_op o = first i -> stores (first i) i ->
     legal_item PMeta i -> op_key (first i) = Some (it_key i) -> replica_op (first i) = true -> 
     exists p c k, rp_prog pn sn o = Call p c k /\ In p ps /\ legal PMeta c /\ op_key c = Some (rop_key o) /\ replica_op c = true /\ decided n w1 o p c k).
  { intros first i Oi Ep Eo Si Li K T. assert (Ki : it_cas i = 0 /\ rop_key o = it_key i) by (destruct Oi as [->|[->| ->]]; split; auto). destruct Ki as [Ki Kk]. rewrite Kk in *.
    unfold legal_rop in L. rewrite Eo in L.
    exists p, (first i), (fun r => if_ok r (fun _ => on_ring sn (it_key i) (OSet i) Ret)).
    assert (E : rp_prog pn sn o = Call p (first i) (fun r => if_ok r (fun _ => on_ring sn (it_key i) (OSet i) Ret))) by (rewrite Ep; unfold rp_store, on_ring at 1; rewrite Pp; reflexivity).
    split; [exact E|]. split; [exact Ip|]. split; [exact L|]. split; [exact K|]. split; [exact T|].
    destruct (one_step n w1 p (first i) (it_key i) R1 H (in_ps _ Ip) L K T) as (cc & h & out & A & W & Fc & C & Em & Ag & A2).
    unfold decided. rewrite E. cbn [exec]. unfold server_call at 1 2. rewrite Em. cbn [fst snd].
    destruct out as [x|e|].
    - cbn [if_ok]. destruct Ag as [Ag|[Q _]]; [|destruct Si as [Si|[Si|Si]]; rewrite Si in Q; discriminate Q]. apply agrees_ok in Ag.
      destruct (store_fits cc _ i x Si Ki Ag) as [-> Fit]. unfold on_ring. rewrite Psn. cbn [exec]. unfold server_call.
      set (wp := upd w1 (sv_id p) _) in *. assert (Fs : zlen (it_value i) <= limit s) by (pose proof (limit_s p s cc Ip Is Fc); lia).
      destruct (sec_ok_set (ps ++ ss) w (S n) wp s i R2 (in_ss _ Is) A2 Li Ki Fs) as [Q1 Q2].
      eexists _, _. split; [reflexivity|]. cbn [fst snd]. split; [eapply Sle; [|exact Q2]; lia|]. split; [intros p' Ip'; apply sec_not_prim; assumption|].
      split; [exact Q1|]. right. exists RUnit. split; [exact Q1|]. apply F_set; [assumption..|apply F_done].
    - cbn [if_ok exec]. eexists _, _. split; [reflexivity|]. split; [eapply Sle; [|exact A2]; lia|]. split; [reflexivity|]. split; [reflexivity|]. left. exists e. split; reflexivity.
    - destruct Ag as [Ag|[_ [_ Q]]]; [|discriminate Q]. destruct (snd (spec_step PMeta [] cc (first i))); contradiction Ag. }
  assert (Delta : forall od k0, counter o -> rp_prog pn sn o = rp_delta pn sn od k0 -> primary_op o = od -> rop_key o = k0 -> counts od k0 -> op_key od = Some k0 -> replica_op od = true -> legal_key PMeta k0 ->
     exists p c k, rp_prog pn sn o = Call p c k /\ In p ps /\ legal PMeta c /\ op_key c = Some (rop_key o) /\ replica_op c = true /\ decided n w1 o p c k).
  { intros od k0 Co Ep Eo Kk Ct K T Lk. rewrite Kk in *. unfold legal_rop in L. rewrite Eo in L. unfold rp_delta in Ep. rewrite Pp in Ep.
    match type of Ep with _ = Call _ _ ?f => set (kk := f) in * end. exists p, od, kk.
    split; [exact Ep|]. split; [exact Ip|]. split; [exact L|]. split; [exact K|]. split; [exact T|].
    destruct (one_step n w1 p od k0 R1 H (in_ps _ Ip) L K T) as (cc & h & out & A & W & Fc & C & Em & Ag & A2).
    unfold decided. rewrite Ep. cbn [exec]. unfold server_call at 1 2. rewrite Em. cbn [fst snd].
    set (wp := upd w1 (sv_id p) _) in *. destruct out as [x|e|].
    - destruct Ag as [Ag|[Q _]]; [|destruct Ct as (d & ex & [Q1|Q1]); rewrite Q1 in Q; discriminate Q]. apply agrees_ok in Ag.
      assert (Fin : forall c e, wf PMeta c -> c_cfg c = c_cfg (l_cache (w (sv_id p))) -> lookup c k0 = Some e ->
        finishing o x (Call s (OSet (replica_item k0 (item_view PMeta [] false c k0 e))) (fun r => if_ok r (fun _ => Ret (Ok x)))) /\ zlen (e_value e) <= limit s).
      { intros c e Wc Cf Le. destruct (wf_lookup _ _ _ _ Wc Le) as (E1 & _). pose proof (limit_s p s c Ip Is Cf).
        split; [apply F_set; [exact Is|apply replica_item_legal; assumption|reflexivity|cbn [replica_item item_view it_value]; lia|apply F_done]|lia]. }
      assert (FinK : finishing o x (kk (Ok x))).
      { unfold kk. cbn [if_ok]. apply F_get; [exact Pp|exact Ip|exact Lk|intro Nk; apply F_lost; [exact Co|rewrite Kk; exact Nk]|]. intros c e Wc Cf Le. cbn [if_ok]. unfold on_ring. rewrite Psn. apply Fin; assumption. }
      destruct (delta_effect cc od k0 x Ct Ag) as (e & m & Ex & Le & Es).
      (* the Get that follows *)
      assert (Lke : exists e', lookup (step1 cc od) k0 = Some e').
      { rewrite Es, lookup_put. cbv zeta. destruct (lookup_map _ _ _ Le) as [_ Al]. unfold alive in *. cbn [e_expire]. rewrite Al. eexists. reflexivity. }
      destruct Lke as [e' Lke].
      assert (Wp : wp (sv_id p) = fresh_link (step1 cc od) h) by apply upd_same.
      destruct (chg_step cc od k0 W L K) as (X1 & X2 & _).
      destruct (one_step (S n) wp p (OGet k0) k0 R2 A2 (in_ps _ Ip) Lk eq_refl eq_refl) as (c2 & h2 & out2 & B1 & B2 & B3 & B4 & B5 & B6 & B7).
      rewrite Wp in B1. assert (c2 = step1 cc od /\ h2 = h) as [-> ->] by (unfold fresh_link in B1; injection B1 as <- <-; split; reflexivity).
      destruct B6 as [B6|[Q _]]; [|discriminate Q]. cbn [spec_step snd] in B6. rewrite Lke in B6. destruct out2; cbn in B6; try contradiction. subst a.
      unfold kk at 1. cbn [if_ok exec]. unfold server_call at 1 2. rewrite B5. cbn [fst snd if_ok]. unfold on_ring. rewrite Psn. cbn [exec]. unfold server_call.
      destruct (Fin (step1 cc od) e' X1 ltac:(congruence) Lke) as [_ Fit].
      set (wq := upd wp (sv_id p) _) in *.
      destruct (sec_ok_set (ps ++ ss) w (S (S n)) wq s (replica_item k0 (item_view PMeta [] false (step1 cc od) k0 e')) R3 (in_ss _ Is) B7
        ltac:(apply replica_item_legal; assumption) eq_refl Fit) as [Q1 Q2].
      cbn [fst snd]. rewrite Q1. cbn [if_ok exec fst snd]. eexists _, _. split; [reflexivity|]. split; [exact Q2|]. split.
      + intros p' Ip'. rewrite sec_not_prim by assumption. unfold wq. change (step1 (step1 cc od) (OGet k0)) with (step1 cc od). rewrite <- Wp. unfold upd at 1. destruct (Nat.eqb_spec (sv_id p') (sv_id p)) as [->|]; reflexivity.
      + split; [reflexivity|]. right. exists x. split; [reflexivity|exact FinK].
    - unfold kk. cbn [if_ok exec]. eexists _, _. split; [reflexivity|]. split; [eapply Sle; [|exact A2]; lia|]. split; [reflexivity|]. split; [reflexivity|]. left. exists e. split; reflexivity.
    - destruct Ag as [Ag|[_ [_ Q]]]; [|discriminate Q]. destruct (snd (spec_step PMeta [] cc od)); contradiction Ag. }
  destruct o as [k0|i|i|i|k0|k0 d e|k0 d e].
  - cbn [rop_key] in *. exists p, (OGet k0), Ret. cbn [rp_prog]. unfold rp_get, on_ring. rewrite Pp. split; [reflexivity|]. split; [exact Ip|]. split; [exact L|]. split; [reflexivity|]. split; [reflexivity|].
    destruct (one_step n w1 p (OGet k0) k0 R1 H (in_ps _ Ip) L eq_refl eq_refl) as (cc & h & out & A & W & Fc & C & Em & Ag & A2).
    unfold decided. cbn [rp_prog]. unfold rp_get, on_ring. rewrite Pp. cbn [exec]. unfold server_call. rewrite Em. cbn [fst snd]. eexists _, _. split; [reflexivity|]. split; [eapply Sle; [|exact A2]; lia|]. split; [reflexivity|]. split; [reflexivity|].
    destruct out as [x|e|]; [right; exists x; split; [reflexivity|apply F_done]|left; exists e; split; reflexivity|].
    destruct Ag as [Ag|[Q _]]; [|discriminate Q]. destruct (snd (spec_step PMeta [] cc (OGet k0))); contradiction Ag.
  - apply (Store OSet i); auto. left; reflexivity.
  - apply (Store OAdd i); auto. + right; left; reflexivity. + apply L.
  - apply (Store OReplace i); auto. + right; right; reflexivity. + apply L.
  - cbn [rop_key] in *. exists p, (ODelete k0), (fun r => if_ok r (fun _ => on_ring sn k0 (ODelete k0) Ret)). cbn [rp_prog]. unfold rp_delete.
    assert (E : rp_delete pn sn k0 = Call p (ODelete k0) (fun r => if_ok r (fun _ => on_ring sn k0 (ODelete k0) Ret))) by (unfold rp_delete, on_ring at 1; rewrite Pp; reflexivity).
    split; [exact E|]. split; [exact Ip|]. split; [exact L|]. split; [reflexivity|]. split; [reflexivity|].
    destruct (one_step n w1 p (ODelete k0) k0 R1 H (in_ps _ Ip) L eq_refl eq_refl) as (cc & h & out & A & W & Fc & C & Em & _ & A2).
    assert (out = Ok RUnit) as -> by (rewrite A, (meta_delete_ok cc h k0 W ltac:(lia) L) in Em; congruence).
    unfold decided. cbn [rp_prog]. rewrite E. cbn [exec]. unfold server_call at 1 2. rewrite Em. cbn [fst snd if_ok]. unfold on_ring. rewrite Psn. cbn [exec]. unfold server_call.
    set (wp := upd w1 (sv_id p) _) in *.
    destruct (one_step (S n) wp s (ODelete k0) k0 R2 A2 (in_ss _ Is) L eq_refl eq_refl) as (c2 & h2 & out2 & B1 & B2 & B3 & B4 & B5 & _ & B7).
    assert (out2 = Ok RUnit) as -> by (rewrite B1, (meta_delete_ok c2 h2 k0 B2 ltac:(lia) L) in B5; congruence).
    rewrite B5. cbn [fst snd]. eexists _, _. split; [reflexivity|]. split; [eapply Sle; [|exact B7]; lia|]. split; [intros p' Ip'; apply sec_not_prim; assumption|].
    split; [reflexivity|]. right. exists RUnit. split; [reflexivity|]. apply F_del; [assumption..|apply F_done].
  - apply (Delta (OIncr k0 d e) k0); [exact Logic.I|reflexivity|reflexivity|reflexivity|exists d, e; left; reflexivity|reflexivity|reflexivity|apply L].
  - apply (Delta (ODecr k0 d e) k0); [exact Logic.I|reflexivity|reflexivity|reflexivity|exists d, e; right; reflexivity|reflexivity|reflexivity|apply L].
Qed.

(** ** The order *)
Local Notation turns l := (in_turn pn sn w l).
(** Where a call is that began at [m], when the program is left of it and [l] have been put in order. *)
Inductive gplace (l : list turn) (o : rop) (m : nat) : prog -> Prop :=
| At_start : ~ In m (map began l) -> gplace l o m (rp_prog pn sn o)
| At_end : forall x p, In (m, Ok x) (snd (turns l)) -> finishing o x p -> gplace l o m p
| At_fail : forall e, In (m, Err e) (snd (turns l)) -> gplace l o m (Ret (Err e)).
Definition close (o : rop) (r r' : outcome result) : Prop := r = r' \/ (counter o /\ ~ kept (rop_key o) /\ r = Err ENotFound /\ exists x, r' = Ok x).

Record glin (v : pool_state link) (l : list turn) : Prop := {
  gl_req : forall m o, In (TCall m o) l -> exists t, gat (g_log v) m (GBegin t o);
  gl_wait : forall m d, In (TWait m d) l <-> gat (g_log v) m (GTime d);
  gl_once : NoDup (map began l);
  gl_prim : forall p, In p ps -> fst (turns l) (sv_id p) = g_world v (sv_id p);
  gl_seq : allok (3 * length (g_log v)) (fst (turns l));
  gl_con : allok (3 * length (g_log v)) (g_world v);
  gl_flight : forall t o p, g_now v t = Some (o, p) -> exists m, gat (g_log v) m (GBegin t o) /\ gidle (g_log v) t m /\ gplace l o m p;
  gl_ans : forall t o m n r, called (g_log v) t o m n r -> exists r', In (m, r') (snd (turns l)) /\ close o r r';
  gl_order : forall a n b, over (g_log v) a n -> (n < b)%nat -> In b (map began l) -> before (map began l) a b
}.
Lemma began_lt : forall v l m, glin v l -> In m (map began l) -> (m < length (g_log v))%nat.
Proof.
  intros v l m L H. apply in_map_iff in H. destruct H as ([x q|x d] & <- & H); cbn [began].
  - destruct (gl_req _ _ L x q H) as [i A]. eapply gat_lt. exact A.
  - apply (gl_wait _ _ L) in H. eapply gat_lt. exact H.
Qed.
Lemma over_in : forall v l a n, glin v l -> over (g_log v) a n -> In a (map began l).
Proof.
  intros v l a n L [(d & A & _)|(t & o & r & A)]; [apply (gl_wait _ _ L) in A; apply (in_map began) in A; exact A|].
  destruct (gl_ans _ _ L t o a n r A) as (r' & I' & _). eapply in_turn_moments. exact I'.
Qed.
Lemma gplace_more : forall l e o m p, began e <> m -> gplace l o m p -> gplace (l ++ [e]) o m p.
Proof.
  intros l e o m p N H. assert (X : forall r, In (m, r) (snd (turns l)) -> In (m, r) (snd (turns (l ++ [e])))).
  { intros r Hr. rewrite in_turn_app. cbn [snd]. apply in_or_app. left. exact Hr. }
  destruct H as [Q|x p Q F|e0 Q]; [apply At_start|eapply At_end; eauto|eapply At_fail; auto].
  rewrite map_app. intro Q'. apply in_app_or in Q'. destruct Q' as [Q'|[Q'|[]]]; [contradiction|]. cbn in Q'. congruence.
Qed.

Lemma glin_step : forall v l u, glin v l -> roomy (3 + 3 * length (g_log v)) -> gstep meta_server link_tick pn sn v u -> plain_calls (g_log u) -> present (g_world v) -> exists l', glin u l'.
Proof.
  intros v l u L Rm St Pl Pre.
  assert (Len : forall e, (3 * length (g_log v ++ [e]) = 3 + 3 * length (g_log v))%nat) by (intro e; rewrite app_length; cbn [length]; lia).
  assert (Old : forall e y a n b, (match e with GReturn _ _ _ => False | _ => True end) -> (forall x, y = [x] -> forall n', over (g_log v) (began x) n' -> False) -> (y = [] \/ exists x, y = [x]) ->
    over (g_log v ++ [e]) a n -> (n < b)%nat -> In b (map began (l ++ y)) -> (forall x, In x (map began (l ++ y)) -> (x <= length (g_log v))%nat) -> before (map began (l ++ y)) a b).
  { intros e y a n b Ne Ny Yy En Lt Ib Bd. pose proof (Bd b Ib) as Lb.
    assert (En' : over (g_log v) a n).
    { destruct En as [(d & A & ->)|(t & o & r & A)].
      - left. exists d. split; [|reflexivity]. eapply gat_old; [|exact A]. lia.
      - right. exists t, o, r. apply called_snoc in A. destruct A as [A|(_ & -> & _)]; [exact A|contradiction]. }
    destruct Yy as [->|[x ->]]; [rewrite app_nil_r in *; eapply (gl_order _ _ L); eassumption|].
    rewrite map_app in *. cbn [map] in *. apply in_app_or in Ib. destruct Ib as [Ib|[<-|[]]].
    - apply before_app. eapply (gl_order _ _ L); eassumption.
    - apply before_snoc. eapply over_in; eassumption. }
  assert (Same : forall x, In x (map began (l ++ [])) -> (x <= length (g_log v))%nat) by (intros x H; rewrite app_nil_r in H; pose proof (began_lt v l x L H); lia).
  assert (Nil : forall x : turn, [] = [x] -> forall n', over (g_log v) (began x) n' -> False) by (intros x Q; discriminate Q).
  destruct St as [v t o Nw|v t o sv c k Nw wr|v t o r Nw|v d D]; cbn [g_log] in Pl.
  - (* a call begins *)
    exists l. constructor; cbn [g_log g_world g_now].
    + intros m o' H. destruct (gl_req _ _ L m o' H) as [j A]. exists j. apply gat_app. exact A.
    + intros m d. rewrite (gl_wait _ _ L m d). split; [apply gat_app|]. intro A. apply gat_snoc in A. destruct A as [A|[_ A]]; [exact A|discriminate A].
    + apply L.
    + apply L.
    + rewrite Len. eapply sec_ok_le; [|apply L]. lia.
    + rewrite Len. eapply sec_ok_le; [|apply L]. lia.
    + intros j o' p H. destruct (Nat.eq_dec j t) as [->|Nj].
      * rewrite set_now_same in H. injection H as <- <-. exists (length (g_log v)). split; [apply gat_last|]. split.
        -- intros x e Lx A. apply gat_lt in A. rewrite app_length in A. cbn in A. lia.
        -- apply At_start. intro Q. pose proof (began_lt v l _ L Q). lia.
      * rewrite set_now_other in H by exact Nj. destruct (gl_flight _ _ L j o' p H) as (m & A & I' & P). exists m. split; [apply gat_app; exact A|]. split; [|exact P].
        apply gidle_snoc; [|exact I']. cbn [own]. apply Nat.eqb_neq. congruence.
    + intros j o' m n r A. apply called_snoc in A. destruct A as [A|(_ & A & _)]; [apply (gl_ans _ _ L _ _ _ _ _ A)|discriminate A].
    + intros a n b En Lt Ib. pose proof (Old (GBegin t o) [] a n b Logic.I Nil (or_introl eq_refl) En Lt) as X. rewrite app_nil_r in X, Same. apply X; assumption.
  - (* a server is called *)
    destruct (gl_flight _ _ L t o _ Nw) as (m & A & I' & P). pose proof (Pl m t o (gat_app _ _ _ _ A)) as Po.
    assert (Rm1 : roomy (S (3 * length (g_log v)))) by (intros s Is; specialize (Rm s Is); lia).
    remember (Call sv c k) as q eqn:Eq. destruct P as [Q|x p Q F|e0 Q]; [| |discriminate Eq].
    + (* the call that decides *)
      destruct (alone (3 * length (g_log v)) (fst (turns l)) o Rm (gl_seq _ _ L) Po) as (p & c' & k' & E & Ip & Lc & Kc & Tc & (w2 & r & Ex & S2 & P2 & _ & De)).
      rewrite E in Eq. injection Eq as -> -> ->.
      assert (Wp : fst (turns l) (sv_id sv) = g_world v (sv_id sv)) by (apply (gl_prim _ _ L); exact Ip).
      assert (T' : turns (l ++ [TCall m o]) = (w2, snd (turns l) ++ [(m, r)])) by (rewrite in_turn_app; cbn [in_turn fst snd]; rewrite Ex; reflexivity).
      assert (Ne : forall n', over (g_log v) m n' -> False) by (intros n' En; apply Q; eapply over_in; eassumption).
      exists (l ++ [TCall m o]). constructor; cbn [g_log g_world g_now].
      * intros m' o' H. apply in_app_or in H. destruct H as [H|[H|[]]]; [destruct (gl_req _ _ L m' o' H) as [j A']; exists j; apply gat_app; exact A'|injection H as <- <-; exists t; apply gat_app; exact A].
      * intros m' d. rewrite in_app_iff, (gl_wait _ _ L m' d). split; [intros [H|[H|[]]]; [apply gat_app; exact H|discriminate H]|]. intro H. apply gat_snoc in H. destruct H as [H|[_ H]]; [left; exact H|discriminate H].
      * rewrite map_app. cbn [map]. apply NoDup_app_snoc; [apply L|exact Q].
      * intros p' Ip'. rewrite T'. cbn [fst]. rewrite (P2 p' Ip'). unfold wr, server_call. cbn [fst]. rewrite Wp. destruct (Nat.eq_dec (sv_id p') (sv_id sv)) as [->|N]; [rewrite !upd_same; reflexivity|rewrite !upd_other by exact N; apply (gl_prim _ _ L); exact Ip'].
      * rewrite T', Len. exact S2.
      * rewrite Len. destruct (one_step (3 * length (g_log v)) (g_world v) sv c (rop_key o) Rm1 (gl_con _ _ L) (in_ps _ Ip) Lc Kc Tc) as (cc & h & out & _ & _ & _ & _ & Em & _ & A2).
        unfold wr, server_call. rewrite Em. cbn [fst]. eapply sec_ok_le; [|exact A2]. lia.
      * intros j o' p' H. destruct (Nat.eq_dec j t) as [->|Nj].
        -- rewrite set_now_same in H. injection H as <- <-. exists m. split; [apply gat_app; exact A|]. split; [apply gidle_snoc; [reflexivity|exact I']|].
           unfold wr, server_call. cbn [snd]. rewrite Wp in De. destruct De as [(e0 & Ek & ->)|(x & -> & F)]; [rewrite Ek; apply At_fail|eapply At_end; [|exact F]]; rewrite T'; cbn [snd]; apply in_or_app; right; left; reflexivity.
        -- rewrite set_now_other in H by exact Nj. destruct (gl_flight _ _ L j o' p' H) as (m' & A' & I'' & P'). exists m'. split; [apply gat_app; exact A'|]. split; [apply gidle_snoc; [reflexivity|exact I'']|].
           apply gplace_more; [|exact P']. cbn [began]. intros <-. pose proof (gat_fun _ _ _ _ A A') as X. injection X as X _. congruence.
      * intros j o' m' n' r' A'. apply called_snoc in A'. destruct A' as [A'|(_ & A' & _)]; [|discriminate A']. destruct (gl_ans _ _ L _ _ _ _ _ A') as (r2 & I2 & C2). exists r2. split; [|exact C2]. rewrite T'. cbn [snd]. apply in_or_app. left. exact I2.
      * intros a n' b En Lt Ib. eapply Old; [| | |exact En|exact Lt|exact Ib|].
        -- exact Logic.I.
        -- intros x X. injection X as <-. exact Ne.
        -- right. eexists. reflexivity.
        -- intros x X. rewrite map_app in X. apply in_app_or in X. destruct X as [X|[<-|[]]]; [pose proof (began_lt v l x L X); lia|]. cbn [began]. pose proof (gat_lt _ _ _ A). lia.
    + (* a call after it *)
      subst p. destruct (fin_step (3 * length (g_log v)) (g_world v) o x sv c k Rm1 (gl_con _ _ L) Pre F) as (F2 & A2 & Pr).
      exists l. constructor; cbn [g_log g_world g_now].
      * intros m' o' H. destruct (gl_req _ _ L m' o' H) as [j A']. exists j. apply gat_app. exact A'.
      * intros m' d. rewrite (gl_wait _ _ L m' d). split; [apply gat_app|]. intro H. apply gat_snoc in H. destruct H as [H|[_ H]]; [exact H|discriminate H].
      * apply L.
      * intros p' Ip'. unfold wr, server_call. cbn [fst]. rewrite (Pr p' Ip'). apply (gl_prim _ _ L). exact Ip'.
      * rewrite Len. eapply sec_ok_le; [|apply L]. lia.
      * rewrite Len. unfold wr, server_call. cbn [fst]. eapply sec_ok_le; [|exact A2]. lia.
      * intros j o' p' H. destruct (Nat.eq_dec j t) as [->|Nj].
        -- rewrite set_now_same in H. injection H as <- <-. exists m. split; [apply gat_app; exact A|]. split; [apply gidle_snoc; [reflexivity|exact I']|]. eapply At_end; [exact Q|exact F2].
        -- rewrite set_now_other in H by exact Nj. destruct (gl_flight _ _ L j o' p' H) as (m' & A' & I'' & P'). exists m'. split; [apply gat_app; exact A'|]. split; [apply gidle_snoc; [reflexivity|exact I'']|exact P'].
      * intros j o' m' n' r' A'. apply called_snoc in A'. destruct A' as [A'|(_ & A' & _)]; [apply (gl_ans _ _ L _ _ _ _ _ A')|discriminate A'].
      * intros a n' b En Lt Ib. pose proof (Old (GCall t sv c (snd wr)) [] a n' b Logic.I Nil (or_introl eq_refl) En Lt) as X. rewrite app_nil_r in X, Same. apply X; assumption.
  - (* a call returns *)
    destruct (gl_flight _ _ L t o _ Nw) as (m & A & I' & P). pose proof (Pl m t o (gat_app _ _ _ _ A)) as Po.
    assert (An : exists r', In (m, r') (snd (turns l)) /\ close o r r').
    { remember (Ret r) as q eqn:Eq. destruct P as [Q|x p Q F|e0 Q].
      - destruct (alone (3 * length (g_log v)) (fst (turns l)) o Rm (gl_seq _ _ L) Po) as (p & c' & k' & E & _). rewrite E in Eq. discriminate Eq.
      - exists (Ok x). split; [exact Q|]. destruct F; try discriminate Eq; injection Eq as <-; [left; reflexivity|right; split; [assumption|split; [assumption|split; [reflexivity|exists x; reflexivity]]]].
      - injection Eq as <-. exists (Err e0). split; [exact Q|left; reflexivity]. }
    exists l. constructor; cbn [g_log g_world g_now].
    + intros m' o' H. destruct (gl_req _ _ L m' o' H) as [j A']. exists j. apply gat_app. exact A'.
    + intros m' d. rewrite (gl_wait _ _ L m' d). split; [apply gat_app|]. intro H. apply gat_snoc in H. destruct H as [H|[_ H]]; [exact H|discriminate H].
    + apply L.
    + apply L.
    + rewrite Len. eapply sec_ok_le; [|apply L]. lia.
    + rewrite Len. eapply sec_ok_le; [|apply L]. lia.
    + intros j o' p' H. destruct (Nat.eq_dec j t) as [->|Nj]; [rewrite set_now_same in H; discriminate H|].
      rewrite set_now_other in H by exact Nj. destruct (gl_flight _ _ L j o' p' H) as (m' & A' & I'' & P'). exists m'. split; [apply gat_app; exact A'|]. split; [|exact P'].
      apply gidle_snoc; [|exact I'']. cbn [own]. apply Nat.eqb_neq. congruence.
    + intros j o' m' n' r' A'. apply called_snoc in A'. destruct A' as [A'|(_ & X & A' & I'')]; [apply (gl_ans _ _ L _ _ _ _ _ A')|].
      injection X as <- <- <-. assert (m' = m) as ->; [|exact An].
      destruct (Nat.lt_trichotomy m' m) as [Q|[Q|Q]]; [|exact Q|]; exfalso.
      * specialize (I'' m _ Q A). cbn [own] in I''. rewrite Nat.eqb_refl in I''. discriminate I''.
      * specialize (I' m' _ Q A'). cbn [own] in I'. rewrite Nat.eqb_refl in I'. discriminate I'.
    + intros a n' b En Lt Ib. pose proof (began_lt v l b L Ib) as Lb. assert (En' : over (g_log v) a n').
      { destruct En as [(d & A' & ->)|(t' & o' & r' & A')].
        - left. exists d. split; [|reflexivity]. eapply gat_old; [|exact A']. lia.
        - right. exists t', o', r'. apply called_snoc in A'. destruct A' as [A'|(-> & _)]; [exact A'|lia]. }
      eapply (gl_order _ _ L); eassumption.
  - (* time passes *)
    assert (T' : turns (l ++ [TWait (length (g_log v)) d]) = (all_tick (fst (turns l)) d, snd (turns l))) by (rewrite in_turn_app; cbn [in_turn fst snd]; rewrite app_nil_r; reflexivity).
    exists (l ++ [TWait (length (g_log v)) d]). constructor; cbn [g_log g_world g_now].
    + intros m' o' H. apply in_app_or in H. destruct H as [H|[H|[]]]; [|discriminate H]. destruct (gl_req _ _ L m' o' H) as [j A']. exists j. apply gat_app. exact A'.
    + intros m' d'. rewrite in_app_iff, (gl_wait _ _ L m' d'). split.
      * intros [H|[H|[]]]; [apply gat_app; exact H|]. injection H as <- <-. apply gat_last.
      * intro H. apply gat_snoc in H. destruct H as [H|[-> H]]; [left; exact H|right; left; congruence].
    + rewrite map_app. cbn [map]. apply NoDup_app_snoc; [apply L|]. intro Q. pose proof (began_lt v l _ L Q). cbn [began] in *. lia.
    + intros p' Ip'. rewrite T'. cbn [fst]. unfold all_tick. rewrite (gl_prim _ _ L p' Ip'). reflexivity.
    + rewrite T', Len. cbn [fst]. eapply sec_ok_le; [|apply sec_ok_tick; [exact D|apply L]]. lia.
    + rewrite Len. eapply sec_ok_le; [|apply sec_ok_tick; [exact D|apply L]]. lia.
    + intros j o' p' H. destruct (gl_flight _ _ L j o' p' H) as (m' & A' & I'' & P'). exists m'. split; [apply gat_app; exact A'|]. split; [apply gidle_snoc; [reflexivity|exact I'']|].
      apply gplace_more; [|exact P']. cbn [began]. intros <-. apply gat_lt in A'. lia.
    + intros j o' m' n' r' A'. apply called_snoc in A'. destruct A' as [A'|(_ & A' & _)]; [|discriminate A']. destruct (gl_ans _ _ L _ _ _ _ _ A') as (r2 & I2 & C2). exists r2. split; [|exact C2]. rewrite T'. exact I2.
    + intros a n' b En Lt Ib. eapply Old; [| | |exact En|exact Lt|exact Ib|].
      * exact Logic.I.
      * intros x X. injection X as <-. intros n2 [(d2 & A' & _)|(t' & o' & r' & A')]; cbn [began] in A'; [apply gat_lt in A'; lia|]. destruct A' as (_ & A' & _). apply gat_lt in A'. lia.
      * right. eexists. reflexivity.
      * intros x X. rewrite map_app in X. apply in_app_or in X. destruct X as [X|[<-|[]]]; [pose proof (began_lt v l x L X); lia|]. cbn [began]. lia.
Qed.

Lemma glin_run : forall v, roomy (3 * length (g_log v)) -> allok 0 w -> gsteps meta_server link_tick pn sn (pool_fresh w) v -> plain_calls (g_log v) ->
  (forall u l, glin u l -> (exists more, g_log v = g_log u ++ more) -> present (g_world u)) -> exists l, glin v l.
Proof.
  intros v Rm S0 Sv Pl Keep. remember (pool_fresh w) as v0 eqn:E0. induction Sv as [v|v u t Sv IH St]; subst.
  - exists []. constructor; cbn [pool_fresh g_log g_world g_now in_turn fst snd map].
    + intros m o []. 
    + intros m d. split; [intros []|]. intro A. unfold gat in A. destruct m; discriminate A.
    + constructor.
    + reflexivity.
    + exact S0.
    + exact S0.
    + intros t o p H. discriminate H.
    + intros t o m n r (_ & A & _). unfold gat in A. destruct m; discriminate A.
    + intros a n b _ _ [].
  - assert (G : exists e, g_log t = g_log u ++ [e]) by (destruct St; eexists; reflexivity). destruct G as [e G].
    destruct (IH ltac:(intros s Is; specialize (Rm s Is); rewrite G, app_length in Rm; cbn [length] in Rm; lia) eq_refl) as [l L].
    { intros m j o A. apply (Pl m j o). rewrite G. apply gat_app. exact A. }
    { intros u' l' L' [more Q]. apply (Keep u' l' L'). exists (more ++ [e]). rewrite G, Q, <- app_assoc. reflexivity. }
    eapply glin_step; [exact L| |exact St|exact Pl|apply (Keep u l L); exists [e]; exact G]. intros s Is. specialize (Rm s Is). rewrite G, app_length in Rm. cbn [length] in Rm. lia.
Qed.
End Shared.

Lemma good_start : forall n svs w, good_world (3 * Z.of_nat n) svs w -> sec_ok svs w 0 w /\ room svs w (3 * n).
Proof.
  intros n svs w [now G]. split; intros s Is; destruct (G s Is) as (c & h & A & W & _ & C); rewrite A; cbn [fresh_link l_cache]; [|lia].
  exists c, h. split; [reflexivity|]. split; [exact W|]. split; [reflexivity|lia].
Qed.
Lemma glin_fair : forall ps ss pn sn w kept v l, glin ps ss pn sn w kept v l -> fair_order (g_log v) l.
Proof.
  intros ps ss pn sn w kept v l L. split; [apply L|]. split; [apply L|]. split; [apply L|]. split; [|apply L].
  intros t o m n r A. destruct (gl_ans _ _ _ _ _ _ _ _ L t o m n r A) as (r' & I' & _). apply in_turn_moments in I'. apply in_map_iff in I'. destruct I' as ([x q|x d] & <- & H); cbn [began] in *.
  - destruct (gl_req _ _ _ _ _ _ _ _ L x q H) as (j & B'). destruct A as (_ & A & _). pose proof (gat_fun _ _ _ _ A B') as Q. injection Q as _ <-. exact H.
  - apply (gl_wait _ _ _ _ _ _ _ _ L) in H. destruct A as (_ & A & _). pose proof (gat_fun _ _ _ _ A H) as Q. discriminate Q.
Qed.

(** ** The theorems *)

(** Any number of goroutines share a pool of memcacheds. There is one order of their calls, respecting time, such
    that one goroutine making the calls in that order gets the same results and leaves the same primaries; except
    that an Increment or Decrement that counted may have returned ItemNotFound. *)
Definition linearizable (pn sn : list node) (w : world link) (v : pool_state link) (ps : list server) (l : list turn) : Prop :=
  fair_order (g_log v) l
  /\ (forall t o m n r, called (g_log v) t o m n r -> In (m, r) (snd (in_turn pn sn w l)))
  /\ (forall p, In p ps -> g_world v (sv_id p) = fst (in_turn pn sn w l) (sv_id p)).
Theorem C82_linearizable_partial : forall ps ss pn sn w v,
  two_rings ps ss pn sn -> good_world (3 * Z.of_nat (length (g_log v))) (ps ++ ss) w -> as_large ps ss w -> plain_calls (g_log v) ->
  gsteps meta_server link_tick pn sn (pool_fresh w) v ->
  exists l, fair_order (g_log v) l
    /\ (forall t o m n r, called (g_log v) t o m n r -> In (m, r) (snd (in_turn pn sn w l))
        \/ counter o /\ r = Err ENotFound /\ exists x, In (m, Ok x) (snd (in_turn pn sn w l)))
    /\ (forall p, In p ps -> g_world v (sv_id p) = fst (in_turn pn sn w l) (sv_id p)).
Proof.
  intros ps ss pn sn w v R G Lim Pl Sv. destruct (good_start _ _ _ G) as [S0 Rm].
  destruct (glin_run ps ss pn sn R w Lim (fun _ => False) v Rm S0 Sv Pl ltac:(intros u l _ _ k [])) as [l L]. exists l. split; [eapply glin_fair; exact L|]. split.
  - intros t o m n r A. destruct (gl_ans _ _ _ _ _ _ _ _ L t o m n r A) as (r' & I' & [->|(C & _ & -> & x & ->)]); [left; exact I'|right]. split; [exact C|]. split; [reflexivity|]. exists x. exact I'.
  - intros p Ip. symmetry. apply L. exact Ip.
Qed.
Print Assumptions C82_linearizable_partial.
(** So if no Increment or Decrement returned ItemNotFound, it is as if the calls had been made one at a time. *)
Theorem C82_linearizable_unless_a_counter_vanishes : forall ps ss pn sn w v,
  two_rings ps ss pn sn -> good_world (3 * Z.of_nat (length (g_log v))) (ps ++ ss) w -> as_large ps ss w -> plain_calls (g_log v) ->
  gsteps meta_server link_tick pn sn (pool_fresh w) v ->
  (forall t o m n, counter o -> ~ called (g_log v) t o m n (Err ENotFound)) ->
  exists l, linearizable pn sn w v ps l.
Proof.
  intros ps ss pn sn w v R G Lim Pl Sv N. destruct (C82_linearizable_partial ps ss pn sn w v R G Lim Pl Sv) as (l & F & A & P). exists l. split; [exact F|]. split; [|exact P].
  intros t o m n r C. destruct (A t o m n r C) as [H|(Co & -> & _)]; [exact H|]. destruct (N t o m n Co C).
Qed.
Print Assumptions C82_linearizable_unless_a_counter_vanishes.

(** ** Counters *)
(** [k] is a number that does not expire. *)
Definition is_number (nodes : list node) (w : world link) (k : bytes) (a : Z) : Prop :=
  exists e, held nodes w k = Some e /\ counter_value (e_value e) = Some a /\ e_expire e = None.
(** Nobody does anything to [k] but get it and add one to it. *)
Definition only_counted (k : bytes) (log : list gevent) : Prop :=
  forall m t o, gat log m (GBegin t o) -> rop_key o = k -> o = RGet k \/ exists x, o = RIncr k 1 x.
Definition begins_increment (k : bytes) (e : gevent) : bool := match e with GBegin _ (RIncr j _ _) => beq j k | _ => false end.
Definition increments (k : bytes) (log : list gevent) : Z := zlen (filter (begins_increment k) log).
(** No call is under way. *)
Definition all_returned (v : pool_state link) : Prop := forall t, g_now v t = None.

Lemma counter_round : forall old n, 0 <= n < 2 ^ 64 -> counter_value (counter_text old n) = Some n.
Proof.
  intros old n H. unfold counter_value, counter_text. rewrite <- (parse_uint_dec 64 n H) at 1. f_equal.
  assert (Sp : forall j b, strip_spaces (b ++ repeat SP j) = strip_spaces b).
  { induction j as [|j IH]; intro b; [cbn; rewrite app_nil_r; reflexivity|]. replace (repeat SP (S j)) with (repeat SP j ++ [SP]) by (rewrite <- repeat_cons; reflexivity).
    rewrite app_assoc. unfold strip_spaces at 1. rewrite rev_unit. cbn [strip_spaces_front]. change (Ascii.eqb SP SP) with true. cbn iota. apply IH. }
  rewrite Sp. unfold strip_spaces. pose proof (dec_digits n ltac:(lia)) as D. apply Forall_rev in D.
  assert (E : strip_spaces_front (rev (dec n)) = rev (dec n)); [|rewrite E; apply rev_involutive].
  destruct (rev (dec n)) as [|c b]; [reflexivity|]. inversion D as [|? ? Dc _]; subst. cbn [strip_spaces_front]. destruct (Ascii.eqb_spec c SP) as [->|]; [discriminate Dc|reflexivity].
Qed.

Section Counting.
Variables (ps ss : list server) (pn sn : list node).
Hypothesis R : two_rings ps ss pn sn.
Variable w : world link.
Hypothesis Lim : as_large ps ss w.
Variable k : bytes.
Local Notation allok := (sec_ok (ps ++ ss) w).
Local Notation roomy := (room (ps ++ ss) w).
Definition counted_turn (e : turn) : Prop :=
  match e with TCall _ o => plain_rop o /\ (rop_key o = k -> o = RGet k \/ exists x, o = RIncr k 1 x) | TWait _ d => 0 <= d end.
Definition is_incr (e : turn) : bool := match e with TCall _ (RIncr j _ _) => beq j k | _ => false end.
Definition cnt (l : list turn) : Z := zlen (filter is_incr l).

Lemma held_tick : forall w1 d a, is_number pn w1 k a -> is_number pn (all_tick w1 d) k a.
Proof.
  intros w1 d a (e & H & V & X). exists e. split; [|split; assumption]. unfold held in *. destruct (pick pn k) as [p| |]; try discriminate H.
  unfold all_tick. cbn [link_tick l_cache]. destruct (lookup_map _ _ _ H) as [M _]. unfold lookup, tick. cbn [c_map]. rewrite M. unfold alive. rewrite X. reflexivity.
Qed.
Lemma counted_call : forall n w1 o a, roomy (3 + n) -> allok n w1 -> plain_rop o -> (rop_key o = k -> o = RGet k \/ exists x, o = RIncr k 1 x) ->
  is_number pn w1 k a -> a + 1 < 2 ^ 63 ->
  allok (3 + n) (fst (exec meta_server (rp_prog pn sn o) w1))
  /\ is_number pn (fst (exec meta_server (rp_prog pn sn o) w1)) k (if is_incr (TCall 0 o) then a + 1 else a)
  /\ (is_incr (TCall 0 o) = true -> snd (exec meta_server (rp_prog pn sn o) w1) = Ok (RInt (a + 1))).
Proof.
  intros n w1 o a Rm H Po Ko (e & He & Va & Xe) La.
  destruct (alone ps ss pn sn R w Lim (fun _ => False) n w1 o Rm H Po) as (p & c & kk & E & Ip & Lc & Kc & Tc & (w2 & r & Ex & S2 & P2 & Rr & _)).
  assert (Rm1 : roomy (S n)) by (intros s Is; specialize (Rm s Is); lia).
  destruct (one_step ps ss w n w1 p c (rop_key o) Rm1 H (in_ps ps ss p Ip) Lc Kc Tc) as (cc & h & out & A & W & Fc & C & Em & Ag & _).
  rewrite Ex. cbn [fst snd]. split; [exact S2|]. rewrite Em in Rr. cbn [snd] in Rr. subst r.
  assert (P2' : forall p', In p' ps -> w2 (sv_id p') = upd w1 (sv_id p) (fresh_link (step1 cc c) h) (sv_id p')) by (intros p' Ip'; rewrite (P2 p' Ip'), Em; reflexivity). clear P2.
  destruct (owner_p _ _ _ _ R k) as (q & Pq & Iq). unfold held in He. rewrite Pq in He. destruct (lookup_map _ _ _ He) as [Me Al].
  destruct (beq (rop_key o) k) eqn:Ek.
  - apply beq_eq in Ek. assert (p = q) as ->.
    { destruct (Ko Ek) as [->|[x ->]]; cbn [rp_prog] in E; unfold rp_get, rp_delta, on_ring in E; rewrite Pq in E; injection E as <- _ _; reflexivity. }
    rewrite A in He. cbn [fresh_link l_cache] in He.
    destruct (Ko Ek) as [->|[x ->]].
    + cbn [is_incr]. split; [|discriminate]. assert (c = OGet k) as -> by (cbn [rp_prog] in E; unfold rp_get, on_ring in E; rewrite Pq in E; injection E as <- _; reflexivity).
      exists e. split; [|split; assumption]. unfold held. rewrite Pq, (P2' q Iq), upd_same. exact He.
    + assert (c = OIncr k 1 x) as -> by (cbn [rp_prog] in E; unfold rp_delta in E; rewrite Pq in E; injection E as <- _; reflexivity).
      cbn [is_incr]. rewrite beq_refl. pose proof (counter_value_range _ _ Va) as Ra.
      assert (Sr : spec_step PMeta [] cc (OIncr k 1 x) = (Cache.put cc k (counter_text (e_value e) (a + 1)) (e_flags e) (e_expire e), SOk (RInt (a + 1)))).
      { cbn [spec_step]. unfold spec_delta, cache_delta. rewrite He, Va. cbn [fst snd delta_outcome]. unfold delta_apply. rewrite Z.mod_small by lia. replace (a + 1 <? 2 ^ 63) with true by (symmetry; apply Z.ltb_lt; lia). reflexivity. }
      split.
      * exists (mkEntry (counter_text (e_value e) (a + 1)) (e_flags e) (e_expire e) (c_cas cc + 1) false). split; [|split; [apply counter_round; lia|exact Xe]].
        unfold held. rewrite Pq, (P2' q Iq), upd_same. cbn [fresh_link l_cache]. unfold step1. rewrite Sr. cbn [fst]. rewrite lookup_put. cbv zeta. unfold alive. cbn [e_expire]. rewrite Xe. reflexivity.
      * intros _. destruct Ag as [Ag|[Q _]]; [|discriminate Q]. rewrite Sr in Ag. cbn [snd] in Ag. destruct out; cbn in Ag; try contradiction. subst. reflexivity.
  - assert (Nk : k <> rop_key o) by (intro Q; rewrite Q, beq_refl in Ek; discriminate Ek).
    assert (Ni : is_incr (TCall 0 o) = false) by (destruct o; try reflexivity; exact Ek). rewrite Ni. split; [|discriminate].
    exists e. split; [|split; assumption]. unfold held. rewrite Pq, (P2' q Iq). destruct (Nat.eq_dec (sv_id q) (sv_id p)) as [Q|Q]; [|rewrite upd_other by exact Q; exact He].
    rewrite Q, upd_same. cbn [fresh_link l_cache]. rewrite Q, A in Me, Al. cbn [fresh_link l_cache] in Me, Al. destruct (chg_step cc c (rop_key o) W Lc Kc) as (_ & _ & Nw & _ & Fr). unfold lookup. rewrite (Fr k Nk), Me, Nw, Al. reflexivity.
Qed.
Lemma run_counts : forall l n w1 a, roomy (3 * length l + n) -> allok n w1 -> Forall counted_turn l -> is_number pn w1 k a -> a + zlen l < 2 ^ 63 ->
  is_number pn (fst (in_turn pn sn w1 l)) k (a + cnt l)
  /\ forall l1 m x l2, l = l1 ++ TCall m (RIncr k 1 x) :: l2 -> In (m, Ok (RInt (a + cnt l1 + 1))) (snd (in_turn pn sn w1 l)).
Proof.
  induction l as [|e l IH]; intros n w1 a Rm H F N La.
  - split; [change (cnt []) with 0; rewrite Z.add_0_r; exact N|]. intros l1 m x l2 Q. destruct l1; discriminate Q.
  - rewrite zlen_cons in La. pose proof (zlen_nonneg _ l). inversion F as [|? ? Fe Fl]; subst. destruct e as [m o|m d].
    + destruct Fe as [Po Ko]. destruct (counted_call n w1 o a ltac:(intros s Is; specialize (Rm s Is); cbn [length] in Rm; lia) H Po Ko N ltac:(lia)) as (S2 & N2 & R2).
      cbn [in_turn fst snd]. assert (La2 : (if is_incr (TCall 0 o) then a + 1 else a) + zlen l < 2 ^ 63) by (destruct (is_incr (TCall 0 o)); lia).
      destruct (IH (3 + n)%nat _ _ ltac:(intros s Is; specialize (Rm s Is); cbn [length] in Rm; lia) S2 Fl N2 La2) as [A B'].
      assert (Ec : forall l', cnt (TCall m o :: l') = (if is_incr (TCall 0 o) then 1 else 0) + cnt l').
      { intro l'. unfold cnt. cbn [filter]. change (is_incr (TCall m o)) with (is_incr (TCall 0 o)). destruct (is_incr (TCall 0 o)); [rewrite zlen_cons; lia|lia]. }
      split.
      * rewrite Ec. replace (a + _) with ((if is_incr (TCall 0 o) then a + 1 else a) + cnt l) by (destruct (is_incr (TCall 0 o)); lia). exact A.
      * intros l1 m' x l2 Q. destruct l1 as [|z l1]; cbn [app] in Q; injection Q as Q1 Q2.
        -- subst. left. rewrite (R2 ltac:(cbn [is_incr]; apply beq_refl)). change (cnt []) with 0. rewrite Z.add_0_r. reflexivity.
        -- subst z. right. specialize (B' l1 m' x l2 Q2). rewrite Ec. match type of B' with In (_, Ok (RInt ?y)) _ => match goal with |- In (_, Ok (RInt ?z)) _ => replace z with y by (destruct (is_incr (TCall 0 o)); lia) end end. exact B'.
    + cbn [in_turn fst snd]. assert (La2 : a + zlen l < 2 ^ 63) by lia.
      destruct (IH n (all_tick w1 d) a ltac:(intros s Is; specialize (Rm s Is); cbn [length] in Rm; lia) ltac:(apply sec_ok_tick; assumption) Fl ltac:(apply held_tick; exact N) La2) as [A B'].
      split; [exact A|]. intros l1 m' x l2 Q. destruct l1 as [|z l1]; cbn [app] in Q; injection Q as Q1 Q2; [discriminate Q1|]. subst z. apply (B' l1 m' x l2 Q2).
Qed.
End Counting.

Lemma gtimes_ok : forall ST (step : ST -> op -> ST * outcome result) later pn sn w v, gsteps step later pn sn (pool_fresh w) v -> forall m d, gat (g_log v) m (GTime d) -> 0 <= d.
Proof.
  intros ST step later pn sn w v Sv. remember (pool_fresh w) as v0 eqn:E0. induction Sv as [v|v u t Sv IH St]; intros m d A; subst; [unfold gat in A; destruct m; discriminate A|].
  specialize (IH eq_refl). destruct St; cbn [g_log] in A; apply gat_snoc in A; destruct A as [A|[_ A]]; try (eapply IH; exact A); try discriminate A. injection A as <-. assumption.
Qed.
(** A call that began has returned, or is under way. *)
Lemma all_over : forall ST (step : ST -> op -> ST * outcome result) later pn sn w v, gsteps step later pn sn (pool_fresh w) v ->
  forall m t o, gat (g_log v) m (GBegin t o) -> (exists n r, called (g_log v) t o m n r) \/ (gidle (g_log v) t m /\ exists p, g_now v t = Some (o, p)).
Proof.
  intros ST step later pn sn w v Sv. remember (pool_fresh w) as v0 eqn:E0. induction Sv as [v|v u x Sv IH St]; intros m t o A; subst; [unfold gat in A; destruct m; discriminate A|].
  specialize (IH eq_refl). assert (Keep : forall log e t o m n r, called log t o m n r -> called (log ++ [e]) t o m n r).
  { clear. intros log e t o m n r (A & B' & C & D). pose proof (gat_lt _ _ _ C). split; [exact A|]. split; [apply gat_app; exact B'|]. split; [apply gat_app; exact C|]. intros x y Rx Ax. apply (D x y Rx). eapply gat_old; [|exact Ax]. lia. }
  destruct St as [v j o' Nw|v j o' sv c k Nw wr|v j o' r Nw|v d D]; cbn [g_log g_now] in *; apply gat_snoc in A.
  - destruct A as [A|[-> A]].
    + destruct (IH m t o A) as [(n & r & C)|(I' & p & P)]; [left; exists n, r; apply Keep; exact C|]. right.
      assert (t <> j) by (intros ->; congruence). split; [apply gidle_snoc; [cbn [own]; apply Nat.eqb_neq; congruence|exact I']|]. exists p. rewrite set_now_other by assumption. exact P.
    + injection A as <- <-. right. split; [|exists (rp_prog pn sn o); apply set_now_same]. intros x e Lx Ax. apply gat_lt in Ax. rewrite app_length in Ax. cbn in Ax. lia.
  - destruct A as [A|[_ A]]; [|discriminate A]. destruct (IH m t o A) as [(n & r & C)|(I' & p & P)]; [left; exists n, r; apply Keep; exact C|]. right.
    split; [apply gidle_snoc; [reflexivity|exact I']|]. destruct (Nat.eq_dec t j) as [->|N]; [|exists p; rewrite set_now_other by exact N; exact P]. rewrite Nw in P. injection P as <- _. eexists. apply set_now_same.
  - destruct A as [A|[_ A]]; [|discriminate A]. destruct (IH m t o A) as [(n & r' & C)|(I' & p & P)]; [left; exists n, r'; apply Keep; exact C|].
    destruct (Nat.eq_dec t j) as [->|N].
    + rewrite Nw in P. injection P as <- _. left. exists (length (g_log v)), r. split; [eapply gat_lt; exact A|]. split; [apply gat_app; exact A|]. split; [apply gat_last|].
      intros x e Rx Ax. apply (I' x e); [lia|]. eapply gat_old; [|exact Ax]. lia.
    + right. split; [apply gidle_snoc; [cbn [own]; apply Nat.eqb_neq; congruence|exact I']|]. exists p. rewrite set_now_other by exact N. exact P.
  - destruct A as [A|[_ A]]; [|discriminate A]. destruct (IH m t o A) as [(n & r & C)|(I' & p & P)]; [left; exists n, r; apply Keep; exact C|]. right.
    split; [apply gidle_snoc; [reflexivity|exact I']|]. exists p. exact P.
Qed.
Definition moments {A} (f : A -> bool) (log : list A) : list nat := filter (fun i => match nth_error log i with Some e => f e | None => false end) (seq 0 (length log)).
Lemma moments_length : forall A (f : A -> bool) log, length (moments f log) = length (filter f log).
Proof.
  intros A f log. induction log as [|e log IH] using rev_ind; [reflexivity|]. unfold moments. rewrite app_length. cbn [length]. rewrite Nat.add_1_r, seq_S, !filter_app, !app_length. cbn [filter Nat.add].
  rewrite nth_error_app2, Nat.sub_diag by lia. cbn [nth_error]. f_equal; [|destruct (f e); reflexivity]. rewrite <- IH. unfold moments. f_equal. apply filter_ext_in. intros i Hi. apply in_seq in Hi. rewrite nth_error_app1 by lia. reflexivity.
Qed.
Lemma moments_in : forall A (f : A -> bool) log i, In i (moments f log) <-> exists e, nth_error log i = Some e /\ f e = true.
Proof.
  intros A f log i. unfold moments. rewrite filter_In, in_seq. split.
  - intros [_ H]. destruct (nth_error log i) as [e|]; [|discriminate H]. exists e. auto.
  - intros (e & E & F). rewrite E. split; [|exact F]. assert (i < length log)%nat by (apply nth_error_Some; congruence). lia.
Qed.
Lemma moments_nodup : forall A (f : A -> bool) log, NoDup (moments f log).
Proof. intros. apply NoDup_filter, seq_NoDup. Qed.
Lemma map_filter_nodup : forall (f : turn -> bool) l, NoDup (map began l) -> NoDup (map began (filter f l)).
Proof.
  induction l as [|e l IH]; intro N; [constructor|]. inversion N as [|? ? Ne Nl]; subst. cbn [filter]. destruct (f e); [|apply IH; exact Nl]. cbn [map]. constructor; [|apply IH; exact Nl].
  intro Q. apply Ne. apply in_map_iff in Q. destruct Q as (x & Ex & Ix). apply filter_In in Ix. rewrite <- Ex. apply in_map. apply Ix.
Qed.
Lemma split_two : forall (l : list turn) a b, NoDup (map began l) -> In a l -> In b l -> began a <> began b ->
  before (map began l) (began a) (began b) /\ (exists l1 l2 l3, l = l1 ++ a :: l2 ++ b :: l3) \/ before (map began l) (began b) (began a) /\ (exists l1 l2 l3, l = l1 ++ b :: l2 ++ a :: l3).
Proof.
  intros l a b N Ia Ib Ne. apply in_split in Ia. destruct Ia as (x & y & ->). apply in_app_or in Ib. destruct Ib as [Ib|[->|Ib]]; [right| congruence|left].
  - apply in_split in Ib. destruct Ib as (x1 & x2 & ->). split; [|exists x1, x2, y; rewrite <- app_assoc; reflexivity]. exists (map began x1), (map began x2), (map began y). rewrite !map_app. cbn [map]. rewrite <- app_assoc. reflexivity.
  - apply in_split in Ib. destruct Ib as (y1 & y2 & ->). split; [|exists x, y1, y2; reflexivity]. exists (map began x), (map began y1), (map began y2). rewrite !map_app. cbn [map]. rewrite map_app. reflexivity.
Qed.

(** Every Increment counts once: goroutines that share a pool and add one to a key, which nobody else changes, get
    different numbers, larger ones for later calls; and when all have returned the primary holds the sum. *)
Theorem C82_every_increment_counts : forall ps ss pn sn w v k a,
  two_rings ps ss pn sn -> good_world (3 * Z.of_nat (length (g_log v))) (ps ++ ss) w -> as_large ps ss w -> plain_calls (g_log v) ->
  gsteps meta_server link_tick pn sn (pool_fresh w) v ->
  is_number pn w k a -> a + zlen (g_log v) < 2 ^ 63 -> only_counted k (g_log v) ->
  exists n, 0 <= n <= increments k (g_log v) /\ (all_returned v -> n = increments k (g_log v))
    /\ is_number pn (g_world v) k (a + n)
    /\ (forall t x m z r, called (g_log v) t (RIncr k 1 x) m z r -> exists i, r = Ok (RInt i) /\ a < i <= a + n)
    /\ (forall t1 x1 m1 z1 i1 t2 x2 m2 z2 i2, called (g_log v) t1 (RIncr k 1 x1) m1 z1 (Ok (RInt i1)) -> called (g_log v) t2 (RIncr k 1 x2) m2 z2 (Ok (RInt i2)) -> m1 <> m2 ->
        i1 <> i2 /\ ((z1 < m2)%nat -> i1 < i2)).
Proof.
  intros ps ss pn sn w v k a R G Lim Pl Sv Nm La Oc. destruct (good_start _ _ _ G) as [S0 Rm].
  assert (Cn : forall u l, glin ps ss pn sn w (fun j => j = k) u l -> (exists more, g_log v = g_log u ++ more) -> Forall (counted_turn k) l /\ (length l <= length (g_log u))%nat).
  { intros u l L [more Q]. split.
    - apply Forall_forall. intros [m o|m d] H; cbn [counted_turn].
      + destruct (gl_req _ _ _ _ _ _ _ _ L m o H) as [t A]. assert (A' : gat (g_log v) m (GBegin t o)) by (rewrite Q; apply gat_app; exact A). split; [apply (Pl m t o A')|apply (Oc m t o A')].
      + apply (gl_wait _ _ _ _ _ _ _ _ L) in H. apply (gtimes_ok _ _ _ _ _ _ _ Sv m). rewrite Q. apply gat_app. exact H.
    - rewrite <- (map_length began). rewrite <- (seq_length (length (g_log u)) 0). apply NoDup_incl_length; [apply L|]. intros m Hm. apply in_seq. pose proof (began_lt ps ss pn sn w (fun j => j = k) u l m L Hm). lia. }
  assert (Run : forall u l, glin ps ss pn sn w (fun j => j = k) u l -> (exists more, g_log v = g_log u ++ more) ->
    is_number pn (g_world u) k (a + cnt k l) /\ forall l1 m x l2, l = l1 ++ TCall m (RIncr k 1 x) :: l2 -> In (m, Ok (RInt (a + cnt k l1 + 1))) (snd (in_turn pn sn w l))).
  { intros u l L Mo. destruct (Cn u l L Mo) as [F Ll]. assert (Lu : (length (g_log u) <= length (g_log v))%nat) by (destruct Mo as [more ->]; rewrite app_length; lia).
    destruct (run_counts ps ss pn sn R w Lim k l 0 w a) as [A B']; [intros s Is; specialize (Rm s Is); lia|exact S0|exact F|exact Nm|unfold zlen in *; lia|].
    split; [|exact B']. destruct A as (e & He & V & X). exists e. split; [|split; assumption]. destruct (owner_p _ _ _ _ R k) as (q & Pq & Iq). unfold held in *. rewrite Pq in *. rewrite <- (gl_prim _ _ _ _ _ _ _ _ L q Iq). exact He. }
  destruct (glin_run ps ss pn sn R w Lim (fun j => j = k) v Rm S0 Sv Pl) as [l L].
  { intros u l L Mo j ->. destruct (Run u l L Mo) as [(e & He & _) _]. congruence. }
  assert (Mo : exists more, g_log v = g_log v ++ more) by (exists []; rewrite app_nil_r; reflexivity).
  destruct (Run v l L Mo) as [Fin Res]. exists (cnt k l).
  assert (Nd : NoDup (map began (filter (is_incr k) l))) by (apply map_filter_nodup; apply L).
  assert (Le : cnt k l <= increments k (g_log v)).
  { unfold cnt, increments, zlen. rewrite <- (moments_length _ (begins_increment k)), <- (map_length began). apply inj_le. apply NoDup_incl_length; [exact Nd|]. intros m Hm. apply in_map_iff in Hm. destruct Hm as (e & <- & He). apply filter_In in He. destruct He as [He Ie].
    destruct e as [m o|m d]; [|discriminate Ie]. destruct (gl_req _ _ _ _ _ _ _ _ L m o He) as [t A]. apply moments_in. exists (GBegin t o). split; [exact A|exact Ie]. }
  assert (Inl : forall t x m z r, called (g_log v) t (RIncr k 1 x) m z r -> In (TCall m (RIncr k 1 x)) l) by (intros t x m z r C; destruct (glin_fair _ _ _ _ _ _ _ _ L) as (_ & _ & _ & Fc & _); eapply Fc; exact C).
  assert (Uq : forall l0 w0 m r r', NoDup (map began l0) -> In (m, r) (snd (in_turn pn sn w0 l0)) -> In (m, r') (snd (in_turn pn sn w0 l0)) -> r = r').
  { induction l0 as [|[x q|x d] l0 IH]; intros w0 m r r' N H H'; cbn [in_turn snd map] in *; [destruct H| |inversion N; subst; eapply IH; eassumption].
    inversion N as [|? ? Nx Nl]; subst. destruct H as [H|H], H' as [H'|H']; [congruence| | |eapply IH; eassumption].
    - injection H as <- _. exfalso. apply Nx. eapply in_turn_moments. exact H'.
    - injection H' as <- _. exfalso. apply Nx. eapply in_turn_moments. exact H. }
  assert (At : forall t x m z r l1 l2, called (g_log v) t (RIncr k 1 x) m z r -> l = l1 ++ TCall m (RIncr k 1 x) :: l2 -> r = Ok (RInt (a + cnt k l1 + 1))).
  { intros t x m z r l1 l2 C Q. destruct (gl_ans _ _ _ _ _ _ _ _ L _ _ _ _ _ C) as (r' & I' & [->|(_ & Nk & _)]); [|destruct Nk; reflexivity].
    apply (Uq l w m); [apply L|exact I'|]. apply (Res l1 m x l2 Q). }
  assert (Cadd : forall x y, cnt k (x ++ y) = cnt k x + cnt k y) by (intros; unfold cnt; rewrite filter_app, zlen_app; reflexivity).
  assert (Cpos : forall x, 0 <= cnt k x) by (intro; apply zlen_nonneg).
  assert (Cone : forall m x y, cnt k (TCall m (RIncr k 1 x) :: y) = 1 + cnt k y) by (intros; unfold cnt; cbn [filter is_incr]; rewrite beq_refl, zlen_cons; reflexivity).
  split; [split; [apply Cpos|exact Le]|]. split; [|split; [exact Fin|split]].
  - intro Q. apply Z.le_antisymm; [exact Le|]. unfold cnt, increments, zlen. rewrite <- (moments_length _ (begins_increment k)), <- (map_length began (filter _ l)). apply inj_le. apply NoDup_incl_length; [apply moments_nodup|].
    intros m Hm. apply moments_in in Hm. destruct Hm as (e & A & Ie). destruct e as [t o| | |]; try discriminate Ie. destruct o as [| | | | |j d x|]; try discriminate Ie. cbn [begins_increment] in Ie. apply beq_eq in Ie. subst j.
    destruct (Oc m t _ A eq_refl) as [X|[x' X]]; [discriminate X|]. injection X as -> <-.
    destruct (all_over _ _ _ _ _ _ _ Sv m t _ A) as [(z & r & C)|(_ & p & P)]; [|rewrite Q in P; discriminate P].
    apply (in_map began (filter (is_incr k) l) (TCall m (RIncr k 1 x))). apply filter_In. split; [eapply Inl; exact C|]. cbn [is_incr]. apply beq_refl.
  - intros t x m z r C. pose proof (Inl _ _ _ _ _ C) as I1. apply in_split in I1. destruct I1 as (l1 & l2 & El). exists (a + cnt k l1 + 1). split; [eapply At; eassumption|].
    rewrite El, Cadd, Cone. pose proof (Cpos l1). pose proof (Cpos l2). lia.
  - intros t1 x1 m1 z1 i1 t2 x2 m2 z2 i2 C1 C2 Ne. pose proof (Inl _ _ _ _ _ C1) as I1. pose proof (Inl _ _ _ _ _ C2) as I2.
    destruct (split_two l _ _ (gl_once _ _ _ _ _ _ _ _ L) I1 I2 Ne) as [(Bf & l1 & l2 & l3 & El)|(Bf & l1 & l2 & l3 & El)]; cbn [began] in Bf.
    + pose proof (At _ _ _ _ _ _ _ C1 El) as E1. assert (E2 : Ok (RInt i2) = Ok (RInt (a + cnt k (l1 ++ TCall m1 (RIncr k 1 x1) :: l2) + 1))) by (eapply At; [exact C2|]; rewrite El, <- app_assoc; reflexivity).
      injection E1 as ->. injection E2 as ->. rewrite Cadd, Cone. pose proof (Cpos l1). pose proof (Cpos l2). split; [lia|intros _; lia].
    + pose proof (At _ _ _ _ _ _ _ C2 El) as E2. assert (E1 : Ok (RInt i1) = Ok (RInt (a + cnt k (l1 ++ TCall m2 (RIncr k 1 x2) :: l2) + 1))) by (eapply At; [exact C1|]; rewrite El, <- app_assoc; reflexivity).
      injection E1 as ->. injection E2 as ->. rewrite Cadd, Cone. pose proof (Cpos l1). pose proof (Cpos l2). split; [lia|]. intro Lt. exfalso.
      apply (before_once (map began l) m1 m2); [apply L| |exact Bf]. apply (gl_order _ _ _ _ _ _ _ _ L m1 z1 m2); [right; eexists _, _, _; exact C1|exact Lt|]. apply (in_map began) in I2. exact I2.
Qed.
Print Assumptions C82_every_increment_counts.

(** ** Runs for the examples *)
Inductive gchoice := HBegin (t : nat) (o : rop) | HCall (t : nat) | HReturn (t : nat) | HTime (d : Z).
Section GRuns.
Context {ST : Type}.
Variable step : ST -> op -> ST * outcome result.
Variable later : ST -> Z -> ST.
Variable pn sn : list node.
Definition gchoose (v : pool_state ST) (a : gchoice) : option (pool_state ST) :=
  match a with
  | HBegin t o => match g_now v t with
      | None => Some (mkG (g_world v) (set_now (g_now v) t (Some (o, rp_prog pn sn o))) (g_log v ++ [GBegin t o]))
      | _ => None end
  | HCall t => match g_now v t with
      | Some (o, Call sv c k) => let wr := server_call step (g_world v) sv c in Some (mkG (fst wr) (set_now (g_now v) t (Some (o, k (snd wr)))) (g_log v ++ [GCall t sv c (snd wr)]))
      | _ => None end
  | HReturn t => match g_now v t with
      | Some (o, Ret r) => Some (mkG (g_world v) (set_now (g_now v) t None) (g_log v ++ [GReturn t o r]))
      | _ => None end
  | HTime d => if 0 <=? d then Some (mkG (fun n => later (g_world v n) d) (g_now v) (g_log v ++ [GTime d])) else None
  end.
Fixpoint gchosen (v : pool_state ST) (l : list gchoice) : option (pool_state ST) :=
  match l with [] => Some v | a :: l' => match gchoose v a with Some u => gchosen u l' | None => None end end.
Lemma gchosen_ok : forall l v0 v u, gchosen v l = Some u -> gsteps step later pn sn v0 v -> gsteps step later pn sn v0 u.
Proof.
  induction l as [|a l IH]; intros v0 v u H Sv; cbn in H; [injection H as <-; exact Sv|]. destruct (gchoose v a) as [x|] eqn:E; [|discriminate H]. eapply IH; [exact H|]. eapply g_step; [exact Sv|]. clear IH H.
  destruct a as [t o|t|t|d]; cbn [gchoose] in E.
  - destruct (g_now v t) eqn:N; [discriminate E|]. injection E as <-. apply G_begin. exact N.
  - destruct (g_now v t) as [[o [r|sv c k]]|] eqn:N; try discriminate E. injection E as <-. apply (G_call step later pn sn v t o sv c k N).
  - destruct (g_now v t) as [[o [r|sv c k]]|] eqn:N; try discriminate E. injection E as <-. apply G_return. exact N.
  - destruct (0 <=? d) eqn:D; [|discriminate E]. injection E as <-. apply G_time. apply Z.leb_le. exact D.
Qed.
End GRuns.
Lemma gsteps_ext : forall ST (step : ST -> op -> ST * outcome result) later pn sn pn' sn' v u, (forall o, rp_prog pn sn o = rp_prog pn' sn' o) ->
  gsteps step later pn sn v u -> gsteps step later pn' sn' v u.
Proof.
  intros ST step later pn sn pn' sn' v u E H. induction H as [|v u t H IH St]; [constructor|]. eapply g_step; [exact IH|].
  destruct St; [rewrite E; apply G_begin; assumption|eapply G_call; eassumption|apply G_return; assumption|apply G_time; assumption].
Qed.
Definition ab_pool (w : world link) (l : list gchoice) : option (pool_state link) := gchosen meta_server link_tick (one sv_a) (one sv_b) (pool_fresh w) l.
Lemma gran : forall w l (P : pool_state link -> Prop), match ab_pool w l with Some v => P v | None => False end ->
  exists v, gsteps meta_server link_tick prim_a sec_b (pool_fresh w) v /\ P v.
Proof.
  intros w l P H. destruct (ab_pool w l) as [v|] eqn:E; [|contradiction]. exists v. split; [|exact H].
  eapply gsteps_ext; [intro o; symmetry; apply prog_one|]. eapply gchosen_ok; [exact E|constructor].
Qed.
Ltac each_turn m A := destruct m as [|m]; [unfold gat in A; cbn in A; try discriminate A|first [solve [destruct m; discriminate A]|each_turn m A]].
Lemma counter_good : forall n, 0 <= n < 2 ^ 62 -> good_world n ([sv_a] ++ [sv_b]) (counter_world None).
Proof.
  intros n Hn. destruct (counter_world_ok None Logic.I) as ([now G] & _). exists now. intros sv Is. destruct (G sv Is) as (c & h & E & W & Nc & Cc). exists c, h. split; [exact E|]. split; [exact W|]. split; [exact Nc|].
  unfold counter_world in E. apply (f_equal l_cache) in E. cbn [fresh_link l_cache] in E. rewrite <- E. cbn [Cache.put c_cas empty_cache]. lia.
Qed.
Lemma counter_large : as_large [sv_a] [sv_b] (counter_world None).
Proof. intros p s _ _. unfold counter_world. cbn. lia. Qed.

(** The full statement: without the exception for Increment and Decrement. *)
Definition C82_linearizable : Prop := forall ps ss pn sn w v,
  two_rings ps ss pn sn -> good_world (3 * Z.of_nat (length (g_log v))) (ps ++ ss) w -> as_large ps ss w -> plain_calls (g_log v) ->
  gsteps meta_server link_tick pn sn (pool_fresh w) v -> exists l, linearizable pn sn w v ps l.
(** Goroutine 0 increments x from 1 to 2. Goroutine 1 gets 2, deletes x. Goroutine 0 does not find x and returns
    ItemNotFound: but before the Increment counted x was 1. *)
Definition vanishing : list gchoice :=
  [HBegin 0 (RIncr (B "x") 1 0); HCall 0; HBegin 1 (RGet (B "x")); HCall 1; HReturn 1; HBegin 1 (RDelete (B "x")); HCall 1; HCall 1; HReturn 1; HCall 0; HReturn 0].
Theorem C82_counter_vanishes_refuted : ~ C82_linearizable.
Proof.
  intro H.
  assert (X : exists v, gsteps meta_server link_tick prim_a sec_b (pool_fresh (counter_world None)) v /\
    (g_log v = [GBegin 0 (RIncr (B "x") 1 0); GCall 0 sv_a (OIncr (B "x") 1 0) (Ok (RInt 2)); GBegin 1 (RGet (B "x"));
       GCall 1 sv_a (OGet (B "x")) (Ok (RItem (mkItem (B "x") (B "2") (Some (be 4 0)) (-1) 2 []))); GReturn 1 (RGet (B "x")) (Ok (RItem (mkItem (B "x") (B "2") (Some (be 4 0)) (-1) 2 [])));
       GBegin 1 (RDelete (B "x")); GCall 1 sv_a (ODelete (B "x")) (Ok RUnit); GCall 1 sv_b (ODelete (B "x")) (Ok RUnit); GReturn 1 (RDelete (B "x")) (Ok RUnit);
       GCall 0 sv_a (OGet (B "x")) (Err ENotFound); GReturn 0 (RIncr (B "x") 1 0) (Err ENotFound)])).
  { apply (gran _ vanishing). set (r := ab_pool _ _). vm_compute in r. subst r. cbn [g_log]. vm_compute. reflexivity. }
  destruct X as (v & Sv & Lg).
  assert (G : good_world (3 * Z.of_nat (length (g_log v))) ([sv_a] ++ [sv_b]) (counter_world None)) by (rewrite Lg; apply counter_good; cbn [length]; lia).
  assert (Pl : plain_calls (g_log v)).
  { rewrite Lg. intros m t o A. each_turn m A; injection A as <- <-; (split; [|exact Logic.I]); [apply legal_incr_x|exact legal_x|exact legal_x]. }
  destruct (H [sv_a] [sv_b] prim_a sec_b (counter_world None) v rings_a_b G counter_large Pl Sv) as (l & (Nd & Rq & Wt & Cl & Od) & Ans & _).
  assert (C0 : called (g_log v) 0 (RIncr (B "x") 1 0) 0 10 (Err ENotFound)).
  { rewrite Lg. split; [lia|]. split; [reflexivity|]. split; [reflexivity|]. intros x e Rx A. each_turn x A; try lia; injection A as <-; reflexivity. }
  assert (C1 : called (g_log v) 1 (RGet (B "x")) 2 4 (Ok (RItem (mkItem (B "x") (B "2") (Some (be 4 0)) (-1) 2 [])))).
  { rewrite Lg. split; [lia|]. split; [reflexivity|]. split; [reflexivity|]. intros x e Rx A. each_turn x A; try lia; injection A as <-; reflexivity. }
  assert (C2 : called (g_log v) 1 (RDelete (B "x")) 5 8 (Ok RUnit)).
  { rewrite Lg. split; [lia|]. split; [reflexivity|]. split; [reflexivity|]. intros x e Rx A. each_turn x A; try lia; injection A as <-; reflexivity. }
  pose proof (Cl _ _ _ _ _ C0) as I0. pose proof (Cl _ _ _ _ _ C2) as I2.
  assert (Bf : before (map began l) 2 5) by (apply (Od 2%nat 4%nat 5%nat); [right; eexists _, _, _; exact C1|lia|apply (in_map began) in I2; exact I2]).
  pose proof (Ans _ _ _ _ _ C0) as A0. pose proof (Ans _ _ _ _ _ C1) as A1.
  destruct l as [|e l]; [exact I0|]. inversion Nd as [|? ? Ne Nl]; subst.
  assert (Only : forall m r, In (m, r) (snd (in_turn prim_a sec_b (counter_world None) (e :: l))) -> m = began e -> forall o, e = TCall m o -> r = snd (exec meta_server (rp_prog (one sv_a) (one sv_b) o) (counter_world None))).
  { intros m r I' Q o Eo. subst e. cbn [in_turn snd] in I'. destruct I' as [I'|I']; [injection I' as <-; rewrite prog_one; reflexivity|]. apply in_turn_moments in I'. contradiction. }
  destruct e as [m o|m d].
  - destruct (Rq m o (or_introl eq_refl)) as [t A]. rewrite Lg in A. each_turn m A; injection A as <- <-.
    + specialize (Only _ _ A0 eq_refl _ eq_refl). vm_compute in Only. discriminate Only.
    + specialize (Only _ _ A1 eq_refl _ eq_refl). vm_compute in Only. discriminate Only.
    + destruct Bf as (l1 & l2 & l3 & E). destruct l1 as [|y l1]; cbn [app map began] in E; [discriminate E|]. injection E as <- E. apply Ne. cbn [began]. rewrite E. apply in_or_app. right. right. apply in_or_app. right. left. reflexivity.
  - assert (A : gat (g_log v) m (GTime d)) by (apply Wt; left; reflexivity). rewrite Lg in A. each_turn m A.
Qed.
Print Assumptions C82_counter_vanishes_refuted.

(** Goroutines 0 and 1 increment x, goroutine 2 gets it between the two calls of the second. *)
Definition counting : list gchoice :=
  [HBegin 0 (RIncr (B "x") 1 0); HBegin 1 (RIncr (B "x") 1 0); HCall 1; HTime 3; HCall 0; HBegin 2 (RGet (B "x")); HCall 1; HCall 2; HReturn 2; HCall 0; HCall 0; HCall 1; HReturn 1; HReturn 0].
Example C82_met : two_rings [sv_a] [sv_b] prim_a sec_b /\ as_large [sv_a] [sv_b] (counter_world None) /\ is_number prim_a (counter_world None) (B "x") 1
  /\ exists v, gsteps meta_server link_tick prim_a sec_b (pool_fresh (counter_world None)) v
     /\ good_world (3 * Z.of_nat (length (g_log v))) ([sv_a] ++ [sv_b]) (counter_world None) /\ plain_calls (g_log v) /\ only_counted (B "x") (g_log v)
     /\ 1 + zlen (g_log v) < 2 ^ 63 /\ increments (B "x") (g_log v) = 2 /\ all_returned v
     /\ called (g_log v) 0 (RIncr (B "x") 1 0) 0 13 (Ok (RInt 3)) /\ called (g_log v) 1 (RIncr (B "x") 1 0) 1 12 (Ok (RInt 2)).
Proof.
  split; [apply rings_a_b|]. split; [apply counter_large|]. split; [eexists; split; [rewrite held_a; vm_compute; reflexivity|split; vm_compute; reflexivity]|].
  assert (X : exists v, gsteps meta_server link_tick prim_a sec_b (pool_fresh (counter_world None)) v /\
    ((forall t, g_now v t = None) /\ match g_log v with [e0; e1; e2; e3; e4; e5; e6; e7; e8; e9; e10; e11; e12; e13] =>
       (e0 = GBegin 0 (RIncr (B "x") 1 0) /\ e1 = GBegin 1 (RIncr (B "x") 1 0) /\ e5 = GBegin 2 (RGet (B "x")) /\ e3 = GTime 3 /\ e12 = GReturn 1 (RIncr (B "x") 1 0) (Ok (RInt 2)) /\ e13 = GReturn 0 (RIncr (B "x") 1 0) (Ok (RInt 3)))
       /\ exists r, e8 = GReturn 2 (RGet (B "x")) r /\ forall e, In e [e2; e4; e6; e7; e9; e10; e11] -> exists t sv o r, e = GCall t sv o r
     | _ => False end)).
  { apply (gran _ counting). set (r := ab_pool _ _). vm_compute in r. subst r. cbn [g_log g_now]. split.
    - intros [|[|[|t]]]; reflexivity.
    - split; [repeat split; reflexivity|]. eexists. split; [reflexivity|]. intros e H. repeat (destruct H as [<-|H]; [eexists _, _, _, _; reflexivity|]). destruct H. }
  destruct X as (v & Sv & Dn & Lg). exists v. split; [exact Sv|].
  destruct (g_log v) as [|e0 [|e1 [|e2 [|e3 [|e4 [|e5 [|e6 [|e7 [|e8 [|e9 [|e10 [|e11 [|e12 [|e13 [|]]]]]]]]]]]]]]] eqn:El; try contradiction Lg.
  destruct Lg as ((-> & -> & -> & -> & -> & ->) & r8 & -> & Cs).
  destruct (Cs e2 ltac:(cbn; tauto)) as (? & ? & ? & ? & ->). destruct (Cs e4 ltac:(cbn; tauto)) as (? & ? & ? & ? & ->). destruct (Cs e6 ltac:(cbn; tauto)) as (? & ? & ? & ? & ->). destruct (Cs e7 ltac:(cbn; tauto)) as (? & ? & ? & ? & ->).
  destruct (Cs e9 ltac:(cbn; tauto)) as (? & ? & ? & ? & ->). destruct (Cs e10 ltac:(cbn; tauto)) as (? & ? & ? & ? & ->). destruct (Cs e11 ltac:(cbn; tauto)) as (? & ? & ? & ? & ->). clear Cs El.
  split; [apply counter_good; cbn [length]; lia|]. split; [|split].
  - intros m t o A. each_turn m A; injection A as <- <-; (split; [|exact Logic.I]); [apply legal_incr_x|apply legal_incr_x|exact legal_x].
  - intros m t o A K. each_turn m A; injection A as <- <-; [right; eexists; reflexivity|right; eexists; reflexivity|left; reflexivity].
  - split; [vm_compute; reflexivity|]. split; [vm_compute; reflexivity|]. split; [exact Dn|].
    split; (split; [lia|]; split; [reflexivity|]; split; [reflexivity|]; intros y e Ry A; each_turn y A; try lia; injection A as <-; reflexivity).
Qed.
