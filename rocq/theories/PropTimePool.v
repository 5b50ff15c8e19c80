(** * C98: a SinglePool shared by goroutines while time passes at any moment. *)
From Verif Require Import GoBytes GoNum GoIO Item ClientText ClientMeta ClientBinary Cache Daemon Spec Call Guard Ring RingSpec Pool PoolSpec.
From Verif Require Import PLib RingData PDaemon PStream PCache PText PClient PropClient PropReply PReply PropWriter PLifecycle PropLifecycle Conc PropConc PropHandler PRing PropRing PPool PMulti PropPool PoolConc PropPoolConc TimeConc PropTimeConc TimePool.
Local Open Scope nat_scope.

(** ** One server *)
Section OneServer.
Variable name : bytes.
Let cl : client := client_of PText name.
(** [c0]: the state the effects so far lead to; [mk t]: what the call of goroutine [t] is to return. *)
Definition local (s : cstate) (c0 : cache) (mk : nat -> option (outcome result)) : Prop :=
  match cs_lock s with
  | None => quiet c0 (cs_header s) s
  | Some t => (forall u, u <> t -> th_pc (cs_threads s u) = Idle) /\ exists o rq, current (cs_threads s t) = [o] /\ text_req o = Ok rq /\ cs_cache s = c0 /\
      match mk t with
      | None => cs_pending s ++ cs_out s ++ left_of (cs_threads s t) = rq /\ cs_buf s = [] /\ cs_in s = []
      | Some r => cs_pending s = [] /\ cs_out s = [] /\ left_of (cs_threads s t) = [] /\ cl_resp cl o (cs_buf s ++ cs_in s) = (r, [])
      end
  end.
Lemma local_holder : forall s c0 mk t, local s c0 mk -> th_pc (cs_threads s t) <> Idle -> cs_lock s = Some t.
Proof.
  intros s c0 mk t Q N. unfold local in Q. destruct (cs_lock s) as [u|].
  - destruct Q as [Q _]. destruct (Nat.eq_dec t u) as [->|D]; [reflexivity|]. elim N. apply Q. exact D.
  - elim N. apply Q.
Qed.
Lemma local_mk : forall s c0 mk mk', (forall t, cs_lock s = Some t -> mk' t = mk t) -> local s c0 mk -> local s c0 mk'.
Proof. intros s c0 mk mk' E Q. unfold local in *. destruct (cs_lock s) as [t|]; [|exact Q]. rewrite (E t eq_refl). exact Q. Qed.
Lemma local_enter : forall s c0 mk t o, cs_threads s t = resting -> local s c0 mk -> local (enter s t o) c0 mk.
Proof.
  intros s c0 mk t o Th Q. assert (Pc : forall u, th_pc (set_thread (cs_threads s) t (mkThread Idle [o]) u) = th_pc (cs_threads s u)).
  { intro u. destruct (Nat.eq_dec u t) as [->|D]; [rewrite set_same, Th; reflexivity|rewrite set_other by exact D; reflexivity]. }
  unfold local, quiet in *. cbn [enter cs_lock cs_threads cs_header cs_out cs_pending cs_cache cs_in cs_buf]. destruct (cs_lock s) as [u|].
  - destruct Q as (Qi & o' & rq & Co & Q). split; [intros v D; rewrite Pc; apply Qi; exact D|]. exists o', rq.
    assert (D : u <> t) by (intros ->; rewrite Th in Co; discriminate Co). rewrite set_other by exact D. split; [exact Co|exact Q].
  - destruct Q as [Qi Q]. split; [intro v; rewrite Pc; apply Qi|exact Q].
Qed.
Lemma local_aged : forall s c0 mk d, local s c0 mk -> local (aged s d) (tick c0 d) mk.
Proof.
  intros s c0 mk d Q. unfold local, quiet in *. cbn [aged cs_lock cs_threads cs_header cs_out cs_pending cs_cache cs_in cs_buf]. destruct (cs_lock s) as [u|].
  - destruct Q as (Qi & o & rq & Co & Rq & Ec & Q). split; [exact Qi|]. exists o, rq. rewrite Ec. repeat (split; [assumption || reflexivity|]). exact Q.
  - destruct Q as (Qi & Qo & Qp & Qb & Qn & Qc & Qh). rewrite Qc. repeat split; assumption.
Qed.
Lemma lock_kept : forall s s' t, cstep cl s s' -> cs_log s' = cs_log s -> cs_lock s = Some t -> cs_lock s' = Some t.
Proof.
  intros s s' t S L E. destruct S; cbn [cs_lock cs_log] in *; try assumption; try congruence; exfalso; exact (log_longer _ _ (eq_sym L)).
Qed.
(** A step inside: nothing for the specification, or the effect of the call under way. *)
Lemma local_step : forall s s' c0 mk h, local s c0 mk -> cstep cl s s' -> cs_log s' = cs_log s ->
  (cs_lock s = None -> forall t, pending_of (cs_threads s t) <> [] -> mk t = None) ->
  (forall t o, cs_lock s = Some t -> current (cs_threads s t) = [o] -> legal PText o) -> wf PText c0 -> (c_cas c0 < 2 ^ 64)%Z ->
  local s' c0 mk
  \/ exists t o r, cs_lock s = Some t /\ current (cs_threads s t) = [o] /\ mk t = None
       /\ call cl (fresh_link c0 h) o = (fresh_link (fst (spec_step PText name c0 o)) h, r)
       /\ forall mk', mk' t = Some r -> local s' (fst (spec_step PText name c0 o)) mk'.
Proof.
  intros s s' c0 mk h Q S Lg Nm Lo W C. pose proof (fun t => local_holder s c0 mk t Q) as Ho.
  destruct S as [s t o os rq Lk0 Th Rq|s t o a b os Th|s t o os Th|s a b Eo|s c' r rest Ed|s a b Ei|s t o os r rest Th Ed N|s d Lk0 Eo Ep].
  - (* lock *) left. unfold local in Q. rewrite Lk0 in Q. destruct Q as (Qi & Qo & Qp & Qb & Qn & Qc & Qh). unfold local. cbn [cs_lock cs_threads cs_header cs_out cs_pending cs_cache cs_in cs_buf].
    split; [intros v D; rewrite set_other by exact D; apply Qi|]. exists o, rq. rewrite set_same. split; [reflexivity|]. split; [exact Rq|]. split; [exact Qc|].
    rewrite (Nm Lk0 t) by (rewrite Th; discriminate). cbn [left_of th_pc]. rewrite Qo, Qp. repeat split; assumption.
  - (* send *) left. pose proof (Ho t ltac:(rewrite Th; discriminate)) as Lt. unfold local in Q |- *. cbn [cs_lock cs_threads cs_header cs_out cs_pending cs_cache cs_in cs_buf]. rewrite Lt in Q |- *.
    destruct Q as (Qi & o' & rq & Co & Rq & Ec & Q). split; [intros v D; rewrite set_other by exact D; apply Qi; exact D|]. exists o', rq. rewrite set_same. rewrite Th in Co, Q. split; [exact Co|]. split; [exact Rq|]. split; [exact Ec|].
    cbn [left_of th_pc] in *. destruct (mk t) as [r|].
    + destruct Q as (Qp & Qo & Ql & Qr). apply app_eq_nil in Ql. destruct Ql as [-> ->]. rewrite Qo. repeat split; assumption.
    + destruct Q as (Qq & Q). split; [|exact Q]. rewrite <- Qq, <- !app_assoc. reflexivity.
  - (* sent *) left. pose proof (Ho t ltac:(rewrite Th; discriminate)) as Lt. unfold local in Q |- *. cbn [cs_lock cs_threads cs_header cs_out cs_pending cs_cache cs_in cs_buf]. rewrite Lt in Q |- *.
    destruct Q as (Qi & o' & rq & Co & Rq & Ec & Q). split; [intros v D; rewrite set_other by exact D; apply Qi; exact D|]. exists o', rq. rewrite set_same. rewrite Th in Co, Q. split; [exact Co|]. split; [exact Rq|]. split; [exact Ec|exact Q].
  - (* net out *) left. unfold local, quiet in Q |- *. cbn [cs_lock cs_threads cs_header cs_out cs_pending cs_cache cs_in cs_buf]. destruct (cs_lock s) as [t|].
    + destruct Q as (Qi & o' & rq & Co & Rq & Ec & Q). split; [exact Qi|]. exists o', rq. split; [exact Co|]. split; [exact Rq|]. split; [exact Ec|]. destruct (mk t) as [r|].
      * destruct Q as (Qp & Qo & Q). rewrite Qo in Eo. symmetry in Eo. apply app_eq_nil in Eo. destruct Eo as [-> ->]. rewrite Qp. split; [reflexivity|]. split; [reflexivity|exact Q].
      * destruct Q as (Qq & Q). split; [|exact Q]. rewrite <- Qq, Eo, <- !app_assoc. reflexivity.
    + destruct Q as (Qi & Qo & Qp & Qb & Qn & Qc & Qh). rewrite Qo in Eo. symmetry in Eo. apply app_eq_nil in Eo. destruct Eo as [-> ->]. rewrite Qp. repeat split; assumption.
  - (* daemon *) assert (Dd : cs_pending s <> []) by (intro X; rewrite X in Ed; pose proof (daemon_step_shrink _ _ _ _ _ _ Ed) as Y; cbn in Y; lia).
    pose proof Q as Q'. unfold local in Q'. destruct (cs_lock s) as [t|] eqn:Lt; [|exfalso; apply Dd, Q'].
    destruct Q' as (Qi & o & rq & Co & Rq & Ec & Q'). destruct (mk t) as [r0|] eqn:Em; [exfalso; apply Dd, Q'|]. destruct Q' as (Qq & Qb & Qn).
    pose proof (Lo t o eq_refl Co) as Ll. right.
    destruct (text_call_ok name c0 h o W C Ll) as (out & Ca & _).
    assert (D1 : exists c1 r1, daemon_step WireAscii c0 rq = Some (c1, r1, [])) by (rewrite <- (app_nil_r rq); do 2 eexists; apply text_step; eassumption).
    destruct D1 as (c1 & r1 & D1). cbn [cl client_of text_client cl_wire] in Ed. rewrite Ec in Ed.
    pose proof (daemon_step_more _ _ _ _ _ _ (cs_out s ++ left_of (cs_threads s t)) Ed) as D2. rewrite Qq, D1 in D2. injection D2 as -> -> D2. symmetry in D2.
    apply app_eq_nil in D2. destruct D2 as [-> D2]. apply app_eq_nil in D2. destruct D2 as [D2 D3].
    exists t, o, out. split; [reflexivity|]. split; [exact Co|]. split; [exact Em|]. split; [exact Ca|].
    assert (E : c' = fst (spec_step PText name c0 o) /\ cl_resp cl o r = (out, [])).
    { unfold call, fresh_link in Ca. cbn [text_client cl_req cl_wire fst snd l_header l_cache l_pending l_unread app] in Ca. rewrite Rq, (daemon_one _ _ _ _ _ D1) in Ca.
      pose proof (f_equal (fun x => l_cache (fst x)) Ca) as X1. pose proof (f_equal (fun x => l_unread (fst x)) Ca) as X2. pose proof (f_equal snd Ca) as X3. cbn [fst snd l_cache l_unread] in X1, X2, X3.
      split; [exact X1|]. rewrite (surjective_pairing (cl_resp cl o r)). f_equal; [exact X3|exact X2]. }
    destruct E as [E1 E2]. intros mk' Em'. unfold local. cbn [cs_lock cs_threads cs_header cs_out cs_pending cs_cache cs_in cs_buf]. rewrite ?Lt. split; [exact Qi|]. exists o, rq. split; [exact Co|]. split; [exact Rq|]. split; [exact E1|].
    rewrite Em', Qb, Qn. repeat split; assumption.
  - (* net in *) left. unfold local, quiet in Q |- *. cbn [cs_lock cs_threads cs_header cs_out cs_pending cs_cache cs_in cs_buf]. destruct (cs_lock s) as [t|].
    + destruct Q as (Qi & o' & rq & Co & Rq & Ec & Q). split; [exact Qi|]. exists o', rq. split; [exact Co|]. split; [exact Rq|]. split; [exact Ec|]. destruct (mk t) as [r|].
      * destruct Q as (Qp & Qo & Ql & Q). rewrite <- app_assoc, <- Ei. repeat split; assumption.
      * destruct Q as (Qq & Qb & Qn). rewrite Qn in Ei. symmetry in Ei. apply app_eq_nil in Ei. destruct Ei as [-> ->]. rewrite Qb. repeat split; assumption.
    + destruct Q as (Qi & Qo & Qp & Qb & Qn & Qc & Qh). rewrite Qn in Ei. symmetry in Ei. apply app_eq_nil in Ei. destruct Ei as [-> ->]. rewrite Qb. repeat split; assumption.
  - exfalso. cbn [cs_log] in Lg. exact (log_longer _ _ (eq_sym Lg)).
  - exfalso. cbn [cs_log] in Lg. exact (log_longer _ _ (eq_sym Lg)).
Qed.
Lemma local_end : forall s s' c0 mk t o r, local s c0 mk -> cstep cl s s' -> cs_log s' = cs_log s ++ [LDone t o r] ->
  cs_lock s = Some t /\ mk t = Some r /\ cs_lock s' = None /\ forall mk', local s' c0 mk'.
Proof.
  intros s s' c0 mk t o r Q S Lg. pose proof (fun t => local_holder s c0 mk t Q) as Ho.
  destruct S as [s ? ? ? ? _ _ _|s ? ? ? ? ? _|s ? ? ? _|s ? ? _|s ? ? ? _|s ? ? _|s t' o' os r' rest Th Ed N|s d _ _ _]; cbn [cs_log] in Lg; try (exfalso; exact (log_longer _ _ Lg)); try (apply app_inv_head in Lg; discriminate Lg).
  apply app_inv_head in Lg. injection Lg as -> -> ->. pose proof (Ho t ltac:(rewrite Th; discriminate)) as Lt. unfold local in Q. rewrite Lt in Q.
  destruct Q as (Qi & o' & rq & Co & Rq & Ec & Q). rewrite Th in Co, Q. cbn [current th_pc left_of] in Co, Q. injection Co as <-. destruct (mk t) as [r0|].
  - destruct Q as (Qp & Qo & _ & Q). pose proof (C17_cut_reply_is_an_error_or_complete PText name o (cs_buf s) (cs_in s) r rest Ed N : cl_resp cl o (cs_buf s ++ cs_in s) = _) as Er.
    rewrite Q in Er. injection Er as -> Er. symmetry in Er. apply app_eq_nil in Er. destruct Er as [-> Ei].
    split; [exact Lt|]. split; [reflexivity|]. split; [reflexivity|]. intro mk'. unfold local, quiet. cbn [cs_lock cs_threads cs_header cs_out cs_pending cs_cache cs_in cs_buf].
    split; [intro v; destruct (Nat.eq_dec v t) as [->|D]; [rewrite set_same; reflexivity|rewrite set_other by exact D; apply Qi; exact D]|]. repeat split; assumption.
  - destruct Q as (_ & Qb & _). exfalso. apply N. rewrite Qb in Ed. pose proof (silence_is_an_error PText name o) as X. fold cl in X. rewrite Ed in X. exact X.
Qed.
End OneServer.

(** ** Counting the effects *)
Definition begins (L : list vevent) : Z := zlen (flat_map (fun e => match e with VBegin _ _ _ => [e] | _ => [] end) L).
Lemma answers_app : forall a b, answers (a ++ b) = answers a ++ answers b.
Proof. intros. apply flat_map_app. Qed.
Lemma effects_app : forall a b, effects (a ++ b) = effects a ++ effects b.
Proof. intros. apply flat_map_app. Qed.
Lemma without_app : forall a b, without_effects (a ++ b) = without_effects a ++ without_effects b.
Proof. intros. apply flat_map_app. Qed.
Definition weight (m : mevent) : Z := match m with Effect _ _ _ _ => 1 | Logged (VBegin _ _ _) => -1 | _ => 0 end.
Fixpoint balance (M : list mevent) : Z := match M with [] => 0 | m :: M' => weight m + balance M' end.
Lemma balance_split : forall t M, balance M = (balance (filter (of_goroutine t) M) + balance (filter (fun m => negb (of_goroutine t m)) M))%Z.
Proof. intros t M. induction M as [|m M IH]; [reflexivity|]. cbn [filter balance]. destruct (of_goroutine t m); cbn [negb balance]; lia. Qed.
Lemma in_turn_balance : forall t l, in_turn t l -> (balance l <= 0)%Z.
Proof. intros t l H. induction H; cbn [balance weight]; lia. Qed.
Lemma filter_comm : forall A (f g : A -> bool) l, filter f (filter g l) = filter g (filter f l).
Proof. intros A f g l. induction l as [|x l IH]; [reflexivity|]. cbn [filter]. destruct (g x) eqn:G, (f x) eqn:F; cbn [filter]; rewrite ?F, ?G, IH; reflexivity. Qed.
Lemma filter_le : forall A (f : A -> bool) l, length (filter f l) <= length l.
Proof. intros A f l. induction l as [|x l IH]; cbn [filter length]; [lia|]. destruct (f x); cbn [length]; lia. Qed.
Definition whose (m : mevent) : option nat := match m with Logged (VBegin u _ _) | Logged (VEnd u _ _ _) | Effect u _ _ _ => Some u | _ => None end.
Lemma turns_balance : forall n M, length M <= n -> (forall t, (balance (filter (of_goroutine t) M) <= 0)%Z) -> (balance M <= 0)%Z.
Proof.
  induction n as [|n IH]; intros M Hn H; [destruct M; [cbn; lia|cbn in Hn; lia]|]. destruct M as [|m M]; [cbn; lia|]. cbn [length] in Hn. destruct (whose m) as [t|] eqn:Wh.
  - rewrite (balance_split t). pose proof (H t) as Ht. set (R := filter (fun x => negb (of_goroutine t x)) (m :: M)) in *.
    assert (Om : of_goroutine t m = true) by (destruct m as [[? ? ?|? ? ? ?|?]|? ? ? ?]; cbn in *; try discriminate; injection Wh as ->; apply Nat.eqb_refl).
    assert (HR : (balance R <= 0)%Z); [|lia]. apply IH.
    + unfold R. cbn [filter]. rewrite Om. cbn [negb]. pose proof (filter_le _ (fun x => negb (of_goroutine t x)) M). lia.
    + intro u. unfold R. rewrite filter_comm. destruct (Nat.eq_dec u t) as [->|D].
      * assert (E : forall l, filter (fun x => negb (of_goroutine t x)) (filter (of_goroutine t) l) = []) by (induction l as [|x l IHl]; [reflexivity|]; cbn [filter]; destruct (of_goroutine t x) eqn:X; cbn [filter]; rewrite ?X; exact IHl).
        rewrite E. cbn. lia.
      * assert (E : forall l, filter (fun x => negb (of_goroutine t x)) (filter (of_goroutine u) l) = filter (of_goroutine u) l).
        { induction l as [|x l IHl]; [reflexivity|]. cbn [filter]. destruct (of_goroutine u x) eqn:X; [|exact IHl]. cbn [filter]. assert (Y : of_goroutine t x = false).
          { destruct x as [[? ? ?|? ? ? ?|?]|? ? ? ?]; cbn in *; try reflexivity; apply Nat.eqb_eq in X; subst; apply Nat.eqb_neq; exact D. }
          rewrite Y. cbn [negb]. rewrite IHl. reflexivity. }
        rewrite E. apply H.
  - cbn [balance]. assert (E : forall u, of_goroutine u m = false) by (intro u; destruct m as [[? ? ?|? ? ? ?|?]|? ? ? ?]; cbn in *; try discriminate; reflexivity).
    assert (weight m = 0%Z) by (destruct m as [[? ? ?|? ? ? ?|?]|? ? ? ?]; cbn in *; try discriminate; reflexivity).
    specialize (IH M ltac:(lia)). assert (K : (balance M <= 0)%Z); [|lia]. apply IH. intro u. specialize (H u). cbn [filter] in H. rewrite E in H. exact H.
Qed.
Lemma balance_counts : forall M, (zlen (answers M) - zlen (without_effects M) <= balance M)%Z.
Proof.
  intro M. induction M as [|m M IH]; [cbn; lia|]. destruct m as [[? ? ?|? ? ? ?|?]|? ? ? ?]; cbn [answers without_effects flat_map app balance weight];
    fold (answers M); fold (without_effects M); unfold zlen in *; cbn [length]; lia.
Qed.
Lemma effects_are_few : forall L M, each_call_at_one_moment L M -> (zlen (answers M) <= zlen L)%Z.
Proof.
  intros L M [<- T]. pose proof (balance_counts M). pose proof (turns_balance (length M) M ltac:(lia) (fun t => in_turn_balance t _ (T t))). lia.
Qed.

(** ** The pool *)
Definition closed (t : nat) (x : list mevent) : Prop := forall y, in_turn t y -> in_turn t (x ++ y).
Lemma closed_turn : forall t x, closed t x -> in_turn t x.
Proof. intros t x H. rewrite <- (app_nil_r x). apply H. constructor. Qed.
Lemma closed_call : forall t x j o r, closed t x -> closed t (x ++ [Logged (VBegin t j o); Effect t j o r; Logged (VEnd t j o r)]).
Proof. intros t x j o r H y Y. rewrite <- app_assoc. apply H. cbn [app]. apply it_call. exact Y. Qed.
Lemma filter_snoc : forall A (f : A -> bool) l x, filter f (l ++ [x]) = filter f l ++ (if f x then [x] else []).
Proof. intros. rewrite filter_app. cbn [filter]. destruct (f x); reflexivity. Qed.

Section InTime.
Variables (name : nat -> bytes) (c : nat -> cache) (h : nat -> req_header) (progs : nat -> prog).
Let cl (j : nat) : client := client_of PText (name j).
Let start : nat -> link := fun j => fresh_link (c j) (h j).
Notation after := (world_after (fun _ => PText) name).
Definition mine (t : nat) (M : list mevent) : list mevent := filter (of_goroutine t) M.
Definition goroutine_at (p : pstate) (M : list mevent) (mk : nat -> option (outcome result)) (t : nat) : Prop :=
  match ps_at p t with
  | None => mk t = None /\ (forall j, cs_threads (ps_server p j) t = resting) /\ makes (progs t) (made_by t (effects M)) (ps_prog p t) /\ closed t (mine t M)
  | Some (j, k) => (forall i, i <> j -> cs_threads (ps_server p i) t = resting) /\ exists o x, pending_of (cs_threads (ps_server p j) t) = [o] /\ legal PText o /\ closed t x /\
      match mk t with
      | None => makes (progs t) (made_by t (effects M)) (Then j o k) /\ mine t M = x ++ [Logged (VBegin t j o)]
      | Some r => makes (progs t) (made_by t (effects M)) (k r) /\ mine t M = x ++ [Logged (VBegin t j o); Effect t j o r] /\ cs_lock (ps_server p j) = Some t
      end
  end.
Definition vinv (v : pstate * list vevent) : Prop :=
  let p := fst v in
  exists M mk cw, without_effects M = snd v /\ explained cl start (effects M) /\ (forall j, after start (effects M) j = fresh_link (cw j) (h j))
    /\ (forall j, wf PText (cw j) /\ (c_cas (cw j) <= c_cas (c j) + zlen (answers M))%Z)
    /\ (forall t, goroutine_at p M mk t) /\ (forall j, local (name j) (ps_server p j) (cw j) mk).
Lemma turns : forall p M mk, (forall t, goroutine_at p M mk t) -> forall t, in_turn t (mine t M).
Proof.
  intros p M mk G t. specialize (G t). unfold goroutine_at in G. destruct (ps_at p t) as [[j k]|].
  - destruct G as (_ & o & x & _ & _ & Cx & G). destruct (mk t) as [r|].
    + destruct G as (_ & -> & _). apply Cx. constructor.
    + destruct G as (_ & ->). apply Cx. constructor.
  - apply closed_turn, G.
Qed.
Hypothesis legal_progs : forall t l j o k, makes (progs t) l (Then j o k) -> legal PText o.

Lemma vinv_begin : forall p L t j o k, vinv (p, L) -> ps_at p t = None -> ps_prog p t = Then j o k ->
  vinv (mkP (put_at (ps_server p) j (enter (ps_server p j) t o)) (put_at (ps_at p) t (Some (j, k))) (put_at (ps_prog p) t Stop) (ps_log p), L ++ [VBegin t j o]).
Proof.
  intros p L t j o k (M & mk & cw & El & Ex & Aw & Wc & G & Lc) At Pg. cbn [fst snd] in *.
  pose proof (G t) as Gt. unfold goroutine_at in Gt. rewrite At in Gt. destruct Gt as (Mt & Rt & Mk & Ct). rewrite Pg in Mk.
  assert (Ef : effects (M ++ [Logged (VBegin t j o)]) = effects M) by (rewrite effects_app; cbn; apply app_nil_r).
  assert (An : answers (M ++ [Logged (VBegin t j o)]) = answers M) by (rewrite answers_app; cbn; apply app_nil_r).
  exists (M ++ [Logged (VBegin t j o)]), mk, cw. cbn [fst snd]. rewrite Ef, An. split; [rewrite without_app, El; reflexivity|]. split; [exact Ex|]. split; [exact Aw|]. split; [exact Wc|]. split.
  - intro u. unfold goroutine_at. cbn [ps_server ps_at ps_prog]. rewrite Ef. unfold mine. rewrite filter_snoc. cbn [of_goroutine]. destruct (Nat.eq_dec u t) as [->|D].
    + rewrite put_same, Nat.eqb_refl. split; [intros i Di; rewrite put_other by exact Di; apply Rt|]. exists o, (mine t M). rewrite put_same. cbn [enter cs_threads]. rewrite set_same. split; [reflexivity|].
      split; [exact (legal_progs _ _ _ _ _ Mk)|]. split; [exact Ct|]. rewrite Mt. split; [exact Mk|reflexivity].
    + rewrite !put_other by exact D. rewrite (proj2 (Nat.eqb_neq t u)) by congruence. rewrite app_nil_r. fold (mine u M).
      assert (Same : forall i, cs_threads (put_at (ps_server p) j (enter (ps_server p j) t o) i) u = cs_threads (ps_server p i) u).
      { intro i. destruct (Nat.eq_dec i j) as [->|Di]; [rewrite put_same; cbn [enter cs_threads]; apply set_other; exact D|rewrite put_other by exact Di; reflexivity]. }
      assert (Lk : forall i, cs_lock (put_at (ps_server p) j (enter (ps_server p j) t o) i) = cs_lock (ps_server p i)).
      { intro i. destruct (Nat.eq_dec i j) as [->|Di]; [rewrite put_same; reflexivity|rewrite put_other by exact Di; reflexivity]. }
      specialize (G u). unfold goroutine_at in G. destruct (ps_at p u) as [[i k']|].
      * destruct G as (G1 & o' & x & G2 & G3). split; [intros i' Di; rewrite Same; apply G1; exact Di|]. exists o', x. rewrite Same, Lk. split; [exact G2|exact G3].
      * destruct G as (G0 & G1 & G2). split; [exact G0|]. split; [intro i; rewrite Same; apply G1|exact G2].
  - intro i. cbn [ps_server]. destruct (Nat.eq_dec i j) as [->|Di]; [rewrite put_same; apply local_enter; [apply Rt|apply Lc]|rewrite put_other by exact Di; apply Lc].
Qed.
Lemma vinv_time : forall p L d, vinv (p, L) -> (0 <= d)%Z -> vinv (mkP (fun j => aged (ps_server p j) d) (ps_at p) (ps_prog p) (ps_log p), L ++ [VTime d]).
Proof.
  intros p L d (M & mk & cw & El & Ex & Aw & Wc & G & Lc) D. cbn [fst snd] in *.
  exists (M ++ [Logged (VTime d)]), mk, (fun j => tick (cw j) d). cbn [fst snd]. split; [rewrite without_app, El; reflexivity|].
  assert (Ef : effects (M ++ [Logged (VTime d)]) = effects M ++ [PTick d]) by (rewrite effects_app; reflexivity).
  assert (An : answers (M ++ [Logged (VTime d)]) = answers M) by (rewrite answers_app; cbn; apply app_nil_r).
  rewrite Ef, An. split; [apply (proj2 (explained_app (fun _ => PText) name c h progs _ _ _)); split; [exact Ex|exact Logic.I]|]. split; [|split; [|split]].
  - intro j. rewrite (world_after_app (fun _ => PText) name). cbn [world_after]. unfold world_tick. rewrite Aw. reflexivity.
  - intro j. destruct (Wc j) as [W C]. split; [apply wf_tick; assumption|exact C].
  - intro t. pose proof (G t) as Gt. unfold goroutine_at, mine in *. rewrite Ef, made_by_app, filter_snoc. cbn [of_goroutine ps_at ps_prog ps_server aged cs_threads cs_lock made_by flat_map]. rewrite !app_nil_r. exact Gt.
  - intro j. cbn [ps_server]. apply local_aged. apply Lc.
Qed.
Lemma vinv_end : forall p L j t o r k s', vinv (p, L) -> cstep (cl j) (ps_server p j) s' -> cs_log s' = cs_log (ps_server p j) ++ [LDone t o r] -> ps_at p t = Some (j, k) ->
  vinv (mkP (put_at (ps_server p) j s') (put_at (ps_at p) t None) (put_at (ps_prog p) t (k r)) (ps_log p ++ [PDone j t o r]), L ++ [VEnd t j o r]).
Proof.
  intros p L j t o r k s' (M & mk & cw & El & Ex & Aw & Wc & G & Lc) S Lg At. cbn [fst snd] in *.
  destruct (local_end (name j) _ _ _ _ _ _ _ (Lc j) S Lg) as (Lk & Mr & Lk' & Lc').
  destruct (cstep_return _ _ _ _ _ _ S Lg) as (os & Pd & Td).
  pose proof (G t) as Gt. unfold goroutine_at in Gt. rewrite At, Mr in Gt. destruct Gt as (Rt & o' & x & Pt & Lo & Cx & Mk & Mx & _).
  rewrite Pt in Pd. injection Pd as -> <-.
  assert (Ef : effects (M ++ [Logged (VEnd t j o r)]) = effects M) by (rewrite effects_app; cbn; apply app_nil_r).
  assert (An : answers (M ++ [Logged (VEnd t j o r)]) = answers M) by (rewrite answers_app; cbn; apply app_nil_r).
  set (mk' := fun u => if Nat.eqb u t then None else mk u).
  exists (M ++ [Logged (VEnd t j o r)]), mk', cw. cbn [fst snd]. rewrite Ef, An. split; [rewrite without_app, El; reflexivity|]. split; [exact Ex|]. split; [exact Aw|]. split; [exact Wc|]. split.
  - intro u. unfold goroutine_at. cbn [ps_server ps_at ps_prog]. rewrite Ef. unfold mine. rewrite filter_snoc. cbn [of_goroutine]. unfold mk'. destruct (Nat.eq_dec u t) as [->|D].
    + rewrite !put_same, Nat.eqb_refl. split; [reflexivity|]. split; [|split; [exact Mk|]].
      * intro i. destruct (Nat.eq_dec i j) as [->|Di]; [rewrite put_same; exact Td|rewrite put_other by exact Di; apply Rt; exact Di].
      * fold (mine t M). rewrite Mx, <- app_assoc. cbn [app]. apply closed_call. exact Cx.
    + rewrite !put_other by exact D. rewrite (proj2 (Nat.eqb_neq t u)) by congruence. rewrite (proj2 (Nat.eqb_neq u t)) by congruence. rewrite app_nil_r. fold (mine u M).
      assert (Rs : forall i, cs_threads (ps_server p i) u = resting -> cs_threads (put_at (ps_server p) j s' i) u = resting).
      { intros i E. destruct (Nat.eq_dec i j) as [->|Di]; [rewrite put_same; exact (cstep_resting _ _ _ _ S E)|rewrite put_other by exact Di; exact E]. }
      specialize (G u). unfold goroutine_at in G. destruct (ps_at p u) as [[i k']|].
      * destruct G as (G1 & o' & y & G2 & G3 & G4 & G5). split; [intros i' Di; apply Rs, G1; exact Di|]. exists o', y. split; [|split; [exact G3|split; [exact G4|]]].
        -- destruct (Nat.eq_dec i j) as [->|Di]; [rewrite put_same, (cstep_pending _ _ _ u S); [exact G2|right; exists t, o, r; split; [congruence|exact Lg]]|rewrite put_other by exact Di; exact G2].
        -- destruct (mk u) as [r'|]; [|exact G5]. destruct G5 as (G5 & G6 & G7). split; [exact G5|]. split; [exact G6|].
           destruct (Nat.eq_dec i j) as [->|Di]; [exfalso; rewrite Lk in G7; injection G7 as X; congruence|rewrite put_other by exact Di; exact G7].
      * destruct G as (G0 & G1 & G2). split; [exact G0|]. split; [intro i; apply Rs, G1|exact G2].
  - intro i. cbn [ps_server]. destruct (Nat.eq_dec i j) as [->|Di]; [rewrite put_same; apply Lc'|rewrite put_other by exact Di].
    apply (local_mk _ _ _ mk); [|apply Lc]. intros u Lu. unfold mk'. destruct (Nat.eqb_spec u t) as [->|_]; [|reflexivity]. exfalso.
    specialize (Lc i). unfold local in Lc. rewrite Lu, (Rt i Di) in Lc. destruct Lc as (_ & o' & rq & Co & _). discriminate Co.
Qed.
Lemma vinv_inside : forall p L j s', vinv (p, L) -> (c_cas (c j) + zlen L < 2 ^ 64)%Z -> cstep (cl j) (ps_server p j) s' -> cs_log s' = cs_log (ps_server p j) ->
  vinv (mkP (put_at (ps_server p) j s') (ps_at p) (ps_prog p) (ps_log p), L).
Proof.
  intros p L j s' (M & mk & cw & El & Ex & Aw & Wc & G & Lc) Lz S Lg. cbn [fst snd] in *.
  assert (Few : (zlen (answers M) <= zlen L)%Z) by (apply effects_are_few; split; [exact El|exact (turns _ _ _ G)]).
  assert (Rs : forall u i, cs_threads (ps_server p i) u = resting -> cs_threads (put_at (ps_server p) j s' i) u = resting).
  { intros u i E. destruct (Nat.eq_dec i j) as [->|Di]; [rewrite put_same; exact (cstep_resting _ _ _ _ S E)|rewrite put_other by exact Di; exact E]. }
  assert (Pn : forall u i, pending_of (cs_threads (put_at (ps_server p) j s' i) u) = pending_of (cs_threads (ps_server p i) u)).
  { intros u i. destruct (Nat.eq_dec i j) as [->|Di]; [rewrite put_same; exact (cstep_pending _ _ _ u S (or_introl Lg))|rewrite put_other by exact Di; reflexivity]. }
  assert (Kp : forall u i, cs_lock (ps_server p i) = Some u -> cs_lock (put_at (ps_server p) j s' i) = Some u).
  { intros u i E. destruct (Nat.eq_dec i j) as [->|Di]; [rewrite put_same; exact (lock_kept (name j) _ _ _ S Lg E)|rewrite put_other by exact Di; exact E]. }
  assert (Here : forall t o, pending_of (cs_threads (ps_server p j) t) = [o] -> exists k, ps_at p t = Some (j, k)).
  { intros t o E. specialize (G t). unfold goroutine_at in G. destruct (ps_at p t) as [[i k]|].
    - destruct (Nat.eq_dec i j) as [->|Di]; [exists k; reflexivity|]. destruct G as (G & _). rewrite (G j) in E by congruence. discriminate E.
    - destruct G as (_ & G & _). rewrite (G j) in E. discriminate E. }
  assert (Cur : forall t o, current (cs_threads (ps_server p j) t) = [o] -> pending_of (cs_threads (ps_server p j) t) = [o]).
  { intros t o E. assert (N : pending_of (cs_threads (ps_server p j) t) <> []) by (unfold pending_of; rewrite E; discriminate). specialize (G t). unfold goroutine_at in G.
    assert (Sg : exists o', pending_of (cs_threads (ps_server p j) t) = [o']).
    { destruct (ps_at p t) as [[i k]|].
      - destruct (Nat.eq_dec i j) as [->|Di]; [destruct G as (_ & o' & _ & G & _); exists o'; exact G|]. destruct G as (G & _). rewrite (G j) in N by congruence. elim N. reflexivity.
      - destruct G as (_ & G & _). rewrite (G j) in N. elim N. reflexivity. }
    destruct Sg as (o' & Sg). rewrite Sg. unfold pending_of in Sg. rewrite E in Sg. cbn [app] in Sg. injection Sg as -> _. reflexivity. }
  destruct (Wc j) as [Wj Cj].
  destruct (local_step (name j) (ps_server p j) s' (cw j) mk (h j) (Lc j) S Lg) as [Q|(t & o & r & Lk & Co & Mt & Ca & Q)]; [| |exact Wj|lia| |].
  - intros Ln t N. specialize (G t). unfold goroutine_at in G. destruct (ps_at p t) as [[i k]|].
    + destruct (Nat.eq_dec i j) as [->|Di].
      * destruct G as (_ & o & x & _ & _ & _ & G). destruct (mk t) as [r|]; [|reflexivity]. destruct G as (_ & _ & G). congruence.
      * destruct G as (G & _). rewrite (G j) in N by congruence. elim N. reflexivity.
    + apply G.
  - intros t o Lk Co. apply Cur in Co. destruct (Here t o Co) as (k & At). specialize (G t). unfold goroutine_at in G. rewrite At in G. destruct G as (_ & o' & x & Pe & Lo & _). rewrite Co in Pe. injection Pe as ->. exact Lo.
  - exists M, mk, cw. cbn [fst snd ps_server]. split; [exact El|]. split; [exact Ex|]. split; [exact Aw|]. split; [exact Wc|]. split.
    + intro u. specialize (G u). unfold goroutine_at in *. cbn [ps_server ps_at ps_prog]. destruct (ps_at p u) as [[i k]|].
      * destruct G as (G1 & o & x & G2 & G3 & G4 & G5). split; [intros i' Di; apply Rs, G1; exact Di|]. exists o, x. rewrite Pn. split; [exact G2|]. split; [exact G3|]. split; [exact G4|].
        destruct (mk u) as [r|]; [|exact G5]. destruct G5 as (G5 & G6 & G7). split; [exact G5|]. split; [exact G6|apply Kp; exact G7].
      * destruct G as (G0 & G1 & G2). split; [exact G0|]. split; [intro i; apply Rs, G1|exact G2].
    + intro i. destruct (Nat.eq_dec i j) as [->|Di]; [rewrite put_same; exact Q|rewrite put_other by exact Di; apply Lc].
  - (* the effect *) pose proof (Cur t o Co) as Pe. destruct (Here t o Pe) as (k & At).
    set (mk' := fun u => if Nat.eqb u t then Some r else mk u). set (c1 := fst (spec_step PText (name j) (cw j) o)) in *.
    assert (Ef : effects (M ++ [Effect t j o r]) = effects M ++ [PDone j t o r]) by (rewrite effects_app; reflexivity).
    assert (An : answers (M ++ [Effect t j o r]) = answers M ++ [r]) by (rewrite answers_app; reflexivity).
    pose proof (G t) as Gt. unfold goroutine_at in Gt. rewrite At, Mt in Gt. destruct Gt as (Rt & o' & x & Pt & Lo & Cx & Mk & Mx). rewrite Pe in Pt. injection Pt as <-.
    exists (M ++ [Effect t j o r]), mk', (put_at cw j c1). cbn [fst snd ps_server]. rewrite Ef, An. split; [rewrite without_app, El; cbn; apply app_nil_r|].
    split; [|split; [|split; [|split]]].
    + apply (proj2 (explained_app (fun _ => PText) name c h progs _ _ _)). split; [exact Ex|]. cbn [explained]. split; [|exact Logic.I]. rewrite Aw. exact (f_equal snd Ca).
    + intro i. rewrite (world_after_app (fun _ => PText) name). cbn [world_after]. destruct (Nat.eq_dec i j) as [->|Di]; [rewrite !put_same, Aw; exact (f_equal fst Ca)|rewrite !put_other by exact Di; apply Aw].
    + intro i. rewrite zlen_app. unfold zlen at 2. cbn [length]. destruct (Nat.eq_dec i j) as [->|Di].
      * rewrite put_same. split; [apply wf_spec_step; assumption|]. pose proof (cas_spec_step PText (name j) (cw j) o). unfold c1. lia.
      * rewrite put_other by exact Di. destruct (Wc i). split; [assumption|lia].
    + intro u. unfold goroutine_at. cbn [ps_server ps_at ps_prog]. rewrite Ef, made_by_app. unfold mine. rewrite filter_snoc. cbn [of_goroutine made_by flat_map]. rewrite app_nil_r. unfold mk'. destruct (Nat.eq_dec u t) as [->|D].
      * rewrite Nat.eqb_refl, At. split; [intros i Di; apply Rs, Rt; exact Di|]. exists o, x. rewrite Pn. split; [exact Pe|]. split; [exact Lo|]. split; [exact Cx|].
        split; [apply makes_snoc; exact Mk|]. split; [|apply Kp; exact Lk]. fold (mine t M). rewrite Mx, <- app_assoc. reflexivity.
      * rewrite (proj2 (Nat.eqb_neq t u)) by congruence. rewrite (proj2 (Nat.eqb_neq u t)) by congruence. rewrite !app_nil_r. fold (mine u M). specialize (G u). unfold goroutine_at in G. destruct (ps_at p u) as [[i k']|].
        -- destruct G as (G1 & o2 & y & G2 & G3 & G4 & G5). split; [intros i' Di; apply Rs, G1; exact Di|]. exists o2, y. rewrite Pn. split; [exact G2|]. split; [exact G3|]. split; [exact G4|].
           destruct (mk u) as [r'|]; [|exact G5]. destruct G5 as (G5 & G6 & G7). split; [exact G5|]. split; [exact G6|apply Kp; exact G7].
        -- destruct G as (G0 & G1 & G2). split; [exact G0|]. split; [intro i; apply Rs, G1|exact G2].
    + intro i. destruct (Nat.eq_dec i j) as [->|Di].
      * rewrite !put_same. apply Q. unfold mk'. rewrite Nat.eqb_refl. reflexivity.
      * rewrite !put_other by exact Di. apply (local_mk _ _ _ mk); [|apply Lc]. intros u Lu. unfold mk'. destruct (Nat.eqb_spec u t) as [->|_]; [|reflexivity]. exfalso.
        specialize (Lc i). unfold local in Lc. rewrite Lu, (Rt i Di) in Lc. destruct Lc as (_ & o' & rq & C' & _). discriminate C'.
Qed.
Lemma vinv_steps : forall v, vsteps cl (pool_started c h progs, []) v -> (forall j, wf PText (c j) /\ (c_cas (c j) + zlen (snd v) < 2 ^ 64)%Z) -> vinv v.
Proof.
  intros v S. remember (pool_started c h progs, @nil vevent) as v0 eqn:E0. induction S as [v|v u w S IH St]; intro Hc; subst v.
  - exists [], (fun _ => None), c. cbn. split; [reflexivity|]. split; [exact Logic.I|]. split; [reflexivity|]. split; [intro j; destruct (Hc j); split; [assumption|lia]|]. split.
    + intro t. unfold goroutine_at. cbn. split; [reflexivity|]. split; [intro j; reflexivity|]. split; [constructor|]. intros y Y. exact Y.
    + intro j. unfold local, quiet. cbn. repeat split; reflexivity.
  - assert (Sh : forall L e, snd w = L ++ [e] -> snd u = L -> vinv u).
    { intros L e E1 E2. apply IH; [reflexivity|]. intro j. destruct (Hc j) as [W C]. split; [exact W|]. rewrite E1, zlen_app in C. unfold zlen at 2 in C. cbn [length] in C. rewrite E2. lia. }
    destruct St as [p L t j o k At Pg|p L j s' S' Lg|p L j t o r k s' S' Lg At|p L d D]; cbn [snd] in *.
    + apply vinv_begin; [eapply Sh; reflexivity|exact At|exact Pg].
    + apply vinv_inside; [apply IH; [reflexivity|exact Hc]|apply Hc|exact S'|exact Lg].
    + eapply vinv_end; [eapply Sh; reflexivity|exact S'|exact Lg|exact At].
    + apply vinv_time; [eapply Sh; reflexivity|exact D].
Qed.
End InTime.

(** ** C98 *)
(** Goroutines calling any methods of a pool of text servers (also Flush and GetMulti, which make one call
    of each server); every step of theirs, of the network and of the daemons interleaved in any order, and
    time passing at any moment: each call of a server takes effect at one moment between its beginning
    and its end, and the effects, one after the other, explain all results. *)
Theorem C98_server_calls_take_effect_at_one_moment : forall name c h progs p L,
  vsteps (fun j => client_of PText (name j)) (pool_started c h progs, []) (p, L) ->
  (forall t l j o k, makes (progs t) l (Then j o k) -> legal PText o) ->
  (forall j, wf PText (c j) /\ (c_cas (c j) + zlen L < 2 ^ 64)%Z) ->
  exists M, each_call_at_one_moment L M
    /\ explained (fun j => client_of PText (name j)) (fun j => fresh_link (c j) (h j)) (effects M)
    /\ forall t, exists rest, makes (progs t) (made_by t (effects M)) rest.
Proof.
  intros name c h progs p L S Lp Hc. destruct (vinv_steps name c h progs Lp (p, L) S Hc) as (M & mk & cw & El & Ex & _ & _ & G & _). cbn [fst snd] in *.
  exists M. split; [split; [exact El|exact (turns _ _ _ _ G)]|]. split; [exact Ex|]. intro t. specialize (G t). unfold goroutine_at in G. destruct (ps_at p t) as [[j k]|].
  - destruct G as (_ & o & x & _ & _ & _ & G). destruct (mk t) as [r|]; eexists; apply G.
  - eexists. apply G.
Qed.
Print Assumptions C98_server_calls_take_effect_at_one_moment.

Lemma pevents_effects : forall M, pevents (effects M) = history M.
Proof. intro M. induction M as [|[[? ? ?|? ? ? ?|?]|? ? ? ?] M IH]; cbn [effects history flat_map app pevents map]; [reflexivity|exact IH|exact IH|f_equal; exact IH|f_equal; exact IH]. Qed.
Lemma presults_effects : forall M, presults (effects M) = answers M.
Proof. intro M. induction M as [|[[? ? ?|? ? ? ?|?]|? ? ? ?] M IH]; cbn [effects answers flat_map app presults]; [reflexivity|exact IH|exact IH|exact IH|f_equal; exact IH]. Qed.
Lemma history_is_short : forall L M, each_call_at_one_moment L M -> (zlen (history M) <= zlen L)%Z.
Proof.
  intros L M [<- T]. pose proof (turns_balance (length M) M ltac:(lia) (fun t => in_turn_balance t _ (T t))) as Bl.
  assert (K : (zlen (history M) - zlen (without_effects M) <= balance M)%Z); [|lia]. clear. induction M as [|m M IH]; [cbn; lia|].
  destruct m as [[? ? ?|? ? ? ?|?]|? ? ? ?]; cbn [history without_effects flat_map app balance weight]; fold (history M); fold (without_effects M); unfold zlen in *; cbn [length]; lia.
Qed.
Lemma calls_each_legal : forall nodes ops l j o k, Forall (legal PText) ops -> makes (calls_each nodes ops) l (Then j o k) -> legal PText o.
Proof.
  intros nodes ops l j o k F M. pose proof (makes_snoc _ _ _ _ _ (Ok RUnit) M) as M'. destruct (calls_each_makes _ _ _ _ M') as [[more E] _].
  rewrite Forall_forall in F. apply F. rewrite E, map_app. cbn [map fst snd]. apply in_app_iff. left. apply in_app_iff. right. left. reflexivity.
Qed.
Lemma effects_legal : forall L M, without_effects M = L -> (forall d, In (VTime d) L -> (0 <= d)%Z) -> (forall t j o r, In (Effect t j o r) M -> legal PText o) -> Forall (legal_event PText) (history M).
Proof.
  intros L M <- T Lo. induction M as [|m M IH]; [constructor|]. destruct m as [[? ? ?|? ? ? ?|d]|t j o r]; cbn [history without_effects flat_map app] in *; fold (history M); fold (without_effects M) in *.
  - apply IH; intros; [apply T; right; assumption|eapply Lo; right; eassumption].
  - apply IH; intros; [apply T; right; assumption|eapply Lo; right; eassumption].
  - constructor; [apply T; left; reflexivity|]. apply IH; intros; [apply T; right; assumption|eapply Lo; right; eassumption].
  - constructor; [eapply Lo; left; reflexivity|]. apply IH; intros; [apply T; assumption|eapply Lo; right; eassumption].
Qed.
Lemma times_forward : forall cl v0 v, vsteps cl v0 v -> snd v0 = [] -> forall d, In (VTime d) (snd v) -> (0 <= d)%Z.
Proof.
  intros cl v0 v S E. induction S as [v|v u w S IH St]; intros d I; [rewrite E in I; destruct I|]. specialize (IH E).
  destruct St; cbn [snd] in *; try (apply in_app_iff in I; destruct I as [I|[I|[]]]; [apply IH; exact I|]); try discriminate I; [apply IH; exact I|]. injection I as <-. assumption.
Qed.
Lemma calls_in_order : forall cl nodes c h ops v, vsteps cl (pool_started c h (fun t => calls_each nodes (ops t)), []) v ->
  forall t, exists more, ops t = begun t (snd v) ++ more /\ match ps_at (fst v) t with None => ps_prog (fst v) t = calls_each nodes more | Some (_, k) => forall r, k r = calls_each nodes more end.
Proof.
  intros cl nodes c h ops v S. remember (pool_started c h (fun t => calls_each nodes (ops t)), @nil vevent) as v0 eqn:E0. induction S as [v|v u w S IH St]; subst v; intro t.
  - exists (ops t). split; reflexivity.
  - destruct (IH eq_refl t) as (more & E & H). destruct St as [p L u j o k At Pg|p L j s' S' Lg|p L j u o r k s' S' Lg At|p L d D]; cbn [fst snd ps_at ps_prog] in *.
    + unfold begun. rewrite flat_map_app. fold (begun t L). cbn [flat_map]. destruct (Nat.eqb_spec u t) as [->|Du].
      * rewrite put_same. rewrite At, Pg in H. destruct more as [|o1 os]; [discriminate H|]. cbn [calls_each] in H. destruct (op_key o1) as [key|]; [|discriminate H]. unfold prog_key in H. destruct (pick nodes key) as [sv|e|]; try discriminate H.
        injection H as -> -> ->. exists os. split; [rewrite E, <- app_assoc; reflexivity|reflexivity].
      * rewrite !put_other by congruence. cbn [app]. rewrite app_nil_r. exists more. split; assumption.
    + exists more. split; assumption.
    + unfold begun. rewrite flat_map_app. fold (begun t L). cbn [flat_map app]. rewrite app_nil_r. destruct (Nat.eq_dec t u) as [->|Du].
      * rewrite !put_same. rewrite At in H. exists more. split; [exact E|apply H].
      * rewrite !put_other by exact Du. exists more. split; assumption.
    + unfold begun. rewrite flat_map_app. fold (begun t L). cbn [flat_map app]. rewrite app_nil_r. exists more. split; assumption.
Qed.

(** Goroutines calling single-key methods of one SinglePool of text servers, time passing at any moment: the
    pool is one cache (PoolSpec.v, C05) on which each call takes effect at one moment between its beginning
    and its end; and each goroutine's calls begin in the order in which it makes them. *)
Theorem C98_shared_pool_is_one_cache_while_time_passes : forall servers nodes name cf now h ops p L,
  good_pool servers nodes -> wf_config cf -> (0 <= now)%Z -> (forall sv, In sv servers -> name (sv_id sv) = sv_name sv) -> (forall t, Forall (legal PText) (ops t)) ->
  vsteps (fun j => client_of PText (name j)) (pool_started (fun _ => empty_cache cf now) h (fun t => calls_each nodes (ops t)), []) (p, L) -> (zlen L < 2 ^ 64)%Z ->
  (exists M ss, each_call_at_one_moment L M /\ one_cache PText (empty_cache cf now) (fun _ => 0%Z) (history M) ss /\ Forall2 matches ss (answers M))
  /\ forall t, exists more, ops t = begun t L ++ more.
Proof.
  intros servers nodes name cf now h ops p L G W N Nm Lo S Lz. split.
  - destruct (C98_server_calls_take_effect_at_one_moment name (fun _ => empty_cache cf now) h _ p L S) as (M & Em & Ex & Mk).
    + intros t l j o k Mm. exact (calls_each_legal _ _ _ _ _ _ (Lo t) Mm).
    + intro j. split; [apply wf_empty; assumption|]. exact Lz.
    + assert (Lh : Forall (legal_event PText) (history M)).
      { apply (effects_legal L); [apply Em|exact (times_forward _ _ _ S eq_refl)|]. intros t j o r I. destruct (Mk t) as [rest Mt]. destruct (calls_each_makes _ _ _ _ Mt) as [[more E] _].
        specialize (Lo t). rewrite Forall_forall in Lo. apply Lo. rewrite E. apply in_app_iff. left. apply (in_map (fun x => snd (fst x)) _ (j, o, r)). unfold made_by. apply in_flat_map. exists (PDone j t o r). rewrite Nat.eqb_refl.
        split; [|left; reflexivity]. unfold effects. apply in_flat_map. eexists. split; [exact I|left; reflexivity]. }
      destruct (C05_pool_of_text_servers_is_one_cache servers nodes cf now (fun i => (name i, fresh_link (empty_cache cf now) (h i))) (history M) (answers M)) as (ss & Oc & Ms); auto.
      * pose proof (history_is_short L M Em). lia.
      * intros sv I. exists (h (sv_id sv)). rewrite Nm by exact I. reflexivity.
      * rewrite <- pevents_effects, <- presults_effects. eapply explained_pool_run; [reflexivity|eapply log_owned; exact Mk|exact Ex].
      * exists M, ss. split; [exact Em|]. split; assumption.
  - intro t. destruct (calls_in_order _ _ _ _ _ _ S t) as (more & E & _). exists more. exact E.
Qed.
Print Assumptions C98_shared_pool_is_one_cache_while_time_passes.

(** The hypotheses are met: goroutine 0 stores an item that expires after ten seconds, goroutine 1 asks for
    it at the same time; twenty seconds pass while its request is under way. *)
Lemma vs_front : forall cl v u w, vstep cl v u -> vsteps cl u w -> vsteps cl v w.
Proof. intros cl v u w S St. induction St as [u|u x w St IH T]; [exact (vs_step _ _ _ _ (vs_refl _ _) S)|]. exact (vs_step _ _ _ _ (IH S) T). Qed.
Lemma i_send : forall cl p L j t o rq os, cs_threads (ps_server p j) t = mkThread (Sending o rq) os -> let s := ps_server p j in
  vstep cl (p, L) (mkP (put_at (ps_server p) j (mkC (cs_lock s) (set_thread (cs_threads s) t (mkThread (Sending o []) os)) (cs_header s) (cs_out s ++ rq) (cs_pending s) (cs_cache s) (cs_in s) (cs_buf s) (cs_log s))) (ps_at p) (ps_prog p) (ps_log p), L).
Proof. intros. apply V_inside; [|reflexivity]. apply (S_send (cl j) (ps_server p j) t o rq [] os). rewrite app_nil_r. assumption. Qed.
Lemma i_sent : forall cl p L j t o os, cs_threads (ps_server p j) t = mkThread (Sending o []) os -> let s := ps_server p j in
  vstep cl (p, L) (mkP (put_at (ps_server p) j (mkC (cs_lock s) (set_thread (cs_threads s) t (mkThread (Waiting o) os)) (cs_header s) (cs_out s) (cs_pending s) (cs_cache s) (cs_in s) (cs_buf s) (cs_log s))) (ps_at p) (ps_prog p) (ps_log p), L).
Proof. intros. apply V_inside; [|reflexivity]. apply S_sent. assumption. Qed.
Lemma i_out : forall cl p L j, let s := ps_server p j in
  vstep cl (p, L) (mkP (put_at (ps_server p) j (mkC (cs_lock s) (cs_threads s) (cs_header s) [] (cs_pending s ++ cs_out s) (cs_cache s) (cs_in s) (cs_buf s) (cs_log s))) (ps_at p) (ps_prog p) (ps_log p), L).
Proof. intros. apply V_inside; [|reflexivity]. apply (S_net_out (cl j) s (cs_out s) []). rewrite app_nil_r. reflexivity. Qed.
Lemma i_daemon : forall cl p L j c' r rest, daemon_step (cl_wire (cl j)) (cs_cache (ps_server p j)) (cs_pending (ps_server p j)) = Some (c', r, rest) -> let s := ps_server p j in
  vstep cl (p, L) (mkP (put_at (ps_server p) j (mkC (cs_lock s) (cs_threads s) (cs_header s) (cs_out s) rest c' (cs_in s ++ r) (cs_buf s) (cs_log s))) (ps_at p) (ps_prog p) (ps_log p), L).
Proof. intros. apply V_inside; [|reflexivity]. apply S_daemon. assumption. Qed.
Lemma i_in : forall cl p L j, let s := ps_server p j in
  vstep cl (p, L) (mkP (put_at (ps_server p) j (mkC (cs_lock s) (cs_threads s) (cs_header s) (cs_out s) (cs_pending s) (cs_cache s) [] (cs_buf s ++ cs_in s) (cs_log s))) (ps_at p) (ps_prog p) (ps_log p), L).
Proof. intros. apply V_inside; [|reflexivity]. apply (S_net_in (cl j) s (cs_in s) []). rewrite app_nil_r. reflexivity. Qed.
Lemma i_lock : forall cl p L j t o os rq, cs_lock (ps_server p j) = None -> cs_threads (ps_server p j) t = mkThread Idle (o :: os) -> fst (cl_req (cl j) (cs_header (ps_server p j)) o) = Ok rq -> let s := ps_server p j in
  vstep cl (p, L) (mkP (put_at (ps_server p) j (mkC (Some t) (set_thread (cs_threads s) t (mkThread (Sending o rq) os)) (snd (cl_req (cl j) (cs_header s) o)) (cs_out s) (cs_pending s) (cs_cache s) (cs_in s) (cs_buf s) (cs_log s))) (ps_at p) (ps_prog p) (ps_log p), L).
Proof. intros. apply V_inside; [|reflexivity]. apply S_lock; assumption. Qed.
Lemma i_end : forall cl p L j t o os k r rest, cs_threads (ps_server p j) t = mkThread (Waiting o) os -> cl_resp (cl j) o (cs_buf (ps_server p j)) = (r, rest) -> r <> Err EIO -> ps_at p t = Some (j, k) -> let s := ps_server p j in
  vstep cl (p, L) (mkP (put_at (ps_server p) j (mkC None (set_thread (cs_threads s) t (mkThread Idle os)) (cs_header s) (cs_out s) (cs_pending s) (cs_cache s) (cs_in s) rest (cs_log s ++ [LDone t o r])))
                       (put_at (ps_at p) t None) (put_at (ps_prog p) t (k r)) (ps_log p ++ [PDone j t o r]), L ++ [VEnd t j o r]).
Proof. intros. apply V_end; [|reflexivity|assumption]. eapply S_done; eassumption. Qed.

Definition storer_and_reader (t : nat) : list op := match t with O => [OSet (demo_item "hello" "one" 7 10 0)] | 1 => [OGet (B "hello")] | _ => [] end.
Ltac vquick tac := eapply vs_front; [tac|]; cbn [ps_server ps_at ps_prog ps_log cs_lock cs_threads cs_header cs_out cs_pending cs_cache cs_in cs_buf cs_log app enter aged put_at Nat.eqb].
Lemma demo_late : forall nodes, pick nodes (B "hello") = Ok sv_b -> exists p r, vsteps (fun j => client_of PText (ab_name j)) (demo_pool (fun t => calls_each nodes (storer_and_reader t)), [])
  (p, [VBegin 0 1 (OSet (demo_item "hello" "one" 7 10 0)); VBegin 1 1 (OGet (B "hello")); VEnd 0 1 (OSet (demo_item "hello" "one" 7 10 0)) (Ok RUnit); VTime 20; VEnd 1 1 (OGet (B "hello")) r])
  /\ r = Err ENotFound.
Proof.
  intros nodes Kh.
  assert (P0 : calls_each nodes (storer_and_reader 0) = Then 1 (OSet (demo_item "hello" "one" 7 10 0)) (fun _ => Stop)).
  { cbn [calls_each storer_and_reader op_key demo_item it_key]. unfold prog_key. rewrite Kh. reflexivity. }
  assert (P1 : calls_each nodes (storer_and_reader 1) = Then 1 (OGet (B "hello")) (fun _ => Stop)).
  { cbn [calls_each storer_and_reader op_key]. unfold prog_key. rewrite Kh. reflexivity. }
  eexists. eexists. split; [|reflexivity]. unfold demo_pool, pool_started, started.
  vquick ltac:(eapply (V_begin _ _ _ 0 1); [reflexivity|exact P0]).
  vquick ltac:(eapply (V_begin _ _ _ 1 1); [reflexivity|exact P1]).
  vquick ltac:(eapply (i_lock _ _ _ 1 0); [reflexivity|reflexivity|vm_compute; reflexivity]).
  vquick ltac:(eapply (i_send _ _ _ 1 0); reflexivity). vquick ltac:(eapply (i_sent _ _ _ 1 0); reflexivity). vquick ltac:(eapply (i_out _ _ _ 1)).
  vquick ltac:(eapply (i_daemon _ _ _ 1); vm_compute; reflexivity). vquick ltac:(eapply (i_in _ _ _ 1)).
  vquick ltac:(eapply (i_end _ _ _ 1 0); [reflexivity|vm_compute; reflexivity|discriminate|reflexivity]).
  vquick ltac:(eapply (i_lock _ _ _ 1 1); [reflexivity|reflexivity|vm_compute; reflexivity]).
  vquick ltac:(eapply (i_send _ _ _ 1 1); reflexivity). vquick ltac:(eapply (i_sent _ _ _ 1 1); reflexivity). vquick ltac:(eapply (i_out _ _ _ 1)).
  vquick ltac:(eapply (V_time _ _ _ 20); lia).
  vquick ltac:(eapply (i_daemon _ _ _ 1); vm_compute; reflexivity). vquick ltac:(eapply (i_in _ _ _ 1)).
  vquick ltac:(eapply (i_end _ _ _ 1 1); [reflexivity|vm_compute; reflexivity|discriminate|reflexivity]). apply vs_refl.
Qed.
Example C98_met : exists p L, vsteps (fun j => client_of PText (ab_name j)) (demo_pool (fun t => calls_each (new_ring [sv_a; sv_b]) (storer_and_reader t)), []) (p, L)
  /\ good_pool [sv_a; sv_b] (new_ring [sv_a; sv_b]) /\ (forall sv, In sv [sv_a; sv_b] -> ab_name (sv_id sv) = sv_name sv) /\ (forall t, Forall (legal PText) (storer_and_reader t))
  /\ In (VTime 20) L /\ In (VEnd 1 1 (OGet (B "hello")) (Err ENotFound)) L.
Proof.
  destruct (demo_late _ (proj1 (proj2 (proj2 C01_met)))) as (p & r & S & ->). eexists. eexists. split; [exact S|]. split; [exact (proj1 C05_met)|].
  split; [intros sv [<-|[<-|[]]]; reflexivity|]. split; [|split; [right; right; right; left; reflexivity|right; right; right; right; left; reflexivity]].
  intros [|[|t]]; [| |constructor]; (constructor; [|constructor]); legal_tac.
Qed.
