(** * C100: many clients of one memcached that speak different protocols, with connections lost at any moment. *)
From Verif Require Import GoBytes GoNum GoIO Item ClientText ClientMeta ClientBinary Cache Daemon Spec Intent Call Guard Exact.
From Verif Require Import PLib PDaemon PStream PCache PText PMeta PBinary PClient PropClient PropExact PropReply PReply PropWriter PLifecycle PropLifecycle Conc PropConc PropHandler PoolConc PropPoolConc TimeConc PropTimeConc ManyConc PropManyConc ManyProto.
Local Open Scope nat_scope.

(** ** What the three protocols have in common *)
Lemma wf_weaken : forall p c, wf PMeta c -> wf p c.
Proof.
  intros p c (W1 & W2 & W3 & W4). repeat (split; [assumption|]). intros k e H. destruct (W4 k e H) as (A1 & A2 & A3 & A4). split; [exact A1|]. split; [destruct p; cbn [flags_bound] in *; lia|]. split; [exact A3|]. intros _. apply A4. reflexivity.
Qed.
Lemma legal_accepted : forall p o, legal p o -> accepted p o.
Proof. intros p o L. destruct p, o; cbn [legal accepted] in *; try exact L; try (apply L). all: destruct L as (K & D & E); specialize (E eq_refl); repeat split; try apply K; lia. Qed.
Lemma whole_reads_all : forall p C c0 o, one_command p o -> (p = PBinary -> match o with OAdd _ | OTouch _ _ => False | OSet i => it_cas i = 0%Z /\ too_large c0 (it_value i) = false | OReplace i => it_cas i = 0%Z | _ => True end) ->
  c_cfg C = c_cfg c0 -> reads_all p C 0 o.
Proof.
  intros p C c0 o On Bn Cf. destruct p; [destruct o; exact Logic.I|destruct o; try exact Logic.I; discriminate On|]. specialize (Bn eq_refl). destruct o; cbn [reads_all]; try exact Logic.I; try contradiction.
  cbn [bin_exact spec_step]. destruct Bn as [Z0 T]. rewrite Z0. cbn [Z.eqb]. unfold cache_set. unfold too_large in *. rewrite Cf, T. reflexivity.
Qed.
Lemma wf_store_common : forall c i, wf PMeta c -> legal_flags PMeta i -> legal_exp PMeta (it_exp i) -> too_large c (it_value i) = false ->
  wf PMeta (put c (it_key i) (it_value i) (item_flags i) (expire_at (c_now c) (it_exp i))).
Proof. intros c i W F E T. apply wf_store; [exact W|exact (item_flags_range _ _ F)|exact E|exact T]. Qed.
Lemma wf_common_delta : forall p up c k d e, wf PMeta c -> (0 <= d)%Z -> legal_exp PMeta e -> wf PMeta (fst (spec_delta p up c k d e)).
Proof.
  intros p up c k d e W D E. unfold spec_delta. destruct p, (lookup c k) eqn:Q; cbn [fst]; try (apply wf_delta; auto; lia).
  apply wf_put; [exact W|destruct W as ((W1 & _) & _); change (zlen (B "1")) with 1%Z; lia|unfold flags_bound; lia|]. intros _. apply expire_bound; [apply W|exact E].
Qed.
Lemma wf_common_spec : forall p name c o, wf PMeta c -> common o -> wf PMeta (fst (spec_step p name c o)).
Proof.
  intros p name c o W Co. destruct o; cbn [spec_step fst]; try exact W.
  - destruct Co as [F E]. destruct (it_cas i =? 0)%Z; unfold cache_set, cache_cas; destruct (too_large c (it_value i)) eqn:T; cbn [fst]; auto using wf_drop.
    + apply wf_store_common; auto.
    + destruct (lookup c (it_key i)) as [x|]; cbn [fst]; auto. destruct (e_cas x =? it_cas i)%Z; cbn [fst]; auto. apply wf_store_common; auto.
  - destruct Co as [F E]. unfold cache_add. destruct (too_large c (it_value i)) eqn:T; cbn [fst]; auto. destruct (lookup c (it_key i)); cbn [fst]; auto. apply wf_store_common; auto.
  - destruct Co as [F E]. unfold cache_replace. destruct (too_large c (it_value i)) eqn:T; cbn [fst]; auto. destruct (lookup c (it_key i)); cbn [fst]; auto. apply wf_store_common; auto.
  - unfold cache_delete. destruct (lookup c k); cbn [fst]; auto using wf_drop.
  - apply wf_common_delta; [exact W|apply Co|apply Co].
  - apply wf_common_delta; [exact W|apply Co|apply Co].
  - apply wf_touch; auto.
  - destruct W as (W1 & W2 & W3 & W4). unfold wf, cache_flush, with_map. cbn. repeat split; try apply W1; try lia; discriminate.
Qed.
Lemma exact_plain : forall p name c o, (p = PMeta -> match o with OGetMulti _ | ODelete _ | OTouch _ _ => False | _ => True end) -> legal p o ->
  (p = PBinary -> match o with OTouch _ _ => False | _ => True end) -> exact_step p name 0 c o = spec_step p name c o.
Proof.
  intros p name c o Mn L Bn. destruct p; cbn [exact_step]; [reflexivity| |].
  - specialize (Mn eq_refl). destruct o; cbn [meta_exact]; try contradiction; reflexivity.
  - specialize (Bn eq_refl). destruct o; cbn [bin_exact legal] in *; try reflexivity; try contradiction.
    + rewrite (proj2 L eq_refl). reflexivity.
    + rewrite (proj2 L eq_refl). reflexivity.
    + destruct L as (_ & _ & L). specialize (L eq_refl). cbn [spec_step]. unfold bin_counter, spec_delta. destruct (lookup c k); [reflexivity|]. rewrite (proj2 (Z.eqb_neq _ _)) by lia. reflexivity.
    + destruct L as (_ & _ & L). specialize (L eq_refl). cbn [spec_step]. unfold bin_counter, spec_delta. destruct (lookup c k); [reflexivity|]. rewrite (proj2 (Z.eqb_neq _ _)) by lia. reflexivity.
Qed.
Lemma wf_common_exact : forall p name c c0 o, whole p c0 o -> common o -> wf PMeta c -> wf PMeta (fst (exact_step p name 0 c o)).
Proof.
  intros p name c c0 o (Ll & On & Bn) Co W. destruct p.
  - apply (wf_common_spec PText); assumption.
  - apply (wf_exact_step PMeta); [exact W|apply legal_accepted; exact Ll].
  - rewrite exact_plain; [apply wf_common_spec; assumption|discriminate|exact Ll|]. intros _. specialize (Bn eq_refl). destruct o; auto.
Qed.
Lemma cfg_common_exact : forall p name c c0 o, whole p c0 o -> c_cfg (fst (exact_step p name 0 c o)) = c_cfg c.
Proof.
  intros p name c c0 o (Ll & On & Bn). destruct p.
  - apply cfg_spec_step.
  - cbn [exact_step]. destruct o; try (apply (cfg_spec_step PMeta [])); try reflexivity.
    + exact (cfg_spec_step PMeta [] c (ODelete k)).
    + cbn [meta_exact fst]. unfold cache_invalidate. destruct (lookup c k); reflexivity.
  - rewrite exact_plain; [apply cfg_spec_step|discriminate|exact Ll|]. intros _. specialize (Bn eq_refl). destruct o; auto.
Qed.
(** The header of the binary client keeps cas number 0. *)
Lemma header_kept : forall p name c0 hd o, whole p c0 o -> rq_cas hd = 0%Z -> rq_cas (snd (cl_req (client_of p name) hd o)) = 0%Z.
Proof.
  intros p name c0 hd o (Ll & On & Bn) Hz. destruct p; [exact Hz|exact Hz|]. cbn [client_of bin_client cl_req]. rewrite bin_req_header, Hz. specialize (Bn eq_refl). destruct o; cbn [next_cas]; try reflexivity; try contradiction; try apply Bn; exact Bn.
Qed.
Lemma step_header : forall p name c0 s s', cstep (client_of p name) s s' -> rq_cas (cs_header s) = 0%Z -> (forall t o, In o (pending_of (cs_threads s t)) -> whole p c0 o) -> rq_cas (cs_header s') = 0%Z.
Proof.
  intros p name c0 s s' S Hz K. destruct S as [s t o os rq Lk0 Th Rq|s t o a b os Th|s t o os Th|s a b Eo|s c' r rest Ed|s a b Ei|s t o os r rest Th Ed N|s d Lk0 Eo Ep]; cbn [cs_header]; try exact Hz.
  eapply header_kept; [|exact Hz]. apply (K t). rewrite Th. left. reflexivity.
Qed.

(** ** One server object *)
Section OneObject.
Variables (p : proto) (name : bytes) (c1 : cache).
Let cl : client := client_of p name.
Definition asks (o : op) (rq : bytes) : Prop := exists hd, rq_cas hd = 0%Z /\ fst (cl_req cl hd o) = Ok rq.
Definition known (C : cache) : Prop := wf p C /\ c_cfg C = c_cfg c1.
Lemma effect : forall C o rq, whole p c1 o -> asks o rq -> known C -> (c_cas C + 1 < 2 ^ 63)%Z ->
  exists r out, daemon_step (cl_wire cl) C rq = Some (fst (exact_step p name 0 C o), r, []) /\ cl_resp cl o r = (out, []) /\ agrees (snd (exact_step p name 0 C o)) out.
Proof.
  intros C o rq (Ll & On & Bn) (hd & Hz & Rq) [W Cf] Cb.
  destruct (exact_call p name C hd o W) as (left & h' & out & Ca & Ag & Re & _ & _); [destruct p; cbn [cas_bound]; lia|apply legal_accepted; exact Ll|rewrite Hz; lia|]. rewrite Hz in *.
  rewrite (Re (whole_reads_all p C c1 o On Bn Cf)) in Ca. destruct (one_step p name hd C o rq Ll On ltac:(rewrite Hz; lia) Rq) as (c' & r & D1). exists r, out.
  unfold call, fresh_link in Ca. cbn [l_header l_cache l_pending l_unread] in Ca. fold cl in Ca, D1, Rq. destruct (cl_req cl hd o) as [rq' h2]. cbn [fst snd] in Rq. subst rq'. cbn [app fst snd] in Ca. rewrite (daemon_one _ _ _ _ _ D1) in Ca. cbn [app] in Ca.
  destruct (cl_resp cl o r) as [out' left'] eqn:Er. cbn [fst snd] in Ca. injection Ca as X1 X2 X3 X4. subst. split; [exact D1|]. split; [reflexivity|exact Ag].
Qed.
(** [c0]: the state the effects so far lead to; [mk t]: what the call of goroutine [t] is to return. *)
Definition local (s : cstate) (c0 : cache) (mk : nat -> option (outcome result)) : Prop :=
  match cs_lock s with
  | None => quiet c0 (cs_header s) s
  | Some t => (forall u, u <> t -> th_pc (cs_threads s u) = Idle) /\ exists o rq, current (cs_threads s t) = [o] /\ asks o rq /\ cs_cache s = c0 /\
      match mk t with
      | None => cs_pending s ++ cs_out s ++ left_of (cs_threads s t) = rq /\ cs_buf s = [] /\ cs_in s = []
      | Some r => cs_pending s = [] /\ cs_out s = [] /\ left_of (cs_threads s t) = [] /\ cl_resp cl o (cs_buf s ++ cs_in s) = (r, [])
      end
  end.
Lemma local_holder : forall s c0 mk t, local s c0 mk -> th_pc (cs_threads s t) <> Idle -> cs_lock s = Some t.
Proof.
  intros s c0 mk t Q N. unfold local in Q. destruct (cs_lock s) as [u|].
  - destruct Q as [Q _]. destruct (Nat.eq_dec t u) as [->|D]; [reflexivity|]. elim N. apply Q. exact D.
  - elim N. apply Q.
Qed.
Lemma local_mk : forall s c0 mk mk', (forall t, cs_lock s = Some t -> mk' t = mk t) -> local s c0 mk -> local s c0 mk'.
Proof. intros s c0 mk mk' E Q. unfold local in *. destruct (cs_lock s) as [t|]; [|exact Q]. rewrite (E t eq_refl). exact Q. Qed.
Lemma local_enter : forall s c0 mk t o, cs_threads s t = resting -> local s c0 mk -> local (enter s t o) c0 mk.
Proof.
  intros s c0 mk t o Th Q. assert (Pc : forall u, th_pc (set_thread (cs_threads s) t (mkThread Idle [o]) u) = th_pc (cs_threads s u)).
  { intro u. destruct (Nat.eq_dec u t) as [->|D]; [rewrite set_same, Th; reflexivity|rewrite set_other by exact D; reflexivity]. }
  unfold local, quiet in *. cbn [enter cs_lock cs_threads cs_header cs_out cs_pending cs_cache cs_in cs_buf]. destruct (cs_lock s) as [u|].
  - destruct Q as (Qi & o' & rq & Co & Q). split; [intros v D; rewrite Pc; apply Qi; exact D|]. exists o', rq.
    assert (D : u <> t) by (intros ->; rewrite Th in Co; discriminate Co). rewrite set_other by exact D. split; [exact Co|exact Q].
  - destruct Q as [Qi Q]. split; [intro v; rewrite Pc; apply Qi|exact Q].
Qed.
Lemma lock_kept : forall s s' t, cstep cl s s' -> cs_log s' = cs_log s -> cs_lock s = Some t -> cs_lock s' = Some t.
Proof.
  intros s s' t S L E. destruct S; cbn [cs_lock cs_log] in *; try assumption; try congruence; exfalso; exact (log_longer _ _ (eq_sym L)).
Qed.
(** A step inside: nothing for the specification, or the effect of the call under way. *)
Lemma local_step : forall s s' c0 mk, local s c0 mk -> cstep cl s s' -> cs_log s' = cs_log s -> rq_cas (cs_header s) = 0%Z ->
  (cs_lock s = None -> forall t, pending_of (cs_threads s t) <> [] -> mk t = None) ->
  (forall t o, cs_lock s = Some t -> current (cs_threads s t) = [o] -> whole p c1 o) -> known c0 -> (c_cas c0 + 1 < 2 ^ 63)%Z ->
  local s' c0 mk
  \/ exists t o r, cs_lock s = Some t /\ current (cs_threads s t) = [o] /\ mk t = None
       /\ agrees (snd (exact_step p name 0 c0 o)) r
       /\ forall mk', mk' t = Some r -> local s' (fst (exact_step p name 0 c0 o)) mk'.
Proof.
  intros s s' c0 mk Q S Lg Hz Nm Lo W C. pose proof (fun t => local_holder s c0 mk t Q) as Ho.
  destruct S as [s t o os rq Lk0 Th Rq|s t o a b os Th|s t o os Th|s a b Eo|s c' r rest Ed|s a b Ei|s t o os r rest Th Ed N|s d Lk0 Eo Ep].
  - (* lock *) left. unfold local in Q. rewrite Lk0 in Q. destruct Q as (Qi & Qo & Qp & Qb & Qn & Qc & Qh). unfold local. cbn [cs_lock cs_threads cs_header cs_out cs_pending cs_cache cs_in cs_buf].
    split; [intros v D; rewrite set_other by exact D; apply Qi|]. exists o, rq. rewrite set_same. split; [reflexivity|]. split; [exists (cs_header s); split; [exact Hz|exact Rq]|]. split; [exact Qc|].
    rewrite (Nm Lk0 t) by (rewrite Th; discriminate). cbn [left_of th_pc]. rewrite Qo, Qp. repeat split; assumption.
  - (* send *) left. pose proof (Ho t ltac:(rewrite Th; discriminate)) as Lt. unfold local in Q |- *. cbn [cs_lock cs_threads cs_header cs_out cs_pending cs_cache cs_in cs_buf]. rewrite Lt in Q |- *.
    destruct Q as (Qi & o' & rq & Co & Rq & Ec & Q). split; [intros v D; rewrite set_other by exact D; apply Qi; exact D|]. exists o', rq. rewrite set_same. rewrite Th in Co, Q. split; [exact Co|]. split; [exact Rq|]. split; [exact Ec|].
    cbn [left_of th_pc] in *. destruct (mk t) as [r|].
    + destruct Q as (Qp & Qo & Ql & Qr). apply app_eq_nil in Ql. destruct Ql as [-> ->]. rewrite Qo. repeat split; assumption.
    + destruct Q as (Qq & Q). split; [|exact Q]. rewrite <- Qq, <- !app_assoc. reflexivity.
  - (* sent *) left. pose proof (Ho t ltac:(rewrite Th; discriminate)) as Lt. unfold local in Q |- *. cbn [cs_lock cs_threads cs_header cs_out cs_pending cs_cache cs_in cs_buf]. rewrite Lt in Q |- *.
    destruct Q as (Qi & o' & rq & Co & Rq & Ec & Q). split; [intros v D; rewrite set_other by exact D; apply Qi; exact D|]. exists o', rq. rewrite set_same. rewrite Th in Co, Q. split; [exact Co|]. split; [exact Rq|]. split; [exact Ec|exact Q].
  - (* net out *) left. unfold local, quiet in Q |- *. cbn [cs_lock cs_threads cs_header cs_out cs_pending cs_cache cs_in cs_buf]. destruct (cs_lock s) as [t|].
    + destruct Q as (Qi & o' & rq & Co & Rq & Ec & Q). split; [exact Qi|]. exists o', rq. split; [exact Co|]. split; [exact Rq|]. split; [exact Ec|]. destruct (mk t) as [r|].
      * destruct Q as (Qp & Qo & Q). rewrite Qo in Eo. symmetry in Eo. apply app_eq_nil in Eo. destruct Eo as [-> ->]. rewrite Qp. split; [reflexivity|]. split; [reflexivity|exact Q].
      * destruct Q as (Qq & Q). split; [|exact Q]. rewrite <- Qq, Eo, <- !app_assoc. reflexivity.
    + destruct Q as (Qi & Qo & Qp & Qb & Qn & Qc & Qh). rewrite Qo in Eo. symmetry in Eo. apply app_eq_nil in Eo. destruct Eo as [-> ->]. rewrite Qp. repeat split; assumption.
  - (* daemon *) assert (Dd : cs_pending s <> []) by (intro X; rewrite X in Ed; pose proof (daemon_step_shrink _ _ _ _ _ _ Ed) as Y; cbn in Y; lia).
    pose proof Q as Q'. unfold local in Q'. destruct (cs_lock s) as [t|] eqn:Lt; [|exfalso; apply Dd, Q'].
    destruct Q' as (Qi & o & rq & Co & Rq & Ec & Q'). destruct (mk t) as [r0|] eqn:Em; [exfalso; apply Dd, Q'|]. destruct Q' as (Qq & Qb & Qn).
    pose proof (Lo t o eq_refl Co) as Ll. right.
    destruct (effect c0 o rq Ll Rq W C) as (r1 & out & D1 & E2 & Ag). rewrite Ec in Ed.
    pose proof (daemon_step_more _ _ _ _ _ _ (cs_out s ++ left_of (cs_threads s t)) Ed) as D2. rewrite Qq, D1 in D2. injection D2 as E1 -> D2. symmetry in E1, D2.
    apply app_eq_nil in D2. destruct D2 as [-> D2]. apply app_eq_nil in D2. destruct D2 as [D2 D3].
    exists t, o, out. split; [reflexivity|]. split; [exact Co|]. split; [exact Em|]. split; [exact Ag|].
    intros mk' Em'. unfold local. cbn [cs_lock cs_threads cs_header cs_out cs_pending cs_cache cs_in cs_buf]. rewrite ?Lt. split; [exact Qi|]. exists o, rq. split; [exact Co|]. split; [exact Rq|]. split; [exact E1|].
    rewrite Em', Qb, Qn. repeat split; assumption.
  - (* net in *) left. unfold local, quiet in Q |- *. cbn [cs_lock cs_threads cs_header cs_out cs_pending cs_cache cs_in cs_buf]. destruct (cs_lock s) as [t|].
    + destruct Q as (Qi & o' & rq & Co & Rq & Ec & Q). split; [exact Qi|]. exists o', rq. split; [exact Co|]. split; [exact Rq|]. split; [exact Ec|]. destruct (mk t) as [r|].
      * destruct Q as (Qp & Qo & Ql & Q). rewrite <- app_assoc, <- Ei. repeat split; assumption.
      * destruct Q as (Qq & Qb & Qn). rewrite Qn in Ei. symmetry in Ei. apply app_eq_nil in Ei. destruct Ei as [-> ->]. rewrite Qb. repeat split; assumption.
    + destruct Q as (Qi & Qo & Qp & Qb & Qn & Qc & Qh). rewrite Qn in Ei. symmetry in Ei. apply app_eq_nil in Ei. destruct Ei as [-> ->]. rewrite Qb. repeat split; assumption.
  - exfalso. cbn [cs_log] in Lg. exact (log_longer _ _ (eq_sym Lg)).
  - exfalso. cbn [cs_log] in Lg. exact (log_longer _ _ (eq_sym Lg)).
Qed.
Lemma local_end : forall s s' c0 mk t o r, local s c0 mk -> cstep cl s s' -> cs_log s' = cs_log s ++ [LDone t o r] ->
  cs_lock s = Some t /\ mk t = Some r /\ cs_lock s' = None /\ forall mk', local s' c0 mk'.
Proof.
  intros s s' c0 mk t o r Q S Lg. pose proof (fun t => local_holder s c0 mk t Q) as Ho.
  destruct S as [s ? ? ? ? _ _ _|s ? ? ? ? ? _|s ? ? ? _|s ? ? _|s ? ? ? _|s ? ? _|s t' o' os r' rest Th Ed N|s d _ _ _]; cbn [cs_log] in Lg; try (exfalso; exact (log_longer _ _ Lg)); try (apply app_inv_head in Lg; discriminate Lg).
  apply app_inv_head in Lg. injection Lg as -> -> ->. pose proof (Ho t ltac:(rewrite Th; discriminate)) as Lt. unfold local in Q. rewrite Lt in Q.
  destruct Q as (Qi & o' & rq & Co & Rq & Ec & Q). rewrite Th in Co, Q. cbn [current th_pc left_of] in Co, Q. injection Co as <-. destruct (mk t) as [r0|].
  - destruct Q as (Qp & Qo & _ & Q). pose proof (C17_cut_reply_is_an_error_or_complete p name o (cs_buf s) (cs_in s) r rest Ed N : cl_resp cl o (cs_buf s ++ cs_in s) = _) as Er.
    rewrite Q in Er. injection Er as -> Er. symmetry in Er. apply app_eq_nil in Er. destruct Er as [-> Ei].
    split; [exact Lt|]. split; [reflexivity|]. split; [reflexivity|]. intro mk'. unfold local, quiet. cbn [cs_lock cs_threads cs_header cs_out cs_pending cs_cache cs_in cs_buf].
    split; [intro v; destruct (Nat.eq_dec v t) as [->|D]; [rewrite set_same; reflexivity|rewrite set_other by exact D; apply Qi; exact D]|]. repeat split; assumption.
  - destruct Q as (_ & Qb & _). exfalso. apply N. rewrite Qb in Ed. pose proof (silence_is_an_error p name o) as X. fold cl in X. rewrite Ed in X. exact X.
Qed.
End OneObject.
Definition kept (c1 C : cache) : Prop := wf PMeta C /\ c_cfg C = c_cfg c1.

(** ** Logs with moments *)
Lemma saw_app : forall a b, saw_only (a ++ b) = saw_only a ++ saw_only b.
Proof. intros. apply flat_map_app. Qed.
Lemma moments_app : forall pr name a c b, exact_moments pr name c (a ++ b)
  = (fst (exact_moments pr name (fst (exact_moments pr name c a)) b), snd (exact_moments pr name c a) ++ snd (exact_moments pr name (fst (exact_moments pr name c a)) b)).
Proof.
  intros pr name a. induction a as [|[[n t i o|n r|d|i]|n i o r] a IH]; intros c b; cbn [app exact_moments fst snd]; try apply IH; [apply surjective_pairing|]. rewrite IH. reflexivity.
Qed.
Lemma results_app : forall a b, results (a ++ b) = results a ++ results b.
Proof. intros. apply flat_map_app. Qed.
Lemma moments_saw : forall L M e, moments_of L M -> (forall n r, e = NEnd n r -> r = Err EIO \/ exists i o, In (Took n i o r) M) -> moments_of (L ++ [e]) (M ++ [Saw e]).
Proof.
  intros L M e (E & A & C) He. split; [rewrite saw_app, E; reflexivity|]. split.
  - intros M1 n i o r M2 X. apply snoc_split in X. destruct X as [(_ & X & _)|(M2' & -> & ->)]; [discriminate X|]. exact (A _ _ _ _ _ _ eq_refl).
  - intros M1 n r M2 X. apply snoc_split in X. destruct X as [(_ & X & <-)|(M2' & -> & ->)]; [injection X as ->; apply (He n r eq_refl)|exact (C _ _ _ _ eq_refl)].
Qed.
Lemma moments_took : forall L M n t i o r, moments_of L M -> In (Saw (NBegin n t i o)) M -> (forall i' o' r', ~ In (Took n i' o' r') M) -> moments_of L (M ++ [Took n i o r]).
Proof.
  intros L M n t i o r (E & A & C) Ib Ne. split; [rewrite saw_app, E; apply app_nil_r|]. split.
  - intros M1 m i' o' r' M2 X. apply snoc_split in X. destruct X as [(_ & X & <-)|(M2' & -> & ->)]; [injection X as <- <- <- <-; split; [exists t; exact Ib|exact Ne]|exact (A _ _ _ _ _ _ eq_refl)].
  - intros M1 m r' M2 X. apply snoc_split in X. destruct X as [(_ & X & _)|(M2' & -> & ->)]; [discriminate X|exact (C _ _ _ _ eq_refl)].
Qed.
Definition took_numbers (M : list moment) : list nat := flat_map (fun m => match m with Took n _ _ _ => [n] | _ => [] end) M.
Lemma results_numbers : forall M, length (results M) = length (took_numbers M).
Proof. intro M. induction M as [|[e|n i o r] M IH]; cbn; [reflexivity|exact IH|f_equal; exact IH]. Qed.
Lemma numbers_saw : forall M n t i o, In (Saw (NBegin n t i o)) M -> In n (numbers (saw_only M)).
Proof. intros M n t i o I. unfold numbers, saw_only. apply in_flat_map. exists (NBegin n t i o). split; [apply in_flat_map; eexists; split; [exact I|left; reflexivity]|left; reflexivity]. Qed.
Lemma moments_few : forall L M, moments_of L M -> (zlen (results M) <= zlen L)%Z.
Proof.
  intros L M R. assert (K : NoDup (took_numbers M) /\ incl (took_numbers M) (numbers (saw_only M))).
  { destruct R as (_ & A & _). clear L. induction M as [|m M IH] using rev_ind; [split; [constructor|intros x []]|].
    destruct IH as [N I]; [intros M1 n i o r M2 E; apply (A M1 n i o r (M2 ++ [m])); rewrite E, <- app_assoc; reflexivity|].
    unfold took_numbers in *. rewrite flat_map_app, saw_app, numbers_app. destruct m as [e|n i o r]; cbn [flat_map saw_only numbers app].
    - rewrite app_nil_r. split; [exact N|]. intros x Hx. apply in_app_iff. left. apply I. exact Hx.
    - destruct (A M n i o r [] eq_refl) as [(t & Ib) Ne]. split.
      + apply NoDup_snoc; [exact N|]. intro Hn. apply in_flat_map in Hn. destruct Hn as ([e|n' i' o' r'] & Im & Hn); [destruct Hn|]. destruct Hn as [->|[]]. exact (Ne _ _ _ Im).
      + intros x Hx. apply in_app_iff. left. apply in_app_iff in Hx. destruct Hx as [Hx|[<-|[]]]; [apply I; exact Hx|]. eapply numbers_saw. exact Ib. }
  destruct K as [N I]. destruct R as (E & _). pose proof (NoDup_incl_length N I) as Le. rewrite <- results_numbers, E in Le.
  assert (length (numbers L) <= length L); [|unfold zlen; lia]. clear. induction L as [|e L IH]; [cbn; lia|]. unfold numbers in *. cbn [flat_map length]. rewrite app_length. destruct e; cbn [length]; lia.
Qed.

(** ** The invariant *)
Section Many.
Variables (pr : nat -> proto) (name : nat -> bytes) (c : cache) (h : nat -> req_header) (progs : nat -> list (nat * op)).
Let cl : nat -> client := speaking pr name.
(** Number, goroutine, object and method of the calls begun; the effects so far. *)
Notation calls := (nat -> option (nat * nat * op)).
Notation done := (nat -> option (outcome result)).
Definition mark (now : nat -> option nat) (eff : done) (t : nat) : option (outcome result) := match now t with Some n => eff n | None => None end.
Definition wire (s : cstate) (i : nat) (now : nat -> option nat) (info : calls) (eff : done) : Prop :=
  cs_pending s ++ cs_out s = [] \/ exists n t o rq x, info n = Some (t, i, o) /\ eff n = None /\ (now t = Some n -> cs_lock s = Some t) /\ asks (pr i) (name i) o rq /\ cs_pending s ++ cs_out s ++ x = rq.
Definition reading (s : cstate) (i : nat) (now : nat -> option nat) (eff : done) : Prop :=
  cs_buf s ++ cs_in s = [] \/ exists t n o r y, cs_lock s = Some t /\ now t = Some n /\ current (cs_threads s t) = [o] /\ eff n = Some r /\ left_of (cs_threads s t) = [] /\ cs_pending s ++ cs_out s = [] /\ cl_resp (cl i) o (cs_buf s ++ cs_in s ++ y) = (r, []).
Definition conn (s : cstate) (u : bool) (i : nat) (now : nat -> option nat) (info : calls) (eff : done) (C : cache) : Prop :=
  if u then local (pr i) (name i) (facing s C) C (mark now eff)
  else (forall t, th_pc (cs_threads s t) <> Idle -> cs_lock s = Some t) /\ (forall t, cs_lock s = Some t -> exists o, current (cs_threads s t) = [o])
       /\ wire s i now info eff /\ reading s i now eff.
Definition goro (obj : nat -> cstate) (now : nat -> option nat) (info : calls) (eff : done) (t : nat) : Prop :=
  match now t with
  | None => forall i, cs_threads (obj i) t = resting
  | Some n => exists i o, info n = Some (t, i, o) /\ pending_of (cs_threads (obj i) t) = [o] /\ (forall i', i' <> i -> cs_threads (obj i') t = resting) /\ (eff n = None \/ cs_lock (obj i) = Some t)
  end.
Lemma local_facing : forall i s C C' mk, local (pr i) (name i) (facing s C) C mk -> local (pr i) (name i) (facing s C') C' mk.
Proof.
  intros i s C C' mk Q. unfold local, quiet in *. cbn [facing cs_lock cs_threads cs_header cs_out cs_pending cs_cache cs_in cs_buf] in *. destruct (cs_lock s) as [t|].
  - destruct Q as (Qi & o & rq & Co & Rq & _ & Q). split; [exact Qi|]. exists o, rq. repeat (split; [assumption || reflexivity|]). exact Q.
  - destruct Q as (Qi & Qo & Qp & Qb & Qn & _ & _). repeat split; assumption.
Qed.
Lemma conn_holder : forall s u i now info eff C t, conn s u i now info eff C -> th_pc (cs_threads s t) <> Idle -> cs_lock s = Some t.
Proof. intros s [|] i now info eff C t Q N; [exact (local_holder (pr i) (name i) (facing s C) C _ t Q N)|apply Q; exact N]. Qed.
Lemma conn_current : forall s u i now info eff C t, conn s u i now info eff C -> cs_lock s = Some t -> exists o, current (cs_threads s t) = [o].
Proof.
  intros s [|] i now info eff C t Q L; [|apply Q; exact L]. unfold conn, local in Q. cbn [facing cs_lock cs_threads] in Q. rewrite L in Q. destruct Q as (_ & o & _ & Q & _). exists o. exact Q.
Qed.
Lemma conn_frame : forall s u i now info eff C now' info' eff' C', conn s u i now info eff C ->
  (forall t, cs_lock s = Some t -> now' t = now t) ->
  (forall t n, cs_lock s = Some t -> now t = Some n -> exists o, info n = Some (t, i, o)) ->
  (forall n x, info n = Some x -> info' n = Some x) -> (forall n t o, info n = Some (t, i, o) -> eff' n = eff n) ->
  (forall t n x, info n = Some x -> now' t = Some n -> now t = Some n) ->
  conn s u i now' info' eff' C'.
Proof.
  intros s u i now info eff C now' info' eff' C' Q Hn Hl Hi He Hb. destruct u; cbn [conn] in *.
  - apply (local_facing i s C). apply (local_mk (pr i) (name i) _ _ (mark now eff)); [|exact Q]. cbn [facing cs_lock]. intros t L. unfold mark. rewrite (Hn t L). destruct (now t) as [n|] eqn:E; [|reflexivity].
    destruct (Hl t n L E) as [o I]. exact (He _ _ _ I).
  - destruct Q as (Q1 & Q2 & W & R). split; [exact Q1|]. split; [exact Q2|]. split.
    + destruct W as [W|(n & t & o & rq & x & I & E & N & Rq & P)]; [left; exact W|]. right. exists n, t, o, rq, x. split; [apply Hi; exact I|]. split; [rewrite (He _ _ _ I); exact E|]. split; [intro X; apply N; exact (Hb _ _ _ I X)|]. split; assumption.
    + destruct R as [R|(t & n & o & r & y & L & N & Co & E & P)]; [left; exact R|]. right. exists t, n, o, r, y. split; [exact L|]. split; [rewrite (Hn t L); exact N|]. split; [exact Co|].
      destruct (Hl t n L N) as [o' I]. split; [rewrite (He _ _ _ I); exact E|exact P].
Qed.
Definition cache_after (M : list moment) : cache := fst (exact_moments pr name c M).
Definition ninv (v : nstate * list nevent) : Prop :=
  let s := fst v in
  exists M info eff, moments_of (snd v) M
    /\ cache_after M = n_cache s /\ Forall2 agrees (snd (exact_moments pr name c M)) (results M)
    /\ kept c (n_cache s) /\ (c_cas (n_cache s) <= c_cas c + zlen (results M))%Z
    /\ NoDup (numbers (snd v)) /\ (forall n, In n (numbers (snd v)) -> n < n_next s)
    /\ (forall n t i o, info n = Some (t, i, o) -> In (Saw (NBegin n t i o)) M /\ n < n_next s /\ whole (pr i) c o /\ common o)
    /\ (forall n, eff n = None -> forall i o r, ~ In (Took n i o r) M)
    /\ (forall n r t i o, eff n = Some r -> info n = Some (t, i, o) -> In (Took n i o r) M)
    /\ (forall i, rq_cas (cs_header (n_object s i)) = 0%Z)
    /\ (forall t, called t (snd v) ++ n_todo s t = progs t)
    /\ (forall t, goro (n_object s) (n_now s) info eff t)
    /\ (forall i, conn (n_object s i) (n_up s i) i (n_now s) info eff (n_cache s)).
Lemma holder_call : forall s obj now info eff u i C t, conn (obj i) u i now info eff C -> goro obj now info eff t -> cs_lock (obj i) = Some t -> s = obj i ->
  exists n o, now t = Some n /\ info n = Some (t, i, o) /\ current (cs_threads s t) = [o] /\ pending_of (cs_threads s t) = [o].
Proof.
  intros s obj now info eff u i C t Q G L ->. destruct (conn_current _ _ _ _ _ _ _ _ Q L) as [o Co]. assert (N : cs_threads (obj i) t <> resting) by (intro X; rewrite X in Co; discriminate Co).
  unfold goro in G. destruct (now t) as [n|]; [|elim N; apply G]. destruct G as (i' & o' & I & P & R & _). destruct (Nat.eq_dec i i') as [<-|D]; [|elim N; apply R; exact D].
  exists n, o'. split; [reflexivity|]. split; [exact I|]. split; [|exact P]. rewrite Co. unfold pending_of in P. rewrite Co in P. cbn [app] in P. injection P as -> _. reflexivity.
Qed.
Hypothesis legal_progs : forall t, Forall (fun x => whole (pr (fst x)) c (snd x) /\ common (snd x)) (progs t).

Lemma ninv_begin : forall v L t i o os, ninv (v, L) -> n_now v t = None -> n_todo v t = (i, o) :: os ->
  ninv (mkN (n_cache v) (put_at (n_object v) i (enter (n_object v i) t o)) (n_up v) (put_at (n_now v) t (Some (n_next v))) (put_at (n_todo v) t os) (S (n_next v)), L ++ [NBegin (n_next v) t i o]).
Proof.
  intros v L t i o os (M & info & eff & Ri & Ca & Ag & Wc & Cc & Nd & Nn & If & En & Es & Hz & Cd & G & Q) Nt Td. cbn [fst snd] in *. set (n := n_next v) in *.
  assert (Fn : info n = None) by (destruct (info n) as [[[t' i'] o']|] eqn:E; [destruct (If _ _ _ _ E) as (_ & X & _); unfold n in X; lia|reflexivity]).
  assert (Ee : eff n = None \/ exists r, eff n = Some r) by (destruct (eff n) as [r|]; eauto).
  set (info' := put_at info n (Some (t, i, o))). set (eff' := put_at eff n None).
  assert (Nb : forall i' o' r', ~ In (Took n i' o' r') M).
  { intros i0 o' r' Im. apply in_split in Im. destruct Im as (M1 & M2 & Em). destruct Ri as (Er & A & _). destruct (A _ _ _ _ _ _ Em) as [(t' & Ib) _].
    assert (In n (numbers L)) by (rewrite <- Er; apply (numbers_saw M n t' i0 o'); rewrite Em; apply in_app_iff; left; exact Ib). pose proof (Nn n H). unfold n in *. lia. }
  assert (Gt : forall i, cs_threads (n_object v i) t = resting) by (specialize (G t); unfold goro in G; rewrite Nt in G; exact G).
  exists (M ++ [Saw (NBegin n t i o)]), info', eff'. cbn [fst snd n_cache n_object n_up n_now n_todo n_next]. unfold cache_after in *. rewrite moments_app, results_app. cbn [exact_moments results flat_map fst snd]. rewrite !app_nil_r.
  split; [apply moments_saw; [exact Ri|discriminate]|]. split; [exact Ca|]. split; [exact Ag|]. split; [exact Wc|]. split; [exact Cc|]. rewrite numbers_app. cbn [numbers flat_map]. rewrite app_nil_r.
  split; [apply NoDup_snoc; [exact Nd|intro X; apply Nn in X; unfold n in X; lia]|]. split; [intros m Hm; apply in_app_iff in Hm; destruct Hm as [Hm|[<-|[]]]; [apply Nn in Hm; unfold n; lia|unfold n; lia]|].
  split; [|split; [|split; [|split; [|split; [|split]]]]].
  - intros m t' i' o' E. unfold info' in E. destruct (Nat.eq_dec m n) as [->|D].
    + rewrite put_same in E. injection E as <- <- <-. split; [apply in_app_iff; right; left; reflexivity|]. split; [unfold n; lia|].
      specialize (legal_progs t). rewrite <- (Cd t), Td in legal_progs. apply Forall_app in legal_progs. destruct legal_progs as [_ F]. exact (Forall_inv F).
    + rewrite put_other in E by exact D. destruct (If _ _ _ _ E) as (X & Y & Z0). split; [apply in_app_iff; left; exact X|]. split; [unfold n; lia|exact Z0].
  - intros m E i' o' r' Im. apply in_app_iff in Im. destruct Im as [Im|[X|[]]]; [|discriminate X]. unfold eff' in E. destruct (Nat.eq_dec m n) as [->|D]; [exact (Nb _ _ _ Im)|rewrite put_other in E by exact D; exact (En m E _ _ _ Im)].
  - intros m r t' i' o' E I. unfold eff', info' in *. destruct (Nat.eq_dec m n) as [->|D]; [rewrite put_same in E; discriminate E|]. rewrite put_other in E, I by exact D. apply in_app_iff. left. exact (Es _ _ _ _ _ E I).
  - intro k. destruct (Nat.eq_dec k i) as [->|Dk]; [rewrite put_same; apply Hz|rewrite put_other by exact Dk; apply Hz].
  - intro t'. rewrite called_app. cbn [called flat_map]. rewrite app_nil_r, <- (Cd t'). destruct (Nat.eqb_spec t t') as [<-|D]; [rewrite put_same, Td, <- app_assoc; reflexivity|rewrite put_other by congruence; rewrite app_nil_r; reflexivity].
  - intro t'. unfold goro. destruct (Nat.eq_dec t' t) as [->|D].
    + rewrite put_same. exists i, o. unfold info', eff'. rewrite !put_same. split; [reflexivity|]. split; [cbn [enter cs_threads]; rewrite set_same; reflexivity|]. split; [intros i' Di; rewrite put_other by exact Di; apply Gt|left; reflexivity].
    + rewrite put_other by exact D. specialize (G t'). unfold goro in G.
      assert (Same : forall k, cs_threads (put_at (n_object v) i (enter (n_object v i) t o) k) t' = cs_threads (n_object v k) t').
      { intro k. destruct (Nat.eq_dec k i) as [->|Di]; [rewrite put_same; cbn [enter cs_threads]; apply set_other; exact D|rewrite put_other by exact Di; reflexivity]. }
      assert (Lk : forall k, cs_lock (put_at (n_object v) i (enter (n_object v i) t o) k) = cs_lock (n_object v k)).
      { intro k. destruct (Nat.eq_dec k i) as [->|Di]; [rewrite put_same; reflexivity|rewrite put_other by exact Di; reflexivity]. }
      destruct (n_now v t') as [m|].
      * destruct G as (i' & o' & I & P & R & E). exists i', o'. assert (Dm : m <> n) by (intros ->; congruence). unfold info', eff'. rewrite (put_other _ info) by exact Dm. rewrite (put_other _ eff) by exact Dm. rewrite Same, Lk. split; [exact I|]. split; [exact P|]. split; [intros k Dk; rewrite Same; apply R; exact Dk|exact E].
      * intro k. rewrite Same. apply G.
  - intro k.
    assert (Fr : conn (n_object v k) (n_up v k) k (put_at (n_now v) t (Some n)) info' eff' (n_cache v)).
    { apply (conn_frame _ _ _ (n_now v) info eff (n_cache v)); [apply Q| | | | |].
      - intros t' Lk. destruct (Nat.eq_dec t' t) as [->|D]; [|apply put_other; exact D]. exfalso. destruct (conn_current _ _ _ _ _ _ _ _ (Q k) Lk) as [o' Co]. rewrite Gt in Co. discriminate Co.
      - intros t' m Lk Nw. destruct (holder_call _ _ _ _ _ _ _ _ _ (Q k) (G t') Lk eq_refl) as (m' & o' & N1 & N2 & _). rewrite Nw in N1. injection N1 as ->. exists o'. exact N2.
      - intros m x E. unfold info'. rewrite put_other; [exact E|]. intros ->. congruence.
      - intros m t' o' E. unfold eff'. rewrite put_other; [reflexivity|]. intros ->. congruence.
      - intros t' m x E Nw. destruct (Nat.eq_dec t' t) as [->|D]; [rewrite put_same in Nw; injection Nw as <-; congruence|rewrite put_other in Nw by exact D; exact Nw]. }
    destruct (Nat.eq_dec k i) as [->|Dk]; [|rewrite put_other by exact Dk; exact Fr]. rewrite put_same.
    destruct (n_up v i); cbn [conn] in *.
    + change (facing (enter (n_object v i) t o) (n_cache v)) with (enter (facing (n_object v i) (n_cache v)) t o). apply local_enter; [apply Gt|exact Fr].
    + destruct Fr as (F1 & F2 & F3 & F4). cbn [enter cs_lock cs_threads].
      assert (Th : forall t', t' <> t -> set_thread (cs_threads (n_object v i)) t (mkThread Idle [o]) t' = cs_threads (n_object v i) t') by (intros t' D; apply set_other; exact D).
      assert (Lt : cs_lock (n_object v i) <> Some t) by (intro X; destruct (F2 t X) as [o' Co]; rewrite Gt in Co; discriminate Co).
      split; [|split; [|split]].
      * intros t' N. destruct (Nat.eq_dec t' t) as [->|D]; [rewrite set_same in N; elim N; reflexivity|]. rewrite (Th t' D) in N. apply F1. exact N.
      * intros t' X. assert (D : t' <> t) by (intros ->; contradiction). rewrite (Th t' D). apply F2. exact X.
      * exact F3.
      * destruct F4 as [F4|(t' & m & o' & r & y & X & F4)]; [left; exact F4|]. right. exists t', m, o', r, y. assert (D : t' <> t) by (intros ->; contradiction). cbn [enter cs_lock cs_threads cs_buf cs_in cs_pending cs_out]. rewrite (Th t' D). split; [exact X|exact F4].
Qed.

Definition after (s : cstate) (u : bool) (s' : cstate) (C : cache) : cstate := if u then s' else into_the_void (facing s C) s'.
Lemma facing_self : forall s, s = facing s (cs_cache s).
Proof. intros [? ? ? ? ? ? ? ? ?]. reflexivity. Qed.
Lemma mark_none : forall obj now info eff i t, goro obj now info eff t -> cs_lock (obj i) = None -> pending_of (cs_threads (obj i) t) <> [] -> mark now eff t = None.
Proof.
  intros obj now info eff i t G L N. unfold goro in G. unfold mark. destruct (now t) as [n|]; [|reflexivity]. destruct G as (i' & o & _ & _ & R & [E|E]); [exact E|].
  destruct (Nat.eq_dec i i') as [->|D]; [congruence|]. rewrite (R i D) in N. elim N. reflexivity.
Qed.
(** One step inside a connection. *)
Lemma conn_inside : forall obj u i now info eff C s', let s := obj i in let sp := exact_step (pr i) (name i) 0 C in
  conn s u i now info eff C -> (forall t, goro obj now info eff t) -> (forall n t i o, info n = Some (t, i, o) -> whole (pr i) c o) -> kept c C -> (c_cas C + 1 < 2 ^ 63)%Z ->
  rq_cas (cs_header s) = 0%Z -> cstep (cl i) (facing s C) s' -> cs_log s' = cs_log s ->
  (cs_cache s' = C /\ conn (after s u s' C) u i now info eff C)
  \/ exists n t o r, info n = Some (t, i, o) /\ eff n = None /\ agrees (snd (sp o)) r /\ (now t = Some n -> cs_lock s = Some t)
       /\ cs_cache s' = fst (sp o) /\ conn (after s u s' C) u i now info (put_at eff n (Some r)) (fst (sp o)).
Proof.
  intros obj u i now info eff C s' s sp Q G If W Cb Hz S Lg. pose proof (fun t => conn_holder s u i now info eff C t Q) as Ho. destruct u; cbn [after].
  - (* up *) cbn [conn] in Q. destruct (local_step (pr i) (name i) c (facing s C) s' C (mark now eff) Q S Lg Hz) as [Q'|(t & o & r & Lk & Co & Mt & Ag & Q')]; [| |exact (conj (wf_weaken _ _ (proj1 W)) (proj2 W))|exact Cb| |].
    + cbn [facing cs_lock cs_threads]. intros L t N. exact (mark_none obj now info eff i t (G t) L N).
    + cbn [facing cs_lock cs_threads]. intros t o L Co. destruct (holder_call s obj now info eff true i C t Q (G t) L eq_refl) as (n & o' & _ & In & Co' & _). rewrite Co in Co'. injection Co' as ->. exact (If _ _ _ _ In).
    + left. assert (Ec : cs_cache s' = C) by (unfold local in Q'; destruct (cs_lock s'); [destruct Q' as (_ & o & rq & _ & _ & E & _); exact E|apply Q']). split; [exact Ec|].
      cbn [conn]. rewrite <- Ec, <- facing_self. rewrite <- Ec in Q'. exact Q'.
    + right. cbn [facing cs_lock cs_threads] in Lk, Co. destruct (holder_call s obj now info eff true i C t Q (G t) Lk eq_refl) as (n & o' & Nw & In & Co' & _). rewrite Co in Co'. injection Co' as <-.
      exists n, t, o, r. split; [exact In|]. unfold mark in Mt. rewrite Nw in Mt. split; [exact Mt|]. split; [exact Ag|]. split; [intros _; exact Lk|].
      assert (Q2 : local (pr i) (name i) s' (fst (sp o)) (mark now (put_at eff n (Some r)))) by (apply Q'; unfold mark; rewrite Nw; apply put_same).
      assert (Ec : cs_cache s' = fst (sp o)) by (unfold local in Q2; destruct (cs_lock s'); [destruct Q2 as (_ & o2 & rq & _ & _ & E & _); exact E|apply Q2]).
      split; [exact Ec|]. cbn [conn]. rewrite <- Ec, <- facing_self. rewrite <- Ec in Q2. exact Q2.
  - (* down *) cbn [conn] in Q. destruct Q as (F1 & F2 & F3 & F4). remember (facing s C) as s0 eqn:E0.
    assert (Cut : forall A (l : list A), firstn (length l) l = l) by (intros; apply firstn_all).
    assert (Cut2 : forall A (l m : list A), firstn (length l) (l ++ m) = l) by (intros A l m; rewrite firstn_app, Nat.sub_diag, firstn_O, app_nil_r; apply Cut).
    assert (Cut3 : forall A (l m : list A), firstn (length (m ++ l)) l = l) by (intros A l m; apply firstn_all2; rewrite app_length; lia).
    destruct S as [s0 t o os rq Lk0 Th Rq|s0 t o a b os Th|s0 t o os Th|s0 a b Eo|s0 c' r rest Ed|s0 a b Ei|s0 t o os r rest Th Ed N|s0 d Lk0 Eo Ep]; subst s0; cbn [facing cs_lock cs_threads cs_header cs_out cs_pending cs_cache cs_in cs_buf cs_log] in *.
    + (* lock *) left. split; [reflexivity|]. unfold conn, into_the_void. cbn [facing cs_lock cs_threads cs_header cs_out cs_pending cs_cache cs_in cs_buf]. rewrite !Cut. split; [|split; [|split]].
      * intros v N. destruct (Nat.eq_dec v t) as [->|D]; [reflexivity|]. rewrite set_other in N by exact D. apply F1 in N. congruence.
      * intros v E. injection E as <-. exists o. rewrite set_same. reflexivity.
      * unfold wire in *. cbn [cs_lock cs_pending cs_out]. destruct F3 as [F3|(n & v & o' & rq' & x & I & En & Nv & P)]; [left; exact F3|]. right. exists n, v, o', rq', x. split; [exact I|]. split; [exact En|]. split; [|exact P]. intro X. apply Nv in X. congruence.
      * destruct F4 as [F4|(v & n & o' & r & y & X & _)]; [left; exact F4|congruence].
    + (* send *) pose proof (Ho t ltac:(rewrite Th; discriminate)) as Lt. left. split; [reflexivity|]. unfold conn, into_the_void. cbn [facing cs_lock cs_threads cs_header cs_out cs_pending cs_cache cs_in cs_buf]. rewrite Cut, Cut2.
      split; [|split; [|split]].
      * intros v N. destruct (Nat.eq_dec v t) as [->|D]; [exact Lt|]. rewrite set_other in N by exact D. apply F1. exact N.
      * intros v E. rewrite Lt in E. injection E as <-. exists o. rewrite set_same. reflexivity.
      * exact F3.
      * destruct F4 as [F4|(v & n & o' & r & y & X & Nv & Co & En & Lf & P)]; [left; exact F4|]. rewrite Lt in X. injection X as <-. right. exists t, n, o', r, y. cbn [cs_lock cs_threads cs_buf cs_in cs_pending cs_out]. rewrite set_same. rewrite Th in Co, Lf.
        cbn [left_of th_pc] in *. apply app_eq_nil in Lf. destruct Lf as [-> ->]. split; [exact Lt|]. split; [exact Nv|]. split; [exact Co|]. split; [exact En|]. split; [reflexivity|exact P].
    + (* sent *) pose proof (Ho t ltac:(rewrite Th; discriminate)) as Lt. left. split; [reflexivity|]. unfold conn, into_the_void. cbn [facing cs_lock cs_threads cs_header cs_out cs_pending cs_cache cs_in cs_buf]. rewrite !Cut.
      split; [|split; [|split]].
      * intros v N. destruct (Nat.eq_dec v t) as [->|D]; [exact Lt|]. rewrite set_other in N by exact D. apply F1. exact N.
      * intros v E. rewrite Lt in E. injection E as <-. exists o. rewrite set_same. reflexivity.
      * exact F3.
      * destruct F4 as [F4|(v & n & o' & r & y & X & Nv & Co & En & Lf & P)]; [left; exact F4|]. rewrite Lt in X. injection X as <-. right. exists t, n, o', r, y. cbn [cs_lock cs_threads cs_buf cs_in cs_pending cs_out]. rewrite set_same. rewrite Th in Co, Lf.
        split; [exact Lt|]. split; [exact Nv|]. split; [exact Co|]. split; [exact En|]. split; [reflexivity|exact P].
    + (* net out *) left. split; [reflexivity|]. unfold conn, into_the_void. cbn [facing cs_lock cs_threads cs_header cs_out cs_pending cs_cache cs_in cs_buf]. rewrite Cut, Eo, Cut3. split; [exact F1|]. split; [exact F2|].
      unfold wire, reading in *. cbn [cs_lock cs_threads cs_pending cs_out cs_buf cs_in]. rewrite <- app_assoc, <- Eo. split; [|exact F4].
      destruct F3 as [F3|(n & v & o' & rq' & x & I & En & Nv & Rq & P)]; [left; exact F3|]. right. exists n, v, o', rq', x. split; [exact I|]. split; [exact En|]. split; [exact Nv|]. split; [exact Rq|]. rewrite <- P, Eo, <- !app_assoc. reflexivity.
    + (* daemon *) assert (Dd : cs_pending s <> []) by (intro X; rewrite X in Ed; pose proof (daemon_step_shrink _ _ _ _ _ _ Ed) as Y; cbn in Y; lia).
      destruct F3 as [F3|(n & t & o & rq & x & In & En & Nv & Rq & P)]; [apply app_eq_nil in F3; destruct F3 as [F3 _]; contradiction|]. right.
      destruct F4 as [F4|(t' & n' & o' & r' & y & _ & _ & _ & _ & _ & F4 & _)]; [|apply app_eq_nil in F4; destruct F4 as [F4 _]; contradiction].
      destruct (effect (pr i) (name i) c C o rq (If _ _ _ _ In) Rq (conj (wf_weaken _ _ (proj1 W)) (proj2 W)) Cb) as (r1 & out & D1 & Re & Ag). unfold cl, speaking in Ed.
      pose proof (daemon_step_more _ _ _ _ _ _ (cs_out s ++ x) Ed) as D2. rewrite P, D1 in D2. injection D2 as D2 D3 D4. symmetry in D4. apply app_eq_nil in D4. destruct D4 as [-> D4]. apply app_eq_nil in D4. destruct D4 as [D4 D5].
      exists n, t, o, out. split; [exact In|]. split; [exact En|]. split; [exact Ag|]. split; [exact Nv|]. split; [symmetry; exact D2|].
      unfold conn, into_the_void. cbn [facing cs_lock cs_threads cs_header cs_out cs_pending cs_cache cs_in cs_buf]. rewrite Cut, Cut2. split; [exact F1|]. split; [exact F2|]. split; [left; cbn [cs_pending cs_out app]; exact D4|left; exact F4].
    + (* net in *) left. split; [reflexivity|]. unfold conn, into_the_void. cbn [facing cs_lock cs_threads cs_header cs_out cs_pending cs_cache cs_in cs_buf]. rewrite Cut, Ei, Cut3. split; [exact F1|]. split; [exact F2|]. split; [exact F3|].
      unfold reading in *. cbn [cs_lock cs_threads cs_pending cs_out cs_buf cs_in]. assert (X : forall y, (cs_buf s ++ a) ++ b ++ y = cs_buf s ++ cs_in s ++ y) by (intro y; rewrite Ei, <- !app_assoc; reflexivity).
      destruct F4 as [F4|(v & n & o' & r & y & F4)]; [left; pose proof (X []) as X0; rewrite !app_nil_r in X0; rewrite X0; exact F4|]. right. exists v, n, o', r, y. rewrite X. exact F4.
    + exfalso. exact (log_longer _ _ (eq_sym Lg)).
    + exfalso. exact (log_longer _ _ (eq_sym Lg)).
Qed.

Lemma agrees_snoc : forall xs ys x y, Forall2 agrees xs ys -> agrees x y -> Forall2 agrees (xs ++ [x]) (ys ++ [y]).
Proof. intros xs ys x y H A. apply Forall2_app; [exact H|constructor; [exact A|constructor]]. Qed.
Lemma ninv_inside : forall v L i s', ninv (v, L) -> (c_cas c + zlen L + 1 < 2 ^ 63)%Z -> cstep (cl i) (object v i) s' -> cs_log s' = cs_log (object v i) ->
  ninv (with_object v i (if n_up v i then s' else into_the_void (object v i) s'), L).
Proof.
  intros v L i s' (M & info & eff & Ri & Ca & Ag & Wc & Cc & Nd & Nn & If & En & Es & Hz & Cd & G & Q) Cz S Lg. cbn [fst snd] in *.
  pose proof (moments_few L M Ri) as Few.
  set (S2 := if n_up v i then s' else into_the_void (object v i) s').
  assert (Th : cs_threads S2 = cs_threads s') by (unfold S2; destruct (n_up v i); reflexivity).
  assert (Lk : cs_lock S2 = cs_lock s') by (unfold S2; destruct (n_up v i); reflexivity).
  assert (Cs : cs_cache S2 = cs_cache s') by (unfold S2; destruct (n_up v i); reflexivity).
  assert (Rs : forall t k, cs_threads (n_object v k) t = resting -> cs_threads (put_at (n_object v) i S2 k) t = resting).
  { intros t k E. destruct (Nat.eq_dec k i) as [->|Di]; [rewrite put_same, Th; exact (cstep_resting _ _ _ _ S E)|rewrite put_other by exact Di; exact E]. }
  assert (Pn : forall t k, pending_of (cs_threads (put_at (n_object v) i S2 k) t) = pending_of (cs_threads (n_object v k) t)).
  { intros t k. destruct (Nat.eq_dec k i) as [->|Di]; [rewrite put_same, Th; exact (cstep_pending _ _ _ t S (or_introl Lg))|rewrite put_other by exact Di; reflexivity]. }
  assert (Kp : forall t k, cs_lock (n_object v k) = Some t -> cs_lock (put_at (n_object v) i S2 k) = Some t).
  { intros t k E. destruct (Nat.eq_dec k i) as [->|Di]; [rewrite put_same, Lk; exact (lock_kept (pr i) (name i) _ _ _ S Lg E)|rewrite put_other by exact Di; exact E]. }
  assert (Le : forall n t k o, info n = Some (t, k, o) -> whole (pr k) c o) by (intros n t k o E; apply (If n t k o E)).
  assert (Hz2 : forall k, rq_cas (cs_header (put_at (n_object v) i S2 k)) = 0%Z).
  { intro k. destruct (Nat.eq_dec k i) as [->|Di]; [|rewrite put_other by exact Di; apply Hz]. rewrite put_same. assert (He : cs_header S2 = cs_header s') by (unfold S2; destruct (n_up v i); reflexivity). rewrite He.
    apply (step_header (pr i) (name i) c (object v i) s' S); [exact (Hz i)|]. intros t o Io. cbn [object facing cs_threads] in Io. specialize (G t). unfold goro in G. destruct (n_now v t) as [n|]; [|rewrite G in Io; destruct Io].
    destruct G as (k & o' & I & P & R & _). destruct (Nat.eq_dec i k) as [<-|D]; [|rewrite (R i D) in Io; destruct Io]. rewrite P in Io. destruct Io as [<-|[]]. exact (Le _ _ _ _ I). }
  destruct (conn_inside (n_object v) (n_up v i) i (n_now v) info eff (n_cache v) s' (Q i) G Le Wc ltac:(lia) (Hz i) S Lg) as [[Ec Q2]|(n & t & o & r & In & Ee & Agr & Nv & Ec & Q2)];
    change (after (n_object v i) (n_up v i) s' (n_cache v)) with S2 in Q2.
  - exists M, info, eff. cbn [fst snd with_object n_cache n_object n_up n_now n_todo n_next]. rewrite Cs, Ec. repeat (split; [assumption|]). split.
    + intro t. specialize (G t). unfold goro in *. destruct (n_now v t) as [n|]; [|intro k; apply Rs; apply G]. destruct G as (k & o & I & P & R & E). exists k, o. rewrite Pn. split; [exact I|]. split; [exact P|].
      split; [intros k' Dk; apply Rs, R, Dk|]. destruct E as [E|E]; [left; exact E|right; apply Kp; exact E].
    + intro k. destruct (Nat.eq_dec k i) as [->|Di]; [rewrite put_same; exact Q2|rewrite put_other by exact Di; apply Q].
  - destruct (If _ _ _ _ In) as (Ib & Ln & Ll & Lc). pose proof (En n Ee) as Ne. set (c1 := fst (exact_step (pr i) (name i) 0 (n_cache v) o)) in *. set (eff' := put_at eff n (Some r)) in *.
    exists (M ++ [Took n i o r]), info, eff'. cbn [fst snd with_object n_cache n_object n_up n_now n_todo n_next]. rewrite Cs, Ec. unfold cache_after in *. rewrite moments_app, results_app. cbn [exact_moments results flat_map app fst snd]. rewrite Ca.
    split; [apply (moments_took L M n t i o r Ri Ib Ne)|]. fold c1. split; [reflexivity|]. split; [apply agrees_snoc; assumption|].
    split; [destruct Wc as [Wc Wf]; split; [unfold c1; eapply wf_common_exact; eassumption|unfold c1; rewrite (cfg_common_exact _ _ _ c); assumption]|].
    split; [rewrite zlen_app; unfold zlen at 2; cbn [length]; pose proof (cas_exact_step (pr i) (name i) 0 (n_cache v) o); unfold c1; lia|]. split; [exact Nd|]. split; [exact Nn|].
    split; [|split; [|split; [|split; [exact Hz2|split; [exact Cd|split]]]]].
    + intros m t' k o' E. destruct (If _ _ _ _ E) as (X & Y & Z0). split; [apply in_app_iff; left; exact X|]. split; assumption.
    + intros m E i' o' r' Im. unfold eff' in E. destruct (Nat.eq_dec m n) as [->|D]; [rewrite put_same in E; discriminate E|]. rewrite put_other in E by exact D. apply in_app_iff in Im. destruct Im as [Im|[X|[]]]; [exact (En m E _ _ _ Im)|injection X as X _ _ _; congruence].
    + intros m r' t' k o' E I. unfold eff' in E. destruct (Nat.eq_dec m n) as [->|D].
      * rewrite put_same in E. injection E as <-. rewrite In in I. injection I as <- <- <-. apply in_app_iff. right. left. reflexivity.
      * rewrite put_other in E by exact D. apply in_app_iff. left. exact (Es _ _ _ _ _ E I).
    + intro t'. specialize (G t'). unfold goro in *. destruct (n_now v t') as [m|] eqn:Nw; [|intro k; apply Rs; apply G]. destruct G as (k & o' & I & P & R & E). exists k, o'. rewrite Pn. split; [exact I|]. split; [exact P|].
      split; [intros k' Dk; apply Rs, R, Dk|]. unfold eff'. destruct (Nat.eq_dec m n) as [->|D].
      * right. rewrite In in I. injection I as <- <- <-. apply Kp. apply Nv. exact Nw.
      * rewrite put_other by exact D. destruct E as [E|E]; [left; exact E|right; apply Kp; exact E].
    + intro k. destruct (Nat.eq_dec k i) as [->|Di]; [rewrite put_same; exact Q2|rewrite put_other by exact Di].
      apply (conn_frame _ _ _ (n_now v) info eff (n_cache v)); [apply Q|reflexivity| |auto| |auto].
      * intros t' m Lk' Nw. destruct (holder_call _ _ _ _ _ _ _ _ _ (Q k) (G t') Lk' eq_refl) as (m' & o' & N1 & N2 & _). rewrite Nw in N1. injection N1 as ->. exists o'. exact N2.
      * intros m t' o' E. unfold eff'. apply put_other. intros ->. rewrite In in E. injection E as _ X _. congruence.
Qed.
Lemma ninv_time : forall v L d, ninv (v, L) -> (0 <= d)%Z -> ninv (mkN (tick (n_cache v) d) (n_object v) (n_up v) (n_now v) (n_todo v) (n_next v), L ++ [NTime d]).
Proof.
  intros v L d (M & info & eff & Ri & Ca & Ag & Wc & Cc & Nd & Nn & If & En & Es & Hz & Cd & G & Q) D. cbn [fst snd] in *.
  exists (M ++ [Saw (NTime d)]), info, eff. cbn [fst snd n_cache n_object n_up n_now n_todo n_next]. unfold cache_after in *. rewrite moments_app, results_app. cbn [exact_moments results flat_map app fst snd]. rewrite Ca, !app_nil_r.
  split; [apply moments_saw; [exact Ri|discriminate]|]. split; [reflexivity|]. split; [exact Ag|]. split; [split; [apply wf_tick; [apply Wc|exact D]|apply Wc]|]. split; [exact Cc|]. rewrite numbers_app. cbn [numbers flat_map]. rewrite app_nil_r. split; [exact Nd|]. split; [exact Nn|].
  split; [|split; [|split; [|split; [exact Hz|split; [|split; [exact G|]]]]]].
  - intros m t k o E. destruct (If _ _ _ _ E) as (X & Y). split; [apply in_app_iff; left; exact X|exact Y].
  - intros m E k o r Im. apply in_app_iff in Im. destruct Im as [Im|[X|[]]]; [exact (En m E _ _ _ Im)|discriminate X].
  - intros m r t k o E I. apply in_app_iff. left. exact (Es _ _ _ _ _ E I).
  - intro t. rewrite called_app. cbn [called flat_map]. rewrite app_nil_r. apply Cd.
  - intro k. apply (conn_frame _ _ _ (n_now v) info eff (n_cache v)); [apply Q|reflexivity| |auto|auto|auto].
    intros t' m Lk' Nw. destruct (holder_call _ _ _ _ _ _ _ _ _ (Q k) (G t') Lk' eq_refl) as (m' & o' & N1 & N2 & _). rewrite Nw in N1. injection N1 as ->. exists o'. exact N2.
Qed.

(** A call returns, with the answer or an error. *)
Lemma ninv_finish : forall v L i t n r S2, ninv (v, L) -> n_now v t = Some n -> cs_lock (n_object v i) = Some t ->
  (exists o os, pending_of (cs_threads (n_object v i) t) = o :: os /\ cs_threads S2 t = mkThread Idle os) ->
  (forall t', t' <> t -> cs_threads S2 t' = cs_threads (n_object v i) t') -> cs_header S2 = cs_header (n_object v i) ->
  (forall info eff o, conn (n_object v i) (n_up v i) i (n_now v) info eff (n_cache v) -> info n = Some (t, i, o) ->
     (r = Err EIO \/ eff n = Some r) /\ conn S2 (n_up v i) i (put_at (n_now v) t None) info eff (n_cache v)) ->
  ninv (mkN (n_cache v) (put_at (n_object v) i S2) (n_up v) (put_at (n_now v) t None) (n_todo v) (n_next v), L ++ [NEnd n r]).
Proof.
  intros v L i t n r S2 (M & info & eff & Ri & Ca & Ag & Wc & Cc & Nd & Nn & If & En & Es & Hz & Cd & G & Q) Nw Lk (o & os & Pd & Td) Oth Hd K. cbn [fst snd] in *.
  destruct (holder_call _ _ _ _ _ _ _ _ _ (Q i) (G t) Lk eq_refl) as (n' & o' & Nw' & In & Co & Pe). rewrite Nw in Nw'. injection Nw' as <-. rewrite Pd in Pe. injection Pe as -> ->.
  destruct (K info eff o' (Q i) In) as [Rr Q2].
  exists (M ++ [Saw (NEnd n r)]), info, eff. cbn [fst snd n_cache n_object n_up n_now n_todo n_next]. unfold cache_after in *. rewrite moments_app, results_app. cbn [exact_moments results flat_map fst snd]. rewrite !app_nil_r.
  split; [apply moments_saw; [exact Ri|intros m q X; injection X as <- <-; destruct Rr as [->|E]; [left; reflexivity|right; exists i, o'; exact (Es _ _ _ _ _ E In)]]|]. split; [exact Ca|]. split; [exact Ag|]. split; [exact Wc|]. split; [exact Cc|].
  rewrite numbers_app. cbn [numbers flat_map]. rewrite app_nil_r. split; [exact Nd|]. split; [exact Nn|]. split; [|split; [|split; [|split; [|split; [|split]]]]].
  - intros m t' k o2 E. destruct (If _ _ _ _ E) as (X & Y). split; [apply in_app_iff; left; exact X|exact Y].
  - intros m E k o2 r2 Im. apply in_app_iff in Im. destruct Im as [Im|[X|[]]]; [exact (En m E _ _ _ Im)|discriminate X].
  - intros m r2 t' k o2 E I. apply in_app_iff. left. exact (Es _ _ _ _ _ E I).
  - intro k. destruct (Nat.eq_dec k i) as [->|Dk]; [rewrite put_same, Hd; apply Hz|rewrite put_other by exact Dk; apply Hz].
  - intro t'. rewrite called_app. cbn [called flat_map]. rewrite app_nil_r. apply Cd.
  - intro t'. specialize (G t'). unfold goro in *. destruct (Nat.eq_dec t' t) as [->|D].
    + rewrite put_same. rewrite Nw in G. destruct G as (k & o2 & I & P & R & _). rewrite In in I. injection I as <- <-. intro k. destruct (Nat.eq_dec k i) as [->|Di]; [rewrite put_same; exact Td|rewrite put_other by exact Di; apply R; exact Di].
    + rewrite put_other by exact D. assert (Same : forall k, cs_threads (put_at (n_object v) i S2 k) t' = cs_threads (n_object v k) t').
      { intro k. destruct (Nat.eq_dec k i) as [->|Di]; [rewrite put_same; apply Oth; exact D|rewrite put_other by exact Di; reflexivity]. }
      destruct (n_now v t') as [m|]; [|intro k; rewrite Same; apply G]. destruct G as (k & o2 & I & P & R & E). exists k, o2. rewrite Same. split; [exact I|]. split; [exact P|]. split; [intros k' Dk; rewrite Same; apply R; exact Dk|].
      destruct E as [E|E]; [left; exact E|]. right. destruct (Nat.eq_dec k i) as [->|Di]; [congruence|rewrite put_other by exact Di; exact E].
  - intro k. destruct (Nat.eq_dec k i) as [->|Di]; [rewrite put_same; exact Q2|rewrite put_other by exact Di].
    apply (conn_frame _ _ _ (n_now v) info eff (n_cache v)); [apply Q| | |auto|auto|].
    + intros t' Lk'. apply put_other. intros ->. destruct (conn_current _ _ _ _ _ _ _ _ (Q k) Lk') as [o2 Co2]. specialize (G t). unfold goro in G. rewrite Nw in G. destruct G as (k' & o3 & I & P & R & _). rewrite In in I. injection I as <- <-. rewrite (R k Di) in Co2. discriminate Co2.
    + intros t' m Lk' Nw'. destruct (holder_call _ _ _ _ _ _ _ _ _ (Q k) (G t') Lk' eq_refl) as (m' & o2 & N1 & N2 & _). rewrite Nw' in N1. injection N1 as ->. exists o2. exact N2.
    + intros t' m x _ E. destruct (Nat.eq_dec t' t) as [->|D]; [rewrite put_same in E; discriminate E|rewrite put_other in E by exact D; exact E].
Qed.
Lemma done_step : forall i s s' t o r, cstep (cl i) s s' -> cs_log s' = cs_log s ++ [LDone t o r] ->
  exists os rest, cs_threads s t = mkThread (Waiting o) os /\ cl_resp (cl i) o (cs_buf s) = (r, rest) /\ r <> Err EIO
    /\ s' = mkC None (set_thread (cs_threads s) t (mkThread Idle os)) (cs_header s) (cs_out s) (cs_pending s) (cs_cache s) (cs_in s) rest (cs_log s ++ [LDone t o r]).
Proof.
  intros i s s' t o r S Lg. destruct S as [s ? ? ? ? _ _ _|s ? ? ? ? ? _|s ? ? ? _|s ? ? _|s ? ? ? _|s ? ? _|s t' o' os' r' rest Th Ed N|s d _ _ _]; cbn [cs_log] in Lg; try (exfalso; exact (log_longer _ _ Lg)); try (apply app_inv_head in Lg; discriminate Lg).
  apply app_inv_head in Lg. injection Lg as -> -> ->. exists os', rest. repeat (split; [assumption|]). reflexivity.
Qed.
Lemma ninv_end : forall v L i t n o r s', ninv (v, L) -> cstep (cl i) (object v i) s' -> cs_log s' = cs_log (object v i) ++ [LDone t o r] -> n_now v t = Some n ->
  ninv (mkN (n_cache v) (put_at (n_object v) i s') (n_up v) (put_at (n_now v) t None) (n_todo v) (n_next v), L ++ [NEnd n r]).
Proof.
  intros v L i t n o r s' Inv S Lg Nw. destruct (done_step _ _ _ _ _ _ S Lg) as (os & rest & Th & Ed & N & Es'). cbn [object facing cs_threads cs_buf cs_lock cs_out cs_pending cs_in cs_header cs_log cs_cache] in Th, Ed, Es'.
  assert (Lk : cs_lock (n_object v i) = Some t).
  { destruct Inv as (M & info & eff & _ & _ & _ & _ & _ & _ & _ & _ & _ & _ & _ & _ & G & Q). apply (conn_holder _ _ _ _ _ _ _ t (Q i)). cbn [fst]. rewrite Th. discriminate. }
  apply (ninv_finish v L i t n r s' Inv Nw Lk).
  - exists o, os. rewrite Th, Es'. split; [reflexivity|apply set_same].
  - intros t' D. rewrite Es'. apply set_other. exact D.
  - rewrite Es'. reflexivity.
  - intros info eff o2 Q _. destruct (n_up v i); cbn [conn] in *.
    + destruct (local_end (pr i) (name i) _ _ _ _ _ _ _ Q S Lg) as (_ & Mr & _ & Q2). unfold mark in Mr. rewrite Nw in Mr. split; [right; exact Mr|]. cbn [object facing cs_cache] in Es'.
      specialize (Q2 (mark (put_at (n_now v) t None) eff)). assert (Ec : cs_cache s' = n_cache v) by (rewrite Es'; reflexivity). rewrite <- Ec, <- facing_self. rewrite <- Ec in Q2. exact Q2.
    + destruct Q as (F1 & F2 & F3 & F4).
      destruct F4 as [F4|(t' & m & o' & r' & y & X & Nv & Co & En & Lf & P & Re)].
      * exfalso. apply app_eq_nil in F4. destruct F4 as [F4 _]. apply N. rewrite F4 in Ed. pose proof (silence_is_an_error (pr i) (name i) o) as X. change (client_of (pr i) (name i)) with (cl i) in X. rewrite Ed in X. exact X.
      * rewrite Lk in X. injection X as <-. rewrite Nw in Nv. injection Nv as <-. rewrite Th in Co. cbn [current th_pc] in Co. injection Co as <-.
        pose proof (C17_cut_reply_is_an_error_or_complete (pr i) (name i) o (cs_buf (n_object v i)) (cs_in (n_object v i) ++ y) r rest Ed N : cl_resp (cl i) o _ = _) as Er.
        rewrite Re in Er. injection Er as Er1 Er2. subst r'. symmetry in Er2. apply app_eq_nil in Er2. destruct Er2 as [-> Er2]. apply app_eq_nil in Er2. destruct Er2 as [Er2 _].
        split; [right; exact En|]. rewrite Es'. cbn [cs_lock cs_threads]. split; [|split; [|split]].
        -- intros u Nu. exfalso. destruct (Nat.eq_dec u t) as [->|D]; [rewrite set_same in Nu; apply Nu; reflexivity|]. rewrite set_other in Nu by exact D. apply F1 in Nu. congruence.
        -- discriminate.
        -- left. cbn [cs_pending cs_out]. exact P.
        -- left. cbn [cs_buf cs_in app]. exact Er2.
Qed.
Lemma ninv_fail : forall v L i t n o x os ib bb, ninv (v, L) -> n_up v i = false -> cs_threads (n_object v i) t = mkThread x os -> n_now v t = Some n -> current (mkThread x os) = [o] ->
  (ib = [] /\ bb = [] \/ ib = cs_in (n_object v i) /\ bb = cs_buf (n_object v i) /\ left_of (mkThread x os) <> []) -> let s := n_object v i in
  ninv (mkN (n_cache v) (put_at (n_object v) i (mkC None (set_thread (cs_threads s) t (mkThread Idle os)) (cs_header s) (cs_out s) (cs_pending s) (cs_cache s) ib bb (cs_log s)))
            (n_up v) (put_at (n_now v) t None) (n_todo v) (n_next v), L ++ [NEnd n (Err EIO)]).
Proof.
  intros v L i t n o x os ib bb Inv Up Th Nw Co0 Hb s.
  assert (Lk : cs_lock s = Some t).
  { destruct Inv as (M & info & eff & _ & _ & _ & _ & _ & _ & _ & _ & _ & _ & _ & _ & G & Q). apply (conn_holder _ _ _ _ _ _ _ t (Q i)). cbn [fst]. rewrite Th. cbn [th_pc]. intros ->. discriminate Co0. }
  apply (ninv_finish v L i t n (Err EIO) _ Inv Nw Lk).
  - exists o, os. rewrite Th. cbn [cs_threads]. split; [|apply set_same]. unfold pending_of. rewrite Co0. reflexivity.
  - intros t' D. cbn [cs_threads]. apply set_other. exact D.
  - reflexivity.
  - intros info eff o2 Q In. split; [left; reflexivity|]. rewrite Up in *. cbn [conn] in *. destruct Q as (F1 & F2 & F3 & F4). fold s in F1, F2, F3, F4. cbn [cs_lock cs_threads]. split; [|split; [|split]].
    + intros u Nu. exfalso. destruct (Nat.eq_dec u t) as [->|D]; [rewrite set_same in Nu; apply Nu; reflexivity|]. rewrite set_other in Nu by exact D. apply F1 in Nu. congruence.
    + discriminate.
    + destruct F3 as [F3|(m & u & o' & rq & y & I & En & Nv & P)]; [left; exact F3|]. right. exists m, u, o', rq, y. split; [exact I|]. split; [exact En|]. split; [|exact P]. cbn [cs_lock]. intro X.
      destruct (Nat.eq_dec u t) as [->|D]; [rewrite put_same in X; discriminate X|]. rewrite put_other in X by exact D. apply Nv in X. congruence.
    + left. cbn [cs_buf cs_in]. destruct Hb as [[-> ->]|(-> & -> & Ne)]; [reflexivity|]. fold s. destruct F4 as [F4|(u & m & o' & r' & y & X & _ & _ & _ & Lf & _)]; [exact F4|]. exfalso. rewrite Lk in X. injection X as <-. unfold s in Lf. rewrite Th in Lf. contradiction.
Qed.
Lemma ninv_loss : forall v L i a a' b b', ninv (v, L) -> n_up v i = true -> cs_out (n_object v i) = a ++ a' -> cs_in (n_object v i) = b ++ b' -> let s := n_object v i in
  ninv (mkN (n_cache v) (put_at (n_object v) i (mkC (cs_lock s) (cs_threads s) (cs_header s) a (cs_pending s) (cs_cache s) b (cs_buf s) (cs_log s)))
            (put_at (n_up v) i false) (n_now v) (n_todo v) (n_next v), L ++ [NLoss i]).
Proof.
  intros v L i a a' b b' (M & info & eff & Ri & Ca & Ag & Wc & Cc & Nd & Nn & If & En & Es & Hz & Cd & G & Q) Up Eo Ei s. cbn [fst snd] in *.
  set (S2 := mkC (cs_lock s) (cs_threads s) (cs_header s) a (cs_pending s) (cs_cache s) b (cs_buf s) (cs_log s)).
  exists (M ++ [Saw (NLoss i)]), info, eff. cbn [fst snd n_cache n_object n_up n_now n_todo n_next]. unfold cache_after in *. rewrite moments_app, results_app. cbn [exact_moments results flat_map fst snd]. rewrite !app_nil_r.
  split; [apply moments_saw; [exact Ri|discriminate]|]. split; [exact Ca|]. split; [exact Ag|]. split; [exact Wc|]. split; [exact Cc|]. rewrite numbers_app. cbn [numbers flat_map]. rewrite app_nil_r. split; [exact Nd|]. split; [exact Nn|].
  split; [|split; [|split; [|split; [|split; [|split]]]]].
  - intros m t k o E. destruct (If _ _ _ _ E) as (X & Y). split; [apply in_app_iff; left; exact X|exact Y].
  - intros m E k o r Im. apply in_app_iff in Im. destruct Im as [Im|[X|[]]]; [exact (En m E _ _ _ Im)|discriminate X].
  - intros m r t k o E I. apply in_app_iff. left. exact (Es _ _ _ _ _ E I).
  - intro k. destruct (Nat.eq_dec k i) as [->|Dk]; [rewrite put_same; apply (Hz i)|rewrite put_other by exact Dk; apply Hz].
  - intro t. rewrite called_app. cbn [called flat_map]. rewrite app_nil_r. apply Cd.
  - intro t. assert (Same : forall k, cs_threads (put_at (n_object v) i S2 k) t = cs_threads (n_object v k) t /\ cs_lock (put_at (n_object v) i S2 k) = cs_lock (n_object v k)).
    { intro k. destruct (Nat.eq_dec k i) as [->|Di]; [rewrite put_same; split; reflexivity|rewrite put_other by exact Di; split; reflexivity]. }
    specialize (G t). unfold goro in *. destruct (n_now v t) as [m|]; [|intro k; rewrite (proj1 (Same k)); apply G]. destruct G as (k & o & I & P & R & E). exists k, o. destruct (Same k) as [-> ->]. split; [exact I|]. split; [exact P|]. split; [intros k' Dk; rewrite (proj1 (Same k')); apply R; exact Dk|exact E].
  - intro k. destruct (Nat.eq_dec k i) as [->|Di]; [|rewrite !put_other by exact Di; apply Q]. rewrite !put_same. cbn [conn].
    specialize (Q i). rewrite Up in Q. cbn [conn] in Q. unfold local, quiet in Q. cbn [facing cs_lock cs_threads cs_header cs_out cs_pending cs_cache cs_in cs_buf] in Q. unfold S2. cbn [cs_lock cs_threads]. fold s in Q.
    destruct (cs_lock s) as [t|] eqn:Lk.
    + destruct Q as (Qi & o & rq & Co & Rq & _ & Q).
      destruct (holder_call (n_object v i) (n_object v) (n_now v) info eff true i (n_cache v) t) as (n & o' & Nw & In & Co' & _); [|apply G|exact Lk|reflexivity|].
      { cbn [conn]. unfold local. cbn [facing cs_lock cs_threads cs_header cs_out cs_pending cs_cache cs_in cs_buf]. fold s. rewrite Lk. split; [exact Qi|]. exists o, rq. repeat (split; [assumption || reflexivity|]). exact Q. }
      fold s in Co'. rewrite Co in Co'. injection Co' as <-. unfold mark in Q. rewrite Nw in Q.
      split; [intros u Nu; destruct (Nat.eq_dec u t) as [->|D]; [reflexivity|elim Nu; apply Qi; exact D]|]. split; [intros u E; injection E as <-; exists o; exact Co|]. split.
      * destruct (eff n) as [r|] eqn:Ef.
        -- left. cbn [cs_pending cs_out]. destruct Q as (Qp & Qo & _). fold s in Eo. rewrite Qo in Eo. symmetry in Eo. apply app_eq_nil in Eo. destruct Eo as [-> _]. rewrite Qp. reflexivity.
        -- right. exists n, t, o, rq, (a' ++ left_of (cs_threads s t)). cbn [cs_lock cs_pending cs_out]. split; [exact In|]. split; [exact Ef|]. split; [reflexivity|]. split; [exact Rq|]. destruct Q as (Q & _). rewrite <- Q. fold s in Eo. rewrite Eo, <- !app_assoc. reflexivity.
      * fold s in Ei. unfold reading. cbn [cs_lock cs_threads cs_buf cs_in cs_pending cs_out]. destruct (eff n) as [r|] eqn:Ef.
        -- right. destruct Q as (Qp & Qo & Ql & Qr). fold s in Eo. rewrite Qo in Eo. symmetry in Eo. apply app_eq_nil in Eo. destruct Eo as [-> _]. exists t, n, o, r, b'. rewrite Qp. rewrite <- Ei. repeat (split; [assumption || reflexivity|]). exact Qr.
        -- left. destruct Q as (_ & Qb & Qn). rewrite Qn in Ei. symmetry in Ei. apply app_eq_nil in Ei. destruct Ei as [-> _]. rewrite Qb. reflexivity.
    + destruct Q as (Qi & Qo & Qp & Qb & Qn & _). fold s in Eo, Ei. rewrite Qo in Eo. rewrite Qn in Ei. symmetry in Eo, Ei. apply app_eq_nil in Eo, Ei. destruct Eo as [-> _]. destruct Ei as [-> _].
      split; [intros u Nu; elim Nu; apply Qi|]. split; [discriminate|]. split; left; cbn [cs_pending cs_out cs_buf cs_in]; [rewrite Qp|rewrite Qb]; reflexivity.
Qed.
Lemma ninv_steps : forall w, nsteps cl (many_started c h progs, []) w -> wf PMeta c -> (forall i, rq_cas (h i) = 0%Z) -> (c_cas c + zlen (snd w) + 1 < 2 ^ 63)%Z -> ninv w.
Proof.
  intros w S. remember (many_started c h progs, @nil nevent) as v0 eqn:E0. induction S as [w|v u w S IH St]; intros W H0 Hc; subst.
  - exists [], (fun _ => None), (fun _ => None). cbn [fst snd many_started n_cache n_object n_up n_now n_todo n_next].
    split; [split; [reflexivity|split; intros M1; intros; destruct M1; discriminate]|]. split; [reflexivity|]. split; [constructor|]. split; [split; [exact W|reflexivity]|]. split; [cbn; lia|]. split; [constructor|]. split; [intros n []|].
    split; [discriminate|]. split; [intros n _ k o r []|]. split; [discriminate|]. split; [exact H0|]. split; [intro t; reflexivity|]. split; [intro t; unfold goro; intro i; reflexivity|].
    intro i. cbn [conn]. unfold local, quiet. cbn. repeat split; reflexivity.
  - specialize (IH eq_refl W H0). destruct St as [v L t i o os Nw Td|v L i s' S' Lg|v L i t n o r s' S' Lg Nw|v L d D|v L i a a' b b' Up Eo Ei s|v L i t n o rq os Up s Th Ne Nw|v L i t n o os Up s Th Re Nw];
      (assert (Iv : ninv (v, L)) by (apply IH; cbn [snd] in *; try rewrite zlen_app in Hc; unfold zlen in *; cbn [length] in *; lia)).
    + apply ninv_begin; assumption.
    + apply ninv_inside; [exact Iv| |exact S'|exact Lg]. exact Hc.
    + eapply ninv_end; eassumption.
    + apply ninv_time; assumption.
    + eapply ninv_loss; eassumption.
    + apply (ninv_fail v L i t n o (Sending o rq) os); try assumption; [reflexivity|]. right. split; [reflexivity|]. split; [reflexivity|]. exact Ne.
    + apply (ninv_fail v L i t n o (Waiting o) os); try assumption; [reflexivity|]. left. split; reflexivity.
Qed.
End Many.

(** ** The theorems *)
Theorem C100_clients_of_any_protocol_are_one_cache : forall pr name c h progs v L,
  wf PMeta c -> (forall t, Forall (fun x => whole (pr (fst x)) c (snd x) /\ common (snd x)) (progs t)) -> (forall i, rq_cas (h i) = 0%Z) -> (c_cas c + zlen L + 1 < 2 ^ 63)%Z ->
  nsteps (speaking pr name) (many_started c h progs, []) (v, L) ->
  (exists M, moments_of L M /\ Forall2 agrees (snd (exact_moments pr name c M)) (results M))
  /\ NoDup (numbers L) /\ forall t, exists rest, called t L ++ rest = progs t.
Proof.
  intros pr name c h progs v L W Hl H0 Hc S. destruct (ninv_steps pr name c h progs Hl _ S W H0 Hc) as (M & info & eff & Ri & _ & Ag & _ & _ & Nd & _ & _ & _ & _ & _ & Cd & _).
  split; [exists M; split; assumption|]. split; [exact Nd|]. intro t. eexists. apply Cd.
Qed.
Print Assumptions C100_clients_of_any_protocol_are_one_cache.

Lemma began_in : forall L t n i o, In (NBegin n t i o) L -> In (i, o) (called t L).
Proof. intros L t n i o H. unfold called. apply in_flat_map. exists (NBegin n t i o). split; [exact H|]. cbn. rewrite Nat.eqb_refl. left. reflexivity. Qed.
Lemma saw_in : forall M e, In (Saw e) M -> In e (saw_only M).
Proof. intros M e H. unfold saw_only. apply in_flat_map. exists (Saw e). split; [exact H|left; reflexivity]. Qed.
Lemma in_saw : forall M e, In e (saw_only M) -> In (Saw e) M.
Proof. intros M e H. unfold saw_only in H. apply in_flat_map in H. destruct H as ([e'|n i o r] & H1 & H2); [destruct H2 as [->|[]]; exact H1|destruct H2]. Qed.
Lemma took_began : forall L M n i o r, moments_of L M -> In (Took n i o r) M -> exists t, In (NBegin n t i o) L.
Proof.
  intros L M n i o r (Es & A & _) Im. apply in_split in Im. destruct Im as (M1 & M2 & Em). destruct (A _ _ _ _ _ _ Em) as [(t & Ib) _]. exists t. rewrite <- Es. apply saw_in. rewrite Em. apply in_app_iff. left. exact Ib.
Qed.
Lemma exact_moments_plain : forall pr name M c, (forall n i o r c, In (Took n i o r) M -> exact_step (pr i) (name i) 0 c o = spec_step (pr i) (name i) c o) -> exact_moments pr name c M = plain_moments pr name c M.
Proof.
  intros pr name M. induction M as [|[[n t i o|n r|d|i]|n i o r] M IH]; intros c H; cbn [exact_moments plain_moments]; try (apply IH; intros n' i' o' r' c' Im; apply (H n' i' o' r' c'); right; exact Im); [reflexivity|].
  rewrite (H n i o r c) by (left; reflexivity). rewrite IH; [reflexivity|]. intros n' i' o' r' c' Im. apply (H n' i' o' r' c'). right. exact Im.
Qed.
(** As long as no meta client deletes or touches, that is the cache of Spec.v. *)
Theorem C100_without_meta_delete_and_touch_the_plain_cache : forall pr name c h progs v L,
  wf PMeta c -> (forall t, Forall (fun x => whole (pr (fst x)) c (snd x) /\ common (snd x)) (progs t)) ->
  (forall t i o, In (i, o) (progs t) -> pr i = PMeta -> match o with ODelete _ | OTouch _ _ => False | _ => True end) ->
  (forall i, rq_cas (h i) = 0%Z) -> (c_cas c + zlen L + 1 < 2 ^ 63)%Z ->
  nsteps (speaking pr name) (many_started c h progs, []) (v, L) ->
  exists M, moments_of L M /\ Forall2 agrees (snd (plain_moments pr name c M)) (results M).
Proof.
  intros pr name c h progs v L W Hl Hm H0 Hc S. destruct (C100_clients_of_any_protocol_are_one_cache pr name c h progs v L W Hl H0 Hc S) as ((M & Mo & Ag) & _ & Cd).
  exists M. split; [exact Mo|]. rewrite <- exact_moments_plain; [exact Ag|]. intros n i o r c' Im. destruct (took_began _ _ _ _ _ _ Mo Im) as [t Ib]. apply began_in in Ib.
  destruct (Cd t) as [rest E]. assert (Ip : In (i, o) (progs t)) by (rewrite <- E; apply in_app_iff; left; exact Ib).
  pose proof (proj1 (Forall_forall _ _) (Hl t) _ Ip) as [(Ll & On & Bn) _]. cbn [fst snd] in *. apply exact_plain; [|exact Ll|].
  - intro Ep. specialize (Hm t i o Ip Ep). destruct o; try contradiction; try exact Logic.I. rewrite Ep in On. discriminate On.
  - intro Ep. specialize (Bn Ep). destruct o; auto.
Qed.
Print Assumptions C100_without_meta_delete_and_touch_the_plain_cache.

(** ** Compare and swap between protocols *)
Lemma exact_set : forall p name c i, exact_step p name 0 c (OSet i) = spec_step PText [] c (OSet i).
Proof. intros p name c i. destruct p; reflexivity. Qed.
Lemma exact_origin : forall p name c c0 o k e, whole p c0 o -> c_map (fst (exact_step p name 0 c o)) k = Some e ->
  (exists e0, c_map c k = Some e0 /\ e_cas e = e_cas e0) \/ (e_cas e = c_cas c + 1 /\ c_cas (fst (exact_step p name 0 c o)) = c_cas c + 1)%Z.
Proof.
  intros p name c c0 o k e (Ll & On & Bn) H.
  assert (Cr : forall v f x k', c_map (put c k' v f x) k = Some e -> (exists e0, c_map c k = Some e0 /\ e_cas e = e_cas e0) \/ (e_cas e = c_cas c + 1 /\ c_cas (put c k' v f x) = c_cas c + 1)%Z).
  { intros v f x k' X. unfold put in X. cbn [c_map] in X. unfold put_entry in X. destruct (beq k k'); [injection X as <-; right; split; reflexivity|left; exists e; split; [exact X|reflexivity]]. }
  destruct p.
  - exact (entry_origin name c o k e H).
  - destruct o; try (match goal with |- context [exact_step PMeta name 0 c ?x] => exact (entry_origin [] c x k e H) end).
    + cbn [exact_step meta_exact fst] in *. unfold cache_invalidate in *. destruct (lookup c k0); cbn [fst c_map c_cas] in *; [|left; exists e; split; [exact H|reflexivity]].
      unfold put_entry in H. destruct (beq k k0); [injection H as <-; right; split; reflexivity|left; exists e; split; [exact H|reflexivity]].
  - rewrite exact_plain in *; try discriminate; try exact Ll; try (intros _; specialize (Bn eq_refl); destruct o; auto; fail).
    destruct o; try (match goal with |- context [spec_step PBinary name c ?x] => exact (entry_origin name c x k e H) end); cbn [spec_step] in *; unfold spec_delta in *.
    + destruct (lookup c k0) eqn:Lk; [|cbn [fst] in *; exact (Cr _ _ _ _ H)]. apply (entry_origin name c (OIncr k0 delta expiration) k e). cbn [spec_step]. unfold spec_delta. exact H.
    + destruct (lookup c k0) eqn:Lk; [|cbn [fst] in *; exact (Cr _ _ _ _ H)]. apply (entry_origin name c (ODecr k0 delta expiration) k e). cbn [spec_step]. unfold spec_delta. exact H.
Qed.
Lemma exact_bounded : forall p name c c0 o, whole p c0 o -> bounded c -> bounded (fst (exact_step p name 0 c o)).
Proof.
  intros p name c c0 o Wh Bd k e H. pose proof (cas_exact_step p name 0 c o). destruct (exact_origin _ _ _ _ _ _ _ Wh H) as [(e0 & E & ->)|[-> ->]]; [apply Bd in E; lia|lia].
Qed.
Lemma exact_used : forall p name c c0 o k x, whole p c0 o -> used_up c k x -> used_up (fst (exact_step p name 0 c o)) k x.
Proof.
  intros p name c c0 o k x Wh [Lx Ux]. pose proof (cas_exact_step p name 0 c o). split; [lia|]. intros e H1. destruct (exact_origin _ _ _ _ _ _ _ Wh H1) as [(e0 & E & ->)|[-> _]]; [apply Ux; exact E|lia].
Qed.
Lemma moments_keep : forall (P : cache -> Prop) pr name c0 M, (forall i c o, whole (pr i) c0 o -> P c -> P (fst (exact_step (pr i) (name i) 0 c o))) -> (forall c d, P c -> P (tick c d)) ->
  (forall n i o r, In (Took n i o r) M -> whole (pr i) c0 o) -> forall c, P c -> P (fst (exact_moments pr name c M)).
Proof.
  intros P pr name c0 M Hs Ht. induction M as [|[[n t i o|n r|d|i]|n i o r] M IH]; intros Hw c Hp; cbn [exact_moments fst]; try (apply IH; [intros n' i' o' r' Im; apply (Hw n' i' o' r'); right; exact Im|]); auto.
  apply Hs; [apply (Hw n i o r); left; reflexivity|exact Hp].
Qed.
Lemma moments_length : forall pr name M c, length (snd (exact_moments pr name c M)) = length (results M).
Proof. intros pr name M. induction M as [|[[n t i o|n r|d|i]|n i o r] M IH]; intro c; cbn; try apply IH; [reflexivity|]. f_equal. apply IH. Qed.
Lemma swaps_clash : forall pr name c0 c M1 n j i r M2 n' j' i' r' M3, bounded c -> it_key i = it_key i' -> it_cas i = it_cas i' -> it_cas i <> 0%Z ->
  let M := M1 ++ Took n j (OSet i) (Ok r) :: M2 ++ Took n' j' (OSet i') (Ok r') :: M3 in (forall n i o r, In (Took n i o r) M -> whole (pr i) c0 o) ->
  Forall2 agrees (snd (exact_moments pr name c M)) (results M) -> False.
Proof.
  intros pr name c0 c M1 n j i r M2 n' j' i' r' M3 Bd Ek Ex Nz M Hw Ag. unfold M in Ag. rewrite moments_app, results_app in Ag. cbn [snd] in Ag. apply Forall2_split in Ag; [|apply moments_length]. destruct Ag as [_ Ag].
  cbn [results flat_map app] in Ag. fold (results (M2 ++ Took n' j' (OSet i') (Ok r') :: M3)) in Ag. cbn [exact_moments snd] in Ag. apply F2_cons in Ag. destruct Ag as [A1 Ag].
  set (c1 := fst (exact_moments pr name c M1)) in *. assert (B1 : bounded c1).
  { unfold c1. apply (moments_keep bounded pr name c0); [intros; eapply exact_bounded; eassumption|intros c' d B' k e H; exact (B' k e H)| |exact Bd]. intros n0 i0 o0 r0 Im. apply (Hw n0 i0 o0 r0). unfold M. apply in_app_iff. left. exact Im. }
  rewrite exact_set in *. apply (cas_set_uses [] c1 i r B1 Nz) in A1. set (c2 := fst (spec_step PText [] c1 (OSet i))) in *.
  rewrite moments_app, results_app in Ag. cbn [snd] in Ag. apply Forall2_split in Ag; [|apply moments_length]. destruct Ag as [_ Ag]. cbn [results flat_map app] in Ag. cbn [exact_moments snd] in Ag. apply F2_cons in Ag. destruct Ag as [A2 _].
  rewrite exact_set in A2. refine (used_refuses [] _ i' r' _ _ A2); [|congruence]. rewrite <- Ek, <- Ex.
  apply (moments_keep (fun c => used_up c (it_key i) (it_cas i)) pr name c0); [intros; eapply exact_used; eassumption|intros c' d U; exact U| |exact A1].
  intros n0 i0 o0 r0 Im. apply (Hw n0 i0 o0 r0). unfold M. apply in_app_iff. right. right. apply in_app_iff. left. exact Im.
Qed.
(** Of the Sets of one item with one cas number, by clients of whatever protocols, one succeeds. *)
Theorem C100_one_compare_and_swap_wins_across_protocols : forall pr name c h progs v L n t i item r n' t' i' item' r',
  wf PMeta c -> (forall t, Forall (fun x => whole (pr (fst x)) c (snd x) /\ common (snd x)) (progs t)) -> (forall i, rq_cas (h i) = 0%Z) -> (c_cas c + zlen L + 1 < 2 ^ 63)%Z ->
  nsteps (speaking pr name) (many_started c h progs, []) (v, L) ->
  In (NBegin n t i (OSet item)) L -> In (NBegin n' t' i' (OSet item')) L -> n <> n' ->
  it_key item = it_key item' -> it_cas item = it_cas item' -> it_cas item <> 0%Z ->
  In (NEnd n (Ok r)) L -> ~ In (NEnd n' (Ok r')) L.
Proof.
  intros pr name c h progs v L n t i item r n' t' i' item' r' W Hl H0 Hc S B1 B2 Dn Ek Ex Nz E1 E2.
  destruct (C100_clients_of_any_protocol_are_one_cache pr name c h progs v L W Hl H0 Hc S) as ((M & Mo & Ag) & Nd & Cd).
  assert (Bd : bounded c) by (intros k e H; destruct W as (_ & _ & _ & W); apply W in H; destruct H as (_ & _ & H & _); lia).
  assert (Hw : forall n i o r, In (Took n i o r) M -> whole (pr i) c o).
  { intros n0 i0 o0 r0 Im. destruct (took_began _ _ _ _ _ _ Mo Im) as [t0 Ib]. apply began_in in Ib. destruct (Cd t0) as [rest E]. assert (Ip : In (i0, o0) (progs t0)) by (rewrite <- E; apply in_app_iff; left; exact Ib).
    exact (proj1 (proj1 (Forall_forall _ _) (Hl t0) _ Ip)). }
  assert (K : forall n t i it r, In (NBegin n t i (OSet it)) L -> In (NEnd n (Ok r)) L -> exists j, In (Took n j (OSet it) (Ok r)) M).
  { clear - Mo Nd. intros n t i it r Hb He. destruct (Mo) as (Es & A & C). rewrite <- Es in He. apply in_saw in He. apply in_split in He. destruct He as (M1 & M2 & Em). destruct (C _ _ _ _ Em) as [X|(j & o & Io)]; [discriminate X|].
    assert (Io' : In (Took n j o (Ok r)) M) by (rewrite Em; apply in_app_iff; left; exact Io). destruct (took_began _ _ _ _ _ _ Mo Io') as [t2 Ib].
    exists j. rewrite (begun_once L n t i (OSet it) t2 j o Nd Hb Ib). exact Io'. }
  destruct (K _ _ _ _ _ B1 E1) as [j K1]. destruct (K _ _ _ _ _ B2 E2) as [j' K2]. apply in_split in K1. destruct K1 as (M1 & M2 & Em). rewrite Em in K2. apply in_app_iff in K2. destruct K2 as [K2|[K2|K2]].
  - apply in_split in K2. destruct K2 as (M3 & M4 & ->). rewrite <- app_assoc in Em. cbn [app] in Em. rewrite Em in Ag, Hw. refine (swaps_clash pr name c c _ _ _ item' r' _ _ _ item r _ Bd _ _ _ Hw Ag); congruence.
  - injection K2 as X _ _ _. congruence.
  - apply in_split in K2. destruct K2 as (M3 & M4 & ->). rewrite Em in Ag, Hw. exact (swaps_clash pr name c c _ _ _ item r _ _ _ item' r' _ Bd Ek Ex Nz Hw Ag).
Qed.
Print Assumptions C100_one_compare_and_swap_wins_across_protocols.

(** The hypotheses are met: a text client sets a counter, a binary client increments it and loses its
    connection, a meta client reads it; and a text client and a meta client swap. *)
Definition mixed (i : nat) : proto := match i with O => PText | 1 => PMeta | _ => PBinary end.
Definition mixed_names (i : nat) : bytes := B "a".
Definition three_calls (t : nat) : list (nat * op) :=
  match t with O => [(0, OSet (demo_item "n" "7" 7 0 0))] | 1 => [(1, OGet (B "n"))] | 2 => [(2, OIncr (B "n") 1 0)] | _ => [] end.
Definition mixed_log (r : outcome result) : list nevent :=
  [NBegin 0 0 0 (OSet (demo_item "n" "7" 7 0 0)); NEnd 0 (Ok RUnit); NBegin 1 2 2 (OIncr (B "n") 1 0); NEnd 1 (Ok (RInt 8)); NLoss 2; NTime 3; NBegin 2 1 1 (OGet (B "n")); NEnd 2 r].
Lemma demo_mixed : exists v r, nsteps (speaking mixed mixed_names) (many_started demo_c (fun _ => reset_header) three_calls, []) (v, mixed_log r)
  /\ match r with Ok (RItem i) => it_value i = B "8" | _ => False end.
Proof.
  eexists. eexists. split.
  - unfold many_started, started, mixed_log.
    nquick ltac:(eapply (N_begin _ _ _ 0 0); reflexivity).
    nquick ltac:(eapply (m_lock _ _ _ 0 0); [reflexivity|reflexivity|reflexivity|vm_compute; reflexivity]).
    nquick ltac:(eapply (m_send _ _ _ 0 0); reflexivity). nquick ltac:(eapply (m_sent _ _ _ 0 0); reflexivity). nquick ltac:(eapply (m_out _ _ _ 0); reflexivity).
    nquick ltac:(eapply (m_daemon _ _ _ 0); [reflexivity|vm_compute; reflexivity]). nquick ltac:(eapply (m_in _ _ _ 0); reflexivity).
    nquick ltac:(eapply (m_end _ _ _ 0 0 0); [reflexivity|vm_compute; reflexivity|discriminate|reflexivity]).
    nquick ltac:(eapply (N_begin _ _ _ 2 2); reflexivity).
    nquick ltac:(eapply (m_lock _ _ _ 2 2); [reflexivity|reflexivity|reflexivity|vm_compute; reflexivity]).
    nquick ltac:(eapply (m_send _ _ _ 2 2); reflexivity). nquick ltac:(eapply (m_sent _ _ _ 2 2); reflexivity). nquick ltac:(eapply (m_out _ _ _ 2); reflexivity).
    nquick ltac:(eapply (m_daemon _ _ _ 2); [reflexivity|vm_compute; reflexivity]). nquick ltac:(eapply (m_in _ _ _ 2); reflexivity).
    nquick ltac:(eapply (m_end _ _ _ 2 2 1); [reflexivity|vm_compute; reflexivity|discriminate|reflexivity]).
    nquick ltac:(eapply (N_loss _ _ _ 2 [] [] [] []); [reflexivity|reflexivity|reflexivity]).
    nquick ltac:(eapply (N_time _ _ _ 3); discriminate).
    nquick ltac:(eapply (N_begin _ _ _ 1 1); reflexivity).
    nquick ltac:(eapply (m_lock _ _ _ 1 1); [reflexivity|reflexivity|reflexivity|vm_compute; reflexivity]).
    nquick ltac:(eapply (m_send _ _ _ 1 1); reflexivity). nquick ltac:(eapply (m_sent _ _ _ 1 1); reflexivity). nquick ltac:(eapply (m_out _ _ _ 1); reflexivity).
    nquick ltac:(eapply (m_daemon _ _ _ 1); [reflexivity|vm_compute; reflexivity]). nquick ltac:(eapply (m_in _ _ _ 1); reflexivity).
    nquick ltac:(eapply (m_end _ _ _ 1 1 2); [reflexivity|vm_compute; reflexivity|discriminate|reflexivity]). apply ns_refl.
  - reflexivity.
Qed.
Lemma demo_mixed_swaps : exists v, nsteps (speaking mixed mixed_names) (many_started one_item (fun _ => reset_header) two_swaps, []) (v, swap_log).
Proof.
  eexists. unfold many_started, started, swap_log, one_item. set (c1 := fst (spec_step PText (B "a") demo_c (OSet (demo_item "hello" "one" 7 0 0)))).
  nquick ltac:(eapply (N_begin _ _ _ 0 0); reflexivity). nquick ltac:(eapply (N_begin _ _ _ 1 1); reflexivity).
  nquick ltac:(eapply (m_lock _ _ _ 0 0); [reflexivity|reflexivity|reflexivity|vm_compute; reflexivity]).
  nquick ltac:(eapply (m_lock _ _ _ 1 1); [reflexivity|reflexivity|reflexivity|vm_compute; reflexivity]).
  nquick ltac:(eapply (m_send _ _ _ 0 0); reflexivity). nquick ltac:(eapply (m_sent _ _ _ 0 0); reflexivity).
  nquick ltac:(eapply (m_send _ _ _ 1 1); reflexivity). nquick ltac:(eapply (m_sent _ _ _ 1 1); reflexivity). nquick ltac:(eapply (m_out _ _ _ 1); reflexivity).
  nquick ltac:(eapply (m_daemon _ _ _ 1); [reflexivity|vm_compute; reflexivity]). nquick ltac:(eapply (m_in _ _ _ 1); reflexivity).
  nquick ltac:(eapply (m_end _ _ _ 1 1 1); [reflexivity|vm_compute; reflexivity|discriminate|reflexivity]).
  nquick ltac:(eapply (N_loss _ _ _ 1 [] [] [] []); [reflexivity|reflexivity|reflexivity]).
  nquick ltac:(eapply (m_out _ _ _ 0); reflexivity).
  nquick ltac:(eapply (m_daemon _ _ _ 0); [reflexivity|vm_compute; reflexivity]). nquick ltac:(eapply (m_in _ _ _ 0); reflexivity).
  nquick ltac:(eapply (m_end _ _ _ 0 0 0); [reflexivity|vm_compute; reflexivity|discriminate|reflexivity]). apply ns_refl.
Qed.
Lemma demo_meta_wf : wf PMeta demo_c.
Proof. apply demo_wf; [apply demo_config|lia]. Qed.
Lemma one_item_meta : wf PMeta one_item.
Proof. unfold one_item. apply wf_common_spec; [exact demo_meta_wf|]. split; [split; [reflexivity|reflexivity]|split; [discriminate|reflexivity]]. Qed.
Example C100_met :
  (exists v r, nsteps (speaking mixed mixed_names) (many_started demo_c (fun _ => reset_header) three_calls, []) (v, mixed_log r) /\ match r with Ok (RItem i) => it_value i = B "8" | _ => False end)
  /\ wf PMeta demo_c /\ (forall t, Forall (fun x => whole (mixed (fst x)) demo_c (snd x) /\ common (snd x)) (three_calls t)) /\ rq_cas reset_header = 0%Z /\ (c_cas demo_c + 8 + 1 < 2 ^ 63)%Z
  /\ (forall t i o, In (i, o) (three_calls t) -> mixed i = PMeta -> match o with ODelete _ | OTouch _ _ => False | _ => True end)
  /\ (exists v, nsteps (speaking mixed mixed_names) (many_started one_item (fun _ => reset_header) two_swaps, []) (v, swap_log))
  /\ wf PMeta one_item /\ (forall t, Forall (fun x => whole (mixed (fst x)) one_item (snd x) /\ common (snd x)) (two_swaps t)) /\ (c_cas one_item + 5 + 1 < 2 ^ 63)%Z.
Proof.
  split; [exact demo_mixed|]. split; [exact demo_meta_wf|]. split.
  { intros [|[|[|t]]]; repeat constructor; cbn [fst snd mixed whole legal one_command]; try discriminate; try legal_tac. all: try (intro; exact Logic.I). }
  split; [reflexivity|]. split; [reflexivity|]. split.
  { intros t i o H E. destruct t as [|[|[|t]]]; cbn in H; try contradiction; destruct H as [H|[]]; injection H as <- <-; exact Logic.I. }
  split; [exact demo_mixed_swaps|]. split; [exact one_item_meta|]. split; [|reflexivity].
  intros [|[|t]]; repeat constructor; cbn [fst snd mixed whole legal one_command]; try discriminate; try legal_tac. 
Qed.
