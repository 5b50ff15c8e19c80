(** * C07, continued: what Flush and Version have done when they fail. *)
From Verif Require Import GoBytes GoNum GoIO Item ClientText ClientMeta ClientBinary Cache Daemon Spec Call Guard
  Hash Ring RingSpec RingData Pool PoolSpec PLib PCache PText PClient PRing PPool PMulti PropPool.
Local Open Scope nat_scope.

Section More.
Context {ST : Type} (step : ST -> op -> ST * outcome result).
Lemma flush_cons : forall s order w, pool_flush step (s :: order) w =
  let w1 := upd w (sv_id s) (fst (step (w (sv_id s)) OFlush)) in
  match snd (step (w (sv_id s)) OFlush) with Ok _ => pool_flush step order w1 | Err e => (w1, Err e) | Panic => (w1, Panic) end.
Proof. intros s order w. unfold pool_flush. cbn [each]. assert (X : drop_result (server_call step w s OFlush) = (upd w (sv_id s) (fst (step (w (sv_id s)) OFlush)), match snd (step (w (sv_id s)) OFlush) with Ok _ => Ok tt | Err e => Err e | Panic => Panic end)) by reflexivity.
  rewrite X. destruct (step (w (sv_id s)) OFlush) as [st [x|x|]]; reflexivity. Qed.
Lemma flush_stops : forall order w w' e, NoDup (map sv_id order) -> pool_flush step order w = (w', Err e) ->
  exists before sv rest, order = before ++ sv :: rest /\ snd (step (w (sv_id sv)) OFlush) = Err e
    /\ (forall s, In s before -> (exists x, snd (step (w (sv_id s)) OFlush) = Ok x) /\ w' (sv_id s) = fst (step (w (sv_id s)) OFlush))
    /\ (forall i, ~ In i (map sv_id (before ++ [sv])) -> w' i = w i).
Proof.
  induction order as [|s order IH]; intros w w' e N E; [discriminate E|]. rewrite flush_cons in E. cbv zeta in E.
  inversion N as [|? ? N1 N2]; subst. destruct (step (w (sv_id s)) OFlush) as [st o] eqn:St. cbn [fst snd] in E. destruct o as [x|x|].
  - destruct (IH _ _ _ N2 E) as (before & sv & rest & -> & E1 & E2 & E3). exists (s :: before), sv, rest. split; [reflexivity|].
    assert (D : forall u, In u (before ++ sv :: rest) -> sv_id u <> sv_id s) by (intros u I Q; apply N1; rewrite <- Q; apply in_map; exact I).
    rewrite upd_other in E1 by (apply D, in_app_iff; right; left; reflexivity). split; [exact E1|]. split.
    + intros u [<-|I].
      * rewrite St. split; [exists x; reflexivity|]. cbn [fst]. rewrite E3; [apply upd_same|]. intro I. apply N1. rewrite map_app in *. apply in_app_iff in I. apply in_app_iff. destruct I as [I|[I|[]]]; [left; exact I|right; left; exact I].
      * destruct (E2 u I) as [X Y]. rewrite upd_other in X, Y by (apply D, in_app_iff; left; exact I). split; assumption.
    + intros i I. cbn [app map In] in I. rewrite E3 by tauto. apply upd_other. intro Q. apply I. left. exact (eq_sym Q).
  - injection E as <- <-. exists [], s, order. split; [reflexivity|]. rewrite St. split; [reflexivity|]. split; [contradiction|]. intros i I. apply upd_other. intro Q. apply I. left. exact (eq_sym Q).
  - discriminate E.
Qed.
Lemma version_stops : forall order w acc w' m e, NoDup (map sv_id order) -> pool_version step order w acc = (w', m, Err e) ->
  exists before sv rest vs, order = before ++ sv :: rest /\ snd (step (w (sv_id sv)) OVersion) = Err e
    /\ Forall2 (fun s v => snd (step (w (sv_id s)) OVersion) = Ok (RStr v)) before vs /\ m = acc ++ combine (map sv_name before) vs
    /\ (forall i, ~ In i (map sv_id (before ++ [sv])) -> w' i = w i).
Proof.
  induction order as [|s order IH]; intros w acc w' m e N E; [discriminate E|]. cbn [pool_version] in E. unfold server_call in E.
  inversion N as [|? ? N1 N2]; subst. destruct (step (w (sv_id s)) OVersion) as [st o] eqn:St. cbn [fst snd] in E. destruct o as [x|x|].
  - destruct x as [y|y| |y|v]; try discriminate E.
    destruct (IH _ _ _ _ _ N2 E) as (before & sv & rest & vs & -> & E1 & E2 & -> & E3). exists (s :: before), sv, rest, (v :: vs). split; [reflexivity|].
    assert (D : forall u, In u (before ++ sv :: rest) -> sv_id u <> sv_id s) by (intros u I Q; apply N1; rewrite <- Q; apply in_map; exact I).
    rewrite upd_other in E1 by (apply D, in_app_iff; right; left; reflexivity). split; [exact E1|]. split; [|split].
    + constructor; [rewrite St; reflexivity|]. assert (D' : forall u, In u before -> sv_id u <> sv_id s) by (intros u I; apply D, in_app_iff; left; exact I). clear - E2 D'.
      induction E2 as [|u y us ys X E2 IH]; constructor; [|apply IH; intros z I; apply D'; right; exact I]. rewrite upd_other in X by (apply D'; left; reflexivity). exact X.
    + rewrite <- app_assoc. reflexivity.
    + intros i I. cbn [app map In] in I. rewrite E3 by tauto. apply upd_other. intro Q. apply I. left. exact (eq_sym Q).
  - injection E as <- <- <-. exists [], s, order, []. split; [reflexivity|]. rewrite St. split; [reflexivity|]. split; [constructor|]. split; [cbn; symmetry; apply app_nil_r|].
    intros i I. apply upd_other. intro Q. apply I. left. exact (eq_sym Q).
  - discriminate E.
Qed.

(** A Flush that fails has flushed the servers asked before the one that failed, and not asked those after
    it; its error is that server's. *)
Theorem C07_flush_stops_at_the_first_failure : forall servers nodes order w w' e,
  good_pool servers nodes -> Permutation order (map_entries servers) -> pool_flush step order w = (w', Err e) ->
  exists before sv rest, order = before ++ sv :: rest /\ snd (step (w (sv_id sv)) OFlush) = Err e
    /\ (forall s, In s before -> (exists x, snd (step (w (sv_id s)) OFlush) = Ok x) /\ w' (sv_id s) = fst (step (w (sv_id s)) OFlush))
    /\ (forall s, In s rest -> w' (sv_id s) = w (sv_id s)).
Proof.
  intros servers nodes order w w' e GP P E. destruct (order_props _ _ _ GP P) as [No _]. destruct (flush_stops _ _ _ _ No E) as (before & sv & rest & -> & A & C & D).
  exists before, sv, rest. split; [reflexivity|]. split; [exact A|]. split; [exact C|]. intros s I. apply D. intro X. rewrite map_app, map_cons in No.
  apply (NoDup_remove_2 (map sv_id before) (map sv_id rest) (sv_id sv)) in No as No2. apply NoDup_remove_1 in No. rewrite map_app in X. apply in_app_iff in X. destruct X as [X|[X|[]]].
  - clear - No X I. induction before as [|u before IH]; [destruct X|]. cbn [map app] in No. inversion No as [|? ? N1 N2]; subst. destruct X as [X|X]; [|exact (IH N2 X)].
    apply N1, in_app_iff. right. rewrite X. apply in_map. exact I.
  - apply No2, in_app_iff. right. rewrite X. apply in_map. exact I.
Qed.
(** A Version that fails returns what the servers asked before the one that failed have answered. *)
Theorem C07_version_returns_what_it_has_on_failure : forall servers nodes order w w' m e,
  good_pool servers nodes -> Permutation order (map_entries servers) -> pool_version step order w [] = (w', m, Err e) ->
  exists before sv rest vs, order = before ++ sv :: rest /\ snd (step (w (sv_id sv)) OVersion) = Err e
    /\ Forall2 (fun s v => snd (step (w (sv_id s)) OVersion) = Ok (RStr v)) before vs /\ m = combine (map sv_name before) vs.
Proof.
  intros servers nodes order w w' m e GP P E. destruct (order_props _ _ _ GP P) as [No _]. destruct (version_stops _ _ _ _ _ _ No E) as (before & sv & rest & vs & A & C & D & F & _).
  exists before, sv, rest, vs. auto.
Qed.
End More.
Print Assumptions C07_flush_stops_at_the_first_failure.
Print Assumptions C07_version_returns_what_it_has_on_failure.
(** The hypotheses are met: the second server asked fails. *)
Example C07_failures_met : good_pool [sv_a; sv_b] (new_ring [sv_a; sv_b]) /\ Permutation [sv_b; sv_a] (map_entries [sv_a; sv_b])
  /\ (let x := pool_flush count_or_fail [sv_b; sv_a] (fun i => (0, Nat.eqb i 1)) in snd x = Err EIO /\ fst x 1 = (1, true))
  /\ (let x := pool_version count_or_fail [sv_b; sv_a] (fun i => (0, Nat.eqb i 1)) [] in snd x = Err EIO /\ snd (fst x) = [(sv_name sv_b, B "1.6")]).
Proof. split; [apply C05_met|]. split; [apply perm_swap|]. repeat split. Qed.
