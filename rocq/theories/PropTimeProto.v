(** * C98 for every protocol. *)
From Verif Require Import GoBytes GoNum GoIO Item ClientText ClientMeta ClientBinary Cache Daemon Spec Call Guard Exact Ring RingSpec Pool PoolSpec.
From Verif Require Import PLib RingData PDaemon PStream PCache PText PClient PropClient PropExact PropReply PReply PropWriter PLifecycle PropLifecycle Conc PropConc PropHandler PRing PropRing PPool PMulti PropPool PoolConc PropPoolConc TimeConc PropTimeConc TimePool PropTimePool ManyConc PropManyConc ManyProto PropManyProto TimeProto.
Local Open Scope nat_scope.

Fixpoint caches_after (pr : nat -> proto) (name : nat -> bytes) (c : nat -> cache) (M : list mevent) : nat -> cache :=
  match M with
  | [] => c
  | Effect _ j o _ :: M' => caches_after pr name (put_at c j (fst (exact_step (pr j) (name j) 0 (c j) o))) M'
  | Logged (VTime d) :: M' => caches_after pr name (fun i => tick (c i) d) M'
  | Logged _ :: M' => caches_after pr name c M'
  end.
Lemma caches_after_app : forall pr name a b c, caches_after pr name c (a ++ b) = caches_after pr name (caches_after pr name c a) b.
Proof. intros pr name a. induction a as [|[[? ? ?|? ? ? ?|d]|t j o r] a IH]; intros b c; cbn [app caches_after]; try apply IH. reflexivity. Qed.
Lemma explained_exactly_app : forall pr name a b c, explained_exactly pr name c (a ++ b) <-> explained_exactly pr name c a /\ explained_exactly pr name (caches_after pr name c a) b.
Proof.
  intros pr name a. induction a as [|[[? ? ?|? ? ? ?|d]|t j o r] a IH]; intros b c; cbn [app explained_exactly caches_after]; try apply IH; [tauto|]. rewrite IH. tauto.
Qed.
Lemma local_aged : forall p name s c0 mk d, local p name s c0 mk -> local p name (aged s d) (tick c0 d) mk.
Proof.
  intros p name s c0 mk d Q. unfold local, quiet in *. cbn [aged cs_lock cs_threads cs_header cs_out cs_pending cs_cache cs_in cs_buf]. destruct (cs_lock s) as [u|].
  - destruct Q as (Qi & o & rq & Co & Rq & Ec & Q). split; [exact Qi|]. exists o, rq. rewrite Ec. repeat (split; [assumption || reflexivity|]). exact Q.
  - destruct Q as (Qi & Qo & Qp & Qb & Qn & Qc & Qh). rewrite Qc. repeat split; assumption.
Qed.

Section AnyProtocol.
Variables (pr : nat -> proto) (name : nat -> bytes) (c : nat -> cache) (h : nat -> req_header) (progs : nat -> prog).
Let cl (j : nat) : client := client_of (pr j) (name j).
Notation after := (caches_after pr name).
Notation explained_by := (explained_exactly pr name c).
Definition mine (t : nat) (M : list mevent) : list mevent := filter (of_goroutine t) M.
Definition goroutine_at (p : pstate) (M : list mevent) (mk : nat -> option (outcome result)) (t : nat) : Prop :=
  match ps_at p t with
  | None => mk t = None /\ (forall j, cs_threads (ps_server p j) t = resting) /\ makes (progs t) (made_by t (effects M)) (ps_prog p t) /\ closed t (mine t M)
  | Some (j, k) => (forall i, i <> j -> cs_threads (ps_server p i) t = resting) /\ exists o x, pending_of (cs_threads (ps_server p j) t) = [o] /\ whole (pr j) (c j) o /\ closed t x /\
      match mk t with
      | None => makes (progs t) (made_by t (effects M)) (Then j o k) /\ mine t M = x ++ [Logged (VBegin t j o)]
      | Some r => makes (progs t) (made_by t (effects M)) (k r) /\ mine t M = x ++ [Logged (VBegin t j o); Effect t j o r] /\ cs_lock (ps_server p j) = Some t
      end
  end.
Definition vinv (v : pstate * list vevent) : Prop :=
  let p := fst v in
  exists M mk cw, without_effects M = snd v /\ explained_by M /\ (forall j, after c M j = cw j)
    /\ (forall j, known (pr j) (c j) (cw j) /\ rq_cas (cs_header (ps_server p j)) = 0%Z /\ (c_cas (cw j) <= c_cas (c j) + zlen (answers M))%Z)
    /\ (forall t, goroutine_at p M mk t) /\ (forall j, local (pr j) (name j) (ps_server p j) (cw j) mk).
Lemma turns : forall p M mk, (forall t, goroutine_at p M mk t) -> forall t, in_turn t (mine t M).
Proof.
  intros p M mk G t. specialize (G t). unfold goroutine_at in G. destruct (ps_at p t) as [[j k]|].
  - destruct G as (_ & o & x & _ & _ & Cx & G). destruct (mk t) as [r|].
    + destruct G as (_ & -> & _). apply Cx. constructor.
    + destruct G as (_ & ->). apply Cx. constructor.
  - apply closed_turn, G.
Qed.
Lemma pending_whole : forall p M mk, (forall t, goroutine_at p M mk t) -> forall t j o, In o (pending_of (cs_threads (ps_server p j) t)) -> whole (pr j) (c j) o.
Proof.
  intros p M mk G t j o I. specialize (G t). unfold goroutine_at in G. destruct (ps_at p t) as [[i k]|].
  - destruct (Nat.eq_dec i j) as [->|Di].
    + destruct G as (_ & o' & x & Pe & Wh & _). rewrite Pe in I. destruct I as [<-|[]]. exact Wh.
    + destruct G as (G & _). rewrite (G j) in I by congruence. destruct I.
  - destruct G as (_ & G & _). rewrite (G j) in I. destruct I.
Qed.
Hypothesis legal_progs : forall t l j o k, makes (progs t) l (Then j o k) -> whole (pr j) (c j) o.

Lemma vinv_begin : forall p L t j o k, vinv (p, L) -> ps_at p t = None -> ps_prog p t = Then j o k ->
  vinv (mkP (put_at (ps_server p) j (enter (ps_server p j) t o)) (put_at (ps_at p) t (Some (j, k))) (put_at (ps_prog p) t Stop) (ps_log p), L ++ [VBegin t j o]).
Proof.
  intros p L t j o k (M & mk & cw & El & Ex & Aw & Wc & G & Lc) At Pg. cbn [fst snd] in *.
  pose proof (G t) as Gt. unfold goroutine_at in Gt. rewrite At in Gt. destruct Gt as (Mt & Rt & Mk & Ct). rewrite Pg in Mk.
  assert (Ef : effects (M ++ [Logged (VBegin t j o)]) = effects M) by (rewrite effects_app; cbn; apply app_nil_r).
  assert (An : answers (M ++ [Logged (VBegin t j o)]) = answers M) by (rewrite answers_app; cbn; apply app_nil_r).
  exists (M ++ [Logged (VBegin t j o)]), mk, cw. cbn [fst snd]. rewrite An. split; [rewrite without_app, El; reflexivity|]. split; [apply explained_exactly_app; split; [exact Ex|exact Logic.I]|]. split; [intro i; rewrite caches_after_app; apply Aw|]. split.
  { intro i. cbn [ps_server]. destruct (Nat.eq_dec i j) as [->|Di]; [rewrite put_same; exact (Wc j)|rewrite put_other by exact Di; exact (Wc i)]. }
  split.
  - intro u. unfold goroutine_at. cbn [ps_server ps_at ps_prog]. rewrite Ef. unfold mine. rewrite filter_snoc. cbn [of_goroutine]. destruct (Nat.eq_dec u t) as [->|D].
    + rewrite put_same, Nat.eqb_refl. split; [intros i Di; rewrite put_other by exact Di; apply Rt|]. exists o, (mine t M). rewrite put_same. cbn [enter cs_threads]. rewrite set_same. split; [reflexivity|].
      split; [exact (legal_progs _ _ _ _ _ Mk)|]. split; [exact Ct|]. rewrite Mt. split; [exact Mk|reflexivity].
    + rewrite !put_other by exact D. rewrite (proj2 (Nat.eqb_neq t u)) by congruence. rewrite app_nil_r. fold (mine u M).
      assert (Same : forall i, cs_threads (put_at (ps_server p) j (enter (ps_server p j) t o) i) u = cs_threads (ps_server p i) u).
      { intro i. destruct (Nat.eq_dec i j) as [->|Di]; [rewrite put_same; cbn [enter cs_threads]; apply set_other; exact D|rewrite put_other by exact Di; reflexivity]. }
      assert (Lk : forall i, cs_lock (put_at (ps_server p) j (enter (ps_server p j) t o) i) = cs_lock (ps_server p i)).
      { intro i. destruct (Nat.eq_dec i j) as [->|Di]; [rewrite put_same; reflexivity|rewrite put_other by exact Di; reflexivity]. }
      specialize (G u). unfold goroutine_at in G. destruct (ps_at p u) as [[i k']|].
      * destruct G as (G1 & o' & x & G2 & G3). split; [intros i' Di; rewrite Same; apply G1; exact Di|]. exists o', x. rewrite Same, Lk. split; [exact G2|exact G3].
      * destruct G as (G0 & G1 & G2). split; [exact G0|]. split; [intro i; rewrite Same; apply G1|exact G2].
  - intro i. cbn [ps_server]. destruct (Nat.eq_dec i j) as [->|Di]; [rewrite put_same; apply local_enter; [apply Rt|apply Lc]|rewrite put_other by exact Di; apply Lc].
Qed.
Lemma vinv_time : forall p L d, vinv (p, L) -> (0 <= d)%Z -> vinv (mkP (fun j => aged (ps_server p j) d) (ps_at p) (ps_prog p) (ps_log p), L ++ [VTime d]).
Proof.
  intros p L d (M & mk & cw & El & Ex & Aw & Wc & G & Lc) D. cbn [fst snd] in *.
  exists (M ++ [Logged (VTime d)]), mk, (fun j => tick (cw j) d). cbn [fst snd]. split; [rewrite without_app, El; reflexivity|].
  assert (Ef : effects (M ++ [Logged (VTime d)]) = effects M ++ [PTick d]) by (rewrite effects_app; reflexivity).
  assert (An : answers (M ++ [Logged (VTime d)]) = answers M) by (rewrite answers_app; cbn; apply app_nil_r).
  rewrite An. split; [apply explained_exactly_app; split; [exact Ex|exact Logic.I]|]. split; [|split; [|split]].
  - intro j. rewrite caches_after_app. cbn [caches_after]. rewrite Aw. reflexivity.
  - intro j. destruct (Wc j) as ([W Cf] & H0 & C). split; [split; [apply wf_tick; assumption|exact Cf]|]. split; [exact H0|exact C].
  - intro t. pose proof (G t) as Gt. unfold goroutine_at, mine in *. rewrite Ef, made_by_app, filter_snoc. cbn [of_goroutine ps_at ps_prog ps_server aged cs_threads cs_lock made_by flat_map]. rewrite !app_nil_r. exact Gt.
  - intro j. cbn [ps_server]. apply local_aged. apply Lc.
Qed.
Lemma vinv_end : forall p L j t o r k s', vinv (p, L) -> cstep (cl j) (ps_server p j) s' -> cs_log s' = cs_log (ps_server p j) ++ [LDone t o r] -> ps_at p t = Some (j, k) ->
  vinv (mkP (put_at (ps_server p) j s') (put_at (ps_at p) t None) (put_at (ps_prog p) t (k r)) (ps_log p ++ [PDone j t o r]), L ++ [VEnd t j o r]).
Proof.
  intros p L j t o r k s' (M & mk & cw & El & Ex & Aw & Wc & G & Lc) S Lg At. cbn [fst snd] in *.
  destruct (local_end (pr j) (name j) _ _ _ _ _ _ _ (Lc j) S Lg) as (Lk & Mr & Lk' & Lc').
  destruct (cstep_return _ _ _ _ _ _ S Lg) as (os & Pd & Td).
  pose proof (G t) as Gt. unfold goroutine_at in Gt. rewrite At, Mr in Gt. destruct Gt as (Rt & o' & x & Pt & Lo & Cx & Mk & Mx & _).
  rewrite Pt in Pd. injection Pd as -> <-.
  assert (Ef : effects (M ++ [Logged (VEnd t j o r)]) = effects M) by (rewrite effects_app; cbn; apply app_nil_r).
  assert (An : answers (M ++ [Logged (VEnd t j o r)]) = answers M) by (rewrite answers_app; cbn; apply app_nil_r).
  set (mk' := fun u => if Nat.eqb u t then None else mk u).
  exists (M ++ [Logged (VEnd t j o r)]), mk', cw. cbn [fst snd]. rewrite An. split; [rewrite without_app, El; reflexivity|]. split; [apply explained_exactly_app; split; [exact Ex|exact Logic.I]|]. split; [intro i; rewrite caches_after_app; apply Aw|]. split.
  { intro i. cbn [ps_server]. destruct (Nat.eq_dec i j) as [->|Di]; [rewrite put_same; destruct (Wc j) as (W1 & W2 & W3); split; [exact W1|]; split; [|exact W3]|rewrite put_other by exact Di; exact (Wc i)].
    apply (step_header (pr j) (name j) (c j) _ _ S W2). intros u o2 I2. exact (pending_whole _ _ _ G u j o2 I2). }
  split.
  - intro u. unfold goroutine_at. cbn [ps_server ps_at ps_prog]. rewrite Ef. unfold mine. rewrite filter_snoc. cbn [of_goroutine]. unfold mk'. destruct (Nat.eq_dec u t) as [->|D].
    + rewrite !put_same, Nat.eqb_refl. split; [reflexivity|]. split; [|split; [exact Mk|]].
      * intro i. destruct (Nat.eq_dec i j) as [->|Di]; [rewrite put_same; exact Td|rewrite put_other by exact Di; apply Rt; exact Di].
      * fold (mine t M). rewrite Mx, <- app_assoc. cbn [app]. apply closed_call. exact Cx.
    + rewrite !put_other by exact D. rewrite (proj2 (Nat.eqb_neq t u)) by congruence. rewrite (proj2 (Nat.eqb_neq u t)) by congruence. rewrite app_nil_r. fold (mine u M).
      assert (Rs : forall i, cs_threads (ps_server p i) u = resting -> cs_threads (put_at (ps_server p) j s' i) u = resting).
      { intros i E. destruct (Nat.eq_dec i j) as [->|Di]; [rewrite put_same; exact (cstep_resting _ _ _ _ S E)|rewrite put_other by exact Di; exact E]. }
      specialize (G u). unfold goroutine_at in G. destruct (ps_at p u) as [[i k']|].
      * destruct G as (G1 & o' & y & G2 & G3 & G4 & G5). split; [intros i' Di; apply Rs, G1; exact Di|]. exists o', y. split; [|split; [exact G3|split; [exact G4|]]].
        -- destruct (Nat.eq_dec i j) as [->|Di]; [rewrite put_same, (cstep_pending _ _ _ u S); [exact G2|right; exists t, o, r; split; [congruence|exact Lg]]|rewrite put_other by exact Di; exact G2].
        -- destruct (mk u) as [r'|]; [|exact G5]. destruct G5 as (G5 & G6 & G7). split; [exact G5|]. split; [exact G6|].
           destruct (Nat.eq_dec i j) as [->|Di]; [exfalso; rewrite Lk in G7; injection G7 as X; congruence|rewrite put_other by exact Di; exact G7].
      * destruct G as (G0 & G1 & G2). split; [exact G0|]. split; [intro i; apply Rs, G1|exact G2].
  - intro i. cbn [ps_server]. destruct (Nat.eq_dec i j) as [->|Di]; [rewrite put_same; apply Lc'|rewrite put_other by exact Di].
    apply (local_mk _ _ _ _ mk); [|apply Lc]. intros u Lu. unfold mk'. destruct (Nat.eqb_spec u t) as [->|_]; [|reflexivity]. exfalso.
    specialize (Lc i). unfold local in Lc. rewrite Lu, (Rt i Di) in Lc. destruct Lc as (_ & o' & rq & Co & _). discriminate Co.
Qed.
Lemma vinv_inside : forall p L j s', vinv (p, L) -> (c_cas (c j) + zlen L + 1 < 2 ^ 63)%Z -> cstep (cl j) (ps_server p j) s' -> cs_log s' = cs_log (ps_server p j) ->
  vinv (mkP (put_at (ps_server p) j s') (ps_at p) (ps_prog p) (ps_log p), L).
Proof.
  intros p L j s' (M & mk & cw & El & Ex & Aw & Wc & G & Lc) Lz S Lg. cbn [fst snd] in *.
  assert (Few : (zlen (answers M) <= zlen L)%Z) by (apply effects_are_few; split; [exact El|exact (turns _ _ _ G)]).
  assert (Rs : forall u i, cs_threads (ps_server p i) u = resting -> cs_threads (put_at (ps_server p) j s' i) u = resting).
  { intros u i E. destruct (Nat.eq_dec i j) as [->|Di]; [rewrite put_same; exact (cstep_resting _ _ _ _ S E)|rewrite put_other by exact Di; exact E]. }
  assert (Pn : forall u i, pending_of (cs_threads (put_at (ps_server p) j s' i) u) = pending_of (cs_threads (ps_server p i) u)).
  { intros u i. destruct (Nat.eq_dec i j) as [->|Di]; [rewrite put_same; exact (cstep_pending _ _ _ u S (or_introl Lg))|rewrite put_other by exact Di; reflexivity]. }
  assert (Kp : forall u i, cs_lock (ps_server p i) = Some u -> cs_lock (put_at (ps_server p) j s' i) = Some u).
  { intros u i E. destruct (Nat.eq_dec i j) as [->|Di]; [rewrite put_same; exact (lock_kept (pr j) (name j) _ _ _ S Lg E)|rewrite put_other by exact Di; exact E]. }
  assert (Here : forall t o, pending_of (cs_threads (ps_server p j) t) = [o] -> exists k, ps_at p t = Some (j, k)).
  { intros t o E. specialize (G t). unfold goroutine_at in G. destruct (ps_at p t) as [[i k]|].
    - destruct (Nat.eq_dec i j) as [->|Di]; [exists k; reflexivity|]. destruct G as (G & _). rewrite (G j) in E by congruence. discriminate E.
    - destruct G as (_ & G & _). rewrite (G j) in E. discriminate E. }
  assert (Cur : forall t o, current (cs_threads (ps_server p j) t) = [o] -> pending_of (cs_threads (ps_server p j) t) = [o]).
  { intros t o E. assert (N : pending_of (cs_threads (ps_server p j) t) <> []) by (unfold pending_of; rewrite E; discriminate). specialize (G t). unfold goroutine_at in G.
    assert (Sg : exists o', pending_of (cs_threads (ps_server p j) t) = [o']).
    { destruct (ps_at p t) as [[i k]|].
      - destruct (Nat.eq_dec i j) as [->|Di]; [destruct G as (_ & o' & _ & G & _); exists o'; exact G|]. destruct G as (G & _). rewrite (G j) in N by congruence. elim N. reflexivity.
      - destruct G as (_ & G & _). rewrite (G j) in N. elim N. reflexivity. }
    destruct Sg as (o' & Sg). rewrite Sg. unfold pending_of in Sg. rewrite E in Sg. cbn [app] in Sg. injection Sg as -> _. reflexivity. }
  destruct (Wc j) as (Wj & Hj & Cj).
  assert (Hs : rq_cas (cs_header s') = 0%Z) by (apply (step_header (pr j) (name j) (c j) _ _ S Hj); intros u o2 I2; exact (pending_whole _ _ _ G u j o2 I2)).
  destruct (local_step (pr j) (name j) (c j) (ps_server p j) s' (cw j) mk (Lc j) S Lg Hj) as [Q|(t & o & r & Lk & Co & Mt & Ca & Q)]; [| |exact Wj|lia| |].
  - intros Ln t N. specialize (G t). unfold goroutine_at in G. destruct (ps_at p t) as [[i k]|].
    + destruct (Nat.eq_dec i j) as [->|Di].
      * destruct G as (_ & o & x & _ & _ & _ & G). destruct (mk t) as [r|]; [|reflexivity]. destruct G as (_ & _ & G). congruence.
      * destruct G as (G & _). rewrite (G j) in N by congruence. elim N. reflexivity.
    + apply G.
  - intros t o Lk Co. apply Cur in Co. destruct (Here t o Co) as (k & At). specialize (G t). unfold goroutine_at in G. rewrite At in G. destruct G as (_ & o' & x & Pe & Lo & _). rewrite Co in Pe. injection Pe as ->. exact Lo.
  - exists M, mk, cw. cbn [fst snd ps_server]. split; [exact El|]. split; [exact Ex|]. split; [exact Aw|]. split.
    { intro i. destruct (Nat.eq_dec i j) as [->|Di]; [rewrite put_same; split; [exact Wj|split; [exact Hs|exact Cj]]|rewrite put_other by exact Di; exact (Wc i)]. }
    split.
    + intro u. specialize (G u). unfold goroutine_at in *. cbn [ps_server ps_at ps_prog]. destruct (ps_at p u) as [[i k]|].
      * destruct G as (G1 & o & x & G2 & G3 & G4 & G5). split; [intros i' Di; apply Rs, G1; exact Di|]. exists o, x. rewrite Pn. split; [exact G2|]. split; [exact G3|]. split; [exact G4|].
        destruct (mk u) as [r|]; [|exact G5]. destruct G5 as (G5 & G6 & G7). split; [exact G5|]. split; [exact G6|apply Kp; exact G7].
      * destruct G as (G0 & G1 & G2). split; [exact G0|]. split; [intro i; apply Rs, G1|exact G2].
    + intro i. destruct (Nat.eq_dec i j) as [->|Di]; [rewrite put_same; exact Q|rewrite put_other by exact Di; apply Lc].
  - (* the effect *) pose proof (Cur t o Co) as Pe. destruct (Here t o Pe) as (k & At).
    set (mk' := fun u => if Nat.eqb u t then Some r else mk u). set (c1 := fst (exact_step (pr j) (name j) 0 (cw j) o)) in *.
    assert (Ef : effects (M ++ [Effect t j o r]) = effects M ++ [PDone j t o r]) by (rewrite effects_app; reflexivity).
    assert (An : answers (M ++ [Effect t j o r]) = answers M ++ [r]) by (rewrite answers_app; reflexivity).
    pose proof (G t) as Gt. unfold goroutine_at in Gt. rewrite At, Mt in Gt. destruct Gt as (Rt & o' & x & Pt & Lo & Cx & Mk & Mx). rewrite Pe in Pt. injection Pt as <-.
    exists (M ++ [Effect t j o r]), mk', (put_at cw j c1). cbn [fst snd ps_server]. rewrite An. split; [rewrite without_app, El; cbn; apply app_nil_r|].
    split; [|split; [|split; [|split]]].
    + apply explained_exactly_app. split; [exact Ex|]. cbn [explained_exactly]. rewrite Aw. split; [exact Ca|exact Logic.I].
    + intro i. rewrite caches_after_app. cbn [caches_after]. rewrite Aw. destruct (Nat.eq_dec i j) as [->|Di]; [rewrite !put_same; reflexivity|rewrite !put_other by exact Di; apply Aw].
    + intro i. rewrite zlen_app. unfold zlen at 2. cbn [length]. destruct (Nat.eq_dec i j) as [->|Di].
      * rewrite !put_same. split; [split; [apply wf_exact_step; [apply Wj|apply legal_accepted, Lo]|unfold c1; rewrite (cfg_common_exact _ _ _ _ _ Lo); apply Wj]|]. split; [exact Hs|]. pose proof (cas_exact_step (pr j) (name j) 0 (cw j) o). unfold c1. lia.
      * rewrite !put_other by exact Di. destruct (Wc i) as (W1 & W2 & W3). split; [exact W1|]. split; [exact W2|lia].
    + intro u. unfold goroutine_at. cbn [ps_server ps_at ps_prog]. rewrite Ef, made_by_app. unfold mine. rewrite filter_snoc. cbn [of_goroutine made_by flat_map]. rewrite app_nil_r. unfold mk'. destruct (Nat.eq_dec u t) as [->|D].
      * rewrite Nat.eqb_refl, At. split; [intros i Di; apply Rs, Rt; exact Di|]. exists o, x. rewrite Pn. split; [exact Pe|]. split; [exact Lo|]. split; [exact Cx|].
        split; [apply makes_snoc; exact Mk|]. split; [|apply Kp; exact Lk]. fold (mine t M). rewrite Mx, <- app_assoc. reflexivity.
      * rewrite (proj2 (Nat.eqb_neq t u)) by congruence. rewrite (proj2 (Nat.eqb_neq u t)) by congruence. rewrite !app_nil_r. fold (mine u M). specialize (G u). unfold goroutine_at in G. destruct (ps_at p u) as [[i k']|].
        -- destruct G as (G1 & o2 & y & G2 & G3 & G4 & G5). split; [intros i' Di; apply Rs, G1; exact Di|]. exists o2, y. rewrite Pn. split; [exact G2|]. split; [exact G3|]. split; [exact G4|].
           destruct (mk u) as [r'|]; [|exact G5]. destruct G5 as (G5 & G6 & G7). split; [exact G5|]. split; [exact G6|apply Kp; exact G7].
        -- destruct G as (G0 & G1 & G2). split; [exact G0|]. split; [intro i; apply Rs, G1|exact G2].
    + intro i. destruct (Nat.eq_dec i j) as [->|Di].
      * rewrite !put_same. apply Q. unfold mk'. rewrite Nat.eqb_refl. reflexivity.
      * rewrite !put_other by exact Di. apply (local_mk _ _ _ _ mk); [|apply Lc]. intros u Lu. unfold mk'. destruct (Nat.eqb_spec u t) as [->|_]; [|reflexivity]. exfalso.
        specialize (Lc i). unfold local in Lc. rewrite Lu, (Rt i Di) in Lc. destruct Lc as (_ & o' & rq & C' & _). discriminate C'.
Qed.
Lemma vinv_steps : forall v, vsteps cl (pool_started c h progs, []) v -> (forall j, wf (pr j) (c j) /\ rq_cas (h j) = 0%Z /\ (c_cas (c j) + zlen (snd v) + 1 < 2 ^ 63)%Z) -> vinv v.
Proof.
  intros v S. remember (pool_started c h progs, @nil vevent) as v0 eqn:E0. induction S as [v|v u w S IH St]; intro Hc; subst v.
  - exists [], (fun _ => None), c. cbn. split; [reflexivity|]. split; [exact Logic.I|]. split; [reflexivity|]. split; [intro j; destruct (Hc j) as (W & H0 & C); split; [split; [exact W|reflexivity]|]; split; [exact H0|lia]|]. split.
    + intro t. unfold goroutine_at. cbn. split; [reflexivity|]. split; [intro j; reflexivity|]. split; [constructor|]. intros y Y. exact Y.
    + intro j. unfold local, quiet. cbn. repeat split; reflexivity.
  - assert (Sh : forall L e, snd w = L ++ [e] -> snd u = L -> vinv u).
    { intros L e E1 E2. apply IH; [reflexivity|]. intro j. destruct (Hc j) as (W & H0 & C). split; [exact W|]. split; [exact H0|]. rewrite E1, zlen_app in C. unfold zlen at 2 in C. cbn [length] in C. rewrite E2. lia. }
    destruct St as [p L t j o k At Pg|p L j s' S' Lg|p L j t o r k s' S' Lg At|p L d D]; cbn [snd] in *.
    + apply vinv_begin; [eapply Sh; reflexivity|exact At|exact Pg].
    + apply vinv_inside; [apply IH; [reflexivity|exact Hc]|apply Hc|exact S'|exact Lg].
    + eapply vinv_end; [eapply Sh; reflexivity|exact S'|exact Lg|exact At].
    + apply vinv_time; [eapply Sh; reflexivity|exact D].
Qed.
End AnyProtocol.

(** ** C98 *)
(** Goroutines calling any methods of a pool whose servers are spoken to in any protocols (client.SinglePool
    takes any client.Server); every step of theirs, of the network and of the daemons interleaved in any
    order, and time passing at any moment: each call of a server takes effect at one moment between its
    beginning and its end, as a whole, and returns what Exact.v says. *)
Theorem C98_server_calls_of_any_protocol_take_effect_at_one_moment : forall pr name c h progs p L,
  vsteps (fun j => client_of (pr j) (name j)) (pool_started c h progs, []) (p, L) ->
  (forall t l j o k, makes (progs t) l (Then j o k) -> whole (pr j) (c j) o) ->
  (forall j, wf (pr j) (c j) /\ rq_cas (h j) = 0%Z /\ (c_cas (c j) + zlen L + 1 < 2 ^ 63)%Z) ->
  exists M, each_call_at_one_moment L M /\ explained_exactly pr name c M
    /\ forall t, exists rest, makes (progs t) (made_by t (effects M)) rest.
Proof.
  intros pr name c h progs p L S Lp Hc. destruct (vinv_steps pr name c h progs Lp (p, L) S Hc) as (M & mk & cw & El & Ex & _ & _ & G & _). cbn [fst snd] in *.
  exists M. split; [split; [exact El|exact (turns _ _ _ _ _ _ G)]|]. split; [exact Ex|]. intro t. specialize (G t). unfold goroutine_at in G. destruct (ps_at p t) as [[j k]|].
  - destruct G as (_ & o & x & _ & _ & _ & G). destruct (mk t) as [r|]; eexists; apply G.
  - eexists. apply G.
Qed.
Print Assumptions C98_server_calls_of_any_protocol_take_effect_at_one_moment.

(** ** The pool is one cache *)
(** A server that answers [r'] where this one answers [r]: they differ only in errors that the protocol leaves open. *)
Definition stands_for (r' r : outcome result) : Prop := r' = r \/ (r' = Err some_error /\ exists e, r = Err e /\ completed e).
Lemma stands : forall s r, agrees s r -> stands_for (match s with SOk x => Ok x | SErr e => Err e | SFail => Err some_error end) r.
Proof. intros s r A. destruct s as [x|e|], r as [y|e'|]; cbn in A; try contradiction; try (left; congruence). right. split; [reflexivity|]. exists e'. split; [reflexivity|exact A]. Qed.
Lemma delta_error : forall pr r, delta_outcome pr r <> SErr some_error.
Proof. intros pr r. destruct r; cbn [delta_outcome]; try discriminate. destruct pr; try discriminate; destruct (_ <? 2 ^ 63)%Z; discriminate. Qed.
Lemma spec_error : forall pr name c o, snd (spec_step pr name c o) <> SErr some_error.
Proof.
  intros pr name c o. destruct o; cbn [spec_step snd fst]; try discriminate.
  - destruct (lookup c k); discriminate.
  - destruct (it_cas i =? 0)%Z; destruct (snd _); discriminate.
  - destruct (snd _); discriminate.
  - destruct (snd _); discriminate.
  - destruct (snd _); discriminate.
  - unfold spec_delta. destruct pr, (lookup c k); cbn [snd]; try discriminate; apply delta_error.
  - unfold spec_delta. destruct pr, (lookup c k); cbn [snd]; try discriminate; apply delta_error.
  - destruct (snd _); discriminate.
Qed.
Lemma one_cache_error : forall pr c last evs ss, one_cache pr c last evs ss -> Forall (fun s => s <> SErr some_error) ss.
Proof. intros pr c last evs ss H. induction H; [constructor|constructor; [apply spec_error|assumption]|constructor; [discriminate|assumption]|assumption]. Qed.
Lemma matches_stands : forall ss rs', Forall2 matches ss rs' -> forall rs, Forall2 stands_for rs' rs -> Forall (fun s => s <> SErr some_error) ss -> Forall2 matches ss rs.
Proof.
  intros ss rs' H. induction H as [|s r' ss rs' H1 H IH]; intros rs K F; inversion K as [|? r ? rs0 K1 K2]; subst; [constructor|]. inversion F as [|? ? F1 F2]; subst. constructor; [|apply IH; assumption].
  destruct K1 as [->|(-> & e & -> & Ce)]; [exact H1|]. destruct s as [x|e'|]; cbn in H1 |- *; [contradiction|congruence|exact Ce].
Qed.
Definition plainly (pr : proto) (c : cache) (o : op) : Prop :=
  whole pr c o /\ (pr = PMeta -> match o with ODelete _ | OTouch _ _ => False | _ => True end).
Lemma plainly_exact : forall pr name c0 c o, plainly pr c0 o -> exact_step pr name 0 c o = spec_step pr name c o.
Proof.
  intros pr name c0 c o [(Ll & On & Bn) Mn]. apply exact_plain; [|exact Ll|].
  - intro E. specialize (Mn E). destruct o; try contradiction; try exact Logic.I. cbn in On. congruence.
  - intro E. specialize (Bn E). destruct o; auto.
Qed.
Lemma exactly_pool_run : forall pr name servers nodes c0 M c W, (forall i, W i = (name i, c i)) -> Forall (at_owner nodes) (effects M) ->
  (forall t j o r, In (Effect t j o r) M -> plainly pr c0 o) -> explained_exactly (fun _ => pr) name c M ->
  exists rs', pool_run (cache_server pr) cache_pass servers nodes W (history M) rs' /\ Forall2 stands_for rs' (answers M).
Proof.
  intros pr name servers nodes c0. induction M as [|[[? ? ?|? ? ? ?|d]|t j o r] M IH]; intros c W E F P X; cbn [explained_exactly effects history answers flat_map app] in *.
  - exists []. split; constructor.
  - apply (IH c W E F); [|exact X]. intros. eapply P. right. eassumption.
  - apply (IH c W E F); [|exact X]. intros. eapply P. right. eassumption.
  - inversion F; subst. destruct (IH (fun i => tick (c i) d) (fun i => cache_pass (W i) d)) as (rs' & R & St); auto.
    + intro i. unfold cache_pass. rewrite E. reflexivity.
    + intros. eapply P. right. eassumption.
    + exists rs'. split; [constructor; exact R|exact St].
  - destruct X as [X1 X2]. inversion F as [|x l Fo F']; subst x l. cbn [at_owner] in Fo. destruct Fo as (k & sv & K & Pk & <-).
    pose proof (plainly_exact pr (name (sv_id sv)) c0 (c (sv_id sv)) o (P _ _ _ _ (or_introl eq_refl))) as Pl. rewrite Pl in X1, X2.
    destruct (IH (put_at c (sv_id sv) (fst (spec_step pr (name (sv_id sv)) (c (sv_id sv)) o))) (upd W (sv_id sv) (fst (cache_server pr (W (sv_id sv)) o))) ltac:(intro i; unfold upd, put_at, cache_server; rewrite !E; cbn [fst snd]; destruct (Nat.eqb_spec i (sv_id sv)) as [->|D]; reflexivity) F' ltac:(intros; eapply P; right; eassumption) X2) as (rs' & R & St).
    eexists. split; [|constructor; [exact (stands _ _ X1)|exact St]]. eapply (pr_key _ _ _ _ W o k); [exact K| |exact R].
    unfold routed. rewrite Pk. unfold server_call, cache_server. rewrite E. cbn [fst snd]. reflexivity.
Qed.
Lemma calls_each_have : forall nodes ops l j o k (Q : op -> Prop), Forall Q ops -> makes (calls_each nodes ops) l (Then j o k) -> Q o.
Proof.
  intros nodes ops l j o k Q F M. pose proof (makes_snoc _ _ _ _ _ (Ok RUnit) M) as M'. destruct (calls_each_makes _ _ _ _ M') as [[more E] _].
  rewrite Forall_forall in F. apply F. rewrite E, map_app. cbn [map fst snd]. apply in_app_iff. left. apply in_app_iff. right. left. reflexivity.
Qed.
Lemma effects_legal_all : forall pr L M, without_effects M = L -> (forall d, In (VTime d) L -> (0 <= d)%Z) -> (forall t j o r, In (Effect t j o r) M -> legal pr o) -> Forall (legal_event pr) (history M).
Proof.
  intros pr L M <- T Lo. induction M as [|m M IH]; [constructor|]. destruct m as [[? ? ?|? ? ? ?|d]|t j o r]; cbn [history without_effects flat_map app] in *; fold (history M); fold (without_effects M) in *.
  - apply IH; intros; [apply T; right; assumption|eapply Lo; right; eassumption].
  - apply IH; intros; [apply T; right; assumption|eapply Lo; right; eassumption].
  - constructor; [apply T; left; reflexivity|]. apply IH; intros; [apply T; right; assumption|eapply Lo; right; eassumption].
  - constructor; [eapply Lo; left; reflexivity|]. apply IH; intros; [apply T; assumption|eapply Lo; right; eassumption].
Qed.

(** Goroutines calling single-key methods of one SinglePool whose servers are all spoken to in one of the
    protocols, time passing at any moment: the pool is one cache (PoolSpec.v, C05) on which each call takes
    effect at one moment between its beginning and its end. Left out are the meta client's Delete and Touch
    (C69), and of the binary client Add, Touch, refused sets and cas numbers ([whole], ManyProto.v). *)
Theorem C98_shared_pool_of_any_protocol_is_one_cache : forall pr servers nodes name cf now h ops p L,
  good_pool servers nodes -> wf_config cf -> (0 <= now)%Z -> (forall sv, In sv servers -> name (sv_id sv) = sv_name sv) -> (forall j, rq_cas (h j) = 0%Z) ->
  (forall t, Forall (fun o => whole pr (empty_cache cf now) o /\ (pr = PMeta -> match o with ODelete _ | OTouch _ _ => False | _ => True end)) (ops t)) ->
  vsteps (fun j => client_of pr (name j)) (pool_started (fun _ => empty_cache cf now) h (fun t => calls_each nodes (ops t)), []) (p, L) -> (zlen L + 1 < 2 ^ 63)%Z ->
  (exists M ss, each_call_at_one_moment L M /\ one_cache pr (empty_cache cf now) (fun _ => 0%Z) (history M) ss /\ Forall2 matches ss (answers M))
  /\ forall t, exists more, ops t = begun t L ++ more.
Proof.
  intros pr servers nodes name cf now h ops p L G W N Nm H0 Lo S Lz. split.
  - destruct (C98_server_calls_of_any_protocol_take_effect_at_one_moment (fun _ => pr) name (fun _ => empty_cache cf now) h _ p L S) as (M & Em & Ex & Mk).
    + intros t l j o k Mm. exact (proj1 (calls_each_have _ _ _ _ _ _ _ (Lo t) Mm)).
    + intro j. split; [apply wf_empty; assumption|]. split; [apply H0|exact Lz].
    + assert (Pl : forall t j o r, In (Effect t j o r) M -> plainly pr (empty_cache cf now) o).
      { intros t j o r I. destruct (Mk t) as [rest Mt]. destruct (calls_each_makes _ _ _ _ Mt) as [[more E] _].
        specialize (Lo t). rewrite Forall_forall in Lo. apply Lo. rewrite E. apply in_app_iff. left. apply (in_map (fun x => snd (fst x)) _ (j, o, r)). unfold made_by. apply in_flat_map. exists (PDone j t o r). rewrite Nat.eqb_refl.
        split; [|left; reflexivity]. unfold effects. apply in_flat_map. eexists. split; [exact I|left; reflexivity]. }
      assert (Lh : Forall (legal_event pr) (history M)).
      { apply (effects_legal_all pr L); [apply Em|exact (times_forward _ _ _ S eq_refl)|]. intros t j o r I. apply (Pl _ _ _ _ I). }
      destruct (exactly_pool_run pr name servers nodes (empty_cache cf now) M (fun _ => empty_cache cf now) (fun i => (name i, empty_cache cf now)) (fun i => eq_refl)) as (rs' & R & St); [eapply log_owned; exact Mk|exact Pl|exact Ex|].
      destruct (C05_pool_of_conforming_servers_is_one_cache pr servers nodes cf now (fun i => (name i, empty_cache cf now)) (history M) rs') as (ss & Oc & Ms); auto.
      * pose proof (history_is_short L M Em). destruct pr; cbn [cas_bound]; lia.
      * intros sv I. rewrite Nm by exact I. reflexivity.
      * exists M, ss. split; [exact Em|]. split; [exact Oc|]. exact (matches_stands _ _ Ms _ St (one_cache_error _ _ _ _ _ Oc)).
  - intro t. destruct (calls_in_order _ _ _ _ _ _ S t) as (more & E & _). exists more. exact E.
Qed.
Print Assumptions C98_shared_pool_of_any_protocol_is_one_cache.

(** The hypotheses are met: as in [C98_met], with the binary client; and with one server spoken to in the
    meta protocol and the other in the binary one. *)
Definition two_kinds (j : nat) : proto := match j with O => PMeta | _ => PBinary end.
Lemma late_set : forall nodes, pick nodes (B "hello") = Ok sv_b -> calls_each nodes (storer_and_reader 0) = Then 1 (OSet (demo_item "hello" "one" 7 10 0)) (fun _ => Stop).
Proof. intros nodes Kh. cbn [calls_each storer_and_reader op_key demo_item it_key]. unfold prog_key. rewrite Kh. reflexivity. Qed.
Lemma late_get : forall nodes, pick nodes (B "hello") = Ok sv_b -> calls_each nodes (storer_and_reader 1) = Then 1 (OGet (B "hello")) (fun _ => Stop).
Proof. intros nodes Kh. cbn [calls_each storer_and_reader op_key]. unfold prog_key. rewrite Kh. reflexivity. Qed.
Definition late_events : list vevent :=
  [VBegin 0 1 (OSet (demo_item "hello" "one" 7 10 0)); VBegin 1 1 (OGet (B "hello")); VEnd 0 1 (OSet (demo_item "hello" "one" 7 10 0)) (Ok RUnit); VTime 20; VEnd 1 1 (OGet (B "hello")) (Err ENotFound)].
Ltac late_run Kh :=
  eexists; unfold demo_pool, pool_started, started, late_events;
  vquick ltac:(eapply (V_begin _ _ _ 0 1); [reflexivity|exact (late_set _ Kh)]);
  vquick ltac:(eapply (V_begin _ _ _ 1 1); [reflexivity|exact (late_get _ Kh)]);
  vquick ltac:(eapply (i_lock _ _ _ 1 0); [reflexivity|reflexivity|vm_compute; reflexivity]);
  vquick ltac:(eapply (i_send _ _ _ 1 0); reflexivity); vquick ltac:(eapply (i_sent _ _ _ 1 0); reflexivity); vquick ltac:(eapply (i_out _ _ _ 1));
  vquick ltac:(eapply (i_daemon _ _ _ 1); vm_compute; reflexivity); vquick ltac:(eapply (i_in _ _ _ 1));
  vquick ltac:(eapply (i_end _ _ _ 1 0); [reflexivity|vm_compute; reflexivity|discriminate|reflexivity]);
  vquick ltac:(eapply (i_lock _ _ _ 1 1); [reflexivity|reflexivity|vm_compute; reflexivity]);
  vquick ltac:(eapply (i_send _ _ _ 1 1); reflexivity); vquick ltac:(eapply (i_sent _ _ _ 1 1); reflexivity); vquick ltac:(eapply (i_out _ _ _ 1));
  vquick ltac:(eapply (V_time _ _ _ 20); lia);
  vquick ltac:(eapply (i_daemon _ _ _ 1); vm_compute; reflexivity); vquick ltac:(eapply (i_in _ _ _ 1));
  vquick ltac:(eapply (i_end _ _ _ 1 1); [reflexivity|vm_compute; reflexivity|discriminate|reflexivity]); apply vs_refl.
Lemma demo_late_binary : forall nodes, pick nodes (B "hello") = Ok sv_b -> exists p,
  vsteps (fun j => client_of PBinary (ab_name j)) (demo_pool (fun t => calls_each nodes (storer_and_reader t)), []) (p, late_events).
Proof. intros nodes Kh. late_run Kh. Qed.
Lemma demo_late_kinds : forall nodes, pick nodes (B "hello") = Ok sv_b -> exists p,
  vsteps (fun j => client_of (two_kinds j) (ab_name j)) (demo_pool (fun t => calls_each nodes (storer_and_reader t)), []) (p, late_events).
Proof. intros nodes Kh. late_run Kh. Qed.
Lemma late_whole : forall t, Forall (fun o => whole PBinary (empty_cache demo_cfg 100) o /\ op_key o = Some (B "hello")) (storer_and_reader t).
Proof.
  intros [|[|t]]; [| |constructor]; (constructor; [|constructor]); (split; [|reflexivity]); (split; [legal_tac|]); (split; [exact Logic.I|]); intros _; [|exact Logic.I]. split; reflexivity.
Qed.
Lemma late_at : forall nodes t l j o k, pick nodes (B "hello") = Ok sv_b -> makes (calls_each nodes (storer_and_reader t)) l (Then j o k) -> j = 1 /\ whole PBinary (empty_cache demo_cfg 100) o.
Proof.
  intros nodes t l j o k Kh M. pose proof (makes_snoc _ _ _ _ _ (Ok RUnit) M) as M'. destruct (calls_each_makes _ _ _ _ M') as [_ F]. rewrite Forall_forall in F. specialize (F (j, o, Ok RUnit)). cbn [fst snd] in F.
  destruct (calls_each_have _ _ _ _ _ _ _ (late_whole t) M) as [Wo Ko]. split; [|exact Wo]. destruct F as (key & sv & K & P & <-); [apply in_app_iff; right; left; reflexivity|].
  assert (E : key = B "hello") by congruence. rewrite E, Kh in P. pose proof (ok_inj _ _ _ P) as E2. rewrite <- E2. reflexivity.
Qed.
Example C98_any_protocol_met :
  (exists p, vsteps (fun j => client_of PBinary (ab_name j)) (pool_started (fun _ => empty_cache demo_cfg 100) (fun _ => reset_header) (fun t => calls_each (new_ring [sv_a; sv_b]) (storer_and_reader t)), []) (p, late_events))
  /\ good_pool [sv_a; sv_b] (new_ring [sv_a; sv_b]) /\ wf_config demo_cfg /\ (forall sv, In sv [sv_a; sv_b] -> ab_name (sv_id sv) = sv_name sv) /\ rq_cas reset_header = 0%Z
  /\ (forall t, Forall (fun o => whole PBinary (empty_cache demo_cfg 100) o /\ (PBinary = PMeta -> match o with ODelete _ | OTouch _ _ => False | _ => True end)) (storer_and_reader t)) /\ (zlen late_events + 1 < 2 ^ 63)%Z
  /\ (exists p, vsteps (fun j => client_of (two_kinds j) (ab_name j)) (pool_started (fun _ => empty_cache demo_cfg 100) (fun _ => reset_header) (fun t => calls_each (new_ring [sv_a; sv_b]) (storer_and_reader t)), []) (p, late_events))
  /\ (forall t l j o k, makes (calls_each (new_ring [sv_a; sv_b]) (storer_and_reader t)) l (Then j o k) -> whole (two_kinds j) (empty_cache demo_cfg 100) o)
  /\ (forall j, wf (two_kinds j) (empty_cache demo_cfg 100)).
Proof.
  pose proof (proj1 (proj2 (proj2 C01_met))) as Kh. split; [exact (demo_late_binary _ Kh)|]. split; [exact (proj1 C05_met)|]. split; [apply C05_met|]. split; [intros sv [<-|[<-|[]]]; reflexivity|]. split; [reflexivity|].
  split; [intro t; eapply Forall_impl; [|exact (late_whole t)]; intros o [H _]; split; [exact H|discriminate]|]. split; [reflexivity|]. split; [exact (demo_late_kinds _ Kh)|].
  split; [|intro j; apply wf_empty; [apply C05_met|lia]]. intros t l j o k M. destruct (late_at _ _ _ _ _ _ Kh M) as [-> H]. exact H.
Qed.
