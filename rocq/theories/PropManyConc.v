(** * C99: many clients of one memcached, with connections lost at any moment. *)
From Verif Require Import GoBytes GoNum GoIO Item ClientText ClientMeta ClientBinary Cache Daemon Spec Call Guard.
From Verif Require Import PLib PDaemon PStream PCache PText PClient PropClient PropReply PReply PropWriter PLifecycle PropLifecycle Conc PropConc PropHandler PoolConc PropPoolConc TimeConc PropTimeConc TimePool PropTimePool ManyConc.
Local Open Scope nat_scope.

(** ** Logs with effects *)
Lemma snoc_split : forall A (l : list A) x a y b, l ++ [x] = a ++ y :: b -> (b = [] /\ x = y /\ l = a) \/ exists b', b = b' ++ [x] /\ l = a ++ y :: b'.
Proof.
  intros A l x a y b E. destruct b as [|z b _] using rev_ind.
  - left. apply app_inj_tail in E. destruct E as [-> ->]. auto.
  - right. exists b. change (a ++ y :: b ++ [z]) with (a ++ (y :: b) ++ [z]) in E. rewrite app_assoc in E. apply app_inj_tail in E. destruct E as [-> ->]. split; reflexivity.
Qed.
Lemma seen_app : forall a b, seen_only (a ++ b) = seen_only a ++ seen_only b.
Proof. intros. apply flat_map_app. Qed.
Lemma story_app : forall a b, story (a ++ b) = story a ++ story b.
Proof. intros. apply flat_map_app. Qed.
Lemma told_app : forall a b, told (a ++ b) = told a ++ told b.
Proof. intros. apply flat_map_app. Qed.
Lemma numbers_app : forall a b, numbers (a ++ b) = numbers a ++ numbers b.
Proof. intros. apply flat_map_app. Qed.
Lemma called_app : forall t a b, called t (a ++ b) = called t a ++ called t b.
Proof. intros. apply flat_map_app. Qed.
Lemma right_seen : forall L M e, effects_are_right L M -> (forall n r, e = NEnd n r -> r = Err EIO \/ exists o, In (Effective n o r) M) -> effects_are_right (L ++ [e]) (M ++ [Seen e]).
Proof.
  intros L M e (E & A & C) He. split; [rewrite seen_app, E; reflexivity|]. split.
  - intros M1 n o r M2 X. apply snoc_split in X. destruct X as [(_ & X & _)|(M2' & -> & ->)]; [discriminate X|]. exact (A _ _ _ _ _ eq_refl).
  - intros M1 n r M2 X. apply snoc_split in X. destruct X as [(_ & X & <-)|(M2' & -> & ->)]; [injection X as ->; apply (He n r eq_refl)|exact (C _ _ _ _ eq_refl)].
Qed.
Lemma right_effect : forall L M n t i o r, effects_are_right L M -> In (Seen (NBegin n t i o)) M -> (forall o' r', ~ In (Effective n o' r') M) -> effects_are_right L (M ++ [Effective n o r]).
Proof.
  intros L M n t i o r (E & A & C) Ib Ne. split; [rewrite seen_app, E; apply app_nil_r|]. split.
  - intros M1 m o' r' M2 X. apply snoc_split in X. destruct X as [(_ & X & <-)|(M2' & -> & ->)]; [injection X as <- <- <-; split; [exists t, i; exact Ib|exact Ne]|exact (A _ _ _ _ _ eq_refl)].
  - intros M1 m r' M2 X. apply snoc_split in X. destruct X as [(_ & X & _)|(M2' & -> & ->)]; [discriminate X|exact (C _ _ _ _ eq_refl)].
Qed.
Lemma NoDup_snoc : forall A (l : list A) x, NoDup l -> ~ In x l -> NoDup (l ++ [x]).
Proof.
  intros A l x N H. apply NoDup_rev in N. rewrite <- (rev_involutive (l ++ [x])). apply NoDup_rev. rewrite rev_app_distr. cbn [rev app]. constructor; [rewrite <- in_rev; exact H|exact N].
Qed.
Definition effect_numbers (M : list effectful) : list nat := flat_map (fun m => match m with Effective n _ _ => [n] | _ => [] end) M.
Lemma told_numbers : forall M, length (told M) = length (effect_numbers M).
Proof. intro M. induction M as [|[e|n o r] M IH]; cbn; [reflexivity|exact IH|f_equal; exact IH]. Qed.
Lemma numbers_seen : forall M n t i o, In (Seen (NBegin n t i o)) M -> In n (numbers (seen_only M)).
Proof. intros M n t i o I. unfold numbers, seen_only. apply in_flat_map. exists (NBegin n t i o). split; [apply in_flat_map; eexists; split; [exact I|left; reflexivity]|left; reflexivity]. Qed.
Lemma right_few : forall L M, effects_are_right L M -> (zlen (told M) <= zlen L)%Z.
Proof.
  intros L M R. assert (K : NoDup (effect_numbers M) /\ incl (effect_numbers M) (numbers (seen_only M))).
  { destruct R as (_ & A & _). clear L. induction M as [|m M IH] using rev_ind; [split; [constructor|intros x []]|].
    destruct IH as [N I]; [intros M1 n o r M2 E; apply (A M1 n o r (M2 ++ [m])); rewrite E, <- app_assoc; reflexivity|].
    unfold effect_numbers in *. rewrite flat_map_app, seen_app, numbers_app. destruct m as [e|n o r]; cbn [flat_map seen_only numbers app].
    - rewrite app_nil_r. split; [exact N|]. intros x Hx. apply in_app_iff. left. apply I. exact Hx.
    - destruct (A M n o r [] eq_refl) as [(t & i & Ib) Ne]. split.
      + apply NoDup_snoc; [exact N|]. intro Hn. apply in_flat_map in Hn. destruct Hn as ([e|n' o' r'] & Im & Hn); [destruct Hn|]. destruct Hn as [->|[]]. exact (Ne _ _ Im).
      + intros x Hx. apply in_app_iff. left. apply in_app_iff in Hx. destruct Hx as [Hx|[<-|[]]]; [apply I; exact Hx|]. eapply numbers_seen. exact Ib. }
  destruct K as [N I]. destruct R as (E & _). pose proof (NoDup_incl_length N I) as Le. rewrite <- told_numbers, E in Le.
  assert (length (numbers L) <= length L); [|unfold zlen; lia]. clear. induction L as [|e L IH]; [cbn; lia|]. unfold numbers in *. cbn [flat_map length]. rewrite app_length. destruct e; cbn [length]; lia.
Qed.

(** ** The invariant *)
Section Many.
Variables (name : bytes) (c : cache) (h : nat -> req_header) (progs : nat -> list (nat * op)).
Let cl : client := client_of PText name.
(** Number, goroutine, object and method of the calls begun; the effects so far. *)
Notation calls := (nat -> option (nat * nat * op)).
Notation done := (nat -> option (outcome result)).
Definition mark (now : nat -> option nat) (eff : done) (t : nat) : option (outcome result) := match now t with Some n => eff n | None => None end.
Definition wire (s : cstate) (i : nat) (now : nat -> option nat) (info : calls) (eff : done) : Prop :=
  cs_pending s ++ cs_out s = [] \/ exists n t o rq x, info n = Some (t, i, o) /\ eff n = None /\ (now t = Some n -> cs_lock s = Some t) /\ text_req o = Ok rq /\ cs_pending s ++ cs_out s ++ x = rq.
Definition reading (s : cstate) (now : nat -> option nat) (eff : done) : Prop :=
  cs_buf s ++ cs_in s = [] \/ exists t n o r y, cs_lock s = Some t /\ now t = Some n /\ current (cs_threads s t) = [o] /\ eff n = Some r /\ left_of (cs_threads s t) = [] /\ cs_pending s ++ cs_out s = [] /\ cl_resp cl o (cs_buf s ++ cs_in s ++ y) = (r, []).
Definition conn (s : cstate) (u : bool) (i : nat) (now : nat -> option nat) (info : calls) (eff : done) (C : cache) : Prop :=
  if u then local name (facing s C) C (mark now eff)
  else (forall t, th_pc (cs_threads s t) <> Idle -> cs_lock s = Some t) /\ (forall t, cs_lock s = Some t -> exists o, current (cs_threads s t) = [o])
       /\ wire s i now info eff /\ reading s now eff.
Definition goro (obj : nat -> cstate) (now : nat -> option nat) (info : calls) (eff : done) (t : nat) : Prop :=
  match now t with
  | None => forall i, cs_threads (obj i) t = resting
  | Some n => exists i o, info n = Some (t, i, o) /\ pending_of (cs_threads (obj i) t) = [o] /\ (forall i', i' <> i -> cs_threads (obj i') t = resting) /\ (eff n = None \/ cs_lock (obj i) = Some t)
  end.
Lemma local_facing : forall s C C' mk, local name (facing s C) C mk -> local name (facing s C') C' mk.
Proof.
  intros s C C' mk Q. unfold local, quiet in *. cbn [facing cs_lock cs_threads cs_header cs_out cs_pending cs_cache cs_in cs_buf] in *. destruct (cs_lock s) as [t|].
  - destruct Q as (Qi & o & rq & Co & Rq & _ & Q). split; [exact Qi|]. exists o, rq. repeat (split; [assumption || reflexivity|]). exact Q.
  - destruct Q as (Qi & Qo & Qp & Qb & Qn & _ & _). repeat split; assumption.
Qed.
Lemma conn_holder : forall s u i now info eff C t, conn s u i now info eff C -> th_pc (cs_threads s t) <> Idle -> cs_lock s = Some t.
Proof. intros s [|] i now info eff C t Q N; [exact (local_holder name (facing s C) C _ t Q N)|apply Q; exact N]. Qed.
Lemma conn_current : forall s u i now info eff C t, conn s u i now info eff C -> cs_lock s = Some t -> exists o, current (cs_threads s t) = [o].
Proof.
  intros s [|] i now info eff C t Q L; [|apply Q; exact L]. unfold conn, local in Q. cbn [facing cs_lock cs_threads] in Q. rewrite L in Q. destruct Q as (_ & o & _ & Q & _). exists o. exact Q.
Qed.
Lemma conn_frame : forall s u i now info eff C now' info' eff' C', conn s u i now info eff C ->
  (forall t, cs_lock s = Some t -> now' t = now t) ->
  (forall t n, cs_lock s = Some t -> now t = Some n -> exists o, info n = Some (t, i, o)) ->
  (forall n x, info n = Some x -> info' n = Some x) -> (forall n t o, info n = Some (t, i, o) -> eff' n = eff n) ->
  (forall t n x, info n = Some x -> now' t = Some n -> now t = Some n) ->
  conn s u i now' info' eff' C'.
Proof.
  intros s u i now info eff C now' info' eff' C' Q Hn Hl Hi He Hb. destruct u; cbn [conn] in *.
  - apply (local_facing s C). apply (local_mk name _ _ (mark now eff)); [|exact Q]. cbn [facing cs_lock]. intros t L. unfold mark. rewrite (Hn t L). destruct (now t) as [n|] eqn:E; [|reflexivity].
    destruct (Hl t n L E) as [o I]. exact (He _ _ _ I).
  - destruct Q as (Q1 & Q2 & W & R). split; [exact Q1|]. split; [exact Q2|]. split.
    + destruct W as [W|(n & t & o & rq & x & I & E & N & Rq & P)]; [left; exact W|]. right. exists n, t, o, rq, x. split; [apply Hi; exact I|]. split; [rewrite (He _ _ _ I); exact E|]. split; [intro X; apply N; exact (Hb _ _ _ I X)|]. split; assumption.
    + destruct R as [R|(t & n & o & r & y & L & N & Co & E & P)]; [left; exact R|]. right. exists t, n, o, r, y. split; [exact L|]. split; [rewrite (Hn t L); exact N|]. split; [exact Co|].
      destruct (Hl t n L N) as [o' I]. split; [rewrite (He _ _ _ I); exact E|exact P].
Qed.
Definition cache_after (M : list effectful) : cache := fst (spec_run PText name c (story M)).
Definition ninv (v : nstate * list nevent) : Prop :=
  let s := fst v in
  exists M info eff, effects_are_right (snd v) M
    /\ cache_after M = n_cache s /\ Forall2 agrees (snd (spec_run PText name c (story M))) (told M)
    /\ wf PText (n_cache s) /\ (c_cas (n_cache s) <= c_cas c + zlen (told M))%Z
    /\ NoDup (numbers (snd v)) /\ (forall n, In n (numbers (snd v)) -> n < n_next s)
    /\ (forall n t i o, info n = Some (t, i, o) -> In (Seen (NBegin n t i o)) M /\ n < n_next s /\ legal PText o)
    /\ (forall n, eff n = None -> forall o r, ~ In (Effective n o r) M)
    /\ (forall n r t i o, eff n = Some r -> info n = Some (t, i, o) -> In (Effective n o r) M)
    /\ (forall t, called t (snd v) ++ n_todo s t = progs t)
    /\ (forall t, goro (n_object s) (n_now s) info eff t)
    /\ (forall i, conn (n_object s i) (n_up s i) i (n_now s) info eff (n_cache s)).
Lemma holder_call : forall s obj now info eff u i C t, conn (obj i) u i now info eff C -> goro obj now info eff t -> cs_lock (obj i) = Some t -> s = obj i ->
  exists n o, now t = Some n /\ info n = Some (t, i, o) /\ current (cs_threads s t) = [o] /\ pending_of (cs_threads s t) = [o].
Proof.
  intros s obj now info eff u i C t Q G L ->. destruct (conn_current _ _ _ _ _ _ _ _ Q L) as [o Co]. assert (N : cs_threads (obj i) t <> resting) by (intro X; rewrite X in Co; discriminate Co).
  unfold goro in G. destruct (now t) as [n|]; [|elim N; apply G]. destruct G as (i' & o' & I & P & R & _). destruct (Nat.eq_dec i i') as [<-|D]; [|elim N; apply R; exact D].
  exists n, o'. split; [reflexivity|]. split; [exact I|]. split; [|exact P]. rewrite Co. unfold pending_of in P. rewrite Co in P. cbn [app] in P. injection P as -> _. reflexivity.
Qed.
Hypothesis legal_progs : forall t, Forall (fun x => legal PText (snd x)) (progs t).

Lemma ninv_begin : forall v L t i o os, ninv (v, L) -> n_now v t = None -> n_todo v t = (i, o) :: os ->
  ninv (mkN (n_cache v) (put_at (n_object v) i (enter (n_object v i) t o)) (n_up v) (put_at (n_now v) t (Some (n_next v))) (put_at (n_todo v) t os) (S (n_next v)), L ++ [NBegin (n_next v) t i o]).
Proof.
  intros v L t i o os (M & info & eff & Ri & Ca & Ag & Wc & Cc & Nd & Nn & If & En & Es & Cd & G & Q) Nt Td. cbn [fst snd] in *. set (n := n_next v) in *.
  assert (Fn : info n = None) by (destruct (info n) as [[[t' i'] o']|] eqn:E; [destruct (If _ _ _ _ E) as (_ & X & _); unfold n in X; lia|reflexivity]).
  assert (Ee : eff n = None \/ exists r, eff n = Some r) by (destruct (eff n) as [r|]; eauto).
  set (info' := put_at info n (Some (t, i, o))). set (eff' := put_at eff n None).
  assert (Nb : forall o' r', ~ In (Effective n o' r') M).
  { intros o' r' Im. apply in_split in Im. destruct Im as (M1 & M2 & Em). destruct Ri as (Er & A & _). destruct (A _ _ _ _ _ Em) as [(t' & i' & Ib) _].
    assert (In n (numbers L)) by (rewrite <- Er; apply (numbers_seen M n t' i' o'); rewrite Em; apply in_app_iff; left; exact Ib). pose proof (Nn n H). unfold n in *. lia. }
  assert (Gt : forall i, cs_threads (n_object v i) t = resting) by (specialize (G t); unfold goro in G; rewrite Nt in G; exact G).
  exists (M ++ [Seen (NBegin n t i o)]), info', eff'. cbn [fst snd n_cache n_object n_up n_now n_todo n_next]. unfold cache_after. rewrite story_app, told_app. cbn [story told flat_map]. rewrite !app_nil_r.
  split; [apply right_seen; [exact Ri|discriminate]|]. split; [exact Ca|]. split; [exact Ag|]. split; [exact Wc|]. split; [exact Cc|]. rewrite numbers_app. cbn [numbers flat_map]. rewrite app_nil_r.
  split; [apply NoDup_snoc; [exact Nd|intro X; apply Nn in X; unfold n in X; lia]|]. split; [intros m Hm; apply in_app_iff in Hm; destruct Hm as [Hm|[<-|[]]]; [apply Nn in Hm; unfold n; lia|unfold n; lia]|].
  split; [|split; [|split; [|split; [|split]]]].
  - intros m t' i' o' E. unfold info' in E. destruct (Nat.eq_dec m n) as [->|D].
    + rewrite put_same in E. injection E as <- <- <-. split; [apply in_app_iff; right; left; reflexivity|]. split; [unfold n; lia|].
      specialize (legal_progs t). rewrite <- (Cd t), Td in legal_progs. apply Forall_app in legal_progs. destruct legal_progs as [_ F]. exact (Forall_inv F).
    + rewrite put_other in E by exact D. destruct (If _ _ _ _ E) as (X & Y & Z0). split; [apply in_app_iff; left; exact X|]. split; [unfold n; lia|exact Z0].
  - intros m E o' r' Im. apply in_app_iff in Im. destruct Im as [Im|[X|[]]]; [|discriminate X]. unfold eff' in E. destruct (Nat.eq_dec m n) as [->|D]; [exact (Nb _ _ Im)|rewrite put_other in E by exact D; exact (En m E _ _ Im)].
  - intros m r t' i' o' E I. unfold eff', info' in *. destruct (Nat.eq_dec m n) as [->|D]; [rewrite put_same in E; discriminate E|]. rewrite put_other in E, I by exact D. apply in_app_iff. left. exact (Es _ _ _ _ _ E I).
  - intro t'. rewrite called_app. cbn [called flat_map]. rewrite app_nil_r, <- (Cd t'). destruct (Nat.eqb_spec t t') as [<-|D]; [rewrite put_same, Td, <- app_assoc; reflexivity|rewrite put_other by congruence; rewrite app_nil_r; reflexivity].
  - intro t'. unfold goro. destruct (Nat.eq_dec t' t) as [->|D].
    + rewrite put_same. exists i, o. unfold info', eff'. rewrite !put_same. split; [reflexivity|]. split; [cbn [enter cs_threads]; rewrite set_same; reflexivity|]. split; [intros i' Di; rewrite put_other by exact Di; apply Gt|left; reflexivity].
    + rewrite put_other by exact D. specialize (G t'). unfold goro in G.
      assert (Same : forall k, cs_threads (put_at (n_object v) i (enter (n_object v i) t o) k) t' = cs_threads (n_object v k) t').
      { intro k. destruct (Nat.eq_dec k i) as [->|Di]; [rewrite put_same; cbn [enter cs_threads]; apply set_other; exact D|rewrite put_other by exact Di; reflexivity]. }
      assert (Lk : forall k, cs_lock (put_at (n_object v) i (enter (n_object v i) t o) k) = cs_lock (n_object v k)).
      { intro k. destruct (Nat.eq_dec k i) as [->|Di]; [rewrite put_same; reflexivity|rewrite put_other by exact Di; reflexivity]. }
      destruct (n_now v t') as [m|].
      * destruct G as (i' & o' & I & P & R & E). exists i', o'. assert (Dm : m <> n) by (intros ->; congruence). unfold info', eff'. rewrite (put_other _ info) by exact Dm. rewrite (put_other _ eff) by exact Dm. rewrite Same, Lk. split; [exact I|]. split; [exact P|]. split; [intros k Dk; rewrite Same; apply R; exact Dk|exact E].
      * intro k. rewrite Same. apply G.
  - intro k.
    assert (Fr : conn (n_object v k) (n_up v k) k (put_at (n_now v) t (Some n)) info' eff' (n_cache v)).
    { apply (conn_frame _ _ _ (n_now v) info eff (n_cache v)); [apply Q| | | | |].
      - intros t' Lk. destruct (Nat.eq_dec t' t) as [->|D]; [|apply put_other; exact D]. exfalso. destruct (conn_current _ _ _ _ _ _ _ _ (Q k) Lk) as [o' Co]. rewrite Gt in Co. discriminate Co.
      - intros t' m Lk Nw. destruct (holder_call _ _ _ _ _ _ _ _ _ (Q k) (G t') Lk eq_refl) as (m' & o' & N1 & N2 & _). rewrite Nw in N1. injection N1 as ->. exists o'. exact N2.
      - intros m x E. unfold info'. rewrite put_other; [exact E|]. intros ->. congruence.
      - intros m t' o' E. unfold eff'. rewrite put_other; [reflexivity|]. intros ->. congruence.
      - intros t' m x E Nw. destruct (Nat.eq_dec t' t) as [->|D]; [rewrite put_same in Nw; injection Nw as <-; congruence|rewrite put_other in Nw by exact D; exact Nw]. }
    destruct (Nat.eq_dec k i) as [->|Dk]; [|rewrite put_other by exact Dk; exact Fr]. rewrite put_same.
    destruct (n_up v i); cbn [conn] in *.
    + change (facing (enter (n_object v i) t o) (n_cache v)) with (enter (facing (n_object v i) (n_cache v)) t o). apply local_enter; [apply Gt|exact Fr].
    + destruct Fr as (F1 & F2 & F3 & F4). cbn [enter cs_lock cs_threads].
      assert (Th : forall t', t' <> t -> set_thread (cs_threads (n_object v i)) t (mkThread Idle [o]) t' = cs_threads (n_object v i) t') by (intros t' D; apply set_other; exact D).
      assert (Lt : cs_lock (n_object v i) <> Some t) by (intro X; destruct (F2 t X) as [o' Co]; rewrite Gt in Co; discriminate Co).
      split; [|split; [|split]].
      * intros t' N. destruct (Nat.eq_dec t' t) as [->|D]; [rewrite set_same in N; elim N; reflexivity|]. rewrite (Th t' D) in N. apply F1. exact N.
      * intros t' X. assert (D : t' <> t) by (intros ->; contradiction). rewrite (Th t' D). apply F2. exact X.
      * exact F3.
      * destruct F4 as [F4|(t' & m & o' & r & y & X & F4)]; [left; exact F4|]. right. exists t', m, o', r, y. assert (D : t' <> t) by (intros ->; contradiction). cbn [enter cs_lock cs_threads cs_buf cs_in cs_pending cs_out]. rewrite (Th t' D). split; [exact X|exact F4].
Qed.

Definition after (s : cstate) (u : bool) (s' : cstate) (C : cache) : cstate := if u then s' else into_the_void (facing s C) s'.
Lemma facing_self : forall s, s = facing s (cs_cache s).
Proof. intros [? ? ? ? ? ? ? ? ?]. reflexivity. Qed.
Lemma text_effect : forall C o rq, legal PText o -> text_req o = Ok rq -> wf PText C -> (c_cas C < 2 ^ 64)%Z ->
  exists r out, daemon_step WireAscii C rq = Some (fst (spec_step PText name C o), r, []) /\ cl_resp cl o r = (out, []) /\ agrees (snd (spec_step PText name C o)) out.
Proof.
  intros C o rq Ll Rq W Cb. destruct (text_call_ok name C (h 0) o W Cb Ll) as (out & Ca & Ag).
  assert (D1 : exists c1 r1, daemon_step WireAscii C rq = Some (c1, r1, [])) by (rewrite <- (app_nil_r rq); do 2 eexists; apply text_step; eassumption).
  destruct D1 as (c1 & r1 & D1). exists r1, out.
  unfold call, fresh_link in Ca. cbn [text_client cl_req cl_wire fst snd l_header l_cache l_pending l_unread app] in Ca. rewrite Rq, (daemon_one _ _ _ _ _ D1) in Ca.
  pose proof (f_equal (fun x => l_cache (fst x)) Ca) as X1. pose proof (f_equal (fun x => l_unread (fst x)) Ca) as X2. pose proof (f_equal snd Ca) as X3. cbn [fst snd l_cache l_unread] in X1, X2, X3.
  rewrite <- X1. split; [exact D1|]. split; [|exact Ag]. rewrite (surjective_pairing (cl_resp cl o r1)). f_equal; [exact X3|exact X2].
Qed.
Lemma mark_none : forall obj now info eff i t, goro obj now info eff t -> cs_lock (obj i) = None -> pending_of (cs_threads (obj i) t) <> [] -> mark now eff t = None.
Proof.
  intros obj now info eff i t G L N. unfold goro in G. unfold mark. destruct (now t) as [n|]; [|reflexivity]. destruct G as (i' & o & _ & _ & R & [E|E]); [exact E|].
  destruct (Nat.eq_dec i i') as [->|D]; [congruence|]. rewrite (R i D) in N. elim N. reflexivity.
Qed.
(** One step inside a connection. *)
Lemma conn_inside : forall obj u i now info eff C s', let s := obj i in
  conn s u i now info eff C -> (forall t, goro obj now info eff t) -> (forall n t i o, info n = Some (t, i, o) -> legal PText o) -> wf PText C -> (c_cas C < 2 ^ 64)%Z ->
  cstep cl (facing s C) s' -> cs_log s' = cs_log s ->
  (cs_cache s' = C /\ conn (after s u s' C) u i now info eff C)
  \/ exists n t o r, info n = Some (t, i, o) /\ eff n = None /\ agrees (snd (spec_step PText name C o)) r /\ (now t = Some n -> cs_lock s = Some t)
       /\ cs_cache s' = fst (spec_step PText name C o) /\ conn (after s u s' C) u i now info (put_at eff n (Some r)) (fst (spec_step PText name C o)).
Proof.
  intros obj u i now info eff C s' s Q G If W Cb S Lg. pose proof (fun t => conn_holder s u i now info eff C t Q) as Ho. destruct u; cbn [after].
  - (* up *) cbn [conn] in Q. destruct (local_step name (facing s C) s' C (mark now eff) (h i) Q S Lg) as [Q'|(t & o & r & Lk & Co & Mt & Ca & Q')]; [| |exact W|exact Cb| |].
    + cbn [facing cs_lock cs_threads]. intros L t N. exact (mark_none obj now info eff i t (G t) L N).
    + cbn [facing cs_lock cs_threads]. intros t o L Co. destruct (holder_call s obj now info eff true i C t Q (G t) L eq_refl) as (n & o' & _ & In & Co' & _). rewrite Co in Co'. injection Co' as ->. exact (If _ _ _ _ In).
    + left. assert (Ec : cs_cache s' = C) by (unfold local in Q'; destruct (cs_lock s'); [destruct Q' as (_ & o & rq & _ & _ & E & _); exact E|apply Q']). split; [exact Ec|].
      cbn [conn]. rewrite <- Ec, <- facing_self. rewrite <- Ec in Q'. exact Q'.
    + right. cbn [facing cs_lock cs_threads] in Lk, Co. destruct (holder_call s obj now info eff true i C t Q (G t) Lk eq_refl) as (n & o' & Nw & In & Co' & _). rewrite Co in Co'. injection Co' as <-.
      destruct (text_call_ok name C (h i) o W Cb (If _ _ _ _ In)) as (out & Ca' & Ag). unfold cl in Ca. cbn [client_of] in Ca. rewrite Ca in Ca'. injection Ca' as <-.
      exists n, t, o, r. split; [exact In|]. unfold mark in Mt. rewrite Nw in Mt. split; [exact Mt|]. split; [exact Ag|]. split; [intros _; exact Lk|].
      assert (Q2 : local name s' (fst (spec_step PText name C o)) (mark now (put_at eff n (Some r)))) by (apply Q'; unfold mark; rewrite Nw; apply put_same).
      assert (Ec : cs_cache s' = fst (spec_step PText name C o)) by (unfold local in Q2; destruct (cs_lock s'); [destruct Q2 as (_ & o2 & rq & _ & _ & E & _); exact E|apply Q2]).
      split; [exact Ec|]. cbn [conn]. rewrite <- Ec, <- facing_self. rewrite <- Ec in Q2. exact Q2.
  - (* down *) cbn [conn] in Q. destruct Q as (F1 & F2 & F3 & F4). remember (facing s C) as s0 eqn:E0.
    assert (Cut : forall A (l : list A), firstn (length l) l = l) by (intros; apply firstn_all).
    assert (Cut2 : forall A (l m : list A), firstn (length l) (l ++ m) = l) by (intros A l m; rewrite firstn_app, Nat.sub_diag, firstn_O, app_nil_r; apply Cut).
    assert (Cut3 : forall A (l m : list A), firstn (length (m ++ l)) l = l) by (intros A l m; apply firstn_all2; rewrite app_length; lia).
    destruct S as [s0 t o os rq Lk0 Th Rq|s0 t o a b os Th|s0 t o os Th|s0 a b Eo|s0 c' r rest Ed|s0 a b Ei|s0 t o os r rest Th Ed N|s0 d Lk0 Eo Ep]; subst s0; cbn [facing cs_lock cs_threads cs_header cs_out cs_pending cs_cache cs_in cs_buf cs_log] in *.
    + (* lock *) left. split; [reflexivity|]. unfold conn, into_the_void. cbn [facing cs_lock cs_threads cs_header cs_out cs_pending cs_cache cs_in cs_buf]. rewrite !Cut. split; [|split; [|split]].
      * intros v N. destruct (Nat.eq_dec v t) as [->|D]; [reflexivity|]. rewrite set_other in N by exact D. apply F1 in N. congruence.
      * intros v E. injection E as <-. exists o. rewrite set_same. reflexivity.
      * unfold wire in *. cbn [cs_lock cs_pending cs_out]. destruct F3 as [F3|(n & v & o' & rq' & x & I & En & Nv & P)]; [left; exact F3|]. right. exists n, v, o', rq', x. split; [exact I|]. split; [exact En|]. split; [|exact P]. intro X. apply Nv in X. congruence.
      * destruct F4 as [F4|(v & n & o' & r & y & X & _)]; [left; exact F4|congruence].
    + (* send *) pose proof (Ho t ltac:(rewrite Th; discriminate)) as Lt. left. split; [reflexivity|]. unfold conn, into_the_void. cbn [facing cs_lock cs_threads cs_header cs_out cs_pending cs_cache cs_in cs_buf]. rewrite Cut, Cut2.
      split; [|split; [|split]].
      * intros v N. destruct (Nat.eq_dec v t) as [->|D]; [exact Lt|]. rewrite set_other in N by exact D. apply F1. exact N.
      * intros v E. rewrite Lt in E. injection E as <-. exists o. rewrite set_same. reflexivity.
      * exact F3.
      * destruct F4 as [F4|(v & n & o' & r & y & X & Nv & Co & En & Lf & P)]; [left; exact F4|]. rewrite Lt in X. injection X as <-. right. exists t, n, o', r, y. cbn [cs_lock cs_threads cs_buf cs_in cs_pending cs_out]. rewrite set_same. rewrite Th in Co, Lf.
        cbn [left_of th_pc] in *. apply app_eq_nil in Lf. destruct Lf as [-> ->]. split; [exact Lt|]. split; [exact Nv|]. split; [exact Co|]. split; [exact En|]. split; [reflexivity|exact P].
    + (* sent *) pose proof (Ho t ltac:(rewrite Th; discriminate)) as Lt. left. split; [reflexivity|]. unfold conn, into_the_void. cbn [facing cs_lock cs_threads cs_header cs_out cs_pending cs_cache cs_in cs_buf]. rewrite !Cut.
      split; [|split; [|split]].
      * intros v N. destruct (Nat.eq_dec v t) as [->|D]; [exact Lt|]. rewrite set_other in N by exact D. apply F1. exact N.
      * intros v E. rewrite Lt in E. injection E as <-. exists o. rewrite set_same. reflexivity.
      * exact F3.
      * destruct F4 as [F4|(v & n & o' & r & y & X & Nv & Co & En & Lf & P)]; [left; exact F4|]. rewrite Lt in X. injection X as <-. right. exists t, n, o', r, y. cbn [cs_lock cs_threads cs_buf cs_in cs_pending cs_out]. rewrite set_same. rewrite Th in Co, Lf.
        split; [exact Lt|]. split; [exact Nv|]. split; [exact Co|]. split; [exact En|]. split; [reflexivity|exact P].
    + (* net out *) left. split; [reflexivity|]. unfold conn, into_the_void. cbn [facing cs_lock cs_threads cs_header cs_out cs_pending cs_cache cs_in cs_buf]. rewrite Cut, Eo, Cut3. split; [exact F1|]. split; [exact F2|].
      unfold wire, reading in *. cbn [cs_lock cs_threads cs_pending cs_out cs_buf cs_in]. rewrite <- app_assoc, <- Eo. split; [|exact F4].
      destruct F3 as [F3|(n & v & o' & rq' & x & I & En & Nv & Rq & P)]; [left; exact F3|]. right. exists n, v, o', rq', x. split; [exact I|]. split; [exact En|]. split; [exact Nv|]. split; [exact Rq|]. rewrite <- P, Eo, <- !app_assoc. reflexivity.
    + (* daemon *) assert (Dd : cs_pending s <> []) by (intro X; rewrite X in Ed; pose proof (daemon_step_shrink _ _ _ _ _ _ Ed) as Y; cbn in Y; lia).
      destruct F3 as [F3|(n & t & o & rq & x & In & En & Nv & Rq & P)]; [apply app_eq_nil in F3; destruct F3 as [F3 _]; contradiction|]. right.
      destruct F4 as [F4|(t' & n' & o' & r' & y & _ & _ & _ & _ & _ & F4 & _)]; [|apply app_eq_nil in F4; destruct F4 as [F4 _]; contradiction].
      destruct (text_effect C o rq (If _ _ _ _ In) Rq W Cb) as (r1 & out & D1 & Re & Ag). cbn [cl client_of text_client cl_wire] in Ed.
      pose proof (daemon_step_more _ _ _ _ _ _ (cs_out s ++ x) Ed) as D2. rewrite P, D1 in D2. injection D2 as D2 D3 D4. symmetry in D4. apply app_eq_nil in D4. destruct D4 as [-> D4]. apply app_eq_nil in D4. destruct D4 as [D4 D5].
      exists n, t, o, out. split; [exact In|]. split; [exact En|]. split; [exact Ag|]. split; [exact Nv|]. split; [symmetry; exact D2|].
      unfold conn, into_the_void. cbn [facing cs_lock cs_threads cs_header cs_out cs_pending cs_cache cs_in cs_buf]. rewrite Cut, Cut2. split; [exact F1|]. split; [exact F2|]. split; [left; cbn [cs_pending cs_out app]; exact D4|left; exact F4].
    + (* net in *) left. split; [reflexivity|]. unfold conn, into_the_void. cbn [facing cs_lock cs_threads cs_header cs_out cs_pending cs_cache cs_in cs_buf]. rewrite Cut, Ei, Cut3. split; [exact F1|]. split; [exact F2|]. split; [exact F3|].
      unfold reading in *. cbn [cs_lock cs_threads cs_pending cs_out cs_buf cs_in]. assert (X : forall y, (cs_buf s ++ a) ++ b ++ y = cs_buf s ++ cs_in s ++ y) by (intro y; rewrite Ei, <- !app_assoc; reflexivity).
      destruct F4 as [F4|(v & n & o' & r & y & F4)]; [left; pose proof (X []) as X0; rewrite !app_nil_r in X0; rewrite X0; exact F4|]. right. exists v, n, o', r, y. rewrite X. exact F4.
    + exfalso. exact (log_longer _ _ (eq_sym Lg)).
    + exfalso. exact (log_longer _ _ (eq_sym Lg)).
Qed.

Lemma agrees_snoc : forall xs ys x y, Forall2 agrees xs ys -> agrees x y -> Forall2 agrees (xs ++ [x]) (ys ++ [y]).
Proof. intros xs ys x y H A. apply Forall2_app; [exact H|constructor; [exact A|constructor]]. Qed.
Lemma ninv_inside : forall v L i s', ninv (v, L) -> (c_cas c + zlen L < 2 ^ 64)%Z -> cstep cl (object v i) s' -> cs_log s' = cs_log (object v i) ->
  ninv (with_object v i (if n_up v i then s' else into_the_void (object v i) s'), L).
Proof.
  intros v L i s' (M & info & eff & Ri & Ca & Ag & Wc & Cc & Nd & Nn & If & En & Es & Cd & G & Q) Cz S Lg. cbn [fst snd] in *.
  pose proof (right_few L M Ri) as Few.
  set (S2 := if n_up v i then s' else into_the_void (object v i) s').
  assert (Th : cs_threads S2 = cs_threads s') by (unfold S2; destruct (n_up v i); reflexivity).
  assert (Lk : cs_lock S2 = cs_lock s') by (unfold S2; destruct (n_up v i); reflexivity).
  assert (Cs : cs_cache S2 = cs_cache s') by (unfold S2; destruct (n_up v i); reflexivity).
  assert (Rs : forall t k, cs_threads (n_object v k) t = resting -> cs_threads (put_at (n_object v) i S2 k) t = resting).
  { intros t k E. destruct (Nat.eq_dec k i) as [->|Di]; [rewrite put_same, Th; exact (cstep_resting _ _ _ _ S E)|rewrite put_other by exact Di; exact E]. }
  assert (Pn : forall t k, pending_of (cs_threads (put_at (n_object v) i S2 k) t) = pending_of (cs_threads (n_object v k) t)).
  { intros t k. destruct (Nat.eq_dec k i) as [->|Di]; [rewrite put_same, Th; exact (cstep_pending _ _ _ t S (or_introl Lg))|rewrite put_other by exact Di; reflexivity]. }
  assert (Kp : forall t k, cs_lock (n_object v k) = Some t -> cs_lock (put_at (n_object v) i S2 k) = Some t).
  { intros t k E. destruct (Nat.eq_dec k i) as [->|Di]; [rewrite put_same, Lk; exact (lock_kept name _ _ _ S Lg E)|rewrite put_other by exact Di; exact E]. }
  assert (Le : forall n t k o, info n = Some (t, k, o) -> legal PText o) by (intros n t k o E; apply (If n t k o E)).
  destruct (conn_inside (n_object v) (n_up v i) i (n_now v) info eff (n_cache v) s' (Q i) G Le Wc ltac:(lia) S Lg) as [[Ec Q2]|(n & t & o & r & In & Ee & Agr & Nv & Ec & Q2)];
    change (after (n_object v i) (n_up v i) s' (n_cache v)) with S2 in Q2.
  - exists M, info, eff. cbn [fst snd with_object n_cache n_object n_up n_now n_todo n_next]. rewrite Cs, Ec. repeat (split; [assumption|]). split.
    + intro t. specialize (G t). unfold goro in *. destruct (n_now v t) as [n|]; [|intro k; apply Rs; apply G]. destruct G as (k & o & I & P & R & E). exists k, o. rewrite Pn. split; [exact I|]. split; [exact P|].
      split; [intros k' Dk; apply Rs, R, Dk|]. destruct E as [E|E]; [left; exact E|right; apply Kp; exact E].
    + intro k. destruct (Nat.eq_dec k i) as [->|Di]; [rewrite put_same; exact Q2|rewrite put_other by exact Di; apply Q].
  - destruct (If _ _ _ _ In) as (Ib & Ln & Ll). pose proof (En n Ee) as Ne. set (c1 := fst (spec_step PText name (n_cache v) o)) in *. set (eff' := put_at eff n (Some r)) in *.
    exists (M ++ [Effective n o r]), info, eff'. cbn [fst snd with_object n_cache n_object n_up n_now n_todo n_next]. rewrite Cs, Ec. unfold cache_after in *. rewrite story_app, told_app, spec_run_app. cbn [story told flat_map app spec_run fst snd]. rewrite Ca.
    split; [apply (right_effect L M n t i o r Ri Ib Ne)|]. fold c1. split; [reflexivity|]. split; [apply agrees_snoc; assumption|]. split; [apply wf_spec_step; assumption|].
    split; [rewrite zlen_app; unfold zlen at 2; cbn [length]; pose proof (cas_spec_step PText name (n_cache v) o); unfold c1; lia|]. split; [exact Nd|]. split; [exact Nn|].
    split; [|split; [|split; [|split; [exact Cd|split]]]].
    + intros m t' k o' E. destruct (If _ _ _ _ E) as (X & Y & Z0). split; [apply in_app_iff; left; exact X|]. split; assumption.
    + intros m E o' r' Im. unfold eff' in E. destruct (Nat.eq_dec m n) as [->|D]; [rewrite put_same in E; discriminate E|]. rewrite put_other in E by exact D. apply in_app_iff in Im. destruct Im as [Im|[X|[]]]; [exact (En m E _ _ Im)|injection X as X _ _; congruence].
    + intros m r' t' k o' E I. unfold eff' in E. destruct (Nat.eq_dec m n) as [->|D].
      * rewrite put_same in E. injection E as <-. rewrite In in I. injection I as <- <- <-. apply in_app_iff. right. left. reflexivity.
      * rewrite put_other in E by exact D. apply in_app_iff. left. exact (Es _ _ _ _ _ E I).
    + intro t'. specialize (G t'). unfold goro in *. destruct (n_now v t') as [m|] eqn:Nw; [|intro k; apply Rs; apply G]. destruct G as (k & o' & I & P & R & E). exists k, o'. rewrite Pn. split; [exact I|]. split; [exact P|].
      split; [intros k' Dk; apply Rs, R, Dk|]. unfold eff'. destruct (Nat.eq_dec m n) as [->|D].
      * right. rewrite In in I. injection I as <- <- <-. apply Kp. apply Nv. exact Nw.
      * rewrite put_other by exact D. destruct E as [E|E]; [left; exact E|right; apply Kp; exact E].
    + intro k. destruct (Nat.eq_dec k i) as [->|Di]; [rewrite put_same; exact Q2|rewrite put_other by exact Di].
      apply (conn_frame _ _ _ (n_now v) info eff (n_cache v)); [apply Q|reflexivity| |auto| |auto].
      * intros t' m Lk' Nw. destruct (holder_call _ _ _ _ _ _ _ _ _ (Q k) (G t') Lk' eq_refl) as (m' & o' & N1 & N2 & _). rewrite Nw in N1. injection N1 as ->. exists o'. exact N2.
      * intros m t' o' E. unfold eff'. apply put_other. intros ->. rewrite In in E. injection E as _ X _. congruence.
Qed.
Lemma ninv_time : forall v L d, ninv (v, L) -> (0 <= d)%Z -> ninv (mkN (tick (n_cache v) d) (n_object v) (n_up v) (n_now v) (n_todo v) (n_next v), L ++ [NTime d]).
Proof.
  intros v L d (M & info & eff & Ri & Ca & Ag & Wc & Cc & Nd & Nn & If & En & Es & Cd & G & Q) D. cbn [fst snd] in *.
  exists (M ++ [Seen (NTime d)]), info, eff. cbn [fst snd n_cache n_object n_up n_now n_todo n_next]. unfold cache_after in *. rewrite story_app, told_app, spec_run_app. cbn [story told flat_map app spec_run fst snd]. rewrite Ca, !app_nil_r.
  split; [apply right_seen; [exact Ri|discriminate]|]. split; [reflexivity|]. split; [exact Ag|]. split; [apply wf_tick; assumption|]. split; [exact Cc|]. rewrite numbers_app. cbn [numbers flat_map]. rewrite app_nil_r. split; [exact Nd|]. split; [exact Nn|].
  split; [|split; [|split; [|split; [|split; [exact G|]]]]].
  - intros m t k o E. destruct (If _ _ _ _ E) as (X & Y). split; [apply in_app_iff; left; exact X|exact Y].
  - intros m E o r Im. apply in_app_iff in Im. destruct Im as [Im|[X|[]]]; [exact (En m E _ _ Im)|discriminate X].
  - intros m r t k o E I. apply in_app_iff. left. exact (Es _ _ _ _ _ E I).
  - intro t. rewrite called_app. cbn [called flat_map]. rewrite app_nil_r. apply Cd.
  - intro k. apply (conn_frame _ _ _ (n_now v) info eff (n_cache v)); [apply Q|reflexivity| |auto|auto|auto].
    intros t' m Lk' Nw. destruct (holder_call _ _ _ _ _ _ _ _ _ (Q k) (G t') Lk' eq_refl) as (m' & o' & N1 & N2 & _). rewrite Nw in N1. injection N1 as ->. exists o'. exact N2.
Qed.

(** A call returns, with the answer or an error. *)
Lemma ninv_finish : forall v L i t n r S2, ninv (v, L) -> n_now v t = Some n -> cs_lock (n_object v i) = Some t ->
  (exists o os, pending_of (cs_threads (n_object v i) t) = o :: os /\ cs_threads S2 t = mkThread Idle os) ->
  (forall t', t' <> t -> cs_threads S2 t' = cs_threads (n_object v i) t') ->
  (forall info eff o, conn (n_object v i) (n_up v i) i (n_now v) info eff (n_cache v) -> info n = Some (t, i, o) ->
     (r = Err EIO \/ eff n = Some r) /\ conn S2 (n_up v i) i (put_at (n_now v) t None) info eff (n_cache v)) ->
  ninv (mkN (n_cache v) (put_at (n_object v) i S2) (n_up v) (put_at (n_now v) t None) (n_todo v) (n_next v), L ++ [NEnd n r]).
Proof.
  intros v L i t n r S2 (M & info & eff & Ri & Ca & Ag & Wc & Cc & Nd & Nn & If & En & Es & Cd & G & Q) Nw Lk (o & os & Pd & Td) Oth K. cbn [fst snd] in *.
  destruct (holder_call _ _ _ _ _ _ _ _ _ (Q i) (G t) Lk eq_refl) as (n' & o' & Nw' & In & Co & Pe). rewrite Nw in Nw'. injection Nw' as <-. rewrite Pd in Pe. injection Pe as -> ->.
  destruct (K info eff o' (Q i) In) as [Rr Q2].
  exists (M ++ [Seen (NEnd n r)]), info, eff. cbn [fst snd n_cache n_object n_up n_now n_todo n_next]. unfold cache_after in *. rewrite story_app, told_app. cbn [story told flat_map]. rewrite !app_nil_r.
  split; [apply right_seen; [exact Ri|intros m q X; injection X as <- <-; destruct Rr as [->|E]; [left; reflexivity|right; exists o'; exact (Es _ _ _ _ _ E In)]]|]. split; [exact Ca|]. split; [exact Ag|]. split; [exact Wc|]. split; [exact Cc|].
  rewrite numbers_app. cbn [numbers flat_map]. rewrite app_nil_r. split; [exact Nd|]. split; [exact Nn|]. split; [|split; [|split; [|split; [|split]]]].
  - intros m t' k o2 E. destruct (If _ _ _ _ E) as (X & Y). split; [apply in_app_iff; left; exact X|exact Y].
  - intros m E o2 r2 Im. apply in_app_iff in Im. destruct Im as [Im|[X|[]]]; [exact (En m E _ _ Im)|discriminate X].
  - intros m r2 t' k o2 E I. apply in_app_iff. left. exact (Es _ _ _ _ _ E I).
  - intro t'. rewrite called_app. cbn [called flat_map]. rewrite app_nil_r. apply Cd.
  - intro t'. specialize (G t'). unfold goro in *. destruct (Nat.eq_dec t' t) as [->|D].
    + rewrite put_same. rewrite Nw in G. destruct G as (k & o2 & I & P & R & _). rewrite In in I. injection I as <- <-. intro k. destruct (Nat.eq_dec k i) as [->|Di]; [rewrite put_same; exact Td|rewrite put_other by exact Di; apply R; exact Di].
    + rewrite put_other by exact D. assert (Same : forall k, cs_threads (put_at (n_object v) i S2 k) t' = cs_threads (n_object v k) t').
      { intro k. destruct (Nat.eq_dec k i) as [->|Di]; [rewrite put_same; apply Oth; exact D|rewrite put_other by exact Di; reflexivity]. }
      destruct (n_now v t') as [m|]; [|intro k; rewrite Same; apply G]. destruct G as (k & o2 & I & P & R & E). exists k, o2. rewrite Same. split; [exact I|]. split; [exact P|]. split; [intros k' Dk; rewrite Same; apply R; exact Dk|].
      destruct E as [E|E]; [left; exact E|]. right. destruct (Nat.eq_dec k i) as [->|Di]; [congruence|rewrite put_other by exact Di; exact E].
  - intro k. destruct (Nat.eq_dec k i) as [->|Di]; [rewrite put_same; exact Q2|rewrite put_other by exact Di].
    apply (conn_frame _ _ _ (n_now v) info eff (n_cache v)); [apply Q| | |auto|auto|].
    + intros t' Lk'. apply put_other. intros ->. destruct (conn_current _ _ _ _ _ _ _ _ (Q k) Lk') as [o2 Co2]. specialize (G t). unfold goro in G. rewrite Nw in G. destruct G as (k' & o3 & I & P & R & _). rewrite In in I. injection I as <- <-. rewrite (R k Di) in Co2. discriminate Co2.
    + intros t' m Lk' Nw'. destruct (holder_call _ _ _ _ _ _ _ _ _ (Q k) (G t') Lk' eq_refl) as (m' & o2 & N1 & N2 & _). rewrite Nw' in N1. injection N1 as ->. exists o2. exact N2.
    + intros t' m x _ E. destruct (Nat.eq_dec t' t) as [->|D]; [rewrite put_same in E; discriminate E|rewrite put_other in E by exact D; exact E].
Qed.
Lemma done_step : forall s s' t o r, cstep cl s s' -> cs_log s' = cs_log s ++ [LDone t o r] ->
  exists os rest, cs_threads s t = mkThread (Waiting o) os /\ cl_resp cl o (cs_buf s) = (r, rest) /\ r <> Err EIO
    /\ s' = mkC None (set_thread (cs_threads s) t (mkThread Idle os)) (cs_header s) (cs_out s) (cs_pending s) (cs_cache s) (cs_in s) rest (cs_log s ++ [LDone t o r]).
Proof.
  intros s s' t o r S Lg. destruct S as [s ? ? ? ? _ _ _|s ? ? ? ? ? _|s ? ? ? _|s ? ? _|s ? ? ? _|s ? ? _|s t' o' os' r' rest Th Ed N|s d _ _ _]; cbn [cs_log] in Lg; try (exfalso; exact (log_longer _ _ Lg)); try (apply app_inv_head in Lg; discriminate Lg).
  apply app_inv_head in Lg. injection Lg as -> -> ->. exists os', rest. repeat (split; [assumption|]). reflexivity.
Qed.
Lemma ninv_end : forall v L i t n o r s', ninv (v, L) -> cstep cl (object v i) s' -> cs_log s' = cs_log (object v i) ++ [LDone t o r] -> n_now v t = Some n ->
  ninv (mkN (n_cache v) (put_at (n_object v) i s') (n_up v) (put_at (n_now v) t None) (n_todo v) (n_next v), L ++ [NEnd n r]).
Proof.
  intros v L i t n o r s' Inv S Lg Nw. destruct (done_step _ _ _ _ _ S Lg) as (os & rest & Th & Ed & N & Es'). cbn [object facing cs_threads cs_buf cs_lock cs_out cs_pending cs_in cs_header cs_log cs_cache] in Th, Ed, Es'.
  assert (Lk : cs_lock (n_object v i) = Some t).
  { destruct Inv as (M & info & eff & _ & _ & _ & _ & _ & _ & _ & _ & _ & _ & _ & G & Q). apply (conn_holder _ _ _ _ _ _ _ t (Q i)). cbn [fst]. rewrite Th. discriminate. }
  apply (ninv_finish v L i t n r s' Inv Nw Lk).
  - exists o, os. rewrite Th, Es'. split; [reflexivity|apply set_same].
  - intros t' D. rewrite Es'. apply set_other. exact D.
  - intros info eff o2 Q _. destruct (n_up v i); cbn [conn] in *.
    + destruct (local_end name _ _ _ _ _ _ _ Q S Lg) as (_ & Mr & _ & Q2). unfold mark in Mr. rewrite Nw in Mr. split; [right; exact Mr|]. cbn [object facing cs_cache] in Es'.
      specialize (Q2 (mark (put_at (n_now v) t None) eff)). assert (Ec : cs_cache s' = n_cache v) by (rewrite Es'; reflexivity). rewrite <- Ec, <- facing_self. rewrite <- Ec in Q2. exact Q2.
    + destruct Q as (F1 & F2 & F3 & F4).
      destruct F4 as [F4|(t' & m & o' & r' & y & X & Nv & Co & En & Lf & P & Re)].
      * exfalso. apply app_eq_nil in F4. destruct F4 as [F4 _]. apply N. rewrite F4 in Ed. pose proof (silence_is_an_error PText name o) as X. fold cl in X. rewrite Ed in X. exact X.
      * rewrite Lk in X. injection X as <-. rewrite Nw in Nv. injection Nv as <-. rewrite Th in Co. cbn [current th_pc] in Co. injection Co as <-.
        pose proof (C17_cut_reply_is_an_error_or_complete PText name o (cs_buf (n_object v i)) (cs_in (n_object v i) ++ y) r rest Ed N : cl_resp cl o _ = _) as Er.
        rewrite Re in Er. injection Er as Er1 Er2. subst r'. symmetry in Er2. apply app_eq_nil in Er2. destruct Er2 as [-> Er2]. apply app_eq_nil in Er2. destruct Er2 as [Er2 _].
        split; [right; exact En|]. rewrite Es'. cbn [cs_lock cs_threads]. split; [|split; [|split]].
        -- intros u Nu. exfalso. destruct (Nat.eq_dec u t) as [->|D]; [rewrite set_same in Nu; apply Nu; reflexivity|]. rewrite set_other in Nu by exact D. apply F1 in Nu. congruence.
        -- discriminate.
        -- left. cbn [cs_pending cs_out]. exact P.
        -- left. cbn [cs_buf cs_in app]. exact Er2.
Qed.
Lemma ninv_fail : forall v L i t n o x os ib bb, ninv (v, L) -> n_up v i = false -> cs_threads (n_object v i) t = mkThread x os -> n_now v t = Some n -> current (mkThread x os) = [o] ->
  (ib = [] /\ bb = [] \/ ib = cs_in (n_object v i) /\ bb = cs_buf (n_object v i) /\ left_of (mkThread x os) <> []) -> let s := n_object v i in
  ninv (mkN (n_cache v) (put_at (n_object v) i (mkC None (set_thread (cs_threads s) t (mkThread Idle os)) (cs_header s) (cs_out s) (cs_pending s) (cs_cache s) ib bb (cs_log s)))
            (n_up v) (put_at (n_now v) t None) (n_todo v) (n_next v), L ++ [NEnd n (Err EIO)]).
Proof.
  intros v L i t n o x os ib bb Inv Up Th Nw Co0 Hb s.
  assert (Lk : cs_lock s = Some t).
  { destruct Inv as (M & info & eff & _ & _ & _ & _ & _ & _ & _ & _ & _ & _ & _ & G & Q). apply (conn_holder _ _ _ _ _ _ _ t (Q i)). cbn [fst]. rewrite Th. cbn [th_pc]. intros ->. discriminate Co0. }
  apply (ninv_finish v L i t n (Err EIO) _ Inv Nw Lk).
  - exists o, os. rewrite Th. cbn [cs_threads]. split; [|apply set_same]. unfold pending_of. rewrite Co0. reflexivity.
  - intros t' D. cbn [cs_threads]. apply set_other. exact D.
  - intros info eff o2 Q In. split; [left; reflexivity|]. rewrite Up in *. cbn [conn] in *. destruct Q as (F1 & F2 & F3 & F4). fold s in F1, F2, F3, F4. cbn [cs_lock cs_threads]. split; [|split; [|split]].
    + intros u Nu. exfalso. destruct (Nat.eq_dec u t) as [->|D]; [rewrite set_same in Nu; apply Nu; reflexivity|]. rewrite set_other in Nu by exact D. apply F1 in Nu. congruence.
    + discriminate.
    + destruct F3 as [F3|(m & u & o' & rq & y & I & En & Nv & P)]; [left; exact F3|]. right. exists m, u, o', rq, y. split; [exact I|]. split; [exact En|]. split; [|exact P]. cbn [cs_lock]. intro X.
      destruct (Nat.eq_dec u t) as [->|D]; [rewrite put_same in X; discriminate X|]. rewrite put_other in X by exact D. apply Nv in X. congruence.
    + left. cbn [cs_buf cs_in]. destruct Hb as [[-> ->]|(-> & -> & Ne)]; [reflexivity|]. fold s. destruct F4 as [F4|(u & m & o' & r' & y & X & _ & _ & _ & Lf & _)]; [exact F4|]. exfalso. rewrite Lk in X. injection X as <-. unfold s in Lf. rewrite Th in Lf. contradiction.
Qed.
Lemma ninv_loss : forall v L i a a' b b', ninv (v, L) -> n_up v i = true -> cs_out (n_object v i) = a ++ a' -> cs_in (n_object v i) = b ++ b' -> let s := n_object v i in
  ninv (mkN (n_cache v) (put_at (n_object v) i (mkC (cs_lock s) (cs_threads s) (cs_header s) a (cs_pending s) (cs_cache s) b (cs_buf s) (cs_log s)))
            (put_at (n_up v) i false) (n_now v) (n_todo v) (n_next v), L ++ [NLoss i]).
Proof.
  intros v L i a a' b b' (M & info & eff & Ri & Ca & Ag & Wc & Cc & Nd & Nn & If & En & Es & Cd & G & Q) Up Eo Ei s. cbn [fst snd] in *.
  set (S2 := mkC (cs_lock s) (cs_threads s) (cs_header s) a (cs_pending s) (cs_cache s) b (cs_buf s) (cs_log s)).
  exists (M ++ [Seen (NLoss i)]), info, eff. cbn [fst snd n_cache n_object n_up n_now n_todo n_next]. unfold cache_after in *. rewrite story_app, told_app. cbn [story told flat_map]. rewrite !app_nil_r.
  split; [apply right_seen; [exact Ri|discriminate]|]. split; [exact Ca|]. split; [exact Ag|]. split; [exact Wc|]. split; [exact Cc|]. rewrite numbers_app. cbn [numbers flat_map]. rewrite app_nil_r. split; [exact Nd|]. split; [exact Nn|].
  split; [|split; [|split; [|split; [|split]]]].
  - intros m t k o E. destruct (If _ _ _ _ E) as (X & Y). split; [apply in_app_iff; left; exact X|exact Y].
  - intros m E o r Im. apply in_app_iff in Im. destruct Im as [Im|[X|[]]]; [exact (En m E _ _ Im)|discriminate X].
  - intros m r t k o E I. apply in_app_iff. left. exact (Es _ _ _ _ _ E I).
  - intro t. rewrite called_app. cbn [called flat_map]. rewrite app_nil_r. apply Cd.
  - intro t. assert (Same : forall k, cs_threads (put_at (n_object v) i S2 k) t = cs_threads (n_object v k) t /\ cs_lock (put_at (n_object v) i S2 k) = cs_lock (n_object v k)).
    { intro k. destruct (Nat.eq_dec k i) as [->|Di]; [rewrite put_same; split; reflexivity|rewrite put_other by exact Di; split; reflexivity]. }
    specialize (G t). unfold goro in *. destruct (n_now v t) as [m|]; [|intro k; rewrite (proj1 (Same k)); apply G]. destruct G as (k & o & I & P & R & E). exists k, o. destruct (Same k) as [-> ->]. split; [exact I|]. split; [exact P|]. split; [intros k' Dk; rewrite (proj1 (Same k')); apply R; exact Dk|exact E].
  - intro k. destruct (Nat.eq_dec k i) as [->|Di]; [|rewrite !put_other by exact Di; apply Q]. rewrite !put_same. cbn [conn].
    specialize (Q i). rewrite Up in Q. cbn [conn] in Q. unfold local, quiet in Q. cbn [facing cs_lock cs_threads cs_header cs_out cs_pending cs_cache cs_in cs_buf] in Q. unfold S2. cbn [cs_lock cs_threads]. fold s in Q.
    destruct (cs_lock s) as [t|] eqn:Lk.
    + destruct Q as (Qi & o & rq & Co & Rq & _ & Q).
      destruct (holder_call (n_object v i) (n_object v) (n_now v) info eff true i (n_cache v) t) as (n & o' & Nw & In & Co' & _); [|apply G|exact Lk|reflexivity|].
      { cbn [conn]. unfold local. cbn [facing cs_lock cs_threads cs_header cs_out cs_pending cs_cache cs_in cs_buf]. fold s. rewrite Lk. split; [exact Qi|]. exists o, rq. repeat (split; [assumption || reflexivity|]). exact Q. }
      fold s in Co'. rewrite Co in Co'. injection Co' as <-. unfold mark in Q. rewrite Nw in Q.
      split; [intros u Nu; destruct (Nat.eq_dec u t) as [->|D]; [reflexivity|elim Nu; apply Qi; exact D]|]. split; [intros u E; injection E as <-; exists o; exact Co|]. split.
      * destruct (eff n) as [r|] eqn:Ef.
        -- left. cbn [cs_pending cs_out]. destruct Q as (Qp & Qo & _). fold s in Eo. rewrite Qo in Eo. symmetry in Eo. apply app_eq_nil in Eo. destruct Eo as [-> _]. rewrite Qp. reflexivity.
        -- right. exists n, t, o, rq, (a' ++ left_of (cs_threads s t)). cbn [cs_lock cs_pending cs_out]. split; [exact In|]. split; [exact Ef|]. split; [reflexivity|]. split; [exact Rq|]. destruct Q as (Q & _). rewrite <- Q. fold s in Eo. rewrite Eo, <- !app_assoc. reflexivity.
      * fold s in Ei. unfold reading. cbn [cs_lock cs_threads cs_buf cs_in cs_pending cs_out]. destruct (eff n) as [r|] eqn:Ef.
        -- right. destruct Q as (Qp & Qo & Ql & Qr). fold s in Eo. rewrite Qo in Eo. symmetry in Eo. apply app_eq_nil in Eo. destruct Eo as [-> _]. exists t, n, o, r, b'. rewrite Qp. rewrite <- Ei. repeat (split; [assumption || reflexivity|]). exact Qr.
        -- left. destruct Q as (_ & Qb & Qn). rewrite Qn in Ei. symmetry in Ei. apply app_eq_nil in Ei. destruct Ei as [-> _]. rewrite Qb. reflexivity.
    + destruct Q as (Qi & Qo & Qp & Qb & Qn & _). fold s in Eo, Ei. rewrite Qo in Eo. rewrite Qn in Ei. symmetry in Eo, Ei. apply app_eq_nil in Eo, Ei. destruct Eo as [-> _]. destruct Ei as [-> _].
      split; [intros u Nu; elim Nu; apply Qi|]. split; [discriminate|]. split; left; cbn [cs_pending cs_out cs_buf cs_in]; [rewrite Qp|rewrite Qb]; reflexivity.
Qed.
Lemma ninv_steps : forall w, nsteps (fun _ => cl) (many_started c h progs, []) w -> wf PText c -> (c_cas c + zlen (snd w) < 2 ^ 64)%Z -> ninv w.
Proof.
  intros w S. remember (many_started c h progs, @nil nevent) as v0 eqn:E0. induction S as [w|v u w S IH St]; intros W Hc; subst.
  - exists [], (fun _ => None), (fun _ => None). cbn [fst snd many_started n_cache n_object n_up n_now n_todo n_next].
    split; [split; [reflexivity|split; intros M1; intros; destruct M1; discriminate]|]. split; [reflexivity|]. split; [constructor|]. split; [exact W|]. split; [cbn; lia|]. split; [constructor|]. split; [intros n []|].
    split; [discriminate|]. split; [intros n _ o r []|]. split; [discriminate|]. split; [intro t; reflexivity|]. split; [intro t; unfold goro; intro i; reflexivity|].
    intro i. cbn [conn]. unfold local, quiet. cbn. repeat split; reflexivity.
  - specialize (IH eq_refl W). destruct St as [v L t i o os Nw Td|v L i s' S' Lg|v L i t n o r s' S' Lg Nw|v L d D|v L i a a' b b' Up Eo Ei s|v L i t n o rq os Up s Th Ne Nw|v L i t n o os Up s Th Re Nw];
      (assert (Iv : ninv (v, L)) by (apply IH; cbn [snd] in *; try rewrite zlen_app in Hc; unfold zlen in *; cbn [length] in *; lia)).
    + apply ninv_begin; assumption.
    + apply ninv_inside; [exact Iv| |exact S'|exact Lg]. exact Hc.
    + eapply ninv_end; eassumption.
    + apply ninv_time; assumption.
    + eapply ninv_loss; eassumption.
    + apply (ninv_fail v L i t n o (Sending o rq) os); try assumption; [reflexivity|]. right. split; [reflexivity|]. split; [reflexivity|]. exact Ne.
    + apply (ninv_fail v L i t n o (Waiting o) os); try assumption; [reflexivity|]. left. split; reflexivity.
Qed.
End Many.

(** ** The theorem *)
Theorem C99_many_clients_with_lost_connections_are_one_cache : forall name c h progs v L,
  wf PText c -> (forall t, Forall (fun x => legal PText (snd x)) (progs t)) -> (c_cas c + zlen L < 2 ^ 64)%Z ->
  nsteps (fun _ => client_of PText name) (many_started c h progs, []) (v, L) ->
  (exists M, effects_are_right L M /\ Forall2 agrees (snd (spec_run PText name c (story M))) (told M))
  /\ NoDup (numbers L) /\ forall t, exists rest, called t L ++ rest = progs t.
Proof.
  intros name c h progs v L W Hl Hc S. destruct (ninv_steps name c h progs Hl _ S W Hc) as (M & info & eff & Ri & _ & Ag & _ & _ & Nd & _ & _ & _ & _ & Cd & _).
  split; [exists M; split; assumption|]. split; [exact Nd|]. intro t. eexists. apply Cd.
Qed.
Print Assumptions C99_many_clients_with_lost_connections_are_one_cache.

(** The hypotheses are met: the connection of goroutine 0 is lost when its Set has been sent; the call fails,
    goroutine 1 finds nothing; then the daemon gets the Set, and goroutine 1 finds the item. *)
Lemma ns_front : forall cl v u w, nstep cl v u -> nsteps cl u w -> nsteps cl v w.
Proof. intros cl v u w S St. induction St as [u|u x w St IH T]; [exact (ns_step _ _ _ _ (ns_refl _ _) S)|]. exact (ns_step _ _ _ _ (IH S) T). Qed.
Lemma with_up : forall cl v L i s', n_up v i = true -> cstep (cl i) (object v i) s' -> cs_log s' = cs_log (object v i) -> nstep cl (v, L) (with_object v i s', L).
Proof. intros cl v L i s' U S Lg. pose proof (N_inside cl v L i s' S Lg) as X. rewrite U in X. exact X. Qed.
Lemma with_down : forall cl v L i s', n_up v i = false -> cstep (cl i) (object v i) s' -> cs_log s' = cs_log (object v i) -> nstep cl (v, L) (with_object v i (into_the_void (object v i) s'), L).
Proof. intros cl v L i s' U S Lg. pose proof (N_inside cl v L i s' S Lg) as X. rewrite U in X. exact X. Qed.
Section Moves.
Variables (cl : nat -> client) (v : nstate) (L : list nevent) (i : nat).
Let s := object v i.
Lemma m_lock : forall t o os rq, n_up v i = true -> cs_lock s = None -> cs_threads s t = mkThread Idle (o :: os) -> fst (cl_req (cl i) (cs_header s) o) = Ok rq ->
  nstep cl (v, L) (with_object v i (mkC (Some t) (set_thread (cs_threads s) t (mkThread (Sending o rq) os)) (snd (cl_req (cl i) (cs_header s) o)) (cs_out s) (cs_pending s) (cs_cache s) (cs_in s) (cs_buf s) (cs_log s)), L).
Proof. intros. apply with_up; [assumption| |reflexivity]. apply S_lock; assumption. Qed.
Lemma m_send : forall t o rq os, n_up v i = true -> cs_threads s t = mkThread (Sending o rq) os ->
  nstep cl (v, L) (with_object v i (mkC (cs_lock s) (set_thread (cs_threads s) t (mkThread (Sending o []) os)) (cs_header s) (cs_out s ++ rq) (cs_pending s) (cs_cache s) (cs_in s) (cs_buf s) (cs_log s)), L).
Proof. intros. apply with_up; [assumption| |reflexivity]. apply (S_send (cl i) s t o rq [] os). rewrite app_nil_r. assumption. Qed.
Lemma m_sent : forall t o os, n_up v i = true -> cs_threads s t = mkThread (Sending o []) os ->
  nstep cl (v, L) (with_object v i (mkC (cs_lock s) (set_thread (cs_threads s) t (mkThread (Waiting o) os)) (cs_header s) (cs_out s) (cs_pending s) (cs_cache s) (cs_in s) (cs_buf s) (cs_log s)), L).
Proof. intros. apply with_up; [assumption| |reflexivity]. apply S_sent. assumption. Qed.
Lemma m_out : n_up v i = true -> nstep cl (v, L) (with_object v i (mkC (cs_lock s) (cs_threads s) (cs_header s) [] (cs_pending s ++ cs_out s) (cs_cache s) (cs_in s) (cs_buf s) (cs_log s)), L).
Proof. intros. apply with_up; [assumption| |reflexivity]. apply (S_net_out (cl i) s (cs_out s) []). rewrite app_nil_r. reflexivity. Qed.
Lemma m_daemon : forall c' r rest, n_up v i = true -> daemon_step (cl_wire (cl i)) (cs_cache s) (cs_pending s) = Some (c', r, rest) ->
  nstep cl (v, L) (with_object v i (mkC (cs_lock s) (cs_threads s) (cs_header s) (cs_out s) rest c' (cs_in s ++ r) (cs_buf s) (cs_log s)), L).
Proof. intros. apply with_up; [assumption| |reflexivity]. apply S_daemon. assumption. Qed.
Lemma m_in : n_up v i = true -> nstep cl (v, L) (with_object v i (mkC (cs_lock s) (cs_threads s) (cs_header s) (cs_out s) (cs_pending s) (cs_cache s) [] (cs_buf s ++ cs_in s) (cs_log s)), L).
Proof. intros. apply with_up; [assumption| |reflexivity]. apply (S_net_in (cl i) s (cs_in s) []). rewrite app_nil_r. reflexivity. Qed.
Lemma d_out : n_up v i = false -> nstep cl (v, L) (with_object v i (into_the_void s (mkC (cs_lock s) (cs_threads s) (cs_header s) [] (cs_pending s ++ cs_out s) (cs_cache s) (cs_in s) (cs_buf s) (cs_log s))), L).
Proof. intros. apply with_down; [assumption| |reflexivity]. apply (S_net_out (cl i) s (cs_out s) []). rewrite app_nil_r. reflexivity. Qed.
Lemma d_daemon : forall c' r rest, n_up v i = false -> daemon_step (cl_wire (cl i)) (cs_cache s) (cs_pending s) = Some (c', r, rest) ->
  nstep cl (v, L) (with_object v i (into_the_void s (mkC (cs_lock s) (cs_threads s) (cs_header s) (cs_out s) rest c' (cs_in s ++ r) (cs_buf s) (cs_log s))), L).
Proof. intros. apply with_down; [assumption| |reflexivity]. apply S_daemon. assumption. Qed.
Lemma m_end : forall t n o os r rest, cs_threads s t = mkThread (Waiting o) os -> cl_resp (cl i) o (cs_buf s) = (r, rest) -> r <> Err EIO -> n_now v t = Some n ->
  nstep cl (v, L) (mkN (n_cache v) (put_at (n_object v) i (mkC None (set_thread (cs_threads s) t (mkThread Idle os)) (cs_header s) (cs_out s) (cs_pending s) (cs_cache s) (cs_in s) rest (cs_log s ++ [LDone t o r]))) (n_up v) (put_at (n_now v) t None) (n_todo v) (n_next v), L ++ [NEnd n r]).
Proof. intros. eapply N_end; [eapply S_done; eassumption|reflexivity|assumption]. Qed.
End Moves.
Definition one_loses (t : nat) : list (nat * op) :=
  match t with O => [(0, OSet (demo_item "hello" "one" 7 0 0))] | 1 => [(1, OGet (B "hello")); (1, OGet (B "hello"))] | _ => [] end.
Ltac nquick tac := eapply ns_front; [tac|]; cbn [with_object object into_the_void facing n_cache n_object n_up n_now n_todo n_next cs_lock cs_threads cs_header cs_out cs_pending cs_cache cs_in cs_buf cs_log app enter put_at Nat.eqb].
Definition late_log (r : outcome result) : list nevent :=
  [NBegin 0 0 0 (OSet (demo_item "hello" "one" 7 0 0)); NLoss 0; NEnd 0 (Err EIO);
   NBegin 1 1 1 (OGet (B "hello")); NEnd 1 (Err ENotFound); NBegin 2 1 1 (OGet (B "hello")); NEnd 2 r].
Lemma demo_lost_set : exists v r, nsteps (fun _ => client_of PText (B "a")) (many_started demo_c (fun _ => reset_header) one_loses, []) (v, late_log r)
  /\ match r with Ok (RItem i) => it_value i = B "one" | _ => False end.
Proof.
  eexists. eexists. split.
  - unfold many_started, started, late_log.
    nquick ltac:(eapply (N_begin _ _ _ 0 0); reflexivity).
    nquick ltac:(eapply (m_lock _ _ _ 0 0); [reflexivity|reflexivity|reflexivity|vm_compute; reflexivity]).
    nquick ltac:(eapply (m_send _ _ _ 0 0); reflexivity). nquick ltac:(eapply (m_sent _ _ _ 0 0); reflexivity).
    nquick ltac:(eapply (N_loss _ _ _ 0 _ [] [] []); [reflexivity|cbn; symmetry; apply app_nil_r|reflexivity]).
    nquick ltac:(eapply (N_fail_read _ _ _ 0 0 0); [reflexivity|reflexivity|vm_compute; reflexivity|reflexivity]).
    nquick ltac:(eapply (N_begin _ _ _ 1 1); reflexivity).
    nquick ltac:(eapply (m_lock _ _ _ 1 1); [reflexivity|reflexivity|reflexivity|vm_compute; reflexivity]).
    nquick ltac:(eapply (m_send _ _ _ 1 1); reflexivity). nquick ltac:(eapply (m_sent _ _ _ 1 1); reflexivity). nquick ltac:(eapply (m_out _ _ _ 1); reflexivity).
    nquick ltac:(eapply (m_daemon _ _ _ 1); [reflexivity|vm_compute; reflexivity]). nquick ltac:(eapply (m_in _ _ _ 1); reflexivity).
    nquick ltac:(eapply (m_end _ _ _ 1 1 1); [reflexivity|vm_compute; reflexivity|discriminate|reflexivity]).
    nquick ltac:(eapply (d_out _ _ _ 0); reflexivity).
    nquick ltac:(eapply (d_daemon _ _ _ 0); [reflexivity|vm_compute; reflexivity]).
    nquick ltac:(eapply (N_begin _ _ _ 1 1); reflexivity).
    nquick ltac:(eapply (m_lock _ _ _ 1 1); [reflexivity|reflexivity|reflexivity|vm_compute; reflexivity]).
    nquick ltac:(eapply (m_send _ _ _ 1 1); reflexivity). nquick ltac:(eapply (m_sent _ _ _ 1 1); reflexivity). nquick ltac:(eapply (m_out _ _ _ 1); reflexivity).
    nquick ltac:(eapply (m_daemon _ _ _ 1); [reflexivity|vm_compute; reflexivity]). nquick ltac:(eapply (m_in _ _ _ 1); reflexivity).
    nquick ltac:(eapply (m_end _ _ _ 1 1 2); [reflexivity|vm_compute; reflexivity|discriminate|reflexivity]). apply ns_refl.
  - reflexivity.
Qed.

Theorem C99_a_set_that_failed_can_appear_later : exists v r,
  nsteps (fun _ => client_of PText (B "a")) (many_started demo_c (fun _ => reset_header) one_loses, []) (v, late_log r)
  /\ match r with Ok (RItem i) => it_value i = B "one" | _ => False end.
Proof. exact demo_lost_set. Qed.
Print Assumptions C99_a_set_that_failed_can_appear_later.

(** ** Compare-and-swap *)
Definition bounded (c : cache) : Prop := forall k e, c_map c k = Some e -> (e_cas e <= c_cas c)%Z.
(** An item has the cas number it had, or a new one. *)
Lemma entry_origin : forall name c o k e, c_map (fst (spec_step PText name c o)) k = Some e ->
  (exists e0, c_map c k = Some e0 /\ e_cas e = e_cas e0) \/ (e_cas e = c_cas c + 1 /\ c_cas (fst (spec_step PText name c o)) = c_cas c + 1)%Z.
Proof.
  intros name c o k e H.
  assert (P : forall k' v f x, c_map (put c k' v f x) k = Some e -> (exists e0, c_map c k = Some e0 /\ e_cas e = e_cas e0) \/ e_cas e = (c_cas c + 1)%Z).
  { intros k' v f x X. unfold put in X. cbn [c_map] in X. unfold put_entry in X. destruct (beq k k'); [injection X as <-; right; reflexivity|left; exists e; split; [exact X|reflexivity]]. }
  assert (Dr : forall k', c_map (drop c k') k = Some e -> exists e0, c_map c k = Some e0 /\ e_cas e = e_cas e0).
  { intros k' X. unfold drop, with_map in X. cbn [c_map] in X. unfold put_entry in X. destruct (beq k k'); [discriminate X|exists e; split; [exact X|reflexivity]]. }
  assert (Sm : c_map c k = Some e -> exists e0, c_map c k = Some e0 /\ e_cas e = e_cas e0) by (intro X; exists e; split; [exact X|reflexivity]).
  assert (Pp : forall k' v f x, c_cas (put c k' v f x) = (c_cas c + 1)%Z) by reflexivity.
  destruct o; cbn [spec_step fst] in *; try (left; exact (Sm H)).
  - destruct (it_cas i =? 0)%Z; unfold cache_set, cache_cas in *; destruct (too_large c (it_value i)); cbn [fst] in *; try (left; eapply Dr; exact H); try (left; exact (Sm H)).
    + destruct (P _ _ _ _ H); [left; assumption|right; split; [assumption|apply Pp]].
    + destruct (lookup c (it_key i)) as [o|]; cbn [fst] in *; [|left; exact (Sm H)]. destruct (e_cas o =? it_cas i)%Z; cbn [fst] in *; [|left; exact (Sm H)]. destruct (P _ _ _ _ H); [left; assumption|right; split; [assumption|apply Pp]].
  - unfold cache_add in *. destruct (too_large c (it_value i)); cbn [fst] in *; [left; exact (Sm H)|]. destruct (lookup c (it_key i)); cbn [fst] in *; [left; exact (Sm H)|]. destruct (P _ _ _ _ H); [left; assumption|right; split; [assumption|apply Pp]].
  - unfold cache_replace in *. destruct (too_large c (it_value i)); cbn [fst] in *; [left; exact (Sm H)|]. destruct (lookup c (it_key i)); cbn [fst] in *; [|left; exact (Sm H)]. destruct (P _ _ _ _ H); [left; assumption|right; split; [assumption|apply Pp]].
  - unfold cache_delete in *. destruct (lookup c k0); cbn [fst] in *; [left; eapply Dr; exact H|left; exact (Sm H)].
  - unfold spec_delta, cache_delta in *. destruct (lookup c k0) as [e0|]; cbn [fst] in *; [|left; exact (Sm H)]. destruct (counter_value (e_value e0)); cbn [fst] in *; [|left; exact (Sm H)]. destruct (P _ _ _ _ H); [left; assumption|right; split; [assumption|apply Pp]].
  - unfold spec_delta, cache_delta in *. destruct (lookup c k0) as [e0|]; cbn [fst] in *; [|left; exact (Sm H)]. destruct (counter_value (e_value e0)); cbn [fst] in *; [|left; exact (Sm H)]. destruct (P _ _ _ _ H); [left; assumption|right; split; [assumption|apply Pp]].
  - unfold cache_touch in *. destruct (lookup c k0) as [e0|] eqn:Lk; cbn [fst] in *; [|left; exact (Sm H)]. unfold with_map in H. cbn [c_map] in H. unfold put_entry in H. destruct (beq k k0) eqn:Bk; [|left; exact (Sm H)].
    apply beq_eq in Bk. subst k0. injection H as <-. left. exists e0. split; [|reflexivity]. unfold lookup in Lk. destruct (c_map c k) as [e1|]; [|discriminate Lk]. destruct (alive (c_now c) e1); [exact Lk|discriminate Lk].
  - discriminate H.
Qed.
Lemma bounded_step : forall name c o, bounded c -> bounded (fst (spec_step PText name c o)).
Proof.
  intros name c o Bd k e H. pose proof (cas_spec_step PText name c o). destruct (entry_origin _ _ _ _ _ H) as [(e0 & E & ->)|[-> ->]]; [apply Bd in E; lia|lia].
Qed.
Lemma bounded_run : forall name evs c, bounded c -> bounded (fst (spec_run PText name c evs)).
Proof. intros name evs. induction evs as [|[o|d] evs IH]; intros c Bd; cbn [spec_run fst]; [exact Bd| |]; apply IH; [apply bounded_step; exact Bd|exact Bd]. Qed.
(** A cas number that has been used up. *)
Definition used_up (c : cache) (k : bytes) (x : Z) : Prop := (x <= c_cas c)%Z /\ forall e, c_map c k = Some e -> (x < e_cas e)%Z.
Lemma used_step : forall name c o k x, used_up c k x -> used_up (fst (spec_step PText name c o)) k x.
Proof.
  intros name c o k x [Lx Ux]. pose proof (cas_spec_step PText name c o). split; [lia|]. intros e H1. destruct (entry_origin _ _ _ _ _ H1) as [(e0 & E & ->)|[-> _]]; [apply Ux; exact E|lia].
Qed.
Lemma used_run : forall name evs c k x, used_up c k x -> used_up (fst (spec_run PText name c evs)) k x.
Proof. intros name evs. induction evs as [|[o|d] evs IH]; intros c k x U; cbn [spec_run fst]; [exact U| |]; apply IH; [apply used_step; exact U|exact U]. Qed.
Lemma cas_set_uses : forall name c i r, bounded c -> it_cas i <> 0%Z -> agrees (snd (spec_step PText name c (OSet i))) (Ok r) -> used_up (fst (spec_step PText name c (OSet i))) (it_key i) (it_cas i).
Proof.
  intros name c i r Bd Nz A. cbn [spec_step] in *. rewrite (proj2 (Z.eqb_neq _ _) Nz) in *. unfold cache_cas in *. destruct (too_large c (it_value i)); cbn [fst snd store_outcome] in *; [destruct A|].
  destruct (lookup c (it_key i)) as [o|] eqn:Lk; cbn [fst snd store_outcome] in *; [|destruct A]. destruct (e_cas o =? it_cas i)%Z eqn:Ec; cbn [fst snd store_outcome] in *; [|destruct A].
  apply Z.eqb_eq in Ec. assert (Lo : (it_cas i <= c_cas c)%Z).
  { rewrite <- Ec. apply (Bd (it_key i)). unfold lookup in Lk. destruct (c_map c (it_key i)) as [e1|]; [|discriminate Lk]. destruct (alive (c_now c) e1); [exact Lk|discriminate Lk]. }
  unfold used_up, put. cbn [c_cas c_map]. split; [lia|]. intros e H. unfold put_entry in H. rewrite beq_refl in H. injection H as <-. cbn [e_cas]. lia.
Qed.
Lemma used_refuses : forall name c i r, used_up c (it_key i) (it_cas i) -> it_cas i <> 0%Z -> ~ agrees (snd (spec_step PText name c (OSet i))) (Ok r).
Proof.
  intros name c i r [_ Ux] Nz A. cbn [spec_step] in *. rewrite (proj2 (Z.eqb_neq _ _) Nz) in *. unfold cache_cas in *. destruct (too_large c (it_value i)); cbn [fst snd store_outcome] in *; [destruct A|].
  destruct (lookup c (it_key i)) as [o|] eqn:Lk; cbn [fst snd store_outcome] in *; [|destruct A]. destruct (e_cas o =? it_cas i)%Z eqn:Ec; cbn [fst snd store_outcome] in *; [|destruct A].
  apply Z.eqb_eq in Ec. unfold lookup in Lk. destruct (c_map c (it_key i)) as [e1|] eqn:Em; [|discriminate Lk]. destruct (alive (c_now c) e1); [|discriminate Lk]. injection Lk as ->. specialize (Ux _ eq_refl). lia.
Qed.
Lemma told_length : forall name M c, length (snd (spec_run PText name c (story M))) = length (told M).
Proof.
  intros name M. induction M as [|[[n t i o|n r|d|i]|n o r] M IH]; intro c; cbn; try apply IH; [reflexivity|]. f_equal. apply IH.
Qed.
Lemma Forall2_split : forall (A C : Type) (R : A -> C -> Prop) a b a' b', length a = length a' -> Forall2 R (a ++ b) (a' ++ b') -> Forall2 R a a' /\ Forall2 R b b'.
Proof.
  intros A C R a. induction a as [|x a IH]; intros b [|y a'] b' Le H; try discriminate Le; [split; [constructor|exact H]|]. inversion H; subst. injection Le as Le. destruct (IH b a' b' Le ltac:(assumption)). split; [constructor; assumption|assumption].
Qed.
Lemma F2_cons : forall (A C : Type) (R : A -> C -> Prop) x y a b, Forall2 R (x :: a) (y :: b) -> R x y /\ Forall2 R a b.
Proof. intros A C R x y a b H. inversion H; split; assumption. Qed.
Lemma cas_clash : forall name c M1 n i r M2 n' i' r' M3, bounded c -> it_key i = it_key i' -> it_cas i = it_cas i' -> it_cas i <> 0%Z ->
  let M := M1 ++ Effective n (OSet i) (Ok r) :: M2 ++ Effective n' (OSet i') (Ok r') :: M3 in Forall2 agrees (snd (spec_run PText name c (story M))) (told M) -> False.
Proof.
  intros name c M1 n i r M2 n' i' r' M3 Bd Ek Ex Nz M Ag. unfold M in Ag. rewrite story_app, told_app, spec_run_app in Ag. cbn [snd] in Ag. apply Forall2_split in Ag; [|apply told_length]. destruct Ag as [_ Ag].
  cbn [story told flat_map app] in Ag. fold (story (M2 ++ Effective n' (OSet i') (Ok r') :: M3)) in Ag. fold (told (M2 ++ Effective n' (OSet i') (Ok r') :: M3)) in Ag. cbn [spec_run snd] in Ag. apply F2_cons in Ag. destruct Ag as [A1 Ag].
  set (c1 := fst (spec_run PText name c (story M1))) in *. apply (cas_set_uses name c1 i r) in A1; [|apply bounded_run; exact Bd|exact Nz]. set (c2 := fst (spec_step PText name c1 (OSet i))) in *.
  rewrite story_app, told_app, spec_run_app in Ag. cbn [snd] in Ag. apply Forall2_split in Ag; [|apply told_length]. destruct Ag as [_ Ag]. cbn [story told flat_map app] in Ag. cbn [spec_run snd] in Ag. apply F2_cons in Ag. destruct Ag as [A2 _].
  refine (used_refuses name _ i' r' _ _ A2); [|congruence]. rewrite <- Ek, <- Ex. apply used_run. exact A1.
Qed.
Lemma begun_once : forall L n t i o t' i' o', NoDup (numbers L) -> In (NBegin n t i o) L -> In (NBegin n t' i' o') L -> o = o'.
Proof.
  assert (Nin : forall L n t i o, In (NBegin n t i o) L -> In n (numbers L)) by (intros L n t i o H; apply in_flat_map; exists (NBegin n t i o); split; [exact H|left; reflexivity]).
  intros L n t i o t' i' o'. induction L as [|e L IH]; intros N X Y; [destruct X|]. destruct X as [X|X], Y as [Y|Y]; subst.
  - injection Y as _ _ Y. exact Y.
  - exfalso. cbn [numbers flat_map app] in N. inversion N as [|? ? N1 N2]; subst. apply N1. exact (Nin _ _ _ _ _ Y).
  - exfalso. cbn [numbers flat_map app] in N. inversion N as [|? ? N1 N2]; subst. apply N1. exact (Nin _ _ _ _ _ X).
  - apply IH; [|exact X|exact Y]. destruct e; cbn [numbers flat_map app] in N; try exact N. inversion N; assumption.
Qed.
Lemma seen_in : forall M e, In e (seen_only M) -> In (Seen e) M.
Proof. intros M e H. apply in_flat_map in H. destruct H as ([e'|n o r] & H1 & H2); [destruct H2 as [->|[]]; exact H1|destruct H2]. Qed.
(** Of the Sets of one item with one cas number, whoever makes them and whatever is lost, one succeeds. *)
Theorem C99_one_compare_and_swap_wins : forall name c h progs v L n t i item r n' t' i' item' r',
  wf PText c -> (forall t, Forall (fun x => legal PText (snd x)) (progs t)) -> (c_cas c + zlen L < 2 ^ 64)%Z ->
  nsteps (fun _ => client_of PText name) (many_started c h progs, []) (v, L) ->
  In (NBegin n t i (OSet item)) L -> In (NBegin n' t' i' (OSet item')) L -> n <> n' ->
  it_key item = it_key item' -> it_cas item = it_cas item' -> it_cas item <> 0%Z ->
  In (NEnd n (Ok r)) L -> ~ In (NEnd n' (Ok r')) L.
Proof.
  intros name c h progs v L n t i item r n' t' i' item' r' W Hl Hc S B1 B2 Dn Ek Ex Nz E1 E2.
  destruct (C99_many_clients_with_lost_connections_are_one_cache name c h progs v L W Hl Hc S) as ((M & Ri & Ag) & Nd & _).
  assert (Bd : bounded c) by (intros k e H; destruct W as (_ & _ & _ & W); apply W in H; destruct H as (_ & _ & H & _); lia).
  assert (K : forall n t i it r, In (NBegin n t i (OSet it)) L -> In (NEnd n (Ok r)) L -> In (Effective n (OSet it) (Ok r)) M).
  { clear - Ri Nd. intros n t i it r Hb He. destruct Ri as (Es & A & C). rewrite <- Es in He. apply seen_in in He. apply in_split in He. destruct He as (M1 & M2 & Em). destruct (C _ _ _ _ Em) as [X|[o Io]]; [discriminate X|].
    assert (Io' : In (Effective n o (Ok r)) M) by (rewrite Em; apply in_app_iff; left; exact Io). apply in_split in Io. destruct Io as (M3 & M4 & Em1). rewrite Em1, <- app_assoc in Em. cbn [app] in Em. destruct (A _ _ _ _ _ Em) as [(t2 & i2 & Ib) _].
    assert (Il : In (NBegin n t2 i2 o) L) by (rewrite <- Es, Em, seen_app; apply in_app_iff; left; apply in_flat_map; eexists; split; [exact Ib|left; reflexivity]).
    rewrite (begun_once L n t i (OSet it) t2 i2 o Nd Hb Il). exact Io'. }
  pose proof (K _ _ _ _ _ B1 E1) as K1. pose proof (K _ _ _ _ _ B2 E2) as K2. apply in_split in K1. destruct K1 as (M1 & M2 & Em). rewrite Em in K2. apply in_app_iff in K2. destruct K2 as [K2|[K2|K2]].
  - apply in_split in K2. destruct K2 as (M3 & M4 & ->). rewrite <- app_assoc in Em. cbn [app] in Em. rewrite Em in Ag. refine (cas_clash name c _ _ item' r' _ _ item r _ Bd _ _ _ Ag); congruence.
  - injection K2 as X _ _. congruence.
  - apply in_split in K2. destruct K2 as (M3 & M4 & ->). rewrite Em in Ag. exact (cas_clash name c _ _ item r _ _ item' r' _ Bd Ek Ex Nz Ag).
Qed.
Print Assumptions C99_one_compare_and_swap_wins.
(** The hypotheses are met, there and in a run where two clients compare and swap. *)
Definition one_item : cache := fst (spec_step PText (B "a") demo_c (OSet (demo_item "hello" "one" 7 0 0))).
Definition two_swaps (t : nat) : list (nat * op) :=
  match t with O => [(0, OSet (demo_item "hello" "two" 7 0 1))] | 1 => [(1, OSet (demo_item "hello" "three" 7 0 1))] | _ => [] end.
Definition swap_log : list nevent :=
  [NBegin 0 0 0 (OSet (demo_item "hello" "two" 7 0 1)); NBegin 1 1 1 (OSet (demo_item "hello" "three" 7 0 1)); NEnd 1 (Ok RUnit); NLoss 1; NEnd 0 (Err EExists)].
Lemma demo_swaps : exists v, nsteps (fun _ => client_of PText (B "a")) (many_started one_item (fun _ => reset_header) two_swaps, []) (v, swap_log).
Proof.
  eexists. unfold many_started, started, swap_log, one_item. set (c1 := fst (spec_step PText (B "a") demo_c (OSet (demo_item "hello" "one" 7 0 0)))).
  nquick ltac:(eapply (N_begin _ _ _ 0 0); reflexivity). nquick ltac:(eapply (N_begin _ _ _ 1 1); reflexivity).
  nquick ltac:(eapply (m_lock _ _ _ 0 0); [reflexivity|reflexivity|reflexivity|vm_compute; reflexivity]).
  nquick ltac:(eapply (m_lock _ _ _ 1 1); [reflexivity|reflexivity|reflexivity|vm_compute; reflexivity]).
  nquick ltac:(eapply (m_send _ _ _ 0 0); reflexivity). nquick ltac:(eapply (m_sent _ _ _ 0 0); reflexivity).
  nquick ltac:(eapply (m_send _ _ _ 1 1); reflexivity). nquick ltac:(eapply (m_sent _ _ _ 1 1); reflexivity). nquick ltac:(eapply (m_out _ _ _ 1); reflexivity).
  nquick ltac:(eapply (m_daemon _ _ _ 1); [reflexivity|vm_compute; reflexivity]). nquick ltac:(eapply (m_in _ _ _ 1); reflexivity).
  nquick ltac:(eapply (m_end _ _ _ 1 1 1); [reflexivity|vm_compute; reflexivity|discriminate|reflexivity]).
  nquick ltac:(eapply (N_loss _ _ _ 1 [] [] [] []); [reflexivity|reflexivity|reflexivity]).
  nquick ltac:(eapply (m_out _ _ _ 0); reflexivity).
  nquick ltac:(eapply (m_daemon _ _ _ 0); [reflexivity|vm_compute; reflexivity]). nquick ltac:(eapply (m_in _ _ _ 0); reflexivity).
  nquick ltac:(eapply (m_end _ _ _ 0 0 0); [reflexivity|vm_compute; reflexivity|discriminate|reflexivity]). apply ns_refl.
Qed.
Lemma one_item_ok : wf PText one_item.
Proof. apply wf_spec_step; [apply (proj1 C09_demo_met)|]. legal_tac. Qed.
Example C99_met :
  (exists v r, nsteps (fun _ => client_of PText (B "a")) (many_started demo_c (fun _ => reset_header) one_loses, []) (v, late_log r) /\ r <> Err EIO)
  /\ wf PText demo_c /\ (forall t, Forall (fun x => legal PText (snd x)) (one_loses t)) /\ (c_cas demo_c + 7 < 2 ^ 64)%Z
  /\ (exists v, nsteps (fun _ => client_of PText (B "a")) (many_started one_item (fun _ => reset_header) two_swaps, []) (v, swap_log))
  /\ wf PText one_item /\ (forall t, Forall (fun x => legal PText (snd x)) (two_swaps t)) /\ (c_cas one_item + 5 < 2 ^ 64)%Z.
Proof.
  split; [destruct demo_lost_set as (v & r & S & R); exists v, r; split; [exact S|intros ->; exact R]|]. split; [apply (proj1 C09_demo_met)|].
  split; [intros [|[|t]]; [constructor; [legal_tac|constructor]|constructor; [legal_tac|constructor; [legal_tac|constructor]]|constructor]|]. split; [reflexivity|].
  split; [exact demo_swaps|]. split; [exact one_item_ok|]. split; [intros [|[|t]]; [constructor; [legal_tac|constructor]|constructor; [legal_tac|constructor]|constructor]|]. reflexivity.
Qed.
