(** * Property C95: what sync.Pool's freedom changes for a user of the binary client. *)
From Verif Require Import GoBytes GoNum GoIO Item ClientText ClientMeta ClientBinary Cache Daemon Spec Call Guard Exact HeaderPool
  PLib PDaemon PCache PText PMeta PBinary PClient PropClient PropCalls PropWire PropExact.
Local Open Scope Z_scope.

(** ** Specification *)
(** The cas numbers that items given to earlier calls carried. *)
Definition saw (seen : list Z) (o : op) : list Z :=
  match o with OSet i | OAdd i | OReplace i => it_cas i :: seen | _ => seen end.
(** What a history may return: each call acts on the cache as [bin_exact] (Exact.v) says, where a counter
    carries no cas number or that of any earlier Set, Add or Replace. *)
Inductive possible : list Z -> cache -> list xevent -> cache -> list sres -> Prop :=
| po_nil : forall seen c, possible seen c [] c []
| po_do : forall seen c o last evs c' rs, In last (0 :: seen) ->
    possible (saw seen o) (fst (bin_exact last c o)) evs c' rs ->
    possible seen c (XDo o :: evs) c' (snd (bin_exact last c o) :: rs)
| po_wait : forall seen c d evs c' rs, possible seen (tick c d) evs c' rs -> possible seen c (XWait d :: evs) c' rs
| po_reconnect : forall seen c evs c' rs, possible seen c evs c' rs -> possible seen c (XReconnect :: evs) c' rs.
(** After a call that may leave part of its reply unread the connection is renewed before the next call
    (see [orderly], Exact.v). *)
Fixpoint tidy (seen : list Z) (dirty : bool) (c : cache) (evs : list xevent) : Prop :=
  match evs with
  | [] => True
  | XReconnect :: evs' => tidy seen false c evs'
  | XWait d :: evs' => tidy seen dirty (tick c d) evs'
  | XDo o :: evs' =>
      dirty = false /\ forall last, In last (0 :: seen) ->
        (reads_all PBinary c last o /\ tidy (saw seen o) false (fst (bin_exact last c o)) evs')
        \/ tidy (saw seen o) true (fst (bin_exact last c o)) evs'
  end.
Definition carries_cas (ev : xevent) : Prop := match ev with XDo o => ~ no_cas o | _ => False end.

(** ** Proofs *)
(** A header of the pool: its cas number is 0 or one seen before. *)
Definition known (seen : list Z) (h : req_header) : Prop := In (rq_cas h) (0 :: seen).
Definition in_range (seen : list Z) : Prop := Forall (fun n => 0 <= n < 2 ^ 64) seen.

Lemma forgets_in : forall p p' h, forgets p p' -> In h p' -> In h p.
Proof. intros p p' h F. induction F; intro I; [exact I|destruct I as [->|I]; [left; reflexivity|right; auto]|right; auto]. Qed.
Lemma forgets_refl : forall p, forgets p p.
Proof. induction p; constructor; assumption. Qed.
Lemma takes_known : forall seen p h p', takes p h p' -> Forall (known seen) p -> known seen h /\ Forall (known seen) p'.
Proof.
  intros seen p h p' T F. destruct T as [p|a h b]; [split; [left; reflexivity|exact F]|].
  apply Forall_app in F. destruct F as [F1 F2]. inversion F2; subst. split; [assumption|]. apply Forall_app. split; assumption.
Qed.
Lemma forgets_known : forall seen p p', forgets p p' -> Forall (known seen) p -> Forall (known seen) p'.
Proof. intros seen p p' G F. rewrite Forall_forall in *. intros h I. apply F. eapply forgets_in; eassumption. Qed.
Lemma after_keys_known : forall seen ks h, known seen h -> known seen (after_keys h ks).
Proof. intros seen. unfold after_keys. induction ks as [|k ks IH]; intros h K; [exact K|]. cbn [fold_left]. apply IH. left. reflexivity. Qed.
Lemma known_saw : forall seen o h, known seen h -> known (saw seen o) h.
Proof. intros seen o h [K|K]; [left; exact K|]. right. destruct o; cbn [saw]; try exact K; right; exact K. Qed.
Lemma next_known : forall seen o last, In last (0 :: seen) -> In (next_cas last o) (0 :: saw seen o).
Proof.
  intros seen o last I. destruct o; cbn [next_cas saw]; try (left; reflexivity); try (right; left; reflexivity); exact I.
Qed.
Lemma known_range : forall seen n, in_range seen -> In n (0 :: seen) -> 0 <= n < 2 ^ 64.
Proof. intros seen n R [<-|I]; [lia|]. unfold in_range in R. rewrite Forall_forall in R. apply R. exact I. Qed.
Lemma saw_range : forall seen o, accepted PBinary o -> in_range seen -> in_range (saw seen o).
Proof. intros seen o A R. destruct o; cbn [saw accepted legal] in *; try exact R; (constructor; [destruct A as (_ & _ & _ & C & _); exact C|exact R]). Qed.

(** One call, whichever header it gets. *)
Lemma call_any_header : forall c h o, wf PBinary c -> c_cas c + 1 < 2 ^ 64 -> accepted PBinary o -> 0 <= rq_cas h < 2 ^ 64 ->
  exists left out, call bin_client (mkLink c [] [] h) o = (mkLink (fst (bin_exact (rq_cas h) c o)) [] left (snd (bin_req h o)), out)
    /\ agrees (snd (bin_exact (rq_cas h) c o)) out /\ (reads_all PBinary c (rq_cas h) o -> left = []).
Proof.
  intros c h o W C A R. destruct (exact_call PBinary [] c h o W C A R) as (left & h' & out & E & Ag & D & _ & _). exists left, out.
  assert (Eh : h' = snd (bin_req h o)).
  { apply (f_equal (fun x => l_header (fst x))) in E. cbn [fst l_header] in E. rewrite <- E. unfold call.
    cbn [client_of bin_client cl_req fst snd fresh_link l_header]. destruct (fst (bin_req h o)) as [rq|e|]; [|reflexivity|reflexivity].
    destruct (daemon _ _ _) as [[x y] z]. reflexivity. }
  subst h'. split; [exact E|]. split; [exact Ag|exact D].
Qed.

(** Which headers a call may get from [p], as one relation. *)
Lemma pooled_call_inv : forall seen l p o l' p' r, pooled_call l p o l' p' r -> Forall (known seen) p ->
  exists h, known seen h /\ call bin_client (with_header l h) o = (l', r)
    /\ forall x, In x p' -> x = l_header l' \/ known seen x.
Proof.
  intros seen l p o l' p' r H F. destruct H as [o h p0 p1 l' r _ G T E|ks h1 h2 p0 p1 p2 l' r G T1 T2 E].
  - destruct (takes_known seen _ _ _ T (forgets_known _ _ _ G F)) as [K F1]. exists h. split; [exact K|]. split; [exact E|].
    intros x [<-|I]; [left; reflexivity|right]. rewrite Forall_forall in F1. apply F1. exact I.
  - destruct (takes_known seen _ _ _ T1 (forgets_known _ _ _ G F)) as [K1 F1].
    destruct (takes_known seen _ _ _ T2 (Forall_cons _ (after_keys_known seen ks h1 K1) F1)) as [K2 F2]. exists h2. split; [exact K2|]. split; [exact E|].
    intros x [<-|I]; [left; reflexivity|right]. rewrite Forall_forall in F2. apply F2. exact I.
Qed.
Lemma pooled_call_any : forall l p o h l' r, call bin_client (with_header l h) o = (l', r) -> (h = reset_header \/ In h p) ->
  exists p', pooled_call l p o l' p' r /\ In (l_header l') p' /\ (forall x, In x p -> x <> h -> In x p').
Proof.
  intros l p o h l' r E Hh.
  assert (T : exists p1, takes p h p1 /\ forall x, In x p -> x <> h -> In x p1).
  { destruct Hh as [->|I]; [exists p; split; [constructor|auto]|]. apply in_split in I. destruct I as (a & b & ->). exists (a ++ b). split; [constructor|].
    intros x I N. apply in_app_or in I. apply in_or_app. destruct I as [I|[I|I]]; [left; exact I|congruence|right; exact I]. }
  destruct T as (p1 & T & K).
  assert (G : (exists ks, o = OGetMulti ks) \/ (forall ks, o <> OGetMulti ks)).
  { destruct o; try (right; discriminate). left. eexists. reflexivity. }
  destruct G as [[ks ->]|N].
  - exists (l_header l' :: after_keys reset_header ks :: p1). split; [|split; [left; reflexivity|intros x I N; right; right; auto]].
    apply pc_multi with (h1 := reset_header) (h2 := h) (p0 := p) (p1 := p); [apply forgets_refl|constructor| |exact E].
    destruct T as [p|a h b]; [constructor|]. apply (tk_old (after_keys reset_header ks :: a) h b).
  - exists (l_header l' :: p1). split; [|split; [left; reflexivity|intros x I Nx; right; auto]].
    apply pc_one with (h := h) (p0 := p); [exact N|apply forgets_refl|exact T|exact E].
Qed.

Lemma runs_possible : forall l p evs l' p' outs, pooled_run l p evs l' p' outs ->
  forall seen dirty, wf PBinary (l_cache l) -> c_cas (l_cache l) + zlen evs < 2 ^ 64 -> Forall (accepted_event PBinary) evs ->
  in_range seen -> Forall (known seen) p -> l_pending l = [] -> tidy seen dirty (l_cache l) evs -> (dirty = false -> l_unread l = []) ->
  exists rs, possible seen (l_cache l) evs (l_cache l') rs /\ Forall2 agrees rs outs.
Proof.
  intros l p evs l' p' outs R. induction R as [l p|l p o l1 p1 r evs l2 p2 rs Hc R IH|l p d evs l2 p2 rs R IH|l p evs l2 p2 rs R IH];
    intros seen dirty W C F Rg K P T U.
  - exists []. split; constructor.
  - inversion F as [|? ? A F']; subst. cbn [accepted_event] in A. cbn [tidy] in T. destruct T as [-> T]. specialize (U eq_refl).
    rewrite zlen_cons in C. pose proof (zlen_nonneg _ evs). destruct l as [c pe un hd]. cbn [l_cache l_pending l_unread] in *. subst pe un.
    destruct (pooled_call_inv seen _ _ _ _ _ _ Hc K) as (h & Kh & E & Kp). unfold with_header in E. cbn [l_cache l_pending l_unread] in E.
    destruct (call_any_header c h o W ltac:(lia) A (known_range seen _ Rg Kh)) as (left & out & E' & Ag & D). rewrite E' in E.
    assert (El : l1 = mkLink (fst (bin_exact (rq_cas h) c o)) [] left (snd (bin_req h o))) by (exact (eq_sym (f_equal fst E))).
    assert (Er : r = out) by (exact (eq_sym (f_equal snd E))). subst l1 r. clear E E'. cbn [l_header] in Kp.
    pose proof (cas_exact_step PBinary [] (rq_cas h) c o) as CS. cbn [exact_step] in CS.
    assert (Kp1 : Forall (known (saw seen o)) p1).
    { apply Forall_forall. intros x I. destruct (Kp x I) as [->|Kx]; [|apply known_saw; exact Kx]. unfold known. rewrite bin_req_header. apply next_known. exact Kh. }
    assert (Y : exists d', tidy (saw seen o) d' (fst (bin_exact (rq_cas h) c o)) evs /\ (d' = false -> left = [])).
    { destruct (T (rq_cas h) Kh) as [[Ra T']|T']; [exists false; split; [exact T'|intros _; apply D; exact Ra]|exists true; split; [exact T'|discriminate]]. }
    destruct Y as (d' & T' & U').
    destruct (IH (saw seen o) d') as (rs' & Po & Ag').
    + exact (wf_exact_step PBinary [] (rq_cas h) c o W A).
    + cbn [l_cache]. lia.
    + exact F'.
    + apply saw_range; assumption.
    + exact Kp1.
    + reflexivity.
    + exact T'.
    + exact U'.
    + exists (snd (bin_exact (rq_cas h) c o) :: rs'). split; [|constructor; assumption]. apply po_do; [exact Kh|exact Po].
  - inversion F as [|? ? A F']; subst. rewrite zlen_cons in C. destruct (IH seen dirty) as (rs' & Po & Ag); try assumption.
    + apply wf_tick; [exact W|exact A].
    + cbn [link_tick l_cache tick c_cas]. lia.
    + exists rs'. split; [apply po_wait; exact Po|exact Ag].
  - inversion F as [|? ? A F']; subst. rewrite zlen_cons in C. destruct (IH seen false) as (rs' & Po & Ag); try assumption.
    + cbn [link_reconnect l_cache]. lia.
    + reflexivity.
    + reflexivity.
    + exists rs'. split; [apply po_reconnect; exact Po|exact Ag].
Qed.

(** Every possible history happens: calls other than counters get new headers, so that the headers with
    cas numbers stay in the pool. *)
Definition stocked (seen : list Z) (p : header_pool) : Prop := forall n, In n seen -> n = 0 \/ exists h, In h p /\ rq_cas h = n.
Lemma possible_runs : forall seen c evs c' rs, possible seen c evs c' rs ->
  forall dirty p un hd, wf PBinary c -> c_cas c + zlen evs < 2 ^ 64 -> Forall (accepted_event PBinary) evs ->
  in_range seen -> stocked seen p -> tidy seen dirty c evs -> (dirty = false -> un = []) ->
  exists l' p' outs, pooled_run (mkLink c [] un hd) p evs l' p' outs /\ l_cache l' = c' /\ Forall2 agrees rs outs.
Proof.
  intros seen c evs c' rs H. induction H as [seen c|seen c o last evs c' rs I H IH|seen c d evs c' rs H IH|seen c evs c' rs H IH];
    intros dirty p un hd W C F Rg St T U.
  - eexists. exists p, []. split; [constructor|]. split; [reflexivity|constructor].
  - inversion F as [|? ? A F']; subst. cbn [accepted_event] in A. cbn [tidy] in T. destruct T as [-> T]. specialize (U eq_refl). subst un.
    rewrite zlen_cons in C. pose proof (zlen_nonneg _ evs).
    (* the header: a counter takes one with [last], every other call a new one *)
    assert (Hh : exists h, (h = reset_header \/ In h p) /\ bin_exact (rq_cas h) c o = bin_exact last c o /\ (reads_all PBinary c last o -> reads_all PBinary c (rq_cas h) o)
       /\ (match o with OIncr _ _ _ | ODecr _ _ _ => rq_cas h = last | _ => h = reset_header end)).
    { destruct (Z.eq_dec last 0) as [->|N0]; [exists reset_header; split; [left; reflexivity|split; [reflexivity|split; [auto|destruct o; reflexivity]]]|].
      destruct I as [I|I]; [congruence|]. destruct (St last I) as [Q|(h & Ih & Eh)]; [congruence|].
      destruct o; try (exists reset_header; split; [left; reflexivity|split; [reflexivity|split; [auto|reflexivity]]]);
        (exists h; split; [right; exact Ih|rewrite Eh; split; [reflexivity|split; [auto|reflexivity]]]). }
    destruct Hh as (h & Ph & Eb & Ra & Sh).
    assert (Rh : 0 <= rq_cas h < 2 ^ 64).
    { destruct o; try (subst h; cbn; lia); rewrite Sh; apply (known_range seen); assumption. }
    destruct (call_any_header c h o W ltac:(lia) A Rh) as (left & out & E & Ag & D). rewrite Eb in E, Ag.
    destruct (pooled_call_any (mkLink c [] [] hd) p o h _ _ E Ph) as (p1 & Pc & In1 & Kp). cbn [l_header] in In1.
    pose proof (cas_exact_step PBinary [] last c o) as CS. cbn [exact_step] in CS.
    assert (St1 : stocked (saw seen o) p1).
    { assert (Old : forall n, In n seen -> n = 0 \/ exists g, In g p1 /\ rq_cas g = n).
      { intros n In_. destruct (St n In_) as [Q|(g & Ig & Eg)]; [left; exact Q|].
        destruct (Z.eq_dec n 0) as [Z0|N0]; [left; exact Z0|right].
        destruct (Z.eq_dec (rq_cas h) n) as [Q|Q].
        - exists (snd (bin_req h o)). split; [exact In1|]. rewrite bin_req_header. destruct o; try (subst h; cbn in Q; congruence); exact Q.
        - exists g. split; [|exact Eg]. apply Kp; [exact Ig|]. intro X. subst g. congruence. }
      intros n In_. destruct o; cbn [saw] in In_; try (apply Old; exact In_);
        (destruct In_ as [<-|In_]; [right; eexists; split; [exact In1|rewrite bin_req_header; reflexivity]|apply Old; exact In_]). }
    assert (Y : exists d', tidy (saw seen o) d' (fst (bin_exact last c o)) evs /\ (d' = false -> left = [])).
    { destruct (T last I) as [[R1 T']|T']; [exists false; split; [exact T'|intros _; apply D, Ra; exact R1]|exists true; split; [exact T'|discriminate]]. }
    destruct Y as (d' & T' & U').
    destruct (IH d' p1 left (snd (bin_req h o))) as (l' & p' & outs & R & Ec & Ag').
    + exact (wf_exact_step PBinary [] last c o W A).
    + lia.
    + exact F'.
    + apply saw_range; assumption.
    + exact St1.
    + exact T'.
    + exact U'.
    + exists l', p', (out :: outs). split; [eapply pr_do; [exact Pc|exact R]|]. split; [exact Ec|constructor; assumption].
  - inversion F as [|? ? A F']; subst. rewrite zlen_cons in C. cbn [accepted_event] in A. destruct (IH dirty p un hd) as (l' & p' & outs & R & Ec & Ag); try assumption.
    + apply wf_tick; [exact W|exact A].
    + cbn [tick c_cas]. lia.
    + exists l', p', outs. split; [apply pr_wait; exact R|]. split; assumption.
  - inversion F as [|? ? A F']; subst. rewrite zlen_cons in C. destruct (IH false p [] hd) as (l' & p' & outs & R & Ec & Ag); try assumption.
    + lia.
    + reflexivity.
    + exists l', p', outs. split; [apply pr_reconnect; exact R|]. split; assumption.
Qed.

(** ** C95 *)
(** From a new object and a fresh connection, for every history of calls that renews the connection where
    it has to, however the pool behaves: the results are among those the specification lists, and each of
    those happens for some behaviour of the pool. *)
Theorem C95_exactly : forall c h evs, wf PBinary c -> c_cas c + zlen evs < 2 ^ 64 -> Forall (accepted_event PBinary) evs -> tidy [] false c evs ->
  (forall l p outs, pooled_run (fresh_link c h) [] evs l p outs ->
     exists rs, possible [] c evs (l_cache l) rs /\ Forall2 agrees rs outs)
  /\ (forall c' rs, possible [] c evs c' rs ->
     exists l p outs, pooled_run (fresh_link c h) [] evs l p outs /\ l_cache l = c' /\ Forall2 agrees rs outs).
Proof.
  intros c h evs W C F T. split.
  - intros l p outs R. apply (runs_possible _ _ _ _ _ _ R [] false); try assumption; try constructor; reflexivity.
  - intros c' rs P. apply (possible_runs _ _ _ _ _ P false [] [] h); try assumption; [constructor|intros x []|intros _; reflexivity].
Qed.
Print Assumptions C95_exactly.

(** Without cas numbers nothing depends on the pool: there is one possible history, the one of the
    exact description C70 gives, in which no counter carries a cas number. *)
Lemma all_zero_last : forall seen last, Forall (fun n => n = 0) seen -> In last (0 :: seen) -> last = 0.
Proof. intros seen last Z [<-|I]; [reflexivity|]. rewrite Forall_forall in Z. apply Z. exact I. Qed.
Lemma without_cas_one : forall seen c evs c' rs, possible seen c evs c' rs -> Forall (fun n => n = 0) seen -> (forall ev, In ev evs -> ~ carries_cas ev) ->
  (c', rs) = exact_run PBinary [] 0 c evs.
Proof.
  intros seen c evs c' rs H. induction H as [seen c|seen c o last evs c' rs I H IH|seen c d evs c' rs H IH|seen c evs c' rs H IH]; intros Z N; cbn [exact_run].
  - reflexivity.
  - apply (all_zero_last seen) in I; [|exact Z]. subst last. cbn [exact_step].
    assert (No : no_cas o) by (assert (X := N (XDo o) (or_introl eq_refl)); cbn [carries_cas] in X; destruct o; cbn [no_cas] in *; auto; lia).
    assert (Nx : next_cas 0 o = 0) by (destruct o; cbn [next_cas no_cas] in *; auto).
    rewrite Nx. rewrite <- IH; [reflexivity| |intros ev Iv; apply N; right; exact Iv].
    destruct o; cbn [saw no_cas] in *; try exact Z; constructor; assumption.
  - rewrite <- IH; [reflexivity|exact Z|intros ev Iv; apply N; right; exact Iv].
  - rewrite <- IH; [reflexivity|exact Z|intros ev Iv; apply N; right; exact Iv].
Qed.
Lemma without_cas_tidy : forall evs seen dirty c, Forall (fun n => n = 0) seen -> (forall ev, In ev evs -> ~ carries_cas ev) ->
  orderly PBinary [] dirty 0 c evs -> tidy seen dirty c evs.
Proof.
  induction evs as [|[o|d|] evs IH]; intros seen dirty c Z N Or; cbn [tidy orderly] in *; [exact Logic.I| |apply IH; [exact Z|intros ev Iv; apply N; right; exact Iv|exact Or]|apply IH; [exact Z|intros ev Iv; apply N; right; exact Iv|exact Or]].
  destruct Or as [E Or]. split; [exact E|]. intros last I. apply (all_zero_last seen) in I; [|exact Z]. subst last. cbn [exact_step] in Or.
  assert (No : no_cas o) by (assert (X := N (XDo o) (or_introl eq_refl)); cbn [carries_cas] in X; destruct o; cbn [no_cas] in *; auto; lia).
  assert (Nx : next_cas 0 o = 0) by (destruct o; cbn [next_cas no_cas] in *; auto). rewrite Nx in Or.
  assert (Z' : Forall (fun n => n = 0) (saw seen o)) by (destruct o; cbn [saw no_cas] in *; try exact Z; constructor; assumption).
  assert (N' : forall ev, In ev evs -> ~ carries_cas ev) by (intros ev Iv; apply N; right; exact Iv).
  destruct Or as [[R Or]|Or]; [left; split; [exact R|]|right]; apply IH; assumption.
Qed.
Theorem C95_without_cas_numbers_the_pool_does_not_matter : forall c h evs l p outs,
  wf PBinary c -> c_cas c + zlen evs < 2 ^ 64 -> Forall (accepted_event PBinary) evs -> (forall ev, In ev evs -> ~ carries_cas ev) ->
  orderly PBinary [] false 0 c evs -> pooled_run (fresh_link c h) [] evs l p outs ->
  l_cache l = fst (exact_run PBinary [] 0 c evs) /\ Forall2 agrees (snd (exact_run PBinary [] 0 c evs)) outs.
Proof.
  intros c h evs l p outs W C F N Or R.
  destruct (proj1 (C95_exactly c h evs W C F (without_cas_tidy evs [] false c (Forall_nil _) N Or)) l p outs R) as (rs & P & Ag).
  apply without_cas_one in P; [|constructor|exact N]. rewrite <- P. split; [reflexivity|exact Ag].
Qed.
Print Assumptions C95_without_cas_numbers_the_pool_does_not_matter.

(** With one, the same calls on the same memcached can end differently: after a compare-and-swap of one
    item the Increment of another counts or fails, as the pool pleases. *)
Definition cas_then_count : list xevent :=
  [XDo (OSet (demo_item "n" "5" 0 0 0)); XDo (OSet (demo_item "k" "v" 0 0 0)); XDo (OSet (demo_item "k" "w" 0 0 2)); XDo (OIncr (B "n") 1 0)].
Lemma tidy_ok : forall seen c o evs, (forall last, reads_all PBinary c last o) -> (forall last, In last (0 :: seen) -> tidy (saw seen o) false (fst (bin_exact last c o)) evs) ->
  tidy seen false c (XDo o :: evs).
Proof. intros seen c o evs R T. split; [reflexivity|]. intros last I. left. split; [apply R|apply T; exact I]. Qed.
Lemma cas_then_count_ok : Forall (accepted_event PBinary) cas_then_count /\ tidy [] false demo_c cas_then_count.
Proof.
  split.
  - unfold cas_then_count. accepted_all.
  - unfold cas_then_count. apply tidy_ok; [intro last; vm_compute; reflexivity|intros last _].
    apply tidy_ok; [intro; vm_compute; reflexivity|intros ? _].
    apply tidy_ok; [intro; vm_compute; reflexivity|intros ? _].
    apply tidy_ok; [intro; exact Logic.I|intros ? _]. exact Logic.I.
Qed.
Definition pool_does_not_matter : Prop := forall c h evs l p outs l' p' outs',
  wf PBinary c -> c_cas c + zlen evs < 2 ^ 64 -> Forall (accepted_event PBinary) evs -> tidy [] false c evs ->
  pooled_run (fresh_link c h) [] evs l p outs -> pooled_run (fresh_link c h) [] evs l' p' outs' -> outs' = outs.
Lemma demo_c_ok : wf PBinary demo_c /\ c_cas demo_c + zlen cas_then_count < 2 ^ 64.
Proof. split; [apply demo_c_wf|vm_compute; reflexivity]. Qed.
Lemma both_happen : exists l1 p1 l2 p2 m,
  pooled_run (fresh_link demo_c reset_header) [] cas_then_count l1 p1 [Ok RUnit; Ok RUnit; Ok RUnit; Ok (RInt 6)]
  /\ pooled_run (fresh_link demo_c reset_header) [] cas_then_count l2 p2 [Ok RUnit; Ok RUnit; Ok RUnit; Err (EMsg m)].
Proof.
  assert (D : forall l p o h p0 p1 l' r evs l2 p2 rs, (forall ks, o <> OGetMulti ks) -> forgets p p0 -> takes p0 h p1 ->
     call bin_client (with_header l h) o = (l', r) -> pooled_run l' (l_header l' :: p1) evs l2 p2 rs -> pooled_run l p (XDo o :: evs) l2 p2 (r :: rs)).
  { intros. eapply pr_do; [eapply pc_one; eassumption|eassumption]. }
  unfold cas_then_count. do 5 eexists. split.
  - do 4 (eapply D; [discriminate|apply forgets_refl|apply tk_new|vm_compute; reflexivity|]). constructor.
  - do 3 (eapply D; [discriminate|apply forgets_refl|apply tk_new|vm_compute; reflexivity|]).
    eapply D; [discriminate|apply forgets_refl|apply (tk_old []) |vm_compute; reflexivity|]. constructor.
Qed.
Theorem C95_the_pool_decides_refuted : ~ pool_does_not_matter.
Proof.
  intro H. destruct both_happen as (l1 & p1 & l2 & p2 & m & R1 & R2). destruct demo_c_ok as [W C]. destruct cas_then_count_ok as [F T].
  assert (X := H _ _ _ _ _ _ _ _ _ W C F T R1 R2). discriminate X.
Qed.
Print Assumptions C95_the_pool_decides_refuted.
Example C95_met : wf PBinary demo_c /\ c_cas demo_c + zlen cas_then_count < 2 ^ 64 /\ Forall (accepted_event PBinary) cas_then_count
  /\ tidy [] false demo_c cas_then_count /\ (exists ev, In ev cas_then_count /\ carries_cas ev)
  /\ (forall ev, In ev (firstn 2 cas_then_count) -> ~ carries_cas ev) /\ orderly PBinary [] false 0 demo_c (firstn 2 cas_then_count).
Proof.
  split; [apply demo_c_ok|]. split; [apply demo_c_ok|]. split; [apply cas_then_count_ok|]. split; [apply cas_then_count_ok|].
  split; [exists (XDo (OSet (demo_item "k" "w" 0 0 2))); split; [right; right; left; reflexivity|intro H; discriminate H]|].
  split; [intros ev [<-|[<-|[]]] N; apply N; reflexivity|].
  cbn [firstn cas_then_count orderly]. split; [reflexivity|]. left. split; [vm_compute; reflexivity|]. split; [reflexivity|]. left. split; [vm_compute; reflexivity|exact Logic.I].
Qed.
