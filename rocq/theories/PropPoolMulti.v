(** * C71: GetMulti of a SinglePool shared by goroutines. *)
From Verif Require Import GoBytes GoNum GoIO Item ClientText ClientMeta ClientBinary Cache Daemon Spec Call Guard Ring RingSpec Pool PoolSpec.
From Verif Require Import PLib RingData PDaemon PStream PCache PClient PText PropClient PReader PropReply PReply PropWriter PLifecycle PropLifecycle Conc PropConc PRing PropRing PPool PMulti PropPool PoolConc PropPoolConc.
Local Open Scope nat_scope.

(** These calls are GetMulti of the groups' servers in this order, each called once with its group of keys,
    all answered; [items] are all the items they returned. *)
Inductive asked_all (servers : list server) : list (bytes * list bytes) -> list (nat * op * outcome result) -> list item -> Prop :=
| aa_nil : asked_all servers [] [] []
| aa_cons : forall name ks sv its groups l items, find_server servers name = Some sv -> asked_all servers groups l items ->
    asked_all servers ((name, ks) :: groups) ((sv_id sv, OGetMulti ks, Ok (RItems its)) :: l) (its ++ items).

(** What GetMulti does: it asks the servers of the groups one after the other and stops at the first that
    fails. It has returned all their items, or the error of the server it stopped at, or it is under way,
    or a server's GetMulti panicked (a result that is not a list of items is excluded by typing in Go). *)
Theorem C71_getmulti_asks_each_server : forall servers groups acc k l rest, makes (prog_groups servers groups acc k) l rest ->
  (exists l1 l2 items, l = l1 ++ l2 /\ asked_all servers groups l1 items /\ makes (k (Ok (RItems (acc ++ items)))) l2 rest)
  \/ exists done name ks more l1 l2 items, groups = done ++ (name, ks) :: more /\ asked_all servers done l1 items /\ l = l1 ++ l2
     /\ ((exists sv e l3, find_server servers name = Some sv /\ l2 = (sv_id sv, OGetMulti ks, Err e) :: l3 /\ makes (k (Err e)) l3 rest)
         \/ (exists sv k', find_server servers name = Some sv /\ l2 = [] /\ rest = Then (sv_id sv) (OGetMulti ks) k')
         \/ (find_server servers name = None /\ l2 = [] /\ rest = Stop)
         \/ (exists sv r, find_server servers name = Some sv /\ l2 = [(sv_id sv, OGetMulti ks, r)] /\ rest = Stop
             /\ (forall e, r <> Err e) /\ forall its, r <> Ok (RItems its))).
Proof.
  intros servers groups. induction groups as [|[name ks] groups IH]; intros acc k l rest M; cbn [prog_groups] in M.
  - left. exists [], l, []. rewrite app_nil_r. split; [reflexivity|]. split; [constructor|exact M].
  - destruct (find_server servers name) as [sv|] eqn:Fs.
    + remember (Then _ _ _) as pg eqn:Ep in M. inversion M as [p E1 E2 E3|j o k' r l' p' M' E1]; subst.
      * right. exists [], name, ks, groups, [], [], []. split; [reflexivity|]. split; [constructor|]. split; [reflexivity|]. right. left. exists sv. eexists. split; [exact Fs|]. split; reflexivity.
      * injection E1 as -> -> ->.
        assert (Bad : (forall e, r <> Err e) -> (forall its, r <> Ok (RItems its)) -> makes Stop l' rest ->
          exists done name0 ks0 more l1 l2 items, (name, ks) :: groups = done ++ (name0, ks0) :: more /\ asked_all servers done l1 items /\ (sv_id sv, OGetMulti ks, r) :: l' = l1 ++ l2
          /\ ((exists sv e l3, find_server servers name0 = Some sv /\ l2 = (sv_id sv, OGetMulti ks0, Err e) :: l3 /\ makes (k (Err e)) l3 rest)
             \/ (exists sv k', find_server servers name0 = Some sv /\ l2 = [] /\ rest = Then (sv_id sv) (OGetMulti ks0) k')
             \/ (find_server servers name0 = None /\ l2 = [] /\ rest = Stop)
             \/ (exists sv r, find_server servers name0 = Some sv /\ l2 = [(sv_id sv, OGetMulti ks0, r)] /\ rest = Stop
               /\ (forall e, r <> Err e) /\ forall its, r <> Ok (RItems its)))).
        { intros N1 N2 Ms. inversion Ms; subst. exists [], name, ks, groups, [], [(sv_id sv, OGetMulti ks, r)], []. split; [reflexivity|]. split; [constructor|]. split; [reflexivity|]. right. right. right. exists sv, r. auto. }
        destruct r as [v|e|].
        -- destruct v as [it|its| | |]; try (right; apply Bad; [discriminate|discriminate|exact M']).
           destruct (IH _ _ _ _ M') as [(l1 & l2 & items & -> & F & Mk)|(done & n' & ks' & more & l1 & l2 & items & -> & F & -> & C)].
           ++ left. exists ((sv_id sv, OGetMulti ks, Ok (RItems its)) :: l1), l2, (its ++ items). split; [reflexivity|]. split; [constructor; assumption|]. rewrite app_assoc. exact Mk.
           ++ right. exists ((name, ks) :: done), n', ks', more, ((sv_id sv, OGetMulti ks, Ok (RItems its)) :: l1), l2, (its ++ items). split; [reflexivity|]. split; [constructor; assumption|]. split; [reflexivity|exact C].
        -- right. exists [], name, ks, groups, [], ((sv_id sv, OGetMulti ks, Err e) :: l'), []. split; [reflexivity|]. split; [constructor|]. split; [reflexivity|]. left. exists sv, e, l'. auto.
        -- right. apply Bad; [discriminate|discriminate|exact M'].
    + inversion M; subst. right. exists [], name, ks, groups, [], [], []. split; [reflexivity|]. split; [constructor|]. split; [reflexivity|]. right. right. left. auto.
Qed.
Print Assumptions C71_getmulti_asks_each_server.

(** The state of server [j]'s cache after the calls of the log, by the specification. *)
Definition state_of (pr : nat -> proto) (name : nat -> bytes) (c : nat -> cache) (j : nat) (log : list pentry) : cache :=
  fst (spec_run (pr j) (name j) (c j) (map event_of (on_server j log))).
Definition items_of (key : bytes) (items : list item) : list item := filter (fun i => beq (it_key i) key) items.
Definition times (key : bytes) (ks : list bytes) : nat := length (filter (fun k => beq k key) ks).
(** The item of [key] in this state, as often as it was asked for; none if the key is absent. *)
Definition shown (pr : proto) (name : bytes) (cc : cache) (key : bytes) (n : nat) : list item :=
  match lookup cc key with Some e => repeat (item_view pr name true cc key e) n | None => [] end.
(** Every server's calls are legal and safe (Guard.v; nothing to check with the text protocol). *)
Definition sound_server (pr : nat -> proto) (name : nat -> bytes) (c : nat -> cache) (h : nat -> req_header) (log : list pentry) (j : nat) : Prop :=
  wf (pr j) (c j) /\ (c_cas (c j) + zlen log < cas_bound (pr j))%Z
  /\ Forall (legal_event (pr j)) (map event_of (on_server j log)) /\ safe_run (pr j) (name j) (rq_cas (h j)) (c j) (map event_of (on_server j log)).

Lemma on_server_size : forall j log, (zlen (on_server j log) <= zlen log)%Z.
Proof.
  intros j log. unfold zlen. apply inj_le. unfold on_server. induction log as [|e l IHl]; [cbn; lia|]. cbn [flat_map]. rewrite app_length. destruct e as [i u o' r'|d]; [destruct (Nat.eqb i j)|]; cbn [length]; lia.
Qed.
Lemma same_length : forall A C (P : A -> C -> Prop) l m, Forall2 P l m -> length l = length m.
Proof. intros A C P l m F. induction F; cbn; congruence. Qed.
Lemma same_parts : forall A (a b x y : list A), a ++ x = b ++ y -> length a = length b -> a = b /\ x = y.
Proof.
  intros A a. induction a as [|z a IH]; intros [|w b] x y E L; try discriminate L; [split; [reflexivity|exact E]|].
  cbn [app] in E. injection E as -> E. injection L as L. destruct (IH _ _ _ E L) as [-> ->]. split; reflexivity.
Qed.
Lemma result_at : forall pr name c h progs p a j t o r b, psteps (fun j => client_of (pr j) (name j)) (pool_started c h progs) p ->
  ps_log p = a ++ PDone j t o r :: b -> sound_server pr name c h (ps_log p) j ->
  agrees (snd (spec_step (pr j) (name j) (state_of pr name c j a) o)) r.
Proof.
  intros pr name c h progs p a j t o r b S El (W & Cs & Lg & Sf).
  destruct (pinv_steps pr name c h progs p S) as (Sv & _ & _). destruct (Sv j) as [[ps (_ & Rs & _)] Lo]. rewrite Lo in Rs. clear Sv Lo.
  destruct (run_ok (pr j) (name j) (map event_of (on_server j (ps_log p))) (c j) (h j) W) as (h' & outs & Er & A); [|exact Lg|exact Sf|].
  { pose proof (on_server_size j (ps_log p)). unfold zlen in *. rewrite map_length. lia. }
  rewrite Er in Rs. cbn [snd] in Rs. subst outs. clear Er Lg Sf.
  rewrite El in A. rewrite on_server_app in A. cbn [on_server flat_map] in A. rewrite Nat.eqb_refl in A. fold (on_server j b) in A. cbn [app] in A. unfold results_of in A. rewrite flat_map_app, map_app, spec_run_app in A. cbn [flat_map map event_of app spec_run snd] in A.
  apply Forall2_app_inv_l in A. destruct A as (x1 & x2 & A1 & A2 & Ex). inversion A2 as [|sx y sl yl Ag An]; subst.
  assert (Ln : length x1 = length (flat_map (fun e => match e with LDone _ _ r => [r] | LTick _ => [] end) (on_server j a))).
  { apply same_length in A1. rewrite <- A1. clear. generalize (on_server j a). generalize (c j). intros cc l. revert cc. induction l as [|[u o r|d] l IH]; intro cc; cbn [map event_of spec_run flat_map app snd length]; [reflexivity| |apply IH]. f_equal. apply IH. }
  symmetry in Ex. apply same_parts in Ex; [|exact Ln]. destruct Ex as [_ Ex]. injection Ex as -> _. exact Ag.
Qed.

Lemma shown_items : forall pr name cc key ks, items_of key (flat_map (fun k => match lookup cc k with Some e => [item_view pr name true cc k e] | None => [] end) ks)
  = shown pr name cc key (times key ks).
Proof.
  intros pr name cc key ks. unfold shown, times. induction ks as [|k ks IH]; [destruct (lookup cc key); reflexivity|].
  cbn [flat_map filter]. unfold items_of in *. rewrite filter_app, IH. destruct (beq k key) eqn:E.
  - apply beq_eq in E. subst k. destruct (lookup cc key) as [e|]; [|reflexivity]. cbn [filter item_view it_key]. rewrite beq_refl. reflexivity.
  - destruct (lookup cc k) as [e|]; [|reflexivity]. cbn [filter item_view it_key]. rewrite E. reflexivity.
Qed.
Lemma shown_keys : forall pr name cc ks i, In i (flat_map (fun k => match lookup cc k with Some e => [item_view pr name true cc k e] | None => [] end) ks) -> In (it_key i) ks.
Proof.
  intros pr name cc ks i I. apply in_flat_map in I. destruct I as (k & Ik & I). destruct (lookup cc k); [|contradiction]. destruct I as [<-|[]]. exact Ik.
Qed.
Lemma times_own : forall nodes sv key ks, pick nodes key = Ok sv -> times key (own_keys nodes sv ks) = times key ks.
Proof.
  intros nodes sv key ks P. unfold times, own_keys. induction ks as [|k ks IH]; [reflexivity|]. cbn [filter]. destruct (beq k key) eqn:E.
  - apply beq_eq in E. subst k. rewrite P, Nat.eqb_refl. cbn [filter]. rewrite beq_refl. cbn [length]. rewrite IH. reflexivity.
  - destruct (pick nodes k) as [t|e|]; [|exact IH|exact IH]. destruct (Nat.eqb (sv_id t) (sv_id sv)); [|exact IH]. cbn [filter]. rewrite E. exact IH.
Qed.
Lemma asked_app : forall servers g1 g2 l items, asked_all servers (g1 ++ g2) l items ->
  exists l1 l2 i1 i2, l = l1 ++ l2 /\ items = i1 ++ i2 /\ asked_all servers g1 l1 i1 /\ asked_all servers g2 l2 i2.
Proof.
  intros servers g1. induction g1 as [|[n ks] g1 IH]; intros g2 l items A.
  - exists [], l, [], items. split; [reflexivity|]. split; [reflexivity|]. split; [constructor|exact A].
  - cbn [app] in A. inversion A as [|n' ks' sv its gs l' items' Fs A']; subst. destruct (IH _ _ _ A') as (l1 & l2 & i1 & i2 & -> & -> & A1 & A2).
    exists ((sv_id sv, OGetMulti ks, Ok (RItems its)) :: l1), l2, (its ++ i1), i2. rewrite app_assoc. split; [reflexivity|]. split; [reflexivity|]. split; [constructor; assumption|exact A2].
Qed.
Lemma asked_keys : forall servers groups l items, asked_all servers groups l items ->
  (forall j ks its i, In (j, OGetMulti ks, Ok (RItems its)) l -> In i its -> In (it_key i) ks) ->
  forall i, In i items -> exists n ks, In (n, ks) groups /\ In (it_key i) ks.
Proof.
  intros servers groups l items A H. induction A as [|n ks sv its groups l items Fs A IH]; intros i I; [contradiction|].
  apply in_app_or in I. destruct I as [I|I].
  - exists n, ks. split; [left; reflexivity|]. eapply H; [left; reflexivity|exact I].
  - destruct (IH (fun j k0 x y Ix => H j k0 x y (or_intror Ix)) i I) as (n' & ks' & Ig & Ik). exists n', ks'. split; [right; exact Ig|exact Ik].
Qed.
Lemma items_of_app : forall key a b, items_of key (a ++ b) = items_of key a ++ items_of key b.
Proof. intros. apply filter_app. Qed.
Lemma none_of : forall key items, (forall i, In i items -> it_key i <> key) -> items_of key items = [].
Proof.
  intros key items H. induction items as [|i items IH]; [reflexivity|]. unfold items_of in *. cbn [filter]. destruct (beq (it_key i) key) eqn:E.
  - apply beq_eq in E. elim (H i (or_introl eq_refl) E).
  - apply IH. intros x I. apply H. right. exact I.
Qed.
Lemma find_server_in : forall servers n sv, find_server servers n = Some sv -> In sv servers.
Proof. intros servers n sv F. unfold find_server in F. apply find_some in F. apply in_rev. apply F. Qed.
Lemma made_in_log : forall f j o r l, In (j, o, r) (made_by f l) -> exists a b, l = a ++ PDone j f o r :: b.
Proof.
  intros f j o r l I. unfold made_by in I. apply in_flat_map in I. destruct I as ([i t o' r'|d] & Ie & I); [|contradiction].
  destruct (Nat.eqb_spec t f) as [->|]; [|contradiction]. destruct I as [I|[]]. injection I as -> -> ->. apply in_split in Ie. exact Ie.
Qed.

(** Goroutines calling any methods of a shared pool of servers of any protocols, in any interleaving. In
    the part [l2] of the log goroutine [f]'s GetMulti of [ks] was answered with [items]. Then every item is
    of a key asked for, and for every server there is one moment during the call such that for each of its
    keys exactly the item the key had at that moment is among [items], as often as it was asked for, and
    no item if it was absent then. *)
Theorem C71_one_moment_per_server : forall pr name c h progs p servers nodes ks m groups f l1 l2 l3 items,
  psteps (fun j => client_of (pr j) (name j)) (pool_started c h progs) p -> good_pool servers nodes ->
  group_keys nodes [] ks = Ok m -> Permutation groups m ->
  ps_log p = l1 ++ l2 ++ l3 -> asked_all servers groups (made_by f l2) items ->
  (forall sv, In sv servers -> sound_server pr name c h (ps_log p) (sv_id sv)) ->
  (forall i, In i items -> In (it_key i) ks)
  /\ forall sv, In sv servers -> exists a b, l2 = a ++ b /\
     forall key, In key ks -> pick nodes key = Ok sv ->
       items_of key items = shown (pr (sv_id sv)) (name (sv_id sv)) (state_of pr name c (sv_id sv) (l1 ++ a)) key (times key ks).
Proof.
  intros pr name c h progs p servers nodes ks m groups f l1 l2 l3 items S G Gk Pg El A Snd.
  assert (G' := G). destruct G' as (Ne & R & Nn & Ni).
  assert (G0 : grouped nodes [] []) by (repeat split; try constructor; intros; contradiction).
  destruct (group_ok nodes servers Ne R ks [] [] G0) as (m' & Em & (Gr1 & Gr2 & Gr3)). rewrite Gk in Em. injection Em as <-. cbn [app] in *.
  assert (Gd : NoDup (map fst groups)) by (apply Permutation_NoDup with (l := map fst m); [apply Permutation_map, Permutation_sym, Pg|exact Gr1]).
  assert (Gi : forall n l, In (n, l) groups -> l = named nodes n ks) by (intros n l I; apply (Gr2 n l), (Permutation_in _ Pg), I).
  assert (Own : forall n x, In x (named nodes n ks) -> In x ks /\ exists t, pick nodes x = Ok t /\ sv_name t = n).
  { intros n x I. unfold named in I. apply filter_In in I. destruct I as [I E]. split; [exact I|]. destruct (pick nodes x) as [t|e|]; try discriminate E. exists t. apply beq_eq in E. auto. }
  (* every answered call returned the items of its keys in the state it met *)
  assert (Each : forall j gks its, In (j, OGetMulti gks, Ok (RItems its)) (made_by f l2) -> forall sv, In sv servers -> j = sv_id sv ->
     exists a b, l2 = a ++ PDone j f (OGetMulti gks) (Ok (RItems its)) :: b
       /\ its = flat_map (fun k => match lookup (state_of pr name c j (l1 ++ a)) k with Some e => [item_view (pr j) (name j) true (state_of pr name c j (l1 ++ a)) k e] | None => [] end) gks).
  { intros j gks its I sv Is ->. destruct (made_in_log _ _ _ _ _ I) as (a & b & E2). exists a, b. split; [exact E2|].
    pose proof (result_at pr name c h progs p (l1 ++ a) (sv_id sv) f (OGetMulti gks) (Ok (RItems its)) (b ++ l3) S) as Ra.
    rewrite El in Ra at 1. rewrite E2 in Ra. rewrite <- !app_assoc in Ra. cbn [app] in Ra. specialize (Ra eq_refl (Snd sv Is)). cbn [spec_step snd agrees] in Ra. injection Ra as ->. reflexivity. }
  assert (Calls : forall g l its0, asked_all servers g l its0 -> (forall x, In x l -> In x (made_by f l2)) ->
     forall j gks its i, In (j, OGetMulti gks, Ok (RItems its)) l -> In i its -> In (it_key i) gks).
  { intros g l its0 Ag. induction Ag as [|n gk sv its1 g l it0 Fs Ag IH]; intros Sub j gks its i I Ii; [contradiction|]. destruct I as [I|I].
    - injection I as <- <- <-. pose proof (find_server_in _ _ _ Fs) as Is. destruct (Each (sv_id sv) gk its1 (Sub _ (or_introl eq_refl)) sv Is eq_refl) as (a & b & _ & E). rewrite E in Ii. apply shown_keys in Ii. exact Ii.
    - eapply IH; [intros x Ix; apply Sub; right; exact Ix|exact I|exact Ii]. }
  split.
  - intros i I. destruct (asked_keys _ _ _ _ A (Calls _ _ _ A (fun x Ix => Ix)) i I) as (n & gk & Ig & Ik). rewrite (Gi _ _ Ig) in Ik. apply Own in Ik. apply Ik.
  - intros sv Is. destruct (own_keys nodes sv ks) as [|k0 oks] eqn:Ok0.
    { exists [], l2. split; [reflexivity|]. intros key Ik Pk. exfalso.
      assert (X : In key (own_keys nodes sv ks)) by (unfold own_keys; apply filter_In; split; [exact Ik|rewrite Pk; apply Nat.eqb_refl]). rewrite Ok0 in X. exact X. }
    assert (Ink : In k0 (own_keys nodes sv ks)) by (rewrite Ok0; left; reflexivity).
    assert (Pk0 : pick nodes k0 = Ok sv /\ In k0 ks).
    { unfold own_keys in Ink. apply filter_In in Ink. destruct Ink as [I0 E0]. split; [|exact I0]. destruct (pick nodes k0) as [t|e|] eqn:Pt; try discriminate E0. apply Nat.eqb_eq in E0.
      rewrite (id_inj servers Ni t sv (pick_in servers nodes Ne R k0 t Pt) Is E0). reflexivity. }
    destruct Pk0 as [Pk0 Ik0].
    assert (Ig : In (sv_name sv) (map fst groups)) by (apply (Permutation_in _ (Permutation_map fst (Permutation_sym Pg))), (Gr3 k0 sv Ik0 Pk0)).
    apply in_map_iff in Ig. destruct Ig as ([n gk] & En & Ig). cbn [fst] in En. subst n.
    assert (Eg : gk = own_keys nodes sv ks) by (rewrite (Gi _ _ Ig); apply (named_own servers nodes Ne R Nn Ni); exact Is).
    apply in_split in Ig. destruct Ig as (g1 & g2 & Eg12). rewrite Eg12 in A.
    destruct (asked_app _ _ _ _ _ A) as (la & lb & ia & ib & Emb & Eit & A1 & A2). inversion A2 as [|n' ks' sv' its gs lb' ib' Fs A3 E1 E2 E3]; subst n' ks' gs.
    rewrite (find_server_ok servers sv Nn Is) in Fs. injection Fs as <-.
    destruct (Each (sv_id sv) gk its ltac:(rewrite Emb, <- E2; apply in_or_app; right; left; reflexivity) sv Is eq_refl) as (a & b & E12 & Eits).
    exists a. eexists. split; [exact E12|]. intros key Ik Pk.
    assert (Nd : ~ In (sv_name sv) (map fst g1) /\ ~ In (sv_name sv) (map fst g2)).
    { rewrite Eg12, map_app in Gd. cbn [map fst] in Gd. apply NoDup_remove_2 in Gd. split; intro I; apply Gd, in_or_app; auto. }
    assert (No : forall g l x, asked_all servers g l x -> (forall y, In y l -> In y (made_by f l2)) -> (forall y, In y g -> In y groups) -> ~ In (sv_name sv) (map fst g) -> items_of key x = []).
    { intros g l x Ag Sub Sg Ng. apply none_of. intros i Ii Ei. destruct (asked_keys _ _ _ _ Ag (Calls _ _ _ Ag Sub) i Ii) as (n & gk' & Ig & Igk). rewrite (Gi _ _ (Sg _ Ig)) in Igk.
      apply Own in Igk. destruct Igk as (_ & t & Pt & Nt). rewrite Ei, Pk in Pt. injection Pt as <-. apply Ng. apply in_map_iff. exists (n, gk'). split; [exact (eq_sym Nt)|exact Ig]. }
    rewrite Eit. rewrite <- E3. rewrite !items_of_app.
    rewrite (No g1 la ia A1), (No g2 lb' ib' A3).
    + cbn [app]. rewrite app_nil_r. rewrite Eits, shown_items, Eg, (times_own nodes sv key ks Pk). reflexivity.
    + intros y Iy. rewrite Emb, <- E2. apply in_or_app. right. right. exact Iy.
    + intros y Iy. rewrite Eg12. apply in_or_app. right. right. exact Iy.
    + apply Nd.
    + intros y Iy. rewrite Emb. apply in_or_app. left. exact Iy.
    + intros y Iy. rewrite Eg12. apply in_or_app. left. exact Iy.
    + apply Nd.
Qed.
Print Assumptions C71_one_moment_per_server.

(** The full statement: one moment for all servers. *)
Definition C71_getmulti_is_a_snapshot : Prop := forall pr name c h progs p servers nodes ks m groups f l1 l2 l3 items,
  psteps (fun j => client_of (pr j) (name j)) (pool_started c h progs) p -> good_pool servers nodes ->
  group_keys nodes [] ks = Ok m -> Permutation groups m ->
  ps_log p = l1 ++ l2 ++ l3 -> asked_all servers groups (made_by f l2) items ->
  (forall sv, In sv servers -> sound_server pr name c h (ps_log p) (sv_id sv)) ->
  exists a b, l2 = a ++ b /\ forall key sv, In key ks -> pick nodes key = Ok sv ->
    items_of key items = shown (pr (sv_id sv)) (name (sv_id sv)) (state_of pr name c (sv_id sv) (l1 ++ a)) key (times key ks).

(** It holds when all the keys have the same server. *)
Theorem C71_getmulti_is_a_snapshot_partial : forall pr name c h progs p servers nodes ks m groups f l1 l2 l3 items sv0,
  psteps (fun j => client_of (pr j) (name j)) (pool_started c h progs) p -> good_pool servers nodes ->
  group_keys nodes [] ks = Ok m -> Permutation groups m ->
  ps_log p = l1 ++ l2 ++ l3 -> asked_all servers groups (made_by f l2) items ->
  (forall sv, In sv servers -> sound_server pr name c h (ps_log p) (sv_id sv)) ->
  In sv0 servers -> (forall key, In key ks -> pick nodes key = Ok sv0) ->
  exists a b, l2 = a ++ b /\ forall key sv, In key ks -> pick nodes key = Ok sv ->
    items_of key items = shown (pr (sv_id sv)) (name (sv_id sv)) (state_of pr name c (sv_id sv) (l1 ++ a)) key (times key ks).
Proof.
  intros pr name c h progs p servers nodes ks m groups f l1 l2 l3 items sv0 S G Gk Pg El A Snd I0 P0.
  destruct (C71_one_moment_per_server pr name c h progs p servers nodes ks m groups f l1 l2 l3 items S G Gk Pg El A Snd) as [_ H].
  destruct (H sv0 I0) as (a & b & E & K). exists a, b. split; [exact E|]. intros key sv Ik Pk. rewrite (P0 key Ik) in Pk. injection Pk as <-. apply K; [exact Ik|apply P0; exact Ik].
Qed.
Print Assumptions C71_getmulti_is_a_snapshot_partial.

(** It fails across servers: goroutine 0 asks server a for "x", then goroutine 1 stores "x" and afterwards
    "hello", then goroutine 0 asks server b for "hello". The newer value is returned, the older one not. *)
Definition reader_progs (nodes : list node) (t : nat) : prog :=
  match t with
  | O => prog_groups [sv_a; sv_b] [(B "a", [B "x"]); (B "b", [B "hello"])] [] (fun _ => Stop)
  | 1 => calls_each nodes [demo_set "x" "2" 0; demo_set "hello" "1" 0]
  | _ => Stop
  end.
Definition seen_hello : item := mkItem (B "hello") (B "1") (Some (be 4 0)) 0 0 (B "b").
Definition torn_log : list pentry :=
  [ PDone 0 0 (OGetMulti [B "x"]) (Ok (RItems [])); PDone 0 1 (demo_set "x" "2" 0) (Ok RUnit); PDone 1 1 (demo_set "hello" "1" 0) (Ok RUnit);
    PDone 1 0 (OGetMulti [B "hello"]) (Ok (RItems [seen_hello])) ].
Lemma torn : forall nodes, pick nodes (B "hello") = Ok sv_b -> pick nodes (B "x") = Ok sv_a ->
  exists p, psteps (fun j => client_of PText (ab_name j)) (demo_pool (reader_progs nodes)) p /\ ps_log p = torn_log.
Proof.
  intros nodes Kh Kx. set (st := demo_pool (reader_progs nodes)). pose proof (demo_call (reader_progs nodes)) as G. fold st in G.
  assert (P0 : ps_prog st 0 = reader_progs nodes 0) by reflexivity. assert (P1 : ps_prog st 1 = reader_progs nodes 1) by reflexivity.
  assert (Fa : find_server [sv_a; sv_b] (B "a") = Some sv_a) by (vm_compute; reflexivity). assert (Fb : find_server [sv_a; sv_b] (B "b") = Some sv_b) by (vm_compute; reflexivity).
  cbn [reader_progs] in P0, P1. unfold demo_set in P1. cbn [calls_each op_key it_key] in P1. unfold prog_key in P1. rewrite Kh, Kx in P1. cbn [prog_groups] in P0. rewrite Fa, Fb in P0. cbn [sv_a sv_b sv_id] in P0, P1.
  destruct (G st 0 0 _ _ [] (ps_refl _ _) ltac:(reflexivity) ltac:(reflexivity) P0 eq_refl ltac:(vm_compute; reflexivity) ltac:(vm_compute; reflexivity)) as (p1 & r1 & S1 & L1 & K1 & A1 & N1 & M1). clear P0. cbn [app] in L1.
  rewrite <- (M1 1 ltac:(discriminate)) in P1.
  destruct (G p1 1 0 _ _ _ S1 K1 A1 P1 L1 ltac:(vm_compute; reflexivity) ltac:(vm_compute; reflexivity)) as (p2 & r2 & S2 & L2 & K2 & A2 & N2 & M2). clear P1. cbn [app] in L2.
  destruct (G p2 1 1 _ _ _ S2 K2 A2 N2 L2 ltac:(vm_compute; reflexivity) ltac:(vm_compute; reflexivity)) as (p3 & r3 & S3 & L3 & K3 & A3 & N3 & M3). clear N2. cbn [app] in L3.
  rewrite <- (M2 0 ltac:(discriminate)), <- (M3 0 ltac:(discriminate)) in N1.
  assert (R1 : r1 = Ok (RItems [])). { pose proof (proj1 (C65_pool_calls_are_calls_in_sequence (fun _ => PText) ab_name _ _ _ p1 S1)) as Ex. rewrite L1 in Ex. vm_compute in Ex. symmetry. apply Ex. }
  rewrite R1 in N1. cbn [app] in N1.
  destruct (G p3 0 1 _ _ _ S3 K3 A3 N1 L3 ltac:(vm_compute; reflexivity) ltac:(vm_compute; reflexivity)) as (p4 & r4 & S4 & L4 & K4 & A4 & N4 & M4). clear N1. cbn [app] in L4.
  pose proof (proj1 (C65_pool_calls_are_calls_in_sequence (fun _ => PText) ab_name _ _ _ p4 S4)) as Ex. rewrite L4 in Ex. vm_compute in Ex. destruct Ex as (E1 & E2 & E3 & E4 & _).
  exists p4. split; [exact S4|]. rewrite L4. rewrite <- E1, <- E2, <- E3, <- E4. reflexivity.
Qed.
Example C71_met : exists p m, psteps (fun j => client_of PText (ab_name j)) (demo_pool (reader_progs (new_ring [sv_a; sv_b]))) p
  /\ good_pool [sv_a; sv_b] (new_ring [sv_a; sv_b]) /\ group_keys (new_ring [sv_a; sv_b]) [] [B "x"; B "hello"] = Ok m
  /\ Permutation [(B "a", [B "x"]); (B "b", [B "hello"])] m
  /\ ps_log p = [] ++ torn_log ++ [] /\ asked_all [sv_a; sv_b] [(B "a", [B "x"]); (B "b", [B "hello"])] (made_by 0 torn_log) [seen_hello]
  /\ (forall sv, In sv [sv_a; sv_b] -> sound_server (fun _ => PText) ab_name (fun _ => empty_cache demo_cfg 100) (fun _ => reset_header) (ps_log p) (sv_id sv)).
Proof.
  destruct C01_met as (_ & _ & Kh & Kx). destruct C05_met as (Gp & Wc & _ & _).
  remember (new_ring [sv_a; sv_b]) as nodes eqn:En0. clear En0. destruct (torn nodes Kh Kx) as (p & S & R).
  exists p, [(B "a", [B "x"]); (B "b", [B "hello"])]. split; [exact S|]. split; [exact Gp|]. split; [cbn [group_keys]; rewrite Kx, Kh; reflexivity|]. split; [apply Permutation_refl|].
  split; [rewrite R; reflexivity|]. split.
  - change [seen_hello] with ([] ++ [seen_hello] ++ []). apply (aa_cons _ (B "a") [B "x"] sv_a); [vm_compute; reflexivity|]. apply (aa_cons _ (B "b") [B "hello"] sv_b); [vm_compute; reflexivity|]. constructor.
  - intros sv I. rewrite R. unfold sound_server. split; [apply wf_empty; [exact Wc|lia]|]. split; [vm_compute; reflexivity|]. split; [|apply safe_run_text].
    apply legal_events_ok. destruct I as [<-|[<-|[]]]; vm_compute; reflexivity.
Qed.
Theorem C71_getmulti_is_a_snapshot_refuted : ~ C71_getmulti_is_a_snapshot.
Proof.
  intro H. destruct C71_met as (p & m & S & G & Gk & Pm & El & A & Snd). destruct C01_met as (_ & _ & Kh & Kx).
  destruct (H (fun _ => PText) ab_name (fun _ => empty_cache demo_cfg 100) (fun _ => reset_header) _ p [sv_a; sv_b] (new_ring [sv_a; sv_b]) [B "x"; B "hello"] m _ 0 [] torn_log [] [seen_hello] S G Gk Pm El A Snd) as (a & b & E & K).
  pose proof (K (B "hello") sv_b (or_intror (or_introl eq_refl)) Kh) as K1. pose proof (K (B "x") sv_a (or_introl eq_refl) Kx) as K2.
  clear - E K1 K2. cbn [app] in K1, K2. unfold torn_log in E.
  do 5 (destruct a as [|? a]; [first [vm_compute in K1; discriminate K1|vm_compute in K2; discriminate K2]|cbn [app] in E; first [injection E as <- E|discriminate E]]).
Qed.
Print Assumptions C71_getmulti_is_a_snapshot_refuted.
