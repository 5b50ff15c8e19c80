(** * C100: why the GetMulti of the meta and the binary client is left out. *)
From Verif Require Import GoBytes GoNum GoIO Item ClientText ClientMeta ClientBinary Cache Daemon Spec Call Guard Exact Conc TimeConc ManyConc ManyProto PClient PropClient PropTimeConc PropManyConc PropManyProto.
Local Open Scope Z_scope.

Definition who (pr : proto) (i : nat) : proto := match i with O => pr | _ => PText end.
Definition both_items : cache := fst (spec_run PText [] demo_c [Do (OSet (demo_item "a" "one" 7 0 0)); Do (OSet (demo_item "b" "two" 7 0 0))]).
Definition reader_and_flusher (t : nat) : list (nat * op) := match t with O => [(0%nat, OGetMulti [B "a"; B "b"])] | 1%nat => [(1%nat, OFlush)] | _ => [] end.
Definition torn_log (r : outcome result) : list nevent :=
  [NBegin 0 0 0 (OGetMulti [B "a"; B "b"]); NBegin 1 1 1 OFlush; NEnd 1 (Ok RUnit); NEnd 0 r].
Lemma torn_meta : exists v r, nsteps (speaking (who PMeta) mixed_names) (many_started both_items (fun _ => reset_header) reader_and_flusher, []) (v, torn_log r)
  /\ match r with Ok (RItems [i]) => it_value i = B "one" | _ => False end.
Proof.
  eexists. eexists. split.
  - unfold many_started, started, torn_log. set (c0 := both_items).
    nquick ltac:(eapply (N_begin _ _ _ 0 0); reflexivity).
    nquick ltac:(eapply (N_begin _ _ _ 1 1); reflexivity).
    nquick ltac:(eapply (m_lock _ _ _ 0 0); [reflexivity|reflexivity|reflexivity|vm_compute; reflexivity]).
    nquick ltac:(eapply (m_send _ _ _ 0 0); reflexivity). nquick ltac:(eapply (m_sent _ _ _ 0 0); reflexivity). nquick ltac:(eapply (m_out _ _ _ 0); reflexivity).
    nquick ltac:(eapply (m_daemon _ _ _ 0); [reflexivity|vm_compute; reflexivity]).
    nquick ltac:(eapply (m_lock _ _ _ 1 1); [reflexivity|reflexivity|reflexivity|vm_compute; reflexivity]).
    nquick ltac:(eapply (m_send _ _ _ 1 1); reflexivity). nquick ltac:(eapply (m_sent _ _ _ 1 1); reflexivity). nquick ltac:(eapply (m_out _ _ _ 1); reflexivity).
    nquick ltac:(eapply (m_daemon _ _ _ 1); [reflexivity|vm_compute; reflexivity]). nquick ltac:(eapply (m_in _ _ _ 1); reflexivity).
    nquick ltac:(eapply (m_end _ _ _ 1 1 1); [reflexivity|vm_compute; reflexivity|discriminate|reflexivity]).
    nquick ltac:(eapply (m_daemon _ _ _ 0); [reflexivity|vm_compute; reflexivity]).
    nquick ltac:(eapply (m_daemon _ _ _ 0); [reflexivity|vm_compute; reflexivity]).
    nquick ltac:(eapply (m_in _ _ _ 0); reflexivity).
    nquick ltac:(eapply (m_end _ _ _ 0 0 0); [reflexivity|vm_compute; reflexivity|discriminate|reflexivity]). apply ns_refl.
  - reflexivity.
Qed.
Lemma torn_binary : exists v r, nsteps (speaking (who PBinary) mixed_names) (many_started both_items (fun _ => reset_header) reader_and_flusher, []) (v, torn_log r)
  /\ match r with Ok (RItems [i]) => it_value i = B "one" | _ => False end.
Proof.
  eexists. eexists. split.
  - unfold many_started, started, torn_log. set (c0 := both_items).
    nquick ltac:(eapply (N_begin _ _ _ 0 0); reflexivity).
    nquick ltac:(eapply (N_begin _ _ _ 1 1); reflexivity).
    nquick ltac:(eapply (m_lock _ _ _ 0 0); [reflexivity|reflexivity|reflexivity|vm_compute; reflexivity]).
    nquick ltac:(eapply (m_send _ _ _ 0 0); reflexivity). nquick ltac:(eapply (m_sent _ _ _ 0 0); reflexivity). nquick ltac:(eapply (m_out _ _ _ 0); reflexivity).
    nquick ltac:(eapply (m_daemon _ _ _ 0); [reflexivity|vm_compute; reflexivity]).
    nquick ltac:(eapply (m_lock _ _ _ 1 1); [reflexivity|reflexivity|reflexivity|vm_compute; reflexivity]).
    nquick ltac:(eapply (m_send _ _ _ 1 1); reflexivity). nquick ltac:(eapply (m_sent _ _ _ 1 1); reflexivity). nquick ltac:(eapply (m_out _ _ _ 1); reflexivity).
    nquick ltac:(eapply (m_daemon _ _ _ 1); [reflexivity|vm_compute; reflexivity]). nquick ltac:(eapply (m_in _ _ _ 1); reflexivity).
    nquick ltac:(eapply (m_end _ _ _ 1 1 1); [reflexivity|vm_compute; reflexivity|discriminate|reflexivity]).
    nquick ltac:(eapply (m_daemon _ _ _ 0); [reflexivity|vm_compute; reflexivity]).
    nquick ltac:(eapply (m_daemon _ _ _ 0); [reflexivity|vm_compute; reflexivity]).
    nquick ltac:(eapply (m_in _ _ _ 0); reflexivity).
    nquick ltac:(eapply (m_end _ _ _ 0 0 0); [reflexivity|vm_compute; reflexivity|discriminate|reflexivity]). apply ns_refl.
  - reflexivity.
Qed.

(** In no state that the log allows would one execution of the GetMulti return just the first item. *)
Definition bare (c : cache) : Prop := c = both_items \/ forall k, c_map c k = None.
Definition in_torn (m : moment) : Prop :=
  match m with
  | Took n i o r => (n = 0%nat /\ i = 0%nat /\ o = OGetMulti [B "a"; B "b"]) \/ (n = 1%nat /\ i = 1%nat /\ o = OFlush)
  | Saw (NTime _) => False
  | _ => True
  end.
Definition one_back (r : outcome result) : Prop := match r with Ok (RItems [_]) => True | _ => False end.
Lemma multi_torn_exact : forall pr c r, pr = PMeta \/ pr = PBinary -> bare c -> agrees (snd (exact_step (who pr 0) (mixed_names 0) 0 c (OGetMulti [B "a"; B "b"]))) r -> ~ one_back r.
Proof.
  intros pr c r P Bc A. destruct P as [-> | ->]; destruct Bc as [-> | E]; cbn [who exact_step meta_exact bin_exact] in A.
  - vm_compute in A. destruct r as [x| |]; try contradiction. subst x. intro F. exact F.
  - cbn [snd until_a_miss] in A. unfold lookup in A. rewrite !E in A. destruct r as [x| |]; try contradiction. cbn in A. subst x. intro F. exact F.
  - vm_compute in A. destruct r as [x| |]; try contradiction. subst x. intro F. exact F.
  - cbn [spec_step snd flat_map] in A. unfold lookup in A. rewrite !E in A. destruct r as [x| |]; try contradiction. cbn in A. subst x. intro F. exact F.
Qed.
Lemma multi_torn_plain : forall pr c r, pr = PMeta \/ pr = PBinary -> bare c -> agrees (snd (spec_step (who pr 0) (mixed_names 0) c (OGetMulti [B "a"; B "b"]))) r -> ~ one_back r.
Proof.
  intros pr c r P Bc A. destruct Bc as [-> | E].
  - destruct P as [-> | ->]; vm_compute in A; (destruct r as [x| |]; try contradiction); subst x; intro F; exact F.
  - cbn [spec_step snd flat_map] in A. unfold lookup in A. rewrite !E in A. destruct r as [x| |]; try contradiction. cbn in A. subst x. intro F. exact F.
Qed.
Lemma torn_exact : forall pr, pr = PMeta \/ pr = PBinary -> forall M c, bare c -> Forall in_torn M -> Forall2 agrees (snd (exact_moments (who pr) mixed_names c M)) (results M) ->
  forall i o r, In (Took 0 i o r) M -> ~ one_back r.
Proof.
  intros pr P. induction M as [|m M IH]; intros c Bc H A i o r X; [destruct X|]. inversion H as [|? ? Hm HM]; subst. destruct m as [e|n i0 o0 r0].
  - destruct X as [X|X]; [discriminate X|]. assert (A' : Forall2 agrees (snd (exact_moments (who pr) mixed_names c M)) (results M)) by (destruct e; cbn in Hm; try contradiction; exact A). exact (IH c Bc HM A' i o r X).
  - cbn [results flat_map app exact_moments snd] in A. inversion A as [|? ? ? ? A1 A2]; subst. destruct Hm as [(-> & -> & ->)|(-> & -> & ->)].
    + assert (K : fst (exact_step (who pr 0) (mixed_names 0) 0 c (OGetMulti [B "a"; B "b"])) = c) by (destruct P as [-> | ->]; reflexivity). rewrite K in A2.
      destruct X as [X|X]; [injection X as _ _ <-; exact (multi_torn_exact pr c r0 P Bc A1)|exact (IH c Bc HM A2 i o r X)].
    + destruct X as [X|X]; [discriminate X|]. refine (IH _ _ HM A2 i o r X). right. intro k. reflexivity.
Qed.
Lemma torn_plain : forall pr, pr = PMeta \/ pr = PBinary -> forall M c, bare c -> Forall in_torn M -> Forall2 agrees (snd (plain_moments (who pr) mixed_names c M)) (results M) ->
  forall i o r, In (Took 0 i o r) M -> ~ one_back r.
Proof.
  intros pr P. induction M as [|m M IH]; intros c Bc H A i o r X; [destruct X|]. inversion H as [|? ? Hm HM]; subst. destruct m as [e|n i0 o0 r0].
  - destruct X as [X|X]; [discriminate X|]. assert (A' : Forall2 agrees (snd (plain_moments (who pr) mixed_names c M)) (results M)) by (destruct e; cbn in Hm; try contradiction; exact A). exact (IH c Bc HM A' i o r X).
  - cbn [results flat_map app plain_moments snd] in A. inversion A as [|? ? ? ? A1 A2]; subst. destruct Hm as [(-> & -> & ->)|(-> & -> & ->)].
    + change (fst (spec_step (who pr 0) (mixed_names 0) c (OGetMulti [B "a"; B "b"]))) with c in A2.
      destruct X as [X|X]; [injection X as _ _ <-; exact (multi_torn_plain pr c r0 P Bc A1)|exact (IH c Bc HM A2 i o r X)].
    + destruct X as [X|X]; [discriminate X|]. refine (IH _ _ HM A2 i o r X). right. intro k. reflexivity.
Qed.
Lemma torn_log_in : forall r M, moments_of (torn_log r) M -> Forall in_torn M.
Proof.
  intros r M Mo. apply Forall_forall. intros m Im. destruct m as [e|n i o r0].
  - assert (X : In e (torn_log r)) by (destruct Mo as (Es & _); rewrite <- Es; apply saw_in; exact Im). destruct e; try exact Logic.I. unfold torn_log in X. cbn in X. decompose [or] X; try discriminate; contradiction.
  - destruct (took_began _ _ _ _ _ _ Mo Im) as [t X]. unfold torn_log in X. cbn [In] in X. cbn [in_torn].
    destruct X as [X|[X|[X|[X|[]]]]]; try discriminate X; injection X as <- _ <- <-; [left|right]; repeat split.
Qed.
Theorem C100_getmulti_of_the_meta_and_the_binary_client_is_no_one_moment : forall pr, pr = PMeta \/ pr = PBinary ->
  exists c progs v L,
    wf PMeta c /\ (forall t, Forall (fun x => legal (who pr (fst x)) (snd x) /\ common (snd x)) (progs t)) /\ (c_cas c + zlen L + 1 < 2 ^ 63)%Z
    /\ nsteps (speaking (who pr) mixed_names) (many_started c (fun _ => reset_header) progs, []) (v, L)
    /\ ~ (exists M, moments_of L M /\ Forall2 agrees (snd (exact_moments (who pr) mixed_names c M)) (results M))
    /\ ~ (exists M, moments_of L M /\ Forall2 agrees (snd (plain_moments (who pr) mixed_names c M)) (results M)).
Proof.
  intros pr P. assert (T : exists v r, nsteps (speaking (who pr) mixed_names) (many_started both_items (fun _ => reset_header) reader_and_flusher, []) (v, torn_log r) /\ one_back r /\ r <> Err EIO).
  { destruct P as [-> | ->]; [destruct torn_meta as (v & r & S & E)|destruct torn_binary as (v & r & S & E)]; exists v, r; (split; [exact S|]); (destruct r as [x| |]; try contradiction; destruct x as [i|l| |z|w]; try contradiction; destruct l as [|a [|b l]]; try contradiction); (split; [exact Logic.I|discriminate]). }
  destruct T as (v & r & S & E & Ne). exists both_items, reader_and_flusher, v, (torn_log r). split; [|split; [|split; [reflexivity|split; [exact S|]]]].
  - unfold both_items. cbn [spec_run fst snd]. apply wf_common_spec; [apply wf_common_spec; [exact demo_meta_wf|]|]; (split; [split; [reflexivity|reflexivity]|split; [discriminate|reflexivity]]).
  - intros [|[|t]]; repeat constructor; cbn [fst snd who legal]; try discriminate; destruct P as [-> | ->]; legal_tac.
  - assert (K : forall M, moments_of (torn_log r) M -> exists i o, In (Took 0 i o r) M).
    { intros M (Es & _ & C). assert (X : In (Saw (NEnd 0 r)) M) by (apply in_saw; rewrite Es; right; right; right; left; reflexivity). apply in_split in X. destruct X as (M1 & M2 & Em).
      destruct (C _ _ _ _ Em) as [X|(i & o & X)]; [contradiction|]. exists i, o. rewrite Em. apply in_app_iff. left. exact X. }
    split; intros (M & Mo & A); destruct (K M Mo) as (i & o & X).
    + exact (torn_exact pr P M both_items (or_introl eq_refl) (torn_log_in r M Mo) A i o r X E).
    + exact (torn_plain pr P M both_items (or_introl eq_refl) (torn_log_in r M Mo) A i o r X E).
Qed.
Print Assumptions C100_getmulti_of_the_meta_and_the_binary_client_is_no_one_moment.
