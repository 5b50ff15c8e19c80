(** * The three clients together. *)
From Verif Require Import GoBytes GoNum GoIO Item ClientText ClientMeta ClientBinary Cache Daemon Spec Intent Call
  Guard PLib PScan PDaemon PCache PText PMeta PBinary.
Local Open Scope Z_scope.

Lemma spec_name : forall pr name c o, pr <> PText -> spec_step pr name c o = spec_step pr [] c o.
Proof. intros pr name c o N. destruct pr; try congruence; destruct o; reflexivity. Qed.
Lemma spec_fst_name : forall pr name c o, fst (spec_step pr name c o) = fst (spec_step pr [] c o).
Proof. intros pr name c o. destruct pr; destruct o; reflexivity. Qed.

Lemma call_ok : forall pr name c h o, wf pr c -> c_cas c + 1 < cas_bound pr -> legal pr o ->
  safe pr (rq_cas h) c o ->
  exists h' out, call (client_of pr name) (fresh_link c h) o = (fresh_link (fst (spec_step pr name c o)) h', out)
              /\ agrees (snd (spec_step pr name c o)) out
              /\ (pr = PBinary -> rq_cas h' = next_cas (rq_cas h) o).
Proof.
  intros pr name c h o W C L S. destruct pr; cbn [cas_bound] in C.
  - destruct (text_call_ok name c h o W ltac:(lia) L) as (out & E & A). exists h, out. repeat split; auto. discriminate.
  - rewrite spec_name by discriminate.
    destruct (meta_call_ok c h o W ltac:(lia) L S) as (out & E & A). exists h, out. repeat split; auto. discriminate.
  - rewrite spec_name by discriminate.
    destruct (bin_call_ok c h o W C L S) as (out & E & A). exists (snd (bin_req h o)), out. repeat split; auto.
    intros _. apply bin_req_header.
Qed.

Lemma safe_run_text : forall name evs c last, safe_run PText name last c evs.
Proof. intros name. induction evs as [|[o|d] evs IH]; intros; cbn [safe_run]; auto. split; [exact I|]. apply IH. Qed.
Lemma safe_run_last : forall pr name evs c l1 l2, pr <> PBinary -> safe_run pr name l1 c evs -> safe_run pr name l2 c evs.
Proof.
  intros pr name. induction evs as [|[o|d] evs IH]; intros c l1 l2 N H; cbn [safe_run] in *; auto.
  - destruct H as [H1 H2]. split; [destruct pr; auto; congruence|]. eapply IH; eauto.
  - eapply IH; eauto.
Qed.

Lemma run_ok : forall pr name evs c h, wf pr c -> c_cas c + zlen evs < cas_bound pr -> Forall (legal_event pr) evs ->
  safe_run pr name (rq_cas h) c evs ->
  exists h' outs, run (client_of pr name) (fresh_link c h) evs
               = (fresh_link (fst (spec_run pr name c evs)) h', outs)
               /\ Forall2 agrees (snd (spec_run pr name c evs)) outs.
Proof.
  intros pr name. induction evs as [|ev evs IH]; intros c h W C F S.
  - exists h, []. split; [reflexivity|constructor].
  - inversion F; subst. rewrite zlen_cons in C. pose proof (zlen_nonneg _ evs). destruct ev as [o|d].
    + cbn [legal_event] in H1. cbn [safe_run] in S. destruct S as [S1 S2].
      destruct (call_ok pr name c h o W ltac:(lia) H1 S1) as (h1 & out & Ec & Ac & Hh).
      pose proof (cas_spec_step pr name c o) as CS.
      assert (S3 : safe_run pr name (rq_cas h1) (fst (spec_step pr name c o)) evs).
      { destruct pr; try (eapply safe_run_last; [discriminate|eassumption]). rewrite Hh by reflexivity. exact S2. }
      destruct (IH (fst (spec_step pr name c o)) h1 (wf_spec_step _ name _ _ W H1) ltac:(lia) H2 S3) as (h' & outs & Er & Ar).
      exists h', (out :: outs). cbn [run spec_run]. rewrite Ec. cbn [fst snd]. rewrite Er. cbn [fst snd]. split; [reflexivity|].
      constructor; assumption.
    + cbn [legal_event] in H1. cbn [safe_run] in S.
      destruct (IH (tick c d) h (wf_tick _ _ _ W H1) ltac:(cbn; lia) H2 S) as (h' & outs & Er & Ar).
      exists h', outs. cbn [run spec_run]. unfold link_tick. cbn [fresh_link l_cache l_pending l_unread l_header].
      fold (fresh_link (tick c d) h). split; assumption.
Qed.

(** ** Deciding legality, for the examples. *)
Definition key_charb (pr : proto) (ch : ascii) : bool :=
  match pr with
  | PText => (33 <=? code ch) && (code ch <=? 126)
  | PMeta => (33 <=? code ch) && negb (code ch =? 127)
  | PBinary => true
  end.
Definition legal_keyb (pr : proto) (k : bytes) : bool :=
  (1 <=? zlen k) && (zlen k <=? 250) && forallb (key_charb pr) k.
Definition legal_expb (pr : proto) (e : Z) : bool :=
  match pr with
  | PBinary => (0 <=? e) && (e <? 2 ^ 32)
  | _ => (- 2 ^ 31 <=? e) && (e <? 2 ^ 31)
  end.
Definition legal_flagsb (pr : proto) (i : item) : bool :=
  match it_flags i with
  | None => true
  | Some f => Nat.eqb (length f) 4 && (match pr with PMeta => unbe f <? 2 ^ 31 | _ => true end)
  end.
Definition legal_itemb (pr : proto) (i : item) : bool :=
  legal_keyb pr (it_key i) && legal_flagsb pr i && legal_expb pr (it_exp i)
  && (0 <=? it_cas i) && (it_cas i <? 2 ^ 64) && (zlen (it_value i) <? 2 ^ 31).
Definition legal_deltab (pr : proto) (d e : Z) : bool :=
  (0 <=? d) && (d <? 2 ^ 63) && (match pr with PBinary => (0 <=? e) && (e <? 2 ^ 32 - 1) | _ => true end).
Definition legalb (pr : proto) (o : op) : bool :=
  match o with
  | OGet k | ODelete k => legal_keyb pr k
  | OGetMulti ks => negb (match ks with [] => true | _ => false end) && forallb (legal_keyb pr) ks
  | OSet i => legal_itemb pr i
  | OAdd i | OReplace i => legal_itemb pr i && (match pr with PBinary => it_cas i =? 0 | _ => true end)
  | OIncr k d e | ODecr k d e => legal_keyb pr k && legal_deltab pr d e
  | OTouch k e => legal_keyb pr k && legal_expb pr e
  | OFlush | OVersion => true
  end.
Definition legal_eventb (pr : proto) (ev : event) : bool :=
  match ev with Do o => legalb pr o | Wait d => 0 <=? d end.

Ltac b2p := repeat match goal with
  | H : _ && _ = true |- _ => apply andb_prop in H; destruct H
  | H : (_ <=? _) = true |- _ => apply Z.leb_le in H
  | H : (_ <? _) = true |- _ => apply Z.ltb_lt in H
  | H : (_ =? _) = true |- _ => apply Z.eqb_eq in H
  end.
Lemma legal_keyb_ok : forall pr k, legal_keyb pr k = true -> legal_key pr k.
Proof.
  intros pr k H. unfold legal_keyb in H. b2p. split; [lia|]. destruct pr; cbn [key_text]; [apply printable_utf8| |exact I]; apply Forall_forall; intros x J;
    rewrite forallb_forall in H0; specialize (H0 x J); simpl in H0; b2p; [lia|]. apply negb_true_iff, Z.eqb_neq in H2. lia.
Qed.
Lemma legal_expb_ok : forall pr e, legal_expb pr e = true -> legal_exp pr e.
Proof. intros pr e H. destruct pr; unfold legal_expb in H; b2p; simpl; lia. Qed.
Lemma legal_flagsb_ok : forall pr i, legal_flagsb pr i = true -> legal_flags pr i.
Proof.
  intros pr i H. unfold legal_flagsb, legal_flags in *. destruct (it_flags i); [|exact I]. b2p.
  apply Nat.eqb_eq in H. split; [exact H|]. intros ->. b2p. lia.
Qed.
Lemma legal_itemb_ok : forall pr i, legal_itemb pr i = true -> legal_item pr i.
Proof.
  intros pr i H. unfold legal_itemb in H. b2p. split; [apply legal_keyb_ok; assumption|].
  split; [apply legal_flagsb_ok; assumption|]. split; [apply legal_expb_ok; assumption|]. lia.
Qed.
Lemma legal_deltab_ok : forall pr d e, legal_deltab pr d e = true -> legal_delta pr d e.
Proof. intros pr d e H. unfold legal_deltab in H. b2p. split; [lia|]. intros ->. b2p. lia. Qed.
Lemma legalb_ok : forall pr o, legalb pr o = true -> legal pr o.
Proof.
  intros pr o H. destruct o; cbn [legalb legal] in *; b2p;
    auto using legal_keyb_ok, legal_itemb_ok, legal_expb_ok, legal_deltab_ok.
  - destruct ks; [discriminate|]. split; [discriminate|]. apply Forall_forall. intros x I.
    rewrite forallb_forall in H0. apply legal_keyb_ok. auto.
  - split; [apply legal_itemb_ok; assumption|]. intros ->. b2p. assumption.
  - split; [apply legal_itemb_ok; assumption|]. intros ->. b2p. assumption.
Qed.
Lemma legal_events_ok : forall pr evs, forallb (legal_eventb pr) evs = true -> Forall (legal_event pr) evs.
Proof.
  intros pr evs H. apply Forall_forall. intros ev I. rewrite forallb_forall in H. specialize (H ev I).
  destruct ev; cbn in *; b2p; [apply legalb_ok; assumption|lia].
Qed.
