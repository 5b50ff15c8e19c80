(** * C79: the options of a meta set request. *)
From Verif Require Import GoBytes GoNum GoIO Item ClientText ClientMeta ClientBinary Cache Spec Call Guard
  ServerTypes ServerParse ServerWrite Serve ServerSpec ServerCrash PLib PCache PText PReader PBinary PServer PServe PReply PropServer PropServerCrash.
Local Open Scope Z_scope.

(** ** Definitions of the statements *)
(** A token is its letter followed by its argument. No token has letter [c]: *)
Definition no_token (c : ascii) (ts : list bytes) : Prop := forall t, In t ts -> hd_error t <> Some c.
(** The last token with letter [c] has argument [v]. *)
Definition last_token (c : ascii) (ts : list bytes) (v : bytes) : Prop := exists a z, ts = a ++ (c :: v) :: z /\ no_token c z.
(** An option that is set by its letter. *)
Definition switched (c : ascii) (ts : list bytes) (b : bool) : Prop := b = true <-> ~ no_token c ts.
(** An option with a number: the number after the last of its letters, otherwise [d]. *)
Definition numbered (c : ascii) (parse : bytes -> option Z) (d : Z) (ts : list bytes) (n : Z) : Prop :=
  (no_token c ts -> n = d) /\ forall v, last_token c ts v -> parse v = Some n.
(** What the tokens say. [len] is the length given before them. *)
Record says (ts : list bytes) (len : Z) (o : set_opt) : Prop := {
  says_meta : s_meta o = true;
  says_cas : switched "C" ts (s_cas o);
  says_cas_value : numbered "C" (parse_uint 64) 0 ts (s_cas_value o);
  says_flags : numbered "F" (parse_int 32) 0 ts (s_flag o);
  says_invalidate : switched "I" ts (s_invalidate o);
  says_key : switched "k" ts (s_key o);
  says_opaque : numbered "O" (parse_int 64) 0 ts (s_opaque o);
  says_noreply : switched "q" ts (s_noreply o);
  says_size : numbered "S" (parse_int 32) len ts (s_size o);
  says_expiration : numbered "T" (parse_int 32) 0 ts (s_exp o)
}.

(** ** Lemmas *)
Lemma snoc_cases : forall A (a z : list A) x ts t, ts ++ [t] = a ++ x :: z -> (z = [] /\ a = ts /\ x = t) \/ exists z', z = z' ++ [t] /\ ts = a ++ x :: z'.
Proof.
  intros A a z x ts t E. destruct z as [|y z] using rev_ind; [left|right].
  - apply app_inj_tail in E. destruct E as [-> ->]. auto.
  - rewrite app_comm_cons, app_assoc in E. apply app_inj_tail in E. destruct E as [-> ->]. exists z. auto.
Qed.
Lemma no_token_snoc : forall c ts t, no_token c (ts ++ [t]) <-> no_token c ts /\ hd_error t <> Some c.
Proof.
  intros c ts t. split; [intro H; split; [intros x I; apply H; apply in_or_app; auto|apply H; apply in_or_app; right; left; reflexivity]|].
  intros [H1 H2] x I. apply in_app_or in I. destruct I as [I|[<-|[]]]; [apply H1; exact I|exact H2].
Qed.
Lemma switched_same : forall c ts t b, hd_error t <> Some c -> switched c ts b -> switched c (ts ++ [t]) b.
Proof. intros c ts t b N H. unfold switched in *. rewrite no_token_snoc. tauto. Qed.
Lemma switched_set : forall c ts v, switched c (ts ++ [c :: v]) true.
Proof. intros c ts v. unfold switched. rewrite no_token_snoc. cbn. split; [intros _ [_ H]; apply H; reflexivity|reflexivity]. Qed.
Lemma numbered_same : forall c p d ts t n, hd_error t <> Some c -> numbered c p d ts n -> numbered c p d (ts ++ [t]) n.
Proof.
  intros c p d ts t n N [H1 H2]. split; [rewrite no_token_snoc; tauto|]. intros v (a & z & E & Nz). apply snoc_cases in E.
  destruct E as [(_ & _ & E)|(z' & -> & E)]; [subst t; elim N; reflexivity|]. apply H2. exists a, z'. split; [exact E|]. apply no_token_snoc in Nz. tauto.
Qed.
Lemma numbered_set : forall c p d ts v n, p v = Some n -> numbered c p d (ts ++ [c :: v]) n.
Proof.
  intros c p d ts v n P. split; [rewrite no_token_snoc; cbn; intros [_ H]; elim H; reflexivity|]. intros v' (a & z & E & Nz). apply snoc_cases in E.
  destruct E as [(_ & _ & E)|(z' & -> & E)]; [injection E as ->; exact P|]. apply no_token_snoc in Nz. destruct Nz as [_ Nz]. elim Nz. reflexivity.
Qed.
Lemma says_nil : forall len, says [] len (mkSetOpt true false 0 0 false false 0 false len 0).
Proof.
  intro len. assert (Nn : forall c, no_token c []) by (intros c t []). assert (Sw : forall c, switched c [] false) by (intro c; split; [discriminate|intro H; elim H; apply Nn]).
  assert (Nm : forall c p d, numbered c p d [] d) by (intros c p d; split; [reflexivity|intros v (a & z & E & _); destruct a; discriminate E]).
  constructor; cbn; auto.
Qed.
Lemma says_step : forall ts len o t o', says ts len o -> ms_token o t = Ok o' -> says (ts ++ [t]) len o'.
Proof.
  intros ts len o t o' [M C CV F I K O Q Z E] T. destruct o as [me cas cv fl inv ke opq no si ex]. destruct t as [|c v]; [discriminate T|]. cbn [s_meta s_cas s_cas_value s_flag s_invalidate s_key s_opaque s_noreply s_size s_exp] in *. unfold ms_token in T.
  assert (Fin : forall o1, Ok o1 = Ok o' -> says (ts ++ [c :: v]) len o1 -> says (ts ++ [c :: v]) len o') by (intros o1 E1 S1; injection E1 as <-; exact S1).
  destruct (Ascii.eqb_spec c "C") as [->|D1].
  { destruct (parse_uint 64 v) as [n|] eqn:P; [|discriminate T]. apply (Fin _ T).
    constructor; cbn; first [assumption|apply switched_set|apply numbered_set; assumption|apply switched_same; [discriminate|assumption]|apply numbered_same; [discriminate|assumption]]. }
  destruct (Ascii.eqb_spec c "F") as [->|D2].
  { destruct (parse_int 32 v) as [n|] eqn:P; [|discriminate T]. apply (Fin _ T).
    constructor; cbn; first [assumption|apply switched_set|apply numbered_set; assumption|apply switched_same; [discriminate|assumption]|apply numbered_same; [discriminate|assumption]]. }
  destruct (Ascii.eqb_spec c "I") as [->|D3].
  { apply (Fin _ T). constructor; cbn; first [assumption|apply switched_set|apply switched_same; [discriminate|assumption]|apply numbered_same; [discriminate|assumption]]. }
  destruct (Ascii.eqb_spec c "k") as [->|D4].
  { apply (Fin _ T). constructor; cbn; first [assumption|apply switched_set|apply switched_same; [discriminate|assumption]|apply numbered_same; [discriminate|assumption]]. }
  destruct (Ascii.eqb_spec c "O") as [->|D5].
  { destruct (parse_int 64 v) as [n|] eqn:P; [|discriminate T]. apply (Fin _ T).
    constructor; cbn; first [assumption|apply switched_set|apply numbered_set; assumption|apply switched_same; [discriminate|assumption]|apply numbered_same; [discriminate|assumption]]. }
  destruct (Ascii.eqb_spec c "q") as [->|D6].
  { apply (Fin _ T). constructor; cbn; first [assumption|apply switched_set|apply switched_same; [discriminate|assumption]|apply numbered_same; [discriminate|assumption]]. }
  destruct (Ascii.eqb_spec c "S") as [->|D7].
  { destruct (parse_int 32 v) as [n|] eqn:P; [|discriminate T]. apply (Fin _ T).
    constructor; cbn; first [assumption|apply switched_set|apply numbered_set; assumption|apply switched_same; [discriminate|assumption]|apply numbered_same; [discriminate|assumption]]. }
  destruct (Ascii.eqb_spec c "T") as [->|D8].
  { destruct (parse_int 32 v) as [n|] eqn:P; [|discriminate T]. apply (Fin _ T).
    constructor; cbn; first [assumption|apply switched_set|apply numbered_set; assumption|apply switched_same; [discriminate|assumption]|apply numbered_same; [discriminate|assumption]]. }
  apply (Fin _ T). constructor; cbn; try assumption; first [apply switched_same; [cbn; congruence|assumption]|apply numbered_same; [cbn; congruence|assumption]].
Qed.
Lemma says_tokens : forall ts a len o o', says a len o -> ms_tokens o ts = Ok o' -> says (a ++ ts) len o'.
Proof.
  induction ts as [|t ts IH]; intros a len o o' H E; cbn [ms_tokens] in E; [injection E as <-; rewrite app_nil_r; exact H|].
  destruct (ms_token o t) as [o1| |] eqn:T; try discriminate E. replace (a ++ t :: ts) with ((a ++ [t]) ++ ts) by (rewrite <- app_assoc; reflexivity). eapply IH; [|exact E]. eapply says_step; eassumption.
Qed.
Lemma no_token_dec : forall c ts, no_token c ts \/ exists v, last_token c ts v.
Proof.
  intros c ts. induction ts as [|t ts IH] using rev_ind; [left; intros t []|]. destruct t as [|a v].
  - destruct IH as [IH|(v & a & z & -> & N)]; [left; apply no_token_snoc; split; [exact IH|discriminate]|right; exists v, a, (z ++ [[]])].
    split; [rewrite <- app_assoc; reflexivity|]. apply no_token_snoc. split; [exact N|discriminate].
  - destruct (ascii_dec a c) as [->|D]; [right; exists v, ts, []; split; [reflexivity|intros t []]|].
    destruct IH as [IH|(v' & b & z & -> & N)]; [left; apply no_token_snoc; split; [exact IH|cbn; congruence]|right; exists v', b, (z ++ [a :: v])].
    split; [rewrite <- app_assoc; reflexivity|]. apply no_token_snoc. split; [exact N|cbn; congruence].
Qed.
Lemma last_token_some : forall c ts v, last_token c ts v -> ~ no_token c ts.
Proof. intros c ts v (a & z & -> & _) H. apply (H (c :: v)); [apply in_or_app; right; left; reflexivity|reflexivity]. Qed.

(** ** C79 *)
(** "ms <key> <length> <tokens>" with readable tokens and a body of the length they announce is given to the handler as
    a set of that key with that body, and every option is what its own tokens say - the last of them, wherever it
    stands among the others. *)
Theorem C79_meta_set_options : forall k ln len ts body eol rest o,
  word k -> word ln -> Forall word ts -> Forall token_ok ts -> parse_uint 32 ln = Some len ->
  says ts len o -> zlen body = s_size o -> zlen eol = 2 -> s_size o < 2 ^ 33 ->
  exists q o', read_request (Some ProtoAscii) (join_sp (B "ms" :: k :: ln :: ts) ++ crlf ++ body ++ eol ++ rest) = ((Ok q, rest), Some ProtoAscii)
    /\ q_opcode q = OpcSet /\ q_key q = k /\ q_value q = body /\ q_set q = Some o' /\ says ts len o'.
Proof.
  intros k ln len ts body eol rest o K Ln W Tk P Sy Bl El Bo.
  pose proof (ms_tokens_cases ts (mkSetOpt true false 0 0 false false 0 false len 0)) as Cs.
  destruct (ms_tokens (mkSetOpt true false 0 0 false false 0 false len 0) ts) as [o'|e|] eqn:E.
  - pose proof (says_tokens ts [] len _ o' (says_nil len) E) as Sy'. cbn [app] in Sy'.
    assert (Z : s_size o' = s_size o).
    { destruct (says_size _ _ _ Sy) as [A1 A2], (says_size _ _ _ Sy') as [B1 B2]. destruct (no_token_dec "S" ts) as [N|(v & L)]; [rewrite A1, B1 by exact N; reflexivity|]. specialize (A2 v L). specialize (B2 v L). congruence. }
    exists (mkReq OpcSet k [] None body 0 None (Some o') None), o'. cbn [read_request].
    rewrite ascii_words; [|discriminate|repeat first [apply Forall_cons; [first [assumption|apply wordb_word; reflexivity]|]|assumption]].
    split; [|repeat split; first [reflexivity|assumption|apply Sy']].
    unfold ascii_command. cbn [beq B list_ascii_of_string]. cbn [Ascii.eqb Bool.eqb andb orb]. rewrite P. unfold lift_opt, bind at 1, ret at 1. rewrite E. unfold lift, bind at 1.
    rewrite Z, <- Bl.
    assert (X : make_read_full (zlen body + 2) (body ++ eol ++ rest) = (Ok (body ++ eol), rest)) by (rewrite app_assoc; apply make_read_full_app; [rewrite zlen_app; lia|unfold max_alloc; lia]).
    rewrite (bind_ok _ _ _ _ _ _ _ X). rewrite (bind_ok _ _ _ _ _ _ _ (go_sub_prefix (zlen body) body eol rest eq_refl)). reflexivity.
  - destruct Cs as (a & t & z & -> & _ & _ & Bad). elim Bad. rewrite Forall_forall in Tk. apply Tk. apply in_or_app. right. left. reflexivity.
  - destruct Cs as (a & z & -> & _). exfalso. rewrite Forall_forall in Tk. apply (Tk []). apply in_or_app. right. left. reflexivity.
Qed.
Print Assumptions C79_meta_set_options.

(** [says] leaves no room: the options are determined, and only by the last token of each letter. *)
Theorem C79_only_the_last_of_each_letter_matters : forall ts ts' len o o',
  (forall c v, In c ["C"; "F"; "I"; "k"; "O"; "q"; "S"; "T"]%char -> (last_token c ts v <-> last_token c ts' v)) ->
  says ts len o -> says ts' len o' -> o = o'.
Proof.
  intros ts ts' len o o' L0 S1 S2.
  assert (H : forall c, In c ["C"; "F"; "I"; "k"; "O"; "q"; "S"; "T"]%char -> (no_token c ts <-> no_token c ts') /\ forall v, last_token c ts v <-> last_token c ts' v).
  { intros c I. split; [|intro v; apply L0; exact I]. split; intro N.
    - destruct (no_token_dec c ts') as [Y|(v & Y)]; [exact Y|]. apply (L0 c v I) in Y. elim (last_token_some _ _ _ Y N).
    - destruct (no_token_dec c ts) as [Y|(v & Y)]; [exact Y|]. apply (L0 c v I) in Y. elim (last_token_some _ _ _ Y N). }
  assert (Sw : forall c b b', In c ["C"; "F"; "I"; "k"; "O"; "q"; "S"; "T"]%char -> switched c ts b -> switched c ts' b' -> b = b').
  { intros c b b' I A B'. destruct (H c I) as [N _]. unfold switched in *. rewrite N in A. destruct b, b'; try reflexivity; [symmetry; apply B'; apply A; reflexivity|apply A; apply B'; reflexivity]. }
  assert (Nm : forall c p d n n', In c ["C"; "F"; "I"; "k"; "O"; "q"; "S"; "T"]%char -> numbered c p d ts n -> numbered c p d ts' n' -> n = n').
  { intros c p d n n' I [A1 A2] [B1 B2]. destruct (H c I) as [N L]. destruct (no_token_dec c ts) as [Y|(v & Y)]; [rewrite (A1 Y), (B1 (proj1 N Y)); reflexivity|].
    pose proof (A2 v Y) as X1. pose proof (B2 v (proj1 (L v) Y)) as X2. congruence. }
  destruct S1 as [M C CV F I K O Q Z E], S2 as [M' C' CV' F' I' K' O' Q' Z' E'].
  destruct o as [me cas cv fl inv ke opq no si ex], o' as [me' cas' cv' fl' inv' ke' opq' no' si' ex']. cbn [s_meta s_cas s_cas_value s_flag s_invalidate s_key s_opaque s_noreply s_size s_exp] in *.
  f_equal; first [congruence|eapply Sw; [|eassumption|eassumption]; cbn; tauto|eapply Nm; [|eassumption|eassumption]; cbn; tauto].
Qed.
Print Assumptions C79_only_the_last_of_each_letter_matters.

(** And a token that is not readable refuses the request (an empty one ends the process, C68). *)
Theorem C79_unreadable_options_are_refused : forall k ln len ts rest,
  word k -> word ln -> Forall word ts -> parse_uint 32 ln = Some len -> ~ In [] ts -> ~ Forall token_ok ts ->
  exists e s', read_request (Some ProtoAscii) (join_sp (B "ms" :: k :: ln :: ts) ++ crlf ++ rest) = ((Err e, s'), Some ProtoAscii).
Proof.
  intros k ln len ts rest K Ln W P Ne Bad.
  pose proof (ms_tokens_cases ts (mkSetOpt true false 0 0 false false 0 false len 0)) as Cs. cbn [read_request].
  rewrite ascii_words; [|discriminate|repeat first [apply Forall_cons; [first [assumption|apply wordb_word; reflexivity]|]|assumption]].
  unfold ascii_command. cbn [beq B list_ascii_of_string]. cbn [Ascii.eqb Bool.eqb andb orb]. rewrite P. unfold lift_opt, bind at 1, ret at 1.
  destruct (ms_tokens (mkSetOpt true false 0 0 false false 0 false len 0) ts) as [o'|e|] eqn:E.
  - elim Bad. apply Cs.
  - unfold lift, bind. eexists _, _. reflexivity.
  - destruct Cs as (a & z & -> & _). exfalso. apply Ne. apply in_or_app. right. left. reflexivity.
Qed.
Print Assumptions C79_unreadable_options_are_refused.

Definition ms_example : list bytes := [B "F7"; B "S2"; B "T60"; B "I"; B "F9"; B "x"].
Example C79_met : exists o, says ms_example 5 o /\ Forall word ms_example /\ Forall token_ok ms_example /\ s_size o = 2 /\ s_flag o = 9 /\ s_exp o = 60 /\ s_invalidate o = true /\ s_cas o = false
  /\ ~ token_ok (B "C1x").
Proof.
  destruct (ms_tokens (mkSetOpt true false 0 0 false false 0 false 5 0) ms_example) as [o| |] eqn:E; [|vm_compute in E; discriminate E|vm_compute in E; discriminate E].
  exists o. split; [apply (says_tokens ms_example [] 5 _ o (says_nil 5) E)|].
  pose proof (ms_tokens_cases ms_example (mkSetOpt true false 0 0 false false 0 false 5 0)) as Cs. rewrite E in Cs. vm_compute in E. injection E as <-.
  split; [repeat (apply Forall_cons; [apply wordb_word; reflexivity|]); constructor|]. split; [apply Cs|]. do 5 (split; [reflexivity|]).
  intros [X _]. destruct (X eq_refl) as [n Y]. vm_compute in Y. discriminate Y.
Qed.
