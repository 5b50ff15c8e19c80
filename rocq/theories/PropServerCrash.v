(** * C68: exactly the requests that crash the server. *)
From Verif Require Import GoBytes GoNum GoIO Item ClientText ClientMeta ClientBinary Cache Spec Call Guard
  ServerTypes ServerParse ServerWrite Serve ServerSpec ServerCrash PLib PCache PText PReader PBinary PServer PServe PReply PropServer.
Local Open Scope Z_scope.

Lemma make_cases : forall n s, n <= max_alloc -> make_read_full n s = if n <? 0 then (Panic, s) else if n <=? zlen s then (Ok (firstn (Z.to_nat n) s), skipn (Z.to_nat n) s) else (Err EIO, []).
Proof.
  intros n s M. unfold make_read_full, bind, go_make. destruct (n <? 0) eqn:E; [reflexivity|]. replace (max_alloc <? n) with false by (symmetry; apply Z.ltb_ge; exact M). reflexivity.
Qed.
Lemma value_panic : forall n (f : bytes -> srequest) s, n < 2 ^ 33 ->
  (fst (bind (make_read_full (n + 2)) (fun buf => bind (go_sub buf 0 n) (fun v => ret (f v))) s) = Panic <-> fatal_length n s).
Proof.
  intros n f s N. unfold fatal_length. unfold bind at 1. rewrite make_cases by (unfold max_alloc; lia).
  destruct (Z.ltb_spec (n + 2) 0) as [E|E]; [cbn [fst]; split; [left; lia|reflexivity]|].
  destruct (Z.leb_spec (n + 2) (zlen s)) as [L|L].
  - unfold bind, go_sub, go_slice. assert (Zb : zlen (firstn (Z.to_nat (n + 2)) s) = n + 2) by (unfold zlen in *; rewrite firstn_length; lia). rewrite Zb.
    destruct (Z.leb_spec 0 n) as [P|P]; cbn [Z.leb Z.compare andb].
    + replace (n <=? n + 2) with true by (symmetry; apply Z.leb_le; lia). cbn [ret fst]. split; [discriminate|intros [X|[X _]]; lia].
    + cbn [fst]. split; [|reflexivity]. intros _. destruct (Z.eq_dec n (-1)) as [->|D]; [right; split; [reflexivity|]; intros ->; cbn in L; lia|left; lia].
  - cbn [fst]. split; [discriminate|]. intros [X|[-> X]]; pose proof (zlen_nonneg _ s); [lia|]. destruct s; [elim X; reflexivity|]. rewrite zlen_cons in L. pose proof (zlen_nonneg _ s). lia.
Qed.
Lemma ms_token_cases : forall o t, match ms_token o t with
  | Panic => t = []
  | Ok o' => token_ok t /\ s_size o' = ms_length (s_size o) [t]
  | Err _ => t <> [] /\ ~ token_ok t
  end.
Proof.
  intros [me cas cv fl inv ke opq no si ex] [|c v]; [reflexivity|]. cbn [ms_token ms_length s_size]. unfold token_ok, number, unsigned_number.
  destruct (Ascii.eqb_spec c "C") as [->|D1].
  { cbn. destruct (parse_uint 64 v) as [n|]; [split; [|reflexivity]; repeat split; intros; [eexists; reflexivity|discriminate|destruct H as [H|[H|H]]; discriminate]|]. split; [discriminate|]. intros [X _]. destruct (X eq_refl) as [n Y]. discriminate Y. }
  destruct (Ascii.eqb_spec c "F") as [->|D2].
  { cbn. destruct (parse_int 32 v) as [n|]; [split; [|reflexivity]; repeat split; intros; try discriminate; eexists; reflexivity|]. split; [discriminate|]. intros (_ & _ & X). destruct (X (or_introl eq_refl)) as [n Y]. discriminate Y. }
  destruct (Ascii.eqb_spec c "I") as [->|D3]; [cbn; split; [|reflexivity]; repeat split; intros; try discriminate; destruct H as [H|[H|H]]; discriminate|].
  destruct (Ascii.eqb_spec c "k") as [->|D4]; [cbn; split; [|reflexivity]; repeat split; intros; try discriminate; destruct H as [H|[H|H]]; discriminate|].
  destruct (Ascii.eqb_spec c "O") as [->|D5].
  { cbn. destruct (parse_int 64 v) as [n|]; [split; [|reflexivity]; repeat split; intros; [discriminate|eexists; reflexivity|destruct H as [H|[H|H]]; discriminate]|]. split; [discriminate|]. intros (_ & X & _). destruct (X eq_refl) as [n Y]. discriminate Y. }
  destruct (Ascii.eqb_spec c "q") as [->|D6]; [cbn; split; [|reflexivity]; repeat split; intros; try discriminate; destruct H as [H|[H|H]]; discriminate|].
  destruct (Ascii.eqb_spec c "S") as [->|D7].
  { cbn. destruct (parse_int 32 v) as [n|]; [split; [|reflexivity]; repeat split; intros; try discriminate; eexists; reflexivity|]. split; [discriminate|]. intros (_ & _ & X). destruct (X (or_intror (or_introl eq_refl))) as [n Y]. discriminate Y. }
  destruct (Ascii.eqb_spec c "T") as [->|D8].
  { destruct (parse_int 32 v) as [n|]; [split; [|reflexivity]; repeat split; intros; try discriminate; eexists; reflexivity|]. split; [discriminate|]. intros (_ & _ & X). destruct (X (or_intror (or_intror eq_refl))) as [n Y]. discriminate Y. }
  split; [|reflexivity]. repeat split; intros; try contradiction. destruct H as [H|[H|H]]; contradiction.
Qed.
Lemma ms_tokens_cases : forall ts o, match ms_tokens o ts with
  | Panic => exists a z, ts = a ++ [] :: z /\ Forall token_ok a
  | Ok o' => Forall token_ok ts /\ s_size o' = ms_length (s_size o) ts
  | Err _ => exists a t z, ts = a ++ t :: z /\ Forall token_ok a /\ t <> [] /\ ~ token_ok t
  end.
Proof.
  induction ts as [|t ts IH]; intro o; cbn [ms_tokens]; [split; [constructor|reflexivity]|]. pose proof (ms_token_cases o t) as T.
  destruct (ms_token o t) as [o'|e|].
  - destruct T as [T1 T2]. specialize (IH o'). destruct (ms_tokens o' ts) as [o2|e|].
    + destruct IH as [I1 I2]. split; [constructor; assumption|]. rewrite I2, T2. destruct t; reflexivity.
    + destruct IH as (a & t2 & z & -> & Fa & N1 & N2). exists (t :: a), t2, z. split; [reflexivity|]. split; [constructor; assumption|]. split; assumption.
    + destruct IH as (a & z & -> & Fa). exists (t :: a), z. split; [reflexivity|constructor; assumption].
  - exists [], t, ts. split; [reflexivity|]. split; [constructor|exact T].
  - subst t. exists [], ts. split; [reflexivity|constructor].
Qed.
Lemma first_bad : forall a t z a' z', a ++ t :: z = a' ++ [] :: z' -> Forall token_ok a -> t <> [] -> ~ token_ok t -> Forall token_ok a' -> False.
Proof.
  induction a as [|x a IH]; intros t z [|x' a'] z' E Fa Nt Bt Fa'; cbn in E; injection E as E1 E2.
  - contradiction.
  - subst x'. inversion Fa'; subst. contradiction.
  - subst x. inversion Fa; subst. contradiction.
  - subst x'. inversion Fa; subst. inversion Fa'; subst. eapply IH; eauto.
Qed.
Lemma ok_no_empty : forall a z, Forall token_ok (a ++ [] :: z) -> False.
Proof. intros a z F. apply Forall_app in F. destruct F as [_ F]. inversion F; subst. contradiction. Qed.
Lemma ms_length_bound : forall ts n, n < 2 ^ 33 -> ms_length n ts < 2 ^ 33.
Proof.
  induction ts as [|[|c v] ts IH]; intros n N; cbn [ms_length]; [exact N|apply IH; exact N|]. apply IH. destruct (Ascii.eqb c "S"); [|exact N].
  destruct (parse_int 32 v) as [m|] eqn:P; [|exact N]. apply parse_int_range in P. lia.
Qed.
Lemma store_not_ms : forall cmd, is_store cmd = true -> cmd <> B "ms".
Proof. intros cmd H ->. discriminate H. Qed.

Lemma command_panic : forall fs s, fst (ascii_command fs s) = Panic <-> fatal_line fs s.
Proof.
  intros fs s. unfold fatal_line. destruct fs as [|cmd args]; [split; [discriminate|intros [(c & k & f & e & b & n & X & _)|(k & b & n & ts & X & _)]; discriminate X]|].
  assert (Ne : is_store cmd = false -> cmd <> B "ms" -> ~ ((exists c k f e b n, cmd :: args = [c; k; f; e; b] /\ is_store c = true /\ number 32 f /\ number 32 e /\ parse_int 32 b = Some n /\ fatal_length n s)
    \/ (exists k b n ts, cmd :: args = B "ms" :: k :: b :: ts /\ parse_uint 32 b = Some n
      /\ ((exists a z, ts = a ++ [] :: z /\ Forall token_ok a) \/ (Forall token_ok ts /\ fatal_length (ms_length n ts) s))))).
  { intros S M [(c & k & f & e & b & n & X & Y & _)|(k & b & n & ts & X & _)]; injection X as -> _; [rewrite S in Y; discriminate Y|apply M; reflexivity]. }
  unfold ascii_command.
  assert (Not : forall r : outcome srequest * bytes, fst r <> Panic -> is_store cmd = false -> cmd <> B "ms" -> (fst r = Panic <-> _)) by (intros r Hr S M; split; [intro X; contradiction|intro X; elim (Ne S M X)]).
  destruct (beq cmd (B "get")) eqn:Eget; [apply beq_eq in Eget; subst cmd; apply Not; [destruct args as [|? [|? ?]]; discriminate|reflexivity|discriminate]|].
  destruct (beq cmd (B "gets")) eqn:Egets; [apply beq_eq in Egets; subst cmd; apply Not; [discriminate|reflexivity|discriminate]|].
  fold (is_store cmd). destruct (is_store cmd) eqn:Est.
  { pose proof (store_not_ms _ Est) as Nm. destruct args as [|k [|f [|e [|b [|? ?]]]]];
      try (split; [discriminate|]; intros [(c & k' & f' & e' & b' & n & X & _)|(k' & b' & n & ts & X & _)]; [discriminate X|injection X; intros; subst; contradiction]).
    unfold lift_opt, bind at 1. destruct (parse_int 32 f) as [nf|] eqn:Pf; [unfold ret at 1|].
    2:{ split; [discriminate|]. intros [(c & k' & f' & e' & b' & n & X & _ & [m Y] & _)|(k' & b' & n & ts & X & _)]; injection X; intros; subst; [rewrite Pf in Y; discriminate Y|contradiction]. }
    unfold bind at 1. destruct (parse_int 32 e) as [ne|] eqn:Pe; [unfold ret at 1|].
    2:{ split; [discriminate|]. intros [(c & k' & f' & e' & b' & n & X & _ & _ & [m Y] & _)|(k' & b' & n & ts & X & _)]; injection X; intros; subst; [rewrite Pe in Y; discriminate Y|contradiction]. }
    unfold bind at 1. destruct (parse_int 32 b) as [n|] eqn:Pb; [unfold ret at 1|].
    2:{ split; [discriminate|]. intros [(c & k' & f' & e' & b' & n & X & _ & _ & _ & Y & _)|(k' & b' & n & ts & X & _)]; injection X; intros; subst; [rewrite Pb in Y; discriminate Y|contradiction]. }
    rewrite value_panic by (apply parse_int_range in Pb; lia). split.
    - intro F. left. exists cmd, k, f, e, b, n. repeat split; auto; eexists; eassumption.
    - intros [(c & k' & f' & e' & b' & n' & X & _ & _ & _ & Y & Z)|(k' & b' & n' & ts & X & _)]; injection X; intros; subst; [rewrite Pb in Y; injection Y as ->; exact Z|contradiction]. }
  destruct (beq cmd (B "delete") || beq cmd (B "md")) eqn:Ed; [apply Not; [destruct args as [|? [|? ?]]; discriminate|reflexivity|intros ->; discriminate Ed]|].
  destruct (beq cmd (B "incr") || beq cmd (B "decr") || beq cmd (B "touch")) eqn:Ei.
  { apply Not; [|reflexivity|intros ->; discriminate Ei]. destruct args as [|k [|n [|? ?]]]; try discriminate. unfold lift_opt, bind. destruct (parse_int 32 n); discriminate. }
  destruct (beq cmd (B "mg")) eqn:Eg; [apply Not; [destruct args as [|? [|? ?]]; discriminate|reflexivity|intros ->; discriminate Eg]|].
  destruct (beq cmd (B "ms")) eqn:Ems.
  { apply beq_eq in Ems. subst cmd. clear Ne Not. destruct args as [|k [|b ts]];
      try (split; [discriminate|]; intros [(c & k' & f' & e' & b' & n & X & Y & _)|(k' & b' & n & ts & X & _)]; [injection X; intros; subst; discriminate Y|discriminate X]).
    assert (St : ~ exists c k' f e b' n, B "ms" :: k :: b :: ts = [c; k'; f; e; b'] /\ is_store c = true /\ number 32 f /\ number 32 e /\ parse_int 32 b' = Some n /\ fatal_length n s).
    { intros (c & k' & f' & e' & b' & n & X & Y & _). injection X as <- _ _ _. discriminate Y. }
    unfold lift_opt, bind at 1. destruct (parse_uint 32 b) as [n|] eqn:Pb; [unfold ret at 1|].
    2:{ split; [discriminate|]. intros [X|(k' & b' & n & ts' & X & Y & _)]; [contradiction|]. injection X; intros; subst. rewrite Pb in Y. discriminate Y. }
    pose proof (ms_tokens_cases ts (mkSetOpt true false 0 0 false false 0 false n 0)) as Tk. cbn [s_size] in Tk. unfold lift, bind at 1.
    destruct (ms_tokens _ ts) as [o|e|].
    - destruct Tk as [T1 T2]. rewrite value_panic by (rewrite T2; apply ms_length_bound; apply parse_uint_range in Pb; lia). rewrite T2. split.
      + intro F. right. exists k, b, n, ts. split; [reflexivity|]. split; [exact Pb|]. right. split; assumption.
      + intros [X|(k' & b' & n' & ts' & X & Y & Z)]; [contradiction|]. injection X; intros; subst. rewrite Pb in Y. injection Y as ->. destruct Z as [(a & z & -> & _)|[_ Z]]; [elim (ok_no_empty _ _ T1)|exact Z].
    - cbn [fst]. split; [discriminate|]. destruct Tk as (a & t & z & -> & Fa & Nt & Bt). intros [X|(k' & b' & n' & ts' & X & Y & Z)]; [contradiction|]. injection X; intros; subst. exfalso.
      destruct Z as [(a' & z' & E & Fa')|[Fz _]]; [eapply first_bad; eauto|]. apply Forall_app in Fz. destruct Fz as [_ Fz]. inversion Fz; subst. contradiction.
    - cbn [fst]. split; [|reflexivity]. intros _. right. exists k, b, n, ts. split; [reflexivity|]. split; [exact Pb|]. left. exact Tk. }
  assert (Nm : cmd <> B "ms") by (intros ->; discriminate Ems).
  destruct (beq cmd (B "flush_all")); [apply Not; [discriminate|reflexivity|exact Nm]|]. destruct (beq cmd (B "version")); (apply Not; [discriminate|reflexivity|exact Nm]).
Qed.

(** Reading [n] announced bytes and going on. *)
Lemma bind_make : forall A n (k : bytes -> reader A) s, 0 <= n <= max_alloc ->
  (fst (bind (make_read_full n) k s) = Panic <-> n <= zlen s /\ fst (k (firstn (Z.to_nat n) s) (skipn (Z.to_nat n) s)) = Panic).
Proof.
  intros A n k s N. unfold bind. rewrite make_cases by lia. replace (n <? 0) with false by (symmetry; apply Z.ltb_ge; lia).
  destruct (Z.leb_spec n (zlen s)) as [L|L]; [split; [intro X; split; [exact L|exact X]|intros [_ X]; exact X]|]. cbn [fst]. split; [discriminate|intros [X _]; lia].
Qed.
Lemma be_at_bind : forall A b lo hi (k : Z -> reader A) s, 0 <= lo <= hi ->
  (fst (bind (be_at b lo hi) k s) = Panic <-> zlen b < hi \/ (hi <= zlen b /\ fst (k (unbe (firstn (Z.to_nat (hi - lo)) (skipn (Z.to_nat lo) b))) s) = Panic)).
Proof.
  intros A b lo hi k s H. unfold be_at, bind, go_sub, go_slice. replace (0 <=? lo) with true by (symmetry; apply Z.leb_le; lia). replace (lo <=? hi) with true by (symmetry; apply Z.leb_le; lia). cbn [andb].
  destruct (Z.leb_spec hi (zlen b)) as [L|L]; cbn [ret].
  - split; [intro X; right; split; [exact L|exact X]|intros [X|[_ X]]; [lia|exact X]].
  - cbn [fst]. split; [intros _; left; exact L|reflexivity].
Qed.
Lemma zlen_firstn : forall (n : Z) (s : bytes), 0 <= n <= zlen s -> zlen (firstn (Z.to_nat n) s) = n.
Proof. intros n s H. unfold zlen in *. rewrite firstn_length. lia. Qed.
Lemma zlen_skipn : forall (n : Z) (s : bytes), 0 <= n <= zlen s -> zlen (skipn (Z.to_nat n) s) = zlen s - n.
Proof. intros n s H. unfold zlen in *. rewrite skipn_length. lia. Qed.
Lemma ret_no_panic : forall A (a : A) s, fst (ret a s) = Panic <-> False.
Proof. intros. split; [discriminate|contradiction]. Qed.

Lemma binary_panic : forall s, fst (read_binary_request s) = Panic <-> fatal_header s.
Proof.
  intro s. unfold read_binary_request, fatal_header. cbv zeta. unfold bind at 1. unfold read_full at 1. destruct (Z.leb_spec 24 (zlen s)) as [L|L]; [|cbn [fst]; split; [discriminate|intros [X _]; lia]].
  assert (Hd : exists b0 b1 b2 b3 b4 b5 b6 b7 b8 b9 b10 b11 t, s = b0 :: b1 :: b2 :: b3 :: b4 :: b5 :: b6 :: b7 :: b8 :: b9 :: b10 :: b11 :: t /\ (12 <= length t)%nat).
  { unfold zlen in L. do 12 (destruct s as [|? s]; [cbn in L; lia|]). repeat eexists. cbn in L. lia. }
  destruct Hd as (b0 & b1 & b2 & b3 & b4 & b5 & b6 & b7 & b8 & b9 & b10 & b11 & t & Es & Lt).
  assert (Zr : zlen (skipn (Z.to_nat 24) s) = zlen s - 24) by (apply zlen_skipn; lia).
  remember (skipn (Z.to_nat 24) s) as r eqn:Er. clear Er.
  remember (zlen s) as zs eqn:Ezs. rewrite Es. clear Es s Ezs.
  change (Z.to_nat 24) with 24%nat. cbn [firstn nth]. unfold field16, byte_at, sub. cbn [nth skipn firstn]. rewrite unbe2, unbe4.
  pose proof (code_range b1) as R1. pose proof (code_range b2) as R2. pose proof (code_range b3) as R3. pose proof (code_range b4) as R4.
  pose proof (code_range b8) as R8. pose proof (code_range b9) as R9. pose proof (code_range b10) as R10. pose proof (code_range b11) as R11.
  remember (code b2 * 256 + code b3) as kl eqn:Ekl. remember ((code b8 * 256 + code b9) * 65536 + (code b10 * 256 + code b11)) as tot eqn:Etot.
  assert (Kl : 0 <= kl < 65536) by lia. assert (Tt : 0 <= tot < 2 ^ 32) by lia. clear Ekl Etot. change magic_request with 128.
  destruct (Z.eqb_spec (code b0) 128) as [M|M]; cbn [negb]; [|split; [discriminate|intros (_ & X & _); contradiction]].
  remember (code b1) as o eqn:Eo. remember (code b4) as ex eqn:Eex. clear Eo Eex.
  assert (Ma : 2 ^ 33 <= max_alloc) by (unfold max_alloc; lia).
  assert (Fine : forall n (f : bytes -> srequest), 0 <= n <= 2 ^ 33 -> (fst (bind (make_read_full n) (fun k => ret (f k)) r) = Panic <-> False)).
  { intros n f Hn. rewrite bind_make by lia. rewrite ret_no_panic. tauto. }
  assert (Out : ~ (1 <= o <= 3) -> ~ (5 <= o <= 6) -> o <> 28 -> ~ (24 <= zs /\ code b0 = 128 /\ ex <= zs - 24 /\ ((1 <= o <= 3 /\ (ex < 8 \/ tot < ex + kl /\ ex + kl <= zs - 24)) \/ 5 <= o <= 6 /\ ex < 20 \/ o = 28 /\ ex < 4))) by lia.
  destruct (Z.eqb_spec o 0) as [E0|E0]; [rewrite Fine by lia; split; [contradiction|apply Out; lia]|].
  destruct (Z.eqb_spec o 13) as [E13|E13]; [rewrite Fine by lia; split; [contradiction|apply Out; lia]|].
  destruct ((o =? 1) || (o =? 2) || (o =? 3)) eqn:E1.
  { assert (O : 1 <= o <= 3) by (apply orb_true_iff in E1; destruct E1 as [E1|E1]; [apply orb_true_iff in E1; destruct E1 as [E1|E1]|]; apply Z.eqb_eq in E1; lia).
    rewrite bind_make by lia. destruct (Z_le_dec ex (zlen r)) as [Lx|Lx]; [|split; [intros [X _]; lia|lia]].
    assert (Zx : zlen (firstn (Z.to_nat ex) r) = ex) by (apply zlen_firstn; lia). assert (Zy : zlen (skipn (Z.to_nat ex) r) = zlen r - ex) by (apply zlen_skipn; lia).
    remember (skipn (Z.to_nat ex) r) as r1 eqn:Er1. clear Er1. remember (firstn (Z.to_nat ex) r) as x eqn:Exx. clear Exx.
    rewrite be_at_bind by lia. rewrite bind_make by lia.
    destruct (Z_lt_dec ex 8) as [L8|L8]; [split; [intros _; lia|intros _; split; [exact Lx|left; lia]]|].
    destruct (Z_le_dec kl (zlen r1)) as [Lk|Lk]; [|split; [intros [_ [X|[_ [X _]]]]; lia|lia]].
    remember (skipn (Z.to_nat kl) r1) as r2 eqn:Er2.
    assert (V : fst (bind (make_read_full (tot - ex - kl)) (fun v => bind (go_sub x 0 4) (fun fl => ret (mkReq (if o =? 1 then OpcSet else if o =? 2 then OpcAdd else OpcReplace) (firstn (Z.to_nat kl) r1) [] (Some fl) v 0 None (Some (exp_opt (unbe (firstn (Z.to_nat (8 - 4)) (skipn (Z.to_nat 4) x))))) None))) r2) = Panic <-> tot < ex + kl).
    { unfold bind at 1. rewrite make_cases by lia. destruct (Z.ltb_spec (tot - ex - kl) 0) as [Lv|Lv]; [cbn [fst]; split; [lia|reflexivity]|].
      split; [|lia]. intro X. exfalso. destruct (tot - ex - kl <=? zlen r2); [|discriminate X]. unfold bind, go_sub, go_slice in X. replace (4 <=? zlen x) with true in X by (symmetry; apply Z.leb_le; lia). discriminate X. }
    rewrite V. lia. }
  destruct (Z.eqb_spec o 4) as [E4|E4]; [rewrite Fine by lia; split; [contradiction|apply Out; lia]|].
  assert (N1 : ~ (1 <= o <= 3)) by (apply orb_false_iff in E1; destruct E1 as [E1 E3]; apply orb_false_iff in E1; destruct E1 as [E1 E2]; apply Z.eqb_neq in E1, E2, E3; lia).
  destruct ((o =? 5) || (o =? 6)) eqn:E5.
  { assert (O : 5 <= o <= 6) by (apply orb_true_iff in E5; destruct E5 as [E5|E5]; apply Z.eqb_eq in E5; lia).
    rewrite bind_make by lia. destruct (Z_le_dec ex (zlen r)) as [Lx|Lx]; [|split; [intros [X _]; lia|lia]].
    assert (Zx : zlen (firstn (Z.to_nat ex) r) = ex) by (apply zlen_firstn; lia).
    rewrite !be_at_bind by lia. rewrite bind_make by lia. rewrite ret_no_panic, Zx. lia. }
  assert (N5 : ~ (5 <= o <= 6)) by (apply orb_false_iff in E5; destruct E5 as [E5 E6]; apply Z.eqb_neq in E5, E6; lia).
  destruct (Z.eqb_spec o 28) as [E28|E28].
  { rewrite bind_make by lia. destruct (Z_le_dec ex (zlen r)) as [Lx|Lx]; [|split; [intros [X _]; lia|lia]].
    assert (Zx : zlen (firstn (Z.to_nat ex) r) = ex) by (apply zlen_firstn; lia).
    rewrite be_at_bind by lia. rewrite bind_make by lia. rewrite ret_no_panic, Zx. lia. }
  specialize (Out N1 N5 E28).
  destruct (o =? 10); [split; [discriminate|contradiction]|]. destruct (o =? 11); [split; [discriminate|contradiction]|]. destruct (o =? 8); (split; [discriminate|contradiction]).
Qed.
Lemma parser_fatal : forall p s, fst (parser p s) = Panic <-> fatal p s.
Proof.
  intros [|] s; cbn [parser fatal]; [|apply binary_panic]. unfold read_ascii_request, bind, read_bytes. destruct (find_line s) as [[l r]|] eqn:E.
  - rewrite command_panic. split; [intro F; exists l, r; split; [reflexivity|exact F]|intros (l' & r' & X & F); injection X as -> ->; exact F].
  - cbn [fst]. split; [discriminate|intros (l & r & X & _); discriminate X].
Qed.

(** ** C68 *)
(** One request: the parser panics exactly on the requests that are [fatal]. *)
Theorem C68_fatal_requests_exactly : forall p s, (exists s', parser p s = (Panic, s')) <-> fatal p s.
Proof.
  intros p s. rewrite <- parser_fatal. split; [intros [s' ->]; reflexivity|]. destruct (parser p s) as [r s']. cbn [fst]. intros ->. exists s'. reflexivity.
Qed.
Print Assumptions C68_fatal_requests_exactly.

(** One connection, with a handler that does its part: the process ends exactly when the stream consists
    of complete requests, all of which are answered, followed by a fatal one. *)
Theorem C68_process_ends_exactly : forall H (h : handler H) st c s, polite h ->
  ((exists st' l, serve_conn h st (c :: s) = (st', l, Crashed)) <->
   exists msgs tail st' l, c :: s = flat_map fst msgs ++ tail /\ Forall (fun m => exactly (announced c) (fst m) (snd m)) msgs
     /\ serve_list h (announced c) st (map snd msgs) = (st', l, None) /\ fatal (announced c) tail).
Proof.
  intros H h st c s Po. rewrite serve_conn_as. unfold serve_rest. generalize (announced c) as p. intro p. remember (c :: s) as s0 eqn:E0. clear c s E0. revert st s0.
  assert (G : forall f st s, (length s < f)%nat -> ((exists st' l, serve_as p h f st s = (st', l, Crashed)) <->
    exists msgs tail st' l, s = flat_map fst msgs ++ tail /\ Forall (fun m => exactly p (fst m) (snd m)) msgs /\ serve_list h p st (map snd msgs) = (st', l, None) /\ fatal p tail)).
  { induction f as [|f IH]; intros st s L; [lia|]. cbn [serve_as]. destruct (parser p s) as [[q|e|] s'] eqn:E.
    - destruct (parser_exactly p _ _ _ E) as (b & -> & Ex & Nb).
      assert (Same : forall msgs tail, b ++ s' = flat_map fst msgs ++ tail -> Forall (fun m => exactly p (fst m) (snd m)) msgs -> fatal p tail ->
        exists msgs', msgs = (b, q) :: msgs' /\ s' = flat_map fst msgs' ++ tail).
      { intros [|[b1 q1] msgs] tail Es F Ft.
        - exfalso. cbn in Es. rewrite <- Es in Ft. apply C68_fatal_requests_exactly in Ft. destruct Ft as [s2 X]. rewrite X in E. discriminate E.
        - inversion F as [|? ? F1 Fr]; subst. cbn [fst snd flat_map] in *. rewrite <- app_assoc in Es. pose proof (exactly_app p b1 q1 (flat_map fst msgs ++ tail) F1) as X. rewrite <- Es, E in X. injection X as <- X.
          assert (b1 = b) by (rewrite X in Es; apply app_inv_tail in Es; symmetry; exact Es). subst b1. exists msgs. split; [reflexivity|exact X]. }
      pose proof (Po st q) as Pq. destruct (h st q) as [st1 [res|e|]] eqn:Eh; cbn [snd] in Pq; [| |contradiction].
      + destruct Pq as [Pn Pf]. pose proof (writer_safe _ _ _ _ res E Pn Pf) as W. destruct (write_response p q res) as [out|e|] eqn:Ew; [| |contradiction].
        * assert (Ls : (length s' < f)%nat) by (rewrite app_length in L; destruct b; [elim Nb; reflexivity|cbn in L; lia]). specialize (IH st1 s' Ls). destruct (serve_as p h f st1 s') as [[st2 l2] ft] eqn:E2. split.
          -- intros (st' & l & X). injection X as -> <- ->. destruct (proj1 IH ltac:(eauto)) as (msgs & tail & st3 & l3 & -> & F & Sl & Ft).
             exists ((b, q) :: msgs), tail, st3, (mkServed q out :: l3). cbn [flat_map fst snd map serve_list]. rewrite Eh, Ew, Sl, <- app_assoc. split; [reflexivity|]. split; [constructor; assumption|]. split; [reflexivity|exact Ft].
          -- intros (msgs & tail & st3 & l3 & Es & F & Sl & Ft). destruct (Same _ _ Es F Ft) as (msgs' & -> & Es'). inversion F as [|? ? F1 Fr]; subst. cbn [map snd serve_list] in Sl. rewrite Eh, Ew in Sl. destruct (serve_list h p st1 (map snd msgs')) as [[st4 l4] f4] eqn:E4. injection Sl as -> _ ->.
             destruct (proj2 IH) as (st5 & l5 & X); [exists msgs', tail, st3, l4; auto|]. injection X as -> -> ->. eexists. eexists. reflexivity.
        * split; [intros (st' & l & X); discriminate X|]. intros (msgs & tail & st3 & l3 & Es & F & Sl & Ft). destruct (Same _ _ Es F Ft) as (msgs' & -> & Es'). cbn [map snd serve_list] in Sl. rewrite Eh, Ew in Sl. discriminate Sl.
      + split; [intros (st' & l & X); discriminate X|]. intros (msgs & tail & st3 & l3 & Es & F & Sl & Ft). destruct (Same _ _ Es F Ft) as (msgs' & -> & Es'). cbn [map snd serve_list] in Sl. rewrite Eh in Sl. discriminate Sl.
    - split; [intros (st' & l & X); discriminate X|]. intros ([|[b1 q1] msgs] & tail & st3 & l3 & Es & F & Sl & Ft).
      + exfalso. cbn in Es. subst s. apply C68_fatal_requests_exactly in Ft. destruct Ft as [s2 X]. rewrite X in E. discriminate E.
      + exfalso. inversion F as [|? ? F1 Fr]; subst. cbn [fst snd flat_map] in *. rewrite <- app_assoc, (exactly_app p b1 q1 _ F1) in E. discriminate E.
    - split; [|eauto]. intros _. exists [], s, st, []. split; [reflexivity|]. split; [constructor|]. split; [reflexivity|]. apply C68_fatal_requests_exactly. exists s'. exact E. }
  intros st s0. apply G. lia.
Qed.
Print Assumptions C68_process_ends_exactly.
(** The line of C36: every fatal request is hostile, not conversely. *)
Theorem C68_fatal_requests_are_hostile : forall p s, fatal p s -> hostile p s.
Proof. intros p s F. apply C68_fatal_requests_exactly in F. destruct F as [s' E]. exact (parser_panic p s s' E). Qed.
Print Assumptions C68_fatal_requests_are_hostile.

Example C68_met : polite counter_handler
  /\ fatal ProtoAscii (B "set k 0 0 -1" ++ crlf ++ B "x") /\ ~ fatal ProtoAscii (B "set k 0 0 -1" ++ crlf) /\ ~ fatal ProtoAscii (B "set k a 0 -5" ++ crlf)
  /\ fatal ProtoAscii (B "ms k 1 T0  I" ++ crlf) /\ ~ fatal ProtoAscii (B "ms k 1 Tz  I" ++ crlf)
  /\ fatal ProtoBinary (bin_head 28 1 0 1) /\ ~ fatal ProtoBinary (bin_head 28 1 3 1 ++ B "ab").
Proof.
  split; [apply C36_met|]. rewrite <- !parser_fatal.
  split; [vm_compute; reflexivity|]. split; [vm_compute; discriminate|]. split; [vm_compute; discriminate|]. split; [vm_compute; reflexivity|]. split; [vm_compute; discriminate|].
  split; [vm_compute; reflexivity|vm_compute; discriminate].
Qed.
