(** * Proofs about GoBufio.v: the segments do not matter. *)
From Verif Require Import GoBytes GoNum GoIO PLib GoBufio.
Local Open Scope Z_scope.

(** The bytes that come before the next stall (or the end), and what comes after it. *)
Fixpoint before (a : list arrival) : bytes :=
  match a with Seg b :: a' => b ++ before a' | _ => [] end.
Fixpoint later (a : list arrival) : option (list arrival) :=
  match a with Seg _ :: a' => later a' | Stall :: a' => Some a' | [] => None end.
Definition onwards (o : option (list arrival)) : list arrival := match o with Some a => a | None => [] end.
Definition avail (b : breader) : bytes := br_buf b ++ before (br_net b).

Lemma net_read_spec : forall n a, 0 < n -> match net_read n a with
  | (Some d, a') => d <> [] /\ zlen d <= n /\ before a = d ++ before a' /\ later a' = later a /\ (length d + net_size a' <= net_size a)%nat
                    /\ (S (net_size a') <= net_size a)%nat
  | (None, a') => before a = [] /\ a' = onwards (later a) end.
Proof.
  intros n a Hn. induction a as [|[b|] a IH]; cbn [net_read]; [split; reflexivity| |split; reflexivity].
  destruct b as [|c b].
  - cbn [before later net_size app length]. destruct (net_read n a) as [[d|] a']; [|exact IH].
    destruct IH as (A & C & D & E & F & G). repeat split; try assumption; lia.
  - destruct (Z.leb_spec (zlen (c :: b)) n) as [H|H].
    + split; [discriminate|]. split; [exact H|]. split; [reflexivity|]. split; [reflexivity|]. cbn [net_size]. lia.
    + assert (Ln : (Z.to_nat n <= length (c :: b))%nat) by (unfold zlen in H; lia).
      split. { destruct (Z.to_nat n) eqn:En; [lia|]. cbn. discriminate. }
      split. { unfold zlen. rewrite firstn_length. lia. }
      split. { cbn [before]. rewrite app_assoc, firstn_skipn. reflexivity. }
      split; [reflexivity|]. cbn [net_size]. rewrite firstn_length, skipn_length. cbn [length]. cbn [length] in Ln. lia.
Qed.

Definition ready (b : breader) : Prop := br_err b = false /\ zlen (br_buf b) <= buf_size.

(** The outcome [o] with [rest] left of the bytes available, seen from the reader afterwards. *)
Definition agrees {A} (b : breader) (x : outcome A * bytes) (y : outcome A * breader) : Prop :=
  fst y = fst x /\ ready (snd y)
  /\ ((avail (snd y) = snd x /\ later (br_net (snd y)) = later (br_net b))
      \/ (fst x = Err EIO /\ snd x = [] /\ snd y = new_breader (onwards (later (br_net b))))).

Lemma find_line_cat : forall s t, match find_line s with
  | Some (l, r) => find_line (s ++ t) = Some (l, r ++ t)
  | None => match find_line t with Some (l, r) => find_line (s ++ t) = Some (s ++ l, r) | None => find_line (s ++ t) = None end end.
Proof.
  induction s as [|c s IH]; intro t; cbn [find_line app].
  - destruct (find_line t) as [[l r]|]; reflexivity.
  - destruct (Ascii.eqb c LF); [reflexivity|]. specialize (IH t). destruct (find_line s) as [[l r]|].
    + rewrite IH. reflexivity.
    + destruct (find_line t) as [[l r]|]; rewrite IH; reflexivity.
Qed.

Lemma net_size_pos : forall a, (1 <= net_size a)%nat.
Proof. induction a as [|[b|] a IH]; cbn [net_size]; lia. Qed.

Lemma find_line_length : forall s l r, find_line s = Some (l, r) -> s = l ++ r /\ l <> [].
Proof.
  induction s as [|c s IH]; intros l r E; [discriminate|]. cbn [find_line] in E. destruct (Ascii.eqb c LF).
  - injection E as <- <-. split; [reflexivity|discriminate].
  - destruct (find_line s) as [[l' r']|] eqn:F; [|discriminate]. injection E as <- <-. destruct (IH _ _ eq_refl) as [-> _]. split; [reflexivity|discriminate].
Qed.

Definition weight (b : breader) : nat := (length (br_buf b) + net_size (br_net b))%nat.

Lemma br_slice_loop_spec : forall fuel b, ready b -> (S (S (net_size (br_net b))) <= fuel)%nat ->
  exists d e b', br_slice_loop fuel b = Some (d, e, b') /\
   ((e = None /\ find_line (avail b) = Some (d, avail b') /\ zlen d <= buf_size /\ ready b' /\ later (br_net b') = later (br_net b))
    \/ (e = Some EBufFull /\ zlen d = buf_size /\ find_line d = None /\ avail b = d ++ avail b' /\ ready b' /\ later (br_net b') = later (br_net b) /\ (weight b' < weight b)%nat)
    \/ (e = Some EIO /\ d = avail b /\ zlen d < buf_size /\ find_line d = None /\ b' = new_breader (onwards (later (br_net b))))).
Proof.
  induction fuel as [|f IH]; intros b [Re Rl] Hf; [lia|]. cbn [br_slice_loop].
  destruct (find_line (br_buf b)) as [[l r]|] eqn:F.
  - eexists l, None, _. split; [reflexivity|]. left. split; [reflexivity|]. unfold avail. cbn [br_buf br_net].
    pose proof (find_line_cat (br_buf b) (before (br_net b))) as Q. rewrite F in Q. split; [exact Q|].
    destruct (find_line_length _ _ _ F) as [E _]. rewrite E in Rl. unfold ready. cbn [br_buf br_err]. rewrite zlen_app in Rl. pose proof (zlen_nonneg _ l). pose proof (zlen_nonneg _ r).
    split; [lia|]. split; [split; [exact Re|lia]|reflexivity].
  - rewrite Re. destruct (Z.leb_spec buf_size (zlen (br_buf b))) as [H|H].
    + eexists _, _, _. split; [reflexivity|]. right. left. split; [reflexivity|]. split; [lia|]. split; [exact F|]. unfold avail, ready, weight. cbn [br_buf br_net br_err app length].
      split; [reflexivity|]. split; [split; [reflexivity|unfold buf_size; cbn; lia]|]. split; [reflexivity|]. unfold zlen, buf_size in H. lia.
    + unfold br_fill. pose proof (net_read_spec (buf_size - zlen (br_buf b)) (br_net b) ltac:(lia)) as N.
      destruct (net_read _ (br_net b)) as [[dd|] a].
      * destruct N as (Nd & Ld & Bf & Lt & Sz & Sz').
        destruct (IH (mkBR (br_buf b ++ dd) (br_err b) a)) as (d & e & b' & E & Q).
        { split; [exact Re|]. cbn [br_buf]. rewrite zlen_app. lia. }
        { cbn [br_net]. lia. }
        assert (Av : avail (mkBR (br_buf b ++ dd) (br_err b) a) = avail b) by (unfold avail; cbn [br_buf br_net]; rewrite Bf, app_assoc; reflexivity).
        assert (W : (weight (mkBR (br_buf b ++ dd) (br_err b) a) <= weight b)%nat) by (unfold weight; cbn [br_buf br_net]; rewrite app_length; lia).
        rewrite Av in Q. cbn [br_net] in Q. rewrite Lt in Q. exists d, e, b'. split; [exact E|].
        destruct Q as [Q|[(Q1 & Q2 & Q3 & Q4 & Q5 & Q6 & Q7)|Q]]; [left; exact Q| |right; right; exact Q].
        right. left. repeat (split; [assumption|]). lia.
      * destruct N as [Bf ->]. pose proof (net_size_pos (br_net b)). destruct f as [|f]; [lia|]. cbn [br_slice_loop br_buf br_err]. rewrite F.
        eexists _, _, _. split; [reflexivity|]. right. right. split; [reflexivity|]. cbn [br_net].
        assert (Av : avail b = br_buf b) by (unfold avail; rewrite Bf, app_nil_r; reflexivity).
        split; [symmetry; exact Av|]. split; [exact H|]. split; [exact F|]. reflexivity.
Qed.

Lemma br_slice_spec : forall b, ready b -> agrees b (read_slice (avail b)) (br_slice b).
Proof.
  intros b R. unfold br_slice. destruct (br_slice_loop_spec _ b R (le_n _)) as (d & e & b' & -> & [Q|[Q|Q]]); unfold agrees, checked, read_slice.
  - destruct Q as (-> & F & L & R' & La). rewrite F. destruct (Z.leb_spec (zlen d) buf_size); [|lia]. cbn [fst snd]. auto.
  - destruct Q as (-> & L & F & Av & R' & La & _). rewrite Av. pose proof (find_line_cat d (avail b')) as C. rewrite F in C.
    assert (Sk : skipn (Z.to_nat buf_size) (d ++ avail b') = avail b').
    { replace (Z.to_nat buf_size) with (length d) by (unfold zlen in L; lia). rewrite skipn_app, skipn_all, Nat.sub_diag. reflexivity. }
    destruct (find_line (avail b')) as [[l r]|] eqn:F'; rewrite C.
    + destruct (find_line_length _ _ _ F') as [_ Nl]. destruct (Z.leb_spec (zlen (d ++ l)) buf_size) as [Q|_].
      { rewrite zlen_app in Q. destruct l; [congruence|]. unfold zlen in Q, L. cbn [length] in Q. lia. }
      rewrite Sk. cbn [fst snd]. auto.
    + destruct (Z.leb_spec buf_size (zlen (d ++ avail b'))) as [_|Q]; [|rewrite zlen_app in Q; pose proof (zlen_nonneg _ (avail b')); lia].
      rewrite Sk. cbn [fst snd]. auto.
  - destruct Q as (-> & -> & L & F & ->). rewrite F. destruct (Z.leb_spec buf_size (zlen (avail b))); [lia|]. cbn [fst snd].
    split; [reflexivity|]. split; [split; [reflexivity|cbn; unfold buf_size; lia]|]. right. auto.
Qed.

Lemma br_bytes_loop_spec : forall fuel acc b, ready b -> (weight b <= fuel)%nat ->
  exists d e b', br_bytes_loop fuel acc b = Some (acc ++ d, e, b') /\
   ((e = None /\ find_line (avail b) = Some (d, avail b') /\ ready b' /\ later (br_net b') = later (br_net b))
    \/ (e = Some EIO /\ find_line (avail b) = None /\ b' = new_breader (onwards (later (br_net b))))).
Proof.
  induction fuel as [|f IH]; intros acc b R Hf; [unfold weight in Hf; pose proof (net_size_pos (br_net b)); lia|]. cbn [br_bytes_loop].
  destruct (br_slice_loop_spec _ b R (le_n _)) as (d & e & b' & -> & [Q|[Q|Q]]).
  - destruct Q as (-> & F & L & R' & La). exists d, None, b'. split; [reflexivity|]. left. auto.
  - destruct Q as (-> & L & F & Av & R' & La & W). destruct (IH (acc ++ d) b' R' ltac:(lia)) as (d2 & e2 & b2 & -> & Q2).
    exists (d ++ d2), e2, b2. split; [rewrite app_assoc; reflexivity|]. pose proof (find_line_cat d (avail b')) as C. rewrite F in C. rewrite Av.
    destruct Q2 as [(-> & F2 & R2 & L2)|(-> & F2 & ->)]; rewrite F2 in C.
    + left. rewrite La in L2. auto.
    + right. rewrite La. auto.
  - destruct Q as (-> & -> & L & F & ->). eexists _, _, _. split; [reflexivity|]. right. auto.
Qed.
Lemma br_bytes_spec : forall b, ready b -> agrees b (read_bytes (avail b)) (br_bytes b).
Proof.
  intros b R. unfold br_bytes. destruct (br_bytes_loop_spec _ [] b R (le_n _)) as (d & e & b' & E & Q). unfold weight in E. rewrite E. unfold agrees, checked, read_bytes.
  destruct Q as [(-> & F & R' & La)|(-> & F & ->)]; rewrite F; cbn [fst snd app].
  - auto.
  - split; [reflexivity|]. split; [split; [reflexivity|cbn; unfold buf_size; lia]|]. right. auto.
Qed.

Lemma br_read_spec : forall n b, ready b -> 0 < n -> match br_read n b with
  | (Some d, b') => d <> [] /\ zlen d <= n /\ avail b = d ++ avail b' /\ ready b' /\ later (br_net b') = later (br_net b) /\ (weight b' < weight b)%nat
  | (None, b') => avail b = [] /\ b' = new_breader (onwards (later (br_net b))) end.
Proof.
  intros n b [Re Rl] Hn. unfold br_read. destruct (br_buf b) as [|c s] eqn:Hb.
  - rewrite Re. assert (Av : avail b = before (br_net b)) by (unfold avail; rewrite Hb; reflexivity). rewrite Av.
    destruct (Z.leb_spec buf_size n) as [Hl|Hl].
    + pose proof (net_read_spec n (br_net b) Hn) as N. destruct (net_read n (br_net b)) as [[d|] a].
      * destruct N as (A & C & D & E & F & G). split; [exact A|]. split; [exact C|]. split; [exact D|]. split; [split; [reflexivity|cbn; unfold buf_size; lia]|].
        split; [exact E|]. unfold weight. rewrite Hb. cbn [br_buf br_net length]. lia.
      * destruct N as [A ->]. auto.
    + pose proof (net_read_spec buf_size (br_net b) ltac:(unfold buf_size; lia)) as N. destruct (net_read buf_size (br_net b)) as [[d|] a].
      * destruct N as (A & C & D & E & F & G).
        split. { destruct d; [congruence|]. destruct (Z.to_nat n) eqn:En; [lia|]. cbn. discriminate. }
        split. { unfold zlen. rewrite firstn_length. lia. }
        split. { unfold avail. cbn [br_buf br_net]. rewrite app_assoc, firstn_skipn. exact D. }
        split. { split; [reflexivity|]. cbn [br_buf]. unfold zlen in *. rewrite skipn_length. lia. }
        split; [exact E|]. unfold weight. rewrite Hb. cbn [br_buf br_net length]. rewrite skipn_length. destruct d; [congruence|]. cbn [length] in *. destruct (Z.to_nat n) eqn:En; lia.
      * destruct N as [A ->]. auto.
  - split. { destruct (Z.to_nat n) eqn:En; [lia|]. cbn. discriminate. }
    split. { unfold zlen. rewrite firstn_length. lia. }
    split. { unfold avail. cbn [br_buf br_net]. rewrite app_assoc, firstn_skipn, Hb. reflexivity. }
    split. { split; [exact Re|]. cbn [br_buf]. unfold zlen in *. rewrite skipn_length. lia. }
    split; [reflexivity|]. unfold weight. cbn [br_buf br_net]. rewrite skipn_length, Hb. cbn [length]. lia.
Qed.

Lemma br_full_loop_spec : forall fuel n acc b, ready b -> (weight b < fuel)%nat ->
  exists d e b', br_full_loop fuel n acc b = Some (acc ++ d, e, b') /\
   ((e = None /\ zlen d = Z.max 0 n /\ avail b = d ++ avail b' /\ ready b' /\ later (br_net b') = later (br_net b))
    \/ (e = Some EIO /\ zlen (avail b) < n /\ b' = new_breader (onwards (later (br_net b))))).
Proof.
  induction fuel as [|f IH]; intros n acc b R Hf; [lia|]. cbn [br_full_loop]. destruct (Z.leb_spec n 0) as [Hn|Hn].
  - exists [], None, b. split; [rewrite app_nil_r; reflexivity|]. left. split; [reflexivity|]. split; [change (zlen (@nil ascii)) with 0; lia|]. auto.
  - pose proof (br_read_spec n b R Hn) as Q. destruct (br_read n b) as [[d|] b'].
    + destruct Q as (Nd & Ld & Av & R' & La & W). destruct (IH (n - zlen d) (acc ++ d) b' R' ltac:(lia)) as (d2 & e2 & b2 & -> & Q2).
      exists (d ++ d2), e2, b2. split; [rewrite app_assoc; reflexivity|]. rewrite Av, !zlen_app.
      destruct Q2 as [(-> & L2 & A2 & R2 & La2)|(-> & L2 & ->)].
      * left. split; [reflexivity|]. split; [lia|]. split; [rewrite A2, app_assoc; reflexivity|]. rewrite La in La2. auto.
      * right. split; [reflexivity|]. split; [lia|]. rewrite La. reflexivity.
    + destruct Q as [Av ->]. exists [], (Some EIO). eexists. split; [rewrite app_nil_r; reflexivity|]. right. split; [reflexivity|]. rewrite Av. split; [exact Hn|reflexivity].
Qed.
Lemma br_full_spec : forall n b, ready b -> agrees b (read_full n (avail b)) (br_full n b).
Proof.
  intros n b R. unfold br_full. destruct (br_full_loop_spec (S (weight b)) n [] b R ltac:(lia)) as (d & e & b' & E & Q). unfold weight in E. rewrite E. unfold agrees, checked, read_full.
  destruct Q as [(-> & L & Av & R' & La)|(-> & L & ->)].
  - destruct (Z.leb_spec n (zlen (avail b))) as [H|H]; [|rewrite Av, zlen_app in H; pose proof (zlen_nonneg _ (avail b')); lia].
    rewrite Av. replace (Z.to_nat n) with (length d) by (unfold zlen in L; lia). rewrite firstn_app, skipn_app, firstn_all, skipn_all, Nat.sub_diag. cbn [firstn skipn app fst snd]. rewrite app_nil_r. auto.
  - destruct (Z.leb_spec n (zlen (avail b))) as [H|H]; [lia|]. cbn [fst snd app].
    split; [reflexivity|]. split; [split; [reflexivity|cbn; unfold buf_size; lia]|]. right. auto.
Qed.

Lemma prim_spec : forall r b, ready b -> agrees b (prim_stream r (avail b)) (prim_bufio r b).
Proof. intros [| |n] b R; [apply br_slice_spec|apply br_bytes_spec|apply br_full_spec]; exact R. Qed.

(** Peek(1). *)
Lemma br_peek_spec : forall b, ready b -> match avail b with
  | c :: _ => exists b', br_peek b = (Ok c, b') /\ ready b' /\ avail b' = avail b /\ later (br_net b') = later (br_net b)
  | [] => br_peek b = (Err EIO, new_breader (onwards (later (br_net b)))) end.
Proof.
  intros b [Re Rl]. unfold avail at 1, br_peek. destruct (br_buf b) as [|c s] eqn:Hb; cbn [app].
  - rewrite Re. unfold br_fill. rewrite Hb. change (buf_size - zlen []) with buf_size. pose proof (net_read_spec buf_size (br_net b) ltac:(unfold buf_size; lia)) as N.
    destruct (net_read buf_size (br_net b)) as [[d|] a].
    + destruct N as (A & C & D & E & F & G). rewrite D. destruct d as [|c d]; [congruence|]. cbn [br_buf app]. eexists. split; [reflexivity|].
      split; [split; [exact Re|exact C]|]. split; [unfold avail; cbn [br_buf br_net]; rewrite Hb, D; reflexivity|exact E].
    + destruct N as [-> ->]. reflexivity.
  - eexists. split; [reflexivity|]. split; [split; [exact Re|rewrite Hb; exact Rl]|]. split; reflexivity.
Qed.

Theorem run_bufio_spec : forall A (p : rprog A) b, ready b -> agrees b (run_stream p (avail b)) (run_bufio p b).
Proof.
  intros A p. induction p as [o|r k IH]; intros b R; cbn [run_stream run_bufio].
  - split; [reflexivity|]. split; [exact R|]. left. split; reflexivity.
  - destruct (prim_spec r b R) as (E & R' & Q). destruct (prim_stream r (avail b)) as [o s']. destruct (prim_bufio r b) as [o' b']. cbn [fst snd] in *. subst o'.
    destruct o as [d|e|].
    + destruct Q as [[Av La]|[Q _]]; [|discriminate]. destruct (IH d b' R') as (E & R2 & Q). rewrite Av in E, Q. rewrite La in Q. split; [exact E|]. split; [exact R2|]. exact Q.
    + split; [reflexivity|]. split; [exact R'|]. cbn [fst snd]. destruct Q as [Q|(Q1 & Q2 & Q3)]; [left; exact Q|right]. injection Q1 as ->. auto.
    + split; [reflexivity|]. split; [exact R'|]. cbn [fst snd]. destruct Q as [Q|(Q1 & _)]; [left; exact Q|discriminate].
Qed.
