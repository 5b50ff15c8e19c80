(** * C92, C93: the router's start-up, and what a failed Accept does. *)
From Verif Require Import GoBytes GoNum GoIO Item Ring Pool Replica ServerTypes ServerParse ServerWrite Serve ServerConc Proxy RouterConc Main
  PLib PServer PServe PropRing PropServer PropServerConc PropRouter PropRouterEnds.
Local Open Scope Z_scope.

(** ** Definitions of the statements *)
(** Backend [b] of the configuration is the address [e]: its port is one, and its host is written plainly (a name or an
    IPv4 address: no colon, no bracket) or in brackets (an IPv6 address). *)
Definition means (b : backend) (e : endpoint) : Prop :=
  snd e = bk_port b /\ 0 <= bk_port b <= 65535
  /\ ((bk_host b = fst e /\ ~ In ":"%char (fst e) /\ ~ In "["%char (fst e) /\ ~ In "]"%char (fst e))
      \/ (bk_host b = "["%char :: fst e ++ ["]"%char] /\ ~ In "["%char (fst e) /\ ~ In "]"%char (fst e))).
Definition backends (c : config) : list backend := cf_primary c ++ cf_secondary c.
(** All these connection attempts, made in this order, succeed. *)
Definition all_reached (reach : list endpoint -> endpoint -> bool) (made : list endpoint) : Prop :=
  forall a e b, made = a ++ e :: b -> reach a e = true.

(** ** Addresses *)
Lemma has_in : forall c s, has c s = true <-> In c s.
Proof.
  intros c s. unfold has. rewrite existsb_exists. split.
  - intros (x & Ix & E). apply Ascii.eqb_eq in E. subst x. exact Ix.
  - intro Ic. exists c. split; [exact Ic|apply Ascii.eqb_refl].
Qed.
Lemma has_not : forall c s, has c s = false <-> ~ In c s.
Proof. intros c s. rewrite <- has_in. destruct (has c s); split; congruence. Qed.
Lemma has_app : forall c a b, has c (a ++ b) = has c a || has c b.
Proof. intros. unfold has. apply existsb_app. Qed.
Lemma split_last_at : forall c a b, has c b = false -> split_last c (a ++ c :: b) = Some (a, b).
Proof.
  intros c a b N. assert (Nb : split_last c b = None).
  { clear a. induction b as [|x b IH]; [reflexivity|]. cbn [has existsb] in N. apply orb_false_iff in N. destruct N as [N1 N2]. cbn [split_last]. rewrite (IH N2), Ascii.eqb_sym, N1. reflexivity. }
  induction a as [|x a IH]; cbn [app split_last]; [rewrite Nb, Ascii.eqb_refl; reflexivity|]. rewrite IH. reflexivity.
Qed.
Lemma split_first_at : forall c a b, has c a = false -> split_first c (a ++ c :: b) = Some (a, b).
Proof.
  intros c a b N. induction a as [|x a IH]; cbn [app split_first]; [rewrite Ascii.eqb_refl; reflexivity|].
  cbn [has existsb] in N. apply orb_false_iff in N. destruct N as [N1 N2]. rewrite Ascii.eqb_sym, N1, (IH N2). reflexivity.
Qed.
Lemma split_first_none : forall c s, has c s = false -> split_first c s = None.
Proof.
  intros c s N. induction s as [|x s IH]; [reflexivity|]. cbn [has existsb] in N. apply orb_false_iff in N. destruct N as [N1 N2]. cbn [split_first]. rewrite Ascii.eqb_sym, N1, (IH N2). reflexivity.
Qed.
Lemma has_first : forall c s, has c s = true -> exists a b, s = a ++ c :: b /\ has c a = false.
Proof.
  intros c. induction s as [|x s IH]; intro E; [discriminate E|]. cbn [has existsb] in E. destruct (Ascii.eqb c x) eqn:X.
  - apply Ascii.eqb_eq in X. subst x. exists [], s. split; reflexivity.
  - destruct (IH E) as (a & b & -> & N). exists (x :: a), b. split; [reflexivity|]. cbn [has existsb]. rewrite X. exact N.
Qed.
Lemma dec_plain : forall n c, is_digit c = false -> c <> "-"%char -> has c (dec n) = false.
Proof.
  intros n c D N. apply has_not. intro Ic. pose proof (dec_chars n) as F. rewrite Forall_forall in F. destruct (F c Ic) as [E|E]; congruence.
Qed.
Lemma split_address : forall b h p, split_host_port (address b) = Some (h, p) <-> p = dec (bk_port b)
  /\ ((bk_host b = h /\ ~ In ":"%char h /\ ~ In "["%char h /\ ~ In "]"%char h) \/ (bk_host b = "["%char :: h ++ ["]"%char] /\ ~ In "["%char h /\ ~ In "]"%char h)).
Proof.
  intros [nm host n] h p. unfold address. cbn [bk_host bk_port]. unfold split_host_port.
  rewrite (split_last_at COLON host (dec n)) by (apply dec_plain; [reflexivity|discriminate]).
  assert (Do : has OPEN (dec n) = false) by (apply dec_plain; [reflexivity|discriminate]).
  assert (Dc : has CLOSE (dec n) = false) by (apply dec_plain; [reflexivity|discriminate]).
  assert (Do' : has OPEN (COLON :: dec n) = false) by exact Do. assert (Dc' : has CLOSE (COLON :: dec n) = false) by exact Dc.
  destruct host as [|x t].
  - cbn [app]. change (Ascii.eqb COLON OPEN) with false. cbv iota. change (has COLON []) with false. cbv iota. rewrite Do', Dc'. cbn [orb]. split.
    + intro E. injection E as <- <-. split; [reflexivity|]. left. repeat split; intros [].
    + intros (-> & [(<- & _)|(Q & _)]); [reflexivity|discriminate Q].
  - cbn [app]. destruct (Ascii.eqb x OPEN) eqn:Xo.
    + apply Ascii.eqb_eq in Xo. subst x. destruct (has CLOSE t) eqn:Ht.
      * destruct (has_first CLOSE t Ht) as (h' & r & -> & Nh). rewrite <- app_assoc. cbn [app]. rewrite (split_first_at CLOSE h' _ Nh).
        destruct r as [|y r].
        -- cbn [app]. rewrite beq_refl. rewrite has_app. change (has OPEN (CLOSE :: COLON :: dec n)) with (has OPEN (COLON :: dec n)). rewrite Do', Dc', !orb_false_r.
           destruct (has OPEN h') eqn:Ho; split; try discriminate.
           ++ intros (_ & [(<- & _ & No & _)|(Q & No & _)]); [exfalso; apply No; left; reflexivity|]. injection Q as Q. apply app_inj_tail in Q. destruct Q as [-> _]. apply has_in in Ho. contradiction.
           ++ intro E. injection E as <- <-. split; [reflexivity|]. right. split; [reflexivity|]. split; apply has_not; assumption.
           ++ intros (-> & [(<- & _ & No & _)|(Q & No & _)]); [exfalso; apply No; left; reflexivity|]. injection Q as Q. apply app_inj_tail in Q. destruct Q as [-> _]. reflexivity.
        -- assert (Bq : beq ((y :: r) ++ COLON :: dec n) (COLON :: dec n) = false).
           { apply beq_neq. intro Q. apply (f_equal (@length ascii)) in Q. rewrite app_length in Q. cbn [length] in Q. lia. }
           cbn [app] in Bq |- *. rewrite Bq. split; [discriminate|]. intros (_ & [(<- & _ & No & _)|(Q & No & Nc)]); [exfalso; apply No; left; reflexivity|].
           injection Q as Q. exfalso. destruct (exists_last (l := y :: r) ltac:(discriminate)) as (r' & z & Er). rewrite Er in Q.
           rewrite app_comm_cons, app_assoc in Q. apply app_inj_tail in Q. destruct Q as [Q _]. apply Nc. rewrite <- Q. apply in_app_iff. right. left. reflexivity.
      * rewrite split_first_none by (rewrite has_app, Ht, Dc'; reflexivity). split; [discriminate|].
        intros (_ & [(<- & _ & No & _)|(Q & _)]); [exfalso; apply No; left; reflexivity|]. injection Q as ->. rewrite has_app in Ht. cbn in Ht. rewrite orb_true_r in Ht. discriminate Ht.
    + destruct (has COLON (x :: t)) eqn:Hc.
      * split; [discriminate|]. intros (_ & [(<- & Nc & _)|(Q & _)]); [apply has_in in Hc; contradiction|]. injection Q as -> _. discriminate Xo.
      * change (x :: t ++ COLON :: dec n) with ((x :: t) ++ COLON :: dec n). rewrite !has_app, Do', Dc', !orb_false_r.
        destruct (has OPEN (x :: t)) eqn:Ho; [|destruct (has CLOSE (x :: t)) eqn:Hcl]; cbn [orb]; split; try discriminate.
        -- intros (_ & [(<- & _ & No & _)|(Q & _)]); [apply has_in in Ho; contradiction|]. injection Q as -> _. discriminate Xo.
        -- intros (_ & [(<- & _ & _ & Nc)|(Q & _)]); [apply has_in in Hcl; contradiction|]. injection Q as -> _. discriminate Xo.
        -- intro E. injection E as <- <-. split; [reflexivity|]. left. split; [reflexivity|]. split; [|split]; apply has_not; assumption.
        -- intros (-> & [(<- & _)|(Q & _)]); [reflexivity|]. injection Q as -> _. discriminate Xo.
Qed.
Lemma port_dec : forall n m, port_number (dec n) = Some m <-> m = n /\ 0 <= n <= 65535.
Proof.
  intros n m. unfold port_number. destruct (Z_lt_le_dec n 0) as [Ln|Ln].
  - split; [|intros [-> [L _]]; lia]. destruct (parse_int 64 (dec n)) as [k|] eqn:P; [|discriminate].
    assert (Kn : k <= 0).
    { unfold dec in P. rewrite (proj2 (Z.ltb_lt n 0) Ln) in P. unfold parse_int in P. change (Ascii.eqb "-" "-") with true in P. cbn [fst snd] in P.
      destruct (dec_nonneg_spec (- n) ltac:(lia)) as (N & _ & Q & _). destruct (dec_nonneg (- n)) as [|c s]; [congruence|]. rewrite Q in P. destruct (- n <=? 2 ^ (64 - 1)); [|discriminate P]. injection P as <-. lia. }
    assert (Kz : k <> 0).
    { intros ->. unfold dec in P. rewrite (proj2 (Z.ltb_lt n 0) Ln) in P. unfold parse_int in P. change (Ascii.eqb "-" "-") with true in P. cbn [fst snd] in P.
      destruct (dec_nonneg_spec (- n) ltac:(lia)) as (N & _ & Q & _). destruct (dec_nonneg (- n)) as [|c s]; [congruence|]. rewrite Q in P. destruct (- n <=? 2 ^ (64 - 1)); [|discriminate P]. injection P as P. lia. }
    destruct ((0 <=? k) && (k <=? 65535)) eqn:L; [|discriminate]. apply andb_true_iff in L. destruct L as [L _]. apply Z.leb_le in L. lia.
  - destruct (Z_lt_le_dec n (2 ^ 63)) as [Lb|Lb].
    + rewrite parse_int_dec by lia. destruct ((0 <=? n) && (n <=? 65535)) eqn:L.
      * apply andb_true_iff in L. destruct L as [L1 L2]. apply Z.leb_le in L1, L2. split; [intro E; injection E as <-; lia|intros [-> _]; reflexivity].
      * split; [discriminate|]. intros [_ [L1 L2]]. apply Z.leb_le in L1, L2. rewrite L1, L2 in L. discriminate L.
    + rewrite (parse_int_dec_big 64 n Ln Lb). split; [discriminate|]. intros [_ [_ L]]. lia.
Qed.
Lemma dial_exactly : forall reach made b made' ok, dial reach made (address b) = (made', ok) <->
  (exists e, means b e /\ made' = made ++ [e] /\ ok = reach made e) \/ ((forall e, ~ means b e) /\ made' = made /\ ok = false).
Proof.
  intros reach made b made' ok. unfold dial.
  assert (M : forall h m, means b (h, m) <-> exists p, split_host_port (address b) = Some (h, p) /\ port_number p = Some m).
  { intros h m. unfold means. cbn [fst snd]. split.
    - intros (-> & P & Q). exists (dec (bk_port b)). split; [apply split_address; split; [reflexivity|exact Q]|apply port_dec; split; [reflexivity|exact P]].
    - intros (p & S & P). apply split_address in S. destruct S as [-> Q]. apply port_dec in P. destruct P as [-> P]. split; [reflexivity|]. split; [exact P|exact Q]. }
  assert (U : forall e, means b e -> exists p, split_host_port (address b) = Some (fst e, p) /\ port_number p = Some (snd e)) by (intros [h m] E; apply M in E; exact E).
  destruct (split_host_port (address b)) as [[h p]|] eqn:S; [destruct (port_number p) as [m|] eqn:P|].
  - assert (E : means b (h, m)) by (apply M; exists p; split; [reflexivity|exact P]). split.
    + intro Q. injection Q as <- <-. left. exists (h, m). split; [exact E|]. split; reflexivity.
    + intros [([h' m'] & E' & -> & ->)|(N & _)]; [|exfalso; exact (N _ E)]. destruct (U _ E') as (p' & Q & P'). injection Q as <- <-. cbn [snd] in P'. rewrite P in P'. injection P' as <-. reflexivity.
  - split.
    + intro Q. injection Q as <- <-. right. split; [|split; reflexivity]. intros e E. destruct (U _ E) as (p' & Q & P'). injection Q as _ <-. congruence.
    + intros [(e & E & _)|(_ & -> & ->)]; [|reflexivity]. destruct (U _ E) as (p' & Q & P'). injection Q as _ <-. congruence.
  - split.
    + intro Q. injection Q as <- <-. right. split; [|split; reflexivity]. intros e E. destruct (U _ E) as (p' & Q & _). discriminate Q.
    + intros [(e & E & _)|(_ & -> & ->)]; [|reflexivity]. destruct (U _ E) as (p' & Q & _). discriminate Q.
Qed.

(** ** Start-up *)
Definition reached_from (reach : list endpoint -> endpoint -> bool) (made new : list endpoint) : Prop :=
  forall a e b, new = a ++ e :: b -> reach (made ++ a) e = true.
Lemma means_unique : forall b e e', means b e -> means b e' -> e = e'.
Proof.
  intros b [h m] [h' m'] E E'. assert (A : forall x, means b x -> dial (fun _ _ => true) [] (address b) = ([x], true)) by (intros x X; apply dial_exactly; left; exists x; split; [exact X|split; reflexivity]).
  pose proof (A _ E) as A1. rewrite (A _ E') in A1. congruence.
Qed.
Lemma connect_some : forall reach bs made made' l, connect_servers reach made bs = (made', Some l) <->
  exists new, made' = made ++ new /\ Forall2 means bs new /\ reached_from reach made new /\ l = map (fun b => (bk_name b, address b)) bs.
Proof.
  intros reach. induction bs as [|b bs IH]; intros made made' l; cbn [connect_servers].
  - split.
    + intro E. injection E as <- <-. exists []. rewrite app_nil_r. split; [reflexivity|]. split; [constructor|]. split; [|reflexivity]. intros [|? ?] ? ? Q; discriminate Q.
    + intros (new & -> & F & _ & ->). inversion F; subst. rewrite app_nil_r. reflexivity.
  - destruct (dial reach made (address b)) as [m1 ok] eqn:D. pose proof (proj1 (dial_exactly _ _ _ _ _) D) as Dx. split.
    + destruct ok; [|discriminate]. destruct (connect_servers reach m1 bs) as [m2 [l'|]] eqn:C; [|discriminate]. intro E. injection E as <- <-.
      destruct Dx as [(e & E & -> & R)|(_ & _ & Q)]; [|discriminate Q]. apply IH in C. destruct C as (new & -> & F & Rf & ->). exists (e :: new). rewrite <- app_assoc. split; [reflexivity|].
      split; [constructor; assumption|]. split; [|reflexivity]. intros [|a0 a] e0 r Q.
      * injection Q as <- _. rewrite app_nil_r. symmetry. exact R.
      * injection Q as <- Q. specialize (Rf a e0 r Q). rewrite <- app_assoc in Rf. exact Rf.
    + intros (new & -> & F & Rf & ->). inversion F as [|? e ? new' Me F']; subst. destruct Dx as [(e' & E' & -> & R)|(N & _)]; [|exfalso; exact (N _ Me)].
      rewrite (means_unique _ _ _ E' Me) in *. pose proof (Rf [] e new' eq_refl) as R0. rewrite app_nil_r in R0. rewrite R0 in R. subst ok.
      assert (C : connect_servers reach (made ++ [e]) bs = ((made ++ [e]) ++ new', Some (map (fun b0 => (bk_name b0, address b0)) bs))).
      { apply IH. exists new'. split; [reflexivity|]. split; [exact F'|]. split; [|reflexivity]. intros a e0 r ->. rewrite <- app_assoc. apply (Rf (e :: a) e0 r). reflexivity. }
      rewrite C, <- app_assoc. reflexivity.
Qed.
Lemma connect_none : forall reach bs made made', connect_servers reach made bs = (made', None) ->
  exists done b rest new, bs = done ++ b :: rest /\ Forall2 means done new /\ reached_from reach made new
    /\ ((made' = made ++ new /\ forall e, ~ means b e) \/ exists e, means b e /\ made' = made ++ new ++ [e] /\ reach (made ++ new) e = false).
Proof.
  intros reach. induction bs as [|b bs IH]; intros made made'; cbn [connect_servers]; [discriminate|].
  destruct (dial reach made (address b)) as [m1 ok] eqn:D. apply dial_exactly in D. intro E. destruct ok.
  - destruct (connect_servers reach m1 bs) as [m2 [l'|]] eqn:C; [discriminate E|]. injection E as <-. destruct D as [(e & E & -> & R)|(_ & _ & Q)]; [|discriminate Q].
    destruct (IH _ _ C) as (done & b' & rest & new & -> & F & Rf & W). exists (b :: done), b', rest, (e :: new). split; [reflexivity|]. split; [constructor; assumption|]. split.
    + intros [|a0 a] e0 r Q; [injection Q as <- _; rewrite app_nil_r; symmetry; exact R|]. injection Q as <- Q. specialize (Rf a e0 r Q). rewrite <- app_assoc in Rf. exact Rf.
    + destruct W as [(-> & N)|(e' & E' & -> & R')]; [left|right; exists e'].
      * rewrite <- app_assoc. split; [reflexivity|exact N].
      * rewrite <- !app_assoc in *. split; [exact E'|]. split; [reflexivity|exact R'].
  - injection E as <-. exists [], b, bs, []. rewrite app_nil_r. split; [reflexivity|]. split; [constructor|]. split; [intros [|? ?] ? ? Q; discriminate Q|].
    destruct D as [(e & E & -> & R)|(N & -> & _)]; [right; exists e|left; split; [reflexivity|exact N]]. split; [exact E|]. split; [reflexivity|]. symmetry. exact R.
Qed.

(** ** C92 *)
(** The router serves exactly when every backend's address can be used and is reached, in the order of the configuration,
    primaries first; then its rings hold the configured names in the configured order. *)
Theorem C92_starts_exactly : forall reach listens c made ps ss, boot reach listens c = Up made ps ss <->
  listens = true /\ Forall2 means (backends c) made /\ all_reached reach made
  /\ ps = map (fun b => (bk_name b, address b)) (cf_primary c) /\ ss = map (fun b => (bk_name b, address b)) (cf_secondary c).
Proof.
  intros reach listens [cp cs] made ps ss. unfold boot, backends, all_reached. cbn [cf_primary cf_secondary]. split.
  - destruct (connect_servers reach [] cp) as [m1 [p|]] eqn:C1; [|discriminate]. destruct (connect_servers reach m1 cs) as [m2 [s|]] eqn:C2; [|discriminate]. destruct listens; [|discriminate].
    intro E. injection E as <- <- <-. apply connect_some in C1, C2. destruct C1 as (n1 & -> & F1 & R1 & ->). destruct C2 as (n2 & -> & F2 & R2 & ->). cbn [app] in *.
    split; [reflexivity|]. split; [apply Forall2_app; assumption|]. split; [|split; reflexivity]. intros a e b Q.
    apply app_eq_app in Q. destruct Q as (l & [(-> & Q)|(-> & Q)]).
    + destruct l as [|x l]; cbn [app] in Q.
      * specialize (R2 [] e b (eq_sym Q)). rewrite !app_nil_r in R2. exact R2.
      * injection Q as <- ->. apply (R1 a e l). reflexivity.
    + apply (R2 l e b Q).
  - intros (-> & F & R & -> & ->). apply Forall2_app_inv_l in F. destruct F as (n1 & n2 & F1 & F2 & ->).
    assert (C1 : connect_servers reach [] cp = (n1, Some (map (fun b => (bk_name b, address b)) cp))).
    { apply connect_some. exists n1. split; [reflexivity|]. split; [exact F1|]. split; [|reflexivity]. intros a e b ->. apply (R a e (b ++ n2)). rewrite <- app_assoc. reflexivity. }
    assert (C2 : connect_servers reach n1 cs = (n1 ++ n2, Some (map (fun b => (bk_name b, address b)) cs))).
    { apply connect_some. exists n2. split; [reflexivity|]. split; [exact F2|]. split; [|reflexivity]. intros a e b ->. apply (R (n1 ++ a) e b). rewrite <- app_assoc. reflexivity. }
    rewrite C1, C2. reflexivity.
Qed.
(** Otherwise it ends at the first backend it cannot use; the ones after it have not been contacted. *)
Theorem C92_ends_at_the_first_failure : forall reach listens c made, boot reach listens c = Died made ->
  (exists done b rest new, backends c = done ++ b :: rest /\ Forall2 means done new /\ all_reached reach new
     /\ ((made = new /\ forall e, ~ means b e) \/ exists e, means b e /\ made = new ++ [e] /\ reach new e = false))
  \/ (listens = false /\ Forall2 means (backends c) made /\ all_reached reach made).
Proof.
  intros reach listens [cp cs] made. unfold boot, backends, all_reached. cbn [cf_primary cf_secondary].
  destruct (connect_servers reach [] cp) as [m1 [p|]] eqn:C1.
  - pose proof C1 as C1'. apply connect_some in C1'. destruct C1' as (n1 & -> & F1 & R1 & ->). cbn [app] in *.
    destruct (connect_servers reach n1 cs) as [m2 [s|]] eqn:C2.
    + destruct listens; [discriminate|]. intro E. injection E as <-. right. assert (U : boot reach true (mkConf cp cs) = Up m2 (map (fun b => (bk_name b, address b)) cp) s) by (unfold boot; cbn [cf_primary cf_secondary]; rewrite C1, C2; reflexivity).
      apply C92_starts_exactly in U. destruct U as (_ & F & R & _). split; [reflexivity|]. split; [exact F|exact R].
    + intro E. injection E as <-. left. apply connect_none in C2. destruct C2 as (done & b & rest & new & -> & F & Rf & W). exists (cp ++ done), b, rest, (n1 ++ new).
      rewrite <- app_assoc. split; [reflexivity|]. split; [apply Forall2_app; assumption|]. split.
      * intros a e r Q. apply app_eq_app in Q. destruct Q as (l & [(-> & Q)|(-> & Q)]).
        -- destruct l as [|x l]; cbn [app] in Q; [specialize (Rf [] e r (eq_sym Q)); rewrite !app_nil_r in Rf; exact Rf|]. injection Q as <- ->. apply (R1 a e l). reflexivity.
        -- apply (Rf l e r Q).
      * destruct W as [(-> & N)|(e & E & -> & R)]; [left; split; [reflexivity|exact N]|right; exists e]. rewrite <- app_assoc. split; [exact E|]. split; [reflexivity|exact R].
  - intro E. injection E as <-. left. apply connect_none in C1. destruct C1 as (done & b & rest & new & -> & F & Rf & W). exists done, b, (rest ++ cs), new. rewrite <- app_assoc. split; [reflexivity|]. split; [exact F|]. split; [exact Rf|exact W].
Qed.
(** An IPv6 address written as such cannot be used, whatever the network does: it has to be written in brackets. *)
Theorem C92_bare_ipv6_never_starts : forall reach listens c b, In b (backends c) -> In ":"%char (bk_host b) -> hd_error (bk_host b) <> Some "["%char ->
  exists made, boot reach listens c = Died made.
Proof.
  intros reach listens c b Ib Ic No. destruct (boot reach listens c) as [made|made ps ss] eqn:E; [exists made; reflexivity|]. exfalso.
  apply C92_starts_exactly in E. destruct E as (_ & F & _). clear - F Ib Ic No. induction F as [|b' e bs es M F IH]; [exact Ib|]. destruct Ib as [->|Ib]; [|exact (IH Ib)].
  destruct M as (_ & _ & [(Q & N & _)|(Q & _)]); [rewrite <- Q in N; exact (N Ic)|]. rewrite Q in No. apply No. reflexivity.
Qed.
(** The full property: if every configured host answers on its port, the router starts. *)
Theorem C92_reachable_backends_suffice_refuted : ~ (forall reach c,
  (forall b, In b (backends c) -> 0 < bk_port b <= 65535) -> (forall made b, In b (backends c) -> reach made (bk_host b, bk_port b) = true) ->
  exists made ps ss, boot reach true c = Up made ps ss).
Proof.
  intro H. destruct (H (fun _ _ => true) (mkConf [mkBackend (B "a") (B "::1") 11211] [mkBackend (B "b") (B "10.0.0.1") 11211])) as (made & ps & ss & E).
  - intros b [<-|[<-|[]]]; cbn; lia.
  - reflexivity.
  - destruct (C92_bare_ipv6_never_starts (fun _ _ => true) true (mkConf [mkBackend (B "a") (B "::1") 11211] [mkBackend (B "b") (B "10.0.0.1") 11211]) (mkBackend (B "a") (B "::1") 11211)) as (m & E');
      [left; reflexivity|left; reflexivity|discriminate|].
    pose proof (eq_trans (eq_sym E) E') as Q. discriminate Q.
Qed.
Theorem C92_reachable_backends_suffice_partial : forall reach c,
  (forall b, In b (backends c) -> 0 < bk_port b <= 65535 /\ ~ In ":"%char (bk_host b) /\ ~ In "["%char (bk_host b) /\ ~ In "]"%char (bk_host b)) ->
  (forall made b, In b (backends c) -> reach made (bk_host b, bk_port b) = true) ->
  boot reach true c = Up (map (fun b => (bk_host b, bk_port b)) (backends c)) (map (fun b => (bk_name b, address b)) (cf_primary c)) (map (fun b => (bk_name b, address b)) (cf_secondary c)).
Proof.
  intros reach c P R. apply C92_starts_exactly. split; [reflexivity|]. split; [|split; [|split; reflexivity]].
  - clear R. induction (backends c) as [|b bs IH]; [constructor|]. cbn [map]. constructor; [|apply IH; intros b' Ib; apply P; right; exact Ib].
    destruct (P b (or_introl eq_refl)) as (L & N). split; [reflexivity|]. split; [lia|]. left. split; [reflexivity|exact N].
  - intros a e b Q. assert (Ie : In e (map (fun b0 => (bk_host b0, bk_port b0)) (backends c))) by (rewrite Q; apply in_app_iff; right; left; reflexivity).
    apply in_map_iff in Ie. destruct Ie as (b0 & <- & Ib). apply R. exact Ib.
Qed.
(** Nothing checks that there are backends: an empty list of primaries starts, and the first get or set of any client
    ends the process. *)
Theorem C92_no_backends : forall reach c made ps ss, cf_primary c = [] -> boot reach true c = Up made ps ss -> ps = []
  /\ forall ST (step : ST -> op -> ST * outcome result) later pn sn v i s p out q s' p', NewRing (numbered 0 ps) pn ->
     rt_down v = false -> rt_conns v i = mkSC s p Reading out -> read_request p s = ((Ok q, s'), p') -> (q_opcode q = OpcGet \/ q_opcode q = OpcSet) ->
     psteps step later pn sn (Runs v) Exited.
Proof.
  intros reach c made ps ss Ec E. apply C92_starts_exactly in E. destruct E as (_ & _ & _ & -> & _). rewrite Ec. split; [reflexivity|].
  intros ST step later pn sn v i s p out q s' p' N D Hc Rd Oq. destruct (C86_no_primary ST step later pn sn v i s p out q s' p' N D Hc Rd Oq) as (u & Su & Du & _).
  apply p_step with (y := Runs u); [|apply P_panic; exact Du].
  clear - Su. induction Su as [v|v u w Su IH St]; [apply p_refl|]. eapply p_step; [exact IH|]. apply P_run. exact St.
Qed.

(** ** C93: Accept fails *)
(** No client is served any more that had not been accepted before ... *)
Theorem C93_nobody_after_a_failed_accept : forall H (h : handler H) who v v', v_listening v = false -> ssteps h who v v' ->
  v_listening v' = false /\ forall i, sc_phase (v_conns v i) = Offered -> v_conns v' i = v_conns v i.
Proof.
  intros H h who v v' L Sv. induction Sv as [v|v u w k Sv IH _ S]; [split; [exact L|reflexivity]|]. destruct (IH L) as [Lu Cu]. clear IH. destruct S as [u i s p out D Li E|u D Li|u i st' x' new D Mv].
  - rewrite Li in Lu. discriminate Lu.
  - rewrite Li in Lu. discriminate Lu.
  - cbn [v_listening v_conns]. split; [exact Lu|]. intros j O. destruct (Nat.eq_dec j i) as [->|N]; [|rewrite set_conn_other by exact N; exact (Cu j O)].
    exfalso. rewrite (Cu i O) in Mv. destruct (v_conns v i) as [s0 p0 ph0 o0]. cbn in O. subst ph0. inversion Mv.
Qed.
(** ... while those that had been are served on as if nothing had happened. *)
Theorem C93_the_others_are_served_on : forall H (h : handler H) v v0 i s p out, sstep h None v v0 -> v_conns v i = mkSC s p Reading out ->
  let '(st', l, ft) := serve h (S (length s)) p (v_handler v) s in served_to_the_end h v0 i st' l ft.
Proof.
  intros H h v v0 i s p out S E. inversion S; subst.
  apply (C64_a_connection_waits_for_no_other H h (mkV (v_handler v) (v_conns v) (v_log v) false false) i s p out eq_refl E).
Qed.
(** So one failed Accept, at any time, shuts the server for every later client, whatever the handler. *)
Theorem C93_the_server_goes_on_accepting_refuted : forall H (h : handler H) st streams, exists v, ssteps h anyone (listening st streams) v /\ v_down v = false
  /\ forall v' i, ssteps h anyone v v' -> sc_phase (v_conns v' i) = Offered.
Proof.
  intros H h st streams. exists (mkV st (fun i => mkSC (streams i) None Offered []) [] false false). split; [eapply v_step; [apply v_refl|exact Logic.I|apply (V_accept_fails h (listening st streams)); reflexivity]|].
  split; [reflexivity|]. intros v' i S. destruct (C93_nobody_after_a_failed_accept H h anyone (mkV st (fun i => mkSC (streams i) None Offered []) [] false false) v' eq_refl S) as [_ C]. rewrite C; reflexivity.
Qed.
(** The router ends with it: after a failed Accept nothing can keep the process from ending, and then nobody is served. *)
Theorem C93_router_ends_with_accept : forall ST (step : ST -> op -> ST * outcome result) later pn sn v x,
  rt_listening v = false -> psteps step later pn sn (Runs v) x -> x = Exited \/ (pstep step later pn sn x Exited /\ exists v', x = Runs v' /\ forall i, sc_phase (rt_conns v i) = Offered -> rt_conns v' i = rt_conns v i).
Proof.
  intros ST step later pn sn v x L Sx.
  assert (G : x = Exited \/ exists v', x = Runs v' /\ rt_listening v' = false /\ forall i, sc_phase (rt_conns v i) = Offered -> rt_conns v' i = rt_conns v i).
  { remember (Runs v) as x0 eqn:E0. induction Sx as [x|x y z Sx IH St]; subst; [right; exists v; split; [reflexivity|]; split; [exact L|reflexivity]|].
    destruct (IH eq_refl) as [->|(u & -> & Lu & Cu)]; [inversion St|]. inversion St as [u0 v' R|u0 Lf|u0 Dn]; subst; [|left; reflexivity|left; reflexivity]. right. exists v'. split; [reflexivity|].
    destruct R as [w i s p out D Li E|w D Li|w i x' q D Mv Ph|w i s p out q sv o k D E Ep wr|w i s p out q r D E Ep|w i x' D Mv Nc|w d D Ld]; cbn [rt_listening rt_conns] in *;
      try (rewrite Li in Lu; discriminate Lu); (split; [exact Lu|]); try exact Cu; intros j O; (destruct (Nat.eq_dec j i) as [->|N]; [|rewrite set_conn_other by exact N; exact (Cu j O)]); exfalso; specialize (Cu i O).
    - rewrite Cu in Mv. destruct (rt_conns v i) as [s0 p0 ph0 o0]. cbn in O. subst ph0. inversion Mv.
    - rewrite Cu in E. rewrite E in O. discriminate O.
    - rewrite Cu in Mv. destruct (rt_conns v i) as [s0 p0 ph0 o0]. cbn in O. subst ph0. inversion Mv. }
  destruct G as [->|(v' & -> & Lv & Cv)]; [left; reflexivity|right]. split; [apply P_fatal; exact Lv|]. exists v'. split; [reflexivity|exact Cv].
Qed.
(** With a limit on open connections, clients that only connect, one more than the limit, end the router. *)
Inductive limited_run {ST} (step : ST -> op -> ST * outcome result) (later : ST -> Z -> ST) (pn sn : list node) (limit clients : nat) : router_state ST -> router_state ST -> Prop :=
| l_refl : forall v, limited_run step later pn sn limit clients v v
| l_step : forall v u w, limited_run step later pn sn limit clients v u -> rtstep step later pn sn u w -> allowed limit clients u w -> limited_run step later pn sn limit clients v w.
Definition accepted_upto {ST} (w : world ST) (streams : nat -> bytes) (n : nat) (v : router_state ST) : Prop :=
  rt_world v = w /\ rt_log v = [] /\ rt_listening v = true /\ rt_down v = false
  /\ forall i, rt_conns v i = mkSC (streams i) None (if (i <? n)%nat then Reading else Offered) [].
Lemma open_upto : forall ST w streams n clients (v : router_state ST), accepted_upto w streams n v -> open_conns clients v = Nat.min n clients.
Proof.
  intros ST w streams n clients v (_ & _ & _ & _ & C). unfold open_conns.
  assert (E : filter (fun i => is_open (rt_conns v i)) (seq 0 clients) = filter (fun i => (i <? n)%nat) (seq 0 clients)).
  { apply filter_ext. intro i. rewrite C. unfold is_open. cbn [sc_phase]. destruct (i <? n)%nat; reflexivity. }
  rewrite E. clear. assert (G : forall k m, length (filter (fun i => (i <? n)%nat) (seq k m)) = Nat.min (n - k) m).
  { intros k m. revert k. induction m as [|m IH]; intro k; [cbn; lia|]. cbn [seq filter]. destruct (Nat.ltb_spec k n); cbn [length]; rewrite IH; lia. }
  rewrite G. lia.
Qed.
Theorem C93_too_many_clients_end_the_router : forall ST (step : ST -> op -> ST * outcome result) later pn sn w streams limit,
  exists v, limited_run step later pn sn limit (S limit) (router_started w streams) v
    /\ rt_log v = [] /\ (forall i, sc_out (rt_conns v i) = []) /\ pstep step later pn sn (Runs v) Exited.
Proof.
  intros ST step later pn sn w streams limit.
  assert (A : forall n, (n <= limit)%nat -> exists v, limited_run step later pn sn limit (S limit) (router_started w streams) v /\ accepted_upto w streams n v).
  { induction n as [|n IH]; intro Ln.
    - eexists. split; [apply l_refl|]. repeat split.
    - destruct (IH ltac:(lia)) as (v & R & Av). pose proof Av as (Ew & El & Li & D & C).
      exists (mkRt (rt_world v) (set_conn (rt_conns v) n (mkSC (streams n) None Reading [])) (rt_prog v) (rt_log v) true false). split.
      + eapply l_step; [exact R|apply Rt_accept; [exact D|exact Li|]|].
        * rewrite C, (proj2 (Nat.ltb_ge n n)) by lia. reflexivity.
        * split; [|intros _ Q; discriminate Q]. intros i _ _. rewrite (open_upto _ _ _ _ _ _ Av). lia.
      + split; [exact Ew|]. split; [exact El|]. split; [reflexivity|]. split; [reflexivity|]. intro i. cbn [rt_conns]. destruct (Nat.eq_dec i n) as [->|N].
        * rewrite set_conn_same, (proj2 (Nat.ltb_lt n (S n))) by lia. reflexivity.
        * rewrite set_conn_other by exact N. rewrite C. destruct (Nat.ltb_spec i n), (Nat.ltb_spec i (S n)); try lia; reflexivity. }
  destruct (A limit (le_n _)) as (v & R & Av). pose proof Av as (Ew & El & Li & D & C).
  exists (mkRt (rt_world v) (rt_conns v) (rt_prog v) (rt_log v) false false). split; [|split; [exact El|split; [|apply P_fatal; reflexivity]]].
  - eapply l_step; [exact R|apply Rt_accept_fails; [exact D|exact Li]|]. split.
    + intros i O N. cbn [rt_conns] in N. contradiction.
    + intros _ _. rewrite (open_upto _ _ _ _ _ _ Av). lia.
  - intro i. cbn [rt_conns]. rewrite C. reflexivity.
Qed.
Print Assumptions C92_starts_exactly.
Print Assumptions C92_ends_at_the_first_failure.
Print Assumptions C92_bare_ipv6_never_starts.
Print Assumptions C92_reachable_backends_suffice_refuted.
Print Assumptions C92_reachable_backends_suffice_partial.
Print Assumptions C92_no_backends.
Print Assumptions C93_nobody_after_a_failed_accept.
Print Assumptions C93_the_others_are_served_on.
Print Assumptions C93_the_server_goes_on_accepting_refuted.
Print Assumptions C93_router_ends_with_accept.
Print Assumptions C93_too_many_clients_end_the_router.

(** Cases: a configuration with a name, an IPv4 address and an IPv6 address in brackets; one whose second backend is down. *)
Definition c92_conf : config := mkConf [mkBackend (B "a") (B "cache-1") 11211; mkBackend (B "b") (B "10.0.0.2") 11212] [mkBackend (B "c") (B "[fe80::1]") 11213].
Example C92_met : boot (fun _ _ => true) true c92_conf
    = Up [(B "cache-1", 11211); (B "10.0.0.2", 11212); (B "fe80::1", 11213)] [(B "a", B "cache-1:11211"); (B "b", B "10.0.0.2:11212")] [(B "c", B "[fe80::1]:11213")]
  /\ boot (fun _ e => negb (snd e =? 11212)) true c92_conf = Died [(B "cache-1", 11211); (B "10.0.0.2", 11212)]
  /\ boot (fun _ _ => true) true (mkConf [mkBackend (B "a") (B "::1") 11211] []) = Died [].
Proof. repeat split; vm_compute; reflexivity. Qed.
Example C93_met : exists v, ssteps counter_handler anyone (listening 0 visitors) v /\ v_listening v = false /\ sc_phase (v_conns v 1) = Offered /\ sc_phase (v_conns v 0) = Reading.
Proof.
  eexists. split; [eapply v_step; [eapply v_step; [apply v_refl|exact Logic.I|apply (V_accept _ _ 0%nat); reflexivity]|exact Logic.I|apply V_accept_fails; reflexivity]|]. repeat split.
Qed.
