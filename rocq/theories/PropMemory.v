(** * C72, C73: the memory behind items. *)
From Verif Require Import GoBytes GoNum GoIO GoSlice Item ClientText ClientMeta ClientBinary Cache Daemon Spec Call PLib Memory PMemory PropClient.
Local Open Scope nat_scope.

(** ** C72: returned items own their memory *)

(** Items returned by the calls of any history share no array with each other, nor with anything the
    program had before. *)
Theorem C72_returned_items_share_nothing : forall k h l evs h' l' rs,
  events_ok k h l evs -> mrun k h l evs = (h', l', rs) ->
  (forall n m i j s t, nth_error (returned rs) n = Some i -> nth_error (returned rs) m = Some j -> n <> m ->
     In s (item_slices i) -> In t (item_slices j) -> s_arr s <> s_arr t)
  /\ (forall i s, In i (returned rs) -> In s (item_slices i) -> length h <= s_arr s /\ valid h' s).
Proof.
  intros k h l evs h' l' rs O E. destruct (mrun_frame k evs h l h' l' rs O E) as (_ & _ & F & P). split.
  - assert (G : forall n m i j, nth_error (returned rs) n = Some i -> nth_error (returned rs) m = Some j -> n < m -> disjoint i j).
    { clear -P. induction P as [|x l Fx P IH]; intros n m i j Hn Hm L; [destruct n; discriminate Hn|].
      destruct m as [|m]; [lia|]. destruct n as [|n]; cbn in *.
      - injection Hn as <-. rewrite Forall_forall in Fx. apply Fx. eapply nth_error_In. exact Hm.
      - eapply IH; [exact Hn|exact Hm|lia]. }
    intros n m i j s t Hn Hm N Hs Ht. destruct (Nat.lt_gt_cases n m) as [C _]. destruct (C N) as [L|L].
    + exact (G n m i j Hn Hm L s t Hs Ht).
    + exact (disjoint_sym _ _ (G m n j i Hm Hn L) s t Hs Ht).
  - intros i s Hi Hs. rewrite Forall_forall in F. destruct (own_slices _ _ _ _ _ (F i Hi) Hs). auto.
Qed.
Print Assumptions C72_returned_items_share_nothing.

(** A later event that does not pass a slice of the item's arrays to a Set, to append or to an
    assignment; setting the item's own Value again is allowed, and so is everything else. *)
Definition elsewhere (i : mitem) (s : slice) : Prop := forall t, In t (item_slices i) -> s_arr s <> s_arr t.
Definition leaves_alone (i : mitem) (e : mevent) : Prop :=
  match e with
  | ECall (MSet j) _ => mi_value j = mi_value i \/ elsewhere i (mi_value j)
  | EAssign s _ _ | EAppend s _ _ => elsewhere i s
  | _ => True
  end.
Theorem C72_returned_items_keep_their_contents : forall k h l evs later h1 l1 rs h2 l2 rs' i,
  events_ok k h l (evs ++ later) -> mrun k h l evs = (h1, l1, rs) -> mrun k h1 l1 later = (h2, l2, rs') ->
  In i (returned rs) -> Forall (leaves_alone i) later -> deref h2 i = deref h1 i.
Proof.
  intros k h l evs later h1 l1 rs h2 l2 rs' i O E1 E2 Hi A. destruct (events_ok_app k evs later h l O) as [O1 O2]. rewrite E1 in O2.
  destruct (mrun_frame k evs h l h1 l1 rs O1 E1) as (_ & _ & F & _). destruct (mrun_frame k later h1 l1 h2 l2 rs' O2 E2) as (_ & K & _).
  rewrite Forall_forall in F. specialize (F i Hi). pose proof (fun s => own_slices _ _ _ _ s F) as V. destruct F as (_ & _ & Fl).
  assert (Sp : forall t, In t (item_slices i) -> (t = mi_value i \/ ascii_kind k = true -> s_arr t <> s_arr (mi_value i) \/ t = mi_value i) -> Forall (spares k t) later).
  { intros t Ht Q. eapply Forall_impl; [|exact A]. intros e Le. destruct e as [o grown|d|s n c|s d grown|b]; cbn [spares leaves_alone] in *; try exact Logic.I.
    - destruct o as [key|ks|j|j|j|o]; try exact Logic.I. destruct Le as [-> | Le].
      + destruct (ascii_kind k) eqn:Ka; [|left; destruct k; [discriminate Ka|discriminate Ka|reflexivity]]. right; right.
        destruct (Q (or_intror eq_refl)) as [N| ->]; [left; exact N|]. right; left. lia.
      + right; right. left. intro X. exact (Le t Ht (eq_sym X)).
    - right. left. intro X. exact (Le t Ht (eq_sym X)).
    - right. left. intro X. exact (Le t Ht (eq_sym X)). }
  unfold deref. rewrite K; [|apply V; left; reflexivity|apply Sp; [left; reflexivity|auto]]. f_equal.
  destruct (mi_flags i) as [f|] eqn:Fi; [|reflexivity]. cbn [option_map]. f_equal.
  assert (Hf : In f (item_slices i)) by (unfold item_slices; rewrite Fi; right; left; reflexivity).
  apply K; [apply V; exact Hf|]. apply Sp; [exact Hf|]. intros [->|Ka]; [right; reflexivity|left; apply Fl; exact Ka].
Qed.
Print Assumptions C72_returned_items_keep_their_contents.

(** The value and the flags of one item: with the text and meta clients they are on different arrays, so
    nothing done through one reaches the other. *)
Theorem C72_value_and_flags_are_independent_partial : forall k h l evs h' l' rs i f grown d c n,
  k <> KBinary -> events_ok k h l evs -> mrun k h l evs = (h', l', rs) -> In i (returned rs) -> mi_flags i = Some f ->
  contents (fst (append grown h' f d)) (mi_value i) = contents h' (mi_value i)
  /\ contents (fst (append grown h' (mi_value i) d)) f = contents h' f
  /\ contents (assign h' f n c) (mi_value i) = contents h' (mi_value i)
  /\ contents (assign h' (mi_value i) n c) f = contents h' f.
Proof.
  intros k h l evs h' l' rs i f grown d c n Nk O E Hi Fi. destruct (mrun_frame k evs h l h' l' rs O E) as (_ & _ & F & _). rewrite Forall_forall in F.
  destruct (F i Hi) as (V & _ & Fl). rewrite Fi in Fl. destruct Fl as (Vf & _ & N). assert (Nf : s_arr f <> s_arr (mi_value i)) by (apply N; destruct k; [reflexivity|reflexivity|contradiction (Nk eq_refl)]).
  split; [|split; [|split]].
  - apply append_frame; [exact Vf|exact V|right; left; congruence].
  - apply append_frame; [exact V|exact Vf|right; left; congruence].
  - unfold assign. destruct (Nat.ltb_spec n (s_len f)); [|reflexivity]. destruct Vf as (Va & Vl & Vc). apply write_apart; [exact Va|cbn; lia|left; congruence].
  - unfold assign. destruct (Nat.ltb_spec n (s_len (mi_value i))); [|reflexivity]. destruct V as (Va & Vl & Vc). apply write_apart; [exact Va|cbn; lia|left; congruence].
Qed.
Print Assumptions C72_value_and_flags_are_independent_partial.

(** Desired for every client: appending to the flags of a returned item leaves its value alone. *)
Definition C72_value_and_flags_are_independent : Prop := forall k h l evs h' l' rs i f grown d,
  events_ok k h l evs -> mrun k h l evs = (h', l', rs) -> In i (returned rs) -> mi_flags i = Some f ->
  contents (fst (append grown h' f d)) (mi_value i) = contents h' (mi_value i).
(** Desired: calls alone, whatever items they are given, never change an item returned earlier. *)
Definition C72_calls_change_no_item : Prop := forall k h l evs later h1 l1 rs h2 l2 rs' i,
  events_ok k h l (evs ++ later) -> mrun k h l evs = (h1, l1, rs) -> mrun k h1 l1 later = (h2, l2, rs') ->
  In i (returned rs) -> Forall (fun e => match e with ECall _ _ => True | _ => False end) later -> deref h2 i = deref h1 i.

(** A program that stores "abcdef" under k and gets it back. *)
Definition program : heap := [B "abcdef"].
Definition stored : mitem := mkMItem (B "k") (mkSlice 0 0 6 6) None 0 0 [].
Definition story : list mevent := [ECall (MSet stored) []; ECall (MGet (B "k")) []].
Definition start : link := fresh_link demo_c reset_header.
Definition text_kind : kind := KText (B "s").
(** What the text client gets: a value of capacity 8 on an array of its own. *)
Definition got_text : mitem := mkMItem (B "k") (mkSlice 3 0 6 8) (Some (mkSlice 2 0 4 4)) 0 1 (B "s").
(** What the binary client gets: flags and value on one array. *)
Definition got_bin : mitem := mkMItem (B "k") (mkSlice 1 4 6 6) (Some (mkSlice 1 0 4 10)) 0 1 [].
(** The memory then, and the results. *)
Definition text_memory : heap := [B "abcdef"; B "abcdef" ++ crlf; be 4 0; B "abcdef" ++ crlf].
Definition bin_memory : heap := [B "abcdef"; be 4 0 ++ B "abcdef"].
Definition text_link : link := snd (fst (mrun text_kind program start story)).
Definition bin_link : link := snd (fst (mrun KBinary program start story)).
Lemma text_story : mrun text_kind program start story = (text_memory, text_link, [Ok (MROther RUnit); Ok (MRItem got_text)]).
Proof. unfold text_link. destruct (mrun text_kind program start story) as [[h l] r] eqn:E. cbn [fst snd].
  assert (fst (fst (mrun text_kind program start story)) = text_memory) by (vm_compute; reflexivity).
  assert (snd (mrun text_kind program start story) = [Ok (MROther RUnit); Ok (MRItem got_text)]) by (vm_compute; reflexivity).
  rewrite E in *. cbn [fst snd] in *. subst. reflexivity. Qed.
Lemma bin_story : mrun KBinary program start story = (bin_memory, bin_link, [Ok (MROther RUnit); Ok (MRItem got_bin)]).
Proof. unfold bin_link. destruct (mrun KBinary program start story) as [[h l] r] eqn:E. cbn [fst snd].
  assert (fst (fst (mrun KBinary program start story)) = bin_memory) by (vm_compute; reflexivity).
  assert (snd (mrun KBinary program start story) = [Ok (MROther RUnit); Ok (MRItem got_bin)]) by (vm_compute; reflexivity).
  rewrite E in *. cbn [fst snd] in *. subst. reflexivity. Qed.
Ltac slices_ok := repeat first [apply Forall_nil | apply Forall_cons | split | exact Logic.I | cbn; lia].
Lemma call_event_ok : forall h o g, op_ok h o -> event_ok h (ECall o g).
Proof. intros h o g [V O]. split; [exact V|split; assumption]. Qed.
Lemma story_ok : forall k h l, k = text_kind \/ k = KBinary -> h = program -> events_ok k h l story.
Proof.
  intros k h l K ->. cbn [events_ok story]. split; [apply call_event_ok; split; [slices_ok|exact Logic.I]|].
  destruct (mstep k program l (ECall (MSet stored) [])) as [[h1 l1] r1]. split; [apply call_event_ok; split; [constructor|exact Logic.I]|].
  destruct (mstep k h1 l1 (ECall (MGet (B "k")) [])) as [[h2 l2] r2]. exact Logic.I.
Qed.

(** Appending one byte to the flags got by the binary client changes the first byte of the value. *)
Theorem C72_value_and_flags_are_independent_refuted : ~ C72_value_and_flags_are_independent.
Proof.
  intro H. specialize (H KBinary program start story _ _ _ got_bin (mkSlice 1 0 4 10) [] (B "!") (story_ok _ _ _ (or_intror eq_refl) eq_refl) bin_story
    ltac:(left; reflexivity) eq_refl). vm_compute in H. discriminate H.
Qed.
Print Assumptions C72_value_and_flags_are_independent_refuted.

(** Storing the first two bytes of a value the text client returned, value[:2], turns the value "abcdef" into
    "ab\r\nef". *)
Definition front : mitem := mkMItem (B "k2") (mkSlice 3 0 2 8) None 0 0 [].
Theorem C72_calls_change_no_item_refuted : ~ C72_calls_change_no_item.
Proof.
  intro H. set (l2 := snd (fst (mrun text_kind text_memory text_link [ECall (MSet front) []]))).
  assert (E : mrun text_kind text_memory text_link [ECall (MSet front) []] = ([B "abcdef"; B "abcdef" ++ crlf; be 4 0; B "ab" ++ crlf ++ B "ef" ++ crlf], l2, [Ok (MROther RUnit)])).
  { unfold l2. destruct (mrun text_kind text_memory text_link [ECall (MSet front) []]) as [[h l] r] eqn:E. cbn [fst snd].
    assert (fst (fst (mrun text_kind text_memory text_link [ECall (MSet front) []])) = [B "abcdef"; B "abcdef" ++ crlf; be 4 0; B "ab" ++ crlf ++ B "ef" ++ crlf]) by (vm_compute; reflexivity).
    assert (snd (mrun text_kind text_memory text_link [ECall (MSet front) []]) = [Ok (MROther RUnit)]) by (vm_compute; reflexivity).
    rewrite E in *. cbn [fst snd] in *. subst. reflexivity. }
  assert (O : events_ok text_kind program start (story ++ [ECall (MSet front) []])).
  { pose proof (story_ok text_kind program start (or_introl eq_refl) eq_refl) as S. pose proof text_story as T. unfold story in *. cbn [app events_ok mrun] in *.
    destruct (mstep text_kind program start (ECall (MSet stored) [])) as [[h1 l1] r1]. destruct S as [S1 [S2 _]]. split; [exact S1|split; [exact S2|]].
    destruct (mstep text_kind h1 l1 (ECall (MGet (B "k")) [])) as [[h2 l2'] r2]. injection T as -> -> _.
    split; [|destruct (mstep text_kind text_memory text_link (ECall (MSet front) [])) as [[h3 l3] r3]; exact Logic.I].
    apply call_event_ok. split; [slices_ok|exact Logic.I]. }
  specialize (H text_kind program start story [ECall (MSet front) []] _ _ _ _ _ _ got_text O text_story E ltac:(left; reflexivity) ltac:(repeat constructor)).
  vm_compute in H. discriminate H.
Qed.
Print Assumptions C72_calls_change_no_item_refuted.
(** The hypotheses are met: the item is got, then stored again (which writes behind its value), an array is
    made and written, and the item is unchanged. *)
Definition later_on : list mevent := [ECall (MSet got_text) []; EMake (B "xy"); EAssign (mkSlice 0 0 6 6) 0 "z"%char; ECall (MGet (B "k")) []].
Lemma later_ok : events_ok text_kind text_memory text_link later_on.
Proof.
  cbn [events_ok later_on]. split; [apply call_event_ok; split; [slices_ok|exact Logic.I]|]. destruct (mstep text_kind text_memory text_link (ECall (MSet got_text) [])) as [[h1 l1] r1] eqn:S1.
  assert (X : extends text_memory h1) by (refine (proj1 (mstep_frame _ _ _ _ _ _ _ _ S1)); apply call_event_ok; split; [slices_ok|exact Logic.I]).
  split; [split; [constructor|exact Logic.I]|]. cbn [mstep]. split; [split; [|exact Logic.I]|].
  - constructor; [|constructor]. apply valid_app. eapply valid_extends; [exact X|]. slices_ok.
  - split; [apply call_event_ok; split; [apply Forall_nil|exact Logic.I]|]. destruct (mcall _ _ _ _ _) as [[h3 l3] r3]. exact Logic.I.
Qed.
Example C72_met : events_ok text_kind program start story /\ events_ok text_kind text_memory text_link later_on /\ Forall (leaves_alone got_text) later_on /\ In got_text (returned [Ok (MROther RUnit); Ok (MRItem got_text)])
  /\ deref text_memory got_text = mkItem (B "k") (B "abcdef") (Some (be 4 0)) 0 1 (B "s")
  /\ length (returned (snd (mrun text_kind program start (story ++ later_on)))) = 2.
Proof.
  split; [apply story_ok; auto|]. split; [exact later_ok|]. split; [|split; [left; reflexivity|split; vm_compute; reflexivity]].
  repeat constructor. intros t [<-|[<-|[]]]; cbn; lia.
Qed.

(** ** C73: a call sees the contents its slices have when it is made *)

(** A call whose items are in memory does, from every state, what the call with the contents of its slices
    does (so that all theorems on calls hold of it), and the returned item has the contents that call
    returns. With the binary client this needs flags of at least four bytes or without room for four. *)
Theorem C73_calls_send_the_contents_partial : forall k grown h l o h' l' r,
  op_ok h o -> flags_complete k o -> mcall k grown h l o = (h', l', r) ->
  call (client_of k) l (deref_op h o) = (l', omap (deref_result h') r).
Proof.
  intros k grown h l o h' l' r O G E. unfold mcall in E. unfold call. rewrite <- (req_same k grown h (l_header l) o O G).
  destruct (m_req k grown h (l_header l) o) as [h1 [rq hd]]. cbn [fst snd]. destruct rq as [rq|e|].
  - destruct (daemon (cl_wire (client_of k)) (l_cache l) (l_pending l ++ rq)) as [[c' reply] pending'].
    destruct (resp_reads k h o O h1 (l_unread l ++ reply)) as (o' & x & s' & Em & Er & _). rewrite Em in E. injection E as <- <- <-. rewrite Er. reflexivity.
  - injection E as <- <- <-. reflexivity.
  - injection E as <- <- <-. reflexivity.
Qed.
Print Assumptions C73_calls_send_the_contents_partial.
(** The same for whole histories: the results, with the contents they had when they were returned. *)
Fixpoint views (k : kind) (h : heap) (l : link) (evs : list mevent) : list (outcome result) :=
  match evs with
  | [] => []
  | e :: evs' => let '(h1, l1, r1) := mstep k h l e in map (omap (deref_result h1)) r1 ++ views k h1 l1 evs'
  end.
(** The calls with the contents their arguments had when they were made. *)
Fixpoint as_values (k : kind) (h : heap) (l : link) (evs : list mevent) : list event :=
  match evs with
  | [] => []
  | e :: evs' => let '(h1, l1, _) := mstep k h l e in
                 match e with ECall o _ => [Do (deref_op h o)] | EWait d => [Wait d] | _ => [] end ++ as_values k h1 l1 evs'
  end.
Theorem C73_histories_partial : forall k evs h l, events_ok k h l evs ->
  Forall (fun e => match e with ECall o _ => flags_complete k o | _ => True end) evs ->
  run (client_of k) l (as_values k h l evs) = (snd (fst (mrun k h l evs)), views k h l evs).
Proof.
  intros k evs. induction evs as [|e evs IH]; intros h l O F; [reflexivity|]. inversion F as [|? ? F1 F2]; subst. cbn [events_ok as_values views mrun] in *. destruct O as [O1 O2].
  destruct (mstep k h l e) as [[h1 l1] r1] eqn:S. specialize (IH h1 l1 O2 F2). destruct (mrun k h1 l1 evs) as [[h2 l2] r2]. cbn [fst snd] in *.
  destruct e as [o grown|d|s i c|s d grown|b]; cbn [mstep] in S; cbn [app].
  - destruct (mcall k grown h l o) as [[h' l'] r] eqn:C. injection S as <- <- <-. cbn [run map app]. rewrite (C73_calls_send_the_contents_partial k grown h l o h' l' r (proj2 O1) F1 C). cbn [fst snd]. rewrite IH. reflexivity.
  - injection S as <- <- <-. cbn [run map app]. exact IH.
  - injection S as <- <- <-. exact IH.
  - injection S as <- <- <-. exact IH.
  - injection S as <- <- <-. exact IH.
Qed.
Print Assumptions C73_histories_partial.

(** Desired for every item: what a call sends depends on the contents of the item's slices only. *)
Definition C73_calls_send_the_contents : Prop := forall k grown h l o h' l' r,
  op_ok h o -> mcall k grown h l o = (h', l', r) -> call (client_of k) l (deref_op h o) = (l', omap (deref_result h') r).
(** Flags of two bytes with two more behind them, "secret" of the program: the binary client sends them. *)
Definition short_flags : mitem := mkMItem (B "k") (mkSlice 0 0 1 1) (Some (mkSlice 1 0 2 4)) 0 0 [].
Definition secrets : heap := [B "v"; B "abXY"].
Theorem C73_calls_send_the_contents_refuted : ~ C73_calls_send_the_contents.
Proof.
  intro H. destruct (mcall KBinary [] secrets start (MSet short_flags)) as [[h' l'] r] eqn:E.
  specialize (H KBinary [] secrets start (MSet short_flags) h' l' r ltac:(split; [slices_ok|exact Logic.I]) E).
  assert (R : snd (mcall KBinary [] secrets start (MSet short_flags)) = Ok (MROther RUnit)) by (vm_compute; reflexivity). rewrite E in R. cbn [snd] in R. subst r.
  assert (Q : snd (call bin_client start (deref_op secrets (MSet short_flags))) = Panic) by (vm_compute; reflexivity).
  cbn [client_of] in H. rewrite H in Q. discriminate Q.
Qed.
Print Assumptions C73_calls_send_the_contents_refuted.
(** What is sent: the four bytes of the array, whatever the length of the flags. *)
Theorem C73_binary_sends_bytes_behind_the_flags : forall grown h rh i f, Forall (valid h) (item_slices i) -> mi_flags i = Some f -> 4 <= s_cap f ->
  exists before after, snd (m_req KBinary grown h rh (MSet i))
    = (Ok (before ++ firstn 4 (skipn (s_off f) (array h (s_arr f))) ++ after), m_store_header op_set i) /\ length before = 24.
Proof.
  intros grown h rh i f V Fi C. cbn [m_req snd]. unfold m_bin_store_req. rewrite Fi. unfold reslice. destruct (Z.leb_spec 4 (Z.of_nat (s_cap f))); [|lia].
  cbn [Z.leb Z.compare andb]. change (Z.to_nat (4 - 0)) with 4. change (Z.to_nat 0) with 0. unfold contents at 1. cbn [s_len s_off s_arr]. rewrite Nat.add_0_r.
  eexists _, _. split; [reflexivity|reflexivity].
Qed.
Print Assumptions C73_binary_sends_bytes_behind_the_flags.
Example C73_met : op_ok program (MSet stored) /\ flags_complete KBinary (MSet got_bin) /\ events_ok text_kind program start story
  /\ as_values text_kind program start story = [Do (OSet (mkItem (B "k") (B "abcdef") None 0 0 [])); Do (OGet (B "k"))]
  /\ views text_kind program start story = [Ok RUnit; Ok (RItem (mkItem (B "k") (B "abcdef") (Some (be 4 0)) 0 1 (B "s")))].
Proof.
  split; [split; [slices_ok|exact Logic.I]|]. split; [left; cbn; lia|]. split; [apply story_ok; auto|]. split; vm_compute; reflexivity.
Qed.
