(** * Properties C09-C16, C21, C23, C53-C56: one client connected to a conforming memcached.

    Statements only; the proofs are in PText.v, PMeta.v, PBinary.v and PClient.v. The specification
    is Cache.v (the cache), Spec.v (what each call should return) and Daemon.v (the wire protocols). *)
From Verif Require Import GoBytes GoNum GoIO Item ClientText ClientMeta ClientBinary Cache Daemon Spec Intent Call
  Guard PLib PDaemon PCache PText PMeta PBinary PClient.
Local Open Scope Z_scope.

(** ** A concrete server and history used by the examples *)
Definition demo_cf : config := mkConfig 1048576 (B "1.6.9") false.
Definition demo_c : cache := empty_cache demo_cf 1000000.
Definition demo_item (k v : string) (f e u : Z) : item := mkItem (B k) (B v) (Some (be 4 f)) e u [].
Definition demo_evs : list event :=
  [ Do (OSet (demo_item "a" "one" 7 0 0)); Do (OGet (B "a")); Wait 3; Do (OSet (demo_item "b" "41" 0 100 0));
    Do (OIncr (B "b") 1 0); Do (OGetMulti [B "a"; B "b"]); Do (OReplace (demo_item "a" "uno" 9 0 0));
    Do (OGet (B "zz")); Do (ODelete (B "a")); Wait 200; Do (OGet (B "b")); Do OVersion; Do OFlush ].

Lemma demo_wf : forall pr cf now, wf_config cf -> 0 <= now -> wf pr (empty_cache cf now).
Proof. intros pr cf now W N. repeat split; try apply W; try assumption; try lia; discriminate. Qed.
Lemma demo_config : wf_config demo_cf.
Proof.
  split; [split; vm_compute; discriminate|]. split; [vm_compute; discriminate|].
  repeat (constructor; [split; vm_compute; discriminate|]). constructor.
Qed.
Ltac legal_tac := first [ apply legal_events_ok | apply legalb_ok | apply legal_itemb_ok | apply legal_keyb_ok ]; vm_compute; reflexivity.

(** ** C09-C11: the client is a faithful cache client *)

(** Every history of legal calls and waiting, from every well-formed server state, returns what the
    abstract cache returns, leaves the server in the abstract cache's state and leaves no byte
    unread in either direction. *)
Definition faithful (pr : proto) (name : bytes) : Prop :=
  forall c evs h, wf pr c -> c_cas c + zlen evs < cas_bound pr -> Forall (legal_event pr) evs -> rq_cas h = 0 ->
  exists l outs,
    run (client_of pr name) (fresh_link c h) evs = (l, outs)
    /\ clean l /\ l_cache l = fst (spec_run pr name c evs)
    /\ Forall2 agrees (snd (spec_run pr name c evs)) outs.

Theorem C09_text_client_is_faithful : forall name, faithful PText name.
Proof.
  intros name c evs h W C F Z. destruct (run_ok PText name evs c h W C F (safe_run_text _ _ _ _)) as (h' & outs & E & A).
  eexists. eexists. split; [exact E|]. repeat split. exact A.
Qed.
Print Assumptions C09_text_client_is_faithful.

Example C09_demo_met : wf PText demo_c /\ c_cas demo_c + zlen demo_evs < cas_bound PText /\ Forall (legal_event PText) demo_evs.
Proof.
  split; [apply demo_wf; [apply demo_config|lia]|]. split; [vm_compute; reflexivity|]. unfold demo_evs. legal_tac.
Qed.
(** ... and what the calls of that history return. *)
Example C09_demo_results : snd (run (text_client (B "s1")) (fresh_link demo_c reset_header) demo_evs)
  = [ Ok RUnit; Ok (RItem (mkItem (B "a") (B "one") (Some (be 4 7)) 0 1 (B "s1"))); Ok RUnit; Ok (RInt 42);
      Ok (RItems [mkItem (B "a") (B "one") (Some (be 4 7)) 0 0 (B "s1"); mkItem (B "b") (B "42") (Some (be 4 0)) 0 0 (B "s1")]);
      Ok RUnit; Err ENotFound; Ok RUnit; Err ENotFound; Ok (RStr (B "1.6.9")); Ok RUnit ].
Proof. vm_compute. reflexivity. Qed.

(** Meta: all histories that avoid Touch, Delete of an absent key and GetMulti with an absent key. *)
Theorem C10_meta_client_is_faithful_partial : forall name c evs h,
  wf PMeta c -> c_cas c + zlen evs < cas_bound PMeta -> Forall (legal_event PMeta) evs ->
  safe_run PMeta name 0 c evs ->
  exists l outs,
    run meta_client (fresh_link c h) evs = (l, outs)
    /\ clean l /\ l_cache l = fst (spec_run PMeta name c evs)
    /\ Forall2 agrees (snd (spec_run PMeta name c evs)) outs.
Proof.
  intros name c evs h W C F S.
  destruct (run_ok PMeta name evs c h W C F) as (h' & outs & E & A).
  - eapply safe_run_last; [discriminate|exact S].
  - eexists. eexists. split; [exact E|]. repeat split. exact A.
Qed.
Print Assumptions C10_meta_client_is_faithful_partial.

Example C10_demo_met : wf PMeta demo_c /\ c_cas demo_c + zlen demo_evs < cas_bound PMeta
  /\ Forall (legal_event PMeta) demo_evs /\ safe_run PMeta [] 0 demo_c demo_evs.
Proof.
  split; [apply demo_wf; [apply demo_config|lia]|]. split; [vm_compute; reflexivity|]. split; [unfold demo_evs; legal_tac|].
  vm_compute. repeat (split; try exact I); try discriminate. repeat constructor; discriminate.
Qed.

(** The full statement fails for the meta client: deleting an absent key reports success. *)
Theorem C10_meta_client_refuted : ~ faithful PMeta [].
Proof.
  intro H. destruct (H demo_c [Do (ODelete (B "k"))] reset_header) as (l & outs & E & _ & _ & A).
  - apply demo_wf; [apply demo_config|lia].
  - vm_compute. reflexivity.
  - legal_tac.
  - reflexivity.
  - vm_compute in E. inversion E; subst. vm_compute in A. inversion A; subst. contradiction.
Qed.
Print Assumptions C10_meta_client_refuted.

(** Binary: all histories in which Set, Add and Touch succeed, the server answers a touch without
    extras, and no counter call follows an item with a cas number. *)
Theorem C11_binary_client_is_faithful_partial : forall name c evs h,
  wf PBinary c -> c_cas c + zlen evs < cas_bound PBinary -> Forall (legal_event PBinary) evs ->
  safe_run PBinary name (rq_cas h) c evs ->
  exists l outs,
    run bin_client (fresh_link c h) evs = (l, outs)
    /\ clean l /\ l_cache l = fst (spec_run PBinary name c evs)
    /\ Forall2 agrees (snd (spec_run PBinary name c evs)) outs.
Proof.
  intros name c evs h W C F S.
  destruct (run_ok PBinary name evs c h W C F S) as (h' & outs & E & A).
  eexists. eexists. split; [exact E|]. repeat split. exact A.
Qed.
Print Assumptions C11_binary_client_is_faithful_partial.

Definition demo_bin : list event :=
  [ Do (OSet (demo_item "a" "one" 7 0 0)); Do (OGet (B "a")); Do (OGet (B "q")); Do (OIncr (B "n") 5 60);
    Do (OIncr (B "n") 5 60); Do (OGetMulti [B "q"; B "a"; B "n"]); Do (OSet (demo_item "a" "two" 8 0 1));
    Do (OTouch (B "a") 10); Do (ODecr (B "n") 2 0); Do (OReplace (demo_item "zz" "x" 0 0 0)); Do (ODelete (B "q")) ].
Example C11_demo_met : wf PBinary demo_c /\ c_cas demo_c + zlen demo_bin < cas_bound PBinary
  /\ Forall (legal_event PBinary) demo_bin /\ safe_run PBinary [] 0 demo_c demo_bin.
Proof.
  split; [apply demo_wf; [apply demo_config|lia]|]. split; [vm_compute; reflexivity|]. split; [unfold demo_bin; legal_tac|].
  vm_compute. repeat (split; try exact I).
Qed.
Example C11_demo_results : snd (run bin_client (fresh_link demo_c reset_header) demo_bin)
  = [ Ok RUnit; Ok (RItem (mkItem (B "a") (B "one") (Some (be 4 7)) 0 1 [])); Err ENotFound; Ok (RInt 1); Ok (RInt 6);
      Ok (RItems [mkItem (B "a") (B "one") (Some (be 4 7)) 0 0 []; mkItem (B "n") (B "6") (Some (be 4 0)) 0 0 []]);
      Ok RUnit; Ok RUnit; Ok (RInt 4); Err ENotFound; Err ENotFound ].
Proof. vm_compute. reflexivity. Qed.

(** The full statement fails for the binary client: after a refused Add the body of the error reply
    is still in the connection and the next call cannot read its own reply. *)
Theorem C11_binary_client_refuted : ~ faithful PBinary [].
Proof.
  intro H. destruct (H demo_c [Do (OAdd (demo_item "k" "v" 0 0 0)); Do (OAdd (demo_item "k" "v" 0 0 0)); Do (OGet (B "k"))] reset_header)
    as (l & outs & E & [_ U] & _ & A).
  - apply demo_wf; [apply demo_config|lia].
  - vm_compute. reflexivity.
  - legal_tac.
  - reflexivity.
  - vm_compute in E. inversion E; subst. vm_compute in U. discriminate.
Qed.
Print Assumptions C11_binary_client_refuted.
