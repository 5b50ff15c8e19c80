(** * SPECIFICATION (not repository code): the one server command each client operation stands for,
    as its effect on the cache and the reply the server prints for it. *)
From Verif Require Import GoBytes GoNum GoIO Item Cache Daemon Spec.
Local Open Scope Z_scope.

Definition run_store (c : cache) (i : item) : cache * store_result :=
  if it_cas i =? 0 then cache_set c (it_key i) (it_value i) (item_flags i) (it_exp i)
  else cache_cas c (it_key i) (it_value i) (item_flags i) (it_exp i) (it_cas i).
Definition run_add (c : cache) (i : item) : cache * store_result :=
  cache_add c (it_key i) (it_value i) (item_flags i) (it_exp i).
Definition run_replace (c : cache) (i : item) : cache * store_result :=
  cache_replace c (it_key i) (it_value i) (item_flags i) (it_exp i).

(** The classic command: gets, set/cas, add, replace, delete, incr, decr, touch, flush_all, version. *)
Definition text_intent (c : cache) (o : op) : cache * bytes :=
  match o with
  | OGet k => (c, get_reply true c [k])
  | OGetMulti ks => (c, get_reply true c ks)
  | OSet i => (fst (run_store c i), text_store_reply (snd (run_store c i)))
  | OAdd i => (fst (run_add c i), text_store_reply (snd (run_add c i)))
  | OReplace i => (fst (run_replace c i), text_store_reply (snd (run_replace c i)))
  | ODelete k => (fst (cache_delete c k),
                  if snd (cache_delete c k) then B "DELETED" ++ eol else B "NOT_FOUND" ++ eol)
  | OIncr k d _ => (fst (cache_delta true c k d), text_delta_reply (snd (cache_delta true c k d)))
  | ODecr k d _ => (fst (cache_delta false c k d), text_delta_reply (snd (cache_delta false c k d)))
  | OTouch k e => (fst (cache_touch c k e),
                   if snd (cache_touch c k e) then B "TOUCHED" ++ eol else B "NOT_FOUND" ++ eol)
  | OFlush => (cache_flush c, B "OK" ++ eol)
  | OVersion => (c, B "VERSION " ++ cf_version (c_cfg c) ++ eol)
  end.

(** The commands of the meta client: mg (with mn after a GetMulti), ms, add, replace, md, incr,
    decr, flush_all, version. Touch is [md k I T]: an invalidation (C21_meta_touch_refuted). *)
Definition meta_get_flags (multi : bool) : list bytes :=
  if multi then [B "v"; B "f"; B "k"; B "c"; B "t"] else [B "v"; B "f"; B "c"; B "t"].
Definition meta_intent (c : cache) (o : op) : cache * bytes :=
  match o with
  | OGet k => (c, meta_get_reply c k (meta_get_flags false))
  | OGetMulti ks => (c, flat_map (fun k => meta_get_reply c k (meta_get_flags true)) ks ++ B "MN" ++ eol)
  | OSet i => (fst (run_store c i), meta_store_reply (snd (run_store c i)))
  | ODelete k => (fst (cache_delete c k), hd_nf (snd (cache_delete c k)))
  | OTouch k e => (fst (cache_invalidate c k (Some e)), hd_nf (snd (cache_invalidate c k (Some e))))
  | _ => text_intent c o
  end.

(** The binary client's commands: GET, GETKQ* NOOP, SET, ADD, REPLACE, DELETE, INCREMENT, DECREMENT
    (initial value 1), TOUCH, FLUSH, VERSION. *)
Definition bin_hit (opc : Z) (withkey : bool) (k : bytes) (e : entry) : bytes :=
  packet opc 0 (e_cas e) (be 4 (e_flags e)) (if withkey then k else []) (e_value e).
Definition bin_delta_packet (opc : Z) (cr : cache * delta_result) : bytes :=
  match snd cr with
  | DeltaOk n => packet opc 0 (c_cas (fst cr)) [] [] (be 8 n)
  | DeltaMissing => not_found_packet opc
  | DeltaMismatch => exists_packet opc
  | DeltaNonNumeric => packet opc 6 0 [] [] (B "Non-numeric server-side value for incr or decr")
  end.
Definition bin_intent (c : cache) (o : op) : cache * bytes :=
  match o with
  | OGet k => (c, match lookup c k with Some e => bin_hit 0 false k e | None => not_found_packet 0 end)
  | OGetMulti ks =>
      (c, flat_map (fun k => match lookup c k with Some e => bin_hit 13 true k e | None => [] end) ks
          ++ packet 10 0 0 [] [] [])
  | OSet i => (fst (run_store c i), bin_store_packet 1 (fst (run_store c i)) (snd (run_store c i)))
  | OAdd i => (fst (run_add c i), bin_store_packet 2 (fst (run_add c i)) (snd (run_add c i)))
  | OReplace i => (fst (run_replace c i), bin_store_packet 3 (fst (run_replace c i)) (snd (run_replace c i)))
  | ODelete k => (fst (cache_delete c k),
                  if snd (cache_delete c k) then packet 4 0 0 [] [] [] else not_found_packet 4)
  | OIncr k d e => (fst (bin_delta true c k d 1 e 0), bin_delta_packet 5 (bin_delta true c k d 1 e 0))
  | ODecr k d e => (fst (bin_delta false c k d 1 e 0), bin_delta_packet 6 (bin_delta false c k d 1 e 0))
  | OTouch k e =>
      (fst (cache_touch c k e),
       if snd (cache_touch c k e)
       then packet 28 0 0 (if cf_touch_extras (c_cfg c)
                           then match lookup c k with Some x => be 4 (e_flags x) | None => [] end else []) [] []
       else not_found_packet 28)
  | OFlush => (cache_flush c, packet 8 0 0 [] [] [])
  | OVersion => (c, packet 11 0 0 [] [] (cf_version (c_cfg c)))
  end.
