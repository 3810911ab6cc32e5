(** The attribute cache: db/src/cache.rs, and its use in src/conn.rs and transaction/src/lib.rs. *)
From Verif Require Export M_Conn.

(* ---------------------------------------------------------------- four kinds of maps *)

(** cache.rs:252-256 SingleValAttributeCache, 316-320 MultiValAttributeCache, 388-392 UniqueReverseAttributeCache, 446-450
    NonUniqueReverseAttributeCache, without the field [attr], which is never set: [None] and the empty collection mean "deleted". *)
Notation single_map := (gmap Z (option typed_value)).
Notation multi_map := (gmap Z (list typed_value)).
Notation unique_map := (gmap typed_value (option Z)).
Notation nonunique_map := (gmap typed_value (gset Z)).

Notation ev := (Z * typed_value)%type.
(** cache.rs:284-304, 307-309 *)
Definition single_remove (m : single_map) (x : ev) : single_map := <[x.1 := None]> m.
Definition single_set (m : single_map) (x : ev) : single_map := <[x.1 := Some x.2]> m.
(** cache.rs:356-372 (with remove_every, 96-100), 375-377 *)
Definition multi_remove (m : multi_map) (x : ev) : multi_map := alter (filter (fun v => v <> x.2)) x.1 m.
Definition multi_acc (m : multi_map) (x : ev) : multi_map := <[x.1 := default [] (m !! x.1) ++ [x.2]]> m.
(** cache.rs:408-429, 433-435 *)
Definition unique_remove (m : unique_map) (x : ev) : unique_map := <[x.2 := None]> m.
Definition unique_set (m : unique_map) (x : ev) : unique_map := <[x.2 := Some x.1]> m.
(** cache.rs:473-488, 492-494 *)
Definition nonunique_remove (m : nonunique_map) (x : ev) : nonunique_map := alter (fun es => es ∖ {[x.1]}) x.2 m.
Definition nonunique_acc (m : nonunique_map) (x : ev) : nonunique_map := <[x.2 := default ∅ (m !! x.2) ∪ {[x.1]}]> m.

(** cache.rs:106-122 Absorb for CacheMap: deletions are carried out. *)
Definition absorb_opt {K V} `{Countable K} (mine other : gmap K (option V)) : gmap K (option V) :=
  merge (fun m o => match o with Some (Some v) => Some (Some v) | Some None => None | None => m end) mine other.
(** cache.rs:322-335, 452-465 *)
Definition absorb_multi (mine other : multi_map) : multi_map :=
  merge (fun m o => match o with Some [] => None | Some vs => Some vs | None => m end) mine other.
Definition absorb_nonunique (mine other : nonunique_map) : nonunique_map :=
  merge (fun m o => match o with Some es => if decide (es = ∅) then None else Some es | None => m end) mine other.
(** cache.rs:132-152 extend_by_absorbing *)
Definition extend_by_absorbing {V} (f : V -> V -> V) (mine other : gmap Z V) : gmap Z V :=
  merge (fun m o => match m, o with Some m, Some o => Some (f m o) | None, o => o | m, None => m end) mine other.

(* ---------------------------------------------------------------- AttributeCaches *)

(** cache.rs:650-660 *)
Record caches := Caches {
  ca_rev : gset Z; ca_fwd : gset Z;
  ca_single : gmap Z single_map; ca_multi : gmap Z multi_map; ca_unique : gmap Z unique_map; ca_nonunique : gmap Z nonunique_map }.
Definition caches_empty : caches := Caches ∅ ∅ ∅ ∅ ∅ ∅.

(** cache.rs:633-646 *)
Inductive behavior := BAdd (replacing : bool) | BRemove.
Definition is_replacing (b : behavior) : bool := match b with BAdd r => r | BRemove => false end.

(** with_aev_iter (cache.rs:501-511) over the rows of one attribute, 513-631 *)
Definition accumulate {M} (empty : M) (add remove : M -> ev -> M) (b : behavior) (evs : list ev) (m : M) : M :=
  match b with
  | BAdd replacing => fold_left add evs (if replacing then empty else m)
  | BRemove => fold_left remove evs m
  end.
(** cache.rs:671-812: the map of an attribute is made when first used, from the fallback's if there is one. *)
Definition entry_or_copy {M} (empty : M) (fallback : option (gmap Z M)) (m : gmap Z M) (a : Z) : M :=
  default (default empty (fallback ≫= (.!! a))) (m !! a).

(** cache.rs:816-960 accumulate_evs, for all rows of one attribute.  The eight arms of the match are the combinations of a forward and
    a reverse part, which touch different maps.  For an attribute that the schema does not know the iterator is not advanced, and the
    loop in accumulate_into_cache does not end. *)
Definition accumulate_evs (fallback : option caches) (s : schema) (b : behavior) (c : caches) (x : Z * list ev) : res caches :=
  let '(a, evs) := x in
  match sc_attribute_map s !! a with
  | None => Panic PHang
  | Some at_ =>
      let fwd := bool_decide (a ∈ ca_fwd c) in
      let rev := bool_decide (a ∈ ca_rev c) in
      let forward_fallback := if fwd && negb (is_replacing b) then fallback ≫= fun f => if decide (a ∈ ca_fwd f) then Some f else None else None in
      let reverse_fallback := if rev && negb (is_replacing b) then fallback ≫= fun f => if decide (a ∈ ca_rev f) then Some f else None else None in
      if negb fwd && negb rev then Panic PCacheCoding else
      let c :=
        if fwd then
          if at_multival at_
          then Caches (ca_rev c) (ca_fwd c) (ca_single c)
                 (<[a := accumulate ∅ multi_acc multi_remove b evs (entry_or_copy ∅ (ca_multi <$> forward_fallback) (ca_multi c) a)]> (ca_multi c))
                 (ca_unique c) (ca_nonunique c)
          else Caches (ca_rev c) (ca_fwd c)
                 (<[a := accumulate ∅ single_set single_remove b evs (entry_or_copy ∅ (ca_single <$> forward_fallback) (ca_single c) a)]> (ca_single c))
                 (ca_multi c) (ca_unique c) (ca_nonunique c)
        else c in
      Ok (if rev then
            if at_unique at_
            then Caches (ca_rev c) (ca_fwd c) (ca_single c) (ca_multi c)
                   (<[a := accumulate ∅ unique_set unique_remove b evs (entry_or_copy ∅ (ca_unique <$> reverse_fallback) (ca_unique c) a)]> (ca_unique c))
                   (ca_nonunique c)
            else Caches (ca_rev c) (ca_fwd c) (ca_single c) (ca_multi c) (ca_unique c)
                   (<[a := accumulate ∅ nonunique_acc nonunique_remove b evs (entry_or_copy ∅ (ca_nonunique <$> reverse_fallback) (ca_nonunique c) a)]> (ca_nonunique c))
          else c)
  end.

(** Rows (a, e, v), cut into runs of the same attribute *)
Notation aev := (Z * Z * typed_value)%type.
Fixpoint runs (l : list aev) : list (Z * list ev) :=
  match l with
  | [] => []
  | (a, e, v) :: l =>
      match runs l with
      | (a', evs) :: r => if decide (a = a') then (a, (e, v) :: evs) :: r else (a, [(e, v)]) :: (a', evs) :: r
      | [] => [(a, [(e, v)])]
      end
  end.
(** cache.rs:962-976 accumulate_into_cache *)
Definition accumulate_into (fallback : option caches) (s : schema) (b : behavior) (c : caches) (l : list aev) : res caches :=
  rfold (accumulate_evs fallback s b) c (runs l).

(** cache.rs:991-1002, 978-989 *)
Definition unregister_attribute (c : caches) (a : Z) : caches :=
  Caches (ca_rev c ∖ {[a]}) (ca_fwd c ∖ {[a]}) (delete a (ca_single c)) (delete a (ca_multi c)) (delete a (ca_unique c)) (delete a (ca_nonunique c)).

(** cache.rs:186-193 row_to_aev *)
Definition row_to_aev (d : datom) : res aev :=
  match from_sql_value_pair (d_v d) (d_tag d) with Ok v => Ok (d_a d, d_e d, v) | _ => Panic PCacheDecode end.
Definition entity_le (d d' : datom) : Prop := d_e d <= d_e d'.
Global Instance entity_le_dec d d' : Decision (entity_le d d') := decide (d_e d <= d_e d').
(** The statement of cache.rs:1040-1064 repopulate; rows of the same entity come in the order of the table. *)
Definition attribute_rows (st : store) (s : schema) (a : Z) : list datom :=
  merge_sort entity_le
    (if match sc_attribute_map s !! a with Some at_ => at_fulltext at_ | None => false end
     then filter (fun d => d_a d = a /\ d_ft d = true) (all_datoms st)
     else filter (fun d => d_a d = a) (st_datoms st)).
(** cache.rs:1040-1085 repopulate, repopulate_from_aevt *)
Definition repopulate (st : store) (s : schema) (c : caches) (a : Z) : res caches :=
  let! rows := rmapM row_to_aev (attribute_rows st s a) in
  accumulate_into None s (BAdd true) c rows.

(** cache.rs:1291-1353 CachedAttributes for AttributeCaches, 1388-1421 value_pairs, values_pairs *)
Definition value_pairs (c : caches) (s : schema) (a : Z) : option single_map :=
  sc_attribute_map s !! a ≫= fun at_ => if at_multival at_ then None else ca_single c !! a.
Definition values_pairs (c : caches) (s : schema) (a : Z) : option multi_map :=
  sc_attribute_map s !! a ≫= fun at_ => if at_multival at_ then ca_multi c !! a else None.
Definition get_values (c : caches) (s : schema) (a e : Z) : option (list typed_value) := values_pairs c s a ≫= (.!! e).
Definition get_value (c : caches) (s : schema) (a e : Z) : option typed_value := value_pairs c s a ≫= fun m => mjoin (m !! e).
Definition is_cached_reverse (c : caches) (a : Z) : bool := bool_decide (a ∈ ca_rev c).
Definition is_cached_forward (c : caches) (a : Z) : bool := bool_decide (a ∈ ca_fwd c).
Definition has_cached (c : caches) : bool := negb (bool_decide (ca_rev c = ∅)) || negb (bool_decide (ca_fwd c = ∅)).
Definition get_entid (c : caches) (a : Z) (v : typed_value) : option Z :=
  if is_cached_reverse c a then ca_unique c !! a ≫= fun m => mjoin (m !! v) else None.
Definition get_entids (c : caches) (a : Z) (v : typed_value) : option (gset Z) :=
  if is_cached_reverse c a then ca_nonunique c !! a ≫= (.!! v) else None.
(** cache.rs:1007-1035: found, perhaps as deleted.  For values a deletion is not distinguished from a miss. *)
Definition get_entid_if_present (c : caches) (a : Z) (v : typed_value) : option (option Z) :=
  if is_cached_reverse c a then ca_unique c !! a ≫= (.!! v) else None.
Definition get_value_if_present (c : caches) (s : schema) (a e : Z) : option (option typed_value) :=
  match value_pairs c s a ≫= (.!! e) with Some (Some v) => Some (Some v) | _ => None end.

(** cache.rs:1366-1386 *)
Definition update_with_fallback (fallback : option caches) (s : schema) (c : caches) (retractions assertions : list aev) : res caches :=
  let! c := accumulate_into fallback s BRemove c retractions in
  accumulate_into fallback s (BAdd false) c assertions.

(** cache.rs:1425-1443 Absorb for AttributeCaches *)
Definition caches_absorb (c o : caches) : caches :=
  Caches (ca_rev c ∪ ca_rev o) (ca_fwd c ∪ ca_fwd o)
    (extend_by_absorbing absorb_opt (ca_single c) (ca_single o)) (extend_by_absorbing absorb_multi (ca_multi c) (ca_multi o))
    (extend_by_absorbing absorb_opt (ca_unique c) (ca_unique o)) (extend_by_absorbing absorb_nonunique (ca_nonunique c) (ca_nonunique o)).

(* ---------------------------------------------------------------- SQLiteAttributeCache *)

(** transaction/src/lib.rs:72-82 *)
Inductive direction := DForward | DReverse | DBoth.
Definition goes_forward (d : direction) : bool := match d with DReverse => false | _ => true end.
Definition goes_reverse (d : direction) : bool := match d with DForward => false | _ => true end.
Definition mark (c : caches) (a : Z) (fwd rev : bool) : caches :=
  Caches (if rev then ca_rev c ∪ {[a]} else ca_rev c) (if fwd then ca_fwd c ∪ {[a]} else ca_fwd c)
    (ca_single c) (ca_multi c) (ca_unique c) (ca_nonunique c).
(** cache.rs:1460-1518 register_forward, register_reverse, register.  Callers have looked the attribute up, so it exists. *)
Definition cache_register (st : store) (s : schema) (c : caches) (a : Z) (d : direction) : res caches :=
  repopulate st s (mark c a (goes_forward d) (goes_reverse d)) a.

(* ---------------------------------------------------------------- InProgressSQLiteAttributeCache *)

(** cache.rs:1614-1620 *)
Record overlaid := Overlaid { ov_inner : caches; ov_overlay : caches; ov_unfwd : gset Z; ov_unrev : gset Z }.
(** cache.rs:1453-1458 make_override, 1623-1631 from_cache *)
Definition ov_from (c : caches) : overlaid := Overlaid c (Caches (ca_rev c) (ca_fwd c) ∅ ∅ ∅ ∅) ∅ ∅.

(** cache.rs:1747-1857 CachedAttributes for InProgressSQLiteAttributeCache *)
Definition ov_cached_reverse (o : overlaid) (a : Z) : bool :=
  negb (bool_decide (a ∈ ov_unrev o)) && (is_cached_reverse (ov_inner o) a || is_cached_reverse (ov_overlay o) a).
Definition ov_cached_forward (o : overlaid) (a : Z) : bool :=
  negb (bool_decide (a ∈ ov_unfwd o)) && (is_cached_forward (ov_inner o) a || is_cached_forward (ov_overlay o) a).
Definition ov_has_cached (o : overlaid) : bool :=
  if has_cached (ov_overlay o) then true
  else if bool_decide (ov_unfwd o = ∅) && bool_decide (ov_unrev o = ∅) then has_cached (ov_inner o)
  else negb (bool_decide (ca_fwd (ov_inner o) ⊆ ov_unfwd o)) || negb (bool_decide (ca_rev (ov_inner o) ⊆ ov_unrev o)).
Definition ov_get_values (o : overlaid) (s : schema) (a e : Z) : option (list typed_value) :=
  if decide (a ∈ ov_unfwd o) then None
  else match get_values (ov_overlay o) s a e with Some vs => Some vs | None => get_values (ov_inner o) s a e end.
Definition ov_get_value (o : overlaid) (s : schema) (a e : Z) : option typed_value :=
  if decide (a ∈ ov_unfwd o) then None
  else match get_value_if_present (ov_overlay o) s a e with Some present => present | None => get_value (ov_inner o) s a e end.
Definition ov_get_entids (o : overlaid) (a : Z) (v : typed_value) : option (gset Z) :=
  if decide (a ∈ ov_unrev o) then None
  else match get_entids (ov_overlay o) a v with Some es => Some es | None => get_entids (ov_inner o) a v end.
Definition ov_get_entid (o : overlaid) (a : Z) (v : typed_value) : option Z :=
  if decide (a ∈ ov_unrev o) then None
  else match get_entid_if_present (ov_overlay o) a v with Some present => present | None => get_entid (ov_inner o) a v end.

(** cache.rs:1633-1717 *)
Definition ov_register (st : store) (s : schema) (o : overlaid) (a : Z) (d : direction) : res overlaid :=
  let fdone := negb (goes_forward d) || ov_cached_forward o a in
  let rdone := negb (goes_reverse d) || ov_cached_reverse o a in
  if fdone && rdone then Ok o else
  let! c := repopulate st s (mark (ov_overlay o) a (negb fdone) (negb rdone)) a in
  Ok (Overlaid (ov_inner o) c (if goes_forward d then ov_unfwd o ∖ {[a]} else ov_unfwd o)
                              (if goes_reverse d then ov_unrev o ∖ {[a]} else ov_unrev o)).
(** cache.rs:1719-1727 *)
Definition ov_unregister (o : overlaid) (a : Z) : overlaid :=
  Overlaid (ov_inner o) (unregister_attribute (ov_overlay o) a) (ov_unfwd o ∪ {[a]}) (ov_unrev o ∪ {[a]}).

(** cache.rs:1891-1928 commit_to.  [shared]: somebody else holds a reference to the connection's cache. *)
Definition commit_to (o : overlaid) (dest : caches) (shared : bool) : res caches :=
  if negb (has_cached dest) then Ok (ov_overlay o)
  else if shared then Panic PCommitCache
  else Ok (caches_absorb (fold_left unregister_attribute (elements (ov_unfwd o ∪ ov_unrev o)) dest) (ov_overlay o)).

(** cache.rs:1950-1981: what the watcher collects for one kind of event, by attribute, in the order of the events *)
Definition collect (o : overlaid) (k : op) (evs : list event) : gmap Z (list ev) :=
  fold_left (fun m (x : event) => let '(k', e, a, v) := x in
    if bool_decide (k' = k) && (ov_cached_forward o a || ov_cached_reverse o a) then <[a := default [] (m !! a) ++ [(e, v)]]> m else m) evs ∅.
(** cache.rs:1983-2007: flattened in the order of the attributes *)
Definition flatten (m : gmap Z (list ev)) : list aev :=
  flat_map (fun a => map (fun x : ev => (a, x.1, x.2)) (default [] (m !! a))) (merge_sort Z.le (elements (dom m))).
(** cache.rs:1738-1745, 1931-2008: the watcher's [datom] and [done] *)
Definition ov_watch (o : overlaid) (s : schema) (w : watched) : res overlaid :=
  match wa_done w with
  | None => Ok o
  | Some _ =>
      let told := if ov_has_cached o then wa_events w else [] in
      let! c := update_with_fallback (Some (ov_inner o)) s (ov_overlay o) (flatten (collect o ORetract told)) (flatten (collect o OAdd told)) in
      Ok (Overlaid (ov_inner o) c (ov_unfwd o) (ov_unrev o))
  end.

(* ---------------------------------------------------------------- connections with caches *)

(** conn.rs:55-67, metadata.rs:19 *)
Record cconn := CConn { cc_conn : conn; cc_cache : caches }.
(** lib.rs:88-98 *)
Record cinprog := CInProg { ci_ig : inprog; ci_cache : overlaid }.
Definition cc_begin (c : cconn) : cinprog := CInProg (conn_begin (cc_conn c)) (ov_from (cc_cache c)).

(** core/src/lib.rs attribute_for_ident *)
Definition attribute_for_ident (s : schema) (k : keyword) : res Z :=
  ok_or (sc_ident_map s !! k ≫= fun a => if sc_attribute_map s !! a then Some a else None) EUnrecognizedIdent.

(** The calls on an InProgress: those of M_Conn, and [cache] *)
Inductive cip_op :=
  | CiOp (o : ip_op)
  | CiCache (k : keyword) (d : direction) (register : bool).
(** What the watchers are told during a call *)
Definition told (mv : Z) (ig : inprog) (o : ip_op) : watched :=
  match o with
  | OpTransact now es => watch_transact mv now (ig_store ig) (ig_parts ig) (ig_schema ig) es
  | OpTransactTerms now ts ids => watch_transact_terms mv now (ig_store ig) (ig_parts ig) (ig_schema ig) ts ids
  | _ => watched_nothing
  end.
(** lib.rs:170-229, 289-313 *)
Definition ci_step (mv : Z) (c : cinprog) (o : cip_op) : cinprog * res unit :=
  match o with
  | CiOp o =>
      match ov_watch (ci_cache c) (ig_schema (ci_ig c)) (told mv (ci_ig c) o) with
      | Ok cache => let '(ig, r) := ig_step mv (ci_ig c) o in (CInProg ig cache, r)
      | Err e => (c, Err e)
      | Panic p => (c, Panic p)
      end
  | CiCache k d register =>
      match attribute_for_ident (ig_schema (ci_ig c)) k with
      | Ok a =>
          if register then
            match ov_register (ig_store (ci_ig c)) (ig_schema (ci_ig c)) (ci_cache c) a d with
            | Ok cache => (CInProg (ci_ig c) cache, Ok tt)
            | Err e => (c, Err e)
            | Panic p => (c, Panic p)
            end
          else (CInProg (ci_ig c) (ov_unregister (ci_cache c) a), Ok tt)
      | Err e => (c, Err e)
      | Panic p => (c, Panic p)
      end
  end.
Fixpoint ci_steps (mv : Z) (c : cinprog) (l : list cip_op) : res (cinprog * list (res unit)) :=
  match l with
  | [] => Ok (c, [])
  | o :: l =>
      match ci_step mv c o with
      | (_, Panic p) => Panic p
      | (c, r) => let! (c, rs) := ci_steps mv c l in Ok (c, r :: rs)
      end
  end.

(** lib.rs:251-287 commit.  A panic of [commit_to] comes after SQLite's commit, before the schema is replaced. *)
Definition cc_commit (c : cconn) (i : cinprog) (shared : bool) : cconn * res unit :=
  match conn_commit (cc_conn c) (ci_ig i) with
  | Ok (c', _) =>
      match commit_to (ci_cache i) (cc_cache c) shared with
      | Ok cache => (CConn c' cache, Ok tt)
      | Err e => (c, Err e)
      | Panic p => (CConn (Conn (cn_disk c') (Metadata (md_gen (cn_md c')) (md_parts (cn_md c')) (md_schema (cn_md (cc_conn c))))) (cc_cache c), Panic p)
      end
  | Err e => (c, Err e)
  | Panic p => (c, Panic p)
  end.

(** What a program does with a file and a connection: the calls of M_Conn, and Conn::cache (conn.rs:326-358; with the connection's own
    schema, as Store::cache does, store.rs:146-155).  Connections start without caches. *)
Inductive cc_op :=
  | CcTransact (now : Z) (es : list entity) (shared : bool)
  | CcSession (l : list cip_op) (commit shared : bool)
  | CcCache (k : keyword) (d : direction) (register : bool)
  | CcReopen.
Definition cc_session (mv : Z) (c : cconn) (l : list cip_op) (commit shared : bool) : cconn * res unit :=
  match ci_steps mv (cc_begin c) l with
  | Ok (i, _) => if commit then cc_commit c i shared else (c, Ok tt)
  | Err e => (c, Err e)
  | Panic p => (c, Panic p)
  end.
Definition cc_step (mv : Z) (c : cconn) (o : cc_op) : cconn * res unit :=
  match o with
  | CcTransact now es shared =>
      match ci_step mv (cc_begin c) (CiOp (OpTransact now es)) with
      | (i, Ok _) => cc_commit c i shared
      | (_, Err e) => (c, Err e)
      | (_, Panic p) => (c, Panic p)
      end
  | CcSession l commit shared => cc_session mv c l commit shared
  | CcCache k d register =>
      match attribute_for_ident (md_schema (cn_md (cc_conn c))) k with
      | Ok a =>
          if register then
            match cache_register (cn_disk (cc_conn c)) (md_schema (cn_md (cc_conn c))) (cc_cache c) a d with
            | Ok cache => (CConn (cc_conn c) cache, Ok tt)
            | Err e => (c, Err e)
            | Panic p => (c, Panic p)
            end
          else (CConn (cc_conn c) (unregister_attribute (cc_cache c) a), Ok tt)
      | Err e => (c, Err e)
      | Panic p => (c, Panic p)
      end
  | CcReopen =>
      match conn_open mv 0 (Some (cn_disk (cc_conn c))) with
      | Ok c' => (CConn c' caches_empty, Ok tt)
      | Err e => (c, Err e)
      | Panic p => (c, Panic p)
      end
  end.
Definition cc_run (mv : Z) (c : cconn) (l : list cc_op) : cconn := fold_left (fun c o => (cc_step mv c o).1) l c.
