(** Connections and transactions in progress: src/conn.rs, transaction/src/lib.rs, db/src/tx_observer.rs:159-190. *)
From Verif Require Export M_Boot.

(* ---------------------------------------------------------------- what a transact tells its watcher *)

(** The calls a watcher sees (db/src/watcher.rs:29-37): a call of [datom] per event, and perhaps a call of [done] (tx.rs:886, 928).
    They are made before the metadata is looked at, so they are made even if the transaction fails there; the [datom] calls are made
    even if an insertion fails. *)
Record watched := Watched { wa_events : list event; wa_done : option Z }.
Definition watched_nothing : watched := Watched [] None.

(** tx.rs:837-928, the watcher's side of [apply_trie] *)
Definition watch_trie (mv now : Z) (act : action) (st : store) (s : schema) (tx : Z) (tr : trie) : watched :=
  if negb (trie_all entry_typed tr) then watched_nothing else
  if negb (trie_all entry_no_conflict tr) then watched_nothing else
  match get_or_insert_tx_instant s now tx tr with
  | Ok (_, tr) =>
      let l := trie_reduced tr in
      Watched (map reduced_event l)
        (match with_st (fill_searches mv st l) (fun st '(exact, inexact) => materialize act st tx exact inexact) with
         | (_, Ok _) => Some tx
         | _ => None
         end)
  | _ => watched_nothing
  end.
Definition watch_terms (mv now : Z) (act : action) (st : store) (pm : partition_map) (s : schema) (tx : Z)
    (ts : list term_t) (ids : gset tempid) : watched :=
  match (let! r := resolve_terms mv st pm s ts ids in into_aev_trie s (rv_resolved r) (rv_allocated r) (rv_inert r)) with
  | Ok tr => watch_trie mv now act st s tx tr
  | _ => watched_nothing
  end.
(** the watcher's side of [transact_terms] and [transact] *)
Definition watch_transact_terms (mv now : Z) (st : store) (pm : partition_map) (s : schema) (ts : list term_t) (ids : gset tempid)
    : watched :=
  match pm_allocate pm ":db.part/tx" 1 with
  | Ok (tx, pm) => watch_terms mv now MaterializeAndCommit st pm s tx ts ids
  | _ => watched_nothing
  end.
Definition watch_transact (mv now : Z) (st : store) (pm : partition_map) (s : schema) (es : list entity) : watched :=
  match pm_allocate pm ":db.part/tx" 1 with
  | Ok (tx, pm) =>
      match entities_to_terms mv st pm s tx es with
      | Ok (ts, ids) => watch_terms mv now MaterializeAndCommit st pm s tx ts ids
      | _ => watched_nothing
      end
  | _ => watched_nothing
  end.

(* ---------------------------------------------------------------- connections *)

(** transaction/src/metadata.rs:24-32 Metadata, without the attribute cache (M_Cache) *)
Record metadata := Metadata { md_gen : Z; md_parts : partition_map; md_schema : schema }.

(** src/conn.rs:55-67 Conn, together with the committed contents of the file it is used with. *)
Record conn := Conn { cn_disk : store; cn_md : metadata }.

(** transaction/src/lib.rs:88-98 InProgress.  [ig_store] is what the SQLite transaction sees, [ig_saves] its savepoints, innermost
    first; [ig_collected] and [ig_txes] are the observer watcher (tx_observer.rs:159-163). *)
Record inprog := InProg {
  ig_store : store; ig_gen : Z; ig_parts : partition_map; ig_schema : schema;
  ig_saves : list (string * store);
  ig_collected : gset Z; ig_txes : list (Z * gset Z) }.

(** db.rs:377-398 ensure_current_version; [None] is an empty file *)
Definition conn_open (mv now : Z) (file : option store) : res conn :=
  match file with
  | None => let! d := create_current_version mv now in
            Ok (Conn (db_store d) (Metadata 0 (db_parts d) (db_schema d)))
  | Some st => let! (pm, sc) := read_db st in Ok (Conn st (Metadata 0 pm sc))
  end.

(** conn.rs:226-259 begin_transaction_with_behavior *)
Definition conn_begin (c : conn) : inprog :=
  InProg (cn_disk c) (md_gen (cn_md c)) (md_parts (cn_md c)) (md_schema (cn_md c)) [] ∅ [].

(** IndexMap::insert: an existing key keeps its position *)
Fixpoint index_insert {V} (k : Z) (v : V) (l : list (Z * V)) : list (Z * V) :=
  match l with
  | [] => [(k, v)]
  | (k', v') :: l => if decide (k = k') then (k, v) :: l else (k', v') :: index_insert k v l
  end.

(** tx_observer.rs:174-190 *)
Definition ig_watch (ig : inprog) (w : watched) : inprog :=
  let attrs : gset Z := ig_collected ig ∪ list_to_set (map (fun '(_, _, a, _) => a) (wa_events w)) in
  match wa_done w with
  | Some tx => InProg (ig_store ig) (ig_gen ig) (ig_parts ig) (ig_schema ig) (ig_saves ig) ∅ (index_insert tx attrs (ig_txes ig))
  | None => InProg (ig_store ig) (ig_gen ig) (ig_parts ig) (ig_schema ig) (ig_saves ig) attrs (ig_txes ig)
  end.

(** lib.rs:186-192, 222-228: the partition map and the schema are replaced if the transact succeeded; what it wrote stays either
    way. *)
Definition ig_transacted (ig : inprog) (x : store * res txresult) : inprog * res txreport :=
  match x with
  | (st, Ok r) =>
      (InProg st (ig_gen ig) (tr_parts r) (default (ig_schema ig) (tr_schema r)) (ig_saves ig) (ig_collected ig) (ig_txes ig),
       Ok (tr_report r))
  | (st, Err e) =>
      (InProg st (ig_gen ig) (ig_parts ig) (ig_schema ig) (ig_saves ig) (ig_collected ig) (ig_txes ig), Err e)
  | (st, Panic p) =>
      (InProg st (ig_gen ig) (ig_parts ig) (ig_schema ig) (ig_saves ig) (ig_collected ig) (ig_txes ig), Panic p)
  end.

(** lib.rs:196-229 transact_entities, 170-194 transact_terms *)
Definition ig_transact (mv now : Z) (ig : inprog) (es : list entity) : inprog * res txreport :=
  ig_transacted (ig_watch ig (watch_transact mv now (ig_store ig) (ig_parts ig) (ig_schema ig) es))
    (transact mv now (ig_store ig) (ig_parts ig) (ig_schema ig) (ig_schema ig) es).
Definition ig_transact_terms (mv now : Z) (ig : inprog) (ts : list term_t) (ids : gset tempid) : inprog * res txreport :=
  ig_transacted (ig_watch ig (watch_transact_terms mv now (ig_store ig) (ig_parts ig) (ig_schema ig) ts ids))
    (transact_terms mv now MaterializeAndCommit (ig_store ig) (ig_parts ig) (ig_schema ig) (ig_schema ig) ts ids).

Definition ig_set (ig : inprog) (st : store) (saves : list (string * store)) : inprog :=
  InProg st (ig_gen ig) (ig_parts ig) (ig_schema ig) saves (ig_collected ig) (ig_txes ig).
(** From the innermost savepoint of the given name outwards *)
Fixpoint savepoints_from (n : string) (l : list (string * store)) : option (store * list (string * store)) :=
  match l with
  | [] => None
  | (m, st) :: l => if decide (n = m) then Some (st, l) else savepoints_from n l
  end.
(** lib.rs:319-335 savepoint, rollback_savepoint, release_savepoint.  Only SQLite is told; names that differ in case are the same
    savepoint to SQLite but not here. *)
Definition ig_savepoint (ig : inprog) (n : string) : inprog * res unit :=
  (ig_set ig (ig_store ig) ((n, ig_store ig) :: ig_saves ig), Ok tt).
Definition ig_rollback_savepoint (ig : inprog) (n : string) : inprog * res unit :=
  match savepoints_from n (ig_saves ig) with
  | Some (st, l) => (ig_set ig st ((n, st) :: l), Ok tt)
  | None => (ig, Err ESql)
  end.
Definition ig_release_savepoint (ig : inprog) (n : string) : inprog * res unit :=
  match savepoints_from n (ig_saves ig) with
  | Some (_, l) => (ig_set ig (ig_store ig) l, Ok tt)
  | None => (ig, Err ESql)
  end.

(** lib.rs:251-287 commit.  Returns the transactions handed to the observer service. *)
Definition conn_commit (c : conn) (ig : inprog) : res (conn * list (Z * gset Z)) :=
  if decide (ig_gen ig = md_gen (cn_md c))
  then Ok (Conn (ig_store ig) (Metadata (md_gen (cn_md c) + 1) (ig_parts ig) (ig_schema ig)), ig_txes ig)
  else Err EGeneration.

(** conn.rs:303-324 Conn::transact, after parsing.  On failure the InProgress is dropped, which rolls SQLite back. *)
Definition conn_transact (mv now : Z) (c : conn) (es : list entity) : conn * res txreport :=
  match ig_transact mv now (conn_begin c) es with
  | (ig, Ok r) => match conn_commit c ig with
                  | Ok (c', _) => (c', Ok r)
                  | Err e => (c, Err e)
                  | Panic p => (c, Panic p)
                  end
  | (_, Err e) => (c, Err e)
  | (_, Panic p) => (c, Panic p)
  end.

(* ---------------------------------------------------------------- sessions *)

(** The calls a user of an InProgress can make. *)
Inductive ip_op :=
  | OpTransact (now : Z) (es : list entity)
  | OpTransactTerms (now : Z) (ts : list term_t) (ids : gset tempid)
  | OpSavepoint (n : string)
  | OpRollbackTo (n : string)
  | OpRelease (n : string).
Definition ig_step (mv : Z) (ig : inprog) (o : ip_op) : inprog * res unit :=
  match o with
  | OpTransact now es => let '(ig, r) := ig_transact mv now ig es in (ig, rmap (fun _ => tt) r)
  | OpTransactTerms now ts ids => let '(ig, r) := ig_transact_terms mv now ig ts ids in (ig, rmap (fun _ => tt) r)
  | OpSavepoint n => ig_savepoint ig n
  | OpRollbackTo n => ig_rollback_savepoint ig n
  | OpRelease n => ig_release_savepoint ig n
  end.
(** An error does not end an InProgress; a panic does. *)
Fixpoint ig_steps (mv : Z) (ig : inprog) (l : list ip_op) : res (inprog * list (res unit)) :=
  match l with
  | [] => Ok (ig, [])
  | o :: l =>
      match ig_step mv ig o with
      | (_, Panic p) => Panic p
      | (ig, r) => let! (ig, rs) := ig_steps mv ig l in Ok (ig, r :: rs)
      end
  end.

(** What a program does with a file: transact through the Conn, open an InProgress and commit or drop it, close the Conn and open
    the file again. *)
Inductive conn_op :=
  | CTransact (now : Z) (es : list entity)
  | CSession (l : list ip_op) (commit : bool)
  | CReopen.
Definition conn_step (mv : Z) (c : conn) (o : conn_op) : conn * res unit :=
  match o with
  | CTransact now es => let '(c, r) := conn_transact mv now c es in (c, rmap (fun _ => tt) r)
  | CSession l commit =>
      match ig_steps mv (conn_begin c) l with
      | Ok (ig, _) =>
          if commit then
            match conn_commit c ig with
            | Ok (c', _) => (c', Ok tt)
            | Err e => (c, Err e)
            | Panic p => (c, Panic p)
            end
          else (c, Ok tt)
      | Err e => (c, Err e)
      | Panic p => (c, Panic p)
      end
  | CReopen =>
      match conn_open mv 0 (Some (cn_disk c)) with
      | Ok c' => (c', Ok tt)
      | Err e => (c, Err e)
      | Panic p => (c, Panic p)
      end
  end.
Definition conn_run (mv : Z) (c : conn) (l : list conn_op) : conn := fold_left (fun c o => (conn_step mv c o).1) l c.
