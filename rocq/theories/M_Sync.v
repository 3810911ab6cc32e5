(** Synchronization with a remote transaction log: tolstoy/src, src/sync.rs. *)
From Verif Require Export M_Timelines M_Query.
From Verif Require M_Sql.

(* ---------------------------------------------------------------- results *)

(** tolstoy-traits/src/errors.rs TolstoyError, next to the errors of the database *)
Inductive sync_error :=
  | SDb (e : dberr)
  | STxIncorrectlyMapped
  | SBadRemoteState
  | SNotYetImplemented
  | SUnexpectedState
  | SRemote.
(** Panics: of the database; syncer.rs:340, 404 (a transaction without parts), 386 (no local transactions), 315 (excision allowed),
    487 (wrong type of ident), 587 (missing attribute); of the remote. *)
Inductive sync_panic := SPDb (p : panicsite) | SPNoParts | SPNoLocal | SPExcision | SPIdentType | SPNoAttribute | SPRemote.
Inductive sres (A : Type) := SOk (a : A) | SErr (e : sync_error) | SPanic (p : sync_panic).
Arguments SOk {_} _.
Arguments SErr {_} _.
Arguments SPanic {_} _.
Definition sbind {A B} (m : sres A) (f : A -> sres B) : sres B :=
  match m with SOk a => f a | SErr e => SErr e | SPanic p => SPanic p end.
Definition slift {A} (r : res A) : sres A := match r with Ok a => SOk a | Err e => SErr (SDb e) | Panic p => SPanic (SPDb p) end.
(** The [?] operator for functions that change a state: what was changed before a failure stays. *)
Definition sthen {S A B} (x : S * sres A) (k : S -> A -> S * sres B) : S * sres B :=
  match x with (s, SOk a) => k s a | (s, SErr e) => (s, SErr e) | (s, SPanic p) => (s, SPanic p) end.

(* ---------------------------------------------------------------- transactions on the wire *)

(** Uuids are 128-bit numbers; the nil uuid is 0. *)
Notation uuid := N (only parsing).

(** tolstoy/src/types.rs:65-79 Tx, TxPart, 38-62 LocalTx.  A part is sent as JSON and read again: not modelled. *)
Record txpart := TxPart { xp_parts : option partition_map; xp_e : Z; xp_a : Z; xp_v : typed_value; xp_tx : Z; xp_added : bool }.
Record rtx := RTx { rx_uuid : uuid; rx_parts : list txpart }.
Record local_tx := LocalTx { lt_tx : Z; lt_parts : list txpart }.

(** types.rs:83-89 GlobalTransactionLog: the remote, as the trait that the syncer is written against. *)
Record server (S : Type) := Server {
  sv_head : S -> sres uuid;
  sv_after : S -> uuid -> sres (list rtx);
  sv_set_head : S -> uuid -> S * sres unit;
  sv_put_tx : S -> uuid -> uuid -> list uuid -> S * sres unit;
  sv_put_chunk : S -> uuid -> txpart -> S * sres unit }.
Arguments Server {_} _ _ _ _ _.
Arguments sv_head {_} _ _.
Arguments sv_after {_} _ _ _.
Arguments sv_set_head {_} _ _ _.
Arguments sv_put_tx {_} _ _ _ _ _.
Arguments sv_put_chunk {_} _ _ _ _.

(** What the syncer finds around it: the number of SQL variables, the clock (one reading for a whole sync), what SQLite leaves open,
    and the uuids that Uuid::new_v4 will give. *)
Record world := World { w_mv : Z; w_now : Z; w_sql : sqlite; w_uuid : nat -> uuid }.

(* ---------------------------------------------------------------- reading the local log *)

(** tx_processor.rs:110-119 to_tx_part.  The value is the one in the log, also for fulltext attributes. *)
Definition to_tx_part (r : txrow) : res txpart :=
  let! v := from_sql_value_pair (t_v r) (t_tag r) in Ok (TxPart None (t_e r) (t_a r) v (t_tx r) (t_added r)).

(** SELECT ... GROUP BY tx ORDER BY tx *)
Definition txs_in_order (l : list txrow) : list Z := merge_sort Z.le (remove_dups (map t_tx l)).
(** tx_processor.rs:127-134: WHERE timeline = 0 AND tx > from ORDER BY tx.  Rows of one transaction come in the order of the table. *)
Definition rows_after (st : store) (from : option Z) : list txrow :=
  let l := List.filter (fun r => match from with Some tx => tx <? t_tx r | None => true end) (transactions st) in
  flat_map (fun tx => filter (fun r => t_tx r = tx) l) (txs_in_order l).

(** tx_processor.rs:55-108, 144-160: the transactions that the receiver gets, and then the error that ends the walk, if any.
    A row that cannot be read ends its transaction: the receiver is given the parts before it. *)
Fixpoint tx_groups (cur : option local_tx) (rows : list (res txpart)) : list local_tx * res unit :=
  match rows with
  | [] => (option_list cur, Ok tt)
  | Err e :: _ => (option_list cur, Err e)
  | Panic p :: _ => (option_list cur, Panic p)
  | Ok p :: rows =>
      match cur with
      | Some g =>
          if decide (lt_tx g = xp_tx p) then tx_groups (Some (LocalTx (lt_tx g) (lt_parts g ++ [p]))) rows
          else let '(gs, r) := tx_groups (Some (LocalTx (xp_tx p) [p])) rows in (g :: gs, r)
      | None => tx_groups (Some (LocalTx (xp_tx p) [p])) rows
      end
  end.
Definition local_groups (st : store) (from : option Z) : list local_tx * res unit :=
  tx_groups None (map to_tx_part (rows_after st from)).

(** tx_processor.rs:121-165 process with syncer.rs:168-200 LocalTxSet *)
Definition local_txs (st : store) (from : option Z) : res (list local_tx) :=
  let '(gs, r) := local_groups st from in let! _ := r in Ok gs.

(** metadata.rs:108-131 root_and_head_tx *)
Definition root_and_head_tx (st : store) : sres (Z * Z) :=
  match txs_in_order (transactions st) with
  | [] => SErr SUnexpectedState
  | root :: txs => SOk (root, default root (last txs))
  end.

(* ---------------------------------------------------------------- uploading *)

(** schema.rs:28, 39-45: the table tolstoy_parts is filled with the bootstrap partitions when it is created.  Nothing ever updates it. *)
Definition tolstoy_parts : list (string * partition) := V1_PARTS.

(** tx_uploader.rs:56-83 allocate_partition_map_for_entids *)
Definition allocate_in (p : partition) (entids : list Z) : res partition :=
  rfold (fun new e => if part_allows p e && (pt_next new <=? e) then part_set_next new (e + 1) else Ok new) p entids.
Definition allocate_partition_map_for_entids (entids : list Z) : res partition_map :=
  let! l := rmapM (fun '(name, p) => let! p := allocate_in p entids in Ok (name, p)) tolstoy_parts in Ok (list_to_map l).

(** tx_uploader.rs:32-38 TxUploader, with the remote and the uuids used so far *)
Record uploader (S : Type) := Uploader { up_remote : S; up_used : nat; up_uuids : list (Z * uuid); up_head : option uuid }.
Arguments Uploader {_} _ _ _ _.
Arguments up_remote {_} _.
Arguments up_used {_} _.
Arguments up_uuids {_} _.
Arguments up_head {_} _.

(** tx_uploader.rs:112-122 *)
Fixpoint put_chunks {S} (w : world) (sv : server S) (s : S * nat) (parts : list txpart) : (S * nat) * sres (list uuid) :=
  match parts with
  | [] => (s, SOk [])
  | p :: parts =>
      let u := w_uuid w s.2 in
      match sv_put_chunk sv s.1 u p with
      | (s1, SOk _) => sthen (put_chunks w sv (s1, Datatypes.S s.2) parts) (fun s us => (s, SOk (u :: us)))
      | (s1, SErr e) => ((s1, Datatypes.S s.2), SErr e)
      | (s1, SPanic p) => ((s1, Datatypes.S s.2), SPanic p)
      end
  end.

(** tx_uploader.rs:86-144 TxUploader::tx *)
Definition upload_tx {S} (w : world) (sv : server S) (remote_head : uuid) (up : uploader S) (g : local_tx) : uploader S * sres unit :=
  let u := w_uuid w (up_used up) in
  let uuids := up_uuids up ++ [(lt_tx g, u)] in
  let fail := Uploader (up_remote up) (Datatypes.S (up_used up)) uuids (up_head up) in
  match lt_parts g with
  | [] => (fail, SPanic SPNoParts)
  | p :: ps =>
      match allocate_partition_map_for_entids (map xp_e (lt_parts g)) with
      | Err e => (fail, SErr (SDb e))
      | Panic x => (fail, SPanic (SPDb x))
      | Ok pm =>
          let parts := TxPart (Some pm) (xp_e p) (xp_a p) (xp_v p) (xp_tx p) (xp_added p) :: ps in
          match put_chunks w sv (up_remote up, Datatypes.S (up_used up)) parts with
          | ((s, n), SErr e) => (Uploader s n uuids (up_head up), SErr e)
          | ((s, n), SPanic x) => (Uploader s n uuids (up_head up), SPanic x)
          | ((s, n), SOk chunks) =>
              match sv_put_tx sv s u (default remote_head (up_head up)) chunks with
              | (s, SOk _) => (Uploader s n uuids (Some u), SOk tt)
              | (s, SErr e) => (Uploader s n uuids (up_head up), SErr e)
              | (s, SPanic x) => (Uploader s n uuids (up_head up), SPanic x)
              end
          end
      end
  end.
Fixpoint upload_txs {S} (w : world) (sv : server S) (remote_head : uuid) (up : uploader S) (gs : list local_tx) : uploader S * sres unit :=
  match gs with
  | [] => (up, SOk tt)
  | g :: gs => sthen (upload_tx w sv remote_head up g) (fun up _ => upload_txs w sv remote_head up gs)
  end.

(* ---------------------------------------------------------------- the client *)

(** The InProgress, and the tables of tolstoy (schema.rs:25-29): tolstoy_tu, and the remote head of tolstoy_metadata.  A file that was
    never synced is one with an empty table and the nil head (schema.rs:47-50). *)
Record client := Client { cl_ig : inprog; cl_tu : gmap Z uuid; cl_known : uuid }.

(** tx_mapper.rs:27-38: INSERT OR REPLACE; both columns are unique *)
Definition tu_insert (tu : gmap Z uuid) (tx : Z) (u : uuid) : gmap Z uuid := <[tx := u]> (filter (fun p => p.2 <> u) tu).
Definition tu_insert_all (tu : gmap Z uuid) (l : list (Z * uuid)) : gmap Z uuid := fold_left (fun tu p => tu_insert tu p.1 p.2) l tu.
(** tx_mapper.rs:66-83 get_tx_for_uuid *)
Definition tx_for_uuid (tu : gmap Z uuid) (u : uuid) : option Z :=
  option_map fst (head (filter (fun p : Z * uuid => p.2 = u) (map_to_list tu))).
(** metadata.rs:62-84 set_remote_head, set_remote_head_and_map *)
Definition set_remote_head_and_map (cl : client) (tx : Z) (u : uuid) : client := Client (cl_ig cl) (tu_insert (cl_tu cl) tx u) u.
Definition with_ig (cl : client) (ig : inprog) : client := Client ig (cl_tu cl) (cl_known cl).

(** syncer.rs:222-269 fast_forward_remote *)
Definition fast_forward_remote {S} (w : world) (sv : server S) (cl : client) (s : S) (n : nat) (from : option Z) (remote_head : uuid)
    : (client * S * nat) * sres unit :=
  let '(gs, ended) := local_groups (ig_store (cl_ig cl)) from in
  match upload_txs w sv remote_head (Uploader s n [] None) gs with
  | (up, SErr e) => ((cl, up_remote up, up_used up), SErr e)
  | (up, SPanic p) => ((cl, up_remote up, up_used up), SPanic p)
  | (up, SOk _) =>
      match ended with
      | Err e => ((cl, up_remote up, up_used up), SErr (SDb e))
      | Panic p => ((cl, up_remote up, up_used up), SPanic (SPDb p))
      | Ok _ =>
          match up_head up with
          | None => ((cl, up_remote up, up_used up), SOk tt)
          | Some head =>
              match sv_set_head sv (up_remote up) head with
              | (s, SErr e) => ((cl, s, up_used up), SErr e)
              | (s, SPanic p) => ((cl, s, up_used up), SPanic p)
              | (s, SOk _) => ((Client (cl_ig cl) (tu_insert_all (cl_tu cl) (up_uuids up)) head, s, up_used up), SOk tt)
              end
          end
      end
  end.

(* ---------------------------------------------------------------- downloading *)

(** syncer.rs:278-304 remote_parts_to_builder *)
Definition remote_entity (p : txpart) : entity :=
  EntAdd (if xp_added p then OAdd else ORetract)
    (if decide (xp_a p = DB_TX_INSTANT) then EPTxFn "transaction-tx" else EPEntid (EEntid (xp_e p)))
    (EEntid (xp_a p)) (VPAtom (VTyped (xp_v p))).

(** syncer.rs:306-325 rewind_tx_partition_by_one *)
Definition rewind_tx_partition_by_one (pm : partition_map) : sres partition_map :=
  match pm !! ":db.part/tx" with
  | None => SErr SBadRemoteState
  | Some p =>
      if pt_allow_excision p then SPanic SPExcision
      else sbind (slift (part_set_next p (pt_next p - 1))) (fun p => SOk (<[":db.part/tx" := p]> pm))
  end.

Definition ig_set_parts (ig : inprog) (pm : partition_map) : inprog :=
  InProg (ig_store ig) (ig_gen ig) pm (ig_schema ig) (ig_saves ig) (ig_collected ig) (ig_txes ig).
Definition ig_set_schema (ig : inprog) (s : schema) : inprog :=
  InProg (ig_store ig) (ig_gen ig) (ig_parts ig) s (ig_saves ig) (ig_collected ig) (ig_txes ig).

(** syncer.rs:334-357, 418-428: one incoming transaction.  [None]: it has no partition map. *)
Definition transact_remote (w : world) (ig : inprog) (t : rtx) : inprog * sres (option (Z * uuid)) :=
  match rx_parts t with
  | [] => (ig, SPanic SPNoParts)
  | p :: _ =>
      match xp_parts p with
      | None => (ig, SOk None)
      | Some pm =>
          match rewind_tx_partition_by_one pm with
          | SErr e => (ig, SErr e)
          | SPanic x => (ig, SPanic x)
          | SOk pm =>
              match ig_transact (w_mv w) (w_now w) (ig_set_parts ig pm) (map remote_entity (rx_parts t)) with
              | (ig, Ok r) => (ig, SOk (Some (rp_tx r, rx_uuid t)))
              | (ig, Err e) => (ig, SErr (SDb e))
              | (ig, Panic x) => (ig, SPanic (SPDb x))
              end
          end
      end
  end.

(** syncer.rs:46-68 SyncFollowup, SyncReport *)
Inductive followup := FNone | FFullSync.
Inductive sync_report := RIncompatible (local remote : Z) | RBadRemoteState | RNoChanges | RRemoteFastForward | RLocalFastForward | RMerge (f : followup).

(** syncer.rs:327-370 fast_forward_local.  The transactions before one without a partition map stay, unmapped. *)
Fixpoint fast_forward_txs (w : world) (ig : inprog) (last : option (Z * uuid)) (txs : list rtx)
    : inprog * sres (option (option (Z * uuid))) :=
  match txs with
  | [] => (ig, SOk (Some last))
  | t :: txs =>
      sthen (transact_remote w ig t) (fun ig o =>
        match o with None => (ig, SOk None) | Some l => fast_forward_txs w ig (Some l) txs end)
  end.
Definition fast_forward_local (w : world) (cl : client) (txs : list rtx) : client * sres sync_report :=
  match fast_forward_txs w (cl_ig cl) None txs with
  | (ig, SErr e) => (with_ig cl ig, SErr e)
  | (ig, SPanic p) => (with_ig cl ig, SPanic p)
  | (ig, SOk None) => (with_ig cl ig, SOk RBadRemoteState)
  | (ig, SOk (Some None)) => (with_ig cl ig, SOk RLocalFastForward)
  | (ig, SOk (Some (Some (tx, u)))) => (set_remote_head_and_map (with_ig cl ig) tx u, SOk RLocalFastForward)
  end.

(* ---------------------------------------------------------------- merging *)

(** syncer.rs:454-494: the entities that may alter an installed attribute, and those that will not *)
Definition classify_one (s : schema) (acc : gset Z * gset Z) (p : txpart) : sres (gset Z * gset Z) :=
  let '(might, wont) := acc in
  if decide (xp_a p = DB_IDENT) then
    match xp_v p with
    | TVKeyword k => if decide (sc_ident_map s !! k = None) then SOk (might, wont ∪ {[xp_e p]}) else SOk (might ∪ {[xp_e p]}, wont)
    | _ => SPanic SPIdentType
    end
  else if is_a_schema_attribute (xp_a p) && negb (bool_decide (xp_e p ∈ wont)) then SOk (might ∪ {[xp_e p]}, wont)
  else SOk (might, wont).
Fixpoint classify (s : schema) (acc : gset Z * gset Z) (ps : list txpart) : sres (gset Z * gset Z) :=
  match ps with [] => SOk acc | p :: ps => sbind (classify_one s acc p) (fun acc => classify s acc ps) end.

(** syncer.rs:496-513 *)
Definition will_allocate (ps : list txpart) : gset Z :=
  list_to_set (map xp_e (filter (fun p => xp_a p <> DB_TX_INSTANT /\ xp_added p = true) ps)).

(** syncer.rs:593-599 [:find ?e . :in ?a ?v :where [?e ?a ?v]].  InProgress::q_once with an empty cache. *)
Definition pre_lookup_query : query :=
  Query (FScalar "?e") ["?a"; "?v"] [CPattern (Pattern (NVar "?e") (NVar "?a") (VVar "?v") NPlaceholder)] [] LNone.
Definition pre_lookup (w : world) (ig : inprog) (a : Z) (v : typed_value) : res bool :=
  let! r := q_once (w_sql w) (Known (ig_schema ig) no_cache) (ig_store ig) pre_lookup_query
              (list_to_map [("?a", TVRef a); ("?v", v)]) in
  Ok (match r with RScalar (Some _) => true | _ => false end).

(** syncer.rs:529-617: what a part of a local transaction becomes *)
Definition rebase_part (w : world) (ig : inprog) (alloc : gset Z) (p : txpart) : sres (option entity) :=
  if decide (xp_a p = DB_TX_INSTANT) then SOk None else
  let allocates := bool_decide (xp_e p ∈ alloc) in
  let e := if allocates then EPTempId (TExternal (M_Sql.dec (xp_e p))) else EPEntid (EEntid (xp_e p)) in
  let a := EEntid (xp_a p) in
  let v := VPAtom (VTyped (xp_v p)) in
  if xp_added p then SOk (Some (EntAdd OAdd e a v)) else
  if allocates then SOk (Some (EntAdd ORetract e a v)) else
  match sc_attribute_map (ig_schema ig) !! xp_a p with
  | None => SPanic SPNoAttribute
  | Some at_ =>
      if decide (at_unique at_ = None) then SOk None else
      sbind (slift (pre_lookup w ig (xp_a p) (xp_v p))) (fun found =>
        SOk (if found then Some (EntAdd ORetract (EPLookup a (VTyped (xp_v p))) a v) else None))
  end.
Fixpoint rebase_parts (w : world) (ig : inprog) (alloc : gset Z) (ps : list txpart) : sres (list entity) :=
  match ps with
  | [] => SOk []
  | p :: ps => sbind (rebase_part w ig alloc p) (fun o => sbind (rebase_parts w ig alloc ps) (fun es => SOk (option_list o ++ es)))
  end.

(** metadata.rs:159-175 has_entity_assertions_in_tx, is_tx_empty *)
Definition has_entity_assertions_in_tx (st : store) (e tx : Z) : bool :=
  negb (is_nil (filter (fun r => t_tx r = tx /\ t_e r = e) (transactions st))).
Definition is_tx_empty (st : store) (tx : Z) : bool := is_nil (filter (fun r => t_tx r = tx /\ t_e r <> tx) (transactions st)).

(** syncer.rs:433-665: one local transaction on top of what came in.  The result says whether it was not a no-op.  Going back to the
    savepoint does not restore the schema and the partition map of the InProgress. *)
Definition rebase_tx (w : world) (ig : inprog) (t : local_tx) : inprog * sres bool :=
  let alloc := will_allocate (lt_parts t) in
  match sbind (classify (ig_schema ig) (∅, ∅) (lt_parts t)) (fun '(might, _) =>
        sbind (rebase_parts w ig alloc (lt_parts t)) (fun es => SOk (might, es))) with
  | SErr e => (ig, SErr e)
  | SPanic p => (ig, SPanic p)
  | SOk (might, []) => (ig, SOk false)
  | SOk (might, es) =>
      let ig := (ig_savepoint ig "speculative_local").1 in
      match ig_transact (w_mv w) (w_now w) ig es with
      | (ig, Err e) => (ig, SErr (SDb e))
      | (ig, Panic p) => (ig, SPanic (SPDb p))
      | (ig, Ok r) =>
          if existsb (fun e => match rp_tempids r !! M_Sql.dec e with
                               | Some e' => has_entity_assertions_in_tx (ig_store ig) e' (rp_tx r)
                               | None => false end) (elements might)
          then (ig, SErr SNotYetImplemented)
          else if is_tx_empty (ig_store ig) (rp_tx r)
          then match ig_rollback_savepoint ig "speculative_local" with (ig, x) => (ig, slift (rmap (fun _ => false) x)) end
          else match ig_release_savepoint ig "speculative_local" with (ig, x) => (ig, slift (rmap (fun _ => true) x)) end
      end
  end.
Fixpoint rebase_txs (w : world) (ig : inprog) (dirty : bool) (txs : list local_tx) : inprog * sres bool :=
  match txs with
  | [] => (ig, SOk dirty)
  | t :: txs => sthen (rebase_tx w ig t) (fun ig d => rebase_txs w ig (dirty || d) txs)
  end.

Definition tx_before (t u : local_tx) : Prop := lt_tx t <= lt_tx u.
Global Instance tx_before_dec t u : Decision (tx_before t u).
Proof. unfold tx_before. apply _. Defined.

(** syncer.rs:372-683 merge.  Incoming transactions without parts or partition map are noticed before any is transacted. *)
Fixpoint check_incoming (txs : list rtx) : sres bool :=
  match txs with
  | [] => SOk true
  | t :: txs =>
      match rx_parts t with
      | [] => SPanic SPNoParts
      | p :: _ => if is_some (xp_parts p) then check_incoming txs else SOk false
      end
  end.
Definition merge (w : world) (cl : client) (incoming : list rtx) (locals : list local_tx) : client * sres sync_report :=
  match merge_sort tx_before locals with
  | [] => (cl, SPanic SPNoLocal)
  | (first :: _) as locals =>
      let ig := cl_ig cl in
      match move_from_main_timeline (w_mv w) (w_now w) (ig_store ig) (ig_schema ig) (ig_parts ig) (lt_tx first) (lt_tx first - 1) with
      | (st, Err e) => (with_ig cl (ig_set ig st (ig_saves ig)), SErr (SDb e))
      | (st, Panic p) => (with_ig cl (ig_set ig st (ig_saves ig)), SPanic (SPDb p))
      | (st, Ok (sc, pm)) =>
          let ig := ig_set_parts (ig_set_schema (ig_set ig st (ig_saves ig)) (default (ig_schema ig) sc)) pm in
          match check_incoming incoming with
          | SErr e => (with_ig cl ig, SErr e)
          | SPanic p => (with_ig cl ig, SPanic p)
          | SOk false => (with_ig cl ig, SOk RBadRemoteState)
          | SOk true =>
              match fast_forward_txs w ig None incoming with
              | (ig, SErr e) => (with_ig cl ig, SErr e)
              | (ig, SPanic p) => (with_ig cl ig, SPanic p)
              | (ig, SOk last) =>
                  match rebase_txs w ig false locals with
                  | (ig, SErr e) => (with_ig cl ig, SErr e)
                  | (ig, SPanic p) => (with_ig cl ig, SPanic p)
                  | (ig, SOk dirty) =>
                      (match mjoin last with
                       | Some (tx, u) => set_remote_head_and_map (with_ig cl ig) tx u
                       | None => with_ig cl ig
                       end, SOk (RMerge (if dirty then FFullSync else FNone)))
                  end
              end
          end
      end
  end.

(* ---------------------------------------------------------------- the first sync *)

(** datoms.rs:27-58 DatomsHelper *)
Definition e_lookup (ps : list txpart) (k : keyword) : option Z :=
  option_map xp_e (head (filter (fun p => xp_v p = TVKeyword k /\ xp_added p = true) ps)).
Definition ea_lookup (ps : list txpart) (e a : keyword) : option typed_value :=
  match e_lookup ps e, e_lookup ps a with
  | Some e, Some a => option_map xp_v (head (filter (fun p => xp_e p = e /\ xp_a p = a /\ xp_added p = true) ps))
  | _, _ => None
  end.
(** bootstrap.rs:36-58 BootstrapHelper; db/src/bootstrap.rs: CORE_SCHEMA_VERSION *)
Definition CORE_SCHEMA_VERSION := 1.
Definition core_schema_version (t : rtx) : sres Z :=
  match ea_lookup (rx_parts t) (nskw "db.schema" "core") (nskw "db.schema" "version") with
  | Some (TVLong v) => SOk v
  | _ => SErr SBadRemoteState
  end.

(** syncer.rs:124-166 RemoteDataState, LocalDataState *)
Inductive remote_state := RSEmpty | RSChanged | RSUnchanged.
Inductive local_state := LSChanged | LSUnchanged.
Definition remote_state_of (known actual : uuid) : remote_state :=
  if decide (actual = 0%N) then RSEmpty else if decide (actual = known) then RSUnchanged else RSChanged.
Definition local_state_of (mapped : option uuid) : local_state := match mapped with Some _ => LSUnchanged | None => LSChanged end.
(** syncer.rs:111-122, 202-220 what_do *)
Inductive sync_action := ANoOp | APopulateRemote | ARemoteFastForward | ALocalFastForward | ACombineChanges.
Definition what_do (r : remote_state) (l : local_state) : sync_action :=
  match r, l with
  | RSEmpty, _ => APopulateRemote
  | RSChanged, LSChanged => ACombineChanges
  | RSChanged, LSUnchanged => ALocalFastForward
  | RSUnchanged, LSChanged => ARemoteFastForward
  | RSUnchanged, LSUnchanged => ANoOp
  end.

(** syncer.rs:685-772 first_sync_against_non_empty *)
Definition first_sync_against_non_empty {S} (w : world) (sv : server S) (cl : client) (s : S) (root head : Z) : client * sres sync_report :=
  match sv_after sv s 0%N with
  | SErr e => (cl, SErr e)
  | SPanic p => (cl, SPanic p)
  | SOk [] => (cl, SOk RBadRemoteState)
  | SOk (boot :: txs) =>
      match core_schema_version boot with
      | SErr e => (cl, SErr e)
      | SPanic p => (cl, SPanic p)
      | SOk version =>
          if negb (version =? CORE_SCHEMA_VERSION) then (cl, SOk (RIncompatible CORE_SCHEMA_VERSION version)) else
          let cl := set_remote_head_and_map cl root (rx_uuid boot) in
          match what_do (if is_nil txs then RSUnchanged else RSChanged) (if decide (root = head) then LSUnchanged else LSChanged) with
          | ANoOp => (cl, SOk (RMerge FNone))
          | APopulateRemote => (cl, SErr SUnexpectedState)
          | ARemoteFastForward => (cl, SErr SNotYetImplemented)
          | ALocalFastForward => sthen (fast_forward_local w cl txs) (fun cl _ => (cl, SOk (RMerge FNone)))
          | ACombineChanges =>
              match local_txs (ig_store (cl_ig cl)) (Some root) with
              | Err e => (cl, SErr (SDb e))
              | Panic p => (cl, SPanic (SPDb p))
              | Ok locals => merge w cl txs locals
              end
          end
      end
  end.

(* ---------------------------------------------------------------- sync *)

(** syncer.rs:271-276 local_tx_for_uuid *)
Definition local_tx_for_uuid (cl : client) (u : uuid) : sres Z :=
  match tx_for_uuid (cl_tu cl) u with Some tx => SOk tx | None => SErr STxIncorrectlyMapped end.

(** syncer.rs:774-865 sync.  The state of a failed sync is returned as well: what was put on the remote stays there. *)
Definition sync {S} (w : world) (sv : server S) (cl : client) (s : S) (n : nat) : (client * S * nat) * sres sync_report :=
  match sbind (sv_head sv s) (fun h => sbind (root_and_head_tx (ig_store (cl_ig cl))) (fun x => SOk (h, x))) with
  | SErr e => ((cl, s, n), SErr e)
  | SPanic p => ((cl, s, n), SPanic p)
  | SOk (actual, (root, head)) =>
      let known := cl_known cl in
      if decide (known = 0%N /\ actual <> 0%N) then
        match first_sync_against_non_empty w sv cl s root head with (cl, r) => ((cl, s, n), r) end
      else
        match what_do (remote_state_of known actual) (local_state_of (cl_tu cl !! head)) with
        | ANoOp => ((cl, s, n), SOk RNoChanges)
        | APopulateRemote => sthen (fast_forward_remote w sv cl s n None actual) (fun x _ => (x, SOk RRemoteFastForward))
        | ARemoteFastForward =>
            match local_tx_for_uuid cl known with
            | SErr e => ((cl, s, n), SErr e)
            | SPanic p => ((cl, s, n), SPanic p)
            | SOk from => sthen (fast_forward_remote w sv cl s n (Some from) actual) (fun x _ => (x, SOk RRemoteFastForward))
            end
        | ALocalFastForward =>
            match sv_after sv s known with
            | SErr e => ((cl, s, n), SErr e)
            | SPanic p => ((cl, s, n), SPanic p)
            | SOk txs => match sthen (fast_forward_local w cl txs) (fun cl _ => (cl, SOk RLocalFastForward)) with (cl, r) => ((cl, s, n), r) end
            end
        | ACombineChanges =>
            match sbind (local_tx_for_uuid cl known) (fun from =>
                  sbind (slift (local_txs (ig_store (cl_ig cl)) (Some from))) (fun locals =>
                  sbind (sv_after sv s known) (fun txs => SOk (locals, txs)))) with
            | SErr e => ((cl, s, n), SErr e)
            | SPanic p => ((cl, s, n), SPanic p)
            | SOk (locals, txs) => match merge w cl txs locals with (cl, r) => ((cl, s, n), r) end
            end
        end
  end.

(** How it is used (tests/tolstoy.rs:177-187; tools/cli): begin, sync, commit if it succeeded.  If it fails the InProgress is dropped
    and the tables of tolstoy are rolled back with it. *)
Record peer := Peer { pe_conn : conn; pe_tu : gmap Z uuid; pe_known : uuid }.
Definition peer_sync {S} (w : world) (sv : server S) (p : peer) (s : S) (n : nat) : (peer * S * nat) * sres sync_report :=
  match sync w sv (Client (conn_begin (pe_conn p)) (pe_tu p) (pe_known p)) s n with
  | ((cl, s, n), SOk rep) =>
      match conn_commit (pe_conn p) (cl_ig cl) with
      | Ok (c, _) => ((Peer c (cl_tu cl) (cl_known cl), s, n), SOk rep)
      | Err e => ((p, s, n), SErr (SDb e))
      | Panic x => ((p, s, n), SPanic (SPDb x))
      end
  | ((_, s, n), SErr e) => ((p, s, n), SErr e)
  | ((_, s, n), SPanic x) => ((p, s, n), SPanic x)
  end.

(* ---------------------------------------------------------------- a remote *)

(** tests/tolstoy.rs:100-175 TestRemoteClient.  Chunks, and the transactions in the order in which they were put; the parent is kept
    though this remote drops it.  Putting a transaction under a uuid that is already used is not modelled. *)
Record entry := Entry { en_uuid : uuid; en_parent : uuid; en_parts : list txpart }.
Record remote := Remote { rm_head : uuid; rm_chunks : gmap uuid txpart; rm_log : list entry }.
Definition remote_empty : remote := Remote 0%N ∅ [].
Fixpoint entries_after (u : uuid) (l : list entry) : option (list entry) :=
  match l with
  | [] => None
  | x :: l => match entries_after u l with Some r => Some r | None => if decide (en_uuid x = u) then Some l else None end
  end.
Definition rtx_of (x : entry) : rtx := RTx (en_uuid x) (en_parts x).
Fixpoint get_chunks (m : gmap uuid txpart) (us : list uuid) : option (list txpart) :=
  match us with [] => Some [] | u :: us => match m !! u, get_chunks m us with Some p, Some ps => Some (p :: ps) | _, _ => None end end.
Definition test_remote : server remote := Server
  (fun s => SOk (rm_head s))
  (fun s u => if decide (u = 0%N) then SOk (map rtx_of (rm_log s))
              else match entries_after u (rm_log s) with Some l => SOk (map rtx_of l) | None => SPanic SPRemote end)
  (fun s u => (Remote u (rm_chunks s) (rm_log s), SOk tt))
  (fun s u parent chunks =>
     match get_chunks (rm_chunks s) chunks with
     | Some ps => (Remote (rm_head s) (rm_chunks s) (rm_log s ++ [Entry u parent ps]), SOk tt)
     | None => (s, SPanic SPRemote)
     end)
  (fun s u p =>
     match rm_chunks s !! u with
     | Some _ => (s, SPanic SPRemote)
     | None => (Remote (rm_head s) (<[u := p]> (rm_chunks s)) (rm_log s), SOk tt)
     end).

(** remote_client.rs:97-123, 213-290 RemoteClient: a PUT whose answer is a status other than 2xx is only logged, and counts as done.
    [accepts s]: the server [sv] in the state [s] answers PUTs with success. *)
Definition http_client {S} (accepts : S -> bool) (sv : server S) : server S := Server
  (sv_head sv) (sv_after sv)
  (fun s u => if accepts s then sv_set_head sv s u else (s, SOk tt))
  (fun s u p cs => if accepts s then sv_put_tx sv s u p cs else (s, SOk tt))
  (fun s u p => if accepts s then sv_put_chunk sv s u p else (s, SOk tt)).
