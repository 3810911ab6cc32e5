(** The SQLite tables and the SQL statements of db/src/db.rs that read and write datoms. *)
From Verif Require Export M_Schema M_Partition.

(* ---------------------------------------------------------------- tables *)

(** db.rs:170-174 table datoms.  The flag columns only ever hold 0 or 1. *)
Record datom := Datom {
  d_e : Z; d_a : Z; d_v : sqlval; d_tag : Z; d_tx : Z;
  d_avet : bool; d_vaet : bool; d_ft : bool; d_uq : bool }.
Global Instance datom_eq_dec : EqDecision datom.
Proof. solve_decision. Defined.

(** db.rs:196 table timelined_transactions *)
Record txrow := TxRow {
  t_e : Z; t_a : Z; t_v : sqlval; t_tag : Z; t_tx : Z; t_added : bool; t_timeline : Z }.
Global Instance txrow_eq_dec : EqDecision txrow.
Proof. solve_decision. Defined.

(** db.rs:243,245 tables idents and schema: rows (e, a, v, value_type_tag) *)
Definition mrow : Type := Z * Z * sqlval * Z.

(** db.rs:249 table known_parts *)
Record known_part := KnownPart { kp_part : string; kp_start : Z; kp_end : Z; kp_exc : bool }.

(** The persistent state.  fulltext_values (db.rs:208) is the list of its texts: rowid i+1 is the
    i-th element, rows are never deleted. *)
Record store := Store {
  st_datoms : list datom;
  st_log : list txrow;
  st_fts : list string;
  st_idents : list mrow;
  st_schema : list mrow;
  st_parts : list known_part }.

(** db.rs:284-286: freshly created tables *)
Definition store_empty : store := Store [] [] [] [] [] [].

Definition set_datoms (s : store) (ds : list datom) : store :=
  Store ds (st_log s) (st_fts s) (st_idents s) (st_schema s) (st_parts s).
Definition set_log (s : store) (l : list txrow) : store :=
  Store (st_datoms s) l (st_fts s) (st_idents s) (st_schema s) (st_parts s).
Definition set_fts (s : store) (l : list string) : store :=
  Store (st_datoms s) (st_log s) l (st_idents s) (st_schema s) (st_parts s).
Definition set_idents (s : store) (l : list mrow) : store :=
  Store (st_datoms s) (st_log s) (st_fts s) l (st_schema s) (st_parts s).
Definition set_schema_view (s : store) (l : list mrow) : store :=
  Store (st_datoms s) (st_log s) (st_fts s) (st_idents s) l (st_parts s).

(** The primary timeline, db/src/lib.rs TIMELINE_MAIN *)
Definition TIMELINE_MAIN := 0.

(* ---------------------------------------------------------------- unique indices *)

(** The key (e, a, value_type_tag, v) of idx_datoms_eavt / idx_datoms_aevt (db.rs:175-176).  Since it is
    unique it also stands for the rowid of a datom. *)
Definition d_key (d : datom) : Z * Z * Z * sqlval := (d_e d, d_a d, d_tag d, d_v d).
(** idx_datoms_vaet (db.rs:183) *)
Definition d_vaet_key (d : datom) : sqlval * Z * Z := (d_v d, d_a d, d_e d).
(** idx_datoms_unique_value (db.rs:194) *)
Definition d_uq_key (d : datom) : Z * Z * sqlval := (d_a d, d_tag d, d_v d).

(** The table satisfies all of its UNIQUE indices.  idx_datoms_avet (db.rs:179) covers the same columns as
    idx_datoms_eavt and so is implied by it. *)
Definition datoms_unique (ds : list datom) : bool :=
  bool_decide (NoDup (map d_key ds))
  && bool_decide (NoDup (map d_vaet_key (filter (fun d => d_vaet d = true) ds)))
  && bool_decide (NoDup (map d_uq_key (filter (fun d => d_uq d = true) ds))).

(* ---------------------------------------------------------------- views *)

(** [SELECT text FROM fulltext_values WHERE rowid = ?] *)
Definition fts_text (f : list string) (v : sqlval) : option string :=
  match v with
  | SInt r => if decide (1 <= r) then f !! Z.to_nat (r - 1) else None
  | _ => None
  end.

(** db.rs:228-240 views fulltext_datoms and all_datoms: fulltext values are replaced by their text. *)
Definition all_datoms (s : store) : list datom :=
  flat_map (fun d =>
    if d_ft d then
      match fts_text (st_fts s) (d_v d) with
      | Some t => [Datom (d_e d) (d_a d) (SText t) (d_tag d) (d_tx d) (d_avet d) (d_vaet d) (d_ft d) (d_uq d)]
      | None => []
      end
    else [d]) (st_datoms s).

(** db.rs:198 view transactions *)
Definition transactions (s : store) : list txrow :=
  filter (fun r => t_timeline r = TIMELINE_MAIN) (st_log s).

(* ---------------------------------------------------------------- chunking *)

(** The assertion on a chunked statement with [k] bindings per row (db.rs:768/798, 902/940,
    975/1061): rows are cut into chunks of [max_vars / k]; the first chunk is the largest; each chunk must
    satisfy [k * count < max_vars]; itertools' [chunks(0)] panics. *)
Definition chunk_ok (k max_vars : Z) (n : nat) : bool :=
  negb (max_vars / k =? 0) && (k * Z.min (Z.of_nat n) (max_vars / k) <? max_vars).

(** itertools [chunks(size)] *)
Fixpoint chunks_aux {A} (size : nat) (cur : list A) (room : nat) (l : list A) : list (list A) :=
  match l with
  | [] => match cur with [] => [] | _ => [rev cur] end
  | x :: xs =>
      match room with
      | O => rev cur :: chunks_aux size [x] (size - 1) xs
      | S r => chunks_aux size (x :: cur) r xs
      end
  end.
Definition chunks {A} (size : nat) (l : list A) : list (list A) := chunks_aux size [] size l.

(* ---------------------------------------------------------------- lookups *)

(** db/src/types.rs AVPair *)
Definition avpair : Type := Z * typed_value.

(** db.rs:801-823: the entities of all_datoms rows with this (a, tag, v) which are in the AVET index.  SQLite may
    return several rows if the attribute is not unique, in an unspecified order, and the last one
    wins; the model takes the last one in table order. *)
Definition resolve_av (s : store) (av : avpair) : option Z :=
  let '(v, tag) := to_sql_value_pair av.2 in
  last (map d_e (filter (fun d => d_avet d = true /\ d_a d = av.1 /\ d_tag d = tag /\ d_v d = v /\ v <> SNull)
                        (all_datoms s))).

(** db.rs:758-825.  The map is represented by [resolve_av]; only the chunk assertion remains. *)
Definition resolve_avs (mv : Z) (s : store) (avs : list avpair) : res (avpair -> option Z) :=
  if (is_nil avs || chunk_ok 4 mv (length avs))%bool then Ok (resolve_av s)
  else Panic PTooManyValues.

(* ---------------------------------------------------------------- temporary search tables *)

(** db/src/db.rs:583 ReducedEntity *)
Record reduced := Reduced {
  r_e : Z; r_a : Z; r_attr : attribute; r_v : typed_value; r_added : bool }.

(** db.rs:835-852 rows of temp.exact_searches / temp.inexact_searches *)
Record srow := SRow {
  s_e : Z; s_a : Z; s_v : sqlval; s_tag : Z; s_added : bool; s_attr : attribute }.

(** db.rs:846-857: NOT NULL on v0, and inexact_searches_unique *)
Definition exact_ok (l : list srow) : bool := forallb (fun r => negb (bool_decide (s_v r = SNull))) l.
Definition inexact_ok (l : list srow) : bool :=
  exact_ok l && bool_decide (NoDup (map (fun r => (s_e r, s_a r)) (filter (fun r => s_added r = true) l))).

(** db.rs:917-924 *)
Definition non_fts_row (r : reduced) : srow :=
  let '(v, tag) := to_sql_value_pair (r_v r) in
  SRow (r_e r) (r_a r) v tag (r_added r) (r_attr r).

(** db.rs:893-958, appended to the given search table.  The statement per chunk either inserts all rows or
    fails; a failure ends the transaction, so the rows already inserted do not matter. *)
Definition insert_non_fts_searches (mv : Z) (ok : list srow -> bool) (tbl : list srow)
    (es : list reduced) : res (list srow) :=
  if chunk_ok 6 mv (length es) then
    let tbl' := tbl ++ map non_fts_row es in
    if ok tbl' then Ok tbl' else Err ENonFtsInsertionFailed
  else Panic PTooManyValues.

(** db.rs:214-225 the triggers of fulltext_values_view: insert the text unless it is there. *)
Definition fts_intern (f : list string) (t : string) : list string :=
  if decide (t ∈ f) then f else f ++ [t].

(** The rowid of a text (db.rs:1062). *)
Definition fts_rowid (f : list string) (t : string) : option Z :=
  match list_find (fun x => x = t) f with Some (i, _) => Some (Z.of_nat i + 1) | None => None end.

(** db.rs:978-1024: a chunk of a fulltext insertion must contain a string that no earlier chunk of
    the same call contained, or [repeat_values(2, 0)] panics (db.rs:1040, lib.rs:115). *)
Fixpoint fts_chunks_ok (seen : list string) (l : list (list string)) : bool :=
  match l with
  | [] => true
  | c :: cs => existsb (fun x => negb (bool_decide (x ∈ seen))) c && fts_chunks_ok (c ++ seen) cs
  end.

Definition r_string (r : reduced) : res string :=
  match r_v r with TVString s => Ok s | _ => Err EWrongTypeValueForFts end.

(** The search row of a fulltext datom: the value column holds the rowid of the text (db.rs:1049-1062). *)
Definition fts_row (f : list string) (r : reduced) (s : string) : srow :=
  SRow (r_e r) (r_a r)
       (match fts_rowid f s with Some i => SInt i | None => SNull end)
       (vt_tag VTString) (r_added r) (r_attr r).

(** db.rs:964-1085.  Returns the store (with interned texts) also on failure. *)
Definition insert_fts_searches (mv : Z) (ok : list srow -> bool) (st : store) (tbl : list srow)
    (es : list reduced) : store * res (list srow) :=
  match rmapM r_string es with
  | Err e => (st, Err e)
  | Panic p => (st, Panic p)
  | Ok ss =>
      let f := fold_left fts_intern ss (st_fts st) in
      let st' := set_fts st f in
      if chunk_ok 6 mv (length es) then
        if fts_chunks_ok [] (chunks (Z.to_nat (mv / 6)) ss) then
          let tbl' := tbl ++ zip_with (fts_row f) es ss in
          if ok tbl' then (st', Ok tbl') else (st', Err EFtsInsertionFailed)
        else (st', Panic PRepeatValues)
      else (st', Panic PTooManyValues)
  end.

(* ---------------------------------------------------------------- search *)

(** db.rs:861-870 rows of temp.search_results.  [rid] and [v] of the matched datom are given by the datom. *)
Record sresult := SResult { sr_row : srow; sr_one : bool; sr_match : option datom }.

(** LEFT JOIN *)
Definition left_join (one : bool) (m : srow -> datom -> bool) (ds : list datom) (t : srow) : list sresult :=
  match filter (fun d => m t d = true) ds with
  | [] => [SResult t one None]
  | l => map (fun d => SResult t one (Some d)) l
  end.

(** db.rs:653-656 *)
Definition exact_match (t : srow) (d : datom) : bool :=
  bool_decide (s_e t = d_e d) && bool_decide (s_a t = d_a d)
  && bool_decide (s_tag t = d_tag d) && bool_decide (s_v t = d_v d).
(** db.rs:663-664 *)
Definition inexact_match (t : srow) (d : datom) : bool :=
  bool_decide (s_e t = d_e d) && bool_decide (s_a t = d_a d).

Definition s_key (t : srow) : Z * Z * sqlval * Z := (s_e t, s_a t, s_v t, s_tag t).

(** db.rs:645-670 search.  Fails if index search_results_unique (db.rs:877) is violated. *)
Definition search (ds : list datom) (exact inexact : list srow) : res (list sresult) :=
  let rs := flat_map (left_join false exact_match ds) exact
            ++ flat_map (left_join true inexact_match ds) inexact in
  if bool_decide (NoDup (map (fun r => s_key (sr_row r)) rs)) then Ok rs else Err ECouldNotSearch.

(** The WHERE clause of the additions (db.rs:688, 744) *)
Definition sr_adds (r : sresult) : bool :=
  s_added (sr_row r) &&
  match sr_match r with None => true | Some d => negb (bool_decide (s_v (sr_row r) = d_v d)) end.

(** The WHERE clause of the retractions (db.rs:698-700, 720-722) *)
Definition sr_retracts (r : sresult) : bool :=
  match sr_match r with
  | None => false
  | Some d => negb (s_added (sr_row r))
              || (s_added (sr_row r) && sr_one r && negb (bool_decide (s_v (sr_row r) = d_v d)))
  end.

(* ---------------------------------------------------------------- writing *)

(** db.rs:737-744 *)
Definition datom_of_search (tx : Z) (t : srow) : datom :=
  Datom (s_e t) (s_a t) (s_v t) (s_tag t) tx
        (fl_avet (s_attr t)) (fl_vaet (s_attr t)) (fl_fulltext (s_attr t)) (fl_unique (s_attr t)).

(** The rowids deleted by db.rs:717-723 *)
Definition deleted_keys (rs : list sresult) : list (Z * Z * Z * sqlval) :=
  omap (fun r => if sr_retracts r then d_key <$> sr_match r else None) rs.

Definition after_delete (ds : list datom) (rs : list sresult) : list datom :=
  filter (fun d => d_key d ∉ deleted_keys rs) ds.

(** db.rs:714-755 update_datoms: DELETE, then INSERT.  If the INSERT violates a unique index it is undone,
    but the DELETE stays. *)
Definition update_datoms (st : store) (tx : Z) (rs : list sresult) : store * res unit :=
  let ds := after_delete (st_datoms st) rs in
  let ds' := ds ++ map (fun r => datom_of_search tx (sr_row r)) (filter (fun r => sr_adds r = true) rs) in
  if datoms_unique ds' then (set_datoms st ds', Ok tt)
  else (set_datoms st ds, Err EDatomsUpdateFailedToAdd).

(** SELECT DISTINCT: keep the first occurrence of each row. *)
Fixpoint distinct {A} `{EqDecision A} (l : list A) : list A :=
  match l with
  | [] => []
  | x :: xs => x :: filter (fun y => y <> x) (distinct xs)
  end.

(** db.rs:684-692 *)
Definition log_adds (tx : Z) (rs : list sresult) : list txrow :=
  map (fun r => TxRow (s_e (sr_row r)) (s_a (sr_row r)) (s_v (sr_row r)) (s_tag (sr_row r)) tx true TIMELINE_MAIN)
      (filter (fun r => sr_adds r = true) rs).

(** db.rs:694-704.  The tag is the one searched for. *)
Definition log_retracts (tx : Z) (rs : list sresult) : list txrow :=
  distinct (omap (fun r =>
    if sr_retracts r then
      (fun d => TxRow (s_e (sr_row r)) (s_a (sr_row r)) (d_v d) (s_tag (sr_row r)) tx false TIMELINE_MAIN)
        <$> sr_match r
    else None) rs).

(** db.rs:677-707 insert_transaction *)
Definition insert_transaction (st : store) (tx : Z) (rs : list sresult) : store :=
  set_log st (st_log st ++ log_adds tx rs ++ log_retracts tx rs).

(* ---------------------------------------------------------------- metadata rows *)

(** ORDER BY e, a, v, value_type_tag, added (db.rs:1116, 1139) *)
Definition mdrow : Type := Z * Z * sqlval * Z * bool.
Definition mdrow_cmp (x y : mdrow) : comparison :=
  let '(e1, a1, v1, t1, b1) := x in
  let '(e2, a2, v2, t2, b2) := y in
  match Z.compare e1 e2 with
  | Eq => match Z.compare a1 a2 with
          | Eq => match sqlval_cmp v1 v2 with
                  | Eq => match Z.compare t1 t2 with
                          | Eq => Z.compare (if b1 then 1 else 0) (if b2 then 1 else 0)
                          | c => c end
                  | c => c end
          | c => c end
  | c => c end.
Definition mdrow_le (x y : mdrow) : Prop := mdrow_cmp x y <> Gt.
Global Instance mdrow_le_dec x y : Decision (mdrow_le x y).
Proof. unfold mdrow_le. destruct (mdrow_cmp x y); [left|left|right]; congruence. Defined.

(** db/src/metadata.rs quadruples [e a typed_value added] *)
Definition quad : Type := Z * Z * typed_value * bool.

(** db.rs:1151-1158 *)
Definition quad_of_row (r : mdrow) : res quad :=
  let '(e, a, v, tag, added) := r in
  let! tv := from_sql_value_pair v tag in Ok (e, a, tv, added).

(** db.rs:1130-1148 *)
Definition committed_metadata_assertions (st : store) (tx : Z) : res (list quad) :=
  rmapM quad_of_row
    (merge_sort mdrow_le
      (map (fun r => (t_e r, t_a r, t_v r, t_tag r, t_added r))
        (filter (fun r => t_tx r = tx /\ t_a r ∈ METADATA_LIST) (transactions st)))).

(** db.rs:1098-1126.  UNION removes duplicate rows. *)
Definition resolved_metadata_assertions (rs : list sresult) : res (list quad) :=
  rmapM quad_of_row
    (merge_sort mdrow_le
      (filter (fun r : mdrow => let '(_, a, _, _, _) := r in a ∈ METADATA_LIST)
        (distinct
          (map (fun r => (t_e r, t_a r, t_v r, t_tag r, t_added r)) (log_adds 0 rs ++ log_retracts 0 rs))))).
