(** Partitions (db/src/types.rs:26-84, db/src/db.rs:1306-1327). *)
From Verif Require Export M_Base.

(** types.rs:26-36 *)
Record partition := Part { pt_start : Z; pt_end : Z; pt_allow_excision : bool; pt_next : Z }.
Global Instance partition_eq_dec : EqDecision partition.
Proof. solve_decision. Defined.

(** types.rs:38-56 Partition::new asserts start <= next <= end. *)
Definition partition_new (start stop next : Z) (exc : bool) : res partition :=
  if decide (start <= next <= stop) then Ok (Part start stop exc next) else Panic PPartition.

(** types.rs:58-60 contains_entid: allocated already *)
Definition part_contains (p : partition) (e : Z) : bool := (pt_start p <=? e) && (e <? pt_next p).

(** types.rs:62-64 allows_entid *)
Definition part_allows (p : partition) (e : Z) : bool := (pt_start p <=? e) && (e <=? pt_end p).

(** types.rs:70-77 set_next_entid: asserts that the partition allows the new next entid *)
Definition part_set_next (p : partition) (e : Z) : res partition :=
  if part_allows p e then Ok (Part (pt_start p) (pt_end p) (pt_allow_excision p) e)
  else Panic PPartition.

(** types.rs:79-84 allocate_entids: returns the first entid of the range [idx, idx+n).  The sum is
    computed in i64; a wrapped sum would be negative and hence outside of the partition, so the
    assertion fails in both cases. *)
Definition part_allocate (p : partition) (n : Z) : res (Z * partition) :=
  let idx := pt_next p in
  let! p' := part_set_next p (idx + n) in
  Ok (idx, p').

(** db/src/types.rs PartitionMap = BTreeMap<String, Partition> *)
Notation partition_map := (gmap string partition) (only parsing).

(** db.rs:1313-1321 *)
Definition pm_allocate (pm : partition_map) (part : string) (n : Z) : res (Z * partition_map) :=
  match pm !! part with
  | None => Panic PUnknownPartition
  | Some p => let! (start, p') := part_allocate p n in Ok (start, <[part := p']> pm)
  end.

(** db.rs:1323-1326 *)
Definition pm_contains (pm : partition_map) (e : Z) : bool :=
  existsb (fun p => part_contains p.2 e) (map_to_list pm).
