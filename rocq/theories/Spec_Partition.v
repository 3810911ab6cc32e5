(** Specification of a history of allocations. *)
From Verif Require Import M_Partition.

(** A range of entids: the partition it was taken from, first entid, count. *)
Definition range : Type := string * Z * Z.
Definition in_range (e : Z) (r : range) : Prop := r.1.2 <= e < r.1.2 + r.2.

(** A sequence of allocations (partition, count): the ranges handed out. *)
Fixpoint alloc_seq (pm : partition_map) (ops : list (string * Z)) : res (list range * partition_map) :=
  match ops with
  | [] => Ok ([], pm)
  | (part, n) :: ops =>
      let! (x, pm1) := pm_allocate pm part n in
      let! (rs, pm2) := alloc_seq pm1 ops in
      Ok ((part, x, n) :: rs, pm2)
  end.

(** Well-formed partition maps: the next entid is inside of the partition, partitions do not overlap. *)
Definition wf_parts (pm : partition_map) : Prop :=
  (forall x p, pm !! x = Some p -> pt_start p <= pt_next p <= pt_end p)
  /\ (forall x y p q, pm !! x = Some p -> pm !! y = Some q -> x <> y -> pt_end p < pt_start q \/ pt_end q < pt_start p).

(** The entid is already allocated. *)
Definition allocated (pm : partition_map) (e : Z) : Prop :=
  exists x p, pm !! x = Some p /\ pt_start p <= e < pt_next p.
