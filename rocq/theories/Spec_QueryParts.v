(** Which parts a query has. *)
From stdpp Require Import base list.
From Verif Require Import M_QueryText.

Inductive part_kind := KFind | KWith | KIn | KLimit | KWhere | KOrder.
Definition kind_of (p : query_part) : part_kind :=
  match p with PFind _ => KFind | PWith _ => KWith | PIn _ => KIn | PLimit _ => KLimit | PWhere _ => KWhere | POrder _ => KOrder end.
(** No part twice, and neither :find nor :where is missing. *)
Definition complete (ps : list query_part) : Prop := NoDup (map kind_of ps) /\ KFind ∈ map kind_of ps /\ KWhere ∈ map kind_of ps.
