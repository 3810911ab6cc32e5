(** What the number of results of a query is. *)
From Verif Require Import M_Query.

(** How many results there are *)
Definition number_of (r : results) : nat :=
  match r with RRel rows => length rows | RColl l => length l | RTuple t => if t then 1 else 0 | RScalar s => if s then 1 else 0 end%nat.
