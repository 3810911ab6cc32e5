(** Specifications for small collections. *)
From Verif Require Import M_Sets M_Meta.

(** Masks that arise from the constructors and operations: built from value types only. *)
Inductive vts_built : vts -> Prop :=
  | built_none : vts_built vts_none
  | built_insert t s : vts_built s -> vts_built (vts_insert t s)
  | built_union s t : vts_built s -> vts_built t -> vts_built (vts_union s t)
  | built_inter s t : vts_built s -> vts_built t -> vts_built (vts_intersection s t)
  | built_diff s t : vts_built s -> vts_built t -> vts_built (vts_difference s t).

(** The mathematical set denoted by a mask. *)
Definition vts_den (s : vts) : value_type -> Prop := fun t => vts_contains s t = true.

(** The events of one key in a sequence of (key, value, added). *)
Definition added_of {K V} `{EqDecision K} (l : list (K * V * bool)) (k : K) : list V :=
  flat_map (fun x : K * V * bool => if decide (x.1.1 = k) then if x.2 then [x.1.2] else [] else []) l.
Definition retracted_of {K V} `{EqDecision K} (l : list (K * V * bool)) (k : K) : list V :=
  flat_map (fun x : K * V * bool => if decide (x.1.1 = k) then if x.2 then [] else [x.1.2] else []) l.

Definition witness_all {K V} `{Countable K} (l : list (K * V * bool)) : aras K V :=
  fold_left (fun s (x : K * V * bool) => witness s x.1.1 x.1.2 x.2) l aras_empty.
