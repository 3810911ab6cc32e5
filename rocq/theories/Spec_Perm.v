(** Inputs whose maps are named. *)
From Verif Require Import M_Entity.

(** Every map, at any depth, has a :db/id. *)
Fixpoint vp_named (v : value_place) : bool :=
  match v with
  | VPVector l => forallb vp_named l
  | VPMap m => existsb (fun p => bool_decide (p.1 = db_id_key)) m && forallb (fun p => vp_named p.2) m
  | _ => true
  end.
Definition ent_named (x : entity) : bool :=
  match x with
  | EntAdd _ _ _ v => vp_named v
  | EntMap m => existsb (fun p => bool_decide (p.1 = db_id_key)) m && forallb (fun p => vp_named p.2) m
  end.
