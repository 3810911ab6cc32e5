(** Small collections: core-traits/value_type_set.rs, core/src/sql_types.rs, edn/src/intern_set.rs. *)
From Verif Require Export M_Value.

(* ---------------------------------------------------------------- ValueTypeSet *)

(** core-traits/lib.rs:274-283, 286-: the discriminants of ValueType; enum_set stores the set as a bit mask. *)
Definition vt_bit (t : value_type) : N :=
  match t with
  | VTRef => 0 | VTBoolean => 1 | VTInstant => 2 | VTLong => 3
  | VTDouble => 4 | VTString => 5 | VTKeyword => 6 | VTUuid => 7
  end%N.
(** core-traits/lib.rs ValueType::all_enums *)
Definition all_value_types : list value_type :=
  [VTRef; VTBoolean; VTInstant; VTLong; VTDouble; VTString; VTKeyword; VTUuid].

Definition vts : Type := N.
(** value_type_set.rs:51-115 *)
Definition vts_none : vts := 0%N.
Definition vts_insert (t : value_type) (s : vts) : vts := N.lor s (N.shiftl 1 (vt_bit t)).
Definition vts_of_one (t : value_type) : vts := vts_insert t vts_none.
Definition vts_of_both (t u : value_type) : vts := vts_insert u (vts_insert t vts_none).
Definition vts_from_list (l : list value_type) : vts := fold_left (fun s t => vts_insert t s) l vts_none.
Definition vts_any : vts := vts_from_list all_value_types.
Definition vts_numeric : vts := vts_of_both VTDouble VTLong.
Definition vts_numeric_and_instant : vts := vts_insert VTInstant (vts_of_both VTDouble VTLong).
Definition vts_keywords : vts := vts_of_both VTRef VTKeyword.
Definition vts_longs : vts := vts_of_both VTRef VTLong.
(** value_type_set.rs:89-144; enum_set's operations on the mask *)
Definition vts_contains (s : vts) (t : value_type) : bool := negb (N.eqb (N.land s (N.shiftl 1 (vt_bit t))) 0).
Definition vts_union (s t : vts) : vts := N.lor s t.
Definition vts_intersection (s t : vts) : vts := N.land s t.
Definition vts_difference (s t : vts) : vts := N.ldiff s t.
Definition vts_is_subset (s t : vts) : bool := N.eqb (N.land s t) s.
Definition vts_is_disjoint (s t : vts) : bool := N.eqb (N.land s t) 0.
Definition vts_is_empty (s : vts) : bool := N.eqb s 0.
(** iteration is in the order of the discriminants *)
Definition vts_iter (s : vts) : list value_type := filter (fun t => vts_contains s t = true) all_value_types.
Definition vts_len (s : vts) : nat := length (vts_iter s).
Definition vts_is_unit (s : vts) : bool := Nat.eqb (vts_len s) 1.
Definition vts_exemplar (s : vts) : option value_type := head (vts_iter s).
(** value_type_set.rs:152-156 *)
Definition vts_is_only_numeric (s : vts) : bool := vts_is_subset s vts_numeric.

(** core/src/sql_types.rs:88-94 *)
Definition vts_tags (s : vts) : list Z := remove_dups (map vt_tag (vts_iter s)).
(** sql_types.rs:104-119 *)
Fixpoint unique_tag_loop (acc : list Z) (l : list value_type) : bool :=
  match l with
  | [] => negb (is_nil acc)
  | t :: ts =>
      if decide (vt_tag t ∈ acc) then unique_tag_loop acc ts
      else if decide (1 < length (vt_tag t :: acc))%nat then false
      else unique_tag_loop (vt_tag t :: acc) ts
  end.
Definition vts_has_unique_tag (s : vts) : bool := vts_is_unit s || unique_tag_loop [] (vts_iter s).
(** sql_types.rs:96-102 *)
Definition vts_unique_tag (s : vts) : option Z :=
  if (vts_is_unit s || vts_has_unique_tag s)%bool then vt_tag <$> vts_exemplar s else None.

(* ---------------------------------------------------------------- InternSet *)

(** A ref-counted handle: the identity of the allocation and the value.  [intern] receives a handle (a fresh one
    if it is given a plain value). *)
Record handle (A : Type) := Handle { h_id : nat; h_val : A }.
Arguments Handle {_} _ _.
Arguments h_id {_} _.
Arguments h_val {_} _.

(** intern_set.rs:82-90: [HashSet<ValueRc<T>>] compares values, not addresses *)
Definition intern {A} `{EqDecision A} (s : list (handle A)) (h : handle A) : list (handle A) * handle A :=
  match list_find (fun x => h_val x = h_val h) s with
  | Some (_, x) => (s, x)
  | None => (s ++ [h], h)
  end.
Fixpoint intern_all {A} `{EqDecision A} (s : list (handle A)) (l : list (handle A)) : list (handle A) * list (handle A) :=
  match l with
  | [] => (s, [])
  | h :: hs => let '(s1, o) := intern s h in let '(s2, os) := intern_all s1 hs in (s2, o :: os)
  end.
