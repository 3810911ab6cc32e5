(** Specifications for values. *)
From Verif Require Import M_Value.

(** A string without ':' and '/'. *)
Fixpoint no_sep (s : string) : Prop :=
  match s with EmptyString => True | String c s' => is_sep c = false /\ no_sep s' end.

(** Keywords the store can represent: with a namespace, both parts non-empty and without ':' and '/'. *)
Definition storable_keyword (k : keyword) : Prop :=
  match kw_ns k with
  | None => False
  | Some ns => ns <> EmptyString /\ kw_name k <> EmptyString /\ no_sep ns /\ no_sep (kw_name k)
  end.

(** Values the store can represent: everything but NaN, the nil UUID, the keywords above, instants with a
    sub-microsecond part, and instants before 1970 that are not on a whole second. *)
Definition storable (v : typed_value) : Prop :=
  match v with
  | TVRef _ | TVBoolean _ | TVLong _ | TVString _ => True
  | TVDouble d => d <> DNaN
  | TVInstant ns => ns mod 1000 = 0 /\ (0 <= ns \/ ns mod 1000000000 = 0)
  | TVKeyword k => storable_keyword k
  | TVUuid u => u <> 0%N
  end.

(** A keyword whose name is non-empty and does not start with an underscore. *)
Definition plain_forward (k : keyword) : Prop :=
  kw_name k <> EmptyString /\ starts_underscore (kw_name k) = false /\ kw_ns k <> Some EmptyString.
