(** What it means to resolve the tempids of a transaction. *)
From Verif Require Import M_Upsert M_Tx.

(** Replacing tempids by entids; [None] if a tempid has no entid. *)
Definition subst_e (σ : gmap tempid Z) (x : Z + tempid) : option Z :=
  match x with inl e => Some e | inr t => σ !! t end.
Definition subst_v (σ : gmap tempid Z) (x : typed_value + tempid) : option typed_value :=
  match x with inl v => Some v | inr t => TVRef <$> σ !! t end.
Definition subst (σ : gmap tempid Z) (t : term_t) : option term_s :=
  match subst_e σ (tm_e t), subst_v σ (tm_v t) with
  | Some e, Some v => Some (Term (tm_op t) e (tm_a t) v)
  | _, _ => None
  end.

(** The tempids a term mentions *)
Definition tempids_of (t : term_t) : list tempid :=
  (match tm_e t with inr x => [x] | inl _ => [] end) ++ (match tm_v t with inr x => [x] | inl _ => [] end).

(** [:db/add x a v] with a tempid x and an identity attribute a *)
Definition identity_add (s : schema) (t : term_t) (x : tempid) : Prop :=
  tm_op t = OAdd /\ tm_e t = inr x
  /\ exists at_, sc_attribute_map s !! tm_a t = Some at_ /\ at_unique at_ = Some UIdentity.

(** The tempid [x] is the entity [e] of the store because one of the terms says so. *)
Definition upserts_to (st : store) (s : schema) (ts : list term_t) (σ : gmap tempid Z) (x : tempid) (e : Z) : Prop :=
  exists t v, t ∈ ts /\ identity_add s t x /\ subst_v σ (tm_v t) = Some v /\ resolve_av st (tm_a t, v) = Some e.

(** Two tempids are said to be the same entity because they share the value of an identity attribute. *)
Definition shares (s : schema) (ts : list term_t) (σ : gmap tempid Z) (x y : tempid) : Prop :=
  exists t u, t ∈ ts /\ u ∈ ts /\ identity_add s t x /\ identity_add s u y /\ tm_a t = tm_a u
    /\ exists v, subst_v σ (tm_v t) = Some v /\ subst_v σ (tm_v u) = Some v.
