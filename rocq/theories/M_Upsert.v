(** Terms and upsert resolution: db/src/internal_types.rs, db/src/upsert_resolution.rs. *)
From Verif Require Export M_Store.

(* ---------------------------------------------------------------- terms *)

(** edn/src/entities.rs:388 OpType *)
Inductive op := OAdd | ORetract.
Global Instance op_eq_dec : EqDecision op.
Proof. solve_decision. Defined.

(** edn/src/entities.rs:24-29 TempId *)
Inductive tempid := TExternal (s : string) | TInternal (i : Z).
Global Instance tempid_eq_dec : EqDecision tempid.
Proof. solve_decision. Defined.
Global Instance tempid_countable : Countable tempid.
Proof.
  refine (inj_countable' (fun t => match t with TExternal s => inl s | TInternal i => inr i end)
                         (fun x => match x with inl s => TExternal s | inr i => TInternal i end) _).
  by intros [].
Defined.
(** [derive(Ord)] *)
Definition tempid_cmp (x y : tempid) : comparison :=
  match x, y with
  | TExternal s, TExternal t => string_cmp s t
  | TExternal _, TInternal _ => Lt
  | TInternal _, TExternal _ => Gt
  | TInternal i, TInternal j => Z.compare i j
  end.
Definition tempid_le (x y : tempid) : Prop := tempid_cmp x y <> Gt.
Global Instance tempid_le_dec x y : Decision (tempid_le x y).
Proof. unfold tempid_le. destruct (tempid_cmp x y); [left|left|right]; congruence. Defined.

(** internal_types.rs:120-123 Term *)
Record term (E V : Type) := Term { tm_op : op; tm_e : E; tm_a : Z; tm_v : V }.
Arguments Term {_ _} _ _ _ _.
Arguments tm_op {_ _} _.
Arguments tm_e {_ _} _.
Arguments tm_a {_ _} _.
Arguments tm_v {_ _} _.

(** internal_types.rs:140-143 LookupRefOrTempId *)
Inductive ltref := LLookup (av : avpair) | LTemp (t : tempid).

(** internal_types.rs:145-148.  [Either::Left] is [inl]. *)
Definition term_lt : Type := term (Z + ltref) (typed_value + ltref).
Definition term_t : Type := term (Z + tempid) (typed_value + tempid).
Definition term_s : Type := term Z typed_value.

Notation tempid_map := (gmap tempid Z) (only parsing).

(* ---------------------------------------------------------------- generations *)

(** upsert_resolution.rs:35-70 *)
Record generation := Gen {
  g_upserts_e : list (tempid * Z * typed_value);
  g_upserts_ev : list (tempid * Z * tempid);
  g_allocations : list term_t;
  g_upserted : list term_s;
  g_resolved : list term_s }.
Definition gen_empty : generation := Gen [] [] [] [] [].

Definition g_add_e (g : generation) x := Gen (g_upserts_e g ++ [x]) (g_upserts_ev g) (g_allocations g) (g_upserted g) (g_resolved g).
Definition g_add_ev (g : generation) x := Gen (g_upserts_e g) (g_upserts_ev g ++ [x]) (g_allocations g) (g_upserted g) (g_resolved g).
Definition g_add_alloc (g : generation) x := Gen (g_upserts_e g) (g_upserts_ev g) (g_allocations g ++ [x]) (g_upserted g) (g_resolved g).
Definition g_add_upserted (g : generation) x := Gen (g_upserts_e g) (g_upserts_ev g) (g_allocations g) (g_upserted g ++ [x]) (g_resolved g).
Definition g_add_resolved (g : generation) x := Gen (g_upserts_e g) (g_upserts_ev g) (g_allocations g) (g_upserted g) (g_resolved g ++ [x]).

(** upsert_resolution.rs:95-98: is the attribute :db.unique/identity? *)
Definition is_identity (s : schema) (a : Z) : res bool :=
  let! at_ := require_attribute s a in Ok (bool_decide (at_unique at_ = Some UIdentity)).

(** upsert_resolution.rs:87-131 Generation::from, one term *)
Definition gen_from_one (s : schema) (acc : generation * list term_t) (t : term_t)
    : res (generation * list term_t) :=
  let '(g, inert) := acc in
  match tm_e t, tm_v t with
  | inr e, inr v =>
      match tm_op t with
      | OAdd => let! u := is_identity s (tm_a t) in
                Ok (if u : bool then g_add_ev g (e, tm_a t, v) else g_add_alloc g t, inert)
      | ORetract => Ok (g_add_alloc g t, inert)
      end
  | inr e, inl v =>
      match tm_op t with
      | OAdd => let! u := is_identity s (tm_a t) in
                Ok (if u : bool then g_add_e g (e, tm_a t, v) else g_add_alloc g t, inert)
      | ORetract => Ok (g_add_alloc g t, inert)
      end
  | inl e, inr v => Ok (g_add_alloc g t, inert)
  | inl e, inl v => Ok (g, inert ++ [t])
  end.
Definition gen_from (s : schema) (ts : list term_t) : res (generation * list term_t) :=
  rfold (gen_from_one s) (gen_empty, []) ts.

(** upsert_resolution.rs:137-139 *)
Definition can_evolve (g : generation) : bool := negb (is_nil (g_upserts_e g)).

(** upsert_resolution.rs:152-160 *)
Definition evolve_e (m : tempid_map) (g : generation) (u : tempid * Z * typed_value) : generation :=
  let '(t, a, v) := u in
  match m !! t with
  | Some n => g_add_upserted g (Term OAdd n a v)
  | None => g_add_alloc g (Term OAdd (inr t) a (inl v))
  end.

(** upsert_resolution.rs:162-178 *)
Definition evolve_ev (m : tempid_map) (g : generation) (u : tempid * Z * tempid) : generation :=
  let '(t1, a, t2) := u in
  match m !! t1, m !! t2 with
  | _, Some n2 => g_add_e g (t1, a, TVRef n2)
  | Some n1, None => g_add_alloc g (Term OAdd (inl n1) a (inr t2))
  | None, None => g_add_ev g (t1, a, t2)
  end.

(** upsert_resolution.rs:182-224 *)
Definition evolve_alloc (m : tempid_map) (g : generation) (t : term_t) : res generation :=
  let o := tm_op t in
  let a := tm_a t in
  match tm_e t, tm_v t with
  | inr t1, inr t2 =>
      Ok match m !! t1, m !! t2 with
         | Some n1, Some n2 => g_add_resolved g (Term o n1 a (TVRef n2))
         | None, Some n2 => g_add_alloc g (Term o (inr t1) a (inl (TVRef n2)))
         | Some n1, None => g_add_alloc g (Term o (inl n1) a (inr t2))
         | None, None => g_add_alloc g (Term o (inr t1) a (inr t2))
         end
  | inr t1, inl v =>
      Ok match m !! t1 with
         | Some n => g_add_resolved g (Term o n a v)
         | None => g_add_alloc g (Term o (inr t1) a (inl v))
         end
  | inl e, inr t2 =>
      Ok match m !! t2 with
         | Some n => g_add_resolved g (Term o e a (TVRef n))
         | None => g_add_alloc g (Term o (inl e) a (inr t2))
         end
  | inl _, inl _ => Panic PUpsertCoding
  end.

(** upsert_resolution.rs:145-227.  Terms that upserted in an earlier step are not carried over. *)
Definition evolve_one_step (g : generation) (m : tempid_map) : res generation :=
  let next := Gen [] [] [] [] (g_resolved g) in
  let next := fold_left (evolve_e m) (g_upserts_e g) next in
  let next := fold_left (evolve_ev m) (g_upserts_ev g) next in
  rfold (evolve_alloc m) next (g_allocations g).

(** upsert_resolution.rs:230-239 *)
Definition temp_id_avs (g : generation) : list (tempid * avpair) :=
  map (fun '(t, a, v) => (t, (a, v))) (g_upserts_e g).

(** upsert_resolution.rs:242-253 *)
Definition allocate_unresolved_upserts (g : generation) : generation :=
  Gen (g_upserts_e g) [] (g_allocations g ++ map (fun '(t1, a, t2) => Term OAdd (inr t1) a (inr t2)) (g_upserts_ev g))
      (g_upserted g) (g_resolved g).

(* ---------------------------------------------------------------- tempid labels *)

(** upsert_resolution.rs:270-304: the tempids of a term that need an entid, and, for an identity attribute, the
    (a, value) under which tempids are identified. *)
Definition alloc_tempids (t : term_t) : list tempid :=
  match tm_op t, tm_e t, tm_v t with
  | OAdd, inr t1, inr t2 => [t1; t2]
  | OAdd, inr t1, inl _ => [t1]
  | OAdd, inl _, inr t2 => [t2]
  | _, _, _ => []
  end.
Definition alloc_av (s : schema) (t : term_t) : res (option (Z * (typed_value + tempid) * tempid)) :=
  match tm_op t, tm_e t with
  | OAdd, inr t1 =>
      let! u := is_identity s (tm_a t) in
      Ok (if u : bool then Some (tm_a t, tm_v t, t1) else None)
  | OAdd, inl _ => match tm_v t with inr _ => Ok None | inl _ => Panic PUpsertCoding end
  | ORetract, _ => Ok None
  end.

(** petgraph's union-find, as "quick find": [labels] gives the representative of each index. *)
Definition uf_union (labels : list nat) (i j : nat) : list nat :=
  match labels !! i, labels !! j with
  | Some li, Some lj => map (fun l => if decide (l = lj) then li else l) labels
  | _, _ => labels
  end.

Definition index_of {A} `{EqDecision A} (l : list A) (x : A) : option nat := fst <$> list_find (fun y => y = x) l.

(** upsert_resolution.rs:325-331: all tempids with the same (a, value) are united with the first of them. *)
Definition union_av (ids : list tempid) (acc : list (Z * (typed_value + tempid) * tempid) * list nat)
    (x : Z * (typed_value + tempid) * tempid) : list (Z * (typed_value + tempid) * tempid) * list nat :=
  let '(seen, labels) := acc in
  match list_find (fun y => y.1 = x.1) seen with
  | Some (_, y) =>
      match index_of ids y.2, index_of ids x.2 with
      | Some i, Some j => (seen, uf_union labels i j)
      | _, _ => (seen, labels)
      end
  | None => (seen ++ [x], labels)
  end.

(** upsert_resolution.rs:337-352: dense labels, in sorted tempid order *)
Fixpoint dense (reps : list nat) (labels : list nat) : list nat :=
  match labels with
  | [] => []
  | l :: ls =>
      match index_of reps l with
      | Some d => d :: dense reps ls
      | None => length reps :: dense (reps ++ [l]) ls
      end
  end.

(** upsert_resolution.rs:259-355.  Result: sorted tempids with their label. *)
Definition temp_ids_in_allocations (s : schema) (g : generation) : res (list (tempid * nat)) :=
  if (negb (is_nil (g_upserts_e g)) || negb (is_nil (g_upserts_ev g)))%bool then Panic PUpsertCoding else
  let! avs := rmapM (alloc_av s) (g_allocations g) in
  let ids := merge_sort tempid_le (remove_dups (flat_map alloc_tempids (g_allocations g))) in
  let '(_, labels) := fold_left (union_av ids) (omap id avs) ([], seq 0 (length ids)) in
  Ok (zip ids (dense [] labels)).

(* ---------------------------------------------------------------- final populations *)

(** upsert_resolution.rs:372-404 *)
Definition finalize_term (m : tempid_map) (t : term_t) : res term_s :=
  let o := tm_op t in
  let a := tm_a t in
  let fail := match o with OAdd => Panic PUpsertCoding | ORetract => Err ENotYetImplemented end in
  match tm_e t, tm_v t with
  | inr t1, inr t2 =>
      match m !! t1, m !! t2 with
      | Some n1, Some n2 => Ok (Term o n1 a (TVRef n2))
      | _, _ => fail
      end
  | inr t1, inl v => match m !! t1 with Some n => Ok (Term o n a v) | None => fail end
  | inl e, inr t2 => match m !! t2 with Some n => Ok (Term o e a (TVRef n)) | None => fail end
  | inl _, inl _ => Panic PUpsertCoding
  end.

(** upsert_resolution.rs:359-407: (upserted, resolved, allocated) *)
Definition into_final_populations (g : generation) (m : tempid_map)
    : res (list term_s * list term_s * list term_s) :=
  if (negb (is_nil (g_upserts_e g)) || negb (is_nil (g_upserts_ev g)))%bool then Panic PUpsertCoding else
  let! allocated := rmapM (finalize_term m) (g_allocations g) in
  Ok (g_upserted g, g_resolved g, allocated).

(* ---------------------------------------------------------------- resolution against the store *)

(** tx.rs:178-231 resolve_temp_id_avs *)
Definition resolve_temp_id_avs (mv : Z) (st : store) (l : list (tempid * avpair)) : res tempid_map :=
  let! look := resolve_avs mv st (map snd l) in
  rfold (fun m '(t, av) =>
    match look av with
    | None => Ok m
    | Some e => match m !! t with
                | Some p => if decide (p = e) then Ok m else Err EConflictingUpserts
                | None => Ok (<[t := e]> m)
                end
    end) (∅ : tempid_map) l.

(** tx.rs:757-780: record the tempids resolved in this step *)
Definition merge_tempids (tempids m : tempid_map) : res tempid_map :=
  if bool_decide (map_Forall (fun t e => default e (tempids !! t) = e) m)
  then Ok (m ∪ tempids) else Err EConflictingUpserts.

(** tx.rs:740-783: the loop.  Each step uses up all simple upserts, and new ones only come from complex upserts,
    so [length upserts_ev + 2] steps suffice (proved in P_Upsert); running out of fuel is a
    panic here. *)
Fixpoint evolve_loop (fuel : nat) (mv : Z) (st : store) (g : generation) (tempids : tempid_map)
    : res (generation * tempid_map) :=
  if can_evolve g then
    match fuel with
    | O => Panic POther
    | S fuel =>
        let! m := resolve_temp_id_avs mv st (temp_id_avs g) in
        let! g' := evolve_one_step g m in
        let! tempids' := merge_tempids tempids m in
        evolve_loop fuel mv st g' tempids'
    end
  else Ok (g, tempids).
Definition evolve_fuel (g : generation) : nat := length (g_upserts_ev g) + 2.
