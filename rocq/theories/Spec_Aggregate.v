(** Vocabulary for aggregates. *)
From Verif Require Import M_Aggregate Spec_Tx Spec_Conn Spec_Transact Spec_Cache Spec_Query.

(** What an element is for a group of solutions: the value that they all have, or a function of the values they have.  Each solution counts,
    so that values that occur more than once are counted as often. *)
Definition el_is (l : list assignment) (e : element) (x : typed_value) : Prop :=
  match e with
  | ElVar v => forall σ, σ ∈ l -> σ v = x
  | ElAgg AggCount _ => x = TVLong (Z.of_nat (length l))
  | ElAgg AggMax v => (exists σ, σ ∈ l /\ σ v = x) /\ forall σ, σ ∈ l -> value_cmp (σ v) x <> Gt
  | ElAgg AggMin v => (exists σ, σ ∈ l /\ σ v = x) /\ forall σ, σ ∈ l -> value_cmp (σ v) x <> Lt
  | ElAgg AggSum v => exists zs, Forall2 (fun σ z => σ v = TVLong z) l zs /\ x = TVLong (fold_right Z.add 0 zs)
  | ElAgg AggAvg _ => False
  end.
(** The solutions that agree with [σ] about the variables that are not aggregated *)
Definition group_of (els : list element) (σ : assignment) (l : list assignment) : list assignment :=
  filter (fun σ' => map σ' (plain_vars els) = map σ (plain_vars els)) l.
(** One row for each group; the groups are those of the assignments [reps].  With [n], only the first [n] rows *)
Definition grouped (n : option nat) (els : list element) (l : list assignment) (rows : list (list typed_value)) : Prop :=
  exists reps, (forall σ, σ ∈ reps -> σ ∈ l)
    /\ NoDup (map (fun σ => map σ (plain_vars els)) reps)
    /\ (forall σ, σ ∈ l -> exists σ', σ' ∈ reps /\ map σ' (plain_vars els) = map σ (plain_vars els))
    /\ Forall2 (fun σ row => Forall2 (el_is (group_of els σ l)) els row) (up_to n reps) rows.
(** Nothing but counts: there may be a row of zeros if there are no solutions. *)
Definition only_counts (els : list element) : Prop := Forall (fun e => exists v, e = ElAgg AggCount v) els.
Definition aggregated (n : option nat) (els : list element) (l : list assignment) (rows : list (list typed_value)) : Prop :=
  grouped n els l rows \/ (l = [] /\ only_counts els /\ rows = [map (fun _ => TVLong 0) els]).
(** A tuple or a scalar is one row. *)
Definition ag_limit (f : agg_find) : option nat := if ag_unit f then Some 1%nat else None.

Definition ag_shaped (f : agg_find) (rows : list (list typed_value)) (r : results) : Prop :=
  match f, r with
  | AgRel _, RRel rs => rs = rows
  | AgColl _, RColl l => map (fun x => [x]) l = rows
  | AgTuple _, RTuple o => o = head rows
  | AgScalar _, RScalar o => (fun x => [x]) <$> o = head rows
  | _, _ => False
  end.
(** At least one function; what is aggregated and what is in [:with] is not an input, and something of what is not aggregated is not, if there
    is anything. *)
Record well_aggregated (g : agg_query) : Prop := {
  wa_some : exists o v, ElAgg o v ∈ ag_elements (ag_find g);
  wa_open : forall o v, ElAgg o v ∈ ag_elements (ag_find g) -> v ∉ ag_in g;
  wa_with : forall v, v ∈ ag_with g -> v ∉ ag_in g;
  wa_plain : plain_vars (ag_elements (ag_find g)) = [] \/ exists v, v ∈ plain_vars (ag_elements (ag_find g)) /\ v ∉ ag_in g }.

Definition q_aggregated (sq : sqlite) (c : conn) (g : agg_query) (vals : gmap var typed_value) : res results :=
  q_aggregate sq (Known (schema_of c) no_cache) (disk c) g vals.

(** A function of all answers *)
Definition ag_all (v : var) (o : agg_op) (ins : list var) (ws : list clause) : agg_query := AggQuery (AgScalar (ElAgg o v)) [] ins ws.
(** What it is for the answers [A], each of which counts once *)
Definition total (o : agg_op) (A : list typed_value -> Prop) (r : option typed_value) : Prop :=
  match r with
  | None => forall x, ~ A [x]
  | Some x =>
      match o with
      | AggCount => exists l, NoDup l /\ (forall y, y ∈ l <-> A [y]) /\ x = TVLong (Z.of_nat (length l))
      | AggMax => A [x] /\ forall y, A [y] -> value_cmp y x <> Gt
      | AggMin => A [x] /\ forall y, A [y] -> value_cmp y x <> Lt
      | AggSum => exists zs, NoDup zs /\ (forall y, A [y] <-> exists z, z ∈ zs /\ y = TVLong z) /\ x = TVLong (fold_right Z.add 0 zs)
      | AggAvg => False
      end
  end.
