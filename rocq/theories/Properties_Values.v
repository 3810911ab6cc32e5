(** Properties of values, keywords, partitions and small collections: C21-C25, C32, C34, C35. *)
From Verif Require Import M_Value M_Partition M_Store M_Meta M_Sets.
From Verif Require Import Spec_Value Spec_Partition Spec_Sets P_Value P_Partition P_Sets.

(* ------------------------------------------------------------------ C21 *)

(** C21: reading back what was written gives the value itself exactly for the [storable] values. *)
Theorem C21_codec_roundtrip : forall v,
  from_sql_value_pair (to_sql_value_pair v).1 (to_sql_value_pair v).2 = Ok v <-> storable v.
Proof. exact codec_roundtrip_iff. Qed.
Print Assumptions C21_codec_roundtrip.
Example C21_codec_roundtrip_case : storable (TVKeyword (nskw "db" "ident")) /\ storable (TVInstant 1510000000000000)
  /\ storable (TVDouble (DKey 7)) /\ storable (TVUuid 1).
Proof. simpl. unfold storable_keyword; simpl. split_and!; done || (try (left; lia)). Qed.

(** Two values with the same SQL representation are the same value. *)
Theorem C21_codec_injective : forall v w,
  storable v -> storable w -> to_sql_value_pair v = to_sql_value_pair w -> v = w.
Proof. exact codec_inj. Qed.
Print Assumptions C21_codec_injective.
Example C21_codec_injective_case : storable (TVLong 1) /\ storable (TVRef 1)
  /\ to_sql_value_pair (TVLong 1) <> to_sql_value_pair (TVRef 1).
Proof. done. Qed.

(** Whatever is read has the type that the tag says. *)
Theorem C21_codec_type : forall v sv tag, from_sql_value_pair sv tag = Ok v -> vt_tag (tv_type v) = tag.
Proof. exact codec_type. Qed.
Print Assumptions C21_codec_type.
Example C21_codec_type_case : from_sql_value_pair (SInt 1) 1 = Ok (TVBoolean true).
Proof. done. Qed.

(** The unrestricted statement is false: the nil UUID is accepted by the writer and rejected by the reader. *)
Theorem C21_codec_refuted : exists v,
  (forall w, from_sql_value_pair (to_sql_value_pair v).1 (to_sql_value_pair v).2 <> Ok w).
Proof. exists (TVUuid 0). done. Qed.
Print Assumptions C21_codec_refuted.

(* ------------------------------------------------------------------ C22 *)

(** C22: microseconds since the epoch are the floored quotient, and the way back is exact except
    before 1970 off the whole second. *)
Theorem C22_micros : forall ns,
  to_micros ns = ns / 1000 /\ to_millis ns = ns / 1000000
  /\ (from_micros (to_micros ns) = ns <-> ns mod 1000 = 0 /\ (0 <= ns \/ ns mod 1000000000 = 0))
  /\ (0 <= ns -> from_micros (to_micros ns) = truncate_micros ns).
Proof. exact (fun ns => conj (to_micros_eq ns) (conj (to_millis_eq ns) (conj (micros_roundtrip_iff ns) (micros_trunc ns)))). Qed.
Print Assumptions C22_micros.
Example C22_micros_case : from_micros (to_micros 1510000000123456789) = 1510000000123456000.
Proof. done. Qed.

Theorem C22_micros_monotone : forall a b, a <= b -> to_micros a <= to_micros b.
Proof. exact to_micros_mono. Qed.
Print Assumptions C22_micros_monotone.
Example C22_micros_monotone_case : to_micros (-1) = -1 /\ to_micros 0 = 0.
Proof. done. Qed.

(** The claim fails before 1970: one microsecond before the epoch is read back as one after it. *)
Theorem C22_micros_refuted : exists ns, ns mod 1000 = 0 /\ from_micros (to_micros ns) = - ns /\ ns <> 0.
Proof. exists (-1000). done. Qed.
Print Assumptions C22_micros_refuted.
(** ... and [from_millis] has the wrong scale for the sub-second part. *)
Theorem C22_millis_refuted : exists ns, 0 <= ns /\ ns mod 1000000 = 0 /\ from_millis (to_millis ns) <> ns.
Proof. exists 1000000. done. Qed.
Print Assumptions C22_millis_refuted.

(* ------------------------------------------------------------------ C23 *)

(** C23: a keyword that does not start with an underscore is reversed to a backward one, and back. *)
Theorem C23_reversed : forall k, plain_forward k ->
  exists k', kw_to_reversed k = Ok k' /\ kw_is_backward k' = true /\ kw_ns k' = kw_ns k
             /\ kw_to_reversed k' = Ok k /\ kw_unreversed k' = Ok (Some k).
Proof. exact reversed_forward. Qed.
Print Assumptions C23_reversed.
Example C23_reversed_case : plain_forward (nskw "foo" "bar")
  /\ kw_to_reversed (nskw "foo" "bar") = Ok (nskw "foo" "_bar").
Proof. done. Qed.

(** Reversal is not an involution on all keywords: [:a/__b] goes to [:a/_b] and then to [:a/b]; and
    reversing [:a/_] panics. *)
Theorem C23_reversed_refuted :
  (exists k k' k'', kw_to_reversed k = Ok k' /\ kw_to_reversed k' = Ok k'' /\ k'' <> k)
  /\ (exists k, is_panic (kw_to_reversed k) = true).
Proof.
  split; [exists (nskw "a" "__b"), (nskw "a" "_b"), (nskw "a" "b")|exists (nskw "a" "_")]; done.
Qed.
Print Assumptions C23_reversed_refuted.

(* ------------------------------------------------------------------ C24 *)

(** C24: for every history of allocations, the ranges handed out have the requested sizes, do not
    contain an entid that was allocated before, are pairwise disjoint, and together with the
    entids allocated before they are what the partition map regards as allocated. *)
Theorem C24_allocation : forall ops pm rs pm',
  wf_parts pm -> Forall (fun o => 0 <= o.2) ops -> alloc_seq pm ops = Ok (rs, pm') ->
  wf_parts pm'
  /\ map (fun r : range => (r.1.1, r.2)) rs = ops
  /\ (forall e, allocated pm' e <-> allocated pm e \/ Exists (in_range e) rs)
  /\ (forall e, Exists (in_range e) rs -> ~ allocated pm e)
  /\ (forall i j r q e, rs !! i = Some r -> rs !! j = Some q -> in_range e r -> in_range e q -> i = j).
Proof. exact alloc_seq_spec. Qed.
Print Assumptions C24_allocation.
Example C24_allocation_case :
  match alloc_seq {[ "u" := Part 10 20 false 12; "v" := Part 30 40 true 30 ]} [("u", 3); ("v", 2); ("u", 4)] with
  | Ok (rs, pm') => rs = [("u", 12, 3); ("v", 30, 2); ("u", 15, 4)]
                    /\ pm' !! "u" = Some (Part 10 20 false 19) /\ pm' !! "v" = Some (Part 30 40 true 32)
  | _ => False
  end
  /\ wf_parts {[ "u" := Part 10 20 false 12; "v" := Part 30 40 true 30 ]}.
Proof. split; [vm_compute; done|]. by apply wf_partsb_sound. Qed.

(** It panics exactly if the range does not fit, and never returns an error. *)
Theorem C24_allocation_panics : forall pm part n p, wf_parts pm -> 0 <= n -> pm !! part = Some p ->
  (is_panic (pm_allocate pm part n) = true <-> pt_end p < pt_next p + n).
Proof. exact pm_allocate_panic. Qed.
Print Assumptions C24_allocation_panics.
Example C24_allocation_panics_case : is_panic (pm_allocate {[ "u" := Part 10 20 false 12 ]} "u" 9) = true
  /\ is_panic (pm_allocate {[ "u" := Part 10 20 false 12 ]} "u" 8) = false.
Proof. done. Qed.

(** [contains_entid] decides allocation. *)
Theorem C24_contains : forall pm e, pm_contains pm e = true <-> allocated pm e.
Proof. exact pm_contains_spec. Qed.
Print Assumptions C24_contains.
Example C24_contains_case : pm_contains {[ "u" := Part 10 20 false 12 ]} 11 = true
  /\ pm_contains {[ "u" := Part 10 20 false 12 ]} 12 = false.
Proof. done. Qed.

(* ------------------------------------------------------------------ C25 *)

(** C25: a key with at most one assertion and at most one retraction, at any positions of the sequence, is
    reported as asserted, retracted, or altered from the retracted to the asserted value, and not at all
    if it does not occur. *)
Theorem C25_add_retract_alter : forall (K V : Type) (ED : EqDecision K) (C : Countable K)
    (l : list (K * V * bool)) (k : K),
  (length (added_of l k) <= 1)%nat -> (length (retracted_of l k) <= 1)%nat ->
  let s := witness_all l in
  ar_asserted s !! k = match added_of l k, retracted_of l k with [x], [] => Some x | _, _ => None end
  /\ ar_retracted s !! k = match added_of l k, retracted_of l k with [], [r] => Some r | _, _ => None end
  /\ ar_altered s !! k = match added_of l k, retracted_of l k with [x], [r] => Some (r, x) | _, _ => None end.
Proof. exact @aras_classifies. Qed.
Print Assumptions C25_add_retract_alter.
Example C25_add_retract_alter_case :
  let l := [(1, "x", true); (2, "a", true); (1, "y", false); (3, "z", false)] : list (Z * string * bool) in
  ar_altered (witness_all l) !! 1 = Some ("y", "x") /\ ar_asserted (witness_all l) !! 2 = Some "a"
  /\ ar_retracted (witness_all l) !! 3 = Some "z" /\ ar_asserted (witness_all l) !! 1 = None.
Proof. done. Qed.

(* ------------------------------------------------------------------ C32 *)

(** C32: chunks cover the list in order, and none is empty or larger than the chunk size. *)
Theorem C32_chunks : forall (A : Type) (size : nat) (l : list A), (0 < size)%nat ->
  concat (chunks size l) = l /\ Forall (fun c => (0 < length c <= size)%nat) (chunks size l).
Proof. exact @chunks_spec. Qed.
Print Assumptions C32_chunks.
Example C32_chunks_case : chunks 2 [1; 2; 3; 4; 5] = [[1; 2]; [3; 4]; [5]].
Proof. done. Qed.

(** The transactor's own assertion holds exactly if there is less than one full chunk, or the number of bindings
    per row does not divide the limit. *)
Theorem C32_assertion : forall k mv n, 0 < k -> 0 < mv ->
  chunk_ok k mv n = true <-> k <= mv /\ (Z.of_nat n < mv / k \/ mv mod k <> 0).
Proof. exact chunk_ok_iff. Qed.
Print Assumptions C32_assertion.
Example C32_assertion_case : chunk_ok 6 999 2000 = true /\ chunk_ok 6 999 3 = true.
Proof. done. Qed.

(** Hence it panics for SQLite's default limit 32766 and one full chunk of 5461 datoms, and for lookups with the limit
    250000 and 62500 of them. *)
Theorem C32_assertion_refuted :
  (exists n, chunk_ok 6 32766 n = false /\ Z.of_nat n = 5461)
  /\ (exists n, chunk_ok 4 250000 n = false /\ Z.of_nat n = 62500).
Proof. exact chunk_refuted. Qed.
Print Assumptions C32_assertion_refuted.

(* ------------------------------------------------------------------ C34 *)

(** C34: the operations of ValueTypeSet are those of sets of value types. *)
Theorem C34_algebra : forall s t,
  (forall x, vts_den (vts_union s t) x <-> vts_den s x \/ vts_den t x)
  /\ (forall x, vts_den (vts_intersection s t) x <-> vts_den s x /\ vts_den t x)
  /\ (forall x, vts_den (vts_difference s t) x <-> vts_den s x /\ ~ vts_den t x)
  /\ (forall x y, vts_den (vts_insert x s) y <-> x = y \/ vts_den s y)
  /\ (forall x, vts_den vts_any x) /\ (forall x, ~ vts_den vts_none x).
Proof. exact vts_algebra. Qed.
Print Assumptions C34_algebra.

(** A set is determined by its members, and the predicates have their set-theoretic meaning. *)
Theorem C34_predicates : forall s t, vts_built s -> vts_built t ->
  (s = t <-> forall x, vts_den s x <-> vts_den t x)
  /\ (vts_is_subset s t = true <-> forall x, vts_den s x -> vts_den t x)
  /\ (vts_is_disjoint s t = true <-> forall x, vts_den s x -> vts_den t x -> False)
  /\ (vts_is_empty s = true <-> forall x, ~ vts_den s x)
  /\ (vts_is_only_numeric s = true <-> forall x, vts_den s x -> x = VTLong \/ x = VTDouble).
Proof. exact vts_predicates. Qed.
Print Assumptions C34_predicates.
Example C34_predicates_case : vts_built (vts_of_both VTLong VTDouble) /\ vts_built vts_any
  /\ vts_is_only_numeric (vts_of_both VTLong VTDouble) = true /\ vts_is_subset vts_any (vts_of_one VTRef) = false.
Proof. split_and!; repeat constructor. Qed.

(** Iteration enumerates the members without repetition; the length is their number. *)
Theorem C34_enumeration : forall s,
  (forall x, x ∈ vts_iter s <-> vts_den s x) /\ NoDup (vts_iter s)
  /\ (forall X, NoDup X -> (forall x, x ∈ X <-> vts_den s x) -> vts_len s = length X).
Proof. exact vts_enumeration. Qed.
Print Assumptions C34_enumeration.

(** The unique type tag exists iff the set is non-empty and its members share one SQLite type tag. *)
Theorem C34_unique_tag : forall s g,
  vts_unique_tag s = Some g <-> (exists t, vts_den s t) /\ (forall t, vts_den s t -> vt_tag t = g).
Proof. exact vts_unique_tag_spec. Qed.
Print Assumptions C34_unique_tag.
Example C34_unique_tag_case : vts_unique_tag (vts_of_both VTLong VTDouble) = Some 5
  /\ vts_unique_tag (vts_of_both VTLong VTRef) = None /\ vts_unique_tag vts_none = None.
Proof. done. Qed.

(* ------------------------------------------------------------------ C35 *)

(** C35: interning any sequence returns handles with the right values, the same handle for equal
    values, each one of the handles passed in, and stores one handle per distinct value. *)
Theorem C35_interning : forall (A : Type) (ED : EqDecision A) (l s os : list (handle A)),
  intern_all [] l = (s, os) ->
  (forall i h o, l !! i = Some h -> os !! i = Some o -> h_val o = h_val h)
  /\ length os = length l
  /\ (forall o p, o ∈ os -> p ∈ os -> h_val o = h_val p -> o = p)
  /\ (forall o, o ∈ os -> o ∈ l)
  /\ length s = length (remove_dups (map h_val l)).
Proof. exact @intern_all_canonical. Qed.
Print Assumptions C35_interning.
Example C35_interning_case :
  intern_all [] [Handle 1 "a"; Handle 2 "b"; Handle 3 "a"]
  = ([Handle 1 "a"; Handle 2 "b"], [Handle 1 "a"; Handle 2 "b"; Handle 1 "a"]).
Proof. done. Qed.
