(** The grammar of transactions, edn/src/lib.rs:240-320: what Store::transact makes of its text before anything else. *)
From stdpp Require Import base list strings.
From Verif Require Import M_Base M_Value M_Edn M_Upsert M_Entity.
Local Open Scope string_scope.
Local Open Scope Z_scope.

(** edn/src/entities.rs:58-62: the derived order of EntidOrIdent; entities.rs:110: MapNotation is a BTreeMap, and collecting pairs
    into it keeps the last of those with equal keys. *)
Definition eoi_cmp (x y : entid_or_ident) : comparison :=
  match x, y with
  | EEntid a, EEntid b => a ?= b
  | EEntid _, EIdent _ => Lt
  | EIdent _, EEntid _ => Gt
  | EIdent a, EIdent b => kw_cmp a b
  end.
Fixpoint pair_insert {V} (k : entid_or_ident) (v : V) (l : list (entid_or_ident * V)) : list (entid_or_ident * V) :=
  match l with
  | [] => [(k, v)]
  | (k', v') :: l => match eoi_cmp k k' with Lt => (k, v) :: (k', v') :: l | Eq => (k', v) :: l | Gt => (k', v') :: pair_insert k v l end
  end.
Definition pairs_from {V} (l : list (entid_or_ident * V)) : list (entid_or_ident * V) :=
  foldl (fun m x => pair_insert x.1 x.2 m) [] l.

Section grammar.
Context (float_of : string -> dbl).

(** lib.rs:242-244 op *)
Definition op_rule : parser op := alt (eat tok ":db/add"; yield OAdd) (eat tok ":db/retract"; yield ORetract).
(** lib.rs:263-265 raw_namespaced_keyword *)
Definition namespaced_rule : parser keyword :=
  eat tok ":"; peg ns <- namespace_rule; eat tok "/"; peg n <- name_rule; yield (Kw (Some ns) n).
(** lib.rs:267-271 raw_forward_namespaced_keyword, raw_backward_namespaced_keyword *)
Definition forward_rule : parser keyword :=
  peg k <- namespaced_rule; check (if kw_is_backward k then None else Some k).
Definition backward_rule : parser keyword :=
  peg k <- namespaced_rule; check (if kw_is_backward k then Some k else None).
(** the integers of lib.rs:274 and 279; the four rules make nothing but integers *)
Definition raw_integer_rule : parser Z :=
  peg v <- alt based_rule (alt hex_rule (alt octal_rule integer_rule)); yield (match v with EInt z => z | _ => 0 end).
(** lib.rs:273-285 entid, forward_entid, backward_entid; [to_reversed] panics if nothing is left of the name *)
Definition entid_rule : parser entid_or_ident :=
  alt (peg z <- raw_integer_rule; yield (EEntid z)) (peg k <- namespaced_rule; yield (EIdent k)).
Definition forward_entid_rule : parser entid_or_ident :=
  alt (peg z <- raw_integer_rule; yield (EEntid z)) (peg k <- forward_rule; yield (EIdent k)).
Definition backward_entid_rule : parser entid_or_ident :=
  peg k <- backward_rule; peg r <- unwrap (match kw_to_reversed k with Ok r => Some r | _ => None end); yield (EIdent r).

(** the rule `value` with as much depth as the text can have *)
Definition any_value_rule : parser edn := fun s => value_rule float_of (S (String.length s)) s.
(** types.rs:493-495 is_atom; lib.rs:230-231 atom *)
Definition is_atom (v : edn) : bool := match v with EVec _ | EList _ | ESet _ | EMapV _ => false | _ => true end.
Definition atom_rule : parser edn := peg v <- any_value_rule; check (if is_atom v then Some v else None).

(** lib.rs:287-289 lookup_ref *)
Definition lookup_rule : parser (entid_or_ident * edn) :=
  eat tok "("; eat spaces; eat tok "lookup-ref"; eat spaces; peg a <- entid_rule; eat spaces; peg v <- any_value_rule; eat spaces;
  eat tok ")"; yield (a, v).
(** lib.rs:291-292 tx_function *)
Definition tx_function_rule : parser string :=
  eat tok "("; eat spaces; peg n <- name_rule; eat spaces; eat tok ")"; yield n.
(** lib.rs:294-298 entity_place *)
Definition entity_place_rule : parser entity_place :=
  alt (eat tok """"; peg t <- text_chars; yield (EPTempId (TExternal t)))
  (alt (peg e <- entid_rule; yield (EPEntid e))
  (alt (peg l <- lookup_rule; yield (EPLookup l.1 (VEdn l.2)))
       (peg f <- tx_function_rule; yield (EPTxFn f)))).

(** lib.rs:303-304 map_notation, with the rule for its values *)
Definition map_notation_rule (value_place_rule : parser value_place) : parser (list (entid_or_ident * value_place)) := fun s =>
  (eat tok "{"; eat spaces;
   peg l <- many (peg k <- entid_rule; eat spaces; peg v <- value_place_rule; yield (k, v)) (S (String.length s));
   eat spaces; eat tok "}"; yield (pairs_from l)) s.
(** lib.rs:300-311 value_place_pair, value_place *)
Fixpoint value_place_rule (n : nat) : parser value_place :=
  match n with
  | O => fun _ => Deep
  | S n =>
      alt (eat spaces; peg l <- lookup_rule; eat spaces; yield (VPLookup l.1 (VEdn l.2)))
      (alt (eat spaces; peg f <- tx_function_rule; eat spaces; yield (VPTxFn f))
      (alt (eat spaces; eat tok "["; eat spaces; (fun s => (peg l <- many (value_place_rule n) (S (String.length s));
            eat spaces; eat tok "]"; eat spaces; yield (VPVector l)) s))
      (alt (eat spaces; peg m <- map_notation_rule (value_place_rule n); eat spaces; yield (VPMap m))
           (eat spaces; peg v <- atom_rule; eat spaces; yield (VPAtom (VEdn v))))))
  end.

(** lib.rs:313-317 entity: with a backward attribute the entity and the value change places *)
Definition entity_rule : parser entity := fun s =>
  let place := value_place_rule (S (String.length s)) in
  alt (eat spaces; eat tok "["; eat spaces; peg o <- op_rule; eat spaces; peg e <- entity_place_rule; eat spaces;
       peg a <- forward_entid_rule; eat spaces; peg v <- place; eat spaces; eat tok "]"; eat spaces; yield (EntAdd o e a v))
  (alt (eat spaces; eat tok "["; eat spaces; peg o <- op_rule; eat spaces; peg v <- place; eat spaces;
        peg a <- backward_entid_rule; eat spaces; peg e <- entity_place_rule; eat spaces; eat tok "]"; eat spaces; yield (EntAdd o e a v))
       (eat spaces; peg m <- map_notation_rule place; eat spaces; yield (EntMap m))) s.
(** lib.rs:319-320 entities *)
Definition entities_rule : parser (list entity) := fun s =>
  (eat spaces; eat tok "["; eat spaces; peg l <- many entity_rule (S (String.length s)); eat spaces; eat tok "]"; eat spaces; yield l) s.

(** edn::parse::entities, as called by transaction/src/lib.rs:219-229 transact: the whole text must be entities. *)
Inductive transaction_read := Entities (l : list entity) | TxParseError | TxParsePanic | TxParseDeep.
Definition read_entities (s : string) : transaction_read :=
  match entities_rule s with
  | Got l "" => Entities l
  | Got _ _ => TxParseError
  | No => TxParseError
  | Boom => TxParsePanic
  | Deep => TxParseDeep
  end.
End grammar.
