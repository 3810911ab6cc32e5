(** Entities, and the transactor's stages 1 and 2: edn/src/entities.rs, db/src/internal_types.rs,
    db/src/tx.rs:129-705. *)
From Verif Require Export M_EdnValue M_Tx.

(* ---------------------------------------------------------------- entities *)

(** edn/src/entities.rs:59-62 EntidOrIdent *)
Inductive entid_or_ident := EEntid (e : Z) | EIdent (k : keyword).
Global Instance entid_or_ident_eq_dec : EqDecision entid_or_ident.
Proof. solve_decision. Defined.

(** The two instances of TransactableValue (internal_types.rs:31, 87): EDN values (from the parser) and typed values
    (from builders). *)
Inductive tval := VEdn (x : edn) | VTyped (v : typed_value).

(** edn/src/entities.rs:87-141 LookupRef, TxFunction, ValuePlace *)
Inductive value_place :=
  | VPEntid (e : entid_or_ident)
  | VPTempId (t : tempid)
  | VPLookup (a : entid_or_ident) (v : tval)
  | VPTxFn (f : string)
  | VPVector (l : list value_place)
  | VPAtom (v : tval)
  | VPMap (m : list (entid_or_ident * value_place)).

(** edn/src/entities.rs:176-181 EntityPlace *)
Inductive entity_place :=
  | EPEntid (e : entid_or_ident)
  | EPTempId (t : tempid)
  | EPLookup (a : entid_or_ident) (v : tval)
  | EPTxFn (f : string).

(** edn/src/entities.rs:397-408 Entity.  Map notation is a BTreeMap: the list has distinct keys, in
    key order. *)
Inductive entity :=
  | EntAdd (o : op) (e : entity_place) (a : entid_or_ident) (v : value_place)
  | EntMap (m : list (entid_or_ident * value_place)).

(** edn/src/entities.rs:76-83 *)
Definition eoi_unreversed (a : entid_or_ident) : res (option entid_or_ident) :=
  match a with
  | EEntid _ => Ok None
  | EIdent k => rmap (option_map EIdent) (kw_unreversed k)
  end.

(** db/src/schema.rs:345-387 to_typed_value *)
Definition to_typed_value (s : schema) (v : edn) (vt : value_type) : res typed_value :=
  match from_edn_value v with
  | None => Err EBadValuePair
  | Some tv =>
      match vt, tv with
      | VTBoolean, TVBoolean _ | VTLong, TVLong _ | VTDouble, TVDouble _ | VTString, TVString _
      | VTUuid, TVUuid _ | VTInstant, TVInstant _ | VTKeyword, TVKeyword _ => Ok tv
      | VTRef, TVLong x => Ok (TVRef x)
      | VTRef, TVKeyword k => let! e := require_entid s k in Ok (TVRef e)
      | _, _ => Err EBadValuePair
      end
  end.

(** internal_types.rs:32-34, 88-93 *)
Definition into_typed_value (s : schema) (v : tval) (vt : value_type) : res typed_value :=
  match v with
  | VEdn x => to_typed_value s x vt
  | VTyped tv => if decide (tv_type tv = vt) then Ok tv else Err EBadValuePair
  end.

(** internal_types.rs:53-66: the attribute of a lookup ref must be an entid or an ident *)
Definition lookup_attr (a : edn) : res entid_or_ident :=
  match a with
  | EInt x => Ok (EEntid x)
  | EKw k => if kw_is_namespaced k then Ok (EIdent k) else Err EBadEntityPlace
  | _ => Err EBadEntityPlace
  end.

(** internal_types.rs:36-78, 95-109 *)
Definition into_entity_place (v : tval) : res entity_place :=
  match v with
  | VEdn (EInt x) => Ok (EPEntid (EEntid x))
  | VEdn (EKw k) => if kw_is_namespaced k then Ok (EPEntid (EIdent k)) else Err EBadEntityPlace
  | VEdn (EText x) => Ok (EPTempId (TExternal x))
  | VEdn (EList [EPlainSym f]) => Ok (EPTxFn f)
  | VEdn (EList [EPlainSym f; a; x]) =>
      if String.eqb f "lookup-ref" then let! a' := lookup_attr a in Ok (EPLookup a' (VEdn x))
      else Err EBadEntityPlace
  | VEdn _ => Err EBadEntityPlace
  | VTyped (TVRef x) => Ok (EPEntid (EEntid x))
  | VTyped (TVKeyword k) => Ok (EPEntid (EIdent k))
  | VTyped (TVString x) => Ok (EPTempId (TExternal x))
  | VTyped _ => Err EBadEntityPlace
  end.

(** internal_types.rs:80-82, 111-116 *)
Definition as_tempid (v : tval) : option tempid :=
  match v with
  | VEdn (EText x) => Some (TExternal x)
  | VTyped (TVString x) => Some (TExternal x)
  | _ => None
  end.

(** tx.rs:129-151 remove_db_id *)
Definition db_id_key : entid_or_ident := EIdent (nskw "db" "id").
Definition remove_db_id (m : list (entid_or_ident * value_place))
    : res (option entity_place * list (entid_or_ident * value_place)) :=
  let rest := filter (fun p => p.1 <> db_id_key) m in
  match list_find (fun p => p.1 = db_id_key) m with
  | None => Ok (None, rest)
  | Some (_, (_, v)) =>
      let! e := match v with
        | VPEntid e => Ok (EPEntid e)
        | VPLookup a x => Ok (EPLookup a x)
        | VPTempId t => Ok (EPTempId t)
        | VPTxFn f => Ok (EPTxFn f)
        | VPAtom x => into_entity_place x
        | VPVector _ | VPMap _ => Err EBadDbId
        end in
      Ok (Some e, rest)
  end.

(* ---------------------------------------------------------------- stage 1 *)

(** tx.rs:250-257 InProcess; the constant fields are arguments.  The InternSets are a set of tempids and a
    duplicate-free list of lookup refs. *)
Record inproc := InProc { ip_count : Z; ip_tempids : gset tempid; ip_lookups : list avpair }.
Definition inproc_new : inproc := InProc 0 ∅ [].

Definition intern_tempid (ip : inproc) (t : tempid) : inproc :=
  InProc (ip_count ip) ({[t]} ∪ ip_tempids ip) (ip_lookups ip).
Definition intern_lookup (ip : inproc) (av : avpair) : inproc :=
  InProc (ip_count ip) (ip_tempids ip) (if decide (av ∈ ip_lookups ip) then ip_lookups ip else ip_lookups ip ++ [av]).

Section stage1.
  Context (pm : partition_map) (s : schema) (tx : Z).

  (** tx.rs:352-358 entity_a_into_term_a; also 290-295 *)
  Definition entity_a_into_term_a (a : entid_or_ident) : res Z :=
    match a with EEntid x => Ok x | EIdent k => require_entid s k end.

  (** tx.rs:286-310 intern_lookup_ref *)
  Definition intern_lookup_ref (ip : inproc) (a : entid_or_ident) (v : tval) : res (avpair * inproc) :=
    let! a := entity_a_into_term_a a in
    let! at_ := require_attribute s a in
    let! tv := into_typed_value s v (at_type at_) in
    match at_unique at_ with
    | None => Err ENotYetImplemented
    | Some _ => Ok ((a, tv), intern_lookup ip (a, tv))
    end.

  (** tx.rs:312-317 *)
  Definition allocate_mentat_id (ip : inproc) : entity_place * inproc :=
    (EPTempId (TInternal (ip_count ip + 1)), InProc (ip_count ip + 1) (ip_tempids ip) (ip_lookups ip)).

  Definition transaction_fn (f : string) : res Z :=
    if String.eqb f "transaction-tx" then Ok tx else Err ENotYetImplemented.

  (** tx.rs:319-350 entity_e_into_term_e *)
  Definition entity_e_into_term_e (ip : inproc) (x : entity_place) : res ((Z + ltref) * inproc) :=
    match x with
    | EPEntid (EEntid e) => if pm_contains pm e then Ok (inl e, ip) else Err EUnallocatedEntid
    | EPEntid (EIdent k) => let! e := require_entid s k in Ok (inl e, ip)
    | EPTempId t => Ok (inr (LTemp t), intern_tempid ip t)
    | EPLookup a v => let! (av, ip) := intern_lookup_ref ip a v in Ok (inr (LLookup av), ip)
    | EPTxFn f => let! e := transaction_fn f in Ok (inl e, ip)
    end.

  (** tx.rs:360-366 entity_e_into_term_v *)
  Definition entity_e_into_term_v (ip : inproc) (x : entity_place) : res ((typed_value + ltref) * inproc) :=
    let! (r, ip) := entity_e_into_term_e ip x in
    Ok (match r with inl e => inl (TVRef e) | inr l => inr l end, ip).

  (** tx.rs:368-427 entity_v_into_term_e; [fa] is the unreversed attribute *)
  Definition entity_v_into_term_e (ip : inproc) (x : value_place) (fa : entid_or_ident)
      : res ((Z + ltref) * inproc) :=
    let! a := entity_a_into_term_a fa in
    let! at_ := require_attribute s a in
    if decide (at_type at_ = VTRef) then
      match x with
      | VPAtom v =>
          match as_tempid v with
          | Some t => Ok (inr (LTemp t), intern_tempid ip t)
          | None =>
              let! tv := into_typed_value s v VTRef in
              match tv with TVRef e => Ok (inl e, ip) | _ => Err ENotYetImplemented end
          end
      | VPEntid e => let! e := entity_a_into_term_a e in Ok (inl e, ip)
      | VPTempId t => Ok (inr (LTemp t), intern_tempid ip t)
      | VPLookup a v => let! (av, ip) := intern_lookup_ref ip a v in Ok (inr (LLookup av), ip)
      | VPTxFn f => let! e := transaction_fn f in Ok (inl e, ip)
      | VPVector _ | VPMap _ => Err ENotYetImplemented
      end
    else Err ENotYetImplemented.

  (** tx.rs:469-476 (and 595-610): [op] is always Add *)
  Definition reversed_term (ip : inproc) (v : value_place) (fa : entid_or_ident) (e : entity_place)
      : res (term_lt * inproc) :=
    let! (re, ip) := entity_v_into_term_e ip v fa in
    let! ra := entity_a_into_term_a fa in
    let! (rv, ip) := entity_e_into_term_v ip e in
    Ok (Term OAdd re ra rv, ip).

  (** tx.rs:588-634: the entries of a nested map.  Accumulates (dangling, terms, pushed entities, in-process). *)
  Definition nested_entry (db_id : entity_place) (acc : bool * list term_lt * list entity * inproc)
      (p : entid_or_ident * value_place) : res (bool * list term_lt * list entity * inproc) :=
    let '(dangling, terms, pushed, ip) := acc in
    let! fa := eoi_unreversed p.1 in
    match fa with
    | Some fa =>
        let! (t, ip) := reversed_term ip p.2 fa db_id in
        Ok (false, terms ++ [t], pushed, ip)
    | None =>
        let! a := entity_a_into_term_a p.1 in
        let! at_ := require_attribute s a in
        Ok (if decide (at_unique at_ = Some UIdentity) then false else dangling,
            terms, EntAdd OAdd db_id (EEntid a) p.2 :: pushed, ip)
    end.

  (** What one iteration does with the forward value (tx.rs:481-641): either a value, with terms and entities
      produced on the way, or ([None]) only entities pushed onto the deque. *)
  Definition forward_value (ip : inproc) (o : op) (e : entity_place) (a : Z) (at_ : attribute) (v : value_place)
      : res (option (typed_value + ltref) * list term_lt * list entity * inproc) :=
    match v with
    | VPAtom x =>
        match (if decide (at_type at_ = VTRef) then as_tempid x else None) with
        | Some t => Ok (Some (inr (LTemp t)), [], [], intern_tempid ip t)
        | None => let! tv := into_typed_value s x (at_type at_) in Ok (Some (inl tv), [], [], ip)
        end
    | VPEntid x => let! n := entity_a_into_term_a x in Ok (Some (inl (TVRef n)), [], [], ip)
    | VPTempId t => Ok (Some (inr (LTemp t)), [], [], intern_tempid ip t)
    | VPLookup la lv =>
        if decide (at_type at_ = VTRef) then
          let! (av, ip) := intern_lookup_ref ip la lv in Ok (Some (inr (LLookup av)), [], [], ip)
        else Err ENotYetImplemented
    | VPTxFn f =>
        let! n := transaction_fn f in
        if decide (at_type at_ = VTRef) then Ok (Some (inl (TVRef n)), [], [], ip) else Err ENotYetImplemented
    | VPVector vs =>
        if at_multival at_ then Ok (None, [], rev (map (fun vv => EntAdd o e (EEntid a) vv) vs), ip)
        else Err ENotYetImplemented
    | VPMap m =>
        match o with
        | ORetract => Err ENotYetImplemented
        | OAdd =>
            if decide (at_type at_ = VTRef) then
              let! (id, rest) := remove_db_id m in
              let '(db_id, ip) := match id with Some x => (x, ip) | None => allocate_mentat_id ip end in
              let dangling := (negb (is_some id) && negb (at_component at_))%bool in
              let! (dangling, terms, pushed, ip) := rfold (nested_entry db_id) (dangling, [], [], ip) rest in
              if dangling : bool then Err ENotYetImplemented else
              let! (tv, ip) := entity_e_into_term_v ip db_id in
              Ok (Some tv, terms, pushed, ip)
            else Err ENotYetImplemented
        end
    end.

  (** tx.rs:444-649: one iteration: (new terms, entities pushed onto the front) *)
  Definition process_entity (ip : inproc) (x : entity) : res (list term_lt * list entity * inproc) :=
    match x with
    | EntMap m =>
        let! (id, rest) := remove_db_id m in
        let '(db_id, ip) := match id with Some x => (x, ip) | None => allocate_mentat_id ip end in
        Ok ([], rev (map (fun p => EntAdd OAdd db_id p.1 p.2) rest), ip)
    | EntAdd o e a v =>
        let! fa := eoi_unreversed a in
        match fa with
        | Some fa => let! (t, ip) := reversed_term ip v fa e in Ok ([t], [], ip)
        | None =>
            let! a := entity_a_into_term_a a in
            let! at_ := require_attribute s a in
            let! (tv, terms, pushed, ip) := forward_value ip o e a at_ v in
            match tv with
            | None => Ok (terms, pushed, ip)
            | Some tv => let! (te, ip) := entity_e_into_term_e ip e in Ok (terms ++ [Term o te a tv], pushed, ip)
            end
        end
    end.

  (** The size of an entity: the number of values in it, which bounds the number of iterations. *)
  Fixpoint vp_size (v : value_place) : nat :=
    match v with
    | VPVector l => S (list_sum (map vp_size l))
    | VPMap m => S (list_sum (map (fun p => vp_size p.2) m))
    | _ => 1%nat
    end.
  Definition ent_size (x : entity) : nat :=
    match x with
    | EntAdd _ _ _ v => vp_size v
    | EntMap m => S (list_sum (map (fun p => vp_size p.2) m))
    end.

  (** tx.rs:442-650: the loop.  Running out of fuel is a panic here, and P_Entity proves that it does not happen with the fuel of
      [stage1]. *)
  Fixpoint stage1_loop (fuel : nat) (deque : list entity) (terms : list term_lt) (ip : inproc)
      : res (list term_lt * inproc) :=
    match deque with
    | [] => Ok (terms, ip)
    | x :: rest =>
        match fuel with
        | O => Panic POther
        | S fuel =>
            let! (ts, pushed, ip) := process_entity ip x in
            stage1_loop fuel (pushed ++ rest) (terms ++ ts) ip
        end
    end.
  Definition stage1 (es : list entity) : res (list term_lt * inproc) :=
    stage1_loop (list_sum (map ent_size es)) es [] inproc_new.
End stage1.

(* ---------------------------------------------------------------- stage 2 *)

(** internal_types.rs:181-209 replace_lookup_ref *)
Definition replace_lookup_ref {T} (look : avpair -> option Z) (x : T + ltref) (lift : Z -> T) : res (T + tempid) :=
  match x with
  | inl t => Ok (inl t)
  | inr (LTemp t) => Ok (inr t)
  | inr (LLookup av) => match look av with Some e => Ok (inl (lift e)) | None => Err EUnrecognizedIdent end
  end.

(** tx.rs:656-678 *)
Definition resolve_lookup_refs (look : avpair -> option Z) (ts : list term_lt) : res (list term_t) :=
  rmapM (fun t =>
    let! e := replace_lookup_ref look (tm_e t) id in
    let! v := replace_lookup_ref look (tm_v t) TVRef in
    Ok (Term (tm_op t) e (tm_a t) v)) ts.

(** tx.rs:684-705 transact_entities: stages 1 and 2 *)
Definition entities_to_terms (mv : Z) (st : store) (pm : partition_map) (s : schema) (tx : Z) (es : list entity)
    : res (list term_t * gset tempid) :=
  let! (ts, ip) := stage1 pm s tx es in
  let! look := resolve_avs mv st (ip_lookups ip) in
  let! ts := resolve_lookup_refs look ts in
  Ok (ts, ip_tempids ip).

(** tx.rs:1017-1032 transact *)
Definition transact (mv now : Z) (st : store) (pm : partition_map) (schema_mut s : schema) (es : list entity)
    : store * res txresult :=
  match pm_allocate pm ":db.part/tx" 1 with
  | Err e => (st, Err e)
  | Panic p => (st, Panic p)
  | Ok (tx, pm) =>
      match entities_to_terms mv st pm s tx es with
      | Err e => (st, Err e)
      | Panic p => (st, Panic p)
      | Ok (ts, ids) => transact_simple_terms mv now MaterializeAndCommit st pm schema_mut s tx ts ids
      end
  end.
