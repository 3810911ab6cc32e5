(** Results, errors and panics.

    The Rust code uses [Result<T, DbError>] (db-traits/errors.rs) and can also panic
    ([assert!], [unreachable!], [unimplemented!], [expect], slice indexing).  Both are data
    here.  Error payloads (messages, conflicting datoms) are dropped: only the kind is kept. *)
From Coq Require Export ZArith Lia Ascii String.
From stdpp Require Export base list gmap strings sorting.
Global Open Scope string_scope.
Global Open Scope Z_scope.
Global Open Scope list_scope.

(** db-traits/errors.rs: enum DbErrorKind and the nested SchemaConstraintViolation / InputError.
    [ESql] stands for any rusqlite error raised by a constraint. *)
Inductive dberr :=
  | ENotYetImplemented
  | EBadValuePair
  | EBadSQLValuePair
  | EBadSchemaAssertion
  | EUnrecognizedIdent
  | EUnrecognizedEntid
  | EUnallocatedEntid
  | EConflictingUpserts
  | ETypeDisagreements
  | ECardinalityConflicts
  | EBadEntityPlace
  | EBadDbId
  | ESchemaAlterationFailed
  | EWrongTypeValueForFts
  | ENonFtsInsertionFailed
  | EFtsInsertionFailed
  | ECouldNotSearch
  | EDatomsUpdateFailedToAdd
  | ETimelinesInvalidRange
  | ETimelinesMoveToNonEmpty
  | ETimelinesNotMain
  | EBootstrap
  | EGeneration
  | ESql
  | EUnnamedAttribute   (* query-pull-traits: PullError *)
  | ERepeatedDbId
  | EAlgebrizer         (* query-algebrizer-traits: AlgebrizerError, any *)
  | EProjector          (* query-projector-traits: ProjectorError, any *)
  | ESync               (* tolstoy-traits: TolstoyError, any *)
  | EUnknownAttribute   (* public-traits/errors.rs: MentatError *)
  | EMissingCoreVocabulary
  | EInvalidVocabularyVersion
  | EConflictingAttributeDefinitions
  | EExistingVocabularyTooNew
  | EUnexpectedCoreSchema.

(** Every panic that the modelled code can reach, with its source position. *)
Inductive panicsite :=
  | PTx808            (* db/src/tx.rs:808  tempid allocated twice *)
  | PTx813            (* db/src/tx.rs:813-815 tempid neither resolved nor allocated *)
  | PTxInstant        (* db/src/tx.rs:1145,1150 more than one / badly typed txInstant *)
  | PUpsertCoding     (* db/src/upsert_resolution.rs: unreachable! arms *)
  | PUnwrapTerm       (* db/src/internal_types.rs:159 *)
  | PTooManyValues    (* db/src/db.rs:798,940,1061 chunk assertions *)
  | PRepeatValues     (* db/src/lib.rs:113.. repeat_values with zero tuples *)
  | PPartition        (* db/src/types.rs: Partition assertions *)
  | PUnknownPartition (* db/src/db.rs:1316 *)
  | PKeyword          (* edn/src/namespaceable_name.rs:53,72,73 *)
  | PMetadata         (* db/src/metadata.rs:377 *)
  | PUniqueNone       (* db/src/db.rs:1276 *)
  | PUuid             (* db/src/db.rs:425 *)
  | PCommitCache      (* db/src/cache.rs:1927 commit_to: unimplemented! *)
  | PCacheCoding      (* db/src/cache.rs:954 accumulate_evs: unreachable! *)
  | PCacheDecode      (* db/src/cache.rs:190,212 a row that is not a value *)
  | PPull             (* query-pull/src/lib.rs:101 *)
  | PQuery            (* query-algebrizer, query-projector, query-sql: unreachable!, unimplemented!, unwrap *)
  | PHang             (* not a panic: the loop at db/src/cache.rs:972 does not end *)
  | POther.

Inductive res (A : Type) :=
  | Ok (a : A)
  | Err (e : dberr)
  | Panic (p : panicsite).
Arguments Ok {_} _.
Arguments Err {_} _.
Arguments Panic {_} _.

(** The [?] operator. *)
Definition rbind {A B} (m : res A) (f : A -> res B) : res B :=
  match m with Ok a => f a | Err e => Err e | Panic p => Panic p end.
Notation "'let!' x ':=' m 'in' k" := (rbind m (fun x => k))
  (at level 200, x pattern, m at level 100, k at level 200, right associativity).

Definition rmap {A B} (f : A -> B) (m : res A) : res B := let! a := m in Ok (f a).

(** [ok_or] *)
Definition ok_or {A} (o : option A) (e : dberr) : res A :=
  match o with Some a => Ok a | None => Err e end.

(** [iter.map(f).collect::<Result<Vec<_>>>()]: stops at the first failure. *)
Fixpoint rmapM {A B} (f : A -> res B) (l : list A) : res (list B) :=
  match l with
  | [] => Ok []
  | x :: xs => let! y := f x in let! ys := rmapM f xs in Ok (y :: ys)
  end.

(** A loop which threads a state and stops at the first failure. *)
Fixpoint rfold {A S} (f : S -> A -> res S) (s : S) (l : list A) : res S :=
  match l with
  | [] => Ok s
  | x :: xs => let! s' := f s x in rfold f s' xs
  end.

Definition is_ok {A} (r : res A) : bool := match r with Ok _ => true | _ => false end.
Definition is_panic {A} (r : res A) : bool := match r with Panic _ => true | _ => false end.

Definition is_some {A} (o : option A) : bool := match o with Some _ => true | None => false end.
Definition is_nil {A} (l : list A) : bool := match l with [] => true | _ => false end.

Global Instance dberr_eq_dec : EqDecision dberr.
Proof. solve_decision. Defined.
Global Instance panicsite_eq_dec : EqDecision panicsite.
Proof. solve_decision. Defined.
