(** C60: the texts of transactions. *)
From Coq Require Import Sorted.
From stdpp Require Import base list strings.
From Verif Require Import M_Base M_Value M_Edn M_Upsert M_Entity M_TxText Spec_Edn Spec_TxText P_TxText P_TxTotal P_TxKept Cases_Edn.
Local Open Scope string_scope.
Local Open Scope Z_scope.

(** However a transaction is written, with any white space and comments and with the pairs of its maps in any order, it is read as
    the entities that were written. *)
Theorem C60_reads : forall show float_of l s, shows_floats show float_of -> spells_transaction show l s -> read_entities float_of s = Entities l.
Proof. intros show float_of l s H. exact (transaction_ok show float_of H l s). Qed.
Print Assumptions C60_reads.
(** So two transactions written as the same text are the same. *)
Theorem C60_unambiguous : forall show float_of l l' s, shows_floats show float_of ->
  spells_transaction show l s -> spells_transaction show l' s -> l = l'.
Proof. intros show float_of l l' s H A B. apply (C60_reads _ _ _ _ H) in A. apply (C60_reads _ _ _ _ H) in B. congruence. Qed.
Print Assumptions C60_unambiguous.
(** Whatever text is read as entities, attributes and entities in them are numbers of 64 bits or keywords with a namespace, no key occurs
    twice in a map, and no list or set is a value. *)
Theorem C60_kept : forall float_of s l, read_entities float_of s = Entities l -> Forall whole_entity l.
Proof. exact all_whole. Qed.
Print Assumptions C60_kept.
(** Every text is read, rejected, or panics: the bounds in the model are not reached. *)
Theorem C60_answers : forall float_of s, read_entities float_of s <> TxParseDeep.
Proof. exact never_deep. Qed.
Print Assumptions C60_answers.

Definition person (n : string) : entid_or_ident := EIdent (Kw (Some "person") n).
Definition tx_pairs : list (entid_or_ident * value_place) :=
  [(EEntid 10, VPTxFn "transaction-tx");
   (person "friends", VPVector [VPLookup (person "id") (VEdn (EInt 7)); VPMap [(person "name", VPAtom (VEdn (EText "C")))]])].
Definition tx_entities : list entity :=
  [EntAdd OAdd (EPTempId (TExternal "p")) (person "name") (VPAtom (VEdn (EText "Bob")));
   EntMap tx_pairs;
   EntAdd ORetract (EPEntid (EEntid 5)) (person "friend") (VPAtom (VEdn (EKw (Kw (Some "x") "y"))))].
Definition tx_text : string :=
  "; people
[[:db/add ""p"" :person/name ""Bob""]
 {:person/friends [(lookup-ref :person/id 7), {:person/name ""C""}] 10 (transaction-tx)},[ :db/retract :x/y :person/_friend 5 ]]
".
Local Ltac blk := repeat (apply blank_none || (apply blank_char; [reflexivity|])).
Local Ltac gp := split; [blk|discriminate].
Local Ltac rf := repeat split; try reflexivity; try lia.
Lemma tx_spelt : spells_transaction show0 tx_entities tx_text.
Proof.
  assert (T : forall t, occurs """" t = false -> occurs "\" t = false -> spells show0 (VPAtom (VEdn (EText t))) (print show0 (EText t))).
  { intros t A B. apply sp_atom; [exact Logic.I|]. by split. }
  eexists ("; people" ++ String "010" ""), "", (String "010" ""), _. split; [|split; [blk|split; [blk|split]]].
  - apply (blank_comment " people" "010" ""); [reflexivity..|blk].
  - apply (ses_more show0 _ _ "[:db/add ""p"" :person/name ""Bob""]" (String "010" " ")
             ("{:person/friends [(lookup-ref :person/id 7), {:person/name ""C""}] 10 (transaction-tx)}" ++ "," ++ "[ :db/retract :x/y :person/_friend 5 ]" ++ "" ++ "")).
    + apply (se_forward show0 OAdd (EPTempId (TExternal "p")) (person "name") (VPAtom (VEdn (EText "Bob"))) "" " " " " " " "" """p""" ":person/name" """Bob""");
        [blk|gp|gp|gp|blk|rf|rf|reflexivity|apply (T "Bob"); reflexivity].
    + blk.
    + apply ses_more; [|blk|apply ses_more; [|blk|apply ses_none]].
      * eapply (se_map show0 _ (rev tx_pairs) "" (":person/friends" ++ " " ++ "[(lookup-ref :person/id 7), {:person/name ""C""}]" ++ " " ++ ("10" ++ " " ++ "(transaction-tx)" ++ "")));
          [blk| |repeat constructor; reflexivity|apply Permutation_swap]. cbn [rev app tx_pairs].
        apply ss_more; [rf|gp| |gp|apply ss_one; [rf|gp| |blk]].
        -- apply (sp_vector show0 _ "" ("(lookup-ref :person/id 7)" ++ ", " ++ ("{:person/name ""C""}" ++ ""))); [blk|].
           apply sa_more; [|gp|apply sa_one; [|blk]].
           ++ apply sp_lookup. exists "", " ", " ", "", ":person/id". split; [blk|]. split; [gp|]. split; [gp|]. split; [blk|]. split; [rf|].
              split; [|reflexivity]. repeat constructor; lia.
           ++ apply (sp_map show0 _ [(person "name", VPAtom (VEdn (EText "C")))] "" (":person/name" ++ " " ++ """C""" ++ "")); [blk| |repeat constructor|reflexivity].
              apply ss_one; [rf|gp|apply (T "C"); reflexivity|blk].
        -- apply sp_function. exists "", "". split; [blk|]. split; [blk|]. rf.
      * apply (se_backward show0 ORetract (EPEntid (EEntid 5)) "person" "friend" (VPAtom (VEdn (EKw (Kw (Some "x") "y")))) " " " " " " " " " " "5" ":x/y");
          [blk|gp|gp|gp|blk|rf| |discriminate|reflexivity|reflexivity|discriminate].
        apply (sp_atom show0 (EKw (Kw (Some "x") "y"))); [exact Logic.I|]. by split.
  - reflexivity.
Qed.
Example C60_case : shows_floats show0 float0 /\ spells_transaction show0 tx_entities tx_text
  /\ read_entities float0 tx_text = Entities tx_entities
  /\ read_entities float0 "[[:db/add :name :a/b 1]]" = TxParseError /\ read_entities float0 "[[:db/add 1 :a/b (a b)]]" = TxParseError.
Proof. split; [exact show0_ok|]. split; [exact tx_spelt|]. vm_compute. by repeat split. Qed.

(** A keyword that is an underscore alone panics where an attribute is expected, and so does a number out of range. *)
Theorem C60_panics_refuted : ~ forall float_of s, read_entities float_of s <> TxParsePanic.
Proof. intros H. apply (H float0 "[[:db/add 1 :a/_ 2]]"). vm_compute. reflexivity. Qed.
Print Assumptions C60_panics_refuted.
Example C60_panics_case : read_entities float0 "[[:db/add 9223372036854775808 :a/b 2]]" = TxParsePanic.
Proof. vm_compute. reflexivity. Qed.
(** An attribute that is not the name of any keyword that can be written. *)
Example C60_odd_case : read_entities float0 "[[:db/add 1 :a/_+b 2]]"
    = Entities [EntAdd OAdd (EPEntid (EEntid 2)) (EIdent (Kw (Some "a") "+b")) (VPAtom (VEdn (EInt 1)))]
  /\ parse float0 ":a/+b" = ParseError.
Proof. vm_compute. by split. Qed.
(** Of two pairs of a map with the same key the first makes no difference and there is no error, though an attribute may have many values. *)
Theorem C60_duplicates_refuted : ~ forall float_of k x y t l,
  read_entities float_of ("[{" ++ k ++ " " ++ x ++ " " ++ k ++ " " ++ y ++ t) = Entities l -> read_entities float_of ("[{" ++ k ++ " " ++ y ++ t) <> Entities l.
Proof.
  intros H. refine (H float0 ":a/b" "1" "2" "}]" [EntMap [(EIdent (Kw (Some "a") "b"), VPAtom (VEdn (EInt 2)))]] _ _); vm_compute; reflexivity.
Qed.
Print Assumptions C60_duplicates_refuted.
