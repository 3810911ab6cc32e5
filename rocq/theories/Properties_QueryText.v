(** C61: the texts of queries. *)
From stdpp Require Import base list strings.
From Verif Require Import M_Base M_Value M_Edn M_Upsert M_Entity M_TxText M_QueryText Spec_Edn Spec_TxText Spec_QueryText Spec_QueryKept Spec_QueryParts P_QueryText P_QueryTotal P_QueryKept P_QueryParts Cases_Edn.
Local Open Scope string_scope.
Local Open Scope Z_scope.

(** However a query is written, with its parts in any order and with any white space and comments, it is read as the query that was written. *)
Theorem C61_reads : forall show float_of q s, shows_floats show float_of -> spells_query show q s -> read_query float_of s = QueryRead q.
Proof. intros show float_of q s H. exact (query_reads show float_of H q s). Qed.
Print Assumptions C61_reads.
(** So two queries written as the same text are the same. *)
Theorem C61_unambiguous : forall show float_of q q' s, shows_floats show float_of -> spells_query show q s -> spells_query show q' s -> q = q'.
Proof. intros show float_of q q' s H A B. apply (C61_reads _ _ _ _ H) in A. apply (C61_reads _ _ _ _ H) in B. congruence. Qed.
Print Assumptions C61_unambiguous.
(** Every text is read, rejected, or panics: the bounds in the model are not reached. *)
Theorem C61_answers : forall float_of s, read_query float_of s <> QueryDeep.
Proof. exact query_never_deep. Qed.
Print Assumptions C61_answers.
(** Whatever text was read as a query, the query is whole: see [whole_query]. *)
Theorem C61_kept : forall float_of s q, read_query float_of s = QueryRead q -> whole_query q.
Proof. exact query_kept. Qed.
Print Assumptions C61_kept.
(** If anything is written after a query, the text is rejected. *)
Theorem C61_ends : forall show float_of q s v x y, shows_floats show float_of -> spells_query show q s -> written show v x -> read_query float_of (s ++ x ++ y) = QueryError.
Proof. intros show float_of q s v x y H. exact (query_ends show float_of H q s v x y). Qed.
Print Assumptions C61_ends.
(** Parts in any order and number are read if none is given twice and neither :find nor :where is missing, and rejected otherwise. *)
Theorem C61_complete : forall show float_of ls ps g t g', shows_floats show float_of -> Forall2 part_form ls ps -> ls <> [] -> blank g ->
  written show (EVec (concat ls)) t -> blank g' ->
  (complete ps /\ exists q, read_query float_of (g ++ t ++ g') = QueryRead q) \/ (~ complete ps /\ read_query float_of (g ++ t ++ g') = QueryError).
Proof. exact parts_read. Qed.
Print Assumptions C61_complete.

Definition attr (n : string) : keyword := Kw (Some "person") n.
Definition pat e a v : qpattern := QPattern None (NvVar e) (NvIdent (attr a)) v NvPlaceholder.
Definition a_query : parsed_query :=
  ParsedQuery (FindRel [ElVar "?n"; ElAggregate "max" [ArgVar "?a"];
      ElPull "?e" [PullAttr (attr "name") None; PullAttr (attr "age") (Some (Kw None "years")); PullAll]]) ["?e"] ["?min"] (FixedLimit 10)
    [WPattern (pat "?e" "name" (VaVar "?n"));
     WOr (Explicit ["?e"; "?a"]) [OClause (WPattern (pat "?e" "age" (VaVar "?a")));
       OAnd [WPattern (pat "?f" "friend" (VaVar "?e"));
             WPattern (QPattern (Some (NamedSrc "h")) (NvVar "?f") (NvIdent (attr "age")) (VaVar "?a") (NvEntid 7))]];
     WNot Implicit [WPattern (pat "?e" "dead" (VaConst (EBool true)))];
     WPred ">" [ArgVar "?a"; ArgVar "?min"];
     WType "?n" (Kw (Some "db.type") "string");
     WFn "ground" [ArgVec [ArgInt 1; ArgInt 2]] (BindColl "?x")]
    (Some [(Descending, "?n"); (Ascending, "?a")]).
Definition query_text : string :=
  "; the old
[:find ?n (max ?a) (pull ?e [:person/name :person/age :as :years *]) :in ?min :order (desc ?n) ?a :limit 10 :where [?e :person/name ?n]" ++
  " (or-join [?e ?a] [?e :person/age ?a] (and [?e :person/_friend ?f] [$h ?f :person/age ?a 7])) (not [?e :person/dead true])" ++
  " [(> ?a ?min)] [(type ?n :db.type/string)] [(ground [1 2]) [?x ...]] :with ?e]".
Local Ltac blk := repeat (apply blank_none || (apply blank_char; [reflexivity|])).
Local Ltac gp := split; [blk|discriminate].
Local Ltac rd := try exact Logic.I; cbn [readable kw_ns kw_name]; try (split; [|reflexivity || vm_compute]); try reflexivity; try exact Logic.I; try lia.
Local Ltac wr := first [apply wr_atom; [exact Logic.I|rd] | eapply (wr_vector _ _ ""); [blk|wrs] | eapply (wr_list _ _ ""); [blk|wrs]]
  with wrs := first [apply wa_none | eapply (wa_one _ _ _ ""); [wr|blk] | eapply (wa_more _ _ _ _ " "); [wr|gp|wrs]].
Local Ltac all2 t := repeat (apply List.Forall2_cons; [t|]); apply List.Forall2_nil.
Local Ltac arg := first [by apply af_integer | by apply af_variable | apply af_vector; [all2 arg|done]].
Local Notation v := EPlainSym (only parsing).
Local Notation k x := (EKw (attr x)) (only parsing).
Definition query_parts : list (list edn) :=
  [[head "find"; v "?n"; EList [v "max"; v "?a"];
    EList [v "pull"; v "?e"; EVec (concat [[k "name"]; [k "age"; head "as"; head "years"]; [v "*"]])]]; [head "in"; v "?min"]; [head "order"; EList [v "desc"; v "?n"]; v "?a"]; [head "limit"; EInt 10];
   [head "where"; EVec [v "?e"; k "name"; v "?n"];
    EList [v "or-join"; EVec [v "?e"; v "?a"]; EVec [v "?e"; k "age"; v "?a"];
           EList [v "and"; EVec [v "?e"; k "_friend"; v "?f"]; EVec [v "$h"; v "?f"; k "age"; v "?a"; EInt 7]]];
    EList [v "not"; EVec [v "?e"; k "dead"; EBool true]];
    EVec [EList [v ">"; v "?a"; v "?min"]];
    EVec [EList [v "type"; v "?n"; EKw (Kw (Some "db.type") "string")]];
    EVec [EList [v "ground"; EVec [EInt 1; EInt 2]]; EVec [v "?x"; v "..."]]];
   [head "with"; v "?e"]].
Lemma plain_pattern e a x y : variable e -> ~ backward (attr a) -> value_form x y -> clause_form (EVec [v e; k a; x]) (WPattern (pat e a y)).
Proof.
  intros E B V. apply cf_pattern. apply (pf_forward [] None (v e) (NvVar e) (k a) (NvIdent (attr a)) [x] y NvPlaceholder);
    [constructor|by constructor|constructor|by intros ? [= <-]|by constructor].
Qed.
Lemma query_spelt : spells_query show0 a_query query_text.
Proof.
  exists (EVec (concat query_parts)), ("; the old" ++ String "010" ""). eexists _, "". split; [|split; [|split; [|split; [blk|]]]].
  - exists query_parts, [PFind (pq_find a_query); PIn (pq_in a_query); POrder [(Descending, "?n"); (Ascending, "?a")]; PLimit (pq_limit a_query);
      PWhere (pq_where a_query); PWith (pq_with a_query)]. split; [done|]. split.
    + apply List.Forall2_cons; [|apply List.Forall2_cons; [|apply List.Forall2_cons; [|apply List.Forall2_cons; [|apply List.Forall2_cons; [|apply List.Forall2_cons; [|apply List.Forall2_nil]]]]]].
      * apply qf_find, ff_rel; [|done]. all2 ltac:(first [by apply ef_variable | apply ef_aggregate; [done..|all2 arg] |
          apply ef_pull; [done| |done]; all2 ltac:(by repeat constructor)]).
      * apply (qf_in ["?min"]); [by repeat constructor|done].
      * apply qf_order; [|done]. all2 ltac:(first [by apply rf_plain | by apply rf_desc]).
      * by apply qf_limit.
      * apply qf_where; [|done].
        apply List.Forall2_cons; [|apply List.Forall2_cons; [|apply List.Forall2_cons; [|apply List.Forall2_cons; [|apply List.Forall2_cons; [|apply List.Forall2_cons; [|apply List.Forall2_nil]]]]]].
        -- apply plain_pattern; [done..|by apply vf_variable].
        -- apply (cf_or_join ["?e"; "?a"]); [by repeat constructor|by apply (bool_decide_unpack _)|done| |done].
           apply List.Forall2_cons; [|apply List.Forall2_cons; [|apply List.Forall2_nil]].
           ++ apply of_clause, plain_pattern; [done..|by apply vf_variable].
           ++ apply of_and; [|done]. apply List.Forall2_cons; [|apply List.Forall2_cons; [|apply List.Forall2_nil]].
              ** apply cf_pattern.
                 apply (pf_backward [] None (v "?e") (NvVar "?e") (Some "person") "friend" [v "?f"] (VaVar "?f") (NvVar "?f") (VaVar "?e") NvPlaceholder); by repeat constructor.
              ** apply cf_pattern. apply (pf_forward [v "$h"] _ (v "?f") (NvVar "?f") (k "age") (NvIdent (attr "age")) [v "?a"; EInt 7] (VaVar "?a") (NvEntid 7));
                   [by apply (sf_named "h")|by constructor|constructor|by intros ? [= <-]|by repeat constructor].
        -- apply cf_not; [|done]. apply List.Forall2_cons; [|apply List.Forall2_nil]. apply plain_pattern; [done..|by apply vf_constant].
        -- apply cf_pred; [done..|all2 arg].
        -- by apply cf_type.
        -- apply cf_fn; [done..|all2 arg|by apply bf_coll].
      * apply (qf_with ["?e"]); [by repeat constructor|done].
    + unfold parts_of. cbn. solve_Permutation.
  - apply (blank_comment " the old" "010" ""); [reflexivity..|blk].
  - cbn [query_parts concat List.app]. wr.
  - vm_compute. reflexivity.
Qed.
Example C61_case : spells_query show0 a_query query_text /\ read_query float0 query_text = QueryRead a_query.
Proof. split; [exact query_spelt|]. apply (C61_reads show0); [exact show0_ok|exact query_spelt]. Qed.
Print Assumptions C61_case.
Lemma same_text x t t' : written show0 x t -> t = t' -> written show0 x t'.
Proof. by intros H <-. Qed.
Example C61_ends_case : written show0 (EVec [EInt 1; v "?x"]) "[1 ?x]" /\ read_query float0 (query_text ++ "[1 ?x]" ++ " 2") = QueryError.
Proof.
  assert (W : written show0 (EVec [EInt 1; v "?x"]) "[1 ?x]") by (eapply same_text; [wr|vm_compute; reflexivity]). split; [exact W|].
  eapply (C61_ends show0); [exact show0_ok|exact query_spelt|exact W].
Qed.
Print Assumptions C61_ends_case.
Example C61_complete_case : exists ls ps, Forall2 part_form ls ps /\ ~ complete ps
  /\ written show0 (EVec (concat ls)) "[:find ?x :limit 5 :where [?x :person/name ?y] :limit 6]"
  /\ read_query float0 "[:find ?x :limit 5 :where [?x :person/name ?y] :limit 6]" = QueryError.
Proof.
  exists [[head "find"; v "?x"]; [head "limit"; EInt 5]; [head "where"; EVec [v "?x"; k "name"; v "?y"]]; [head "limit"; EInt 6]].
  exists [PFind (FindRel [ElVar "?x"]); PLimit (FixedLimit 5); PWhere [WPattern (pat "?x" "name" (VaVar "?y"))]; PLimit (FixedLimit 6)].
  split; [|split; [|split]].
  - apply List.Forall2_cons; [|apply List.Forall2_cons; [|apply List.Forall2_cons; [|apply List.Forall2_cons; [|apply List.Forall2_nil]]]].
    + apply qf_find, ff_rel; [|done]. all2 ltac:(by apply ef_variable).
    + by apply qf_limit.
    + apply qf_where; [|done]. apply List.Forall2_cons; [|apply List.Forall2_nil]. apply plain_pattern; [done..|by apply vf_variable].
    + by apply qf_limit.
  - intros [N _]. cbn in N. apply NoDup_cons in N as [_ N]. apply NoDup_cons in N as [N _]. apply N. apply elem_of_list_further, elem_of_list_here.
  - cbn [concat List.app]. eapply same_text; [wr|vm_compute; reflexivity].
  - vm_compute. reflexivity.
Qed.
Print Assumptions C61_complete_case.

(* ------------------------------------------------------------- what is read otherwise *)

(** A pattern of entity, attribute and value leaves the transaction open: false, a keyword without a namespace is taken as the transaction. *)
Theorem C61_third_refuted : ~ forall float_of a x q, read_query float_of ("[:find ?x :where [?x " ++ a ++ " " ++ x ++ "]]") = QueryRead q ->
  Forall (fun c => match c with WPattern p => qp_tx p = NvPlaceholder | _ => True end) (pq_where q).
Proof.
  intros H. specialize (H float0 ":foo/bar" ":baz" _ eq_refl). inversion H as [|? ? E _]; subst. vm_compute in E. discriminate.
Qed.
Print Assumptions C61_third_refuted.
(** A text is read or rejected: false, an attribute of which nothing is left when the underscore is taken away panics. *)
Theorem C61_panics_refuted : ~ forall float_of s, read_query float_of s <> QueryPanic.
Proof. intros H. by apply (H float0 "[:find ?x :where [?x :foo/_ ?y]]"). Qed.
Print Assumptions C61_panics_refuted.
(** Whatever name an aggregate has, it is read as an aggregate of that name: false, no space is required after the words of the grammar. *)
Theorem C61_words_refuted : ~ forall float_of f q, good_name f = true -> read_query float_of ("[:find (" ++ f ++ ") :where [?x :foo/b 2]]") = QueryRead q ->
  pq_find q = FindRel [ElAggregate f []].
Proof. intros H. specialize (H float0 "the?x" _ eq_refl eq_refl). vm_compute in H. discriminate. Qed.
Print Assumptions C61_words_refuted.
(** Other things that are taken: a name that begins with [type], a part given twice is rejected, what follows the query too. *)
Example C61_odd_case :
  read_query float0 "[:find ?x :where [(type?x :foo)]]" = read_query float0 "[:find ?x :where [(type ?x :foo)]]" /\
  read_query float0 "[:find ?x :where [?x :foo/b ?y] :find ?y]" = QueryError /\
  read_query float0 "[:find ?x :where [?x :foo/_b 2.5]]" = QueryError /\
  read_query float0 "[:find ?x :where [?x :foo/b 2]] :limit 1" = QueryError /\
  read_query float0 "[:find ?x :where [?x :foo/b 2] :limit 0]" = QueryError /\
  read_query float0 "[:find (pull ?x [:foo/b :as :c *]) . :where [?x :foo/b 2]]"
    = QueryRead (ParsedQuery (FindScalar (ElPull "?x" [PullAttr (Kw (Some "foo") "b") (Some (Kw None "c")); PullAll])) [] [] Unlimited
        [WPattern (QPattern None (NvVar "?x") (NvIdent (Kw (Some "foo") "b")) (VaInt 2) NvPlaceholder)] None).
Proof. repeat split; vm_compute; reflexivity. Qed.
Print Assumptions C61_odd_case.
