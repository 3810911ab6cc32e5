(** C47: the SQL that queries are turned into. *)
From stdpp Require Import base list strings.
From Verif Require Import M_Base M_Value M_Sql Spec_Sql P_Sql.
Local Open Scope string_scope.
Local Open Scope Z_scope.

(** [exp] stands for Rust's way of printing a double and [real] for SQLite's way of reading one: whatever they are, as long as one
    undoes the other.  Reading the SQL of a query with SQLite's lexical rules, and putting its arguments in the place of their
    parameters, gives the words, names and values of the query and nothing else; no argument is given twice. *)
Theorem C47_faithful : forall exp real q, prints_doubles exp real -> writable_select q ->
  exists sql args, to_sql exp q = Ok (sql, args) /\ read_sql real sql args = Some (select_says q) /\ NoDup (map fst args).
Proof. exact to_sql_read. Qed.
Print Assumptions C47_faithful.

Definition hostile : string := "'; DROP TABLE datoms; --".
Definition here (c : string) : operand := OColumn "datoms00" (Fixed c).
Definition q_hostile : select :=
  Select true (Columns [(here "e", "?x`, 1 --"); (OAggregate Max (here "v"), "(max ?v)")]) (Tables [STable "datoms" "datoms00"])
    [KInfix OpEqual (here "v") (OValue (TVString hostile)); KInfix OpNotEqual (here "v") (OValue (TVDouble (DKey (-5))));
     KOr [KInfix OpEqual (here "a") (OInteger 65537); KNotExists (SSubquery (Select false One (Tables [STable "all_datoms" "all_datoms01"])
            [KInfix OpEqual (OColumn "all_datoms01" (Fixed "v")) (OValue (TVString hostile)); KTypeCheck (here "v") AffText] [] [] NoLimit))]]
    [GroupColumn "?x`, 1 --"] [(false, VarTag "?v"); (true, Var "?v")] (LimitVariable "?how-many").
Example C47_faithful_case : prints_doubles exp0 real0 /\ writable_select q_hostile
  /\ to_sql exp0 q_hostile = Ok ("SELECT DISTINCT `datoms00`.e AS `?x``, 1 --`, max(`datoms00`.v) AS `(max ?v)` FROM `datoms` AS `datoms00` WHERE `datoms00`.v = $v0 AND `datoms00`.v <> -5e0 AND (`datoms00`.a = 65537 OR NOT EXISTS (SELECT 1 FROM `all_datoms` AS `all_datoms01` WHERE `all_datoms01`.v = $v0 AND typeof(`datoms00`.v) = 'text')) GROUP BY `?x``, 1 --` ORDER BY `?v_value_type_tag` DESC, `?v` ASC LIMIT $ihow_many", [("$v0", SText hostile)]).
Proof.
  split; [exact exp0_ok|]. split; [|vm_compute; reflexivity].
  cbn. unfold writable_name. repeat split; try reflexivity; try (vm_compute; reflexivity); try discriminate; unfold fixed_columns; set_solver.
Qed.

(** Two queries with the same SQL and the same arguments say the same: no two values are confused. *)
Theorem C47_injective : forall exp real q1 q2, prints_doubles exp real -> writable_select q1 -> writable_select q2 ->
  to_sql exp q1 = to_sql exp q2 -> select_says q1 = select_says q2.
Proof. exact to_sql_injective. Qed.
Print Assumptions C47_injective.
(** … so that queries for different strings differ, even though their SQL is the same text *)
Definition q_string (s : string) : select := Select false Star (Tables [STable "datoms" "datoms00"]) [KInfix OpEqual (here "v") (OValue (TVString s))] [] [] NoLimit.
Example C47_injective_case : writable_select (q_string "a") /\ writable_select (q_string "b")
  /\ rmap fst (to_sql exp0 (q_string "a")) = rmap fst (to_sql exp0 (q_string "b"))
  /\ to_sql exp0 (q_string "a") <> to_sql exp0 (q_string "b").
Proof.
  split; [repeat split; try reflexivity; unfold fixed_columns; set_solver|]. split; [repeat split; try reflexivity; unfold fixed_columns; set_solver|].
  split; [vm_compute; reflexivity|]. vm_compute. discriminate.
Qed.

(** Equal strings share an argument, and so do equal UUIDs … *)
Theorem C47_shared : forall exp q sql args, (forall k, Val (TVKeyword k) ∉ select_calls q) ->
  to_sql exp q = Ok (sql, args) -> NoDup (map snd args).
Proof. exact to_sql_shared. Qed.
Print Assumptions C47_shared.
Example C47_shared_case : (forall k, Val (TVKeyword k) ∉ select_calls q_hostile)
  /\ select_calls q_hostile !! 26%nat = Some (Val (TVString hostile)) /\ select_calls q_hostile !! 60%nat = Some (Val (TVString hostile)).
Proof.
  split; [intros k H; cbn in H; repeat (apply elem_of_cons in H as [H|H]; [discriminate|]); by apply elem_of_nil in H|].
  split; reflexivity.
Qed.
(** … but equal keywords do not. *)
Definition q_keywords : select := Select false Star (Tables [STable "datoms" "datoms00"])
  [KIn (here "v") [OValue (TVKeyword (Kw (Some "person") "name")); OValue (TVKeyword (Kw (Some "person") "name"))]] [] [] NoLimit.
Theorem C47_keywords_refuted : exists args, writable_select q_keywords /\ rmap snd (to_sql exp0 q_keywords) = Ok args /\ ~ NoDup (map snd args).
Proof.
  eexists. split; [repeat split; try reflexivity; unfold fixed_columns; set_solver|]. split; [vm_compute; reflexivity|].
  cbn. intros H. apply NoDup_cons in H as [H _]. apply H. left.
Qed.

(** A double that is not finite is written as a name. *)
Definition infinity : dbl := DKey (2047 * 2 ^ 52).
Definition q_infinite : select := Select false Star (Tables [STable "datoms" "datoms00"]) [KInfix OpEqual (here "v") (OValue (TVDouble infinity))] [] [] NoLimit.
Theorem C47_infinite_refuted : exists sql args, exp0 infinity = "inf" /\ to_sql exp0 q_infinite = Ok (sql, args)
  /\ read_sql real0 sql args <> Some (select_says q_infinite)
  /\ read_sql real0 sql args = Some [Word "SELECT"; Sym "*"; Word "FROM"; Ident "datoms"; Word "AS"; Ident "datoms00"; Word "WHERE"; Ident "datoms00"; Sym "."; Word "v"; Sym "="; Word "inf"].
Proof.
  eexists _, _. split; [vm_compute; reflexivity|]. split; [vm_compute; reflexivity|]. split; [vm_compute; discriminate|vm_compute; reflexivity].
Qed.

(** The builder is meant to refuse a parameter that it could have generated itself (sql/src/lib.rs:189-194).  It does not: the name
    of a generated parameter starts with a dollar sign, which the name it is given cannot contain. *)
Theorem C47_collision_refuted : exists b, do_calls exp0 [Val (TVString "secret"); Sql ", "; Bind "v0"] new_builder = Ok b
  /\ read_sql real0 (finish b).1 (finish b).2 = Some [Lit (SText "secret"); Sym ","; Lit (SText "secret")].
Proof. eexists. split; vm_compute; reflexivity. Qed.
