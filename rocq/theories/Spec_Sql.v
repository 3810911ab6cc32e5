(** Reading SQL: a lexer for the part of SQLite's language that queries are written in, and what the
    text of a query should say.  The lexer refuses whatever it is not sure about (comments, a NUL
    byte, a digit after a dot, a parenthesis right after a parameter, …). *)
From stdpp Require Import base list strings.
From Coq Require Import ZArith String Ascii DecimalString.
From Verif Require Import M_Base M_Value M_Sql.
Local Open Scope Z_scope.
Local Open Scope string_scope.

Inductive token := TWord (s : string) | TNumber (s : string) | TText (s : string) | TName (s : string) | TParam (s : string) | TSymbol (s : string).

Definition word_start (c : ascii) : bool := in_range c "a" "z" || in_range c "A" "Z" || Ascii.eqb c "_".
Definition word_char (c : ascii) : bool := word_start c || is_digit c.
Definition op_char (c : ascii) : bool := Ascii.eqb c "<" || Ascii.eqb c ">" || Ascii.eqb c "=".

(** What has been read of the current token.  [LNameTick], [LTextTick]: a quote inside a quoted name or
    text, which either ends it or is the first of two. *)
Inductive lexing :=
  | LReady | LDot | LMinus
  | LWord (s : string) | LNumber (s : string) | LExponent (s : string) | LOp (s : string) | LParam (s : string)
  | LName (s : string) | LNameTick (s : string) | LText (s : string) | LTextTick (s : string).

Definition add_char (s : string) (c : ascii) : string := s ++ String c "".

(** the first character of a token *)
Definition start (c : ascii) : option (list token * lexing) :=
  if Ascii.eqb c " " then Some ([], LReady)
  else if Ascii.eqb c "(" || Ascii.eqb c ")" || Ascii.eqb c "," || Ascii.eqb c "*" then Some ([TSymbol (String c "")], LReady)
  else if Ascii.eqb c "." then Some ([TSymbol "."], LDot)
  else if op_char c then Some ([], LOp (String c ""))
  else if Ascii.eqb c "-" then Some ([], LMinus)
  else if is_digit c then Some ([], LNumber (String c ""))
  else if word_start c then Some ([], LWord (String c ""))
  else if Ascii.eqb c "$" then Some ([], LParam "$")
  else if Ascii.eqb c "`" then Some ([], LName "")
  else if Ascii.eqb c "'" then Some ([], LText "")
  else None.

(** a token has ended and [c] follows it *)
Definition close (t : token) (c : ascii) : option (list token * lexing) :=
  match start c with Some (ts, l) => Some (t :: ts, l) | None => None end.
(** … and what may follow directly *)
Definition breaks (c : ascii) : bool := Ascii.eqb c " " || Ascii.eqb c ")" || Ascii.eqb c ",".

Definition lex_char (l : lexing) (c : ascii) : option (list token * lexing) :=
  if Ascii.eqb c zero then None else
  match l with
  | LReady => start c
  | LDot => if word_start c || Ascii.eqb c "`" then start c else None
  | LMinus => if is_digit c then Some ([], LNumber (String "-" (String c ""))) else None
  | LWord s =>
      if word_char c then Some ([], LWord (add_char s c))
      else if breaks c || Ascii.eqb c "(" then close (TWord s) c else None
  | LNumber s =>
      if is_digit c || Ascii.eqb c "." then Some ([], LNumber (add_char s c))
      else if Ascii.eqb c "e" then Some ([], LExponent (add_char s c))
      else if breaks c then close (TNumber s) c else None
  | LExponent s => if is_digit c || Ascii.eqb c "-" then Some ([], LNumber (add_char s c)) else None
  | LOp s => if op_char c then Some ([], LOp (add_char s c)) else if breaks c then close (TSymbol s) c else None
  | LParam s =>
      if word_char c then Some ([], LParam (add_char s c))
      else if breaks c then close (TParam s) c else None
  | LName s => if Ascii.eqb c "`" then Some ([], LNameTick s) else Some ([], LName (add_char s c))
  | LNameTick s =>
      if Ascii.eqb c "`" then Some ([], LName (add_char s c))
      else if breaks c || Ascii.eqb c "." then close (TName s) c else None
  | LText s => if Ascii.eqb c "'" then Some ([], LTextTick s) else Some ([], LText (add_char s c))
  | LTextTick s =>
      if Ascii.eqb c "'" then Some ([], LText (add_char s c))
      else if breaks c then close (TText s) c else None
  end.

Fixpoint lex_from (l : lexing) (s : string) : option (list token * lexing) :=
  match s with
  | "" => Some ([], l)
  | String c s =>
      match lex_char l c with
      | None => None
      | Some (ts, l) => match lex_from l s with Some (ts', l) => Some ((ts ++ ts')%list, l) | None => None end
      end
  end.
(** the end of the text *)
Definition last_token (l : lexing) : option (list token) :=
  match l with
  | LReady => Some []
  | LWord s => Some [TWord s] | LNumber s => Some [TNumber s] | LOp s => Some [TSymbol s] | LParam s => Some [TParam s]
  | LNameTick s => Some [TName s] | LTextTick s => Some [TText s]
  | LDot | LMinus | LExponent _ | LName _ | LText _ => None
  end.
Definition lex (s : string) : option (list token) :=
  match lex_from LReady s with
  | Some (ts, l) => match last_token l with Some ts' => Some (ts ++ ts')%list | None => None end
  | None => None
  end.

(** What a piece of SQL says once its arguments are bound.  [Hole]: a parameter without an argument. *)
Inductive item := Word (s : string) | Sym (s : string) | Quoted (s : string) | Ident (s : string) | Lit (v : sqlval) | Hole (s : string).

(** a number is an integer if it is written as one; [real] reads the others *)
Definition read_number (real : string -> option dbl) (s : string) : option sqlval :=
  match NilZero.int_of_string s with Some i => Some (SInt (Z.of_int i)) | None => SReal <$> real s end.
Definition read_token (real : string -> option dbl) (args : list (string * sqlval)) (t : token) : option item :=
  match t with
  | TWord s => Some (Word s)
  | TSymbol s => Some (Sym s)
  | TText s => Some (Quoted s)
  | TName s => Some (Ident s)
  | TNumber s => Lit <$> read_number real s
  | TParam s => Some (match assoc s args with Some v => Lit v | None => Hole s end)
  end.
Definition read_sql (real : string -> option dbl) (sql : string) (args : list (string * sqlval)) : option (list item) :=
  match lex sql with Some ts => mapM (read_token real args) ts | None => None end.

(** [exp] prints every finite double as one number, not an integer, that [real] reads back. *)
Definition finite_double (d : dbl) : Prop := match d with DNaN => False | DKey k => Z.abs k < 2047 * 2 ^ 52 end.
Definition prints_doubles (exp : dbl -> string) (real : string -> option dbl) : Prop :=
  forall d, finite_double d ->
    lex_from LReady (exp d) = Some ([], LNumber (exp d)) /\ NilZero.int_of_string (exp d) = None /\ real (exp d) = Some d.

(* ------------------------------------------------------------- what queries say *)

Definition value_says (v : typed_value) : item := Lit (to_sql_value_pair v).1.
Definition var_column_says (c : var_column) : item :=
  match c with Var v => Ident v | VarTag v => Ident (v ++ "_value_type_tag") end.
Definition column_says (alias : string) (c : sql_column) : list item :=
  [Ident alias; Sym "."; match c with Fixed s => Word s | VarCol c => var_column_says c end].
Fixpoint operand_says (x : operand) : list item :=
  match x with
  | OColumn a c => column_says a c
  | OExisting n => [Ident n]
  | OInteger z => [Lit (SInt z)]
  | OValue v => [value_says v]
  | OAggregate a x => [Word (aggregate_str a); Sym "("] ++ operand_says x ++ [Sym ")"]
  end%list.

(** [x1 sep x2 sep … xn] *)
Fixpoint separated (sep : item) (ls : list (list item)) : list item :=
  match ls with [] => [] | [x] => x | x :: ls => x ++ sep :: separated sep ls end%list.
Definition listed := separated (Sym ",").
Definition clause (head : list item) (sep : item) (parts : list (list item)) : list item :=
  match parts with [] => [] | _ => head ++ separated sep parts end%list.
Definition infix_says (o : infix) : item := match o with OpMatch => Word "MATCH" | o => Sym (infix_str o) end.
Definition affinity_says (a : affinity) : item :=
  Quoted match a with AffNull => "null" | AffInteger => "integer" | AffReal => "real" | AffText => "text" | AffBlob => "blob" end.
Definition projection_says (p : projection) : list item :=
  match p with
  | One => [Lit (SInt 1)]
  | Star => [Sym "*"]
  | Columns cols => listed (map (fun c => (operand_says c.1 ++ [Word "AS"; Ident c.2])%list) cols)
  end.
Definition rows_say (rows : list (list typed_value)) : list item :=
  (Word "VALUES" :: listed (map (fun row => [Sym "("] ++ listed (map (fun v => [value_says v]) row) ++ [Sym ")"]) rows))%list.
(** the values dealt out to rows of [n] each; [row] is the row being filled *)
Fixpoint in_rows {A} (n : nat) (row vs : list A) : list (list A) :=
  match vs with
  | [] => match row with [] => [] | _ => [row] end
  | v :: vs => if Nat.eqb (S (length row)) n then (row ++ [v])%list :: in_rows n [] vs else in_rows n (row ++ [v])%list vs
  end.
Definition values_say (v : values) : list item :=
  match v with
  | Unnamed n vs => rows_say (in_rows n [] vs)
  | Named names vs =>
      [Word "SELECT"] ++ listed (map (fun n => [Lit (SInt 0); Word "AS"; Ident n]) names)
        ++ [Word "WHERE"; Lit (SInt 0); Word "UNION"; Word "ALL"] ++ rows_say (in_rows (length names) [] vs)
  end%list.
Definition group_says (g : group_by) : list item := match g with GroupColumn n => [Ident n] | GroupQuery a c => column_says a c end.
Definition order_says (o : bool * var_column) : list item := [var_column_says o.2; Word (if o.1 then "ASC" else "DESC")].
Definition limit_says (l : limit) : list item :=
  match l with
  | NoLimit => []
  | LimitFixed n => [Word "LIMIT"; Lit (SInt n)]
  | LimitVariable v => [Word "LIMIT"; Hole ("$" ++ default "" (format_select_var v))]
  end.

Fixpoint cond_says (c : cond) : list item :=
  match c with
  | KInfix o l r => operand_says l ++ [infix_says o] ++ operand_says r
  | KIsNull x => operand_says x ++ [Word "IS"; Word "NULL"]
  | KIsNotNull x => operand_says x ++ [Word "IS"; Word "NOT"; Word "NULL"]
  | KAnd [] => [Lit (SInt 1)]
  | KAnd cs => [Sym "("] ++ separated (Word "AND") (map cond_says cs) ++ [Sym ")"]
  | KOr [] => [Lit (SInt 0)]
  | KOr cs => [Sym "("] ++ separated (Word "OR") (map cond_says cs) ++ [Sym ")"]
  | KIn l xs => operand_says l ++ [Word "IN"; Sym "("] ++ listed (map operand_says xs) ++ [Sym ")"]
  | KNotExists t => [Word "NOT"; Word "EXISTS"] ++ source_says t
  | KTypeCheck x a => [Word "typeof"; Sym "("] ++ operand_says x ++ [Sym ")"; Sym "="; affinity_says a]
  end
with source_says (t : source) : list item :=
  match t with
  | STable n a => [Ident n; Word "AS"; Ident a]
  | SUnion qs a => [Sym "("] ++ separated (Word "UNION") (map select_says qs) ++ [Sym ")"; Word "AS"; Ident a]
  | SSubquery q => [Sym "("] ++ select_says q ++ [Sym ")"]
  | SValues v a => [Sym "("] ++ values_say v ++ [Sym ")"; Word "AS"; Ident a]
  end
with from_says (f : from_clause) : list item :=
  match f with
  | Tables ts => clause [Word "FROM"] (Sym ",") (map source_says ts)
  | Join l r => [Word "FROM"] ++ source_says l ++ [Word "JOIN"] ++ source_says r
  | NoFrom => []
  end
with select_says (q : select) : list item :=
  match q with
  | Select distinct p f conds groups order lim =>
      Word "SELECT" :: (if distinct then [Word "DISTINCT"] else []) ++ projection_says p ++ from_says f
        ++ clause [Word "WHERE"] (Word "AND") (map cond_says conds)
        ++ clause [Word "GROUP"; Word "BY"] (Sym ",") (map group_says groups)
        ++ clause [Word "ORDER"; Word "BY"] (Sym ",") (map order_says order)
        ++ limit_says lim
  end%list.

(* ------------------------------------------------------------- which queries can be written *)

(** no NUL byte (SQLite reads up to the first one) *)
Definition writable_name (s : string) : Prop := all_chars (fun c => negb (Ascii.eqb c zero)) s = true.
Definition writable_value (v : typed_value) : Prop := match v with TVDouble d => finite_double d | _ => True end.
Definition writable_var (c : var_column) : Prop := match c with Var v | VarTag v => writable_name v end.
Definition writable_column (c : sql_column) : Prop :=
  match c with Fixed s => s ∈ fixed_columns | VarCol c => writable_var c end.
Fixpoint writable_operand (x : operand) : Prop :=
  match x with
  | OColumn a c => writable_name a /\ writable_column c
  | OExisting n => writable_name n
  | OInteger _ => True
  | OValue v => writable_value v
  | OAggregate _ x => writable_operand x
  end.
Definition all_of {A} (P : A -> Prop) : list A -> Prop :=
  fix go l := match l with [] => True | x :: l => P x /\ go l end.
Definition writable_projection (p : projection) : Prop :=
  match p with Columns cols => cols <> [] /\ all_of (fun c => writable_operand c.1 /\ writable_name c.2) cols | _ => True end.
Definition writable_values (v : values) : Prop :=
  match v with
  | Unnamed n vs => n <> O /\ all_of writable_value vs
  | Named names vs => names <> [] /\ all_of writable_name names /\ all_of writable_value vs
  end.
Definition writable_group (g : group_by) : Prop :=
  match g with GroupColumn n => writable_name n | GroupQuery a c => writable_name a /\ writable_column c end.
Definition writable_limit (l : limit) : Prop := match l with LimitVariable v => v <> "" | _ => True end.
Fixpoint writable_cond (c : cond) : Prop :=
  match c with
  | KInfix _ l r => writable_operand l /\ writable_operand r
  | KIsNull x | KIsNotNull x | KTypeCheck x _ => writable_operand x
  | KAnd cs | KOr cs => all_of writable_cond cs
  | KIn l xs => writable_operand l /\ all_of writable_operand xs
  | KNotExists t => writable_source t
  end
with writable_source (t : source) : Prop :=
  match t with
  | STable n a => writable_name n /\ writable_name a
  | SUnion qs a => all_of writable_select qs /\ writable_name a
  | SSubquery q => writable_select q
  | SValues v a => writable_values v /\ writable_name a
  end
with writable_from (f : from_clause) : Prop :=
  match f with
  | Tables ts => all_of writable_source ts
  | Join l r => writable_source l /\ writable_source r
  | NoFrom => True
  end
with writable_select (q : select) : Prop :=
  match q with
  | Select _ p f conds groups order lim =>
      writable_projection p /\ writable_from f /\ all_of writable_cond conds /\ all_of writable_group groups
      /\ all_of (fun o => writable_var o.2) order /\ writable_limit lim
  end.

(** the parameters that stand for a text in the SQL *)
Definition is_param_for (args : list (string * sqlval)) (s : string) (t : token) : Prop := exists n, t = TParam n /\ assoc n args = Some (SText s).
