(** Values on one line. *)
From Verif Require Export M_Pretty Spec_Edn.
Open Scope string_scope.

(** with spaces between the elements of collections and nowhere else; maps from the last entry to the first *)
Section line.
Context (show : dbl -> string).
Fixpoint on_one_line (v : edn) : string :=
  let each := fix each (l : list edn) : string :=
    match l with [] => "" | [x] => on_one_line x | x :: l => on_one_line x ++ " " ++ each l end in
  let each_pair := fix each_pair (l : list (edn * edn)) : string :=
    match l with
    | [] => ""
    | [(k, x)] => on_one_line k ++ " " ++ on_one_line x
    | (k, x) :: l => each_pair l ++ " " ++ on_one_line k ++ " " ++ on_one_line x
    end in
  match v with
  | EVec l => "[" ++ each l ++ "]"
  | EList l => "(" ++ each l ++ ")"
  | ESet l => "#{" ++ each l ++ "}"
  | EMapV l => "{" ++ each_pair l ++ "}"
  | v => print show v
  end.
End line.
