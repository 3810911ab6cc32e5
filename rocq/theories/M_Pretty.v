(** Pretty printing of EDN values, edn/src/pretty_print.rs.

    The documents and their layouts belong to the crate `pretty` (edn/Cargo.toml:17), which is not in the repository.  [layout] is
    what its documentation promises: in a group that is laid out flat every line is a space, otherwise a line is a line break and
    the indentation.  Which groups are flat is left open there; [render] is Wadler's choice, which the crate says it follows. *)
From stdpp Require Import base list strings.
From Verif Require Import M_Base M_Value M_EdnValue M_Edn.
Local Open Scope string_scope.

Inductive doc := DNil | DText (s : string) | DLine | DAppend (d e : doc) | DNest (n : nat) (d : doc) | DGroup (d : doc).

Fixpoint indentation (n : nat) : string := match n with O => "" | S n => String " " (indentation n) end.
Definition newline : ascii := "010".

(** [layout flat ind d s]: [s] is one of the ways to lay out [d] with indentation [ind]. *)
Inductive layout : bool -> nat -> doc -> string -> Prop :=
  | lay_nil flat ind : layout flat ind DNil ""
  | lay_text flat ind s : layout flat ind (DText s) s
  | lay_space ind : layout true ind DLine " "
  | lay_break ind : layout false ind DLine (String newline (indentation ind))
  | lay_append flat ind d e s t : layout flat ind d s -> layout flat ind e t -> layout flat ind (DAppend d e) (s ++ t)
  | lay_nest flat ind n d s : layout flat (ind + n) d s -> layout flat ind (DNest n d) s
  | lay_same flat ind d s : layout flat ind d s -> layout flat ind (DGroup d) s
  | lay_flat flat ind d s : layout true ind d s -> layout flat ind (DGroup d) s.

(** Does the document, and what follows up to the next line break, fit in [room] columns? *)
Fixpoint fits (flat : bool) (d : doc) (rest : nat -> bool) (room : nat) : bool :=
  match d with
  | DNil => rest room
  | DText s => if String.length s <=? room then rest (room - String.length s) else false
  | DLine => if flat then (if 1 <=? room then rest (room - 1) else false) else true
  | DAppend d e => fits flat d (fits flat e rest) room
  | DNest _ d => fits flat d rest room
  | DGroup d => fits flat d rest room
  end%nat.
(** A group is laid out flat if it then fits.  [pos] is the column. *)
Fixpoint rendering (width : nat) (flat : bool) (ind : nat) (d : doc) (rest : nat -> bool) (k : nat -> string) (pos : nat) : string :=
  match d with
  | DNil => k pos
  | DText s => s ++ k (pos + String.length s)
  | DLine => if flat then " " ++ k (S pos) else String newline (indentation ind) ++ k ind
  | DAppend d e => rendering width flat ind d (fits flat e rest) (rendering width flat ind e rest k) pos
  | DNest n d => rendering width flat (ind + n) d rest k pos
  | DGroup d =>
      let flat' := flat || ((pos <=? width) && fits true d rest (width - pos)) in
      rendering width flat' ind d rest k pos
  end%nat.
Definition render (width : nat) (d : doc) : string := rendering width false 0 d (fun _ => true) (fun _ => "") 0.

(** pretty_print.rs:59-63: itertools' intersperse, and DocAllocator::concat *)
Fixpoint intersperse (sep : doc) (l : list doc) : list doc :=
  match l with
  | [] => []
  | d :: l => d :: match l with [] => [] | _ => sep :: intersperse sep l end
  end.
Definition concat_docs (l : list doc) : doc := foldr DAppend DNil l.

(** pretty_print.rs:46-69 bracket *)
Definition bracket (opening : string) (ds : list doc) (closing : string) : doc :=
  DGroup (DAppend (DAppend (DText opening) (DNest (String.length opening) (concat_docs (intersperse DLine ds)))) (DText closing)).

Section pretty.
Context (show : dbl -> string).
(** pretty_print.rs:71-107 as_doc *)
Fixpoint as_doc (v : edn) : doc :=
  let each := fix each (l : list edn) : list doc := match l with [] => [] | x :: l => as_doc x :: each l end in
  let each_pair := fix each_pair (l : list (edn * edn)) : list doc :=
    match l with
    | [] => []
    | (k, x) :: l => DGroup (DAppend (DAppend (as_doc k) DLine) (as_doc x)) :: each_pair l
    end in
  match v with
  | EVec l => bracket "[" (each l) "]"
  | EList l => bracket "(" (each l) ")"
  | ESet l => bracket "#{" (each l) "}"
  | EMapV l =>
      DGroup (DAppend (DAppend (DText "{") (DNest 1 (concat_docs (intersperse DLine (rev (each_pair l)))))) (DText "}"))
  | ENsSym ns n => DAppend (DAppend (DText ns) (DText "/")) (DText n)
  | EText s => DAppend (DAppend (DText """") (DText s)) (DText """")
  | EUuid u => DAppend (DAppend (DText "#uuid """) (DText (hyphenated u))) (DText """")
  | EInst ns => DAppend (DAppend (DText "#inst """) (DText (rfc3339 ns))) (DText """")
  | v => DText (print show v)
  end.

(** pretty_print.rs:22-36 to_pretty, write_pretty *)
Definition to_pretty (width : nat) (v : edn) : string := render width (as_doc v).
End pretty.
