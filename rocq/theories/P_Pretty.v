(** Whatever the layout, what is printed prettily is read back. *)
From Coq Require Import Decimal DecimalString DecimalZ Sorted.
From Verif Require P_Sql.
From Verif Require Import Spec_Edn P_EdnNum P_Edn P_EdnOrd P_EdnRound P_EdnParsed P_EdnExact Spec_Pretty.
Open Scope string_scope.
Open Scope Z_scope.
Local Arguments String.append !s1 s2 : simpl nomatch.

(* ------------------------------------------------------------- rendering chooses a layout *)

Lemma rendering_layout w d : forall flat ind rest k pos,
  exists s pos', layout flat ind d s /\ rendering w flat ind d rest k pos = s ++ k pos'.
Proof.
  induction d as [|s| |d IHd e IHe|n d IH|d IH]; intros flat ind rest k pos; cbn [rendering].
  - exists "", pos. split; [constructor|done].
  - exists s, (pos + String.length s)%nat. split; [constructor|done].
  - destruct flat.
    + exists " ", (S pos). split; [constructor|done].
    + eexists _, ind. split; [constructor|done].
  - destruct (IHd flat ind (fits flat e rest) (rendering w flat ind e rest k) pos) as (s & p & L & ->).
    destruct (IHe flat ind rest k p) as (t & p' & L' & ->). exists (s ++ t), p'. split; [by constructor|by rewrite app_assoc_str].
  - destruct (IH flat (ind + n)%nat rest k pos) as (s & p & L & ->). exists s, p. split; [by constructor|done].
  - cbv zeta. destruct (IH (flat || ((pos <=? w)%nat && fits true d rest (w - pos))) ind rest k pos) as (s & p & L & ->). exists s, p. split; [|done].
    destruct (((pos <=? w)%nat && fits true d rest (w - pos))).
    + rewrite orb_true_r in L. by apply lay_flat.
    + rewrite orb_false_r in L. by apply lay_same.
Qed.
Lemma render_layout w d : layout false 0 d (render w d).
Proof.
  unfold render. destruct (rendering_layout w d false 0 (fun _ => true) (fun _ => "") 0) as (s & p & L & ->). by rewrite app_nil_str.
Qed.

(* ------------------------------------------------------------- the pieces of a layout *)

Lemma lay_text_inv f i t s : layout f i (DText t) s -> s = t.
Proof. by inversion 1. Qed.
Lemma lay_append_inv f i d e s : layout f i (DAppend d e) s -> exists a b, s = a ++ b /\ layout f i d a /\ layout f i e b.
Proof. inversion 1; subst. eauto. Qed.
Lemma lay_group_inv f i d s : layout f i (DGroup d) s -> exists g, layout g i d s.
Proof. inversion 1; subst; eauto. Qed.
Lemma lay_nest_inv f i n d s : layout f i (DNest n d) s -> layout f (i + n) d s.
Proof. inversion 1; subst; eauto. Qed.
(** a gap: white space, of which there is some *)
Definition gap (s : string) : Prop := (forall r, edge (s ++ r)) /\ (forall r, skip false (s ++ r) = skip false r) /\ (0 < String.length s)%nat.
Lemma lay_line_inv f i s : layout f i DLine s -> gap s.
Proof.
  inversion 1; subst.
  - split_and!; [done|done|cbn; lia].
  - split_and!; [done| |cbn; lia]. intros r. cbn [append].
    change (skip false (String newline (indentation i ++ r))) with (skip false (indentation i ++ r)).
    clear. induction i as [|i IH]; [done|]. exact IH.
Qed.

Section pretty.
Context (show : dbl -> string) (float_of : string -> dbl) (Hshow : shows_floats show float_of).
Notation print := (print show).
Notation value_rule := (value_rule float_of).
Notation as_doc := (as_doc show).

Definition pair_doc (kx : edn * edn) : doc := DGroup (DAppend (DAppend (as_doc kx.1) DLine) (as_doc kx.2)).
Lemma doc_vec l : as_doc (EVec l) = bracket "[" (map as_doc l) "]".
Proof using Type. reflexivity. Qed.
Lemma doc_list l : as_doc (EList l) = bracket "(" (map as_doc l) ")".
Proof using Type. reflexivity. Qed.
Lemma doc_set l : as_doc (ESet l) = bracket "#{" (map as_doc l) "}".
Proof using Type. reflexivity. Qed.
Lemma doc_map l : as_doc (EMapV l) = bracket "{" (map pair_doc (rev l)) "}".
Proof using Type.
  rewrite map_rev. cbn [M_Pretty.as_doc]. unfold bracket. change (String.length "{") with 1%nat. do 8 f_equal.
  induction l as [|[k x] l IH]; cbn [map]; [done|]. by rewrite IH.
Qed.

Lemma lay_atom v : atom v -> forall f i s, layout f i (as_doc v) s -> s = print v.
Proof using Type.
  intros A f i s L. destruct v as [|b|z|z|d|ns|u|t|t|ns n|k|l|l|l|l]; try done; cbn [M_Pretty.as_doc] in L; try (by apply lay_text_inv in L).
  all: apply lay_append_inv in L as (a & b & -> & L1 & L2); apply lay_append_inv in L1 as (a1 & b1 & -> & L0 & L1).
  all: apply lay_text_inv in L0, L1, L2; subst; by rewrite app_assoc_str.
Qed.

(** a text that is read as [v] wherever it ends *)
Definition good (v : edn) (s : string) : Prop := starts good_start s /\
  forall n r, edge r -> (String.length (s ++ r) < n)%nat -> value_rule n (s ++ r) = Got v (skip false r).
Definition always (v : edn) : Prop := forall f i s, layout f i (as_doc v) s -> good v s.
Lemma good_length v s : good v s -> (0 < String.length s)%nat.
Proof using Type. intros [H _]. destruct s; [done|]. cbn. lia. Qed.

Lemma edge_close cl r : closer cl -> edge (cl ++ r).
Proof using Type. by intros [-> | [-> | ->]]. Qed.

(** the inside of a collection, for any kind of item *)
Definition item_good {A} (item : nat -> parser A) (x : A) (s : string) : Prop := starts good_start s /\
  forall n r, edge r -> (String.length (s ++ r) < n)%nat -> item n (s ++ r) = Got x (skip false r).
Lemma inside_ok {A} (item : nat -> parser A) (to_doc : A -> doc) l :
  (forall n c r, closer c -> item (S n) (c ++ r) = No) ->
  Forall (fun x => forall f i s, layout f i (to_doc x) s -> item_good item x s) l ->
  forall f i t, layout f i (concat_docs (intersperse DLine (map to_doc l))) t ->
  (List.length l <= String.length t)%nat /\
  forall n m cl r, closer cl -> (String.length (t ++ cl ++ r) < n)%nat -> (List.length l < m)%nat ->
  many (item n) m (skip false (t ++ cl ++ r)) = Got l (cl ++ r).
Proof using Type.
  intros Cl. induction l as [|x l IH]; intros F f i t L; cbn [map intersperse] in L.
  - unfold concat_docs in L; cbn in L. inversion L; subst. split; [done|]. intros n m cl r C Ln Lm.
    destruct m as [|m]; [cbn in Lm; lia|]. cbn [append] in *. rewrite skip_close by done. cbn [many].
    destruct n as [|n]; [lia|]. by rewrite Cl.
  - apply Forall_cons in F as [Fx F].
    assert (G : exists s u, t = s ++ u /\ layout f i (to_doc x) s /\
              (l = [] /\ u = "" \/ exists g t', u = g ++ t' /\ gap g /\ layout f i (concat_docs (intersperse DLine (map to_doc l))) t')).
    { destruct l as [|y l]; cbn [map] in *.
      - unfold concat_docs in L. cbn in L. apply lay_append_inv in L as (a & b & -> & L1 & L2). inversion L2; subst. eexists _, _. split; [done|]. auto.
      - change (map to_doc (y :: l)) with (to_doc y :: map to_doc l) in *. unfold concat_docs in L. cbn [foldr] in L.
        apply lay_append_inv in L as (a & b & -> & L1 & L2). apply lay_append_inv in L2 as (g & t' & -> & L2 & L3).
        exists a, (g ++ t'). split; [done|]. split; [done|]. right. exists g, t'. split; [done|]. split; [by eapply lay_line_inv|exact L3]. }
    clear L. destruct G as (s & u & -> & Ls & G). destruct (Fx f i s Ls) as [St Rd].
    assert (Sl : (0 < String.length s)%nat) by (destruct s; [done|cbn; lia]).
    destruct G as [[-> ->] | (g & t' & -> & [G1 [G2 G3]] & Lt)].
    + rewrite app_nil_str. split; [cbn; lia|]. intros n m cl r C Ln Lm. rewrite skip_start by (by apply starts_app).
      destruct m as [|m]; [lia|]. cbn [many]. rewrite Rd; [|by apply edge_close|done]. rewrite skip_close by done.
      destruct m as [|m]; [cbn in Lm; lia|]. cbn [many]. destruct n as [|n]; [lia|]. by rewrite Cl.
    + destruct (IH F f i t' Lt) as [Ll K]. split; [rewrite !length_app_str; cbn [List.length]; lia|].
      intros n m cl r C Ln Lm. rewrite !app_assoc_str in *. rewrite skip_start by (by apply starts_app).
      destruct m as [|m]; [lia|]. cbn [many]. rewrite Rd; [|apply G1|done]. rewrite G2.
      rewrite K; [done|done| |cbn in Lm; lia]. rewrite !length_app_str in *. lia.
Qed.

Lemma bracket_inv f i op ds cl s : layout f i (bracket op ds cl) s ->
  exists g j t, s = op ++ t ++ cl /\ layout g j (concat_docs (intersperse DLine ds)) t.
Proof using Type.
  unfold bracket. intros L. apply lay_group_inv in L as [g L]. apply lay_append_inv in L as (a & b & -> & L & L2).
  apply lay_append_inv in L as (a1 & t & -> & L1 & L). apply lay_text_inv in L1, L2. apply lay_nest_inv in L. subst.
  eexists g, _, t. rewrite app_assoc_str. eauto.
Qed.

Lemma collection_tight {A} (item : parser A) l (f : list A -> edn) op cl t r :
  closer cl -> (forall m, (List.length l < m)%nat -> many item m (skip false (t ++ cl ++ r)) = Got l (cl ++ r)) ->
  (List.length l <= String.length t)%nat ->
  collection op cl item f (op ++ t ++ cl ++ r) = Got (f l) r.
Proof using Type.
  intros C H L. unfold collection. erewrite follow_got by apply tok_ok. unfold spaces at 1, follow at 1.
  erewrite follow_got by (apply H; rewrite !length_app_str; lia).
  unfold spaces, follow at 1. rewrite skip_close by done. erewrite follow_got by apply tok_ok. done.
Qed.

Lemma rev_map_from l : StronglySorted edn_lt (map fst l) -> map_from (rev l) = l.
Proof using Type.
  intros S. unfold map_from.
  induction l as [|[k x] l IH]; [done|]. cbn [rev map] in *. inversion S as [|? ? S' F]; subst.
  rewrite foldl_app. rewrite IH by done. cbn [foldl fst snd]. clear -F. destruct l as [|[k' x'] l]; [done|].
  cbn [map fst] in F. apply Forall_cons in F as [F _]. cbn [map_insert]. unfold edn_lt in F. by rewrite F.
Qed.

Definition pair_rule (n : nat) : parser (edn * edn) := peg k <- value_rule n; peg x <- value_rule n; yield (k, x).
Lemma pair_good k x : always k -> always x -> forall f i s, layout f i (pair_doc (k, x)) s -> item_good pair_rule (k, x) s.
Proof using Type.
  intros Hk Hx f i s L. unfold pair_doc in L. cbn [fst snd] in L. apply lay_group_inv in L as [g L].
  apply lay_append_inv in L as (a & b & -> & L & L2). apply lay_append_inv in L as (a1 & gp & -> & L1 & L).
  apply lay_line_inv in L as (G1 & G2 & G3). apply Hk in L1 as [S1 R1]. apply Hx in L2 as [S2 R2].
  split; [rewrite app_assoc_str; by apply starts_app|]. intros n r E Ln. rewrite !app_assoc_str in *. unfold pair_rule.
  erewrite follow_got by (apply R1; [apply G1|done]). rewrite G2, skip_start by (by apply starts_app).
  erewrite follow_got by (apply R2; [done|rewrite !length_app_str in *; lia]). done.
Qed.

Lemma always_ok v : fine show v -> always v.
Proof using Hshow.
  induction v as [v A|l IH|l IH|l IH|l IH] using edn_nested; intros F f i s L.
  - apply lay_atom in L as ->; [|done]. split; [by eapply fine_start|]. by apply (value_ok show float_of Hshow).
  - unfold fine in F. cbn [parts] in F. apply Forall_cons in F as [R F]. apply fine_list in F.
    rewrite doc_vec in L. apply bracket_inv in L as (g & j & t & -> & L).
    apply (inside_ok value_rule as_doc) in L as [Ll K]; [|intros; by apply value_close|].
    2: { clear -F IH. induction l; constructor; inversion F; inversion IH; subst; [|auto]. intros f i s L. by apply (H5 H1 f i). }
    split; [done|]. intros [|n] r E Ln; [lia|]. rewrite !app_assoc_str in *. apply value_step; [done|].
    unfold kinds. do 4 (rewrite alt_no by done). rewrite alt_no by (by eapply not_number). do 6 (rewrite alt_no by done). apply alt_got.
    apply (collection_tight _ l EVec); [unfold closer; auto| |done]. intros m Hm. apply K; [unfold closer; auto|rewrite !length_app_str in *; cbn [String.length] in *; lia|done].
  - unfold fine in F. cbn [parts] in F. apply Forall_cons in F as [R F]. apply fine_list in F.
    rewrite doc_list in L. apply bracket_inv in L as (g & j & t & -> & L).
    apply (inside_ok value_rule as_doc) in L as [Ll K]; [|intros; by apply value_close|].
    2: { clear -F IH. induction l; constructor; inversion F; inversion IH; subst; [|auto]. intros f i s L. by apply (H5 H1 f i). }
    split; [done|]. intros [|n] r E Ln; [lia|]. rewrite !app_assoc_str in *. apply value_step; [done|].
    unfold kinds. do 4 (rewrite alt_no by done). rewrite alt_no by (by eapply not_number). do 5 (rewrite alt_no by done). apply alt_got.
    apply (collection_tight _ l EList); [unfold closer; auto| |done]. intros m Hm. apply K; [unfold closer; auto|rewrite !length_app_str in *; cbn [String.length] in *; lia|done].
  - unfold fine in F. cbn [parts] in F. apply Forall_cons in F as [R F]. apply fine_list in F.
    rewrite doc_set in L. apply bracket_inv in L as (g & j & t & -> & L).
    apply (inside_ok value_rule as_doc) in L as [Ll K]; [|intros; by apply value_close|].
    2: { clear -F IH. induction l; constructor; inversion F; inversion IH; subst; [|auto]. intros f i s L. by apply (H5 H1 f i). }
    split; [done|]. intros [|n] r E Ln; [lia|]. rewrite !app_assoc_str in *. apply value_step; [done|].
    unfold kinds. do 4 (rewrite alt_no by done). rewrite alt_no by (by eapply not_number). do 8 (rewrite alt_no by done).
    rewrite (collection_tight _ l (fun l => ESet (set_from l))); [|unfold closer; auto| |done].
    { by rewrite set_from_sorted. }
    intros m Hm. apply K; [unfold closer; auto|rewrite !length_app_str in *; cbn [String.length] in *; lia|done].
  - unfold fine in F. cbn [parts] in F. apply Forall_cons in F as [R F]. apply fine_map in F.
    rewrite doc_map in L. apply bracket_inv in L as (g & j & t & -> & L).
    apply (inside_ok pair_rule pair_doc) in L as [Ll K]; [|intros; apply follow_no; by apply value_close|].
    2: { apply Forall_rev. clear -F IH. induction l as [|[k x] l IHl]; constructor; inversion F; inversion IH; subst; [|auto].
         cbn in *. destruct H1, H5. apply pair_good; auto. }
    split; [done|]. intros [|n] r E Ln; [lia|]. rewrite !app_assoc_str in *. apply value_step; [done|].
    unfold kinds. do 4 (rewrite alt_no by done). rewrite alt_no by (by eapply not_number). do 7 (rewrite alt_no by done). 
    erewrite alt_got.
    2: { apply (collection_tight (pair_rule n) (rev l) (fun l => EMapV (map_from l))); [unfold closer; auto| |done].
         intros m Hm. apply K; [unfold closer; auto|rewrite !length_app_str in *; cbn [String.length] in *; lia|done]. }
    by rewrite rev_map_from.
Qed.

Theorem layout_parse v s : Forall (readable show) (parts v) -> layout false 0 (as_doc v) s -> parse float_of s = Parsed v.
Proof using Hshow.
  intros F L. destruct (always_ok v F false 0%nat s L) as [_ K]. unfold parse. rewrite <- (app_nil_str s) at 2.
  rewrite K; [done|done|]. rewrite app_nil_str. lia.
Qed.
Theorem pretty_parse v w : Forall (readable show) (parts v) -> parse float_of (to_pretty show w v) = Parsed v.
Proof using Hshow. intros F. apply layout_parse; [done|]. apply render_layout. Qed.
Theorem pretty_reread t v w : parse float_of t = Parsed v -> Forall (survives show) (parts v) -> parse float_of (to_pretty show w v) = Parsed v.
Proof using Hshow.
  intros P F. apply pretty_parse. apply parse_sound in P. unfold sound in P. rewrite Forall_forall in *. intros x Hx.
  apply readable_established; auto.
Qed.
End pretty.

(* ------------------------------------------------------------- on one line *)

Fixpoint flat_text (d : doc) : string :=
  match d with
  | DNil => "" | DText s => s | DLine => " "
  | DAppend d e => flat_text d ++ flat_text e
  | DNest _ d | DGroup d => flat_text d
  end.
Lemma rendering_flat w d : forall ind rest k pos,
  rendering w true ind d rest k pos = flat_text d ++ k (pos + String.length (flat_text d))%nat.
Proof.
  induction d as [|s| |d IHd e IHe|n d IH|d IH]; intros ind rest k pos; cbn [rendering flat_text]; try done.
  - cbn. by rewrite Nat.add_0_r.
  - cbn. by rewrite Nat.add_1_r.
  - rewrite IHd, IHe. by rewrite app_assoc_str, length_app_str, Nat.add_assoc.
Qed.
Lemma fits_flat d : forall rest room, fits true d rest room =
  (String.length (flat_text d) <=? room)%nat && rest (room - String.length (flat_text d))%nat.
Proof.
  induction d as [|s| |d IHd e IHe|n d IH|d IH]; intros rest room; cbn [fits flat_text]; try done.
  - cbn. by rewrite Nat.sub_0_r.
  - rewrite IHd, IHe. rewrite length_app_str. destruct (Nat.leb_spec (String.length (flat_text d)) room); cbn [andb].
    + rewrite Nat.sub_add_distr. f_equal. apply eq_true_iff_eq. rewrite !Nat.leb_le. lia.
    + destruct (Nat.leb_spec (String.length (flat_text d) + String.length (flat_text e)) room); [lia|done].
Qed.
Lemma render_group w d : (String.length (flat_text d) <= w)%nat -> render w (DGroup d) = flat_text d.
Proof.
  intros L. unfold render. cbn [rendering]. cbv zeta. rewrite Nat.sub_0_r, fits_flat. apply Nat.leb_le in L. rewrite L. cbn [andb orb Nat.leb].
  rewrite rendering_flat. by rewrite app_nil_str.
Qed.

Section line.
Context (show : dbl -> string).
Notation as_doc := (as_doc show).
Notation one := (on_one_line show).
Fixpoint one_each (l : list edn) : string := match l with [] => "" | [x] => one x | x :: l => one x ++ " " ++ one_each l end.
Fixpoint one_pairs (l : list (edn * edn)) : string :=
  match l with
  | [] => ""
  | [(k, x)] => one k ++ " " ++ one x
  | (k, x) :: l => one_pairs l ++ " " ++ one k ++ " " ++ one x
  end.
Lemma one_vec l : one (EVec l) = "[" ++ one_each l ++ "]".
Proof using Type. reflexivity. Qed.
Lemma one_list l : one (EList l) = "(" ++ one_each l ++ ")".
Proof using Type. reflexivity. Qed.
Lemma one_set l : one (ESet l) = "#{" ++ one_each l ++ "}".
Proof using Type. reflexivity. Qed.
Lemma one_map l : one (EMapV l) = "{" ++ one_pairs l ++ "}".
Proof using Type. reflexivity. Qed.

Lemma flat_bracket op ds cl : flat_text (bracket op ds cl) = op ++ flat_text (concat_docs (intersperse DLine ds)) ++ cl.
Proof using Type. unfold bracket. cbn [flat_text]. by rewrite app_assoc_str. Qed.
Lemma flat_snoc ds d : ds <> [] -> flat_text (concat_docs (intersperse DLine (ds ++ [d]))) =
  flat_text (concat_docs (intersperse DLine ds)) ++ " " ++ flat_text d.
Proof using Type.
  induction ds as [|x ds IH]; [done|]. intros _. destruct ds as [|y ds].
  - cbn. by rewrite !app_nil_str.
  - cbn [List.app]. change (flat_text (concat_docs (intersperse DLine (x :: y :: (ds ++ [d])%list)))) with
      (flat_text x ++ " " ++ flat_text (concat_docs (intersperse DLine (y :: ds ++ [d])%list))).
    change (y :: ds ++ [d])%list with ((y :: ds) ++ [d])%list. rewrite IH by done.
    change (flat_text (concat_docs (intersperse DLine (x :: y :: ds)))) with (flat_text x ++ " " ++ flat_text (concat_docs (intersperse DLine (y :: ds)))).
    by rewrite !app_assoc_str.
Qed.
Lemma flat_items l : Forall (fun v => flat_text (as_doc v) = one v) l ->
  flat_text (concat_docs (intersperse DLine (map as_doc l))) = one_each l.
Proof using Type.
  induction l as [|x l IH]; [done|]. intros F. apply Forall_cons in F as [Fx F]. specialize (IH F). destruct l as [|y l].
  - cbn. by rewrite app_nil_str.
  - change (one_each (x :: y :: l)) with (one x ++ " " ++ one_each (y :: l)). rewrite <- IH, <- Fx. reflexivity.
Qed.
Lemma flat_pairs l : Forall (fun kx => flat_text (as_doc kx.1) = one kx.1 /\ flat_text (as_doc kx.2) = one kx.2) l ->
  flat_text (concat_docs (intersperse DLine (map (pair_doc show) (rev l)))) = one_pairs l.
Proof using Type.
  induction l as [|[k x] l IH]; [done|]. intros F. apply Forall_cons in F as [[Fk Fx] F]. specialize (IH F). cbn [fst snd] in Fk, Fx.
  assert (P : flat_text (pair_doc show (k, x)) = one k ++ " " ++ one x).
  { unfold pair_doc. cbn [flat_text fst snd]. by rewrite Fk, Fx, app_assoc_str. }
  destruct l as [|y l].
  - cbn [rev List.app map]. change (flat_text (concat_docs (intersperse DLine [pair_doc show (k, x)]))) with (flat_text (pair_doc show (k, x)) ++ "").
    by rewrite P, app_nil_str.
  - change (one_pairs ((k, x) :: y :: l)) with (one_pairs (y :: l) ++ " " ++ one k ++ " " ++ one x). rewrite <- IH.
    cbn [rev]. rewrite map_app. cbn [map]. change (pair_doc show (k, x)) with (pair_doc show (k, x)).
    rewrite flat_snoc; [by rewrite P|]. rewrite map_app. by destruct (map (pair_doc show) (rev l)).
Qed.
Lemma flat_doc v : flat_text (as_doc v) = one v.
Proof using Type.
  induction v as [v A|l IH|l IH|l IH|l IH] using edn_nested.
  - destruct v; try done; cbn [M_Pretty.as_doc flat_text on_one_line M_Edn.print name_text]; by rewrite app_assoc_str.
  - by rewrite doc_vec, flat_bracket, flat_items, one_vec.
  - by rewrite doc_list, flat_bracket, flat_items, one_list.
  - by rewrite doc_set, flat_bracket, flat_items, one_set.
  - by rewrite doc_map, flat_bracket, flat_pairs, one_map.
Qed.
Theorem pretty_line v w : (String.length (one v) <= w)%nat -> to_pretty show w v = one v.
Proof using Type.
  rewrite <- flat_doc. intros L. unfold to_pretty.
  assert (G : forall d, match d with DGroup _ => True | _ => False end -> (String.length (flat_text d) <= w)%nat -> render w d = flat_text d).
  { intros d. destruct d as [| | | | |d]; try done. intros _. exact (render_group w d). }
  destruct v; try (apply G; [exact Logic.I|exact L]);
    unfold render; cbn [M_Pretty.as_doc rendering flat_text]; rewrite ?app_nil_str, ?app_assoc_str; reflexivity.
Qed.
End line.
