(** A query is read as what it spells. *)
From Coq Require Import Sorted.
From Verif Require P_Sql.
From Verif Require Import M_Base M_Value M_Upsert M_Entity Spec_Edn P_EdnNum P_Edn P_EdnOrd P_EdnRound P_EdnExact Spec_TxText P_TxText Spec_QueryText.
Open Scope string_scope.
Open Scope Z_scope.
Local Arguments String.append !s1 s2 : simpl nomatch.

Fixpoint depth (v : edn) : nat :=
  match v with
  | EVec l | EList l => S (foldr (fun x n => Nat.max (depth x) n) 0%nat l)
  | _ => 1%nat
  end.
Lemma depth_in l v : v ∈ l -> (depth v <= foldr (fun x n => Nat.max (depth x) n) 0%nat l)%nat.
Proof. induction 1; cbn; lia. Qed.
Lemma depth_pos v : (1 <= depth v)%nat.
Proof. destruct v; cbn; lia. Qed.

Section text.
Context (show : dbl -> string) (float_of : string -> dbl) (Hshow : shows_floats show float_of).
Notation print := (M_Edn.print show).
Notation writ := (written show).
Notation writ_all := (written_all show).
Notation value := (any_value_rule float_of).

Scheme written_min := Minimality for written Sort Prop
  with written_all_min := Minimality for written_all Sort Prop.
Combined Scheme written_mutual from written_min, written_all_min.

(* ------------------------------------------------------------- values *)

Definition one_value (v : edn) (s : string) : Prop := starts good_start s /\ (depth v <= String.length s)%nat /\
  forall n r, edge r -> (String.length (s ++ r) < n)%nat -> value_rule float_of n (s ++ r) = Got v (skip false r).
Definition all_values (l : list edn) (t : string) : Prop :=
  (List.length l <= String.length t)%nat /\ (forall v, v ∈ l -> (depth v <= String.length t)%nat) /\ (t = "" \/ starts good_start t) /\
  forall n m cl r, closer cl -> (String.length (t ++ cl ++ r) < n)%nat -> (List.length l < m)%nat ->
    many (value_rule float_of n) m (skip false (t ++ cl ++ r)) = Got l (cl ++ r).
Lemma bracket_ok n l (f : list edn -> edn) op cl g s r : closer cl -> blank g -> all_values l s -> (String.length (op ++ g ++ s ++ cl ++ r) <= n)%nat -> op <> "" ->
  collection op cl (value_rule float_of n) f (op ++ g ++ s ++ cl ++ r) = Got (f l) r.
Proof using Type.
  intros C B (L & _ & _ & K) Ln No. unfold collection. erewrite follow_got by apply tok_ok. unfold spaces at 1, follow at 1. rewrite skip_blank by done.
  assert (1 <= String.length op)%nat by (destruct op; cbn; [done|lia]).
  erewrite follow_got by (apply K; [done|rewrite !length_app_str in *; lia|rewrite !length_app_str; lia]).
  unfold spaces, follow at 1. rewrite skip_close by done. by erewrite follow_got by apply tok_ok.
Qed.
Lemma depth_bound l s : (forall v, v ∈ l -> (depth v <= String.length s)%nat) -> (foldr (fun x n => Nat.max (depth x) n) 0%nat l <= String.length s)%nat.
Proof using Type. induction l as [|v l IH]; intros H; cbn; [lia|]. pose proof (H v ltac:(left)). specialize (IH ltac:(intros; apply H; by right)). lia. Qed.
Lemma written_ok : (forall v s, writ v s -> one_value v s) /\ (forall l s, writ_all l s -> all_values l s).
Proof using Hshow.
  apply (written_mutual show one_value all_values).
  - intros v Sv R. destruct (single_atom v Sv) as (_ & _ & Pt). assert (F : Forall (readable show) (parts v)) by (rewrite Pt; by constructor).
    pose proof (fine_good show float_of Hshow v F) as St. split; [done|]. split; [destruct v; try done; destruct (print _); try done; cbn; lia|].
    intros n r E Ln. by apply (value_ok show float_of Hshow).
  - intros l g s B _ H. split; [done|]. split.
    { cbn [depth]. pose proof (depth_bound l s ltac:(by destruct H as (_ & H & _))). rewrite !length_app_str. cbn [String.length]. lia. }
    intros [|n] r E Ln; [lia|]. rewrite !app_assoc_str in *. apply value_step; [done|]. unfold kinds.
    do 4 (rewrite alt_no by done). rewrite alt_no by (by eapply not_number). do 6 (rewrite alt_no by done). apply alt_got.
    apply bracket_ok; [unfold closer; auto|done|done|lia|done].
  - intros l g s B _ H. split; [done|]. split.
    { cbn [depth]. pose proof (depth_bound l s ltac:(by destruct H as (_ & H & _))). rewrite !length_app_str. cbn [String.length]. lia. }
    intros [|n] r E Ln; [lia|]. rewrite !app_assoc_str in *. apply value_step; [done|]. unfold kinds.
    do 4 (rewrite alt_no by done). rewrite alt_no by (by eapply not_number). do 5 (rewrite alt_no by done). apply alt_got.
    apply bracket_ok; [unfold closer; auto|done|done|lia|done].
  - split; [done|]. split; [by intros v ?%elem_of_nil|]. split; [by left|]. intros n m cl r C Ln Lm. cbn [append] in *. rewrite skip_close by done.
    destruct m as [|m]; [lia|]. destruct n as [|n]; [lia|]. cbn [many]. by rewrite value_close.
  - intros v s g _ (St & D & Rd) B. split; [|split; [|split; [right; by apply starts_app|]]].
    { destruct s; [done|]. cbn. lia. }
    { intros x ->%elem_of_list_singleton. rewrite length_app_str. lia. }
    intros n m cl r C Ln Lm. rewrite !app_assoc_str in *. rewrite skip_start by (by apply starts_app).
    destruct m as [|m]; [lia|]. cbn [many]. rewrite Rd; [|apply blank_edge; [done|by destruct C as [-> | [-> | ->]]]|done].
    rewrite skip_blank, skip_close by done. destruct m as [|m]; [cbn in Lm; lia|]. destruct n as [|n]; [lia|]. cbn [many]. by rewrite value_close.
  - intros v l s g t _ (St & D & Rd) G _ (L & Ds & _ & K). split; [|split; [|split; [right; by apply starts_app|]]].
    { destruct s; [done|]. cbn. rewrite !length_app_str. lia. }
    { intros x [-> | Hx]%elem_of_cons; [|specialize (Ds x Hx)]; rewrite !length_app_str; lia. }
    intros n m cl r C Ln Lm. rewrite !app_assoc_str in *. rewrite skip_start by (by apply starts_app).
    destruct m as [|m]; [lia|]. cbn [many]. rewrite Rd; [|by apply gap_edge|done]. rewrite skip_blank by (by destruct G).
    rewrite K; [done|done| |cbn in Lm; lia]. rewrite !length_app_str in *. lia.
Qed.

(* ------------------------------------------------------------- what is ahead in the text *)

Definition ready (l : list edn) (cl r u : string) : Prop := exists t, writ_all l t /\ u = t ++ cl ++ r.
Definition ahead (l : list edn) (cl r u : string) : Prop := exists g w, blank g /\ ready l cl r w /\ u = g ++ w.
Lemma ready_ahead l cl r u : ready l cl r u -> ahead l cl r u.
Proof using Type. intros H. exists "", u. split; [constructor|]. done. Qed.
Lemma ready_start l cl r u : closer cl -> ready l cl r u -> starts good_start u.
Proof using Hshow.
  intros C (t & W & ->). destruct written_ok as [_ K]. destruct (K l t W) as (_ & _ & [-> | S] & _); [by destruct C as [-> | [-> | ->]]|by apply starts_app].
Qed.
Lemma ahead_skip l cl r u : closer cl -> ahead l cl r u -> ready l cl r (skip false u).
Proof using Hshow. intros C (g & w & B & R & ->). rewrite skip_blank, skip_start; [done| |done]. by eapply ready_start. Qed.
Lemma ahead_spaces l cl r u : closer cl -> ahead l cl r u -> exists u', spaces u = Got tt u' /\ ready l cl r u'.
Proof using Hshow. intros C H. exists (skip false u). split; [done|]. by apply ahead_skip. Qed.
Lemma ready_none cl r u : ready [] cl r u -> u = cl ++ r.
Proof using Type. intros (t & W & ->). by inversion W; subst. Qed.
Lemma ready_some v l cl r u : closer cl -> ready (v :: l) cl r u -> exists s w, writ v s /\ u = s ++ w /\ edge w /\ ahead l cl r w.
Proof using Type.
  intros C (t & W & ->). inversion W as [|? s g Ws B|? ? s g t' Ws G Wt]; subst.
  - exists s, (g ++ cl ++ r). split; [done|]. split; [by rewrite !app_assoc_str|]. split; [apply blank_edge; [done|by destruct C as [-> | [-> | ->]]]|].
    exists g, (cl ++ r). split; [done|]. split; [|done]. exists "". split; [constructor|done].
  - exists s, (g ++ t' ++ cl ++ r). split; [done|]. split; [by rewrite !app_assoc_str|]. split; [by apply gap_edge|].
    exists g, (t' ++ cl ++ r). split; [by destruct G|]. split; [|done]. by exists t'.
Qed.
Lemma ready_vec v l cl r u : closer cl -> ready (EVec v :: l) cl r u -> exists u' rest, u = "[" ++ u' /\ ahead v "]" rest u' /\ ahead l cl r rest.
Proof using Type.
  intros C (s & w & W & -> & E & A)%ready_some; [|done]. inversion W as [? Sv ? | ? g t B Wt|]; subst; [done|]. exists (g ++ t ++ "]" ++ w), w. split; [by rewrite !app_assoc_str|].
  split; [|done]. exists g, (t ++ "]" ++ w). split; [done|]. split; [|done]. by exists t.
Qed.
Lemma ready_list v l cl r u : closer cl -> ready (EList v :: l) cl r u -> exists u' rest, u = "(" ++ u' /\ ahead v ")" rest u' /\ ahead l cl r rest.
Proof using Type.
  intros C (s & w & W & -> & E & A)%ready_some; [|done]. inversion W as [? Sv ? | |? g t B Wt]; subst; [done|]. exists (g ++ t ++ ")" ++ w), w. split; [by rewrite !app_assoc_str|].
  split; [|done]. exists g, (t ++ ")" ++ w). split; [done|]. split; [|done]. by exists t.
Qed.
Lemma ready_atom v l cl r u : closer cl -> single v -> ready (v :: l) cl r u -> exists w, u = print v ++ w /\ edge w /\ ahead l cl r w /\ readable show v.
Proof using Type.
  intros C S (s & w & W & -> & E & A)%ready_some; [|done]. inversion W as [? ? R| |]; subst; [|done|done]. exists w. auto.
Qed.
Lemma ahead_length l cl r u : ahead l cl r u -> (List.length l <= String.length u)%nat /\ forall v, v ∈ l -> (depth v <= String.length u)%nat.
Proof using Hshow.
  intros (g & w & _ & (t & W & ->) & ->). destruct written_ok as [_ K]. destruct (K l t W) as (L & D & _). rewrite !length_app_str. split; [lia|].
  intros v Hv. specialize (D v Hv). lia.
Qed.

(** a rule takes one value, or none *)
Definition takes {A} (p : parser A) (vs : list edn) (x : A) : Prop := forall l cl r u, closer cl -> ahead (vs ++ l) cl r u ->
  exists u', p u = Got x u' /\ ready l cl r u'.
Definition declines {A} (p : parser A) (l : list edn) : Prop := forall cl r u, closer cl -> ahead l cl r u -> p u = No.

Lemma value_takes v l cl r u : closer cl -> ahead (v :: l) cl r u -> exists u', value u = Got v u' /\ ready l cl r u'.
Proof using Hshow.
  intros C (g & w & B & R & ->). pose proof (ready_start _ _ _ _ C R) as St. apply ready_some in R as (s & w' & W & -> & E & A); [|done].
  destruct written_ok as [K _]. destruct (K v s W) as (_ & _ & Rd). exists (skip false w'). split; [|by apply ahead_skip].
  unfold any_value_rule. set (n := S (String.length _)).
  assert (Ln : (String.length (s ++ w') < n)%nat) by (unfold n; rewrite !length_app_str; lia). clearbody n.
  rewrite <- (Rd n w' E Ln). destruct n as [|n]; [lia|].
  change (value_rule float_of (S n)) with (eat spaces; peg v <- kinds float_of n; eat spaces; yield v).
  unfold spaces, follow at 1 3. by rewrite skip_blank.
Qed.
Lemma value_declines : declines value [].
Proof using Type.
  intros cl r u C (g & w & B & R & ->). apply ready_none in R as ->. unfold any_value_rule.
  change (value_rule float_of (S ?n)) with (eat spaces; peg v <- kinds float_of n; eat spaces; yield v).
  unfold spaces, follow at 1. rewrite skip_blank, skip_close by done. apply follow_no. destruct C as [-> | [-> | ->]]; reflexivity.
Qed.
Local Opaque any_value_rule.
Lemma valued_takes {A} (f : edn -> option A) v x : f v = Some x -> takes (valued float_of f) [v] x.
Proof using Hshow.
  intros F l cl r u C H. destruct (value_takes v l cl r u C H) as (u' & E & R). exists u'. split; [|done]. unfold valued. rewrite (follow_got _ _ _ _ _ E).
  unfold check. by rewrite F.
Qed.
Lemma valued_declines {A} (f : edn -> option A) v l : f v = None -> declines (valued float_of f) (v :: l).
Proof using Hshow.
  intros F cl r u C H. destruct (value_takes v l cl r u C H) as (u' & E & R). unfold valued. rewrite (follow_got _ _ _ _ _ E).
  unfold check. by rewrite F.
Qed.
Lemma valued_none {A} (f : edn -> option A) : declines (valued float_of f) [].
Proof using Type. intros cl r u C H. unfold valued. apply follow_no. by eapply value_declines. Qed.

(* ------------------------------------------------------------- steps *)

Lemma st_spaces l cl r u : closer cl -> ahead l cl r u -> exists u', ready l cl r u' /\ forall A (k : unit -> parser A), follow spaces k u = k tt u'.
Proof using Hshow. intros C H. exists (skip false u). split; [by apply ahead_skip|done]. Qed.
Lemma st_takes {A} (p : parser A) vs x l cl r u : takes p vs x -> closer cl -> ahead (vs ++ l) cl r u ->
  exists u', ready l cl r u' /\ forall B (k : A -> parser B), follow p k u = k x u'.
Proof using Type. intros T C H. destruct (T l cl r u C H) as (u' & E & R). exists u'. split; [done|]. intros B k. by apply follow_got. Qed.
Lemma st_vec v l cl r u : closer cl -> ready (EVec v :: l) cl r u ->
  exists u' rest, ahead v "]" rest u' /\ ahead l cl r rest /\ forall A (k : unit -> parser A), follow (tok "[") k u = k tt u'.
Proof using Type.
  intros C (u' & rest & -> & A1 & A2)%ready_vec; [|done]. exists u', rest. split; [done|]. split; [done|]. intros A k. by erewrite follow_got by apply tok_ok.
Qed.
Lemma st_list v l cl r u : closer cl -> ready (EList v :: l) cl r u ->
  exists u' rest, ahead v ")" rest u' /\ ahead l cl r rest /\ forall A (k : unit -> parser A), follow (tok "(") k u = k tt u'.
Proof using Type.
  intros C (u' & rest & -> & A1 & A2)%ready_list; [|done]. exists u', rest. split; [done|]. split; [done|]. intros A k. by erewrite follow_got by apply tok_ok.
Qed.
Lemma st_close cl r u : ready [] cl r u -> forall A (k : unit -> parser A), follow (tok cl) k u = k tt r.
Proof using Type. intros ->%ready_none A k. by erewrite follow_got by apply tok_ok. Qed.
Lemma st_sym x l cl r u : closer cl -> ready (EPlainSym x :: l) cl r u ->
  exists u', ahead l cl r u' /\ forall A (k : unit -> parser A), follow (tok x) k u = k tt u'.
Proof using Type.
  intros C (w & -> & E & A & R)%ready_atom; [|done|done]. exists w. split; [done|]. intros B k. by erewrite follow_got by apply (tok_ok x).
Qed.
Definition word (t : string) : Prop := all_chars (fun c => negb (occurs c edges)) t = true.
Lemma st_not_sym t x l cl r u : word t -> String.prefix t x = false -> closer cl -> ready (EPlainSym x :: l) cl r u ->
  forall A (k : unit -> parser A), follow (tok t) k u = No.
Proof using Type.
  intros Wt P C (w & -> & E & A & R)%ready_atom; [|done|done]. intros B k. apply follow_no, tok_no. by apply prefix_edge.
Qed.
(** what comes begins with another character *)
Definition begins (l : list edn) (c : ascii) : Prop :=
  match l with
  | EVec _ :: _ => c = "["%char | EList _ :: _ => c = "("%char
  | EKw _ :: _ => c = ":"%char
  | EPlainSym x :: _ => match x with String d _ => c = d | "" => False end
  | [] => occurs c ")]}" = true
  | _ :: _ => plain_start c = true
  end.
Lemma ready_begins l cl r u : closer cl -> ready l cl r u -> exists c t, u = String c t /\ begins l c.
Proof using Hshow.
  intros C R. destruct l as [|v l].
  - apply ready_none in R as ->. destruct C as [-> | [-> | ->]]; cbn [append]; eexists _, _; done.
  - destruct (ready_some _ _ _ _ _ C R) as (s & w & W & -> & _ & _). inversion W as [? Sv Rv | |]; subst; [|cbn [append]; eexists _, _; done..].
    pose proof (atom_plain show float_of Hshow v Sv Rv) as St. destruct v as [|b|z|z|d|i|i|x|x|ns x|k|l'|l'|l'|l']; try done; cbn [begins];
      try (match type of St with starts _ ?x => destruct x as [|c t]; [done|]; exists c, (t ++ w); done end).
    + cbn [M_Edn.print] in *. destruct x as [|c t]; [done|]. exists c, (t ++ w). done.
    + cbn [M_Edn.print append]. eexists _, _. done.
Qed.
Lemma st_other t c0 l cl r u : closer cl -> ready l cl r u -> ~ begins l c0 -> forall A (k : unit -> parser A), follow (tok (String c0 t)) k u = No.
Proof using Hshow.
  intros C R N A k. destruct (ready_begins _ _ _ _ C R) as (c & s & -> & B). apply follow_no. cbn [tok].
  destruct (Ascii.eqb_spec c0 c) as [-> |]; [done|done].
Qed.
Lemma st_other2 t c0 l cl r u : closer cl -> ahead l cl r u -> ~ begins l c0 -> forall A (k : unit -> parser A), follow spaces (fun _ => follow (tok (String c0 t)) k) u = No.
Proof using Hshow. intros C H N A k. destruct (st_spaces _ _ _ _ C H) as (u' & R & ->). by eapply st_other. Qed.
Lemma st_optional {A} (p : parser A) vs x l cl r u : takes p vs x -> closer cl -> ahead (vs ++ l) cl r u ->
  exists u', ready l cl r u' /\ forall B (k : option A -> parser B), follow (optional p) k u = k (Some x) u'.
Proof using Type.
  intros T C H. destruct (T l cl r u C H) as (u' & E & R). exists u'. split; [done|]. intros B k. apply follow_got. apply alt_got. by rewrite (follow_got _ _ _ _ _ E).
Qed.
Lemma st_optional_none {A} (p : parser A) l cl r u : declines p l -> closer cl -> ahead l cl r u -> forall B (k : option A -> parser B), follow (optional p) k u = k None u.
Proof using Type. intros D C H B k. apply follow_got. unfold optional. by rewrite alt_no by (apply follow_no; by eapply D). Qed.

(** rules that are applied again and again *)
Definition takes_if {A} (K : list edn -> Prop) (p : parser A) (vs : list edn) (x : A) : Prop := forall l cl r u, closer cl -> K l -> ahead (vs ++ l) cl r u ->
  exists u', p u = Got x u' /\ ready l cl r u'.
Lemma many_takes {A} (K : list edn -> Prop) (p : parser A) ls xs k : Forall2 (takes_if K p) ls xs -> declines p k -> K k ->
  (forall l l', l ∈ ls -> K (l ++ l')%list) -> forall m cl r u,
  closer cl -> ready (concat ls ++ k) cl r u -> (List.length ls < m)%nat -> exists u', many p m u = Got xs u' /\ ready k cl r u'.
Proof using Type.
  induction 1 as [|vs x ls xs T F IH]; intros D Kk Kl m cl r u C R L; (destruct m as [|m]; [cbn in L; lia|]); cbn [many].
  - cbn [concat List.app] in R. rewrite (D cl r u C) by (by apply ready_ahead). by exists u.
  - cbn [concat] in R. rewrite <- (assoc_L List.app) in R. destruct (T (concat ls ++ k)%list cl r u C) as (u1 & -> & R1); [|by apply ready_ahead|].
    { destruct ls as [|l ls]; [done|]. cbn [concat]. rewrite <- (assoc_L List.app). apply Kl. right. left. }
    destruct (IH D Kk ltac:(intros; apply Kl; by right) m cl r u1 C R1) as (u2 & -> & R2); [cbn in L; lia|]. by exists u2.
Qed.
Lemma nonempty_length (ls : list (list edn)) : Forall (fun l => l <> []) ls -> (List.length ls <= List.length (concat ls))%nat.
Proof using Type. induction 1 as [|l ls N _ IH]; cbn; [lia|]. rewrite app_length. destruct l; [done|]. cbn. lia. Qed.
Lemma many1_takes {A} (K : list edn -> Prop) (p : parser A) ls xs k cl r u : Forall2 (takes_if K p) ls xs -> declines p k -> K k ->
  (forall l l', l ∈ ls -> K (l ++ l')%list) -> Forall (fun l => l <> []) ls -> ls <> [] ->
  closer cl -> ahead (concat ls ++ k) cl r u -> exists u', many1 p u = Got xs u' /\ ready k cl r u'.
Proof using Hshow.
  intros F D Kk Kl Ne N C H. destruct F as [|vs x ls xs T F]; [done|]. unfold many1.
  pose proof (proj1 (ahead_length _ _ _ _ H)) as L. rewrite app_length in L. pose proof (nonempty_length _ Ne) as L'.
  cbn [concat] in H. rewrite <- (assoc_L List.app) in H. destruct (T (concat ls ++ k)%list cl r u C) as (u1 & E1 & R1); [|done|].
  { destruct ls as [|l ls]; [done|]. cbn [concat]. rewrite <- (assoc_L List.app). apply Kl. right. left. }
  rewrite (follow_got _ _ _ _ _ E1).
  destruct (many_takes K p ls xs k F D Kk ltac:(intros; apply Kl; by right) (S (String.length u)) cl r u1 C R1) as (u2 & E2 & R2); [cbn [List.length] in *; lia|].
  rewrite (follow_got _ _ _ _ _ E2). by exists u2.
Qed.
Definition each {A} (p : parser A) (vs : list edn) (xs : list A) : Prop := Forall2 (fun v x => takes p [v] x) vs xs.
Lemma each_lists {A} (p : parser A) vs xs : each p vs xs -> Forall2 (takes_if (fun _ => True) p) (map (fun v => [v]) vs) xs.
Proof using Type. intros F. apply Forall2_fmap_l. eapply Forall2_impl; [exact F|]. intros v x T l cl r u C _. by apply T. Qed.
Lemma concat_each (vs : list edn) : concat (map (fun v => [v]) vs) = vs.
Proof using Type. induction vs as [|v vs IH]; [done|]. cbn. by rewrite IH. Qed.
Lemma st_many1 {A} (p : parser A) vs xs k cl r u : each p vs xs -> vs <> [] -> declines p k -> closer cl -> ahead (vs ++ k) cl r u ->
  exists u', ready k cl r u' /\ forall B (f : list A -> parser B), follow (many1 p) f u = f xs u'.
Proof using Hshow.
  intros F N D C H. destruct (many1_takes (fun _ => True) p (map (fun v => [v]) vs) xs k cl r u) as (u' & E & R); try done.
  - by apply each_lists.
  - apply Forall_fmap. by apply Forall_true.
  - by destruct vs.
  - by rewrite concat_each.
  - exists u'. split; [done|]. intros B f. by apply follow_got.
Qed.
Lemma st_many0 {A} (p : parser A) vs xs k cl r u : each p vs xs -> declines p k -> closer cl -> ready (vs ++ k) cl r u ->
  exists u', many0 p u = Got xs u' /\ ready k cl r u'.
Proof using Hshow.
  intros F D C R. pose proof (proj1 (ahead_length _ _ _ _ (ready_ahead _ _ _ _ R))) as L. rewrite app_length in L.
  apply (many_takes (fun _ => True) p (map (fun v => [v]) vs) xs k); try done; [by apply each_lists|by rewrite concat_each|rewrite map_length; lia].
Qed.

(* ------------------------------------------------------------- arguments *)

Lemma variable_takes v : variable v -> takes (variable_rule float_of) [EPlainSym v] v.
Proof using Hshow. intros H. unfold variable_rule. apply valued_takes. cbn [variable_of]. unfold variable in H. by rewrite H. Qed.
Lemma variable_none : declines (variable_rule float_of) [].
Proof using Type. unfold variable_rule. apply valued_none. Qed.
Lemma variable_other v l : variable_of v = None -> declines (variable_rule float_of) (v :: l).
Proof using Hshow. unfold variable_rule. apply valued_declines. Qed.
Local Opaque variable_rule.
Lemma variables_each vs : Forall variable vs -> each (variable_rule float_of) (map EPlainSym vs) vs.
Proof using Hshow. intros F. unfold each. induction F; constructor; [by apply variable_takes|done]. Qed.
Lemma prefix_app x n : String.prefix x (x ++ n) = true.
Proof using Type. induction x as [|c x IH]; [by destruct n|]. cbn. by destruct (ascii_dec c c). Qed.
Lemma variable_starts v : variable v -> exists t, v = String "?" t.
Proof using Type.
  unfold variable. destruct v as [|d v]; [done|]. cbn [String.prefix]. destruct (ascii_dec "?" d) as [<- |]; [eauto|done].
Qed.
Lemma variable_not c v : variable v -> (c <> "?")%char -> forall t, String.prefix (String c t) v = false.
Proof using Type. intros (w & ->)%variable_starts N t. cbn [String.prefix]. by destruct (ascii_dec c "?"). Qed.
Lemma source_named n : n <> "" -> src_of_symbol ("$" ++ n) = Some (NamedSrc n).
Proof using Type. by destruct n. Qed.
Lemma arg_of_form v x : arg_form v x -> match v with EVec _ => True | _ => arg_of v = Some x end.
Proof using Type.
  destruct 1 as [v H| |n H|z|k|c H|vs l F N]; cbn [arg_of]; try done.
  - pose proof (variable_not "$" v H ltac:(done) "") as P. rewrite P. cbn. by rewrite H.
  - change (String.prefix "$" ("$" ++ n)) with (String.prefix "$" ("$" ++ n)). by rewrite prefix_app, source_named.
  - by destruct c.
Qed.
Lemma Forall2_in {A B} (P Q : A -> B -> Prop) vs xs : Forall2 P vs xs -> (forall v x, v ∈ vs -> P v x -> Q v x) -> Forall2 Q vs xs.
Proof using Type. induction 1 as [|v x vs xs H F IH]; intros I; constructor; [apply I; [left|done]|apply IH; intros; apply I; [by right|done]]. Qed.
Lemma arg_declines n : declines (arg_rule float_of (S n)) [].
Proof using Hshow. intros cl r u C H. cbn [arg_rule]. rewrite alt_no by (by eapply valued_none). eapply st_other2; [done|done|by cbn]. Qed.
Lemma closer_vec : closer "]". Proof using Type. unfold closer. auto. Qed.
Lemma closer_list : closer ")". Proof using Type. unfold closer. auto. Qed.
Hint Resolve closer_vec closer_list ready_ahead : core.
Lemma arg_takes n : forall v x, arg_form v x -> (depth v < n)%nat -> takes (arg_rule float_of n) [v] x.
Proof using Hshow.
  induction n as [|n IH]; intros v x F D; [lia|]. cbn [arg_rule].
  assert (S : arg_of v = Some x \/ exists vs l, v = EVec vs /\ x = ArgVec l /\ Forall2 arg_form vs l /\ vs <> []).
  { pose proof (arg_of_form _ _ F) as A. destruct F as [| | | | |c Hc|vs l F N]; [by left..|left; by destruct c|right; eauto 10]. }
  destruct S as [S|(vs & xs & -> & -> & Fs & N)].
  - intros l cl r u C H. destruct (valued_takes arg_of v x S l cl r u C H) as (u' & E & R). exists u'. split; [by apply alt_got|done].
  - intros l cl r u C H. rewrite alt_no by (by eapply (valued_declines arg_of (EVec vs) l); try done).
    cbn [depth] in D. assert (Dn : forall v, v ∈ vs -> (depth v < n)%nat) by (intros v Hv; pose proof (depth_in vs v Hv); lia).
    destruct n as [|n]; [lia|].
    destruct (st_spaces _ _ _ _ C H) as (u1 & R1 & ->). destruct (st_vec _ _ _ _ _ C R1) as (u2 & rest & A2 & A3 & ->).
    rewrite <- (app_nil_r vs) in A2.
    edestruct (st_many1 (arg_rule float_of (S n)) vs xs []) as (u4 & R4 & ->); [|done|apply arg_declines|apply closer_vec|exact A2|].
    { eapply Forall2_in; [exact Fs|]. intros v x Hv Hx. apply IH; [done|by apply Dn]. }
    rewrite (st_close _ _ _ R4). destruct (st_spaces _ _ _ _ C A3) as (u5 & R5 & ->). by exists u5.
Qed.
Lemma st_args vs xs cl r u : Forall2 arg_form vs xs -> closer cl -> ready vs cl r u ->
  exists u', ready [] cl r u' /\ forall B (f : list fn_arg -> parser B), follow (args_rule float_of) f u = f xs u'.
Proof using Hshow.
  intros F C R. pose proof (proj2 (ahead_length _ _ _ _ (ready_ahead _ _ _ _ R))) as L.
  rewrite <- (app_nil_r vs) in R. destruct (st_many0 (arg_rule float_of (S (String.length u))) vs xs [] cl r u) as (u' & E & R'); [|apply arg_declines|done|done|].
  - eapply Forall2_in; [exact F|]. intros v x Hv Hx. apply arg_takes; [done|]. specialize (L v Hv). lia.
  - exists u'. split; [done|]. intros B f. by apply follow_got.
Qed.
Lemma st_function f l cl r u : good_name f = true -> closer cl -> ahead (EPlainSym f :: l) cl r u ->
  exists u', ready l cl r u' /\ forall B (k : string -> parser B), follow function_rule k u = k f u'.
Proof using Hshow.
  intros G C H. destruct (st_spaces _ _ _ _ C H) as (u1 & R1 & E1). destruct (ready_atom (EPlainSym f) l cl r u1 C Logic.I R1) as (w & -> & E & A & _).
  destruct (st_spaces _ _ _ _ C A) as (u2 & R2 & E2). exists u2. split; [done|]. intros B k. apply follow_got. unfold function_rule. rewrite E1.
  cbn [M_Edn.print]. erewrite follow_got by (apply name_ok; [done|by apply edge_stops]). by rewrite E2.
Qed.

(* ------------------------------------------------------------- patterns *)

Lemma non_value_of_form v x : non_value_form v x -> non_value_of v = Some x /\ src_of v = None.
Proof using Type.
  destruct 1 as [|v H|z H|k]; cbn [non_value_of src_of]; try done.
  - pose proof (variable_starts v H) as (t & ->). unfold variable in H. cbn [variable_of]. rewrite H. done.
  - split; [|done]. apply Z.leb_le in H. by rewrite H.
Qed.
Lemma value_of_form v x : value_form v x -> value_at_of v = Some x.
Proof using Type.
  destruct 1 as [|v H|z|ns n|c H]; cbn [value_at_of]; try done.
  - pose proof (variable_starts v H) as (t & ->). unfold variable in H. cbn [variable_of]. rewrite H. done.
  - by destruct c.
Qed.
Lemma new_forward s e a v tx : (forall k, a = NvIdent k -> ~ backward k) -> new_pattern s e a v tx = yield (QPattern s e a v tx).
Proof using Type.
  intros H. unfold new_pattern. destruct a as [| | |k]; try done. specialize (H k eq_refl). unfold kw_is_backward, backward in *.
  destruct (kw_name k) as [|c n]; [done|]. cbn [String.prefix starts_underscore] in *. destruct (Ascii.eqb_spec c "_") as [-> |]; [|done].
  exfalso. apply H. by destruct n.
Qed.
Lemma new_backward s x ns n y e v tx w : n <> "" -> ns <> Some "" -> same_place x v -> same_place e y ->
  new_pattern s x (NvIdent (Kw ns ("_" ++ n))) y tx w = Got (QPattern s e (NvIdent (Kw ns n)) v tx) w.
Proof using Type.
  intros N Ns X Y. unfold new_pattern. cbn [kw_is_backward kw_name append starts_underscore].
  assert (as_non_value y = Some e) as ->.
  { destruct Y as [| |z H|]; try done. cbn. apply Z.leb_le in H. by rewrite H. }
  assert (as_value x = v) as -> by (by destruct X).
  unfold kw_is_backward. cbn [kw_name starts_underscore]. unfold kw_to_reversed. cbn [kw_name kw_ns Ascii.eqb Bool.eqb]. unfold kw_new.
  destruct n as [|c n]; [done|]. by destruct ns as [[|d ns]|].
Qed.
Lemma tail_ok t v tx B (k : option value_at -> option non_value -> parser B) rest u : tail_form t v tx -> ready t "]" rest u -> exists ov ot u', 
  default VaPlaceholder ov = v /\ default NvPlaceholder ot = tx /\ ready [] "]" rest u' /\
  follow (optional (valued float_of value_at_of)) (fun a => follow (optional (valued float_of non_value_of)) (k a)) u = k ov ot u'.
Proof using Hshow.
  intros F R. destruct F as [|v x Hx|v x t y Hx Hy].
  - exists None, None, u. split_and!; [done..|]. 
    rewrite (st_optional_none _ [] "]" rest u); [|apply valued_none|done|by apply ready_ahead].
    rewrite (st_optional_none _ [] "]" rest u); [done|apply valued_none|done|by apply ready_ahead].
  - apply value_of_form in Hx. destruct (st_optional (valued float_of value_at_of) [v] x [] "]" rest u) as (u1 & R1 & E1); [by apply valued_takes|done|by apply ready_ahead|].
    exists (Some x), None, u1. split_and!; [done..|]. rewrite E1.
    rewrite (st_optional_none _ [] "]" rest u1); [done|apply valued_none|done|by apply ready_ahead].
  - apply value_of_form in Hx. destruct (non_value_of_form _ _ Hy) as [Hy' _].
    destruct (st_optional (valued float_of value_at_of) [v] x [t] "]" rest u) as (u1 & R1 & E1); [by apply valued_takes|done|by apply ready_ahead|].
    destruct (st_optional (valued float_of non_value_of) [t] y [] "]" rest u1) as (u2 & R2 & E2); [by apply valued_takes|done|by apply ready_ahead|].
    exists (Some x), (Some y), u2. split_and!; [done..|]. by rewrite E1, E2.
Qed.
Lemma source_ok ls s ve e l B (k : option src -> parser B) rest u : source_form ls s -> non_value_form ve e -> ahead (ls ++ ve :: l) "]" rest u ->
  exists u', ahead (ve :: l) "]" rest u' /\ follow (optional (valued float_of src_of)) k u = k s u'.
Proof using Hshow.
  intros F He A. destruct (non_value_of_form _ _ He) as [_ Hs].
  assert (T : forall v x, src_of v = Some x -> ahead ([v] ++ ve :: l) "]" rest u -> exists u', ahead (ve :: l) "]" rest u' /\ follow (optional (valued float_of src_of)) k u = k (Some x) u').
  { intros v x Hx A'. destruct (st_optional (valued float_of src_of) [v] x (ve :: l) "]" rest u) as (u1 & R1 & E1); [by apply valued_takes|done|done|].
    exists u1. split; [by apply ready_ahead|]. by rewrite E1. }
  destruct F as [| |n N].
  - exists u. split; [done|]. apply (st_optional_none _ (ve :: l) "]" rest u); [by apply valued_declines|done|done].
  - by apply (T (EPlainSym "$")).
  - apply (T (EPlainSym ("$" ++ n))); [|done]. by apply source_named.
Qed.
Lemma pattern_takes l p : pattern_form l p -> takes (pattern_rule float_of) [EVec l] p.
Proof using Hshow.
  intros F k cl r u C H. unfold pattern_rule.
  destruct (st_spaces _ _ _ _ C H) as (u1 & R1 & ->). destruct (st_vec _ _ _ _ _ C R1) as (u2 & rest & A2 & A3 & ->).
  destruct (st_spaces _ _ _ _ C A3) as (u9 & R9 & E9).
  destruct F as [ls s ve e va a t v tx Fs Fe Fa Na Ft|ls s ve x ns n t y e v tx Fs Fe Nn Nns Ft Sx Sy].
  - edestruct (source_ok ls s ve e) as (u3 & A4 & ->); [done|done|exact A2|].
    destruct (non_value_of_form _ _ Fe) as [He _]. destruct (non_value_of_form _ _ Fa) as [Ha _].
    destruct (st_takes (valued float_of non_value_of) [ve] e (va :: t) "]" rest u3) as (u4 & R4 & ->); [by apply valued_takes|done|done|].
    destruct (st_takes (valued float_of non_value_of) [va] a t "]" rest u4) as (u5 & R5 & ->); [by apply valued_takes|done|by apply ready_ahead|].
    edestruct (tail_ok t v tx) as (ov & ot & u6 & Ev & Et & R6 & ->); [done|exact R5|]. cbv beta. rewrite (st_close _ _ _ R6), E9, Ev, Et.
    exists u9. split; [|done]. by rewrite new_forward.
  - edestruct (source_ok ls s ve x) as (u3 & A4 & ->); [done|done|exact A2|].
    destruct (non_value_of_form _ _ Fe) as [He _].
    destruct (st_takes (valued float_of non_value_of) [ve] x (EKw (Kw ns ("_" ++ n)) :: t) "]" rest u3) as (u4 & R4 & ->); [by apply valued_takes|done|done|].
    destruct (st_takes (valued float_of non_value_of) [EKw (Kw ns ("_" ++ n))] (NvIdent (Kw ns ("_" ++ n))) t "]" rest u4) as (u5 & R5 & ->); [by apply valued_takes|done|by apply ready_ahead|].
    edestruct (tail_ok t y tx) as (ov & ot & u6 & Ev & Et & R6 & ->); [done|exact R5|]. cbv beta. rewrite (st_close _ _ _ R6), E9, Ev, Et.
    exists u9. split; [|done]. by apply new_backward.
Qed.

(* ------------------------------------------------------------- bindings *)

Lemma place_takes v x : place_form v x -> takes (place_rule float_of) [v] x.
Proof using Hshow.
  destruct 1 as [|v H]; intros l cl r u C A; unfold place_rule.
  - rewrite alt_no by (apply follow_no; by eapply (variable_other (EPlainSym "_") l)).
    destruct (st_spaces _ _ _ _ C A) as (u1 & R1 & ->). destruct (st_sym _ _ _ _ _ C R1) as (u2 & A2 & ->).
    destruct (st_spaces _ _ _ _ C A2) as (u3 & R3 & ->). by exists u3.
  - destruct (variable_takes v H l cl r u C A) as (u1 & E1 & R1). exists u1. split; [|done]. apply alt_got. by rewrite (follow_got _ _ _ _ _ E1).
Qed.
Lemma place_declines : declines (place_rule float_of) [].
Proof using Hshow.
  intros cl r u C A. unfold place_rule. rewrite alt_no by (apply follow_no; by eapply variable_none). by eapply st_other2.
Qed.
Lemma places_each vs l : Forall2 place_form vs l -> each (place_rule float_of) vs l.
Proof using Hshow. intros F. eapply Forall2_impl; [exact F|]. intros v x. apply place_takes. Qed.
Lemma place_head v x : place_form v x -> exists y, v = EPlainSym y /\ (y = "_" \/ variable y).
Proof using Type. destruct 1; eauto. Qed.
Lemma place_begins v x l c : place_form v x -> c <> "_"%char -> c <> "?"%char -> ~ begins (v :: l) c.
Proof using Type. destruct 1 as [|v H]; intros A B; [done|]. apply variable_starts in H as (t & ->). done. Qed.
Lemma binding_takes v b : binding_form v b -> takes (binding_rule float_of) [v] b.
Proof using Hshow.
  intros F l cl r u C A. unfold binding_rule. destruct F as [v H|v H|vs xs F N|vs xs F N].
  - assert (B : ~ begins ([EPlainSym v] ++ l) "[") by (apply variable_starts in H as (t & ->); done).
    do 3 rewrite alt_no by (by eapply st_other2). destruct (variable_takes v H l cl r u C A) as (u1 & E1 & R1).
    exists u1. split; [|done]. by rewrite (follow_got _ _ _ _ _ E1).
  - destruct (st_spaces _ _ _ _ C A) as (u1 & R1 & E1). destruct (st_vec _ _ _ _ _ C R1) as (u2 & rest & A2 & A3 & E2).
    assert (B : ~ begins [EPlainSym v; EPlainSym "..."] "[") by (apply variable_starts in H as (t & ->); done).
    destruct (st_spaces _ _ _ _ C A3) as (u9 & R9 & E9).
    rewrite alt_no by (rewrite E1, E2; eapply st_other2; [apply closer_vec|exact A2|exact B]).
    destruct (st_takes (variable_rule float_of) [EPlainSym v] v [EPlainSym "..."] "]" rest u2) as (u3 & R3 & E3); [by apply variable_takes|done|done|].
    destruct (st_sym _ _ _ _ _ closer_vec R3) as (u4 & A4 & E4). destruct (st_spaces _ _ _ _ closer_vec A4) as (u5 & R5 & E5).
    exists u9. split; [|done]. apply alt_got. by rewrite E1, E2, E3, E4, E5, (st_close _ _ _ R5), E9.
  - destruct (st_spaces _ _ _ _ C A) as (u1 & R1 & E1). destruct (st_vec _ _ _ _ _ C R1) as (u2 & rest & A2 & A3 & E2).
    destruct (st_spaces _ _ _ _ C A3) as (u9 & R9 & E9).
    rewrite alt_no.
    2: { rewrite E1, E2. eapply st_other2; [apply closer_vec|exact A2|]. destruct F as [|v x vs xs Hv F]; [done|]. by eapply place_begins. }
    rewrite alt_no.
    2: { rewrite E1, E2. destruct F as [|v x vs xs Hv F]; [done|]. destruct Hv as [|v H].
         - apply follow_no. eapply (variable_other (EPlainSym "_") vs); [done|apply closer_vec|exact A2].
         - destruct (st_takes (variable_rule float_of) [EPlainSym v] v vs "]" rest u2) as (u3 & R3 & E3); [by apply variable_takes|done|done|]. rewrite E3.
           eapply st_other; [apply closer_vec|exact R3|]. destruct F as [|v' x' vs xs Hv' F]; [done|]. by eapply place_begins. }
    edestruct (st_many1 (place_rule float_of) vs xs []) as (u4 & R4 & E4); [by apply places_each|done|apply place_declines|apply closer_vec|rewrite app_nil_r; exact A2|].
    exists u9. split; [|done]. apply alt_got. by rewrite E1, E2, E4, (st_close _ _ _ R4), E9.
  - destruct (st_spaces _ _ _ _ C A) as (u1 & R1 & E1). destruct (st_vec _ _ _ _ _ C R1) as (u2 & rest & A2 & A3 & E2).
    destruct (st_spaces _ _ _ _ C A3) as (u9 & R9 & E9).
    destruct (st_spaces _ _ _ _ closer_vec A2) as (u3 & R3 & E3). destruct (st_vec _ _ _ _ _ closer_vec R3) as (u4 & rest' & A4 & A5 & E4).
    destruct (st_spaces _ _ _ _ closer_vec A5) as (u5 & R5 & E5).
    edestruct (st_many1 (place_rule float_of) vs xs []) as (u6 & R6 & E6); [by apply places_each|done|apply place_declines|apply closer_vec|rewrite app_nil_r; exact A4|].
    exists u9. split; [|done]. apply alt_got. by rewrite E1, E2, E3, E4, E6, (st_close _ _ _ R6), E5, (st_close _ _ _ R5), E9.
Qed.

(* ------------------------------------------------------------- clauses *)

Lemma pattern_declines l : ~ begins l "[" -> declines (pattern_rule float_of) l.
Proof using Hshow. intros N cl r u C A. unfold pattern_rule. eapply st_other2; [exact C|exact A|exact N]. Qed.
Lemma pattern_no_list a b l : declines (pattern_rule float_of) (EVec (EList a :: b) :: l).
Proof using Hshow.
  intros cl r u C A. unfold pattern_rule. destruct (st_spaces _ _ _ _ C A) as (u1 & R1 & ->). destruct (st_vec _ _ _ _ _ C R1) as (u2 & rest & A2 & A3 & ->).
  rewrite (st_optional_none _ _ "]" rest u2 (valued_declines src_of (EList a) b eq_refl) closer_vec A2).
  apply follow_no. exact (valued_declines non_value_of (EList a) b eq_refl "]" rest u2 closer_vec A2).
Qed.
Lemma st_form x vs l cl r u : closer cl -> ahead (EList (EPlainSym x :: vs) :: l) cl r u ->
  exists u' rest, ahead vs ")" rest u' /\ ahead l cl r rest /\
    forall A (k : unit -> parser A), follow spaces (fun _ => follow (tok "(") (fun _ => follow spaces (fun _ => follow (tok x) k))) u = k tt u'.
Proof using Hshow.
  intros C A. destruct (st_spaces _ _ _ _ C A) as (u1 & R1 & E1). destruct (st_list _ _ _ _ _ C R1) as (u2 & rest & A2 & A3 & E2).
  destruct (st_spaces _ _ _ _ closer_list A2) as (u3 & R3 & E3). destruct (st_sym _ _ _ _ _ closer_list R3) as (u4 & A4 & E4).
  exists u4, rest. split; [done|]. split; [done|]. intros B k. by rewrite E1, E2, E3, E4.
Qed.
Lemma st_not_form t x vs l cl r u : word t -> String.prefix t x = false -> closer cl -> ahead (EList (EPlainSym x :: vs) :: l) cl r u ->
  forall A (k : unit -> parser A), follow spaces (fun _ => follow (tok "(") (fun _ => follow spaces (fun _ => follow (tok t) k))) u = No.
Proof using Hshow.
  intros Wt P C A. destruct (st_spaces _ _ _ _ C A) as (u1 & R1 & E1). destruct (st_list _ _ _ _ _ C R1) as (u2 & rest & A2 & A3 & E2).
  destruct (st_spaces _ _ _ _ closer_list A2) as (u3 & R3 & E3). intros B k. rewrite E1, E2, E3. eapply st_not_sym; [exact Wt|exact P|exact closer_list|exact R3].
Qed.

Definition and_rule (n : nat) : parser or_clause :=
  eat spaces; eat tok "("; eat spaces; eat tok "and"; peg l <- many1 (where_rule float_of n); eat tok ")"; eat spaces; yield (OAnd l).
Definition arm_rule (n : nat) : parser or_clause := alt (peg c <- where_rule float_of n; yield (OClause c)) (and_rule n).
Definition or_join_rule n : parser where_clause :=
  eat spaces; eat tok "("; eat spaces; eat tok "or-join"; eat spaces; eat tok "["; peg vs <- rule_vars_rule float_of; eat tok "]"; peg l <- many1 (arm_rule n);
  eat tok ")"; eat spaces; yield (WOr (Explicit vs) l).
Definition or_rule n : parser where_clause :=
  eat spaces; eat tok "("; eat spaces; eat tok "or"; peg l <- many1 (arm_rule n); eat tok ")"; eat spaces; yield (WOr Implicit l).
Definition not_join_rule n : parser where_clause :=
  eat spaces; eat tok "("; eat spaces; eat tok "not-join"; eat spaces; eat tok "["; peg vs <- rule_vars_rule float_of; eat tok "]"; peg l <- many1 (where_rule float_of n);
  eat tok ")"; eat spaces; yield (WNot (Explicit vs) l).
Definition not_rule n : parser where_clause :=
  eat spaces; eat tok "("; eat spaces; eat tok "not"; peg l <- many1 (where_rule float_of n); eat tok ")"; eat spaces; yield (WNot Implicit l).
Lemma where_step n : where_rule float_of (S n) =
  alt (peg p <- pattern_rule float_of; yield (WPattern p)) (alt (or_join_rule n) (alt (or_rule n) (alt (not_join_rule n) (alt (not_rule n)
    (alt (type_rule float_of) (alt (pred_rule float_of) (fn_rule float_of))))))).
Proof using Type. reflexivity. Qed.
Lemma where_not_open n l : ~ begins l "[" -> declines (or_join_rule n) l -> declines (or_rule n) l -> declines (not_join_rule n) l -> declines (not_rule n) l ->
  declines (where_rule float_of (S n)) l.
Proof using Hshow.
  intros N D1 D2 D3 D4 cl r u C A. rewrite where_step. rewrite alt_no by (apply follow_no; eapply pattern_declines; [exact N|exact C|exact A]).
  rewrite alt_no by (by eapply D1). rewrite alt_no by (by eapply D2). rewrite alt_no by (by eapply D3). rewrite alt_no by (by eapply D4).
  do 2 (rewrite alt_no by (eapply st_other2; [exact C|exact A|exact N])). eapply st_other2; [exact C|exact A|exact N].
Qed.
Lemma where_declines n l : ~ begins l "[" -> ~ begins l "(" -> declines (where_rule float_of (S n)) l.
Proof using Hshow.
  intros N M. apply where_not_open; [done|..]; intros cl r u C A; (eapply st_other2; [exact C|exact A|exact M]).
Qed.
Lemma where_and n vs l : declines (where_rule float_of (S n)) (EList (EPlainSym "and" :: vs) :: l).
Proof using Hshow.
  apply where_not_open; [done|..]; intros cl r u C A; (eapply st_not_form; [| |exact C|exact A]; done).
Qed.
Lemma arm_declines n : declines (arm_rule (S n)) [].
Proof using Hshow.
  intros cl r u C A. unfold arm_rule. rewrite alt_no by (apply follow_no; eapply where_declines; [..|exact C|exact A]; done). eapply st_other2; [exact C|exact A|done].
Qed.
Lemma rule_vars_takes us : Forall variable us -> NoDup us -> us <> [] -> forall l cl r u, closer cl -> l = [] -> ahead (map EPlainSym us ++ l) cl r u ->
  exists u', ready l cl r u' /\ forall B (k : list string -> parser B), follow (rule_vars_rule float_of) k u = k us u'.
Proof using Hshow.
  intros F N Ne l cl r u C -> A. destruct (st_many1 (variable_rule float_of) (map EPlainSym us) us [] cl r u) as (u' & R & E);
    [by apply variables_each|by destruct us|apply variable_none|done|done|].
  exists u'. split; [done|]. intros B k. apply follow_got. unfold rule_vars_rule. rewrite E. unfold check. by rewrite decide_True.
Qed.

Section clauses.
Context (n : nat) (IH : forall v c, clause_form v c -> (depth v < S n)%nat -> takes (where_rule float_of (S n)) [v] c).
Lemma clauses_each vs l : Forall2 clause_form vs l -> (forall v, v ∈ vs -> (depth v < S n)%nat) -> each (where_rule float_of (S n)) vs l.
Proof using IH. intros F D. eapply Forall2_in; [exact F|]. intros v x Hv Hx. apply IH; [done|by apply D]. Qed.
Lemma arm_takes v x : or_form v x -> (depth v < S n)%nat -> takes (arm_rule (S n)) [v] x.
Proof using Hshow IH.
  intros F D l cl r u C A. unfold arm_rule. destruct F as [v c F|vs xs F N].
  - destruct (IH v c F D l cl r u C A) as (u1 & E1 & R1). exists u1. split; [|done]. apply alt_got. by rewrite (follow_got _ _ _ _ _ E1).
  - rewrite alt_no by (apply follow_no; eapply where_and; [exact C|exact A]). unfold and_rule.
    destruct (st_form "and" vs l cl r u C A) as (u1 & rest & A1 & A2 & ->).
    edestruct (st_many1 (where_rule float_of (S n)) vs xs []) as (u2 & R2 & ->); [|exact N|by apply where_declines|apply closer_list|rewrite app_nil_r; exact A1|].
    { apply clauses_each; [done|]. intros v Hv. cbn [depth foldr] in D. pose proof (depth_in vs v Hv). lia. }
    rewrite (st_close _ _ _ R2). destruct (st_spaces _ _ _ _ C A2) as (u3 & R3 & ->). by exists u3.
Qed.
Lemma arms_each vs l : Forall2 or_form vs l -> (forall v, v ∈ vs -> (depth v < S n)%nat) -> each (arm_rule (S n)) vs l.
Proof using Hshow IH. intros F D. eapply Forall2_in; [exact F|]. intros v x Hv Hx. apply arm_takes; [done|by apply D]. Qed.
Lemma depth_form x vs m : (depth (EList (x :: vs)) < S m)%nat -> forall v, v ∈ vs -> (depth v < m)%nat.
Proof using Type. intros D v Hv. cbn [depth foldr] in D. pose proof (depth_in vs v Hv). lia. Qed.
Lemma or_takes vs xs : Forall2 or_form vs xs -> vs <> [] -> (forall v, v ∈ vs -> (depth v < S n)%nat) ->
  takes (or_rule (S n)) [EList (EPlainSym "or" :: vs)] (WOr Implicit xs).
Proof using Hshow IH.
  intros F N D l cl r u C A. unfold or_rule. destruct (st_form "or" vs l cl r u C A) as (u1 & rest & A1 & A2 & ->).
  edestruct (st_many1 (arm_rule (S n)) vs xs []) as (u2 & R2 & ->); [by apply arms_each|exact N|apply arm_declines|apply closer_list|rewrite app_nil_r; exact A1|].
  rewrite (st_close _ _ _ R2). destruct (st_spaces _ _ _ _ C A2) as (u3 & R3 & ->). by exists u3.
Qed.
Lemma not_takes vs xs : Forall2 clause_form vs xs -> vs <> [] -> (forall v, v ∈ vs -> (depth v < S n)%nat) ->
  takes (not_rule (S n)) [EList (EPlainSym "not" :: vs)] (WNot Implicit xs).
Proof using Hshow IH.
  intros F N D l cl r u C A. unfold not_rule. destruct (st_form "not" vs l cl r u C A) as (u1 & rest & A1 & A2 & ->).
  edestruct (st_many1 (where_rule float_of (S n)) vs xs []) as (u2 & R2 & ->); [by apply clauses_each|exact N|by apply where_declines|apply closer_list|rewrite app_nil_r; exact A1|].
  rewrite (st_close _ _ _ R2). destruct (st_spaces _ _ _ _ C A2) as (u3 & R3 & ->). by exists u3.
Qed.
Lemma or_join_takes us vs xs : Forall variable us -> NoDup us -> us <> [] -> Forall2 or_form vs xs -> vs <> [] -> (forall v, v ∈ vs -> (depth v < S n)%nat) ->
  takes (or_join_rule (S n)) [EList (EPlainSym "or-join" :: EVec (map EPlainSym us) :: vs)] (WOr (Explicit us) xs).
Proof using Hshow IH.
  intros Fu Nu Eu F N D l cl r u C A. unfold or_join_rule. destruct (st_form "or-join" _ l cl r u C A) as (u1 & rest & A1 & A2 & ->).
  destruct (st_spaces _ _ _ _ closer_list A1) as (u4 & R4 & ->). destruct (st_vec _ _ _ _ _ closer_list R4) as (u5 & rest' & A5 & A6 & ->).
  edestruct (rule_vars_takes us Fu Nu Eu []) as (u6 & R6 & ->); [apply closer_vec|done|rewrite app_nil_r; exact A5|]. rewrite (st_close _ _ _ R6).
  edestruct (st_many1 (arm_rule (S n)) vs xs []) as (u2 & R2 & ->); [by apply arms_each|exact N|apply arm_declines|apply closer_list|rewrite app_nil_r; exact A6|].
  rewrite (st_close _ _ _ R2). destruct (st_spaces _ _ _ _ C A2) as (u3 & R3 & ->). by exists u3.
Qed.
Lemma not_join_takes us vs xs : Forall variable us -> NoDup us -> us <> [] -> Forall2 clause_form vs xs -> vs <> [] -> (forall v, v ∈ vs -> (depth v < S n)%nat) ->
  takes (not_join_rule (S n)) [EList (EPlainSym "not-join" :: EVec (map EPlainSym us) :: vs)] (WNot (Explicit us) xs).
Proof using Hshow IH.
  intros Fu Nu Eu F N D l cl r u C A. unfold not_join_rule. destruct (st_form "not-join" _ l cl r u C A) as (u1 & rest & A1 & A2 & ->).
  destruct (st_spaces _ _ _ _ closer_list A1) as (u4 & R4 & ->). destruct (st_vec _ _ _ _ _ closer_list R4) as (u5 & rest' & A5 & A6 & ->).
  edestruct (rule_vars_takes us Fu Nu Eu []) as (u6 & R6 & ->); [apply closer_vec|done|rewrite app_nil_r; exact A5|]. rewrite (st_close _ _ _ R6).
  edestruct (st_many1 (where_rule float_of (S n)) vs xs []) as (u2 & R2 & ->); [by apply clauses_each|exact N|by apply where_declines|apply closer_list|rewrite app_nil_r; exact A6|].
  rewrite (st_close _ _ _ R2). destruct (st_spaces _ _ _ _ C A2) as (u3 & R3 & ->). by exists u3.
Qed.
End clauses.

Lemma st_raw_keyword k l cl r u : closer cl -> ready (EKw k :: l) cl r u ->
  exists u', ahead l cl r u' /\ forall B (f : keyword -> parser B), follow raw_keyword_rule f u = f k u'.
Proof using Type.
  intros C R. destruct (ready_atom (EKw k) l cl r u C Logic.I R) as (w & -> & E & A & Rd). exists w. split; [done|]. intros B f. apply follow_got.
  destruct Rd as [Rn Rg]. pose proof (keyword_ok k w Rn Rg E) as K. cbn [M_Edn.print]. rewrite app_assoc_str. unfold keyword_rule in K. unfold raw_keyword_rule.
  revert K. unfold follow, yield. destruct (tok ":" _); try done. destruct (prefix_rule _); try done. destruct (name_rule _); try done.
  by intros [= <- ->].
Qed.
Lemma type_takes v t : variable v -> takes (type_rule float_of) [EVec [EList [EPlainSym "type"; EPlainSym v; EKw t]]] (WType v t).
Proof using Hshow.
  intros H l cl r u C A. unfold type_rule. destruct (st_spaces _ _ _ _ C A) as (u1 & R1 & ->). destruct (st_vec _ _ _ _ _ C R1) as (u2 & rest & A2 & A3 & ->).
  destruct (st_form "type" _ [] "]" rest u2 closer_vec A2) as (u3 & rest' & A4 & A5 & ->).
  destruct (st_takes (variable_rule float_of) [EPlainSym v] v [EKw t] ")" rest' u3) as (u4 & R4 & ->); [by apply variable_takes|done|done|].
  destruct (st_spaces _ _ _ _ closer_list (ready_ahead _ _ _ _ R4)) as (u5 & R5 & ->).
  destruct (st_raw_keyword _ _ _ _ _ closer_list R5) as (u6 & A6 & ->). destruct (st_spaces _ _ _ _ closer_list A6) as (u7 & R7 & ->).
  rewrite (st_close _ _ _ R7). destruct (st_spaces _ _ _ _ closer_vec A5) as (u8 & R8 & ->). rewrite (st_close _ _ _ R8).
  destruct (st_spaces _ _ _ _ C A3) as (u9 & R9 & ->). by exists u9.
Qed.
Lemma type_declines f vs l k : String.prefix "type" f = false -> declines (type_rule float_of) (EVec (EList (EPlainSym f :: vs) :: l) :: k).
Proof using Hshow.
  intros P cl r u C A. unfold type_rule. destruct (st_spaces _ _ _ _ C A) as (u1 & R1 & ->). destruct (st_vec _ _ _ _ _ C R1) as (u2 & rest & A2 & A3 & ->).
  eapply st_not_form; [|exact P|exact closer_vec|exact A2]; done.
Qed.
(** [[(f args) …] up to the closing parenthesis *)
Lemma st_call f vs xs k l cl r u : good_name f = true -> Forall2 arg_form vs xs -> closer cl -> ahead (EVec (EList (EPlainSym f :: vs) :: k) :: l) cl r u ->
  exists u' rest, ready k "]" rest u' /\ ahead l cl r rest /\ forall B (g : string -> list fn_arg -> parser B),
    (eat spaces; eat tok "["; eat spaces; eat tok "("; peg f <- function_rule; peg l <- args_rule float_of; eat tok ")"; eat spaces; g f l) u = g f xs u'.
Proof using Hshow.
  intros G F C A. destruct (st_spaces _ _ _ _ C A) as (u1 & R1 & E1). destruct (st_vec _ _ _ _ _ C R1) as (u2 & rest & A2 & A3 & E2).
  destruct (st_spaces _ _ _ _ closer_vec A2) as (u3 & R3 & E3). destruct (st_list _ _ _ _ _ closer_vec R3) as (u4 & rest' & A4 & A5 & E4).
  destruct (st_function f vs ")" rest' u4 G closer_list A4) as (u5 & R5 & E5). destruct (st_args vs xs ")" rest' u5 F closer_list R5) as (u6 & R6 & E6).
  destruct (st_spaces _ _ _ _ closer_vec A5) as (u7 & R7 & E7).
  exists u7, rest. split; [done|]. split; [done|]. intros B g. by rewrite E1, E2, E3, E4, E5, E6, (st_close _ _ _ R6), E7.
Qed.
Lemma pred_takes f vs xs : good_name f = true -> Forall2 arg_form vs xs -> takes (pred_rule float_of) [EVec [EList (EPlainSym f :: vs)]] (WPred f xs).
Proof using Hshow.
  intros G F l cl r u C A. unfold pred_rule. destruct (st_call f vs xs [] l cl r u G F C A) as (u1 & rest & R1 & A1 & E1).
  rewrite (E1 _ (fun f l => eat tok "]"; eat spaces; yield (WPred f l))). rewrite (st_close _ _ _ R1). destruct (st_spaces _ _ _ _ C A1) as (u2 & R2 & ->). by exists u2.
Qed.
Lemma binding_begins v b l : binding_form v b -> ~ begins (v :: l) "]".
Proof using Type. destruct 1 as [v H| | |]; try done. by apply variable_starts in H as (t & ->). Qed.
Lemma pred_declines f vs xs v b l : good_name f = true -> Forall2 arg_form vs xs -> binding_form v b -> declines (pred_rule float_of) (EVec [EList (EPlainSym f :: vs); v] :: l).
Proof using Hshow.
  intros G F B cl r u C A. unfold pred_rule. destruct (st_call f vs xs [v] l cl r u G F C A) as (u1 & rest & R1 & A1 & E1).
  rewrite (E1 _ (fun f l => eat tok "]"; eat spaces; yield (WPred f l))). eapply st_other; [exact closer_vec|exact R1|by eapply binding_begins].
Qed.
Lemma fn_takes f vs xs v b : good_name f = true -> Forall2 arg_form vs xs -> binding_form v b -> takes (fn_rule float_of) [EVec [EList (EPlainSym f :: vs); v]] (WFn f xs b).
Proof using Hshow.
  intros G F B l cl r u C A. unfold fn_rule. destruct (st_call f vs xs [v] l cl r u G F C A) as (u1 & rest & R1 & A1 & E1).
  rewrite (E1 _ (fun f l => peg b <- binding_rule float_of; eat tok "]"; eat spaces; yield (WFn f l b))).
  destruct (st_takes (binding_rule float_of) [v] b [] "]" rest u1) as (u2 & R2 & ->); [by apply binding_takes|done|by apply ready_ahead|].
  rewrite (st_close _ _ _ R2). destruct (st_spaces _ _ _ _ C A1) as (u3 & R3 & ->). by exists u3.
Qed.
Lemma takes_got {A} (p q : parser A) vs x : takes p vs x -> takes (alt p q) vs x.
Proof using Type. intros T l cl r u C A1. destruct (T l cl r u C A1) as (u1 & E & R). exists u1. split; [by apply alt_got|done]. Qed.
Lemma takes_no {A} (p q : parser A) vs x : (forall l, declines p (vs ++ l)) -> takes q vs x -> takes (alt p q) vs x.
Proof using Type. intros D T l cl r u C A1. destruct (T l cl r u C A1) as (u1 & E & R). exists u1. split; [|done]. rewrite alt_no; [done|]. by eapply D. Qed.
Lemma takes_map {A B} (p : parser A) (f : A -> B) vs x : takes p vs x -> takes (peg a <- p; yield (f a)) vs (f x).
Proof using Type. intros T l cl r u C A1. destruct (T l cl r u C A1) as (u1 & E & R). exists u1. split; [by rewrite (follow_got _ _ _ _ _ E)|done]. Qed.
Lemma declines_map {A B} (p : parser A) (f : A -> B) l : declines p l -> declines (peg a <- p; yield (f a)) l.
Proof using Type. intros D cl r u C A1. apply follow_no. by eapply D. Qed.

Ltac word_differs := intros ? ? ? ? ? ?; (eapply st_not_form; [| |eassumption|eassumption]; done).
Ltac other_bracket := intros ? ? ? ? ? ?; (eapply st_other2; [eassumption|eassumption|done]).
Lemma where_takes n : forall v c, clause_form v c -> (depth v < n)%nat -> takes (where_rule float_of n) [v] c.
Proof using Hshow.
  induction n as [|n IH]; intros v c F D; [lia|]. pose proof (depth_pos v) as Pd. destruct n as [|n]; [lia|]. rewrite where_step.
  destruct F as [l p F|vs xs F N|us vs xs Fu Nu Eu F N|vs xs F N|us vs xs Fu Nu Eu F N|v t H|f vs xs G P F|f vs xs v b G P F B].
  - by apply takes_got, takes_map, pattern_takes.
  - apply takes_no; [intros l; by apply declines_map, pattern_declines|]. apply takes_no; [word_differs|].
    apply takes_got. apply or_takes; [exact IH|done|done|by eapply depth_form].
  - apply takes_no; [intros l; by apply declines_map, pattern_declines|].
    apply takes_got. apply or_join_takes; [exact IH|done..|]. intros v Hv. eapply depth_form; [exact D|by right].
  - apply takes_no; [intros l; by apply declines_map, pattern_declines|]. do 3 (apply takes_no; [word_differs|]).
    apply takes_got. apply not_takes; [exact IH|done|done|by eapply depth_form].
  - apply takes_no; [intros l; by apply declines_map, pattern_declines|]. do 2 (apply takes_no; [word_differs|]).
    apply takes_got. apply not_join_takes; [exact IH|done..|]. intros v Hv. eapply depth_form; [exact D|by right].
  - apply takes_no; [intros l; by apply declines_map, pattern_no_list|]. do 4 (apply takes_no; [other_bracket|]). by apply takes_got, type_takes.
  - apply takes_no; [intros l; by apply declines_map, pattern_no_list|]. do 4 (apply takes_no; [other_bracket|]).
    apply takes_no; [intros l; by apply type_declines|]. by apply takes_got, pred_takes.
  - apply takes_no; [intros l; by apply declines_map, pattern_no_list|]. do 4 (apply takes_no; [other_bracket|]).
    apply takes_no; [intros l; by apply type_declines|]. apply takes_no; [intros l; by eapply pred_declines|]. by apply fn_takes.
Qed.

(* ------------------------------------------------------------- what is found, its order and number *)

(** what follows a part of the query *)
Definition next_part (l : list edn) : Prop := match l with [] | EKw _ :: _ => True | _ => False end.
Lemma next_begins l c : next_part l -> c <> ":"%char -> occurs c ")]}" = false -> ~ begins l c.
Proof using Type. destruct l as [|[] l]; try done; cbn; congruence. Qed.
Lemma variable_next l : next_part l -> declines (variable_rule float_of) l.
Proof using Hshow. destruct l as [|[] l]; try done; intros _; [apply variable_none|by apply variable_other]. Qed.

(** what follows an attribute to pull *)
Definition next_pull (l : list edn) : Prop := match l with [] => True | EPlainSym x :: _ => x = "*" | EKw k :: _ => kw_ns k <> None | _ => False end.
Definition namespace_char (c : ascii) : bool := is_subsequent c || Ascii.eqb c ".".
Lemma namespace_chars ns : good_namespace ns = true -> all_chars namespace_char ns = true.
Proof using Type.
  intros G. pose proof (split_dots_join ns) as J. unfold good_namespace in G. destruct (split_dots ns) as [h t]. subst ns. apply andb_true_iff in G as [G F].
  assert (Ap : forall x y, all_chars namespace_char x = true -> all_chars namespace_char y = true -> all_chars namespace_char (x ++ y) = true).
  { clear. induction x as [|c x IH]; intros y A B; [done|]. cbn [all_chars append] in *. apply andb_true_iff in A as [-> A]. by apply IH. }
  assert (Im : forall x, all_chars is_subsequent x = true -> all_chars namespace_char x = true).
  { clear. induction x as [|c x IH]; [done|]. cbn [all_chars]. rewrite !andb_true_iff. intros [A B]. unfold namespace_char. rewrite A. auto. }
  apply Ap; [by apply Im, good_name_subsequent|]. clear G. induction t as [|x t IH]; [done|]. cbn [forallb] in F. apply andb_true_iff in F as [F1 F2].
  apply andb_true_iff in F1 as [_ F1]. cbn [dotted]. apply (Ap "."); [done|]. apply Ap; [|by apply IH]. apply Im.
  unfold only in F1. by rewrite (all_chars_ext _ _ x name_chars_subsequent) in F1.
Qed.
Lemma namespace_start c : namespace_char c = true -> good_start c = true /\ c <> ":"%char.
Proof using Type. by destruct c as [[] [] [] [] [] [] [] []]. Qed.
Lemma keyword_read k w : readable show (EKw k) -> edge w -> raw_keyword_rule (print (EKw k) ++ w) = Got k w.
Proof using Type.
  intros [Rn Rg] E. pose proof (keyword_ok k w Rn Rg E) as K. cbn [M_Edn.print]. rewrite app_assoc_str. unfold keyword_rule in K. unfold raw_keyword_rule.
  revert K. unfold follow, yield. destruct (tok ":" _); try done. destruct (prefix_rule _); try done. destruct (name_rule _); try done.
  by intros [= <- ->].
Qed.
Lemma not_backward k : ~ backward k -> kw_is_backward k = false.
Proof using Type.
  unfold backward, kw_is_backward. destruct (kw_name k) as [|c n]; [done|]. cbn [String.prefix starts_underscore]. intros H.
  destruct (Ascii.eqb_spec c "_") as [-> |]; [|done]. exfalso. apply H. by destruct n.
Qed.
Definition as_rule : parser keyword := eat tok ":as"; eat spaces; peg a <- forward_keyword_rule; eat spaces; yield a.
Lemma as_declines l : next_pull l -> forall cl r u, closer cl -> ready l cl r u -> as_rule u = No.
Proof using Hshow.
  intros K cl r u C R. destruct l as [|v l]; [by eapply st_other; [exact C|exact R|]|]. destruct v as [| | | | | | | |x| |k| | | |]; try done.
  - cbn in K. subst x. by eapply st_other; [exact C|exact R|].
  - destruct k as [[ns|] n]; [|done]. destruct (ready_atom (EKw (Kw (Some ns) n)) l cl r u C Logic.I R) as (w & -> & E & A & Rn & Rg). cbn [kw_ns kw_name] in *.
    pose proof (namespace_chars ns Rn) as Ch. unfold as_rule. cbn [M_Edn.print kw_ns kw_name name_text]. rewrite !app_assoc_str. cbn [append].
    destruct ns as [|c1 ns]; [done|]. cbn [append]. unfold follow at 1. cbn [tok]. rewrite Ascii.eqb_refl.
    match goal with |- context [Ascii.eqb ?x c1] => destruct (Ascii.eqb x c1) end; [|done]. destruct ns as [|c2 ns]; [done|]. cbn [append tok].
    match goal with |- context [Ascii.eqb ?x c2] => destruct (Ascii.eqb x c2) end; [|done].
    cbn [all_chars] in Ch. apply andb_true_iff in Ch as [_ Ch]. apply andb_true_iff in Ch as [_ Ch].
    assert (H : exists c t, ns ++ String "/" (n ++ w) = String c t /\ good_start c = true /\ c <> ":"%char).
    { destruct ns as [|c3 ns]; [by eexists _, _|]. cbn [append]. eexists _, _. split; [done|]. apply namespace_start. cbn [all_chars] in Ch. by apply andb_true_iff in Ch as [Ch _]. }
    destruct H as (c & t & -> & G & Nc). unfold spaces at 1, follow at 1. rewrite skip_start by done. apply follow_no. unfold forward_keyword_rule. apply follow_no.
    unfold raw_keyword_rule. apply follow_no. cbn [tok]. destruct (Ascii.eqb_spec ":" c); [congruence|done].
Qed.
Lemma forward_read k l cl r u : whole_keyword k -> closer cl -> ready (EKw k :: l) cl r u -> exists w, ahead l cl r w /\ forall B (f : keyword -> parser B), follow forward_rule f u = f k w.
Proof using Type.
  intros [Ns Nb] C R. destruct (ready_atom (EKw k) l cl r u C Logic.I R) as (w & -> & E & A & Rn & Rg). exists w. split; [done|]. intros B f. apply follow_got.
  destruct k as [[ns|] n]; [|done]. cbn [kw_ns kw_name] in *. unfold forward_rule. cbn [M_Edn.print kw_ns kw_name name_text].
  erewrite follow_got by (by apply namespaced_ok). unfold check. by rewrite (not_backward _ Nb).
Qed.
Lemma pull_takes vs x : pull_form vs x -> takes_if next_pull pull_rule vs x.
Proof using Hshow.
  intros F l cl r u C K A. unfold pull_rule. destruct F as [|k H|k a H Ha].
  - destruct (st_spaces _ _ _ _ C A) as (u1 & R1 & E1). destruct (st_sym _ _ _ _ _ C R1) as (u2 & A2 & E2). destruct (st_spaces _ _ _ _ C A2) as (u3 & R3 & E3).
    exists u3. split; [|done]. apply alt_got. by rewrite E1, E2, E3.
  - rewrite alt_no by (eapply st_other2; [exact C|exact A|done]). destruct (st_spaces _ _ _ _ C A) as (u1 & R1 & ->).
    destruct (forward_read k l cl r u1 H C R1) as (u2 & A2 & ->). destruct (st_spaces _ _ _ _ C A2) as (u3 & R3 & ->). exists u3. split; [|done].
    rewrite (follow_got _ _ _ None u3); [done|]. fold as_rule. unfold optional. by rewrite alt_no by (apply follow_no; by eapply as_declines).
  - rewrite alt_no by (eapply st_other2; [exact C|exact A|done]). destruct (st_spaces _ _ _ _ C A) as (u1 & R1 & ->).
    destruct (forward_read k (EKw (Kw None "as") :: EKw a :: l) cl r u1 H C R1) as (u2 & A2 & ->). destruct (st_spaces _ _ _ _ C A2) as (u3 & R3 & ->).
    fold as_rule. destruct (ready_atom (EKw (Kw None "as")) (EKw a :: l) cl r u3 C Logic.I R3) as (w & -> & _ & A3 & _).
    destruct (st_spaces _ _ _ _ C A3) as (u4 & R4 & E4). destruct (st_raw_keyword _ _ _ _ _ C R4) as (u5 & A5 & E5). destruct (st_spaces _ _ _ _ C A5) as (u6 & R6 & E6).
    exists u6. split; [|done]. rewrite (follow_got _ _ _ (Some a) u6); [done|]. unfold optional. apply alt_got. rewrite (follow_got as_rule _ _ a u6); [done|]. unfold as_rule.
    erewrite follow_got by apply (tok_ok ":as"). rewrite E4. erewrite (follow_got forward_keyword_rule) with (a := a) (r := u5).
    + by rewrite E6.
    + unfold forward_keyword_rule. rewrite E5. unfold check. by rewrite (not_backward _ Ha).
Qed.
Lemma pull_declines : declines pull_rule [].
Proof using Hshow.
  intros cl r u C A. unfold pull_rule. rewrite alt_no by (eapply st_other2; [exact C|exact A|done]). destruct (st_spaces _ _ _ _ C A) as (u1 & R1 & ->).
  destruct (ready_begins _ _ _ _ C R1) as (c & t & -> & B). apply follow_no, follow_no, not_namespaced. by intros ->.
Qed.
Lemma st_pulls ls xs rest u : Forall2 pull_form ls xs -> ls <> [] -> ahead (concat ls) "]" rest u ->
  exists u', ready [] "]" rest u' /\ forall B (f : list pull_attribute -> parser B), follow (many1 pull_rule) f u = f xs u'.
Proof using Hshow.
  intros F N A. destruct (many1_takes next_pull pull_rule ls xs [] "]" rest u) as (u1 & E1 & R1).
  - eapply Forall2_impl; [exact F|]. intros vs p. apply pull_takes.
  - apply pull_declines.
  - done.
  - intros l l' Hl. apply elem_of_list_lookup in Hl as [i Hi]. destruct (Forall2_lookup_l _ _ _ _ _ F Hi) as (p & _ & Hp).
    destruct Hp as [|k [H _]|k a [H _] _]; cbn; done.
  - clear -F. induction F as [|vs p ls ps Hp F IH]; constructor; [|done]. by destruct Hp.
  - done.
  - apply closer_vec.
  - by rewrite app_nil_r.
  - exists u1. split; [done|]. intros B f. by apply follow_got.
Qed.
Lemma element_takes v e : element_form v e -> takes (element_rule float_of) [v] e.
Proof using Hshow.
  intros F. unfold element_rule. destruct F as [v H|v H|v ls xs H F N|f vs xs G P1 P2 F].
  - apply takes_got. intros l cl r u C A. destruct (st_spaces _ _ _ _ C A) as (u1 & R1 & ->).
    destruct (st_takes (variable_rule float_of) [EPlainSym v] v l cl r u1) as (u2 & R2 & ->); [by apply variable_takes|done|by apply ready_ahead|].
    destruct (st_spaces _ _ _ _ C (ready_ahead _ _ _ _ R2)) as (u3 & R3 & ->). by exists u3.
  - apply takes_no.
    { intros l cl r u C A. destruct (st_spaces _ _ _ _ C A) as (u1 & R1 & ->). apply follow_no. eapply variable_other; [|exact C|exact (ready_ahead _ _ _ _ R1)]; done. }
    apply takes_got. intros l cl r u C A. destruct (st_form "the" _ l cl r u C A) as (u1 & rest & A1 & A2 & ->).
    destruct (st_takes (variable_rule float_of) [EPlainSym v] v [] ")" rest u1) as (u2 & R2 & ->); [by apply variable_takes|apply closer_list|exact A1|].
    rewrite (st_close _ _ _ R2). destruct (st_spaces _ _ _ _ C A2) as (u3 & R3 & ->). by exists u3.
  - apply takes_no.
    { intros l cl r u C A. destruct (st_spaces _ _ _ _ C A) as (u1 & R1 & ->). apply follow_no. eapply variable_other; [|exact C|exact (ready_ahead _ _ _ _ R1)]; done. }
    apply takes_no; [intros ? ? ? ? ? ?; (eapply st_not_form; [| |eassumption|eassumption]; done)|].
    apply takes_got. intros l cl r u C A. destruct (st_form "pull" _ l cl r u C A) as (u1 & rest & A1 & A2 & ->).
    destruct (st_takes (variable_rule float_of) [EPlainSym v] v [EVec (concat ls)] ")" rest u1) as (u2 & R2 & ->); [by apply variable_takes|apply closer_list|exact A1|].
    destruct (st_vec _ _ _ _ _ closer_list R2) as (u3 & rest' & A3 & A4 & ->). destruct (st_pulls ls xs rest' u3 F N A3) as (u4 & R4 & ->).
    rewrite (st_close _ _ _ R4). destruct (st_spaces _ _ _ _ closer_list A4) as (u5 & R5 & ->). rewrite (st_close _ _ _ R5).
    destruct (st_spaces _ _ _ _ C A2) as (u6 & R6 & ->). by exists u6.
  - apply takes_no.
    { intros l cl r u C A. destruct (st_spaces _ _ _ _ C A) as (u1 & R1 & ->). apply follow_no. eapply variable_other; [|exact C|exact (ready_ahead _ _ _ _ R1)]; done. }
    do 2 (apply takes_no; [intros ? ? ? ? ? ?; (eapply st_not_form; [| |eassumption|eassumption]; done)|]).
    intros l cl r u C A. destruct (st_spaces _ _ _ _ C A) as (u1 & R1 & ->). destruct (st_list _ _ _ _ _ C R1) as (u2 & rest & A2 & A3 & ->).
    destruct (st_function f vs ")" rest u2 G closer_list A2) as (u5 & R5 & ->). destruct (st_args vs xs ")" rest u5 F closer_list R5) as (u6 & R6 & ->).
    rewrite (st_close _ _ _ R6). destruct (st_spaces _ _ _ _ C A3) as (u3 & R3 & ->). by exists u3.
Qed.
Lemma element_declines l : declines (variable_rule float_of) l -> ~ begins l "(" -> declines (element_rule float_of) l.
Proof using Hshow.
  intros D N cl r u C A. unfold element_rule. rewrite alt_no.
  2: { destruct (st_spaces _ _ _ _ C A) as (u1 & R1 & ->). apply follow_no. exact (D cl r u1 C (ready_ahead _ _ _ _ R1)). }
  do 2 (rewrite alt_no by (eapply st_other2; [exact C|exact A|exact N])). eapply st_other2; [exact C|exact A|exact N].
Qed.
Lemma elements_each vs l : Forall2 element_form vs l -> each (element_rule float_of) vs l.
Proof using Hshow. intros F. eapply Forall2_impl; [exact F|]. intros v x. apply element_takes. Qed.
Lemma element_begins v e l c : element_form v e -> c <> "?"%char -> c <> "("%char -> ~ begins (v :: l) c.
Proof using Type. destruct 1 as [v H| | |]; try done. apply variable_starts in H as (t & ->). done. Qed.
Lemma elements_begin vs xs l c : Forall2 element_form vs xs -> c <> "?"%char -> c <> "("%char -> ~ begins l c -> ~ begins (vs ++ l) c.
Proof using Type. intros [|v x vs' xs' Hv F] A B N; [done|]. cbn [List.app]. by eapply element_begins. Qed.
Lemma find_takes vs f : find_form vs f -> takes_if next_part (find_rule float_of) vs f.
Proof using Hshow.
  intros F l cl r u C K A. unfold find_rule. destruct F as [vs xs F N|v e F|v e F|vs xs F N].
  - assert (Nd : ~ begins l ".") by (by apply next_begins).
    rewrite alt_no.
    2: { destruct F as [|v x vs xs Hv F]; [done|]. destruct (st_takes (element_rule float_of) [v] x (vs ++ l)%list cl r u) as (u1 & R1 & ->); [by apply element_takes|done|exact A|].
         eapply st_other; [exact C|exact R1|]. by eapply elements_begin. }
    edestruct (st_many1 (element_rule float_of) vs xs l cl r u) as (u2 & R2 & E2); [by apply elements_each|exact N| |exact C|exact A|].
    { apply element_declines; [by apply variable_next|by apply next_begins]. }
    exists u2. split; [|done]. apply alt_got. by rewrite E2.
  - destruct (st_takes (element_rule float_of) [v] e (EPlainSym "." :: l) cl r u) as (u1 & R1 & E1); [by apply element_takes|done|exact A|].
    destruct (st_sym _ _ _ _ _ C R1) as (u2 & A2 & E2). destruct (st_spaces _ _ _ _ C A2) as (u3 & R3 & E3).
    exists u3. split; [|done]. apply alt_got. by rewrite E1, E2, E3.
  - assert (D : declines (element_rule float_of) (EVec [v; EPlainSym "..."] :: l)) by (apply element_declines; [by apply variable_other|done]).
    rewrite alt_no by (apply follow_no; exact (D cl r u C A)). rewrite alt_no by (apply follow_no; unfold many1; apply follow_no; exact (D cl r u C A)).
    destruct (st_spaces _ _ _ _ C A) as (u1 & R1 & E1). destruct (st_vec _ _ _ _ _ C R1) as (u2 & rest & A2 & A3 & E2).
    destruct (st_takes (element_rule float_of) [v] e [EPlainSym "..."] "]" rest u2) as (u3 & R3 & E3); [by apply element_takes|apply closer_vec|exact A2|].
    destruct (st_spaces _ _ _ _ closer_vec (ready_ahead _ _ _ _ R3)) as (u4 & R4 & E4). destruct (st_sym _ _ _ _ _ closer_vec R4) as (u5 & A5 & E5).
    destruct (st_spaces _ _ _ _ closer_vec A5) as (u6 & R6 & E6). destruct (st_spaces _ _ _ _ C A3) as (u7 & R7 & E7).
    exists u7. split; [|done]. apply alt_got. by rewrite E1, E2, E3, E4, E5, E6, (st_close _ _ _ R6), E7.
  - assert (D : declines (element_rule float_of) (EVec vs :: l)) by (apply element_declines; [by apply variable_other|done]).
    rewrite alt_no by (apply follow_no; exact (D cl r u C A)). rewrite alt_no by (apply follow_no; unfold many1; apply follow_no; exact (D cl r u C A)).
    destruct (st_spaces _ _ _ _ C A) as (u1 & R1 & E1). destruct (st_vec _ _ _ _ _ C R1) as (u2 & rest & A2 & A3 & E2).
    rewrite alt_no.
    2: { rewrite E1, E2. destruct F as [|v x vs xs Hv F]; [done|]. destruct (st_takes (element_rule float_of) [v] x vs "]" rest u2) as (u3 & R3 & ->); [by apply element_takes|apply closer_vec|exact A2|].
         destruct (st_spaces _ _ _ _ closer_vec (ready_ahead _ _ _ _ R3)) as (u4 & R4 & ->).
         eapply st_other; [exact closer_vec|exact R4|]. rewrite <- (app_nil_r vs). by eapply elements_begin. }
    edestruct (st_many1 (element_rule float_of) vs xs []) as (u4 & R4 & E4);
      [by apply elements_each|exact N|by apply element_declines; [apply variable_none|]|apply closer_vec|rewrite app_nil_r; exact A2|].
    destruct (st_spaces _ _ _ _ C A3) as (u7 & R7 & E7).
    exists u7. split; [|done]. by rewrite E1, E2, E4, (st_close _ _ _ R4), E7.
Qed.
Lemma order_takes v x : order_form v x -> takes (order_rule float_of) [v] x.
Proof using Hshow.
  intros F. unfold order_rule. destruct F as [v H|v H|v H].
  - assert (B : forall l, ~ begins ([EPlainSym v] ++ l) "(") by (intros l; apply variable_starts in H as (t & ->); done).
    do 2 (apply takes_no; [intros l cl r u C A; eapply st_other2; [exact C|exact A|apply B]|]). apply (takes_map _ (fun v => (Ascending, v))). by apply variable_takes.
  - apply takes_got. intros l cl r u C A. destruct (st_form "asc" _ l cl r u C A) as (u1 & rest & A1 & A2 & ->).
    destruct (st_takes (variable_rule float_of) [EPlainSym v] v [] ")" rest u1) as (u2 & R2 & ->); [by apply variable_takes|apply closer_list|exact A1|].
    rewrite (st_close _ _ _ R2). destruct (st_spaces _ _ _ _ C A2) as (u3 & R3 & ->). by exists u3.
  - apply takes_no; [intros ? ? ? ? ? ?; (eapply st_not_form; [| |eassumption|eassumption]; done)|].
    apply takes_got. intros l cl r u C A. destruct (st_form "desc" _ l cl r u C A) as (u1 & rest & A1 & A2 & ->).
    destruct (st_takes (variable_rule float_of) [EPlainSym v] v [] ")" rest u1) as (u2 & R2 & ->); [by apply variable_takes|apply closer_list|exact A1|].
    rewrite (st_close _ _ _ R2). destruct (st_spaces _ _ _ _ C A2) as (u3 & R3 & ->). by exists u3.
Qed.
Lemma order_declines l : next_part l -> declines (order_rule float_of) l.
Proof using Hshow.
  intros K cl r u C A. unfold order_rule. do 2 (rewrite alt_no by (eapply st_other2; [exact C|exact A|by apply next_begins])).
  apply follow_no. exact (variable_next l K cl r u C A).
Qed.
Lemma orders_each vs l : Forall2 order_form vs l -> each (order_rule float_of) vs l.
Proof using Hshow. intros F. eapply Forall2_impl; [exact F|]. intros v x. apply order_takes. Qed.
Lemma limit_var v : variable v -> takes (limit_rule float_of) [EPlainSym v] (VarLimit v).
Proof using Hshow.
  intros H. unfold limit_rule. apply takes_got. intros l cl r u C A. destruct (st_spaces _ _ _ _ C A) as (u1 & R1 & ->).
  destruct (st_takes (variable_rule float_of) [EPlainSym v] v l cl r u1) as (u2 & R2 & ->); [by apply variable_takes|done|by apply ready_ahead|].
  destruct (st_spaces _ _ _ _ C (ready_ahead _ _ _ _ R2)) as (u3 & R3 & ->). by exists u3.
Qed.
Lemma limit_integer z w : - 2 ^ 63 <= z < 2 ^ 63 -> edge w -> alt octal_rule (alt hex_rule (alt based_rule integer_rule)) (dec z ++ w) = Got (EInt z) w.
Proof using Type.
  intros Z E. destruct (dec_signed z) as (sg & x & Sg & W & -> & Ez). rewrite app_assoc_str.
  destruct (middle_no sg x w) as (A & B & C); [done|done|by apply edge_stops|by apply edge_stops|by apply edge_stops|].
  rewrite alt_no by done. rewrite alt_no by done. rewrite alt_no by done. unfold integer_rule.
  erewrite follow_got by (by apply sign_read). erewrite follow_got by (apply run1_ok; [apply dec_nonempty|by apply dec_digits|by apply edge_stops]).
  erewrite (follow_got (not_next _)) with (a := tt) (r := w).
  2: { apply (edge_stops (fun c => Ascii.eqb c "." || is_exp c)) in E; [|done]. destruct w as [|c w]; [done|]. cbn [stops] in E. cbn [not_next]. by rewrite E. }
  rewrite signed_dec by done. unfold in_i64. fold (with_sign sg x). rewrite Ez.
  assert (F : fits_i64 z = true) by (unfold fits_i64; rewrite andb_true_iff, Z.leb_le, Z.ltb_lt; lia). by rewrite F.
Qed.
Lemma limit_fixed z : 0 < z -> takes (limit_rule float_of) [EInt z] (FixedLimit z).
Proof using Hshow.
  intros H. unfold limit_rule. apply takes_no.
  { intros l cl r u C A. destruct (st_spaces _ _ _ _ C A) as (u1 & R1 & ->). apply follow_no. eapply variable_other; [|exact C|exact (ready_ahead _ _ _ _ R1)]; done. }
  intros l cl r u C A. destruct (st_spaces _ _ _ _ C A) as (u1 & R1 & ->). destruct (ready_atom (EInt z) l cl r u1 C Logic.I R1) as (w & -> & E & A2 & Rd).
  cbn [M_Edn.print]. erewrite follow_got by (apply limit_integer; [exact Rd|done]). destruct (st_spaces _ _ _ _ C A2) as (u3 & R3 & ->).
  exists u3. split; [|done]. unfold check. apply Z.ltb_lt in H. by rewrite H.
Qed.

(* ------------------------------------------------------------- the parts *)

Lemma st_head x l cl r u : closer cl -> ahead (EKw (Kw None x) :: l) cl r u ->
  exists u', ahead l cl r u' /\ forall A (k : unit -> parser A), follow spaces (fun _ => follow (tok (":" ++ x)) k) u = k tt u'.
Proof using Hshow.
  intros C A. destruct (st_spaces _ _ _ _ C A) as (u1 & R1 & E1). destruct (ready_atom (EKw (Kw None x)) l cl r u1 C Logic.I R1) as (w & -> & E & A2 & Rd).
  exists w. split; [done|]. intros B k. rewrite E1. apply follow_got. apply (tok_ok (":" ++ x)).
Qed.
Lemma st_not_head t x l cl r u : word t -> String.prefix t (":" ++ x) = false -> closer cl -> ahead (EKw (Kw None x) :: l) cl r u ->
  forall A (k : unit -> parser A), follow spaces (fun _ => follow (tok t) k) u = No.
Proof using Hshow.
  intros Wt P C A B k. destruct (st_spaces _ _ _ _ C A) as (u1 & R1 & ->). destruct (ready_atom (EKw (Kw None x)) l cl r u1 C Logic.I R1) as (w & -> & E & A2 & Rd).
  apply follow_no, tok_no. by apply (prefix_edge t (":" ++ x) w).
Qed.
Ltac head_differs := intros ? ? ? ? ? ?; (eapply st_not_head; [| |eassumption|eassumption]; done).
Lemma if_got {A} K (p q : parser A) vs x : takes_if K p vs x -> takes_if K (alt p q) vs x.
Proof using Type. intros T l cl r u C Kl A1. destruct (T l cl r u C Kl A1) as (u1 & E & R). exists u1. split; [by apply alt_got|done]. Qed.
Lemma if_no {A} K (p q : parser A) vs x : (forall l, declines p (vs ++ l)) -> takes_if K q vs x -> takes_if K (alt p q) vs x.
Proof using Type. intros D T l cl r u C Kl A1. destruct (T l cl r u C Kl A1) as (u1 & E & R). exists u1. split; [|done]. rewrite alt_no; [done|]. by eapply D. Qed.
Lemma if_head {A B} K (p : parser A) (f : A -> B) x vs a : takes_if K p vs a ->
  takes_if K (eat spaces; eat tok (":" ++ x); peg a <- p; yield (f a)) (EKw (Kw None x) :: vs) (f a).
Proof using Hshow.
  intros T l cl r u C Kl A1. destruct (st_head x (vs ++ l)%list cl r u C A1) as (u1 & A2 & E1). destruct (T l cl r u1 C Kl A2) as (u2 & E2 & R2).
  exists u2. split; [|done]. by rewrite E1, (follow_got _ _ _ _ _ E2).
Qed.
Lemma if_many1 {A} (p : parser A) vs xs : each p vs xs -> vs <> [] -> (forall l, next_part l -> declines p l) -> takes_if next_part (many1 p) vs xs.
Proof using Hshow.
  intros F N D l cl r u C K A1. destruct (st_many1 p vs xs l cl r u F N (D l K) C A1) as (u' & R & E). exists u'. split; [|done].
  specialize (E _ yield). unfold follow, yield in E. destruct (many1 p u); try done.
Qed.
Lemma clauses_take vs l : Forall2 clause_form vs l -> vs <> [] -> takes_if next_part (clauses_rule float_of) vs l.
Proof using Hshow.
  intros F N k cl r u C K A. unfold clauses_rule. apply (if_many1 (where_rule float_of (S (String.length u))) vs l); try done.
  - pose proof (proj2 (ahead_length _ _ _ _ A)) as L. eapply Forall2_in; [exact F|]. intros v x Hv Hx. apply where_takes; [done|].
    specialize (L v ltac:(apply elem_of_app; by left)). lia.
  - intros l' K'. apply where_declines; by apply next_begins.
Qed.
Lemma part_takes vs p : part_form vs p -> takes_if next_part (part_rule float_of) vs p.
Proof using Hshow.
  intros F. unfold part_rule. destruct F as [vs f F|vs F N|vs F N|z H|v H|vs l F N|vs l F N].
  - apply if_got. by apply (if_head _ _ PFind "find"), find_takes.
  - apply if_no; [head_differs|]. apply if_got. apply (if_head _ _ PIn "in"), if_many1; [by apply variables_each|by destruct vs|apply variable_next].
  - do 5 (apply if_no; [head_differs|]). apply (if_head _ _ PWith "with"), if_many1; [by apply variables_each|by destruct vs|apply variable_next].
  - do 2 (apply if_no; [head_differs|]). apply if_got. apply (if_head _ _ PLimit "limit" [EInt z]). intros l cl r u C _. by apply limit_fixed.
  - do 2 (apply if_no; [head_differs|]). apply if_got. apply (if_head _ _ PLimit "limit" [EPlainSym v]). intros l cl r u C _. by apply limit_var.
  - do 3 (apply if_no; [head_differs|]). apply if_got. apply (if_head _ _ POrder "order"), if_many1; [by apply orders_each|done|apply order_declines].
  - do 4 (apply if_no; [head_differs|]). apply if_got. by apply (if_head _ _ PWhere "where"), clauses_take.
Qed.
Lemma part_head vs p : part_form vs p -> exists x l, vs = EKw (Kw None x) :: l.
Proof using Type. destruct 1; eauto. Qed.
Lemma part_declines : declines (part_rule float_of) [].
Proof using Hshow.
  intros cl r u C A. unfold part_rule. do 5 (rewrite alt_no by (eapply st_other2; [exact C|exact A|done])). eapply st_other2; [exact C|exact A|done].
Qed.

Lemma fill_comm o p q : fill (fill o p) q = fill (fill o q) p.
Proof using Type. by destruct o as [[[] [] [] [] [] []]|]; [destruct p, q..|]. Qed.
Lemma fill_all l l' : l ≡ₚ l' -> forall o, foldl fill o l = foldl fill o l'.
Proof using Type. induction 1 as [|p l l' _ IH|p q l|l1 l2 l3 _ IH1 _ IH2]; intros o; cbn [foldl]; [done|done|by rewrite fill_comm|by rewrite IH1]. Qed.
Lemma from_parts_ok ps q : ps ≡ₚ parts_of q -> from_parts ps = Some q.
Proof using Type.
  intros P. unfold from_parts. rewrite (fill_all _ _ P). destruct q as [f [|w ws] [|i is] [| |] c [o|]]; reflexivity.
Qed.

Lemma parts_taken ls ps g t g' x : Forall2 part_form ls ps -> ls <> [] -> blank g -> written show (EVec (concat ls)) t -> blank g' ->
  query_rule float_of ((g ++ t ++ g') ++ x) = match from_parts ps with Some q => Got q (skip false x) | None => No end.
Proof using Hshow.
  intros F N B W B'. inversion W as [? Sv ? | ? g1 s1 B1 W1|]; subst; [done|].
  unfold query_rule. unfold spaces at 1, follow at 1. rewrite !app_assoc_str, skip_blank by done. rewrite skip_start by done.
  erewrite follow_got by apply tok_ok.
  assert (A : ahead (concat ls ++ []) "]" (g' ++ x) (g1 ++ s1 ++ "]" ++ g' ++ x)).
  { rewrite app_nil_r. exists g1, (s1 ++ "]" ++ g' ++ x). split; [done|]. split; [|done]. by exists s1. }
  destruct (many1_takes next_part (part_rule float_of) ls ps [] "]" (g' ++ x) (g1 ++ s1 ++ "]" ++ g' ++ x)) as (u1 & E1 & R1).
  - eapply Forall2_impl; [exact F|]. intros vs p. apply part_takes.
  - apply part_declines.
  - done.
  - intros l l' Hl. apply elem_of_list_lookup in Hl as [i Hi]. destruct (Forall2_lookup_l _ _ _ _ _ F Hi) as (p & _ & Hp).
    destruct (part_head _ _ Hp) as (x' & l2 & ->). done.
  - clear -F. induction F as [|vs p ls ps Hp F IH]; constructor; [|done]. by destruct (part_head _ _ Hp) as (x' & l2 & ->).
  - exact N.
  - apply closer_vec.
  - exact A.
  - rewrite (follow_got _ _ _ _ _ E1), (st_close _ _ _ R1). unfold spaces, follow.
    rewrite skip_blank by done. reflexivity.
Qed.
Lemma query_taken q s x : spells_query show q s -> query_rule float_of (s ++ x) = Got q (skip false x).
Proof using Hshow.
  intros (v & g & t & g' & (ls & ps & -> & F & P) & B & W & B' & ->). rewrite (parts_taken ls ps g t g' x F); try done; [by rewrite (from_parts_ok _ _ P)|].
  intros ->. inversion F; subst. apply Permutation_nil_l in P. discriminate.
Qed.
Theorem query_reads q s : spells_query show q s -> read_query float_of s = QueryRead q.
Proof using Hshow. intros H. unfold read_query. by rewrite <- (app_nil_str s), (query_taken q s "" H). Qed.
Theorem query_ends q s v x y : spells_query show q s -> written show v x -> read_query float_of (s ++ x ++ y) = QueryError.
Proof using Hshow.
  intros H W. unfold read_query. rewrite (query_taken q s _ H). destruct written_ok as [K _]. destruct (K v x W) as (St & _).
  rewrite skip_start by (by apply starts_app). by destruct x.
Qed.
End text.
