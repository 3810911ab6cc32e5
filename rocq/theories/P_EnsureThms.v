(** The theorems about vocabularies. *)
From Verif Require Import M_Vocab Spec_Value Spec_Partition Spec_Tx Spec_Conn Spec_Upsert Spec_Entity Spec_Transact Spec_Schema Spec_Vocab.
From Verif Require Import P_Base P_Value P_Inv P_Conn P_TxProps P_Nested P_TxThms P_Schema P_SchemaStep P_Reopen P_SchemaThms P_Vocab P_Ensure.

Section Check.
  Context {mv : Z} {c : conn} (Hc : clean mv c) (Hcore : core_intact (schema_of c)) (d : definition).
  Notation result := (check_vocabulary (disk c) (schema_of c) d).
  Notation V e v := (has_version c (df_name d) e v).

  Lemma present_all : provides c d -> version_ok (df_version d) -> result = Ok Present.
  Proof using Hc Hcore.
    intros (e & He & Hx) Hok. pose proof (check_spec Hc Hcore d) as H. destruct result as [[| |v|v|l]|x|].
    - by destruct (H e (df_version d)).
    - done.
    - destruct H as [(Hv & _) Hlt]. destruct (version_unique Hc Hcore _ _ _ _ _ He Hv). lia.
    - destruct H as [(Hv & _) Hlt]. destruct (version_unique Hc Hcore _ _ _ _ _ He Hv). lia.
    - destruct H as (e' & Hv & _ & Hne & Hl & _). destruct (version_unique Hc Hcore _ _ _ _ _ He Hv) as [<- _].
      destruct l as [|x l]; [done|]. destruct (Hl x) as [H1 H2]; [by left|]. destruct H2. destruct (Hx x H1) as (a & ? & ? & ?). by exists a, x.2.
    - assert (~ exists e v, V e v /\ ~ version_ok v) as Hbad.
      { intros (e' & v & Hv & Hno). destruct (version_unique Hc Hcore _ _ _ _ _ He Hv) as [_ <-]. done. }
      assert (~ conflicting c d) as Hcf.
      { intros (e' & x' & a & other & Hv & Hx' & Ha & _ & Hat & Hne). destruct (Hx _ Hx') as (a' & Ha' & _ & Hat'). congruence. }
      destruct x; try (by destruct H as (? & ? & ?)); done.
    - done.
  Qed.
  Lemma thm_check :
    (result = Ok Present <-> provides c d /\ version_ok (df_version d))
    /\ (result = Ok NotPresent <-> forall e v, ~ V e v)
    /\ ((exists v, result = Ok (NeedsUpdate v)) <-> exists e v, V e v /\ version_ok v /\ v < df_version d)
    /\ ((exists v, result = Ok (TooNew v)) <-> exists e v, V e v /\ version_ok v /\ df_version d < v)
    /\ ((exists l, result = Ok (MissingAttributes l)) <-> exists e, V e (df_version d) /\ version_ok (df_version d) /\ ~ conflicting c d /\ ~ provides c d)
    /\ (result = Err EConflictingAttributeDefinitions <-> conflicting c d /\ version_ok (df_version d))
    /\ (result = Err EInvalidVocabularyVersion <-> exists e v, V e v /\ ~ version_ok v)
    /\ (is_ok result = true \/ result = Err EConflictingAttributeDefinitions \/ result = Err EInvalidVocabularyVersion).
  Proof using Hc Hcore.
    pose proof present_all as P. pose proof (check_spec Hc Hcore d) as H.
    assert (forall e v e' v', V e v -> V e' v' -> e = e' /\ v = v') as U by (intros *; apply (version_unique Hc Hcore)).
    assert (conflicting c d -> provides c d -> False) as Hcp.
    { intros (e' & x' & a & other & Hv & Hx' & Ha & _ & Hat & Hne) (e & _ & Hx). destruct (Hx _ Hx') as (a' & Ha' & _ & Hat'). congruence. }
    assert (conflicting c d -> exists e, V e (df_version d)) as Hcv by (intros (e & _ & _ & _ & Hv & _); by exists e).
    assert (provides c d -> exists e, V e (df_version d)) as Hpv by (intros (e & Hv & _); by exists e).
    assert (forall y, result = y -> (provides c d -> version_ok (df_version d) -> y = Ok Present)) as P' by (intros y <-; exact P). clear P.
    destruct result as [[| |v|v|l]|x|] eqn:E.
    - specialize (P' _ eq_refl).
      split_and!; (split; [try discriminate; try (intros (? & ?); discriminate)|]) || idtac.
      + intros [Hp _]. by destruct (Hpv Hp) as (e & ?%H).
      + done.
      + done.
      + by intros (e & v & ?%H & _).
      + by intros (e & v & ?%H & _).
      + by intros (e & ?%H & _).
      + intros [Hp _]. by destruct (Hcv Hp) as (e & ?%H).
      + by intros (e & v & ?%H & _).
      + by left.
    - destruct H as [Hp Hok]. destruct (Hpv Hp) as (e0 & He0).
      split_and!; (split; [try discriminate; try (intros (? & ?); discriminate)|]) || idtac.
      + done.
      + done.
      + intros H. by destruct (H _ _ He0).
      + intros (e & v & Hv & _ & Hlt). destruct (U _ _ _ _ He0 Hv). lia.
      + intros (e & v & Hv & _ & Hlt). destruct (U _ _ _ _ He0 Hv). lia.
      + by intros (_ & _ & _ & _ & Hno).
      + intros [Hcf _]. by destruct (Hcp Hcf Hp).
      + intros (e & v & Hv & Hno). destruct (U _ _ _ _ He0 Hv) as [_ <-]. done.
      + by left.
    - destruct H as [(Hv0 & Hok & Hf) Hlt0].
      split_and!; (split; [try discriminate; try (intros (? & ?); discriminate)|]) || idtac.
      + intros [Hp _]. destruct (Hpv Hp) as (e & Hv). destruct (U _ _ _ _ Hv0 Hv). lia.
      + intros H. by destruct (H _ _ Hv0).
      + intros _. by exists (vo_entity v), (vo_version v).
      + intros _. by exists v.
      + intros (e & w & Hv & _ & Hlt). destruct (U _ _ _ _ Hv0 Hv). lia.
      + intros (e & Hv & _). destruct (U _ _ _ _ Hv0 Hv). lia.
      + intros [Hcf _]. destruct (Hcv Hcf) as (e & Hv). destruct (U _ _ _ _ Hv0 Hv). lia.
      + intros (e & w & Hv & Hno). destruct (U _ _ _ _ Hv0 Hv) as [_ <-]. done.
      + by left.
    - destruct H as [(Hv0 & Hok & Hf) Hlt0].
      split_and!; (split; [try discriminate; try (intros (? & ?); discriminate)|]) || idtac.
      + intros [Hp _]. destruct (Hpv Hp) as (e & Hv). destruct (U _ _ _ _ Hv0 Hv). lia.
      + intros H. by destruct (H _ _ Hv0).
      + intros (e & w & Hv & _ & Hlt). destruct (U _ _ _ _ Hv0 Hv). lia.
      + intros _. by exists (vo_entity v), (vo_version v).
      + intros _. by exists v.
      + intros (e & Hv & _). destruct (U _ _ _ _ Hv0 Hv). lia.
      + intros [Hcf _]. destruct (Hcv Hcf) as (e & Hv). destruct (U _ _ _ _ Hv0 Hv). lia.
      + intros (e & w & Hv & Hno). destruct (U _ _ _ _ Hv0 Hv) as [_ <-]. done.
      + by left.
    - destruct H as (e0 & Hv0 & Hok & Hne & Hl & Hall).
      assert (~ conflicting c d) as Hnc.
      { intros (e' & x & a & other & Hv & Hx & Ha & Hh & Hat & Hd). destruct (U _ _ _ _ Hv0 Hv) as [<- _].
        destruct (Hall _ Hx) as [Hin|(a' & Ha' & _ & Hat')]; [|congruence]. destruct (Hl _ Hin) as [_ Hno]. apply Hno. by exists a, other. }
      assert (~ provides c d) as Hnp. { intros Hp. by pose proof (P' _ eq_refl Hp Hok). }
      split_and!; (split; [try discriminate; try (intros (? & ?); discriminate)|]) || idtac.
      + by intros [Hp _].
      + intros H. by destruct (H _ _ Hv0).
      + intros (e & w & Hv & _ & Hlt). destruct (U _ _ _ _ Hv0 Hv). lia.
      + intros (e & w & Hv & _ & Hlt). destruct (U _ _ _ _ Hv0 Hv). lia.
      + intros _. by exists e0.
      + intros _. by exists l.
      + by intros [? _].
      + intros (e & w & Hv & Hno). destruct (U _ _ _ _ Hv0 Hv) as [_ <-]. done.
      + by left.
    - assert ((x = EInvalidVocabularyVersion /\ exists e v, V e v /\ ~ version_ok v) \/ x = EConflictingAttributeDefinitions /\ conflicting c d /\ version_ok (df_version d)) as H'.
      { destruct x; try (by left); try (by destruct H as (? & ? & ?)); by right. }
      clear H. destruct H' as [(-> & e0 & v0 & Hv0 & Hno0)|(-> & Hcf & Hok)].
      + assert (forall e v, V e v -> version_ok v -> False) as Hbad by (intros e v Hv Hok; by destruct (U _ _ _ _ Hv0 Hv) as [_ <-]).
        split_and!; (split; [try discriminate; try (intros (? & ?); discriminate)|]) || idtac.
        * intros [Hp Hok]. destruct (Hpv Hp) as (e & Hv). by destruct (Hbad _ _ Hv).
        * intros H. by destruct (H _ _ Hv0).
        * intros (e & v & Hv & Hok & _). by destruct (Hbad _ _ Hv).
        * intros (e & v & Hv & Hok & _). by destruct (Hbad _ _ Hv).
        * intros (e & Hv & Hok & _). by destruct (Hbad _ _ Hv).
        * intros [Hcf Hok]. destruct (Hcv Hcf) as (e & Hv). by destruct (Hbad _ _ Hv).
        * intros _. by exists e0, v0.
        * done.
        * right. by right.
      + destruct (Hcv Hcf) as (e0 & Hv0).
        split_and!; (split; [try discriminate; try (intros (? & ?); discriminate)|]) || idtac.
        * intros [Hp _]. by destruct (Hcp Hcf Hp).
        * intros H. by destruct (H _ _ Hv0).
        * intros (e & w & Hv & _ & Hlt). destruct (U _ _ _ _ Hv0 Hv). lia.
        * intros (e & w & Hv & _ & Hlt). destruct (U _ _ _ _ Hv0 Hv). lia.
        * by intros (_ & _ & _ & Hno & _).
        * done.
        * done.
        * intros (e & w & Hv & Hno). destruct (U _ _ _ _ Hv0 Hv) as [_ <-]. done.
        * right. by left.
    - done.
  Qed.
End Check.

(* ---------------------------------------------------------------- ensuring one vocabulary *)

Lemma unique_type_inj u u' : unique_entid u = unique_entid u' -> u = u'.
Proof. destruct u, u'; done. Qed.

(** What an outcome did *)
Record ensured (mv now : Z) (c c' : conn) (d : definition) (o : voc_outcome) (l : list (keyword * attribute)) (old : keyword -> option uniq) (r : txreport) : Prop := {
  en_transact : conn_transact mv now c (map asking_entity (voc_asks d l old)) = (c', Ok r);
  en_asked : forall x, x ∈ l -> x ∈ df_attributes d;
  en_rest : forall x, x ∈ df_attributes d -> x ∈ l \/ exists e, has_version c (df_name d) e (df_version d) /\ has_attribute c e x;
  en_old : forall e v, has_version c (df_name d) e v -> v < df_version d ->
    forall x a at_, x ∈ df_attributes d -> sc_ident_map (schema_of c) !! x.1 = Some a -> holds (disk c) e DB_SCHEMA_ATTRIBUTE (TVRef a) ->
      sc_attribute_map (schema_of c) !! a = Some at_ -> old x.1 = at_unique at_;
  en_outcome : match o with
    | Installed => forall e v, ~ has_version c (df_name d) e v
    | Upgraded => exists e v, has_version c (df_name d) e v /\ v < df_version d
    | InstalledMissingAttributes => (exists e, has_version c (df_name d) e (df_version d)) /\ ~ conflicting c d /\ ~ provides c d
    | Existed => False
    end }.

Section One.
  Context {mv now : Z} {c : conn} {d : definition} (Hc : clean mv c) (Hcore : core_intact (schema_of c)) (Hq : quiet d).

  (** One transaction through a connection *)
  Lemma finish_transact {A} terms (a : A) c' o : conn_finish c (ibind (ig_transact mv now (conn_begin c) terms) (fun ig _ => (ig, Ok a))) = (c', Ok o) ->
    exists r, conn_transact mv now c terms = (c', Ok r) /\ o = a.
  Proof using Type.
    unfold conn_transact. destruct (ig_transact mv now (conn_begin c) terms) as [ig [r|x|x]]; cbn [ibind conn_finish]; [|by intros [=]..].
    destruct (conn_commit c ig) as [[c2 t]| |]; [|by intros [=]..]. intros [= <- <-]. by exists r.
  Qed.
  Lemma ensure_cases c' o : conn_ensure mv now c d = (c', Ok o) ->
    (o = Existed /\ c' = (conn_step mv c (CSession [] true)).1 /\ provides c d /\ version_ok (df_version d)) \/ exists l old r, ensured mv now c c' d o l old r.
  Proof using Hc Hcore Hq.
    unfold conn_ensure, ensure_vocabulary, ig_check. cbn [ibind].
    change (ig_store (conn_begin c)) with (disk c). change (ig_schema (conn_begin c)) with (schema_of c).
    pose proof (check_spec Hc Hcore d) as H. pose proof (thm_check Hc Hcore d) as (_ & _ & _ & _ & Hm & _).
    destruct (check_vocabulary (disk c) (schema_of c) d) as [[| |v|v|l]|x|]; cbn [ibind].
    - unfold install_vocabulary, ilift, description. change (ig_schema (conn_begin c)) with (schema_of c). rewrite (description_asks Hcore). cbn [ibind].
      intros (r & Ht & ->)%finish_transact. right. exists (df_attributes d), (fun _ => None), r. split; [done|done|by left|by intros e v ?%H|done].
    - cbn [conn_finish]. unfold conn_commit. rewrite decide_True by done. intros [= <- <-]. left. split; [done|]. split; [|exact H].
      cbn. unfold conn_commit. cbn [conn_begin ig_gen]. rewrite decide_True by done. reflexivity.
    - unfold upgrade_vocabulary. rewrite (proj1 (Hq _ _)). unfold ilift, description_diff. cbn [ibind].
      change (ig_schema (conn_begin c)) with (schema_of c). rewrite (description_asks Hcore). cbn [ibind].
      assert (forall (x : inprog * res txreport), ibind x (fun ig _ => ibind (df_post d ig v) (fun ig _ => (ig, Ok Upgraded))) = ibind x (fun ig _ => (ig, Ok Upgraded))) as ->.
      { intros [ig [y| |]]; cbn [ibind]; [|done..]. by rewrite (proj2 (Hq _ _)). }
      intros (r & Ht & ->)%finish_transact. right. do 3 eexists. split; [exact Ht|done|by left| |].
      + intros e w Hw Hlt x a at_ _ Ha Hh Hat. cbn beta. rewrite Ha. destruct H as [(Hv & _ & Hf) _].
        destruct (version_unique Hc Hcore _ _ _ _ _ Hw Hv) as [-> _]. by rewrite (proj2 (Hf a at_) (conj Hh Hat)).
      + destruct H as [(Hv & _) Hlt]. by exists (vo_entity v), (vo_version v).
    - by intros [=].
    - unfold install_attributes_for, ilift. change (ig_schema (conn_begin c)) with (schema_of c). rewrite (description_asks Hcore). cbn [ibind].
      intros (r & Ht & ->)%finish_transact. right. destruct H as (e & Hv & Hok & _ & Hl & Hr). exists l, (fun _ => None), r. split; [done|by intros x [? _]%Hl|..].
      + intros x Hx. destruct (Hr x Hx) as [?|?]; [by left|right; by exists e].
      + intros e' w Hw Hlt. destruct (version_unique Hc Hcore _ _ _ _ _ Hv Hw). lia.
      + destruct (proj1 Hm (ex_intro _ l eq_refl)) as (e' & Hv' & _ & ? & ?). split; [by exists e'|done].
    - by intros [=].
    - by intros [=].
  Qed.
  Lemma session_unchanged : unchanged c (conn_step mv c (CSession [] true)).1.
  Proof using Type. unfold conn_step. cbn [ig_steps]. unfold conn_commit. cbn [conn_begin ig_gen]. by rewrite decide_True by done. Qed.
  Lemma ensure_existed c' : conn_ensure mv now c d = (c', Ok Existed) -> unchanged c c' /\ provides c d /\ version_ok (df_version d).
  Proof using Hc Hcore Hq. intros [(_ & -> & ?)|(l & old & r & E)]%ensure_cases; [split; [exact session_unchanged|done]|]. by destruct (en_outcome _ _ _ _ _ _ _ _ _ E). Qed.
  Lemma ensure_again : provides c d -> version_ok (df_version d) -> exists c', conn_ensure mv now c d = (c', Ok Existed) /\ unchanged c c'.
  Proof using Hc Hcore.
    intros Hp Hok. unfold conn_ensure, ensure_vocabulary, ig_check. cbn [ibind].
    change (ig_store (conn_begin c)) with (disk c). change (ig_schema (conn_begin c)) with (schema_of c).
    rewrite (present_all Hc Hcore d Hp Hok). cbn [ibind conn_finish]. unfold conn_commit. rewrite decide_True by done. by eexists.
  Qed.
  (** The errors of the check *)
  Lemma ensure_refuses : (conflicting c d -> version_ok (df_version d) -> conn_ensure mv now c d = (c, Err EConflictingAttributeDefinitions))
    /\ ((exists e v, has_version c (df_name d) e v /\ version_ok v /\ df_version d < v) -> conn_ensure mv now c d = (c, Err EExistingVocabularyTooNew)).
  Proof using Hc Hcore.
    pose proof (thm_check Hc Hcore d) as (_ & _ & _ & Hn & _ & Hcf & _). unfold conn_ensure, ensure_vocabulary, ig_check. cbn [ibind].
    change (ig_store (conn_begin c)) with (disk c). change (ig_schema (conn_begin c)) with (schema_of c). split.
    - intros H1 H2. by rewrite (proj2 Hcf (conj H1 H2)).
    - intros (v & ->)%Hn. done.
  Qed.
End One.

Section Ensured.
  Context {mv now : Z} {c c' : conn} {d : definition} {o : voc_outcome} {l : list (keyword * attribute)} {old : keyword -> option uniq} {r : txreport}.
  Context (Ho : orderly mv c) (Hcore : core_intact (schema_of c)) (Hd : acceptable d) (Hall : all_allocated c) (Hk : uniqueness_known c d).
  Context (E : ensured mv now c c' d o l old r) (Hti : tidy (st_log (disk c'))).

  Lemma unique_known_old x a u : x ∈ l -> at_unique x.2 = None -> holds (disk c) a DB_IDENT (TVKeyword x.1) -> holds (disk c) a DB_UNIQUE (TVRef (unique_entid u)) -> old x.1 = Some u.
  Proof using Ho Hcore Hd Hk E.
    intros Hx Hu Hi Hh. pose proof (en_asked _ _ _ _ _ _ _ _ _ E x Hx) as Hx'.
    pose proof (named_entid _ Ho _ _ (acc_attr_storable Hd x Hx') Hi) as Ea. destruct (thm_agrees _ _ Ho) as [[A1 A2] _].
    destruct (A2 _ _ _ Hh unique_in_schema) as (at_ & Hat). pose proof (proj2 (sd_unique _ _ _ (A1 _ _ Hat) u) Hh) as Eu.
    destruct (Hk x a at_ Hx' Hu Ea Hat) as (e & v & Hv & Hlt & Hl); [by rewrite Eu|].
    by rewrite (en_old _ _ _ _ _ _ _ _ _ E e v Hv Hlt x a at_ Hx' Ea Hl Hat).
  Qed.
  Lemma ensured_result : orderly mv c' /\ core_intact (schema_of c') /\ provides c' d.
  Proof using All.
    pose proof (en_transact _ _ _ _ _ _ _ _ _ E) as Ht. pose proof (en_asked _ _ _ _ _ _ _ _ _ E) as Hl. pose proof unique_known_old as Hu.
    split; [exact (after_orderly Ho Ht Hti)|]. split; [exact (core_kept Ho Hcore Hd Hl Hall Ht Hti Hu)|].
    destruct (voc_s Ho Hcore Hd Hl Hall Ht Hti) as (es & Es). exists es.
    split; [exact (voc_has_version Ho Hcore Hd Hl Hall Ht Hti Hu es Es)|]. intros x Hx.
    destruct (decide (x ∈ l)) as [Hin|Hin]; [exact (voc_has_attribute Ho Hcore Hd Hl Hall Ht Hti Hu es x Es Hin)|].
    destruct (en_rest _ _ _ _ _ _ _ _ _ E x Hx) as [?|(e & Hv & Ha)]; [done|].
    pose proof (voc_entity Ho Hcore Hd Hl Hall Ht Hti Hu e _ Hv) as Es'. rewrite Es in Es'. injection Es' as <-.
    exact (voc_attribute_kept Ho Hcore Hd Hl Hall Ht Hti Hu es x Es Hx Hin Ha).
  Qed.
  Lemma ensured_untouched b e a p : changed (disk c) (disk c') b (e, a, p) ->
    (a = DB_TX_INSTANT /\ forall row, row ∈ st_log (disk c) -> t_tx row < e) \/ described c' d e.
  Proof using All.
    pose proof (en_transact _ _ _ _ _ _ _ _ _ E) as Ht. pose proof (en_asked _ _ _ _ _ _ _ _ _ E) as Hl. pose proof unique_known_old as Hu.
    intros [[-> ->]|(n & k & Hq & Hn)]%(voc_changed Ho Hcore Hd Hl Hall Ht Hti Hu).
    - left. split; [done|]. exact (proj1 (thm_tx (orderly_accepted _ _ _ _ _ _ Ho Ht Hti))).
    - right. destruct (voc_Q3 Hd Hl _ _ _ Hq) as (_ & k' & [= <-] & Hs).
      assert (sc_ident_map (schema_of c') !! k = Some e) as He.
      { apply (named_entid _ (after_orderly Ho Ht Hti)); [done|]. eapply (voc_holds Ho Hcore Hd Hl Hall Ht Hti); [exact Hq|done|exact Hn|by left]. }
      apply voc_ident in Hq as [[_ ->]|(x & Hx & _ & ->)]; [by left|]. right. exists x. split; [by apply Hl|done].
  Qed.
End Ensured.

Lemma ensured_orderly mv now c c' d o : orderly mv c -> core_intact (schema_of c) -> all_allocated c -> acceptable d -> quiet d -> uniqueness_known c d ->
  conn_ensure mv now c d = (c', Ok o) -> tidy (st_log (disk c')) -> orderly mv c'.
Proof.
  intros Ho Hcore Hall Hd Hq Hk H Hti. pose proof (proj2 (orderly_whole _ _ Ho)) as Hc.
  destruct (ensure_cases Hc Hcore Hq _ _ H) as [(-> & -> & Hp & Hok)|(l & old & r & E)]; [|by destruct (ensured_result Ho Hcore Hd Hall Hk E Hti)].
  destruct Ho as (nw & c0 & l & Hop & Ec & Hcl & Ht). exists nw, c0, (l ++ [CSession [] true]). split; [exact Hop|]. split; [|split].
  - unfold conn_run. rewrite fold_left_app. cbn [fold_left]. fold (conn_run mv c0 l). by rewrite <- Ec.
  - clear -Hcl. revert c0 Hcl. induction l as [|y l IH]; intros c0 Hcl; [done|]. destruct Hcl as [H1 H2]. split; [exact H1|exact (IH _ H2)].
  - pose proof (session_unchanged (mv := mv) (c := c)) as (U1 & _). rewrite U1. exact Ht.
Qed.
Lemma thm_ensured mv now c c' d o : orderly mv c -> core_intact (schema_of c) -> all_allocated c -> acceptable d -> quiet d -> uniqueness_known c d ->
  conn_ensure mv now c d = (c', Ok o) -> tidy (st_log (disk c')) ->
  provides c' d /\ core_intact (schema_of c')
  /\ (forall b e a p, changed (disk c) (disk c') b (e, a, p) -> (a = DB_TX_INSTANT /\ forall row, row ∈ st_log (disk c) -> t_tx row < e) \/ described c' d e)
  /\ forall now', exists c'', conn_ensure mv now' c' d = (c'', Ok Existed) /\ unchanged c' c''.
Proof.
  intros Ho Hcore Hall Hd Hq Hk H Hti. pose proof (proj2 (orderly_whole _ _ Ho)) as Hc.
  destruct (ensure_cases Hc Hcore Hq _ _ H) as [(-> & -> & Hp & Hok)|(l & old & r & E)].
  - destruct (session_unchanged (mv := mv) (c := c)) as (U1 & U2 & U3). revert Hti U1 U2 U3.
    assert (orderly mv (conn_step mv c (CSession [] true)).1) as Ho'.
    { destruct Ho as (nw & c0 & l & Hop & Ec & Hcl & Ht). exists nw, c0, (l ++ [CSession [] true]). split; [exact Hop|]. split; [|split].
      - unfold conn_run. rewrite fold_left_app. cbn [fold_left]. fold (conn_run mv c0 l). by rewrite <- Ec.
      - clear -Hcl. revert c0 Hcl. induction l as [|y l IH]; intros c0 Hcl; [done|]. destruct Hcl as [H1 H2]. split; [exact H1|exact (IH _ H2)].
      - pose proof (session_unchanged (mv := mv) (c := c)) as (U1 & _). rewrite U1. exact Ht. }
    revert Ho'. generalize (conn_step mv c (CSession [] true)).1. clear H. intros c' Ho' Hti U1 U2 U3.
    assert (core_intact (schema_of c')) as Hcore' by (by rewrite U2).
    assert (provides c' d) as Hp'. { destruct Hp as (e & [H1 H2] & Hx). exists e. unfold has_version, has_attribute. by rewrite U1, U2. }
    split; [done|]. split; [done|]. split.
    + rewrite U1. intros [] e a p [Hx Hy]; done.
    + intros now'. apply ensure_again; [exact (proj2 (orderly_whole _ _ Ho'))|done..].
  - destruct (ensured_result Ho Hcore Hd Hall Hk E Hti) as (Ho' & Hcore' & Hp). split; [done|]. split; [done|].
    split; [intros b e a p; exact (ensured_untouched Ho Hcore Hd Hall Hk E Hti b e a p)|].
    intros now'. apply ensure_again; [exact (proj2 (orderly_whole _ _ Ho'))|done|done|]. by destruct Hd as (_ & _ & ? & _).
Qed.

(* ---------------------------------------------------------------- several vocabularies *)

Section Several.
  Context {mv : Z} {c : conn} (Hc : clean mv c) (Hcore : core_intact (schema_of c)).
  Notation check d := (check_vocabulary (disk c) (schema_of c) d).

  Definition step : gmap keyword voc_outcome * list (keyword * work_item) -> definition -> res (gmap keyword voc_outcome * list (keyword * work_item)) :=
    fun '(out, work) d =>
    let! c0 := check d in
    match c0 with
    | Present => Ok (<[df_name d := Existed]> out, work)
    | TooNew _ => Err EExistingVocabularyTooNew
    | c0 => Ok (out, work_insert (df_name d) (d, c0) work)
    end.
  Lemma check_all_eq l : check_all (disk c) (schema_of c) l = rfold step (∅, []) l.
  Proof using Type. reflexivity. Qed.
  Lemma check_step_ok out work d x : step (out, work) d = Ok x -> ~ refused c d.
  Proof using Hc Hcore.
    unfold step. intros E H. pose proof (thm_check Hc Hcore d) as (H1 & H2 & H3 & H4 & H5 & H6 & H7 & H8).
    destruct H as [(v & Ev)%H4|[Ev%H7|Hcf]].
    - by rewrite Ev in E.
    - by rewrite Ev in E.
    - pose proof Hcf as (e & ? & ? & ? & Hv & _). destruct (decide (0 < df_version d /\ df_version d < U32_MAX)) as [Hok|Hok].
      + by rewrite (proj2 H6 (conj Hcf Hok)) in E.
      + assert (check d = Err EInvalidVocabularyVersion) as Ev by (apply H7; exists e, (df_version d); done). by rewrite Ev in E.
  Qed.
  Lemma all_checked l : forall acc x, rfold step acc l = Ok x -> forall d, d ∈ l -> ~ refused c d.
  Proof using Hc Hcore.
    induction l as [|d0 l IH]; intros acc x H d Hd; [by apply elem_of_nil in Hd|]. cbn [rfold] in H. apply rbind_Ok in H as (y & Hy & H).
    apply elem_of_cons in Hd as [->|Hd]; [|by eapply IH]. destruct acc as [out work]. by eapply check_step_ok.
  Qed.
  Lemma all_checked_total l : forall acc, ~ exists p, rfold step acc l = Panic p.
  Proof using Hc Hcore.
    induction l as [|d0 l IH]; intros [out work] (p & H); [done|]. cbn [rfold] in H. unfold step in H at 1. pose proof (check_spec Hc Hcore d0) as Hs.
    destruct (check d0) as [[| |v|v|m]|x|]; cbn [rbind] in H; try done; by eapply IH; exists p.
  Qed.
  Lemma thm_all_refused now vs : (exists d, d ∈ vs_definitions vs /\ refused c d) ->
    exists e, ensure_vocabularies mv now (conn_begin c) vs = (conn_begin c, Err e).
  Proof using Hc Hcore.
    intros (d & Hd & Hr). unfold ensure_vocabularies, ilift. change (ig_store (conn_begin c)) with (disk c). change (ig_schema (conn_begin c)) with (schema_of c).
    rewrite check_all_eq. destruct (rfold _ _ _) as [x|e|p] eqn:E.
    - by destruct (all_checked _ _ _ E d Hd).
    - by exists e.
    - by destruct (all_checked_total (vs_definitions vs) (∅, [])); exists p.
  Qed.
  Lemma all_present l : (forall d, d ∈ l -> provides c d /\ version_ok (df_version d)) -> forall out, exists out', rfold step (out, []) l = Ok (out', [])
      /\ (forall k, out !! k = Some Existed -> out' !! k = Some Existed) /\ (forall d, d ∈ l -> out' !! df_name d = Some Existed).
  Proof using Hc Hcore.
    induction l as [|d0 l IH]; intros Hp out.
    - exists out. split; [done|]. split; [done|]. by intros d ?%elem_of_nil.
    - destruct (Hp d0) as [H1 H2]; [by left|]. cbn [rfold]. assert (step (out, []) d0 = Ok (<[df_name d0 := Existed]> out, [])) as -> by (unfold step; by rewrite (present_all Hc Hcore d0 H1 H2)). cbn [rbind].
      destruct (IH (fun d Hd => Hp d (elem_of_list_further _ _ _ Hd)) (<[df_name d0 := Existed]> out)) as (out' & -> & Hk & Hl). exists out'. split; [done|]. split.
      + intros k Hk'. apply Hk. destruct (decide (df_name d0 = k)) as [->|?]; [apply lookup_insert|by rewrite lookup_insert_ne].
      + intros d [->|Hd]%elem_of_cons; [apply Hk, lookup_insert|by apply Hl].
  Qed.
  Lemma thm_all_existed now vs : (forall d, d ∈ vs_definitions vs -> provides c d /\ version_ok (df_version d)) ->
    exists c' out, conn_ensure_all mv now c vs = (c', Ok out) /\ unchanged c c' /\ forall d, d ∈ vs_definitions vs -> out !! df_name d = Some Existed.
  Proof using Hc Hcore.
    intros Hp. destruct (all_present _ Hp ∅) as (out & E & _ & Hl). unfold conn_ensure_all, ensure_vocabularies, ilift.
    change (ig_store (conn_begin c)) with (disk c). change (ig_schema (conn_begin c)) with (schema_of c). rewrite check_all_eq, E. cbn [ibind is_nil conn_finish].
    unfold conn_commit. rewrite decide_True by done. by exists (Conn (disk c) (Metadata (md_gen (cn_md c) + 1) (parts_of c) (schema_of c))), out.
  Qed.
End Several.

Lemma thm_existed mv now c d : clean mv c -> core_intact (schema_of c) -> quiet d ->
  ((exists c', conn_ensure mv now c d = (c', Ok Existed)) <-> provides c d /\ version_ok (df_version d))
  /\ forall c', conn_ensure mv now c d = (c', Ok Existed) -> unchanged c c'.
Proof.
  intros Hc Hcore Hq. split; [split|].
  - intros (c' & (_ & ? & ?)%(ensure_existed Hc Hcore Hq)). done.
  - intros [H1 H2]. destruct (ensure_again (now := now) Hc Hcore H1 H2) as (c' & ? & _). by exists c'.
  - intros c' (? & _)%(ensure_existed Hc Hcore Hq). done.
Qed.
Lemma thm_outcome mv now c c' d o : clean mv c -> core_intact (schema_of c) -> quiet d -> conn_ensure mv now c d = (c', Ok o) -> needed c d o.
Proof.
  intros Hc Hcore Hq [(-> & _ & ? & _)|(l & old & r & E)]%(ensure_cases Hc Hcore Hq); [done|]. pose proof (en_outcome _ _ _ _ _ _ _ _ _ E) as H. by destruct o.
Qed.
