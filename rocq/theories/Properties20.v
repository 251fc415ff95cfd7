(** * Properties, part 20: records repeated and re-ordered (C69, C70) *)
From Verif Require Import Replay Consensus LedgerCells Scenario Counterexamples
  Properties2 Properties3 Properties5 Properties6 Properties7.
From Coq Require Import Lia.
Notation block := Verif.Concrete.block.

(** ** C69 Idempotent validation ("idempotent contract validation?", CHANGELOG.md:14) *)
Section idempotent.
Context {P : SealProtocol} {U : Ultrasonic} (A : ContractApi P U) {E : Type}.
Notation accepts c0 bs c t := (evaluate A (E:=E) c0 bs None = (c, t, Some (Ok tt))).
Notation knows_genesis c0 bs := (forall b, bs !! 0 = Some b ->
  is_known A c0 (opid_of U (with_contract_id (contract_id A c0) (operation b))) = true).

(** The full claim: evaluating an accepted consignment again changes nothing at all - where C25
    has that no operation is applied again.  False of the test ledger ([C69_whole_refuted]). *)
Definition C69_claim : Prop :=
  forall c0 bs c t, knows_genesis c0 bs -> accepts c0 bs c t -> exists t', accepts c bs c t'.

(** What is needed of the contract: records can be made before or after operations, and a record
    that is repeated later makes no difference.  Then evaluating again changes nothing, neither
    after the end nor after a crash. *)
Theorem C69_whole_partial :
  records_inert A -> view_sufficient A -> keeps_identity A -> remembers A -> faithful U ->
  (* records and operations commute *)
  (forall c v o m, apply_operation A (apply_seals A c o m) v = apply_seals A (apply_operation A c v) o m) ->
  (forall c v o w, apply_operation A (apply_witness A c o w) v = apply_witness A (apply_operation A c v) o w) ->
  (* the last of several equal records counts *)
  last_record_counts A ->
  C69_claim /\
  forall c0 bs c t t1 t2, knows_genesis c0 bs -> accepts c0 bs c t -> t = t1 ++ t2 ->
    exists t', accepts (apply_calls A c0 t1) bs c t'.
Proof.
  intros H1 H2 H3 H4 H5 H6 H7 H8.
  assert (records_commute A) as Hc.
  { intros c v e He. destruct e; try done; cbn; [apply H7|apply H6]. }
  split.
  - intros c0 bs c t Hg Hacc.
    destruct (replay_whole A H1 H2 H3 H4 H5 c0 bs c t t [] Hc H8 Hg Hacc) as [t' H]; [by rewrite app_nil_r|].
    exists t'. rewrite <-(evaluate_log _ _ _ _ _ _ _ Hacc) in H. exact H.
  - intros c0 bs c t t1 t2 Hg Hacc Heq. exact (replay_whole A H1 H2 H3 H4 H5 c0 bs c t t1 t2 Hc H8 Hg Hacc Heq).
Qed.

(** Without premises on records: evaluating again changes nothing if and only if making the
    records of the consignment again changes nothing. *)
Theorem C69_exact :
  records_inert A -> view_sufficient A -> keeps_identity A -> remembers A -> faithful U ->
  forall c0 bs c t, knows_genesis c0 bs -> accepts c0 bs c t ->
  (exists t', accepts c bs c t') <->
  apply_calls A c (mjoin ((fun b =>
    match witness b with Some w => [CallApplyWitness (id_of (U:=U) b) w] | None => [] end ++
    (if decide (defined_seals b = ∅) then [] else [CallApplySeals (id_of (U:=U) b) (defined_seals b)]))
    <$> history (contract_id A c0) bs)) = c.
Proof.
  intros H1 H2 H3 H4 H5 c0 bs c t Hg Hacc.
  rewrite (replay_exact A H1 H2 H3 H4 H5 c0 bs c t Hg Hacc).
  by rewrite (accepted_records A c0 bs c t Hacc).
Qed.
End idempotent.

(** ** The test ledger, and one which keeps the last witness of an operation *)
Section ledger.
Context (P : SealProtocol) (S : Sonic).
Notation TC := (TestContract P S).

(** Not code of /repo: `witnesses` as a map from operations to one witness. *)
Definition tc_keep_witness (c : TC) (opid : Opid) (w : SealWitness P) : TC :=
  MkTestContract P S (tc_codex P S c) (tc_contract_id P S c) (tc_libs P S c) (tc_global P S c) (tc_owned P S c) (tc_known_ops P S c)
    (tc_seal_definitions P S c) (<[opid := [w]]> (tc_witnesses P S c)).
Definition last_ledger : ContractApi P (sonic S) := {|
  Contract := TC;
  contract_id := tc_contract_id P S;
  codex := codex (test_ledger P S);
  repo := repo (test_ledger P S);
  memory := memory (test_ledger P S);
  is_known := is_known (test_ledger P S);
  apply_operation := apply_operation (test_ledger P S);
  apply_seals := apply_seals (test_ledger P S);
  apply_witness := tc_keep_witness
|}.

Lemma lookup_pref {X} (m d : gmap N X) k :
  (m ∪ d) !! k = match m !! k with Some x => Some x | None => d !! k end.
Proof. rewrite lookup_union. by destruct (m !! k), (d !! k). Qed.

(** [c1] and [c2] differ only in what the record [e] overwrites. *)
Definition same_but (e : call P (sonic S)) (c1 c2 : TC) : Prop :=
  tc_codex P S c1 = tc_codex P S c2 /\ tc_contract_id P S c1 = tc_contract_id P S c2 /\ tc_libs P S c1 = tc_libs P S c2 /\
  tc_global P S c1 = tc_global P S c2 /\ tc_owned P S c1 = tc_owned P S c2 /\ tc_known_ops P S c1 = tc_known_ops P S c2 /\
  match e with
  | CallApplySeals o m =>
      tc_witnesses P S c1 = tc_witnesses P S c2 /\
      (forall o', o' <> o -> tc_seal_definitions P S c1 !! o' = tc_seal_definitions P S c2 !! o') /\
      (forall k, m !! k = None -> default ∅ (tc_seal_definitions P S c1 !! o) !! k =
                                  default ∅ (tc_seal_definitions P S c2 !! o) !! k)
  | CallApplyWitness o w =>
      tc_seal_definitions P S c1 = tc_seal_definitions P S c2 /\
      (forall o', o' <> o -> tc_witnesses P S c1 !! o' = tc_witnesses P S c2 !! o')
  | _ => c1 = c2
  end.

Lemma same_but_apply e c1 c2 :
  is_record e = true -> same_but e c1 c2 -> apply_call last_ledger c1 e = apply_call last_ledger c2 e.
Proof.
  intros He. destruct c1 as [k1 i1 l1 g1 w1 n1 d1 x1], c2 as [k2 i2 l2 g2 w2 n2 d2 x2].
  destruct e as [| | | | | |o w|v|o m]; try discriminate He; unfold same_but; cbn.
  - intros (-> & -> & -> & -> & -> & -> & -> & H). unfold tc_keep_witness; cbn. f_equal.
    apply map_eq. intros o'. destruct (decide (o' = o)) as [->|Hne]; [by rewrite !lookup_insert|].
    rewrite !lookup_insert_ne by done. by apply H.
  - intros (-> & -> & -> & -> & -> & -> & -> & H1 & H2). unfold tc_apply_seals; cbn. f_equal.
    apply map_eq. intros o'. destruct (decide (o' = o)) as [->|Hne].
    + rewrite !lookup_insert. f_equal. apply map_eq. intros k. rewrite !lookup_pref.
      destruct (m !! k) as [x|] eqn:Hk; [done|]. by apply H2.
    + rewrite !lookup_insert_ne by done. by apply H1.
Qed.
Lemma same_but_self e c : is_record e = true -> same_but e (apply_call last_ledger c e) c.
Proof.
  intros He. destruct e as [| | | | | |o w|v|o m]; try discriminate He; unfold same_but; cbn; repeat (split; [done|]).
  - intros o' Hne. by rewrite lookup_insert_ne.
  - split.
    + intros o' Hne. by rewrite lookup_insert_ne.
    + intros k Hk. rewrite lookup_insert. cbn. by rewrite lookup_pref, Hk.
Qed.
Lemma same_but_step e x c1 c2 :
  is_record e = true -> is_record x = true -> same_but e c1 c2 ->
  same_but e (apply_call last_ledger c1 x) (apply_call last_ledger c2 x).
Proof.
  intros He Hx. destruct e as [| | | | | |o w|v|o m]; try discriminate He;
    destruct x as [| | | | | |o1 w1|v1|o1 m1]; try discriminate Hx; unfold same_but; cbn.
  - intros (-> & -> & -> & -> & -> & -> & -> & H). repeat (split; [done|]). intros o' Hne.
    destruct (decide (o' = o1)) as [->|]; [by rewrite !lookup_insert|]. rewrite !lookup_insert_ne by done. by apply H.
  - intros (-> & -> & -> & -> & -> & -> & -> & H). by repeat (split; [done|]).
  - intros (-> & -> & -> & -> & -> & -> & -> & H). by repeat (split; [done|]).
  - intros (-> & -> & -> & -> & -> & -> & -> & H1 & H2). repeat (split; [done|]). split.
    + intros o' Hne. destruct (decide (o' = o1)) as [->|].
      * rewrite !lookup_insert. by rewrite (H1 o1 Hne).
      * rewrite !lookup_insert_ne by done. by apply H1.
    + intros k Hk. destruct (decide (o = o1)) as [->|].
      * rewrite !lookup_insert. cbn. rewrite !lookup_pref. by rewrite (H2 k Hk).
      * rewrite !lookup_insert_ne by done. by apply H2.
Qed.

Lemma last_ledger_law : last_record_counts last_ledger.
Proof.
  intros c e l He Hl.
  assert (forall c1 c2, same_but e c1 c2 ->
    same_but e (apply_calls last_ledger c1 l) (apply_calls last_ledger c2 l)) as H.
  { induction Hl as [|x l Hx _ IH]; intros c1 c2 H; [exact H|].
    change (same_but e (apply_calls last_ledger (apply_call last_ledger c1 x) l)
      (apply_calls last_ledger (apply_call last_ledger c2 x) l)). apply IH. by apply same_but_step. }
  rewrite (apply_calls_app last_ledger c l [e]).
  change (e :: l ++ [e]) with ((e :: l) ++ [e]). rewrite (apply_calls_app last_ledger c (e :: l) [e]).
  exact (same_but_apply e _ _ He (H (apply_call last_ledger c e) c (same_but_self e c He))).
Qed.

Lemma last_ledger_laws :
  records_inert last_ledger /\ view_sufficient last_ledger /\ keeps_identity last_ledger /\ remembers last_ledger /\
  records_commute last_ledger.
Proof.
  split; [exact (ledger_inert P S)|]. split; [exact (ledger_sufficient P S)|].
  split; [exact (ledger_identity P S)|]. split; [exact (ledger_remembers P S)|].
  intros c v e He. by destruct e.
Qed.

(** A log without witnesses does the same to both ledgers. *)
Lemma no_witness_same c l :
  (forall o w, CallApplyWitness o w ∉ l) -> apply_calls (test_ledger P S) c l = apply_calls last_ledger c l.
Proof.
  revert c. induction l as [|e l IH]; intros c H; [done|].
  assert (forall o w, CallApplyWitness o w ∉ l) as H'. { intros o w Hin. apply (H o w). by right. }
  change (apply_calls (test_ledger P S) (apply_call (test_ledger P S) c e) l =
          apply_calls last_ledger (apply_call last_ledger c e) l).
  rewrite <-IH by done. f_equal. destruct e as [| | | | | |o w|v|o m]; try done.
  exfalso. apply (H o w). left.
Qed.

(** The number of witnesses recorded for an operation *)
Lemma witnesses_grow c l o w :
  CallApplyWitness o w ∈ l ->
  length (default [] (tc_witnesses P S c !! o)) <
  length (default [] (tc_witnesses P S (apply_calls (test_ledger P S) c l) !! o)).
Proof.
  assert (forall c l, length (default [] (tc_witnesses P S c !! o)) <=
    length (default [] (tc_witnesses P S (apply_calls (test_ledger P S) c l) !! o))) as Hle.
  { clear. intros c l. revert c. induction l as [|e l IH]; intros c; [done|].
    change (apply_calls (test_ledger P S) c (e :: l)) with
      (apply_calls (test_ledger P S) (apply_call (test_ledger P S) c e) l).
    etransitivity; [|apply IH]. destruct e as [| | | | | |o1 w1|v|o1 m]; try done. cbn.
    destruct (decide (o1 = o)) as [->|]; [|by rewrite lookup_insert_ne].
    rewrite lookup_insert. cbn. rewrite app_length. lia. }
  intros Hin. apply elem_of_list_split in Hin as (a & b & ->).
  rewrite (apply_calls_app (test_ledger P S)).
  eapply Nat.le_lt_trans; [apply (Hle c a)|].
  set (c1 := apply_calls (test_ledger P S) c a).
  change (apply_calls (test_ledger P S) c1 (CallApplyWitness o w :: b)) with
    (apply_calls (test_ledger P S) (tc_apply_witness P S c1 o w) b).
  eapply Nat.lt_le_trans; [|apply Hle]. cbn. rewrite lookup_insert. cbn. rewrite app_length. cbn. lia.
Qed.

(** The test ledger is left as it was exactly by consignments without witnesses. *)
Theorem C69_test_ledger {E : Type} (c0 : TC) bs c t :
  let A := test_ledger P S in
  (forall b, bs !! 0 = Some b ->
     is_known A c0 (opid_of (sonic S) (with_contract_id (contract_id A c0) (operation b))) = true) ->
  evaluate A (E:=E) c0 bs None = (c, t, Some (Ok tt)) ->
  (exists t', evaluate A (E:=E) c bs None = (c, t', Some (Ok tt))) <->
  forall b, b ∈ bs -> witness b = None.
Proof.
  intros A Hg Hacc.
  assert (forall l : list (OperationSeals P), forall b, b ∈ history (contract_id A c0) l -> exists b', b' ∈ l /\ witness b' = witness b) as Hh.
  { intros [|x l] b; [by intros ?%elem_of_nil|]. intros [->|Hb]%elem_of_cons; [|exists b; split; [by right|done]].
    exists x. split; [left|done]. }
  transitivity (apply_calls A c (records t) = c).
  { exact (replay_exact A (ledger_inert P S) (ledger_sufficient P S) (ledger_identity P S) (ledger_remembers P S)
      (sonic_faithful S) c0 bs c t Hg Hacc). }
  pose proof (accepted_records A c0 bs c t Hacc) as Hrec. split.
  - intros Heq b Hb. destruct (witness b) as [w|] eqn:Hw; [|done].
    assert (exists b', b' ∈ history (contract_id A c0) bs /\ witness b' = Some w) as (b' & Hb' & Hw').
    { destruct bs as [|x bs]; [by apply elem_of_nil in Hb|].
      apply elem_of_cons in Hb as [->|Hb]; [|exists b; split; [by right|done]].
      eexists. split; [left|]. exact Hw. }
    assert (CallApplyWitness (id_of (U:=sonic S) b') w ∈ records t) as Hin.
    { rewrite Hrec. apply elem_of_list_join. exists (entry_records (U:=sonic S) b'). split.
      - apply elem_of_app. left. unfold witness_calls. rewrite Hw'. left.
      - apply elem_of_list_fmap. by exists b'. }
    pose proof (witnesses_grow c _ _ _ Hin) as Hlt. fold A in Hlt. rewrite Heq in Hlt. lia.
  - intros Hno.
    assert (forall o w, CallApplyWitness o w ∉ t) as Hnt.
    { intros o w Hin.
      assert (CallApplyWitness o w ∈ records t) as Hr.
      { apply elem_of_list_In, filter_In. split; [by apply elem_of_list_In|done]. }
      rewrite Hrec in Hr. apply elem_of_list_join in Hr as (l & Hl & Hb).
      apply elem_of_list_fmap in Hb as (b & -> & Hb).
      apply Hh in Hb as (b' & Hb' & Hw). rewrite (Hno b' Hb') in Hw.
      unfold entry_records, witness_calls, seals_calls in Hl. rewrite <-Hw in Hl. cbn [app] in Hl.
      destruct (decide _); [by apply elem_of_nil in Hl|]. apply elem_of_list_singleton in Hl. discriminate Hl. }
    assert (forall o w, CallApplyWitness o w ∉ records t) as Hnr.
    { intros o w Hin%elem_of_list_In. apply filter_In in Hin as [Hin _]. apply (Hnt o w). by apply elem_of_list_In. }
    rewrite (evaluate_log _ _ _ _ _ _ _ Hacc). rewrite (no_witness_same _ _ Hnr), (no_witness_same _ _ Hnt).
    destruct last_ledger_laws as (_ & _ & _ & _ & Hcomm).
    rewrite (operations_first last_ledger c0 t Hcomm). rewrite <-(apply_calls_app last_ledger).
    apply (replay_part last_ledger); [exact last_ledger_law|apply records_all|done].
Qed.
End ledger.

(** ** C70 The same records whatever the order *)
Section convergence.
Context {P : SealProtocol} {U : Ultrasonic} (A : ContractApi P U) {E : Type}.

(** Two parties have accepted the same consignments, in any order and any number of times.
    Then a part [recs] of the contract changed by records only is the same, if the records made
    commute, and making one twice is making it once. *)
Theorem C70_convergence {R : Type} (recs : Contract A -> R) (record : R -> call P U -> R)
    (c0 c0' c c' : Contract A) (L L' : list (list (OperationSeals P))) :
  records_inert A -> keeps_identity A ->
  (forall c v, recs (apply_operation A c v) = recs c) ->
  (forall c o m, recs (apply_seals A c o m) = record (recs c) (CallApplySeals o m)) ->
  (forall c o w, recs (apply_witness A c o w) = record (recs c) (CallApplyWitness o w)) ->
  contract_id A c0 = contract_id A c0' -> recs c0 = recs c0' ->
  evaluates_all A E c0 L c -> evaluates_all A E c0' L' c' ->
  (forall bs, bs ∈ L <-> bs ∈ L') ->
  let made e := exists b, b ∈ all_entries (contract_id A c0) L /\
    ((exists w, witness b = Some w /\ e = CallApplyWitness (id_of (U:=U) b) w) \/
     (defined_seals b <> ∅ /\ e = CallApplySeals (id_of (U:=U) b) (defined_seals b))) in
  (forall r e e', made e -> made e' -> record (record r e) e' = record (record r e') e) ->
  (forall r e, made e -> record (record r e) e = record r e) ->
  recs c = recs c'.
Proof.
  intros Hinert Hid H1 H2 H3 Hcid Hr0 Hall Hall' Hsame made Hcomm Hidem.
  assert (keeps_records A recs record) as Hk.
  { split; [exact H1|]. intros d e He. destruct e; try discriminate He; [apply H3|apply H2]. }
  rewrite (evaluates_all_recs A recs record c0 L c Hk Hinert Hid Hall).
  rewrite (evaluates_all_recs A recs record c0' L' c' Hk Hinert Hid Hall').
  rewrite <-Hcid, <-Hr0.
  assert (forall L1 L2 : list (list (OperationSeals P)), L1 ⊆ L2 ->
    mjoin ((fun b => entry_records (U:=U) b) <$> all_entries (contract_id A c0) L1) ⊆
    mjoin ((fun b => entry_records (U:=U) b) <$> all_entries (contract_id A c0) L2)) as Hsub.
  { intros L1 L2 HL e He. apply elem_of_list_join in He as (l & He & Hl). apply elem_of_list_join. exists l.
    split; [exact He|]. apply elem_of_list_fmap in Hl as (b & -> & Hb). apply elem_of_list_fmap. exists b.
    split; [done|]. apply elem_of_list_join in Hb as (h & Hb & Hh). apply elem_of_list_join. exists h.
    split; [done|]. apply elem_of_list_fmap in Hh as (bs & -> & Hbs). apply elem_of_list_fmap. exists bs.
    split; [done|]. by apply HL. }
  apply (fold_same record made Hcomm Hidem).
  - apply list.Forall_forall. intros e He. apply elem_of_list_join in He as (l & He & Hl).
    apply elem_of_list_fmap in Hl as (b & -> & Hb). exists b. split; [exact Hb|].
    unfold entry_records, witness_calls, seals_calls in He. apply elem_of_app in He as [He|He].
    + destruct (witness b) as [w|]; [|by apply elem_of_nil in He]. apply elem_of_list_singleton in He as ->.
      left. by exists w.
    + destruct (decide _) as [|Hne]; [by apply elem_of_nil in He|]. apply elem_of_list_singleton in He as ->.
      by right.
  - apply Hsub. intros bs. by apply Hsame.
  - apply Hsub. intros bs. by apply Hsame.
Qed.
End convergence.

(** The ledgers: definitions as a map which prefers the later ones, witnesses as a list *)
Section ledger_records.
Context {P : SealProtocol} {U : Ultrasonic} (A : ContractApi P U) {E : Type}.
Context (defs : Contract A -> gmap Opid (gmap N (SealDef P))) (wits : Contract A -> gmap Opid (list (SealWitness P))).
Definition record_defs (r : gmap Opid (gmap N (SealDef P))) (e : call P U) : gmap Opid (gmap N (SealDef P)) :=
  match e with CallApplySeals o m => <[o := m ∪ default ∅ (r !! o)]> r | _ => r end.
Definition record_wits (r : gmap Opid (list (SealWitness P))) (e : call P U) : gmap Opid (list (SealWitness P)) :=
  match e with CallApplyWitness o w => <[o := default [] (r !! o) ++ [w]]> r | _ => r end.
Hypothesis Hinert : records_inert A.
Hypothesis Hid : keeps_identity A.
Hypothesis Hdefs : keeps_records A defs record_defs.
Hypothesis Hwits : keeps_records A wits record_wits.

Definition agreeing (h : list (OperationSeals P)) : Prop :=
  forall b b' k d d', b ∈ h -> b' ∈ h -> id_of (U:=U) b = id_of (U:=U) b' ->
    defined_seals b !! k = Some d -> defined_seals b' !! k = Some d' -> d = d'.

Lemma ledger_converges c0 c c' L L' :
  evaluates_all A E c0 L c -> evaluates_all A E c0 L' c' -> (forall bs, bs ∈ L <-> bs ∈ L') ->
  agreeing (all_entries (contract_id A c0) L) -> defs c = defs c'.
Proof.
  intros H1 H2 Hsame Hag.
  refine (C70_convergence A defs record_defs c0 c0 c c' L L' Hinert Hid (proj1 Hdefs) _ _ eq_refl eq_refl H1 H2 Hsame _ _).
  - intros d o m. by apply (proj2 Hdefs d (CallApplySeals o m)).
  - intros d o w. by apply (proj2 Hdefs d (CallApplyWitness o w)).
  - intros r e e' (b & Hb & [(w & _ & ->)|[_ ->]]) (b' & Hb' & [(w' & _ & ->)|[_ ->]]); cbn; [done..|].
    destruct (decide (id_of (U:=U) b = id_of (U:=U) b')) as [Heq|Hne].
    + rewrite <-Heq, !lookup_insert, !insert_insert. f_equal. cbn. apply map_eq. intros k.
      rewrite !lookup_pref. destruct (defined_seals b !! k) as [d|] eqn:E1, (defined_seals b' !! k) as [d'|] eqn:E2; try done.
      f_equal. symmetry. by apply (Hag b b' k d d').
    + rewrite !lookup_insert_ne by done. by rewrite insert_commute.
  - intros r e (b & Hb & [(w & _ & ->)|[_ ->]]); cbn; [done|].
    rewrite lookup_insert, insert_insert. f_equal. cbn. apply map_eq. intros k. rewrite !lookup_pref.
    by destruct (defined_seals b !! k).
Qed.

Lemma fold_wits r l o w :
  w ∈ default [] (foldl record_wits r l !! o) <-> w ∈ default [] (r !! o) \/ CallApplyWitness o w ∈ l.
Proof.
  revert r. induction l as [|e l IH]; intros r; cbn [foldl].
  - split; [by left|]. intros [H|[]%elem_of_nil]. done.
  - rewrite IH, elem_of_cons.
    assert (forall x y z : Prop, (x <-> (y \/ z)) -> forall q, (x \/ q <-> y \/ (z \/ q))) as Hor by tauto.
    apply Hor. destruct e as [| | | | | |o' w'|v|o' m]; cbn; try (split; [by left|]; intros [?|[=]]; done).
    destruct (decide (o' = o)) as [->|Hne].
    + rewrite lookup_insert. cbn. rewrite elem_of_app, elem_of_list_singleton. naive_solver.
    + rewrite lookup_insert_ne by done. split; [by left|]. intros [?|[= -> _]]; done.
Qed.
Lemma ledger_witnesses c0 c L o w :
  evaluates_all A E c0 L c ->
  w ∈ default [] (wits c !! o) <->
  w ∈ default [] (wits c0 !! o) \/
  exists b, b ∈ all_entries (contract_id A c0) L /\ id_of (U:=U) b = o /\ witness b = Some w.
Proof.
  intros H. rewrite (evaluates_all_recs A wits record_wits c0 L c Hwits Hinert Hid H), fold_wits.
  assert (forall x y z : Prop, (y <-> z) -> (x \/ y <-> x \/ z)) as Hor by tauto. apply Hor.
  rewrite elem_of_list_join. split.
  - intros (l & He & Hl). apply elem_of_list_fmap in Hl as (b & -> & Hb). exists b. split; [done|].
    unfold entry_records, witness_calls, seals_calls in He. apply elem_of_app in He as [He|He].
    + destruct (witness b) as [w'|]; [|by apply elem_of_nil in He]. apply elem_of_list_singleton in He.
      by injection He as -> ->.
    + destruct (decide _); [by apply elem_of_nil in He|]. apply elem_of_list_singleton in He. discriminate He.
  - intros (b & Hb & <- & Hw). exists (entry_records (U:=U) b). split.
    + apply elem_of_app. left. unfold witness_calls. rewrite Hw. left.
    + apply elem_of_list_fmap. by exists b.
Qed.

Lemma chain_agreeing (on_chain : SealWitness P -> Prop) h : on_one_chain (U:=U) on_chain h -> agreeing h.
Proof.
  intros Hch b b' k d d' Hb Hb' Hids E1 E2. destruct (chain_collisions _ _ Hch) as [Hc1 Hc2].
  pose proof (chain_positions _ _ Hch) as Hpos. rewrite list.Forall_forall in Hpos.
  destruct (Hpos b Hb k d E1) as (cell & Hcell & Ht). destruct (Hpos b' Hb' k d' E2) as (cell' & Hcell' & Ht').
  rewrite <-(Hc1 b b' Hb Hb' Hids) in Hcell'. rewrite Hcell in Hcell'. injection Hcell' as <-.
  apply (Hc2 b b' k k d d' Hb Hb' E1 E2). by rewrite <-Ht, <-Ht'.
Qed.
End ledger_records.

Section ledgers.
Context (P : SealProtocol) (S : Sonic) {E : Type}.

(** The test ledger: the same definitions, if definitions reported for an operation agree; and
    the same witnesses, in some order, some repeated. *)
Theorem C70_test_ledger (c0 c c' : TestContract P S) L L' :
  let A := test_ledger P S in
  let h := all_entries (tc_contract_id P S c0) L in
  evaluates_all A E c0 L c -> evaluates_all A E c0 L' c' -> (forall bs, bs ∈ L <-> bs ∈ L') ->
  ((forall b b' k d d', b ∈ h -> b' ∈ h -> id_of (U:=sonic S) b = id_of (U:=sonic S) b' ->
      defined_seals b !! k = Some d -> defined_seals b' !! k = Some d' -> d = d') ->
   tc_seal_definitions P S c = tc_seal_definitions P S c') /\
  (forall o w, w ∈ default [] (tc_witnesses P S c !! o) <-> w ∈ default [] (tc_witnesses P S c' !! o)) /\
  (forall o w, w ∈ default [] (tc_witnesses P S c !! o) <->
     w ∈ default [] (tc_witnesses P S c0 !! o) \/
     exists b, b ∈ h /\ id_of (U:=sonic S) b = o /\ witness b = Some w).
Proof.
  intros A h H1 H2 Hsame.
  assert (keeps_records A (tc_seal_definitions P S) record_defs) as Hd.
  { split; [done|]. intros d e He. by destruct e. }
  assert (keeps_records A (tc_witnesses P S) record_wits) as Hw.
  { split; [done|]. intros d e He. by destruct e. }
  assert (forall L c, evaluates_all A E c0 L c -> forall o w, w ∈ default [] (tc_witnesses P S c !! o) <->
     w ∈ default [] (tc_witnesses P S c0 !! o) \/
     exists b, b ∈ all_entries (tc_contract_id P S c0) L /\ id_of (U:=sonic S) b = o /\ witness b = Some w) as Hex.
  { intros L1 c1 H o w.
    exact (ledger_witnesses A (tc_witnesses P S) (ledger_inert P S) (ledger_identity P S) Hw c0 c1 L1 o w H). }
  split; [|split; [|exact (Hex L c H1)]].
  - exact (ledger_converges A (tc_seal_definitions P S) (ledger_inert P S) (ledger_identity P S) Hd c0 c c' L L' H1 H2 Hsame).
  - intros o w. rewrite (Hex L c H1), (Hex L' c' H2).
    assert (forall L1 L2 : list (list (OperationSeals P)), L1 ⊆ L2 ->
      all_entries (tc_contract_id P S c0) L1 ⊆ all_entries (tc_contract_id P S c0) L2) as Hsub.
    { intros L1 L2 HL b Hb. apply elem_of_list_join in Hb as (l & Hb & Hl). apply elem_of_list_fmap in Hl as (bs & -> & Hbs).
      by apply (all_entries_elem _ _ bs (HL bs Hbs)). }
    split; (intros [H|(b & Hb & Hrest)]; [by left|right; exists b; split; [|exact Hrest]]; revert Hb; apply Hsub; intros bs; by apply Hsame).
Qed.

(** A ledger that drops consumed cells, on one chain: consignments each of which is accepted can
    be evaluated in any order; cells and known operations (C53), definitions and witnesses are then
    the same. *)
Corollary C70_any_order (on_chain : SealWitness P -> Prop) (c : TestContract P S) (L : list (list (OperationSeals P))) :
  let A := spending_ledger P S in
  let h := all_entries (tc_contract_id P S c) L in
  sonic_local S -> sonic_needs S -> ledger_intact P S c ->
  (forall bs, bs ∈ L -> exists c1 t, evaluate A (E:=E) c bs None = (c1, t, Some (Ok tt))) ->
  on_one_chain (U:=sonic S) on_chain h ->
  forall L1 L2, Permutation L L1 -> Permutation L L2 ->
  exists c1 c2 : TestContract P S, evaluates_all A E c L1 c1 /\ evaluates_all A E c L2 c2 /\
    same_state A (ledger_peek P S) c1 c2 /\
    tc_seal_definitions P S c1 = tc_seal_definitions P S c2 /\
    (forall o w, w ∈ default [] (tc_witnesses P S c1 !! o) <-> w ∈ default [] (tc_witnesses P S c2 !! o)).
Proof.
  intros A h Hloc Hneeds Hint Hall Hch L1 L2 HL1 HL2.
  destruct (C53_any_order A (E:=E) (ledger_peek P S) outputs inputs_gone on_chain c L
    (spending_keeps_cells P S Hloc Hneeds) (spending_remembers P S) (sonic_faithful S) (spending_needs_inputs P S Hneeds)
    (proj1 (ledger_intact_iff P S c) Hint) Hall Hch L1 L2 HL1 HL2) as (c1 & c2 & H1 & H2 & H3 & _).
  assert (records_inert A) as Hinert by exact (ledger_inert P S).
  assert (keeps_identity A) as Hid by (intros d v; done).
  assert (keeps_records A (tc_seal_definitions P S) record_defs) as Hd.
  { split; [done|]. intros d e He. by destruct e. }
  assert (keeps_records A (tc_witnesses P S) record_wits) as Hw.
  { split; [done|]. intros d e He. by destruct e. }
  exists c1, c2. split; [exact H1|]. split; [exact H2|]. split; [exact H3|].
  assert (forall bs, bs ∈ L1 <-> bs ∈ L) as HsL1. { intros bs. by rewrite HL1. }
  assert (forall bs, bs ∈ L2 <-> bs ∈ L) as HsL2. { intros bs. by rewrite HL2. }
  assert (forall L1 L2 : list (list (OperationSeals P)), (forall bs, bs ∈ L1 <-> bs ∈ L2) ->
    all_entries (tc_contract_id P S c) L1 ⊆ all_entries (tc_contract_id P S c) L2) as Hsub.
  { intros M1 M2 HL b Hb. apply elem_of_list_join in Hb as (l & Hb & Hl). apply elem_of_list_fmap in Hl as (bs & -> & Hbs).
    by apply (all_entries_elem _ _ bs (proj1 (HL bs) Hbs)). }
  split.
  - apply (ledger_converges A (tc_seal_definitions P S) Hinert Hid Hd c c1 c2 L1 L2 H1 H2).
    + intros bs. by rewrite HsL1, HsL2.
    + intros b b' k d d' Hb Hb'. apply (chain_agreeing on_chain _ Hch); apply (Hsub L1 L); done.
  - intros o w. rewrite (ledger_witnesses A (tc_witnesses P S) Hinert Hid Hw c c1 L1 o w H1).
    rewrite (ledger_witnesses A (tc_witnesses P S) Hinert Hid Hw c c2 L2 o w H2).
    split; (intros [H|(b & Hb & Hrest)]; [by left|right; exists b; split; [|exact Hrest]]; revert Hb; apply Hsub; intros bs; by rewrite HsL1, HsL2).
Qed.
End ledgers.

(** ** Concrete cases *)
Definition last_api : ContractApi TP TU := last_ledger TP toy_sonic.
Definition last_run (c : ToyContract) (bs : list ToyBlock)
  : option (result (VerificationError TP TU Empty_set) unit) := (evaluate last_api c bs None).2.
Definition last_after (c : ToyContract) (bs : list ToyBlock) : ToyContract :=
  (evaluate last_api (E:=Empty_set) c bs None).1.1.
Definition last_log (c : ToyContract) (bs : list ToyBlock) : list (call TP TU) :=
  (evaluate last_api (E:=Empty_set) c bs None).1.2.
Lemma last_evaluate c bs r :
  last_run c bs = Some r ->
  evaluate last_api (E:=Empty_set) c bs None = (last_after c bs, last_log c bs, Some r).
Proof.
  unfold last_run, last_after, last_log. destruct (evaluate _ _ _ _) as [[c' t'] r']. cbn. by intros ->.
Qed.

(** C69: the scenario, evaluated again after its end, and after its first 12 calls, on the ledger
    which keeps one witness per operation. *)
Example C69_case :
  (exists t', evaluate last_api (E:=Empty_set) (last_after ledger scenario) scenario None =
     (last_after ledger scenario, t', Some (Ok tt))) /\
  (exists t', evaluate last_api (E:=Empty_set) (apply_calls last_api ledger (take 12 (last_log ledger scenario)))
     scenario None = (last_after ledger scenario, t', Some (Ok tt))) /\
  default [] (tc_witnesses TP toy_sonic (last_after ledger scenario) !! id_1) = [wit tx_1].
Proof.
  assert (evaluate last_api (E:=Empty_set) ledger scenario None =
    (last_after ledger scenario, last_log ledger scenario, Some (Ok tt))) as Hacc by (apply last_evaluate; vm_refl).
  destruct (last_ledger_laws TP toy_sonic) as (H1 & H2 & H3 & H4 & H5).
  destruct (C69_whole_partial last_api (E:=Empty_set) H1 H2 H3 H4 (sonic_faithful _)) as [Ha Hb].
  - intros c v o m. exact (H5 c v (CallApplySeals o m) eq_refl).
  - intros c v o w. exact (H5 c v (CallApplyWitness o w) eq_refl).
  - exact (last_ledger_law TP toy_sonic).
  - split; [exact (Ha ledger scenario _ _ scenario_genesis_known Hacc)|].
    split; [|vm_refl].
    apply (Hb ledger scenario (last_after ledger scenario) (last_log ledger scenario)
      (take 12 (last_log ledger scenario)) (drop 12 (last_log ledger scenario)) scenario_genesis_known Hacc).
    symmetry. apply take_drop.
Qed.

(** The test ledger: the witness of operation 1 is recorded twice. *)
Theorem C69_whole_refuted : ~ C69_claim toy_api (E:=Empty_set).
Proof.
  intros H. destruct (H ledger scenario _ _ scenario_genesis_known scenario_accepted) as [t' Ht].
  pose proof (proj1 (C69_test_ledger TP toy_sonic ledger scenario _ _ scenario_genesis_known scenario_accepted)
    (ex_intro _ t' Ht) entry_1 ltac:(right; left)) as Hw. discriminate Hw.
Qed.
Example C69_twice :
  default [] (tc_witnesses TP toy_sonic (toy_after (toy_after ledger scenario) scenario) !! id_1) = [wit tx_1; wit tx_1] /\
  (* without witnesses nothing changes *)
  (exists t', toy_accepts (toy_after ledger [entry_g]) [entry_g] (toy_after ledger [entry_g]) t').
Proof.
  split; [vm_refl|].
  apply (C69_test_ledger TP toy_sonic ledger [entry_g] (toy_after ledger [entry_g]) (toy_log ledger [entry_g])).
  - intros b [= <-]. vm_refl.
  - apply toy_evaluate. vm_refl.
  - intros b ->%elem_of_list_singleton. reflexivity.
Qed.
(** Re-evaluating what the exact condition says *)
Example C69_exact_case :
  apply_calls last_api (last_after ledger [entry_g; entry_1])
    [CallApplySeals id_g (defined_seals entry_g); CallApplyWitness id_1 (wit tx_1);
     CallApplySeals id_1 (defined_seals entry_1)] = last_after ledger [entry_g; entry_1].
Proof.
  assert (evaluate last_api (E:=Empty_set) ledger [entry_g; entry_1] None =
    (last_after ledger [entry_g; entry_1], last_log ledger [entry_g; entry_1], Some (Ok tt))) as Hacc
    by (apply last_evaluate; vm_refl).
  destruct (last_ledger_laws TP toy_sonic) as (H1 & H2 & H3 & H4 & H5).
  assert (forall b, [entry_g; entry_1] !! 0 = Some b ->
    is_known last_api ledger (opid_of TU (with_contract_id (contract_id last_api ledger) (operation b))) = true) as Hg.
  { intros b [= <-]. vm_refl. }
  destruct (C69_whole_partial last_api (E:=Empty_set) H1 H2 H3 H4 (sonic_faithful _)) as [Ha _].
  - intros c v o m. exact (H5 c v (CallApplySeals o m) eq_refl).
  - intros c v o w. exact (H5 c v (CallApplyWitness o w) eq_refl).
  - exact (last_ledger_law TP toy_sonic).
  - pose proof (Ha ledger [entry_g; entry_1] _ _ Hg Hacc) as Hagain.
    apply (C69_exact last_api (E:=Empty_set) H1 H2 H3 H4 (sonic_faithful _) ledger [entry_g; entry_1] _ _ Hg Hacc) in Hagain.
    exact Hagain.
Qed.

(** C70: three consignments with common operations, in two orders *)
Definition shuffled : list (list ToyBlock) :=
  [[entry_g; entry_1; entry_4]; [entry_g; entry_3; entry_5]; [entry_g; entry_1; entry_3]].
Example C70_case :
  exists c1 c2 : ToyContract, evaluates_all spend_api Empty_set ledger shuffled c1 /\
    evaluates_all spend_api Empty_set ledger (rev shuffled) c2 /\
    same_state spend_api (ledger_peek TP toy_sonic) c1 c2 /\
    tc_seal_definitions TP toy_sonic c1 = tc_seal_definitions TP toy_sonic c2 /\
    (forall o w, w ∈ default [] (tc_witnesses TP toy_sonic c1 !! o) <-> w ∈ default [] (tc_witnesses TP toy_sonic c2 !! o)).
Proof.
  refine (C70_any_order TP toy_sonic (E:=Empty_set) (toy_on_chain one_chain) ledger shuffled toy_local toy_needs
    (toy_intact op_g) _ _ shuffled (rev shuffled) _ _).
  - intros bs [->|[->|[->|[]%elem_of_nil]%elem_of_cons]%elem_of_cons]%elem_of_cons;
      eexists _, _; apply spend_evaluate; vm_refl.
  - apply toy_on_one_chain. vm_refl.
  - reflexivity.
  - apply Permutation_rev.
Qed.

(** The order of witnesses does depend on the order of consignments, and so do definitions which
    do not agree: one consignment reports the definition of output 1 for output 0 (C28). *)
Definition entry_g_w1 : ToyBlock := block (as_genesis op_g) [(0%N, def_a)] (Some (wit tx_1)).
Definition entry_g_w2 : ToyBlock := block (as_genesis op_g) [(0%N, def_b)] (Some (wit tx_2)).
Definition in_turn (bs bs' : list ToyBlock) : ToyContract := toy_after (toy_after ledger bs) bs'.
Example C70_order_matters :
  let c := in_turn [entry_g_w1] [entry_g_w2] in let c' := in_turn [entry_g_w2] [entry_g_w1] in
  evaluates_all toy_api Empty_set ledger [[entry_g_w1]; [entry_g_w2]] c /\
  evaluates_all toy_api Empty_set ledger [[entry_g_w2]; [entry_g_w1]] c' /\
  default [] (tc_witnesses TP toy_sonic c !! id_g) = [wit tx_1; wit tx_2] /\
  default [] (tc_witnesses TP toy_sonic c' !! id_g) = [wit tx_2; wit tx_1] /\
  default ∅ (tc_seal_definitions TP toy_sonic c !! id_g) !! 0%N = Some def_b /\
  default ∅ (tc_seal_definitions TP toy_sonic c' !! id_g) !! 0%N = Some def_a.
Proof.
  intros c c'. split; [|split; [|split; [vm_refl|split; [vm_refl|split; vm_refl]]]].
  - eapply evaluates_next; [apply toy_evaluate; vm_refl|].
    eapply evaluates_next; [apply toy_evaluate; vm_refl|]. constructor.
  - eapply evaluates_next; [apply toy_evaluate; vm_refl|].
    eapply evaluates_next; [apply toy_evaluate; vm_refl|]. constructor.
Qed.

Print Assumptions C69_whole_partial.
Print Assumptions C69_exact.
Print Assumptions C69_test_ledger.
Print Assumptions C69_whole_refuted.
Print Assumptions C69_case.
Print Assumptions C70_convergence.
Print Assumptions C70_test_ledger.
Print Assumptions C70_any_order.
Print Assumptions C70_case.
