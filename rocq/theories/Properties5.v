(** * Properties C45-C49: consignments shared between parties

    Premises on the contract: it keeps cells as described in Cells.v ([keeps_cells]), it
    knows exactly the operations it knew and those applied ([remembers]), and the result of
    verification is the operation that was verified ([faithful]).  The ledger of the
    test-suite, which keeps consumed cells, satisfies them, and so does a ledger which drops
    them (LedgerCells.v). *)
From Verif Require Import Sharing LedgerCells Derived Scenario Counterexamples Properties1 Properties2.

Section properties.
Context {P : SealProtocol} {U : Ultrasonic} (A : ContractApi P U) {E X : Type}.
Context (peek : Contract A -> Slot -> option X) (out : Operation -> Slot -> option X).
Context (gone : Operation -> Slot -> bool).

Notation accepts c0 bs c t := (evaluate A (E:=E) c0 bs None = (c, t, Some (Ok tt))).
Notation id_of := (id_of (U:=U)).
Notation without_applied t := (List.filter (fun e => negb (is_apply e)) (mutations t)).

(** ** C45 Any part of a consignment, in any order that keeps cells before their readers

    The first entry stays; of the others, which have different ids, any are kept, in any
    order.  A kept entry comes after another entry whose cell it names if and only if it
    did so before.  Then the part is accepted as well, every kept operation gets the same
    calls, and the cells of the operations known afterwards are the same, except for those
    which an entry left out destroys. *)
Theorem C45_selection (c0 : Contract A) b0 rest rest' c t :
  keeps_cells A peek out gone -> remembers A -> faithful U -> intact A peek c0 ->
  accepts c0 (b0 :: rest) c t ->
  let h := history (contract_id A c0) (b0 :: rest) in
  let h' := history (contract_id A c0) (b0 :: rest') in
  NoDup (id_of <$> h) -> NoDup rest' -> rest' ⊆ rest ->
  (forall b e s, b ∈ rest' -> e ∈ h -> s ∈ reads (operation b) -> slot_opid s = id_of e ->
     precedes h e b <-> precedes h' e b) ->
  exists c' t', accepts c0 (b0 :: rest') c' t' /\
    (forall b, b ∈ h' -> calls_for (id_of b) t' = calls_for (id_of b) t) /\
    (forall o, is_known A c' o = true <-> is_known A c0 o = true \/ exists b, b ∈ rest' /\ id_of b = o) /\
    (forall s, is_known A c' (slot_opid s) = true ->
       (forall b, b ∈ rest -> b ∉ rest' -> is_known A c0 (id_of b) = false -> gone (operation b) s = false) ->
       peek c' s = peek c s).
Proof. intros H1 H2 H3. exact (selection A peek out gone H1 H2 H3 c0 b0 rest rest' c t). Qed.

(** ** C46 Knowing more never turns acceptance into rejection

    A contract which knows all that another one knows, knows operations of the consignment
    only with the outputs they have there, and has not destroyed the cells named by those it
    does not know, accepts the consignment if the other one does; records of seals and
    witnesses are the same. *)
Theorem C46_knowing_more (c0 c0' : Contract A) bs c t :
  keeps_cells A peek out gone -> remembers A -> faithful U -> needs_inputs A peek ->
  intact A peek c0 -> intact A peek c0' -> knows_more A peek c0 c0' ->
  holds_as A peek out gone c0 c0' (history (contract_id A c0) bs) ->
  undisturbed A peek out c0 c0' (history (contract_id A c0) bs) ->
  accepts c0 bs c t ->
  exists c' t', accepts c0' bs c' t' /\ knows_more A peek c c' /\
    without_applied t' = without_applied t.
Proof. intros H1 H2 H3 H4. by apply (knowing_more A peek out gone H1 H2 H3 H4). Qed.

(** In particular, what a contract accepts it accepts after any session, unless the session
    has destroyed a cell named in the consignment. *)
Corollary C46_after_session (c0 : Contract A) l c' bs c t :
  keeps_cells A peek out gone -> remembers A -> faithful U -> needs_inputs A peek -> intact A peek c0 ->
  session A E c0 l c' ->
  let ops := applied_operations l ++ (operation <$> history (contract_id A c0) bs) in
  ids_apart (U:=U) ops ops -> no_conflict gone ops ->
  accepts c0 bs c t ->
  exists d t', accepts c' bs d t' /\ knows_more A peek c d /\ without_applied t' = without_applied t.
Proof.
  intros H1 H2 H3 H4 Hint Hs ops Hap Hnc.
  destruct (session_more A (E:=E) peek out gone H1 H2 H3 c0 l c' bs ops) as (M1 & M2 & M3); try done.
  { intros op Hop. apply elem_of_app. by left. }
  { intros op Hop. apply elem_of_app. by right. }
  apply C46_knowing_more; try done.
  apply (session_state A peek out gone H1 H2 H3 c0 l c' Hint Hs).
Qed.

(** ** C47 Consignments received in any order

    If each of several consignments is accepted by a contract, no two different operations in
    them have the same id, and none destroys a cell that another one names, they can be
    evaluated one after the other in any order: all are accepted, and the states reached in
    two orders agree. *)
Theorem C47_any_order (c : Contract A) (L : list (list (OperationSeals P))) :
  keeps_cells A peek out gone -> remembers A -> faithful U -> needs_inputs A peek -> intact A peek c ->
  (forall bs, bs ∈ L -> exists c1 t, accepts c bs c1 t) ->
  ids_apart (U:=U) (operation <$> all_entries (contract_id A c) L)
                   (operation <$> all_entries (contract_id A c) L) ->
  no_conflict gone (operation <$> all_entries (contract_id A c) L) ->
  forall L1 L2, Permutation L L1 -> Permutation L L2 ->
  exists c1 c2, evaluates_all A E c L1 c1 /\ evaluates_all A E c L2 c2 /\ same_state A peek c1 c2 /\
    forall o, is_known A c1 o = true <-> is_known A c o = true \/
      exists bs b, bs ∈ L /\ b ∈ tail (history (contract_id A c) bs) /\ id_of b = o.
Proof. intros H1 H2 H3 H4. by apply (any_order A peek out gone H1 H2 H3 H4). Qed.

(** ** C48 Consensus

    Two parties start from the same contract and evaluate whatever they receive, with
    failures and crashes on the way ([session]).  A consignment in which each cell an
    operation names belongs to an operation known at the start or delivered before it gets
    the same result - acceptance, or the same error - from both, and the same records of
    seals and witnesses are made, provided no operation destroys a cell that another one
    names. *)
Theorem C48_consensus (c0 : Contract A) l c l' c' bs (fin : option E) d t r :
  keeps_cells A peek out gone -> remembers A -> faithful U -> needs_inputs A peek -> intact A peek c0 ->
  session A E c0 l c -> session A E c0 l' c' ->
  let ops := applied_operations l ++ applied_operations l' ++
             (operation <$> history (contract_id A c0) bs) in
  ids_apart (U:=U) ops ops -> no_conflict gone ops ->
  self_contained A c0 (history (contract_id A c0) bs) ->
  evaluate A c bs fin = (d, t, Some r) ->
  exists d' t', evaluate A c' bs fin = (d', t', Some r) /\ without_applied t' = without_applied t.
Proof. intros H1 H2 H3 H4 Hint Hs Hs' ops. by apply (consensus A peek out gone H1 H2 H3 H4). Qed.

(** ** C49 Cells are the outputs of applied operations

    After any number of evaluations, accepted, failed or interrupted at any call: the cells
    which an applied operation destroys are gone; apart from these, the cells of operations
    known at the start are as they were, the cells of an applied operation are its outputs,
    and there are no other cells. *)
Theorem C49_cells_are_outputs (c0 : Contract A) l c :
  keeps_cells A peek out gone -> remembers A -> faithful U -> intact A peek c0 ->
  session A E c0 l c ->
  (forall op s, op ∈ applied_operations l -> gone op s = true -> peek c s = None) /\
  (forall s, (forall op, op ∈ applied_operations l -> gone op s = false) ->
     is_known A c0 (slot_opid s) = true -> peek c s = peek c0 s) /\
  (forall op s, (forall op', op' ∈ applied_operations l -> gone op' s = false) ->
     op ∈ applied_operations l -> slot_opid s = opid_of U op -> peek c s = out op s) /\
  (forall s x, peek c s = Some x ->
     is_known A c0 (slot_opid s) = true \/
     exists op, op ∈ applied_operations l /\ slot_opid s = opid_of U op) /\
  (forall o, is_known A c o = true <->
     is_known A c0 o = true \/ exists op, op ∈ applied_operations l /\ o = opid_of U op).
Proof.
  intros H1 H2 H3 Hint Hs.
  destruct (session_state A peek out gone H1 H2 H3 c0 l c Hint Hs) as (_ & Hc & Hk & Hg & Hp & Ho).
  assert (forall o, is_known A c o = true <->
    is_known A c0 o = true \/ exists op, op ∈ applied_operations l /\ o = opid_of U op) as Hk'.
  { intros o. rewrite Hk. split; (intros [?|(op & ? & ?)]; [by left|right; by exists op]). }
  split; [|split; [done|split; [done|split; [|done]]]].
  - intros op s Hop Hgo. by destruct (Hg op s Hop Hgo).
  - intros s x Hx. apply Hk'.
    destruct (is_known A c (slot_opid s)) eqn:He; [done|]. by rewrite (Hc s He) in Hx.
Qed.
End properties.

(** ** The same for the ledger of the test-suite: the premises on the contract are facts,
    only those on the verification of operations remain. *)
Section ledger.
Context (P : SealProtocol) (S : Sonic) (E : Type).
Notation A := (test_ledger P S).
Notation peek := (ledger_peek P S).
Notation accepts c0 bs c t := (evaluate A (E:=E) c0 bs None = (c, t, Some (Ok tt))).
Hypothesis Hlocal : sonic_local S.
Hypothesis Hneeds : sonic_needs S.

Lemma nothing_conflicts l : no_conflict nothing_gone l.
Proof. done. Qed.

Corollary C47_any_order_ledger (c : TestContract P S) (L : list (list (OperationSeals P))) :
  ledger_intact P S c ->
  (forall bs, bs ∈ L -> exists c1 t, accepts c bs c1 t) ->
  ids_apart (U:=sonic S) (operation <$> all_entries (tc_contract_id _ _ c) L)
                         (operation <$> all_entries (tc_contract_id _ _ c) L) ->
  forall L1 L2, Permutation L L1 -> Permutation L L2 ->
  exists c1 c2, evaluates_all A E c L1 c1 /\ evaluates_all A E c L2 c2 /\
    tc_owned _ _ c1 = tc_owned _ _ c2 /\ tc_global _ _ c1 = tc_global _ _ c2 /\
    dom (tc_known_ops _ _ c1) =@{gset Opid} dom (tc_known_ops _ _ c2).
Proof.
  intros Hint Hall Hapart L1 L2 HL1 HL2.
  destruct (C47_any_order A (E:=E) peek outputs nothing_gone c L (ledger_keeps_cells P S Hlocal) (ledger_remembers P S)
    (sonic_faithful S) (ledger_needs_inputs P S Hneeds) (proj1 (ledger_intact_iff P S c) Hint)
    Hall Hapart (nothing_conflicts _) L1 L2 HL1 HL2) as (c1 & c2 & E1 & E2 & (_ & Hk & Hp) & _).
  exists c1, c2. split; [done|]. split; [done|]. split; [|split].
  - apply map_eq. intros a. specialize (Hp (Owned a)). cbn in Hp. by apply (inj (fmap inl)) in Hp.
  - apply map_eq. intros a. specialize (Hp (Global a)). cbn in Hp. by apply (inj (fmap inr)) in Hp.
  - apply set_eq. intros o. rewrite !elem_of_dom. specialize (Hk o). cbn in Hk.
    revert Hk. repeat case_bool_decide; naive_solver.
Qed.

Corollary C48_consensus_ledger (c0 : TestContract P S) l c l' c' bs (fin : option E) d t r :
  ledger_intact P S c0 ->
  session A E c0 l c -> session A E c0 l' c' ->
  let ops := applied_operations l ++ applied_operations l' ++
             (operation <$> history (tc_contract_id _ _ c0) bs) in
  ids_apart (U:=sonic S) ops ops ->
  self_contained A c0 (history (tc_contract_id _ _ c0) bs) ->
  evaluate A c bs fin = (d, t, Some r) ->
  exists d' t', evaluate A c' bs fin = (d', t', Some r).
Proof.
  intros Hint Hs Hs' ops Hap Hself Hev.
  destruct (C48_consensus A peek outputs nothing_gone c0 l c l' c' bs fin d t r (ledger_keeps_cells P S Hlocal)
    (ledger_remembers P S) (sonic_faithful S) (ledger_needs_inputs P S Hneeds)
    (proj1 (ledger_intact_iff P S c0) Hint) Hs Hs' Hap (nothing_conflicts _) Hself Hev) as (d' & t' & H & _).
  by exists d', t'.
Qed.

Corollary C49_cells_are_outputs_ledger (c0 : TestContract P S) l c :
  ledger_intact P S c0 -> session A E c0 l c ->
  (forall op, op ∈ applied_operations (P:=P) (U:=sonic S) l -> forall pos,
     tc_owned _ _ c !! MkCellAddr (sonic_opid S op) pos = op_destructible_out op !! N.to_nat pos /\
     tc_global _ _ c !! MkCellAddr (sonic_opid S op) pos =
       (data_value <$> op_immutable_out op !! N.to_nat pos)) /\
  (forall a, is_Some (tc_known_ops _ _ c0 !! cell_opid a) ->
     tc_owned _ _ c !! a = tc_owned _ _ c0 !! a /\ tc_global _ _ c !! a = tc_global _ _ c0 !! a) /\
  ledger_intact P S c.
Proof.
  intros Hint Hs.
  destruct (session_state A peek outputs nothing_gone (ledger_keeps_cells P S Hlocal) (ledger_remembers P S)
    (sonic_faithful S) c0 l c (proj1 (ledger_intact_iff P S c0) Hint) Hs) as (_ & Hc & _ & _ & Hk & Ho).
  split; [|split].
  - intros op Hop pos.
    pose proof (Ho op (Owned (MkCellAddr (sonic_opid S op) pos)) (fun _ _ => eq_refl) Hop eq_refl) as H1.
    pose proof (Ho op (Global (MkCellAddr (sonic_opid S op) pos)) (fun _ _ => eq_refl) Hop eq_refl) as H2.
    cbn in H1, H2. apply (inj (fmap inl)) in H1. apply (inj (fmap inr)) in H2.
    rewrite list_lookup_fmap in H2. done.
  - intros a Ha. assert (forall s, slot_opid s = cell_opid a -> is_known A c0 (slot_opid s) = true) as Hkn.
    { intros s ->. cbn. by apply bool_decide_eq_true. }
    pose proof (Hk (Owned a) (fun _ _ => eq_refl) (Hkn (Owned a) eq_refl)) as H1.
    pose proof (Hk (Global a) (fun _ _ => eq_refl) (Hkn (Global a) eq_refl)) as H2.
    cbn in H1, H2. apply (inj (fmap inl)) in H1. by apply (inj (fmap inr)) in H2.
  - by apply ledger_intact_iff.
Qed.
End ledger.

(** ** And for a ledger dropping consumed cells: no two different operations may consume the
    same cell. *)
Section spending.
Context (P : SealProtocol) (S : Sonic) (E : Type).
Notation A := (spending_ledger P S).
Notation peek := (ledger_peek P S).
Notation accepts c0 bs c t := (evaluate A (E:=E) c0 bs None = (c, t, Some (Ok tt))).
Hypothesis Hlocal : sonic_local S.
Hypothesis Hneeds : sonic_needs S.

Definition no_double_spend (l : list Operation) : Prop :=
  forall op op' a, op ∈ l -> op' ∈ l ->
    a ∈ input_addr <$> op_destructible_in op -> a ∈ input_addr <$> op_destructible_in op' -> op = op'.

Lemma no_double_spend_conflict l : no_double_spend l -> no_conflict inputs_gone l.
Proof.
  intros H op op' [a|a] Hop Hop' Hg Hr; [|done]. apply bool_decide_eq_true in Hg.
  apply (H op op' a); [done..|]. apply elem_of_app in Hr as [Hr|Hr].
  - apply elem_of_list_fmap in Hr as (x & Hx & Hr). injection Hx as ->. done.
  - apply elem_of_list_fmap in Hr as (x & Hx & _). done.
Qed.

Corollary C47_any_order_spending (c : TestContract P S) (L : list (list (OperationSeals P))) :
  ledger_intact P S c ->
  (forall bs, bs ∈ L -> exists c1 t, accepts c bs c1 t) ->
  let ops := operation <$> all_entries (tc_contract_id _ _ c) L in
  ids_apart (U:=sonic S) ops ops -> no_double_spend ops ->
  forall L1 L2, Permutation L L1 -> Permutation L L2 ->
  exists c1 c2, evaluates_all A E c L1 c1 /\ evaluates_all A E c L2 c2 /\
    tc_owned _ _ c1 = tc_owned _ _ c2 /\ tc_global _ _ c1 = tc_global _ _ c2 /\
    dom (tc_known_ops _ _ c1) =@{gset Opid} dom (tc_known_ops _ _ c2).
Proof.
  intros Hint Hall ops Hapart Hnd L1 L2 HL1 HL2.
  destruct (C47_any_order A (E:=E) peek outputs inputs_gone c L (spending_keeps_cells P S Hlocal Hneeds)
    (spending_remembers P S) (sonic_faithful S) (spending_needs_inputs P S Hneeds)
    (proj1 (ledger_intact_iff P S c) Hint) Hall Hapart (no_double_spend_conflict _ Hnd) L1 L2 HL1 HL2)
    as (c1 & c2 & E1 & E2 & (_ & Hk & Hp) & _).
  exists c1, c2. split; [done|]. split; [done|]. split; [|split].
  - apply map_eq. intros a. specialize (Hp (Owned a)). cbn in Hp. by apply (inj (fmap inl)) in Hp.
  - apply map_eq. intros a. specialize (Hp (Global a)). cbn in Hp. by apply (inj (fmap inr)) in Hp.
  - apply set_eq. intros o. rewrite !elem_of_dom. specialize (Hk o). cbn in Hk.
    revert Hk. repeat case_bool_decide; naive_solver.
Qed.

Corollary C48_consensus_spending (c0 : TestContract P S) l c l' c' bs (fin : option E) d t r :
  ledger_intact P S c0 ->
  session A E c0 l c -> session A E c0 l' c' ->
  let ops := applied_operations l ++ applied_operations l' ++
             (operation <$> history (tc_contract_id _ _ c0) bs) in
  ids_apart (U:=sonic S) ops ops -> no_double_spend ops ->
  self_contained A c0 (history (tc_contract_id _ _ c0) bs) ->
  evaluate A c bs fin = (d, t, Some r) ->
  exists d' t', evaluate A c' bs fin = (d', t', Some r).
Proof.
  intros Hint Hs Hs' ops Hap Hnd Hself Hev.
  destruct (C48_consensus A peek outputs inputs_gone c0 l c l' c' bs fin d t r
    (spending_keeps_cells P S Hlocal Hneeds)
    (spending_remembers P S) (sonic_faithful S) (spending_needs_inputs P S Hneeds)
    (proj1 (ledger_intact_iff P S c0) Hint) Hs Hs' Hap (no_double_spend_conflict _ Hnd) Hself Hev)
    as (d' & t' & H & _).
  by exists d', t'.
Qed.

(** The owned cells after a session: the unspent outputs. *)
Corollary C49_cells_are_outputs_spending (c0 : TestContract P S) l c :
  ledger_intact P S c0 -> session A E c0 l c ->
  let ops := applied_operations (P:=P) (U:=sonic S) l in
  forall a x, tc_owned _ _ c !! a = Some x <->
    (forall op, op ∈ ops -> a ∉ input_addr <$> op_destructible_in op) /\
    ((is_Some (tc_known_ops _ _ c0 !! cell_opid a) /\ tc_owned _ _ c0 !! a = Some x) \/
     exists op, op ∈ ops /\ cell_opid a = sonic_opid S op /\
       op_destructible_out op !! N.to_nat (cell_pos a) = Some x).
Proof.
  intros Hint Hs ops a x.
  destruct (C49_cells_are_outputs A peek outputs inputs_gone c0 l c (spending_keeps_cells P S Hlocal Hneeds)
    (spending_remembers P S) (sonic_faithful S) (proj1 (ledger_intact_iff P S c0) Hint) Hs)
    as (H1 & H2 & H3 & H4 & H5).
  change (applied_operations l) with ops in H1, H2, H3, H4, H5.
  assert (forall c d : TestContract P S, peek c (Owned a) = peek d (Owned a) -> tc_owned _ _ c !! a = tc_owned _ _ d !! a) as Hp.
  { intros e d Hed. cbn in Hed. by apply (inj (fmap inl)) in Hed. }
  assert ((forall op, op ∈ ops -> a ∉ input_addr <$> op_destructible_in op) <->
    (forall op, op ∈ ops -> inputs_gone op (Owned a) = false)) as Hiff.
  { split; intros H op Hop; specialize (H op Hop).
    - exact (bool_decide_eq_false_2 _ H).
    - exact (bool_decide_eq_false_1 _ H). }
  rewrite Hiff. split.
  - intros Hx. assert (forall op, op ∈ ops -> inputs_gone op (Owned a) = false) as Hno.
    { intros op Hop. apply not_true_iff_false. intros Hg. specialize (H1 op (Owned a) Hop Hg). cbn in H1.
      by rewrite Hx in H1. }
    split; [done|]. destruct (H4 (Owned a) (inl x)) as [Hk|(op & Hop & Hid)].
    + cbn. by rewrite Hx.
    + left. split; [cbn in Hk; by apply bool_decide_eq_true in Hk|].
      rewrite <-Hx. symmetry. apply Hp. by apply H2.
    + right. exists op. split; [done|]. split; [done|].
      specialize (H3 op (Owned a) Hno Hop Hid). cbn in H3. rewrite Hx in H3. cbn in H3.
      by destruct (op_destructible_out op !! _); simplify_eq/=.
  - intros [Hno [[Hk Hx]|(op & Hop & Hid & Hx)]].
    + rewrite <-Hx. apply Hp. apply H2; [done|]. cbn. by apply bool_decide_eq_true.
    + specialize (H3 op (Owned a) Hno Hop Hid). cbn in H3. rewrite Hx in H3. cbn in H3.
      by destruct (tc_owned P S c !! a); simplify_eq/=.
Qed.
End spending.

(** ** Concrete cases *)
Lemma missing_ext {X} (get get' : CellAddr -> option X) l :
  (forall a, a ∈ l -> get a = get' a) -> missing get l = missing get' l.
Proof.
  induction l as [|a l IH]; [done|]. intros H. cbn.
  rewrite (H a) by left. rewrite IH; [done|]. intros x Hx. apply H. by right.
Qed.
Lemma missing_None {X} (get : CellAddr -> option X) l :
  missing get l = None -> forall a, a ∈ l -> is_Some (get a).
Proof.
  induction l as [|a l IH]; cbn.
  - intros _ a Ha. by apply elem_of_nil in Ha.
  - destruct (get a) eqn:Hg; [|done]. intros H y [->|Hy]%elem_of_cons; [by rewrite Hg|by apply IH].
Qed.

Lemma toy_local : sonic_local toy_sonic.
Proof.
  intros k cid op owned owned' global global' libs Ho Hg. cbn.
  by rewrite (missing_ext _ _ _ Ho), (missing_ext _ _ _ Hg).
Qed.
Lemma toy_needs : sonic_needs toy_sonic.
Proof.
  intros k cid op owned global libs. cbn. repeat case_decide; try done.
  destruct (missing owned _) eqn:Ho; [done|]. destruct (missing global _) eqn:Hg; [done|]. intros _.
  split; by apply missing_None.
Qed.
Lemma toy_intact op : ledger_intact TP toy_sonic (toy_contract op).
Proof.
  split; intros a Ha; unfold toy_contract in *; cbn [tc_owned tc_global tc_known_ops] in *.
  - rewrite insert_outputs_zero in Ha. destruct (decide (cell_opid a = toy_opid op)) as [->|].
    + exists op. apply lookup_singleton.
    + rewrite lookup_empty in Ha. by destruct Ha.
  - rewrite lookup_empty in Ha. by destruct Ha.
Qed.
Lemma toy_apart l : ids_apart (U:=TU) l l.
Proof. intros op op' _ _. apply toy_opid_inj. Qed.

Definition toy_keeps_cells := ledger_keeps_cells TP toy_sonic toy_local.
Definition toy_needs_inputs := ledger_needs_inputs TP toy_sonic toy_needs.
Definition ledger_cells_intact : intact toy_api (ledger_peek TP toy_sonic) ledger :=
  proj1 (ledger_intact_iff TP toy_sonic ledger) (toy_intact op_g).

(** Two branches: operation 1 (cell of A) continued by operation 4, and operation 3 (cell of B)
    continued by operation 5. *)
Definition op_4 : Operation := toy_op toy_cid 51 [MkCellAddr id_1 0] [def_b].
Definition id_4 : Opid := toy_opid op_4.
Definition entry_4 : ToyBlock :=
  block op_4 [(0%N, def_b)] (Some (wit (tx_of 51 (MkOutpoint (MkTxid [1%N]) 0) id_4))).
Definition op_5 : Operation := toy_op toy_cid 52 [MkCellAddr id_3 0] [def_c].
Definition id_5 : Opid := toy_opid op_5.
Definition entry_5 : ToyBlock := block op_5 [(0%N, def_c)] (Some (wit (tx_of 52 out_d id_5))).
Definition branches : list ToyBlock := [entry_g; entry_1; entry_3; entry_4; entry_5].
Example branches_accepted :
  toy_accepts ledger branches (toy_after ledger branches) (toy_log ledger branches).
Proof. apply toy_evaluate. vm_refl. Qed.

(** Operation 4 is dropped, operations 3 and 5 come before operation 1. *)
Lemma branches_ids : NoDup (id_of (U:=TU) <$> history toy_cid branches).
Proof.
  assert (id_of (U:=TU) <$> history toy_cid branches = [id_g; id_1; id_3; id_4; id_5]) as Hids by vm_refl.
  assert (NoDup [id_g; id_1; id_3; id_4; id_5]) as Hnd by (apply (bool_decide_unpack _); by vm_compute).
  exact (eq_ind_r (fun l => NoDup l) Hnd Hids).
Qed.
Lemma selected_nodup : NoDup [entry_3; entry_5; entry_1].
Proof.
  apply (NoDup_fmap_1 (id_of (U:=TU))).
  change (NoDup [id_3; id_5; id_1]). apply (bool_decide_unpack _). by vm_compute.
Qed.
Lemma selected_sub : [entry_3; entry_5; entry_1] ⊆ [entry_1; entry_3; entry_4; entry_5].
Proof.
  intros b [->|[->|[->|[]%elem_of_nil]%elem_of_cons]%elem_of_cons]%elem_of_cons.
  - right. left.
  - right. right. right. left.
  - left.
Qed.
Lemma selected_order :
  let h := history toy_cid branches in
  let h' := history toy_cid [entry_g; entry_3; entry_5; entry_1] in
  forall (b e : ToyBlock) s, b ∈ [entry_3; entry_5; entry_1] -> e ∈ h -> s ∈ reads (operation b) ->
    slot_opid s = id_of (U:=TU) e -> precedes h e b <-> precedes h' e b.
Proof.
  intros h h'.
  assert (forall (e : ToyBlock), e ∈ h ->
    id_of (U:=TU) e = id_g /\ e = seen_g \/ id_of (U:=TU) e = id_1 /\ e = entry_1 \/
    id_of (U:=TU) e = id_3 /\ e = entry_3 \/ id_of (U:=TU) e = id_4 \/ id_of (U:=TU) e = id_5) as Hall.
  { intros e [->|[->|[->|[->|[->|[]%elem_of_nil]%elem_of_cons]%elem_of_cons]%elem_of_cons]%elem_of_cons]%elem_of_cons.
    - left. split; [vm_refl|reflexivity].
    - right; left. split; [vm_refl|reflexivity].
    - right; right; left. split; [vm_refl|reflexivity].
    - right; right; right; left. vm_refl.
    - right; right; right; right. vm_refl. }
  assert (id_g <> id_1 /\ id_g <> id_3 /\ id_g <> id_4 /\ id_g <> id_5 /\
          id_3 <> id_1 /\ id_3 <> id_4 /\ id_3 <> id_5) as (N1 & N2 & N3 & N4 & N5 & N6 & N7).
  { repeat split; apply (bool_decide_unpack _); by vm_compute. }
  intros b e s [->|[->|[->|[]%elem_of_nil]%elem_of_cons]%elem_of_cons]%elem_of_cons He Hs Hid;
    apply elem_of_list_singleton in Hs as ->; unfold slot_opid in Hid; cbn [slot_addr input_addr cell_opid] in Hid;
    destruct (Hall e He) as [[He1 ->]|[[He1 ->]|[[He1 ->]|[He1|He1]]]]; rewrite He1 in Hid; try congruence.
  - split; intros _; [exists 0, 1|exists 0, 2]; (split; [lia|split; reflexivity]).
  - split; intros _; [exists 1, 2|exists 2, 4]; (split; [lia|split; reflexivity]).
  - split; intros _; [exists 0, 3|exists 0, 1]; (split; [lia|split; reflexivity]).
Qed.

(** C45 *)
Example C45_case :
  exists c' t', toy_accepts ledger [entry_g; entry_3; entry_5; entry_1] c' t' /\
    calls_for id_5 t' = calls_for id_5 (toy_log ledger branches) /\
    length (calls_for id_5 (toy_log ledger branches)) = 3 /\
    is_known toy_api c' id_4 = false /\ is_known toy_api c' id_5 = true.
Proof.
  destruct (C45_selection toy_api (ledger_peek TP toy_sonic) outputs nothing_gone ledger entry_g
    [entry_1; entry_3; entry_4; entry_5] [entry_3; entry_5; entry_1] _ _ toy_keeps_cells
    (ledger_remembers _ _) (sonic_faithful _) ledger_cells_intact branches_accepted
    branches_ids selected_nodup selected_sub selected_order)
    as (c' & t' & H1 & H2 & H3 & _).
  exists c', t'. split; [exact H1|]. split.
  { pose proof (H2 entry_5) as H5. apply H5. right. right. left. }
  split; [vm_refl|].
  assert (is_known toy_api c' id_5 = true) as Hk5.
  { apply H3. right. exists entry_5. split; [right; left|vm_refl]. }
  split; [|exact Hk5].
  destruct (is_known toy_api c' id_4) eqn:Hk4; [|reflexivity].
  exfalso. apply H3 in Hk4 as [Hk4|(b & Hb & Hid)]; [by vm_compute in Hk4|].
  assert (id_3 <> id_4 /\ id_5 <> id_4 /\ id_1 <> id_4) as (N1 & N2 & N3).
  { repeat split; apply (bool_decide_unpack _); by vm_compute. }
  apply elem_of_cons in Hb as [->|[->|[->|[]%elem_of_nil]%elem_of_cons]%elem_of_cons].
  - exact (N1 Hid).
  - exact (N2 Hid).
  - exact (N3 Hid).
Qed.

(** One evaluation is a session. *)
Lemma toy_session c bs r :
  toy_run c bs = Some r -> session toy_api Empty_set c (toy_log c bs) (toy_after c bs).
Proof.
  intros H%toy_evaluate. pose proof (evaluate_log toy_api _ _ _ _ _ _ H) as Hc.
  rewrite Hc. rewrite <-(app_nil_r (toy_log c bs)) in H.
  exact (session_step toy_api Empty_set c [] c bs None _ _ _ _ (session_start _ _ _) H).
Qed.

(** A ledger which has seen the branch of operations 3 and 5 only. *)
Definition knowing_35 : ToyContract := toy_after ledger [entry_g; entry_3; entry_5].
Lemma session_35 : session toy_api Empty_set ledger (toy_log ledger [entry_g; entry_3; entry_5]) knowing_35.
Proof. apply (toy_session _ _ (Ok tt)). vm_refl. Qed.

(** C46: a consignment with operations 1 and 3 *)
Example C46_case :
  exists c' t', toy_accepts knowing_35 [entry_g; entry_1; entry_3] c' t' /\
    knows_more toy_api (ledger_peek TP toy_sonic) (toy_after ledger [entry_g; entry_1; entry_3]) c' /\
    is_known toy_api knowing_35 id_5 = true /\
    is_known toy_api (toy_after ledger [entry_g; entry_1; entry_3]) id_5 = false.
Proof.
  destruct (C46_after_session toy_api (E:=Empty_set) (ledger_peek TP toy_sonic) outputs nothing_gone ledger
    _ knowing_35 [entry_g; entry_1; entry_3] (toy_after ledger [entry_g; entry_1; entry_3])
    (toy_log ledger [entry_g; entry_1; entry_3]) toy_keeps_cells
    (ledger_remembers _ _) (sonic_faithful _) toy_needs_inputs ledger_cells_intact session_35
    (toy_apart _) (nothing_conflicts _)) as (c' & t' & H1 & H2 & _).
  - apply toy_evaluate. vm_refl.
  - exists c', t'. split; [exact H1|]. split; [exact H2|]. split; vm_refl.
Qed.

(** C47: both branches, and a consignment with parts of both *)
Example C47_case :
  let L1 := [[entry_g; entry_1; entry_4]; [entry_g; entry_3; entry_5]; [entry_g; entry_1; entry_3]] in
  let L2 := [[entry_g; entry_1; entry_3]; [entry_g; entry_3; entry_5]; [entry_g; entry_1; entry_4]] in
  exists c1 c2, evaluates_all toy_api Empty_set ledger L1 c1 /\ evaluates_all toy_api Empty_set ledger L2 c2 /\
    tc_owned _ _ c1 = tc_owned _ _ c2 /\ tc_global _ _ c1 = tc_global _ _ c2 /\
    dom (tc_known_ops _ _ c1) =@{gset Opid} dom (tc_known_ops _ _ c2).
Proof.
  intros L1 L2. apply (C47_any_order_ledger TP toy_sonic Empty_set toy_local toy_needs ledger L1).
  - apply toy_intact.
  - intros bs [->|[->|[->|[]%elem_of_nil]%elem_of_cons]%elem_of_cons]%elem_of_cons.
    + eexists _, _. apply toy_evaluate. vm_refl.
    + eexists _, _. apply toy_evaluate. vm_refl.
    + eexists _, _. apply toy_evaluate. vm_refl.
  - apply toy_apart.
  - reflexivity.
  - apply Permutation_rev.
Qed.

(** C48: one party has seen one branch, the other has crashed while evaluating the other one *)
Definition crash_14 : list (call TP TU) := take 12 (toy_log ledger [entry_g; entry_1; entry_4]).
Definition crashed_14 : ToyContract := apply_calls toy_api ledger crash_14.
Lemma session_14 : session toy_api Empty_set ledger crash_14 crashed_14.
Proof.
  apply (session_step toy_api Empty_set ledger [] ledger [entry_g; entry_1; entry_4] None
    (toy_after ledger [entry_g; entry_1; entry_4]) crash_14
    (drop 12 (toy_log ledger [entry_g; entry_1; entry_4])) (Ok tt) (session_start _ _ _)).
  unfold crash_14. rewrite take_drop. apply toy_evaluate. vm_refl.
Qed.
(** They differ in what they know. *)
Example parties_differ :
  is_known toy_api knowing_35 id_1 = false /\ is_known toy_api crashed_14 id_1 = true /\
  is_known toy_api knowing_35 id_3 = true /\ is_known toy_api crashed_14 id_3 = false.
Proof. repeat split; vm_refl. Qed.

(** A consignment with an operation of another contract: both report it. *)
Definition op_f : Operation := toy_op (MkContractId [9%N]) 60 [MkCellAddr id_1 0] [def_b].
Definition entry_f : ToyBlock :=
  block op_f [(0%N, def_b)] (Some (wit (tx_of 60 (MkOutpoint (MkTxid [1%N]) 0) (toy_opid op_f)))).

Lemma toy_self_contained (l : list ToyBlock) :
  (forallb (fun i => match history toy_cid l !! i with
     | Some b => forallb (fun s => is_known toy_api ledger (slot_opid s) ||
          existsb (fun k => match history toy_cid l !! k with
            | Some b' => bool_decide (id_of (U:=TU) b' = slot_opid s) | None => false end)
          (seq 1 (i - 1))) (reads (operation b))
     | None => true end) (seq 0 (length l)) = true) ->
  self_contained toy_api ledger (history toy_cid l).
Proof.
  intros H i b s Hi Hs. rewrite forallb_forall in H. specialize (H i). rewrite Hi in H.
  assert (i < length l) as Hlt.
  { apply lookup_lt_Some in Hi. revert Hi. by destruct l. }
  assert (List.In i (seq 0 (length l))) as Hin by (apply in_seq; lia).
  apply H in Hin. rewrite forallb_forall in Hin. apply elem_of_list_In in Hs.
  apply Hin in Hs. apply orb_true_iff in Hs as [Hs|Hs]; [by left|].
  apply existsb_exists in Hs as (k & Hk & Hb). right. apply in_seq in Hk.
  destruct (history toy_cid l !! k) as [b'|] eqn:Hk'; [|done].
  apply bool_decide_eq_true in Hb. exists k, b'. split; [lia|done].
Qed.

Example C48_case :
  (exists d' t', toy_accepts crashed_14 branches d' t') /\
  (exists d' t', evaluate toy_api (E:=Empty_set) crashed_14 [entry_g; entry_3; entry_1; entry_f] None =
     (d', t', Some (Err (Vm (WrongContract : CallError TU))))).
Proof.
  split.
  - apply (C48_consensus_ledger TP toy_sonic Empty_set toy_local toy_needs ledger _ knowing_35 _ crashed_14
      branches None (toy_after knowing_35 branches) (toy_log knowing_35 branches) (Ok tt)
      (toy_intact op_g) session_35 session_14 (toy_apart _)).
    + apply toy_self_contained. vm_refl.
    + apply toy_evaluate. vm_refl.
  - apply (C48_consensus_ledger TP toy_sonic Empty_set toy_local toy_needs ledger _ knowing_35 _ crashed_14
      [entry_g; entry_3; entry_1; entry_f] None
      (toy_after knowing_35 [entry_g; entry_3; entry_1; entry_f])
      (toy_log knowing_35 [entry_g; entry_3; entry_1; entry_f]) _
      (toy_intact op_g) session_35 session_14 (toy_apart _)).
    + apply toy_self_contained. vm_refl.
    + apply toy_evaluate. vm_refl.
Qed.

(** The premise on the origin of cells is needed: operation K names an immutable cell of
    operation J.  Delivered without J, it is accepted by who has seen J before, and rejected by
    others; [evaluate] has no check that all the operations needed are delivered. *)
Definition op_j : Operation := {|
  op_version := 0; op_contract_id := toy_cid; op_call_id := 0; op_nonce := 70; op_witness := [];
  op_destructible_in := []; op_immutable_in := []; op_destructible_out := [];
  op_immutable_out := [MkStateData [5%N] None] |}.
Definition id_j : Opid := toy_opid op_j.
Definition op_k : Operation := {|
  op_version := 0; op_contract_id := toy_cid; op_call_id := 0; op_nonce := 71; op_witness := [];
  op_destructible_in := []; op_immutable_in := [MkCellAddr id_j 0]; op_destructible_out := [];
  op_immutable_out := [] |}.
Definition entry_j : ToyBlock := block op_j [] None.
Definition entry_k : ToyBlock := block op_k [] None.
Definition knowing_j : ToyContract := toy_after ledger [entry_g; entry_j].

Example C48_self_contained_needed :
  session toy_api Empty_set ledger (toy_log ledger [entry_g; entry_j]) knowing_j /\
  (exists d t, toy_accepts knowing_j [entry_g; entry_k] d t) /\
  (exists d t, evaluate toy_api (E:=Empty_set) ledger [entry_g; entry_k] None =
     (d, t, Some (Err (Vm (NoImmutableInput (MkCellAddr id_j 0) : CallError TU))))) /\
  (exists d t, toy_accepts ledger [entry_g; entry_j; entry_k] d t).
Proof.
  split; [|split; [|split]].
  - apply (toy_session _ _ (Ok tt)). vm_refl.
  - eexists _, _. apply toy_evaluate. vm_refl.
  - eexists _, _. apply toy_evaluate. vm_refl.
  - eexists _, _. apply toy_evaluate. vm_refl.
Qed.

(** C49: after the crash the cells of operation 1 are its two outputs, those of the genesis are
    there, and operation 4 has left nothing *)
Example C49_case :
  tc_owned _ _ crashed_14 !! MkCellAddr id_1 1 = op_destructible_out op_1 !! 1 /\
  is_Some (op_destructible_out op_1 !! 1) /\
  tc_owned _ _ crashed_14 !! MkCellAddr id_g 0 = tc_owned _ _ ledger !! MkCellAddr id_g 0 /\
  is_Some (tc_owned _ _ ledger !! MkCellAddr id_g 0) /\
  tc_owned _ _ crashed_14 !! MkCellAddr id_4 0 = None.
Proof.
  destruct (C49_cells_are_outputs_ledger TP toy_sonic Empty_set toy_local ledger crash_14 crashed_14
    (toy_intact op_g) session_14) as (H1 & H2 & H3 & _).
  split; [|split; [|split; [|split]]].
  - apply (H1 op_1). assert (applied_operations crash_14 = [op_1]) as -> by vm_refl. left.
  - by eexists.
  - apply (H2 (MkCellAddr id_g 0)). exists op_g. vm_refl.
  - exists (MkStateCell [] (wtxo_auth_token toy_bp def_a) None). vm_refl.
  - apply eq_None_not_Some. intros Hs. apply H3 in Hs.
    assert (tc_known_ops _ _ crashed_14 !! id_4 = None) as Hn by vm_refl.
    assert (is_Some (None : option Operation)) as [? [=]]. rewrite <-Hn. exact Hs.
Qed.

(** ** The same consignments with a ledger dropping consumed cells *)
Definition spend_api : ContractApi TP TU := spending_ledger TP toy_sonic.
Definition spend_run (c : ToyContract) (bs : list ToyBlock)
  : option (result (VerificationError TP TU Empty_set) unit) := (evaluate spend_api c bs None).2.
Definition spend_after (c : ToyContract) (bs : list ToyBlock) : ToyContract :=
  (evaluate spend_api (E:=Empty_set) c bs None).1.1.
Definition spend_log (c : ToyContract) (bs : list ToyBlock) : list (call TP TU) :=
  (evaluate spend_api (E:=Empty_set) c bs None).1.2.
Lemma spend_evaluate c bs r :
  spend_run c bs = Some r ->
  evaluate spend_api (E:=Empty_set) c bs None = (spend_after c bs, spend_log c bs, Some r).
Proof.
  unfold spend_run, spend_after, spend_log. destruct (evaluate _ _ _ _) as [[c' t'] r']. cbn. by intros ->.
Qed.
Lemma spend_session c bs r :
  spend_run c bs = Some r -> session spend_api Empty_set c (spend_log c bs) (spend_after c bs).
Proof.
  intros H%spend_evaluate. pose proof (evaluate_log spend_api _ _ _ _ _ _ H) as Hc.
  rewrite Hc. rewrite <-(app_nil_r (spend_log c bs)) in H.
  exact (session_step spend_api Empty_set c [] c bs None _ _ _ _ (session_start _ _ _) H).
Qed.
Notation spend_accepts c bs c' t :=
  (evaluate spend_api (E:=Empty_set) c bs None = (c', t, Some (Ok tt))).
Definition spend_keeps_cells := spending_keeps_cells TP toy_sonic toy_local toy_needs.
Definition spend_needs_inputs := spending_needs_inputs TP toy_sonic toy_needs.
Definition spend_intact : intact spend_api (ledger_peek TP toy_sonic) ledger := ledger_cells_intact.

Lemma toy_no_double_spend (l : list Operation) :
  forallb (fun op => forallb (fun op' => bool_decide (toy_opid op = toy_opid op') ||
    forallb (fun a => bool_decide (a ∉ input_addr <$> op_destructible_in op'))
      (input_addr <$> op_destructible_in op)) l) l = true ->
  no_double_spend l.
Proof.
  intros H op op' a Hop Hop' Ha Ha'. rewrite forallb_forall in H.
  apply elem_of_list_In in Hop, Hop'. specialize (H op Hop). rewrite forallb_forall in H.
  specialize (H op' Hop'). apply orb_true_iff in H as [H|H].
  - apply bool_decide_eq_true in H. by apply toy_opid_inj.
  - rewrite forallb_forall in H. apply elem_of_list_In in Ha. specialize (H a Ha).
    by apply bool_decide_eq_true in H.
Qed.

(** C45: the cell of operation 1 consumed by operation 4 is left when operation 4 is dropped;
    the cell consumed by operation 5 is gone either way *)
Example C45_case_spending :
  exists c' t', spend_accepts ledger [entry_g; entry_3; entry_5; entry_1] c' t' /\
    tc_owned _ _ c' !! MkCellAddr id_3 0 = tc_owned _ _ (spend_after ledger branches) !! MkCellAddr id_3 0 /\
    tc_owned _ _ c' !! MkCellAddr id_5 0 = tc_owned _ _ (spend_after ledger branches) !! MkCellAddr id_5 0 /\
    tc_owned _ _ (spend_after ledger branches) !! MkCellAddr id_3 0 = None /\
    is_Some (tc_owned _ _ (spend_after ledger branches) !! MkCellAddr id_5 0) /\
    tc_owned _ _ (spend_after ledger branches) !! MkCellAddr id_1 0 = None /\
    is_Some (tc_owned _ _ (spend_after ledger [entry_g; entry_3; entry_5; entry_1]) !! MkCellAddr id_1 0).
Proof.
  assert (spend_accepts ledger branches (spend_after ledger branches) (spend_log ledger branches)) as Hacc.
  { apply spend_evaluate. vm_refl. }
  destruct (C45_selection spend_api (ledger_peek TP toy_sonic) outputs inputs_gone ledger entry_g
    [entry_1; entry_3; entry_4; entry_5] [entry_3; entry_5; entry_1] _ _ spend_keeps_cells
    (spending_remembers _ _) (sonic_faithful _) spend_intact Hacc
    branches_ids selected_nodup selected_sub selected_order)
    as (c' & t' & H1 & H2 & H3 & H4).
  assert (forall a, is_known spend_api c' (cell_opid a) = true -> a <> MkCellAddr id_1 0 ->
    tc_owned _ _ c' !! a = tc_owned _ _ (spend_after ledger branches) !! a) as Hcell.
  { intros a Hk Hne. specialize (H4 (Owned a) Hk).
    assert (ledger_peek TP toy_sonic c' (Owned a) = ledger_peek TP toy_sonic (spend_after ledger branches) (Owned a)) as Heq.
    { apply H4. intros b Hb Hnb _.
      apply elem_of_cons in Hb as [->|[->|[->|[->|[]%elem_of_nil]%elem_of_cons]%elem_of_cons]%elem_of_cons].
      - destruct Hnb. right. right. left.
      - destruct Hnb. left.
      - apply bool_decide_eq_false. intros Ha. apply Hne. by apply elem_of_list_singleton in Ha.
      - destruct Hnb. right. left. }
    cbn [ledger_peek] in Heq. by apply (inj (fmap inl)) in Heq. }
  exists c', t'. split; [exact H1|]. split; [|split; [|split; [|split; [|split]]]].
  - apply Hcell; [|apply (bool_decide_unpack _); by vm_compute].
    apply H3. right. exists entry_3. split; [left|vm_refl].
  - apply Hcell; [|apply (bool_decide_unpack _); by vm_compute].
    apply H3. right. exists entry_5. split; [right; left|vm_refl].
  - vm_refl.
  - exists (MkStateCell [] (wtxo_auth_token toy_bp def_c) None). vm_refl.
  - vm_refl.
  - exists (MkStateCell [] (wtxo_auth_token toy_bp def_w) None). vm_refl.
Qed.

(** C46: after operations 3 and 5, whose inputs are gone, a consignment with operations 1 and 3 *)
Definition spent_35 : ToyContract := spend_after ledger [entry_g; entry_3; entry_5].
Lemma spent_session_35 :
  session spend_api Empty_set ledger (spend_log ledger [entry_g; entry_3; entry_5]) spent_35.
Proof. apply (spend_session _ _ (Ok tt)). vm_refl. Qed.
Example C46_case_spending :
  (exists c' t', spend_accepts spent_35 [entry_g; entry_1; entry_3] c' t') /\
  tc_owned _ _ spent_35 !! MkCellAddr id_g 1 = None /\ tc_owned _ _ spent_35 !! MkCellAddr id_3 0 = None.
Proof.
  split.
  - destruct (C46_after_session spend_api (E:=Empty_set) (ledger_peek TP toy_sonic) outputs inputs_gone ledger
      _ spent_35 [entry_g; entry_1; entry_3] (spend_after ledger [entry_g; entry_1; entry_3])
      (spend_log ledger [entry_g; entry_1; entry_3]) spend_keeps_cells
      (spending_remembers _ _) (sonic_faithful _) spend_needs_inputs spend_intact spent_session_35
      (toy_apart _)) as (c' & t' & H1 & _).
    + apply no_double_spend_conflict, toy_no_double_spend. vm_refl.
    + apply spend_evaluate. vm_refl.
    + exists c', t'. exact H1.
  - split; vm_refl.
Qed.

Example C47_case_spending :
  let L1 := [[entry_g; entry_1; entry_4]; [entry_g; entry_3; entry_5]; [entry_g; entry_1; entry_3]] in
  let L2 := [[entry_g; entry_1; entry_3]; [entry_g; entry_3; entry_5]; [entry_g; entry_1; entry_4]] in
  exists c1 c2, evaluates_all spend_api Empty_set ledger L1 c1 /\ evaluates_all spend_api Empty_set ledger L2 c2 /\
    tc_owned _ _ c1 = tc_owned _ _ c2 /\ tc_global _ _ c1 = tc_global _ _ c2 /\
    dom (tc_known_ops _ _ c1) =@{gset Opid} dom (tc_known_ops _ _ c2).
Proof.
  intros L1 L2. apply (C47_any_order_spending TP toy_sonic Empty_set toy_local toy_needs ledger L1).
  - apply toy_intact.
  - intros bs [->|[->|[->|[]%elem_of_nil]%elem_of_cons]%elem_of_cons]%elem_of_cons.
    + eexists _, _. apply spend_evaluate. vm_refl.
    + eexists _, _. apply spend_evaluate. vm_refl.
    + eexists _, _. apply spend_evaluate. vm_refl.
  - apply toy_apart.
  - apply toy_no_double_spend. vm_refl.
  - reflexivity.
  - apply Permutation_rev.
Qed.

(** C48: one party has seen one branch, the other one the other branch *)
Definition spent_14 : ToyContract := spend_after ledger [entry_g; entry_1; entry_4].
Lemma spent_session_14 :
  session spend_api Empty_set ledger (spend_log ledger [entry_g; entry_1; entry_4]) spent_14.
Proof. apply (spend_session _ _ (Ok tt)). vm_refl. Qed.
Example C48_case_spending : exists d' t', spend_accepts spent_14 branches d' t'.
Proof.
  apply (C48_consensus_spending TP toy_sonic Empty_set toy_local toy_needs ledger _ spent_35 _ spent_14
    branches None (spend_after spent_35 branches) (spend_log spent_35 branches) (Ok tt)
    (toy_intact op_g) spent_session_35 spent_session_14 (toy_apart _)).
  - apply toy_no_double_spend. vm_refl.
  - apply toy_self_contained. vm_refl.
  - apply spend_evaluate. vm_refl.
Qed.

(** The premise on double spends is needed: operation V spends the same cell as operation 1.
    The ledger of the test-suite accepts it in any case. *)
Definition op_v : Operation := toy_op toy_cid 80 [MkCellAddr id_g 0] [def_d].
Definition id_v : Opid := toy_opid op_v.
Definition entry_v : ToyBlock := block op_v [(0%N, def_d)] (Some (wit (tx_of 80 out_a id_v))).
Example C48_no_conflict_needed :
  (exists d t, spend_accepts ledger [entry_g; entry_v] d t) /\
  (exists d t, evaluate spend_api (E:=Empty_set) spent_14 [entry_g; entry_v] None =
     (d, t, Some (Err (Vm (NoReadOnceInput (MkCellAddr id_g 0) : CallError TU))))) /\
  (exists d t, toy_accepts (toy_after ledger [entry_g; entry_1; entry_4]) [entry_g; entry_v] d t).
Proof.
  split; [|split].
  - eexists _, _. apply spend_evaluate. vm_refl.
  - eexists _, _. apply spend_evaluate. vm_refl.
  - eexists _, _. apply toy_evaluate. vm_refl.
Qed.

(** C49: the unspent outputs *)
Example C49_case_spending :
  tc_owned _ _ spent_14 !! MkCellAddr id_1 0 = None /\
  tc_owned _ _ spent_14 !! MkCellAddr id_1 1 = Some (MkStateCell [] (wtxo_auth_token toy_bp def_c) None) /\
  tc_owned _ _ spent_14 !! MkCellAddr id_g 0 = None /\
  tc_owned _ _ spent_14 !! MkCellAddr id_g 1 = Some (MkStateCell [] (wtxo_auth_token toy_bp def_b) None).
Proof.
  pose proof (C49_cells_are_outputs_spending TP toy_sonic Empty_set toy_local toy_needs ledger _ spent_14
    (toy_intact op_g) spent_session_14) as H.
  assert (applied_operations (P:=TP) (U:=TU) (spend_log ledger [entry_g; entry_1; entry_4]) = [op_1; op_4]) as Hops by vm_refl.
  cbv zeta in H. rewrite Hops in H. clear Hops. split; [|split; [|split]].
  - apply eq_None_not_Some. intros [x Hx]. apply H in Hx as [Hx _]. apply (Hx op_4); [right; left|]. left.
  - apply H. split.
    + intros op [->|[->|[]%elem_of_nil]%elem_of_cons]%elem_of_cons; apply (bool_decide_unpack _); by vm_compute.
    + right. exists op_1. split; [left|]. split; reflexivity.
  - apply eq_None_not_Some. intros [x Hx]. apply H in Hx as [Hx _]. apply (Hx op_1); [left|]. left.
  - apply H. split.
    + intros op [->|[->|[]%elem_of_nil]%elem_of_cons]%elem_of_cons; apply (bool_decide_unpack _); by vm_compute.
    + left. split; [exists op_g; vm_refl|vm_refl].
Qed.

Print Assumptions C45_selection.
Print Assumptions C46_knowing_more.
Print Assumptions C47_any_order.
Print Assumptions C48_consensus.
Print Assumptions C49_cells_are_outputs.
Print Assumptions C47_any_order_ledger.
Print Assumptions C48_consensus_ledger.
Print Assumptions C49_cells_are_outputs_ledger.
Print Assumptions C46_after_session.
Print Assumptions C47_any_order_spending.
Print Assumptions C48_consensus_spending.
Print Assumptions C49_cells_are_outputs_spending.
