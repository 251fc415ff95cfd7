(** * The reference ledger of the test-suite keeps cells

    [TestContract] (src/verify.rs:342-383) satisfies the laws of Cells.v. *)
From Verif Require Export Sharing TestLedger.

Section ledger_cells.
Context (P : SealProtocol) (S : Sonic).

(** What the ledger holds in a slot: `Memory::destructible` (src/verify.rs:353) and
    `Memory::immutable` (src/verify.rs:354). *)
Definition ledger_peek (c : Contract (test_ledger P S)) (s : Slot) : option (StateCell + StateValue) :=
  match s with
  | Owned a => inl <$> tc_owned _ _ c !! a
  | Global a => inr <$> tc_global _ _ c !! a
  end.

(** What an operation creates in a slot of its own: the output with this number
    (src/verify.rs:368-374). *)
Definition outputs (op : Operation) (s : Slot) : option (StateCell + StateValue) :=
  match s with
  | Owned a => inl <$> op_destructible_out op !! N.to_nat (cell_pos a)
  | Global a => inr <$> ((data_value <$> op_immutable_out op) !! N.to_nat (cell_pos a))
  end.

(** The dependency: verification of an operation asks memory only for the cells the
    operation names, and fails if one of them is missing. *)
Definition sonic_local : Prop := forall k cid op owned owned' global global' libs,
  (forall a, a ∈ input_addr <$> op_destructible_in op -> owned a = owned' a) ->
  (forall a, a ∈ op_immutable_in op -> global a = global' a) ->
  sonic_verify S k cid op owned global libs = sonic_verify S k cid op owned' global' libs.
Definition sonic_needs : Prop := forall k cid op owned global libs,
  sonic_verify S k cid op owned global libs = None ->
  (forall a, a ∈ input_addr <$> op_destructible_in op -> is_Some (owned a)) /\
  (forall a, a ∈ op_immutable_in op -> is_Some (global a)).

Lemma reads_owned op a : a ∈ input_addr <$> op_destructible_in op -> Owned a ∈ reads op.
Proof. intros H. apply elem_of_app. left. by apply elem_of_list_fmap_1. Qed.
Lemma reads_global op a : a ∈ op_immutable_in op -> Global a ∈ reads op.
Proof. intros H. apply elem_of_app. right. by apply elem_of_list_fmap_1. Qed.

(** This ledger destroys nothing. *)
Definition nothing_gone (op : Operation) (s : Slot) : bool := false.

Lemma ledger_keeps_cells : sonic_local -> keeps_cells (test_ledger P S) ledger_peek outputs nothing_gone.
Proof.
  intros Hloc. split; try done.
  - intros c v s Hempty. cbn in Hempty |- *. destruct s as [a|a]; cbn.
    + rewrite insert_outputs_zero. unfold slot_opid; cbn. destruct (decide _) as [Ha|]; [|done].
      pose proof (Hempty (Owned a) Ha) as He. cbn in He. apply fmap_None in He. rewrite He.
      by destruct (op_destructible_out v !! _).
    + rewrite insert_outputs_zero. unfold slot_opid; cbn. destruct (decide _) as [Ha|]; [|done].
      pose proof (Hempty (Global a) Ha) as He. cbn in He. apply fmap_None in He. rewrite He.
      rewrite list_lookup_fmap. by destruct (op_immutable_out v !! _).
  - intros c c' cid op Hk Hr Hs. cbn in Hk, Hr |- *. rewrite Hk, Hr.
    rewrite (Hloc _ _ _ _ (fun a => tc_owned _ _ c' !! a) _ (fun a => tc_global _ _ c' !! a)); [done| |].
    + intros a Ha. specialize (Hs _ (reads_owned _ _ Ha)). cbn in Hs.
      by apply (inj (fmap inl)) in Hs.
    + intros a Ha. specialize (Hs _ (reads_global _ _ Ha)). cbn in Hs.
      by apply (inj (fmap inr)) in Hs.
Qed.

Lemma ledger_needs_inputs : sonic_needs -> needs_inputs (test_ledger P S) ledger_peek.
Proof.
  intros Hn c cid op v. cbn. destruct (sonic_verify S _ _ _ _ _ _) eqn:Hv; [done|]. intros _ s.
  apply Hn in Hv as [Ho Hg]. intros [Hs|Hs]%elem_of_app; apply elem_of_list_fmap in Hs as (a & -> & Ha).
  - cbn. apply fmap_is_Some. by apply Ho.
  - cbn. apply fmap_is_Some. by apply Hg.
Qed.

(** Only cells of known operations are stored. *)
Definition ledger_intact (c : TestContract P S) : Prop :=
  (forall a, is_Some (tc_owned _ _ c !! a) -> is_Some (tc_known_ops _ _ c !! cell_opid a)) /\
  (forall a, is_Some (tc_global _ _ c !! a) -> is_Some (tc_known_ops _ _ c !! cell_opid a)).

Lemma ledger_intact_iff c : ledger_intact c <-> intact (test_ledger P S) ledger_peek c.
Proof.
  split.
  - intros [Ho Hg] s. cbn. rewrite bool_decide_eq_false. intros Hn. apply eq_None_not_Some. intros Hs.
    apply Hn. destruct s as [a|a]; cbn in Hs; apply fmap_is_Some in Hs; [by apply Ho|by apply Hg].
  - intros Hint. split; intros a Ha; apply dec_stable; intros Hn.
    + assert (ledger_peek c (Owned a) = None) as He; [|cbn in He; apply fmap_None in He; rewrite He in Ha; by destruct Ha].
      apply Hint. cbn. by rewrite bool_decide_eq_false.
    + assert (ledger_peek c (Global a) = None) as He; [|cbn in He; apply fmap_None in He; rewrite He in Ha; by destruct Ha].
      apply Hint. cbn. by rewrite bool_decide_eq_false.
Qed.

(** ** A ledger dropping the cells that operations consume

    This is the kind of contract that the comment at src/verify.rs:204-205 speaks of (the
    inputs of a validated operation "are not a part of the state anymore"); /repo has no such
    contract.  It is the ledger of the test-suite, except that applying an operation removes
    the cells it consumes. *)
Definition tc_spend (c : TestContract P S) (op : Operation) : TestContract P S :=
  {| tc_codex := tc_codex _ _ c;
     tc_contract_id := tc_contract_id _ _ c;
     tc_libs := tc_libs _ _ c;
     tc_global := tc_global _ _ c;
     tc_owned := foldr delete (tc_owned _ _ c) (input_addr <$> op_destructible_in op);
     tc_known_ops := tc_known_ops _ _ c;
     tc_seal_definitions := tc_seal_definitions _ _ c;
     tc_witnesses := tc_witnesses _ _ c |}.

Definition spending_ledger : ContractApi P (sonic S) := {|
  Contract := TestContract P S;
  contract_id := tc_contract_id P S;
  codex := codex (test_ledger P S);
  repo := repo (test_ledger P S);
  memory := memory (test_ledger P S);
  is_known := is_known (test_ledger P S);
  apply_operation := (fun c v => tc_apply_operation P S (tc_spend c v) v)
    : TestContract P S -> VerifiedOperation (sonic S) -> TestContract P S;
  apply_seals := apply_seals (test_ledger P S);
  apply_witness := apply_witness (test_ledger P S)
|}.

(** The cells an operation consumes. *)
Definition inputs_gone (op : Operation) (s : Slot) : bool :=
  match s with
  | Owned a => bool_decide (a ∈ input_addr <$> op_destructible_in op)
  | Global _ => false
  end.

Lemma lookup_delete_all {X} (l : list CellAddr) (m : gmap CellAddr X) a :
  foldr delete m l !! a = if decide (a ∈ l) then None else m !! a.
Proof.
  induction l as [|x l IH]; cbn.
  { rewrite decide_False; [done|]. apply not_elem_of_nil. }
  destruct (decide (x = a)) as [->|Hne].
  - rewrite lookup_delete, decide_True; [done|]. left.
  - rewrite lookup_delete_ne, IH by done. apply decide_ext. rewrite elem_of_cons. naive_solver.
Qed.

Lemma spending_remembers : remembers spending_ledger.
Proof.
  split; [|done]. intros c v o. exact (proj1 (ledger_remembers P S) (tc_spend c v) v o).
Qed.

Lemma spending_needs_inputs : sonic_needs -> needs_inputs spending_ledger ledger_peek.
Proof. intros Hn c cid op v. exact (ledger_needs_inputs Hn c cid op v). Qed.

Lemma spending_keeps_cells :
  sonic_local -> sonic_needs -> keeps_cells spending_ledger ledger_peek outputs inputs_gone.
Proof.
  intros Hloc Hneeds. split; try done.
  - intros c v s Hempty.
    change (apply_operation spending_ledger c v) with (tc_apply_operation P S (tc_spend c v) v).
    pose proof (cells_operation _ _ _ _ (ledger_keeps_cells Hloc) (tc_spend c v) v s) as H.
    cbn [into_operation opid_of sonic] in *.
    change (apply_operation (test_ledger P S) ?d v) with (tc_apply_operation P S d v) in H. rewrite H.
    + destruct (decide (slot_opid s = sonic_opid S v)) as [|Hne]; [done|]. cbn.
      destruct s as [a|a]; cbn; [|done]. rewrite lookup_delete_all.
      destruct (decide (a ∈ _)) as [Ha|Ha]; [by rewrite bool_decide_true|by rewrite bool_decide_false].
    + intros s' Hs'. specialize (Hempty s' Hs'). destruct s' as [a|a]; cbn in *; [|done].
      rewrite lookup_delete_all. destruct (decide (a ∈ _)); [reflexivity|exact Hempty].
  - intros op [a|a] Hg; [|done]. apply bool_decide_eq_true in Hg. by exists a.
  - intros c cid op v [a|a] Hv Hg; [|done]. apply bool_decide_eq_true in Hg.
    apply (spending_needs_inputs Hneeds _ _ _ _ Hv). by apply reads_owned.
  - intros c c' cid op Hk Hr Hs. by apply (cells_local _ _ _ _ (ledger_keeps_cells Hloc) c c').
Qed.
End ledger_cells.
