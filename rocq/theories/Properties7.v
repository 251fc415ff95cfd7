(** * Property C53: consensus on a chain *)
From Verif Require Import Consensus LedgerCells BitcoinChain Derived Scenario Counterexamples
  Properties2 Properties3 Properties5 Properties6.
Notation block := Verif.Concrete.block.

Section properties.
Context {P : SealProtocol} {U : Ultrasonic} (A : ContractApi P U) {E X : Type}.
Context (peek : Contract A -> Slot -> option X) (out : Operation -> Slot -> option X).
Context (gone : Operation -> Slot -> bool).

Notation accepts c0 bs c t := (evaluate A (E:=E) c0 bs None = (c, t, Some (Ok tt))).
Notation id_of := (id_of (U:=U)).
Notation without_applied t := (List.filter (fun e => negb (is_apply e)) (mutations t)).
Notation on_one_chain := (on_one_chain (U:=U)).

(** ** C53 Consensus on a chain

    Two parties start from the same contract and evaluate the consignments [L] and [L'], with
    failures and crashes on the way.  Seals are single-use, witnesses are on chain, ids and
    tokens do not collide, definitions are reported at their positions, operations without
    inputs define complete seals or come without a witness ([on_one_chain]).  Then both accept the same consignments
    among those which bring the operations they need, and make the same records; of the ones
    they reject they accept the same entries before the failing one.  There is no premise
    about conflicts: though the contract drops what is consumed, no operation that was
    applied by one of them can conflict with an operation accepted by the other. *)
Theorem C53_chain_consensus (on_chain : SealWitness P -> Prop) (c0 : Contract A) L l c L' l' c' bs :
  keeps_cells A peek out gone -> remembers A -> faithful U -> needs_inputs A peek -> intact A peek c0 ->
  session_of A E c0 L l c -> session_of A E c0 L' l' c' ->
  on_one_chain on_chain (all_entries (contract_id A c0) (L ++ L' ++ [bs])) ->
  self_contained A c0 (history (contract_id A c0) bs) ->
  (forall d t, accepts c bs d t ->
     exists d' t', accepts c' bs d' t' /\ without_applied t' = without_applied t) /\
  (forall pre, pre `prefix_of` bs ->
     (exists d t, accepts c pre d t) <-> (exists d' t', accepts c' pre d' t')).
Proof.
  intros H1 H2 H3 H4 Hint Hs Hs' Hch Hself. split.
  - intros d t. by eapply (chain_consensus A peek out gone H1 H2 H3 H4 on_chain c0 L l c L' l' c' bs d t).
  - by eapply (chain_consensus_iff A peek out gone H1 H2 H3 H4 on_chain c0 L l c L' l' c' bs).
Qed.

(** The operations applied by both parties never consume the same cell, unless they are the
    same. *)
Theorem C53_no_conflicts (on_chain : SealWitness P -> Prop) (c0 : Contract A) L l c L' l' c' op op' a :
  keeps_cells A peek out gone -> remembers A -> faithful U -> intact A peek c0 ->
  session_of A E c0 L l c -> session_of A E c0 L' l' c' ->
  on_one_chain on_chain (all_entries (contract_id A c0) (L ++ L')) ->
  op ∈ applied_operations l -> op' ∈ applied_operations l' ->
  a ∈ input_addr <$> op_destructible_in op -> a ∈ input_addr <$> op_destructible_in op' -> op = op'.
Proof.
  intros H1 H2 H3 Hint Hs Hs' Hch Hop Hop'.
  apply (accepted_no_double_spend A (E:=E) on_chain (contract_id A c0) (L ++ L')); [done| |].
  - eapply accepted_in_sub; [|exact (session_accepted_in A peek out gone H1 H2 H3 c0 L l c op Hint Hs Hop)].
    intros x Hx. apply elem_of_app. by left.
  - eapply accepted_in_sub; [|exact (session_accepted_in A peek out gone H1 H2 H3 c0 L' l' c' op' Hint Hs' Hop')].
    intros x Hx. apply elem_of_app. by right.
Qed.

(** C47 on a chain: consignments each of which is accepted can be evaluated in any order. *)
Theorem C53_any_order (on_chain : SealWitness P -> Prop) (c : Contract A) (L : list (list (OperationSeals P))) :
  keeps_cells A peek out gone -> remembers A -> faithful U -> needs_inputs A peek -> intact A peek c ->
  (forall bs, bs ∈ L -> exists c1 t, accepts c bs c1 t) ->
  on_one_chain on_chain (all_entries (contract_id A c) L) ->
  forall L1 L2, Permutation L L1 -> Permutation L L2 ->
  exists c1 c2, evaluates_all A E c L1 c1 /\ evaluates_all A E c L2 c2 /\ same_state A peek c1 c2 /\
    forall o, is_known A c1 o = true <-> is_known A c o = true \/
      exists bs b, bs ∈ L /\ b ∈ tail (history (contract_id A c) bs) /\ id_of b = o.
Proof. intros H1 H2 H3 H4. by apply (chain_any_order A peek out gone H1 H2 H3 H4). Qed.

(** The list of consignments is only kept for the premise. *)
Corollary C53_sessions (c0 : Contract A) l c :
  session A E c0 l c <-> exists L, session_of A E c0 L l c.
Proof.
  split; [apply session_session_of|]. intros [L H]. by eapply session_of_session.
Qed.
End properties.

(** ** For the ledger which drops consumed cells, with bitcoin seals: only facts about
    the chain, the ids and the reported definitions remain. *)
Corollary C53_bitcoin (B : BpCore) (spends : Tx B -> nat -> Outpoint -> Prop)
    (commits : Tx B -> nat -> MmbMessage B -> Prop) (on_chain : Tx B -> Prop)
    (S : Sonic) (E : Type) (c0 : TestContract (bitcoin B) S) L l c L' l' c' bs :
  let A := spending_ledger (bitcoin B) S in
  let h := all_entries (tc_contract_id _ _ c0) (L ++ L' ++ [bs]) in
  sonic_local S -> sonic_needs S -> ledger_intact _ S c0 ->
  session_of A E c0 L l c -> session_of A E c0 L' l' c' ->
  closing_spends B spends commits -> one_message B commits -> spent_once B spends on_chain ->
  messages_differ (bitcoin B) ->
  anchored (bitcoin B) (mined B on_chain) h -> no_collisions (U:=sonic S) h h ->
  Forall positions_bound h -> all_settled h ->
  self_contained A c0 (history (tc_contract_id _ _ c0) bs) ->
  (exists d t, evaluate A (E:=E) c bs None = (d, t, Some (Ok tt))) <->
  (exists d' t', evaluate A (E:=E) c' bs None = (d', t', Some (Ok tt))).
Proof.
  intros A h Hlocal Hneeds Hint Hs Hs' Hcl Hone Hso Hmsg Han Hcol Hpos Hroots Hself.
  apply (C53_chain_consensus A (E:=E) (ledger_peek _ S) outputs inputs_gone (mined B on_chain) c0 L l c L' l' c' bs); try done.
  - by apply spending_keeps_cells.
  - apply spending_remembers.
  - apply sonic_faithful.
  - by apply spending_needs_inputs.
  - by apply ledger_intact_iff.
  - split; try done; intros s _; [by eapply bitcoin_single_use|by eapply bitcoin_closed_by_one].
Qed.

(** *** Concrete cases *)
Lemma spend_session_of L l c bs r :
  session_of spend_api Empty_set ledger L l c -> spend_run c bs = Some r ->
  session_of spend_api Empty_set ledger (L ++ [bs]) (l ++ spend_log c bs) (spend_after c bs).
Proof.
  intros Hs H%spend_evaluate. pose proof (evaluate_log spend_api _ _ _ _ _ _ H) as Hc.
  rewrite Hc. rewrite <-(app_nil_r (spend_log c bs)) in H.
  exact (session_of_step spend_api Empty_set ledger L l c bs None _ _ _ _ Hs H).
Qed.

(** An attempt to spend the cell of A again, without a witness: the only transaction which
    closes the seal commits to operation 1. *)
Definition entry_vn : ToyBlock := block op_v [(0%N, def_d)] None.
Definition one_chain : list ToyTx := [tx_1; tx_3; tx_of 51 (MkOutpoint (MkTxid [1%N]) 0) id_4; tx_of 52 out_d id_5].
Definition sent_14 : list (list ToyBlock) := [[entry_g; entry_vn]; [entry_g; entry_1; entry_4]].
Definition sent_35 : list (list ToyBlock) := [[entry_g; entry_3; entry_5]].

Lemma one_chain_valid : toy_chain one_chain.
Proof. unfold toy_chain. apply (bool_decide_unpack _). by vm_compute. Qed.

Lemma toy_on_one_chain (h : list ToyBlock) :
  forallb (fun b => witness_in one_chain b && defs_in all_defs b && bound_b b && complete_b b) h = true ->
  on_one_chain (U:=TU) (toy_on_chain one_chain) h.
Proof.
  intros H. rewrite forallb_forall in H.
  destruct (toy_sound_world every_seal one_chain all_defs h h one_chain_valid ltac:(vm_refl)) as (H1 & H2 & H3 & H4 & _ & H5).
  { apply forallb_forall. intros b Hb. apply andb_true_iff.
    apply elem_of_list_In, elem_of_app in Hb.
    assert (In b h) as Hb' by (destruct Hb; by apply elem_of_list_In).
    specialize (H b Hb'). apply andb_true_iff in H as [[[? ?]%andb_true_iff ?]%andb_true_iff ?]. done. }
  split; try assumption.
  - intros s _. by apply H1.
  - intros s _. by apply H2.
  - apply toy_positions_bound, forallb_forall. intros b Hb. specialize (H b Hb).
    by apply andb_true_iff in H as [[_ ?]%andb_true_iff _].
  - apply toy_all_settled, forallb_forall. intros b Hb. specialize (H b Hb).
    by apply andb_true_iff in H as [_ ?].
Qed.

Definition state_14 : ToyContract := spend_after (spend_after ledger [entry_g; entry_vn]) [entry_g; entry_1; entry_4].
Definition log_14 : list (call TP TU) :=
  spend_log ledger [entry_g; entry_vn] ++ spend_log (spend_after ledger [entry_g; entry_vn]) [entry_g; entry_1; entry_4].
Lemma session_of_14 : session_of spend_api Empty_set ledger sent_14 log_14 state_14.
Proof.
  assert (spend_run ledger [entry_g; entry_vn] = Some (Err (NoWitness id_v))) as H1 by vm_refl.
  assert (spend_run (spend_after ledger [entry_g; entry_vn]) [entry_g; entry_1; entry_4] = Some (Ok tt))
    as H2 by vm_refl.
  pose proof (spend_session_of [] [] ledger _ _ (session_of_start _ _ _) H1) as S1.
  exact (spend_session_of _ _ _ _ _ S1 H2).
Qed.
Lemma session_of_35 :
  session_of spend_api Empty_set ledger sent_35 (spend_log ledger [entry_g; entry_3; entry_5]) spent_35.
Proof.
  assert (spend_run ledger [entry_g; entry_3; entry_5] = Some (Ok tt)) as H1 by vm_refl.
  exact (spend_session_of [] [] ledger _ _ (session_of_start _ _ _) H1).
Qed.

(** One party has rejected a double spend, and seen one branch; the other one has seen the
    other branch; they agree on the consignment with both, and on each part of it. *)
Example C53_case :
  (exists d t, spend_accepts state_14 branches d t) /\
  (exists d' t', spend_accepts spent_35 branches d' t') /\
  (forall pre, pre `prefix_of` branches ->
     (exists d t, spend_accepts state_14 pre d t) <-> (exists d' t', spend_accepts spent_35 pre d' t')).
Proof.
  destruct (C53_chain_consensus spend_api (E:=Empty_set) (ledger_peek TP toy_sonic) outputs inputs_gone
    (toy_on_chain one_chain) ledger sent_14 log_14 state_14 sent_35 _ spent_35 branches
    spend_keeps_cells (spending_remembers _ _) (sonic_faithful _) spend_needs_inputs spend_intact
    session_of_14 session_of_35) as [H1 H2].
  - apply toy_on_one_chain. vm_refl.
  - apply toy_self_contained. vm_refl.
  - assert (spend_run state_14 branches = Some (Ok tt)) as Hr by vm_refl.
    pose proof (spend_evaluate _ _ _ Hr) as Hacc. clear Hr.
    split; [eexists _, _; exact Hacc|]. split; [|exact H2].
    destruct (H1 _ _ Hacc) as (d' & t' & H & _). exists d', t'. exact H.
Qed.
(** What the first party was sent at first is rejected, by both. *)
Example C53_case_rejected :
  spend_run ledger [entry_g; entry_vn] = Some (Err (NoWitness id_v)) /\
  spend_run state_14 [entry_g; entry_vn] = Some (Err (Vm (NoReadOnceInput (MkCellAddr id_g 0) : CallError TU))) /\
  spend_run spent_35 [entry_g; entry_vn] = Some (Err (NoWitness id_v)).
Proof. split; [vm_refl|]. split; vm_refl. Qed.

(** The same from the facts about the chain. *)
Example C53_case_bitcoin :
  (exists d t, spend_accepts state_14 branches d t) <-> (exists d' t', spend_accepts spent_35 branches d' t').
Proof.
  assert (on_one_chain (U:=TU) (toy_on_chain one_chain) (all_entries toy_cid (sent_14 ++ sent_35 ++ [branches])))
    as [_ _ H3 H4 H5 H6 H7].
  { apply toy_on_one_chain. vm_refl. }
  exact (C53_bitcoin toy_bp toy_spends toy_commits (fun tx : ToyTx => tx ∈ one_chain) toy_sonic Empty_set ledger
    sent_14 log_14 state_14 sent_35 _ spent_35 branches toy_local toy_needs (toy_intact op_g)
    session_of_14 session_of_35 toy_closing_spends toy_one_message (toy_spent_once _ one_chain_valid)
    H3 H4 H5 H6 H7 (toy_self_contained branches ltac:(vm_refl))).
Qed.

(** Operations 1 and 4 applied by the first party, operations 3 and 5 by the second. *)
Example C53_case_no_conflicts : forall op op' a,
  op ∈ applied_operations (P:=TP) (U:=TU) log_14 ->
  op' ∈ applied_operations (P:=TP) (U:=TU) (spend_log ledger [entry_g; entry_3; entry_5]) ->
  a ∈ input_addr <$> op_destructible_in op -> a ∈ input_addr <$> op_destructible_in op' -> op = op'.
Proof.
  intros op op' a.
  apply (C53_no_conflicts spend_api (E:=Empty_set) (ledger_peek TP toy_sonic) outputs inputs_gone
    (toy_on_chain one_chain) ledger sent_14 log_14 state_14 sent_35 _ spent_35 op op' a
    spend_keeps_cells (spending_remembers _ _) (sonic_faithful _) spend_intact session_of_14 session_of_35).
  apply toy_on_one_chain. vm_refl.
Qed.

Example C53_case_any_order :
  let L := [[entry_g; entry_1; entry_4]; [entry_g; entry_3; entry_5]; [entry_g; entry_1; entry_3]] in
  exists c1 c2, evaluates_all spend_api Empty_set ledger L c1 /\
    evaluates_all spend_api Empty_set ledger (rev L) c2 /\ same_state spend_api (ledger_peek TP toy_sonic) c1 c2 /\
    is_known spend_api c1 id_5 = true.
Proof.
  intros L.
  destruct (C53_any_order spend_api (E:=Empty_set) (ledger_peek TP toy_sonic) outputs inputs_gone
    (toy_on_chain one_chain) ledger L spend_keeps_cells (spending_remembers _ _) (sonic_faithful _)
    spend_needs_inputs spend_intact) with (L1:=L) (L2:=rev L) as (c1 & c2 & H1 & H2 & H3 & H4).
  - intros bs [->|[->|[->|[]%elem_of_nil]%elem_of_cons]%elem_of_cons]%elem_of_cons;
      eexists _, _; apply spend_evaluate; vm_refl.
  - apply toy_on_one_chain. vm_refl.
  - reflexivity.
  - apply Permutation_rev.
  - exists c1, c2. split; [exact H1|]. split; [exact H2|]. split; [exact H3|]. apply H4. right.
    exists [entry_g; entry_3; entry_5], entry_5. split; [right; left|]. split; [right; left|vm_refl].
Qed.

(** The premise on the chain is needed: with a transaction that spends the same outpoint as
    [tx_1], the parties disagree ([C48_no_conflict_needed]). *)
Example C53_chain_needed :
  (exists d t, spend_accepts spent_35 [entry_g; entry_v] d t) /\
  spend_run state_14 [entry_g; entry_v] = Some (Err (Vm (NoReadOnceInput (MkCellAddr id_g 0) : CallError TU))) /\
  ~ toy_chain (tx_of 80 out_a id_v :: one_chain).
Proof.
  split; [eexists _, _; apply spend_evaluate; vm_refl|]. split; [vm_refl|].
  unfold toy_chain. apply (bool_decide_unpack _). by vm_compute.
Qed.

Print Assumptions C53_chain_consensus.
Print Assumptions C53_no_conflicts.
Print Assumptions C53_any_order.
Print Assumptions C53_sessions.
Print Assumptions C53_bitcoin.
