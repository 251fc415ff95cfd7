(** * Properties C50-C52: orders of the collections; bitcoin seals on a chain *)
From Verif Require Import Ordered BitcoinChain Derived Scenario Counterexamples Properties3.
From Coq Require Import Lia.
Notation block := Verif.Concrete.block.

(** ** C50 The verdict does not depend on how seals are ordered

    The procedure on sorted collections (Ordered.v) gives the same contract, calls, state of
    the reader and verdict, whatever the order of the seals is - it need not even be an order -
    and for every total order of addresses and of tokens. *)
Theorem C50_orders {P : SealProtocol} {U : Ultrasonic} (A : ContractApi P U) {E}
    (acmp : CellAddr -> CellAddr -> comparison) (scmp : Seal P -> Seal P -> comparison)
    (tcmp : AuthToken -> AuthToken -> comparison) :
  lawful_order acmp -> lawful_order tcmp ->
  forall (R : ReadOperation P E) fuel c r,
    evaluate_ordered A acmp scmp tcmp R fuel c r = evaluate_reader A R fuel c r.
Proof. intros Ha Ht R fuel c r. by apply evaluate_ordered_agrees. Qed.

(** In particular for the orders of the code. *)
Corollary C50_code_orders {P : SealProtocol} {U : Ultrasonic} (A : ContractApi P U) {E}
    (scmp : Seal P -> Seal P -> comparison) (R : ReadOperation P E) fuel c r :
  evaluate_ordered A addr_cmp scmp token_cmp R fuel c r = evaluate_reader A R fuel c r.
Proof. apply C50_orders; [apply addr_cmp_lawful|apply token_cmp_lawful]. Qed.

(** Two implementations that order everything differently agree. *)
Corollary C50_any_two_orders {P : SealProtocol} {U : Ultrasonic} (A : ContractApi P U) {E}
    acmp acmp' (scmp scmp' : Seal P -> Seal P -> comparison) tcmp tcmp' :
  lawful_order acmp -> lawful_order acmp' -> lawful_order tcmp -> lawful_order tcmp' ->
  forall (R : ReadOperation P E) fuel c r,
    evaluate_ordered A acmp scmp tcmp R fuel c r = evaluate_ordered A acmp' scmp' tcmp' R fuel c r.
Proof. intros H1 H2 H3 H4 R fuel c r. by rewrite !C50_orders. Qed.

(** *** Concrete cases *)
Definition ordered_verdict acmp scmp tcmp (bs : list ToyBlock)
    : option (result (VerificationError TP TU Empty_set) unit) :=
  (evaluate_ordered toy_api acmp scmp tcmp (script_reader (P:=TP)) (S (length bs)) ledger (bs, None)).2.

(** All seals compare equal; still the scenario, in which operations define and close several
    seals, is accepted, by computation. *)
Example C50_case : ordered_verdict addr_cmp (fun _ _ => Eq) token_cmp scenario = Some (Ok tt).
Proof. vm_refl. Qed.
(** The same with the opposite order of addresses. *)
Example C50_case_opposite :
  ordered_verdict (fun x y => addr_cmp y x) (fun _ _ => Gt) (fun x y => token_cmp y x) scenario = Some (Ok tt).
Proof. vm_refl. Qed.
(** Law of the order of addresses needed: with a comparison that never finds equal
    addresses, a revealed seal is not found. *)
Example C50_law_needed :
  ordered_verdict (fun _ _ => Gt) (fun _ _ => Eq) token_cmp scenario =
    Some (Err (SealUnknown (MkCellAddr id_g 0))).
Proof. vm_refl. Qed.
(** Law of the order of tokens needed. *)
Example C50_token_law_needed :
  match ordered_verdict addr_cmp (fun _ _ => Eq) (fun _ _ => Gt) scenario with
  | Some (Err (SealsDefinitionMismatch o _ _ _)) => o = id_g
  | _ => False
  end.
Proof. by vm_compute. Qed.

(** ** C51 Whoever consumes a cell spends the outpoint it was assigned to

    [closing_spends] is the law on `bp-core` (BitcoinChain.v).  The outpoint is that of the
    last entry before the consumption which assigns the cell; for a witness-relative
    definition it is an output of the transaction in that entry. *)
Section chain.
Context (B : BpCore) (spends : Tx B -> nat -> Outpoint -> Prop) (commits : Tx B -> nat -> MmbMessage B -> Prop).
Context {U : Ultrasonic} (A A' : ContractApi (bitcoin B) U) {E E' : Type}.
Notation accepted c0 bs c t := (evaluate A (E:=E) c0 bs None = (c, t, Some (Ok tt))).
Notation accepted' c0 bs c t := (evaluate A' (E:=E') c0 bs None = (c, t, Some (Ok tt))).
Notation id_of := (id_of (U:=U)).

Theorem C51_consumption_spends c0 bs c t i b a :
  closing_spends B spends commits -> accepted c0 bs c t ->
  let h := history (contract_id A c0) bs in
  h !! i = Some b -> consumes b a ->
  exists w n k bk o, witness b = Some w /\ spends (published w) n o /\
    commits (published w) n (message_of (U:=U) b) /\
    k < i /\ h !! k = Some bk /\ id_of bk = cell_opid a /\ assigns B bk (cell_pos a) o /\
    forall j bj, k < j -> j < i -> h !! j = Some bj ->
      ~ consumes bj a /\ (id_of bj = cell_opid a -> forall o', ~ assigns B bj (cell_pos a) o').
Proof. intros Hcl Hacc. exact (consumption_spends B spends commits A c0 bs c t i b a Hcl Hacc). Qed.

(** So on a chain a cell assigned to an output of a transaction is consumed by a later
    transaction. *)
Corollary C51_chain_order (on_chain : Tx B -> Prop) before c0 bs c t i b a :
  closing_spends B spends commits -> ordered_chain B spends on_chain before ->
  accepted c0 bs c t -> anchored (bitcoin B) (mined B on_chain) bs ->
  let h := history (contract_id A c0) bs in
  h !! i = Some b -> consumes b a ->
  exists w k bk d, witness b = Some w /\ k < i /\ h !! k = Some bk /\ id_of bk = cell_opid a /\
    defined_seals bk !! cell_pos a = Some d /\
    ((exists v, wseal_primary d = Wout v) ->
       exists wk, witness bk = Some wk /\ before (published wk) (published w)).
Proof.
  intros Hcl Hord Hacc Hch h Hi Ha.
  destruct (C51_consumption_spends c0 bs c t i b a Hcl Hacc Hi Ha)
    as (w & n & k & bk & o & Hw & Hn & _ & Hk & Hbk & Hid & (d & Hd & Ho) & _).
  exists w, k, bk, d. split; [done|]. split; [done|]. split; [done|]. split; [done|]. split; [done|].
  intros [v Hv]. destruct Ho as [Ho|(v' & wk & Ho & Hwk & ->)]; [congruence|].
  exists wk. split; [done|].
  pose proof (history_anchored (mined B on_chain) (contract_id A c0) _ Hch) as Hh.
  eapply (Hord (published wk) (published w) n).
  - exact (Hh bk wk (elem_of_list_lookup_2 _ _ _ Hbk) Hwk).
  - exact (Hh b w (elem_of_list_lookup_2 _ _ _ Hi) Hw).
  - exact Hn.
  - done.
Qed.

(** ** C52 One outpoint, one operation

    No outpoint is spent twice on the chain.  Then all cells ever consumed - in any two
    consignments, by any two verifiers - while assigned to the same outpoint are consumed by
    one operation, with one transaction.  The noise, or fallback, in the seals may differ.
    No premise on the reported definitions or on the genesis is needed. *)
Theorem C52_one_outpoint_one_operation (on_chain : Tx B -> Prop)
    c0 (c0' : Contract A') bs bs' c (c' : Contract A') t t' i i' b b' a a' s s' :
  closing_spends B spends commits -> one_message B commits -> spent_once B spends on_chain ->
  messages_differ (bitcoin B) ->
  accepted c0 bs c t -> accepted' c0' bs' c' t' ->
  anchored (bitcoin B) (mined B on_chain) bs -> anchored (bitcoin B) (mined B on_chain) bs' ->
  let h := history (contract_id A c0) bs in
  let h' := history (contract_id A' c0') bs' in
  h !! i = Some b -> consumes b a -> live (U:=U) (take i h) a s ->
  h' !! i' = Some b' -> consumes b' a' -> live (U:=U) (take i' h') a' s' ->
  seal_primary (s : TxoSeal) = seal_primary (s' : TxoSeal) ->
  id_of b = id_of b' /\
  exists w w', witness b = Some w /\ witness b' = Some w' /\ published w = published w'.
Proof. exact (one_outpoint_one_operation B spends commits A A' on_chain c0 c0' bs bs' c c' t t' i i' b b' a a' s s'). Qed.

(** C32 for bitcoin: the premises about seals are derived from the chain. *)
Corollary C52_no_double_spend (on_chain : Tx B -> Prop)
    c0 (c0' : Contract A') bs bs' c (c' : Contract A') t t' i i' b b' a :
  closing_spends B spends commits -> one_message B commits -> spent_once B spends on_chain ->
  messages_differ (bitcoin B) ->
  accepted c0 bs c t -> accepted' c0' bs' c' t' ->
  let h := history (contract_id A c0) bs in
  let h' := history (contract_id A' c0') bs' in
  anchored (bitcoin B) (mined B on_chain) h -> anchored (bitcoin B) (mined B on_chain) h' -> no_collisions (U:=U) h h' ->
  Forall positions_bound h -> Forall positions_bound h' -> Forall roots_settled h ->
  h !! i = Some b -> consumes b a -> h' !! i' = Some b' -> consumes b' a ->
  id_of b = id_of b' /\ operation b = operation b'.
Proof.
  intros Hcl Hone Hso Hmsg Hacc Hacc' h h' Hch Hch' Hcol.
  apply (C32_no_double_spend_partial A A' (mined B on_chain) c0 c0' bs bs' c c' t t' i i' b b' a Hacc Hacc').
  split; [intros s _; by eapply bitcoin_single_use|]. split; [intros s _; by eapply bitcoin_closed_by_one|]. done.
Qed.
End chain.

(** *** Concrete cases *)
Definition toy_spends (tx : Tx toy_bp) (i : nat) (o : Outpoint) : Prop := tx_inputs (tx : ToyTx) !! i = Some o.
Definition toy_commits (tx : Tx toy_bp) (i : nat) (m : MmbMessage toy_bp) : Prop :=
  tx_commitment (tx : ToyTx) !! N.of_nat i = Some (m : bytes).
Lemma toy_closing_spends : closing_spends toy_bp toy_spends toy_commits.
Proof. intros tx anchor seals m s Hv Hs. exact (toy_verify_inv tx anchor seals m s Hv Hs). Qed.
Lemma toy_one_message : one_message toy_bp toy_commits.
Proof. intros tx i m m' H H'. unfold toy_commits in *. rewrite H in H'. by injection H'. Qed.
Lemma toy_spent_once l : toy_chain l -> spent_once toy_bp toy_spends (fun tx : ToyTx => tx ∈ l).
Proof.
  intros Hl tx tx' i i' o Hx Hx' Hi Hi'. apply elem_of_list_lookup in Hx as [n Hn], Hx' as [n' Hn'].
  destruct (chain_input_unique l n n' i i' tx tx' o Hl Hn Hn' Hi Hi') as [<- ->].
  split; [|done]. rewrite Hn in Hn'. by injection Hn'.
Qed.

(** In the scenario, operation 2 consumes the cell 0 of operation 1, whose definition is
    relative to transaction 1. *)
Example C51_case :
  closing_spends toy_bp toy_spends toy_commits /\
  toy_accepts ledger scenario (toy_after ledger scenario) (toy_log ledger scenario) /\
  history (contract_id toy_api ledger) scenario !! 2 = Some entry_2 /\
  consumes entry_2 (MkCellAddr id_1 0) /\
  assigns toy_bp entry_1 0 (MkOutpoint (MkTxid [1%N]) 0) /\
  toy_spends tx_2 0 (MkOutpoint (MkTxid [1%N]) 0).
Proof.
  split; [exact toy_closing_spends|]. split; [exact scenario_accepted|]. split; [reflexivity|].
  split; [left|]. split; [|reflexivity].
  exists def_w. split; [vm_refl|]. right. exists 0%N, (wit tx_1). split; [reflexivity|]. split; reflexivity.
Qed.
(** The transaction that the entry comes with is before the one that consumes. *)
Example C51_case_order :
  ordered_chain toy_bp toy_spends (fun tx : ToyTx => tx ∈ chain) (fun tx tx' => (tx : ToyTx) = tx_1 /\ (tx' : ToyTx) = tx_2).
Proof.
  intros tx tx' i o Hx Hx' Hs Ho.
  apply elem_of_cons in Hx as [->|[->|[]%elem_of_nil]%elem_of_cons],
        Hx' as [->|[->|[]%elem_of_nil]%elem_of_cons]; unfold toy_spends in Hs; try done;
    destruct i as [|[|i]]; try discriminate; injection Hs as <-; try discriminate.
Qed.

(** Two cells assigned to one outpoint with different noise; they are consumed together. *)
Definition def_a2 : WTxoSeal := MkWTxoSeal (Extern out_a) (Noise [77%N]).
Definition op_2a : Operation := toy_op toy_cid 51 [] [def_a; def_a2].
Definition entry_2a : ToyBlock := block (as_genesis op_2a) [(0%N, def_a); (1%N, def_a2)] None.
Definition op_3a : Operation := toy_op toy_cid 52 [MkCellAddr (toy_opid op_2a) 0; MkCellAddr (toy_opid op_2a) 1] [].
Definition tx_3a : ToyTx := tx_of 53 out_a (toy_opid op_3a).
Definition entry_3a : ToyBlock := block op_3a [] (Some (wit tx_3a)).
Definition twins : list ToyBlock := [entry_2a; entry_3a].
Definition ledger_2a : ToyContract := toy_contract op_2a.
Example twins_accepted : toy_accepts ledger_2a twins (toy_after ledger_2a twins) (toy_log ledger_2a twins).
Proof. apply toy_evaluate. vm_refl. Qed.
Definition seen_2a : ToyBlock := seen_first toy_cid entry_2a.
Lemma twins_live pos d :
  defined_seals seen_2a !! pos = Some (d : SealDef TP) -> wseal_primary d = Extern out_a ->
  live (U:=TU) (take 1 (history toy_cid twins)) (MkCellAddr (toy_opid op_2a) pos)
    (MkTxoSeal out_a (wseal_secondary d) : Seal TP).
Proof.
  intros Hd Hp. exists 0, seen_2a. split; [reflexivity|]. split.
  - split; [by vm_compute|]. exists d. split; [exact Hd|]. left. cbn. unfold wtxo_to_src. by rewrite Hp.
  - intros [|j] bj Hj Hb; [lia|]. by rewrite lookup_take_ge in Hb by lia.
Qed.
Example C52_case :
  closing_spends toy_bp toy_spends toy_commits /\ one_message toy_bp toy_commits /\
  spent_once toy_bp toy_spends (fun tx : ToyTx => tx ∈ [tx_3a]) /\ messages_differ TP /\
  toy_accepts ledger_2a twins (toy_after ledger_2a twins) (toy_log ledger_2a twins) /\
  anchored TP (toy_on_chain [tx_3a]) twins /\
  exists a a' s s', a <> a' /\ s <> s' /\ seal_primary (s : TxoSeal) = seal_primary (s' : TxoSeal) /\
    consumes entry_3a a /\ consumes entry_3a a' /\
    live (U:=TU) (take 1 (history toy_cid twins)) a (s : Seal TP) /\
    live (U:=TU) (take 1 (history toy_cid twins)) a' (s' : Seal TP).
Proof.
  split; [exact toy_closing_spends|]. split; [exact toy_one_message|].
  split. { apply toy_spent_once. unfold toy_chain. cbn. apply NoDup_singleton. }
  split; [exact toy_messages|]. split; [exact twins_accepted|].
  split. { intros b w [->|[->|[]%elem_of_nil]%elem_of_cons]%elem_of_cons Hw; [discriminate|].
    injection Hw as <-. left. }
  exists (MkCellAddr (toy_opid op_2a) 0), (MkCellAddr (toy_opid op_2a) 1),
    (MkTxoSeal out_a (Noise [1%N])), (MkTxoSeal out_a (Noise [77%N])).
  split; [intros H; apply (f_equal cell_pos) in H; discriminate H|]. split; [discriminate|].
  split; [reflexivity|]. split; [left|]. split; [right; left|]. split.
  - apply (twins_live 0 def_a); vm_refl.
  - apply (twins_live 1 def_a2); vm_refl.
Qed.

Print Assumptions C50_orders.
Print Assumptions C50_code_orders.
Print Assumptions C50_any_two_orders.
Print Assumptions C51_consumption_spends.
Print Assumptions C51_chain_order.
Print Assumptions C52_one_outpoint_one_operation.
Print Assumptions C52_no_double_spend.
