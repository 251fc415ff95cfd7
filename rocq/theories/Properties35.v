(** * Properties, part 35: only immutable cells can be missing from a consignment

    C85: the premise of C48, C53 and C84 that a consignment brings the operations it needs ([self_contained]) has to be
    checked for immutable inputs only; [evaluate] makes sure of the destructible ones. *)
From Verif Require Import Guard CellFacts LedgerCells EvalFacts Refine Consensus BitcoinChain Derived Scenario
  Counterexamples Properties2 Properties3 Properties5 Properties6 Properties7 Properties27 Properties31 Properties32
  Properties34.
Notation block := Verif.Concrete.block.

Section missing.
Context {P : SealProtocol} {U : Ultrasonic} (A : ContractApi P U) {E X : Type}.
Notation Block := (OperationSeals P).
Notation View := (SealWitness P -> bool).
Notation id_of := (id_of (U:=U)).
Notation accepts c0 bs c t := (evaluate A (E:=E) c0 bs None = (c, t, Some (Ok tt))).

(** The operations whose immutable outputs are named by the operations of the history are known to the contract, or come
    before them. *)
Definition immutables_brought (c : Contract A) (h : list Block) : Prop :=
  forall i b a, h !! i = Some b -> a ∈ op_immutable_in (operation b) ->
    is_known A c (cell_opid a) = true \/
    exists k b', 0 < k < i /\ h !! k = Some b' /\ id_of b' = cell_opid a.

Lemma inputs_brought (c : Contract A) bs t d :
  valid_run A c bs t d ->
  forall i b a, history (contract_id A c) bs !! i = Some b -> a ∈ inputs_of b ->
    exists k b', k < i /\ history (contract_id A c) bs !! k = Some b' /\ id_of b' = cell_opid a.
Proof.
  induction 1 as [|bs t d b0 Hrun IH Hv]; intros i b a; [done|].
  rewrite history_snoc. intros Hi Ha.
  apply lookup_app_Some in Hi as [Hi|[Hlen Hi]].
  - destruct (IH i b a Hi Ha) as (k & b' & Hk & Hl & Hid). exists k, b'. split; [done|]. split; [|done].
    by apply lookup_app_l_Some.
  - apply list_lookup_singleton_Some in Hi as [Hi <-].
    destruct Hv as (_ & _ & (closed & [_ Hl] & _) & _).
    apply elem_of_list_lookup in Ha as [n Hn].
    destruct (Forall2_lookup_l _ _ _ _ _ Hl Hn) as (s & _ & k & b' & Hk & [Hid _] & _).
    exists k, b'. split; [apply lookup_lt_Some in Hk; lia|]. split; [by apply lookup_app_l_Some|]. by rewrite Hid.
Qed.

(** ** C85 Only immutable cells can be missing

    An accepted consignment whose genesis is known to the contract, as it always is, brings all the operations it needs if
    and only if it brings those whose immutable outputs are named. *)
Theorem C85_only_immutables (c0 c : Contract A) bs d t :
  contract_id A c = contract_id A c0 -> accepts c bs d t ->
  (forall b, head (history (contract_id A c0) bs) = Some b -> is_known A c0 (id_of b) = true) ->
  self_contained A c0 (history (contract_id A c0) bs) <-> immutables_brought c0 (history (contract_id A c0) bs).
Proof.
  intros Hc Hacc Hgen. apply evaluate_ok_iff in Hacc as (u & Hrun & _). split.
  - intros H i b a Hi Ha. apply (H i b (Global a) Hi). apply elem_of_app. right. by apply elem_of_list_fmap_1.
  - intros H i b s Hi Hs. apply elem_of_app in Hs as [Hs|Hs]; apply elem_of_list_fmap in Hs as (a & -> & Ha).
    + pose proof (inputs_brought c bs u d Hrun) as Hb. rewrite Hc in Hb.
      destruct (Hb i b a Hi Ha) as (k & b' & Hk & Hl & Hid). unfold slot_opid. cbn [slot_addr]. rewrite <-Hid.
      destruct k as [|k].
      * left. apply Hgen. by rewrite head_lookup.
      * right. exists (S k), b'. split; [lia|]. by split.
    + apply (H i b a Hi Ha).
Qed.

(** So for contracts without immutable inputs, the consensus of careful parties (C84) holds for all consignments whose
    genesis is known. *)
Corollary C85_consensus (peek : Contract A -> Slot -> option X) (out : Operation -> Slot -> option X)
    (gone : Operation -> Slot -> bool) (on_chain : SealWitness P -> Prop) (view view' : View)
    (c0 : Contract A) L l c L' l' c' bs d t :
  keeps_cells A peek out gone -> remembers A -> faithful U -> needs_inputs A peek -> intact A peek c0 ->
  (forall w, view w = true -> on_chain w) -> (forall w, view' w = true -> on_chain w) ->
  careful_session A (E:=E) view c0 L l c -> careful_session A (E:=E) view' c0 L' l' c' ->
  fair_world (U:=U) on_chain (all_entries (contract_id A c0) (L ++ L' ++ [bs])) ->
  (forall b, head (history (contract_id A c0) bs) = Some b -> is_known A c0 (id_of b) = true) ->
  (forall b, b ∈ bs -> op_immutable_in (operation b) = []) ->
  evaluate_guarded_by A (careful view) c bs (None : option E) = (d, t, Some (Ok tt)) -> sees_as_much view view' bs ->
  exists d' t', evaluate_guarded_by A (careful view') c' bs (None : option E) = (d', t', Some (Ok tt)).
Proof.
  intros H1 H2 H3 H4 Hint Hv Hv' Hs Hs' Hfair Hgen Himm Hacc Hsee.
  destruct (C84_agreement A (E:=E) peek out gone on_chain view view' c0 L l c L' l' c' bs d t) as (d' & t' & H & _);
    try done; [|by exists d', t'].
  pose proof Hacc as (_ & _ & Hev)%evaluate_guarded_accepts.
  assert (contract_id A c = contract_id A c0) as Hc.
  { apply (session_state A (E:=E + Block) peek out gone H1 H2 H3 c0 l c Hint).
    eapply session_of_session. by apply careful_session_of. }
  assert (evaluate A (E:=E) c bs None = (d, t, Some (Ok tt))) as Hev'.
  { apply evaluate_ok_iff. by apply evaluate_ok_iff in Hev. }
  apply (C85_only_immutables c0 c bs d t Hc Hev' Hgen).
  intros i b a Hi Ha. exfalso.
  assert (exists b0, b0 ∈ bs /\ op_immutable_in (operation b) = op_immutable_in (operation b0)) as (b0 & Hb0 & Heq).
  { destruct bs as [|b1 bs]; [done|]. cbn [history] in Hi. destruct i as [|i].
    - injection Hi as <-. exists b1. split; [left|done].
    - exists b. split; [right; by eapply elem_of_list_lookup_2|done]. }
  rewrite Heq, (Himm b0 Hb0) in Ha. by apply elem_of_nil in Ha.
Qed.
End missing.

(** *** Concrete cases

    The consignment with both branches brings all it needs.  The one with operation K only, which names an immutable
    output of operation J, does not; it is accepted after J all the same ([C48_self_contained_needed]). *)
Example C85_case :
  self_contained spend_api ledger (history toy_cid branches) /\
  ~ self_contained spend_api ledger (history toy_cid [entry_g; entry_k]) /\
  (exists d t, spend_accepts (spend_after ledger [entry_g; entry_j]) [entry_g; entry_k] d t).
Proof.
  assert (forall bs b, head bs = Some entry_g -> head (history toy_cid bs) = Some b ->
    is_known spend_api ledger (id_of (U:=TU) b) = true) as Hgen.
  { intros [|b0 bs] b [=->] Hb. assert (b = Verif.Spec.seen_first toy_cid entry_g) as -> by (by injection Hb). vm_refl. }
  assert (spend_run ledger branches = Some (Ok tt)) as R1 by vm_refl.
  assert (spend_run (spend_after ledger [entry_g; entry_j]) [entry_g; entry_k] = Some (Ok tt)) as R2 by vm_refl.
  apply spend_evaluate in R1, R2.
  split; [|split].
  - apply (C85_only_immutables spend_api (E:=Empty_set) ledger ledger _ _ _ eq_refl R1); [intros b; exact (Hgen branches b eq_refl)|].
    intros i b a Hi Ha. exfalso.
    assert (forallb (fun b => bool_decide (op_immutable_in (operation b) = [])) (history toy_cid branches) = true) as Hall
      by vm_refl.
    rewrite forallb_forall in Hall. apply elem_of_list_lookup_2, elem_of_list_In in Hi. specialize (Hall b Hi).
    apply bool_decide_eq_true in Hall. rewrite Hall in Ha. by apply elem_of_nil in Ha.
  - intros H. assert (contract_id spend_api (spend_after ledger [entry_g; entry_j]) = toy_cid) as Hc by vm_refl.
    apply (C85_only_immutables spend_api (E:=Empty_set) ledger _ _ _ _ Hc R2) in H; [|intros b; exact (Hgen [entry_g; entry_k] b eq_refl)].
    assert (MkCellAddr id_j 0 ∈ op_immutable_in (operation entry_k)) as Hin by left.
    destruct (H 1 entry_k _ eq_refl Hin) as [Hk|(k & b' & Hk & _)]; [|lia].
    assert (is_known spend_api ledger id_j = false) as Hno by vm_refl. exact (eq_true_false_abs _ Hk Hno).
  - eexists _, _. exact R2.
Qed.

(** The genesis has to be known: a contract which does not know it (there is none with a library which issues or imports
    contracts as they are) is not told by the first entry, as it is not applied. *)
Definition amnesiac : ToyContract := {|
  tc_codex := tc_codex _ _ ledger; tc_contract_id := toy_cid; tc_libs := ∅; tc_global := ∅;
  tc_owned := tc_owned _ _ ledger; tc_known_ops := ∅; tc_seal_definitions := ∅; tc_witnesses := ∅ |}.
Example C85_genesis_needed :
  (exists d t, spend_accepts amnesiac [entry_g; entry_1] d t) /\
  immutables_brought spend_api amnesiac (history toy_cid [entry_g; entry_1]) /\
  ~ self_contained spend_api amnesiac (history toy_cid [entry_g; entry_1]).
Proof.
  split; [|split].
  - assert (spend_run amnesiac [entry_g; entry_1] = Some (Ok tt)) as R1 by vm_refl.
    apply spend_evaluate in R1. eexists _, _. exact R1.
  - intros i b a Hi Ha. exfalso.
    assert (forallb (fun b => bool_decide (op_immutable_in (operation b) = [])) (history toy_cid [entry_g; entry_1]) = true)
      as Hall by vm_refl.
    rewrite forallb_forall in Hall. apply elem_of_list_lookup_2, elem_of_list_In in Hi. specialize (Hall b Hi).
    apply bool_decide_eq_true in Hall. rewrite Hall in Ha. by apply elem_of_nil in Ha.
  - intros H. assert (Owned (MkCellAddr id_g 0) ∈ reads (operation entry_1)) as Hin by left.
    destruct (H 1 entry_1 _ eq_refl Hin) as [Hk|(k & b' & Hk & _)]; [|lia].
    assert (is_known spend_api amnesiac id_g = false) as Hno by vm_refl. exact (eq_true_false_abs _ Hk Hno).
Qed.

Print Assumptions C85_only_immutables.
Print Assumptions C85_consensus.
Print Assumptions C85_case.
Print Assumptions C85_genesis_needed.
