(** * Properties, part 18: re-organisations of the chain

    C67: `evaluate` has no way back, so what was applied on an abandoned chain stays. *)
From Verif Require Import Reorg LedgerCells Scenario Counterexamples
  Properties2 Properties3 Properties5 Properties6 Properties7 Properties17.
Notation block := Verif.Concrete.block.

Section reorg.
Context {P : SealProtocol} {U : Ultrasonic} (A : ContractApi P U) {E X : Type}.
Context (peek : Contract A -> Slot -> option X) (out : Operation -> Slot -> option X).
Context (gone : Operation -> Slot -> bool).

Notation accepts c0 bs c t := (evaluate A (E:=E) c0 bs None = (c, t, Some (Ok tt))).
Notation id_of := (id_of (U:=U)).
Notation without_applied t := (List.filter (fun e => negb (is_apply e)) (mutations t)).
Notation on_one_chain := (on_one_chain (U:=U)).
Notation certified := (certified (U:=U)).

(** ** C67 Re-organisations *)

(** The full claim: a party which has evaluated consignments of one chain accepts what any
    party accepts on the chain that replaces it.  False of the code ([C67_reorg_refuted]). *)
Definition C67_claim : Prop :=
  forall (old new : SealWitness P -> Prop) (c0 : Contract A) L l c bs d t,
  intact A peek c0 -> session_of A E c0 L l c ->
  on_one_chain old (all_entries (contract_id A c0) L) ->
  on_one_chain new (all_entries (contract_id A c0) [bs]) ->
  self_contained A c0 (history (contract_id A c0) bs) ->
  accepts c0 bs d t -> exists d' t', accepts c bs d' t'.

(** What does hold: if the operations applied by two parties, on whatever chains, have valid seals
    on the present chain - in consignments [L] which neither party needs to have seen - both accept the
    same consignments of the present chain, and make the same records. *)
Theorem C67_reorg_partial (new : SealWitness P -> Prop) (c0 : Contract A) l c l' c' L bs d t :
  keeps_cells A peek out gone -> remembers A -> faithful U -> needs_inputs A peek -> intact A peek c0 ->
  session A E c0 l c -> session A E c0 l' c' ->
  let cid := contract_id A c0 in
  on_one_chain new (all_entries cid (L ++ [bs])) ->
  (forall op, op ∈ applied_operations l ++ applied_operations l' ->
     exists bs1 b, bs1 ∈ L ++ [bs] /\ sealed (U:=U) cid (codex_id U (codex A c0)) bs1 /\
       b ∈ history cid bs1 /\ operation b = op) ->
  self_contained A c0 (history cid bs) ->
  accepts c bs d t ->
  exists d' t', accepts c' bs d' t' /\ without_applied t' = without_applied t.
Proof.
  intros H1 H2 H3 H4 Hint Hs Hs' cid Hch Hcert Hself Hacc.
  exact (reorg_agree A peek out gone H1 H2 H3 H4 new c0 l c l' c' L bs d t Hint Hs Hs' Hch Hcert Hself Hacc).
Qed.

(** Which operations are in the way, exactly: after a session, a consignment that was acceptable
    at the start is accepted if and only if each entry naming a cell that is gone by now is known. *)
Theorem C67_exact (c0 : Contract A) l c bs d t :
  keeps_cells A peek out gone -> remembers A -> faithful U -> needs_inputs A peek -> intact A peek c0 ->
  session A E c0 l c ->
  let h := history (contract_id A c0) bs in
  let ops := applied_operations l ++ (operation <$> h) in
  ids_apart (U:=U) ops ops ->
  accepts c0 bs d t ->
  (exists d' t', accepts c bs d' t') <->
  forall op b s, op ∈ applied_operations l -> b ∈ h -> gone op s = true -> s ∈ reads (operation b) ->
    is_known A c (id_of b) = true.
Proof. intros H1 H2 H3 H4. exact (session_accepts_iff A (E:=E) peek out gone H1 H2 H3 H4 c0 l c bs d t). Qed.
End reorg.

(** *** Concrete cases *)
Lemma toy_on_any_chain chain (h : list ToyBlock) :
  toy_chain chain ->
  forallb (fun b => witness_in chain b && defs_in all_defs b && bound_b b && complete_b b) h = true ->
  on_one_chain (U:=TU) (toy_on_chain chain) h.
Proof.
  intros Hc H. rewrite forallb_forall in H.
  destruct (toy_sound_world every_seal chain all_defs h h Hc ltac:(vm_refl)) as (H1 & H2 & H3 & H4 & _ & H5).
  { apply forallb_forall. intros b Hb. apply andb_true_iff.
    apply elem_of_list_In, elem_of_app in Hb.
    assert (In b h) as Hb' by (destruct Hb; by apply elem_of_list_In).
    specialize (H b Hb'). apply andb_true_iff in H as [[[? ?]%andb_true_iff ?]%andb_true_iff ?]. done. }
  split; try assumption.
  - intros s _. by apply H1.
  - intros s _. by apply H2.
  - apply toy_positions_bound, forallb_forall. intros b Hb. specialize (H b Hb).
    by apply andb_true_iff in H as [[_ ?]%andb_true_iff _].
  - apply toy_all_settled, forallb_forall. intros b Hb. specialize (H b Hb).
    by apply andb_true_iff in H as [_ ?].
Qed.

(** The transactions of both transfers are replaced on the new chain: none of the old ones
    can be mined any more.  A party which has seen the old ones accepts the new consignment. *)
Definition new_chain : list ToyTx := [tx_1r; tx_2r].
Example C67_case :
  toy_chain new_chain /\ ~ toy_chain (tx_1 :: new_chain) /\
  (exists d' t', spend_accepts (spend_after ledger scenario) replaced d' t').
Proof.
  assert (toy_chain new_chain) as Hc by (unfold toy_chain; apply (bool_decide_unpack _); by vm_compute).
  split; [exact Hc|]. split; [unfold toy_chain; apply (bool_decide_unpack _); by vm_compute|].
  assert (spend_run ledger scenario = Some (Ok tt)) as Hs by vm_refl.
  assert (spend_run ledger replaced = Some (Ok tt)) as Hr by vm_refl.
  pose proof (spend_session _ _ _ Hs) as Hsess. pose proof (spend_evaluate _ _ _ Hr) as Hacc.
  destruct (C67_reorg_partial spend_api (E:=Empty_set) (ledger_peek TP toy_sonic) outputs inputs_gone
    (toy_on_chain new_chain) ledger [] ledger _ (spend_after ledger scenario) [] replaced
    (spend_after ledger replaced) (spend_log ledger replaced)
    spend_keeps_cells (spending_remembers _ _) (sonic_faithful _) spend_needs_inputs spend_intact
    (session_start _ _ _) Hsess) as (d' & t' & H & _).
  - apply toy_on_any_chain; [exact Hc|vm_refl].
  - intros op Hop.
    assert (applied_operations (P:=TP) (U:=TU) (spend_log ledger scenario) = [op_1; op_2]) as Hl by vm_refl.
    cbn [app applied_operations omap list_omap] in Hop. change (omap _ _) with (applied_operations (P:=TP) (U:=TU) (spend_log ledger scenario)) in Hop.
    rewrite Hl in Hop.
    assert (sealed (U:=TU) toy_cid (codex_id TU toy_codex) replaced) as Hsealed.
    { exact (accepted_sealed spend_api (E:=Empty_set) ledger replaced _ _ Hacc). }
    exists replaced.
    apply elem_of_cons in Hop as [->|[->|[]%elem_of_nil]%elem_of_cons].
    + eexists. split; [left|]. split; [exact Hsealed|]. split; [right; left|]. reflexivity.
    + eexists. split; [left|]. split; [exact Hsealed|]. split; [right; right; left|]. reflexivity.
  - apply toy_self_contained. vm_refl.
  - exact Hacc.
  - exists d', t'. exact H.
Qed.

(** Operations 1 and 4 were applied; operation V consumes the cell that operation 1 has consumed,
    operations 3 and 5 do not. *)
Example C67_case_exact :
  ~ (exists d' t', spend_accepts spent_14 [entry_g; entry_v] d' t') /\
  (exists d' t', spend_accepts spent_14 [entry_g; entry_1; entry_3; entry_5] d' t').
Proof.
  assert (applied_operations (P:=TP) (U:=TU) (spend_log ledger [entry_g; entry_1; entry_4]) = [op_1; op_4]) as Hops by vm_refl.
  split.
  - assert (spend_run ledger [entry_g; entry_v] = Some (Ok tt)) as Hr by vm_refl.
    pose proof (spend_evaluate _ _ _ Hr) as Hacc.
    rewrite (C67_exact spend_api (E:=Empty_set) (ledger_peek TP toy_sonic) outputs inputs_gone ledger _ spent_14
      [entry_g; entry_v] _ _ spend_keeps_cells (spending_remembers _ _) (sonic_faithful _) spend_needs_inputs spend_intact
      spent_session_14 (toy_apart _) Hacc).
    intros H.
    assert (is_known spend_api spent_14 (id_of (U:=TU) entry_v) = false) as Hk by vm_refl.
    assert (is_known spend_api spent_14 (id_of (U:=TU) entry_v) = true) as Hk'; [|congruence].
    apply (H op_1 entry_v (Owned (MkCellAddr id_g 0))).
    + rewrite Hops. left.
    + right. left.
    + apply bool_decide_eq_true. left.
    + left.
  - assert (spend_run ledger [entry_g; entry_1; entry_3; entry_5] = Some (Ok tt)) as Hr by vm_refl.
    pose proof (spend_evaluate _ _ _ Hr) as Hacc.
    rewrite (C67_exact spend_api (E:=Empty_set) (ledger_peek TP toy_sonic) outputs inputs_gone ledger _ spent_14
      [entry_g; entry_1; entry_3; entry_5] _ _ spend_keeps_cells (spending_remembers _ _) (sonic_faithful _) spend_needs_inputs spend_intact
      spent_session_14 (toy_apart _) Hacc).
    intros op b s Hop Hb Hg Hr'.
    destruct (is_known spend_api spent_14 (id_of (U:=TU) b)) eqn:Hk; [reflexivity|]. exfalso. rewrite Hops in Hop.
    assert (forallb (fun op => forallb (fun b : ToyBlock =>
      is_known spend_api spent_14 (id_of (U:=TU) b) ||
      forallb (fun s => negb (inputs_gone op s)) (reads (operation b)))
      (history toy_cid [entry_g; entry_1; entry_3; entry_5])) [op_1; op_4] = true) as Hall by vm_refl.
    rewrite forallb_forall in Hall. apply elem_of_list_In in Hop, Hb, Hr'. specialize (Hall op Hop).
    rewrite forallb_forall in Hall. specialize (Hall b Hb). rewrite Hk in Hall. cbn [orb] in Hall.
    rewrite forallb_forall in Hall. specialize (Hall s Hr'). by rewrite Hg in Hall.
Qed.

(** The claim is false of the code: operation 1 was applied on the old chain.  On the new one its
    transaction is replaced by one which commits to operation V.  All parties that have not seen
    the old chain accept operation V; the party that has seen it rejects it for ever. *)
Theorem C67_reorg_refuted :
  keeps_cells spend_api (ledger_peek TP toy_sonic) outputs inputs_gone /\ remembers spend_api /\
  needs_inputs spend_api (ledger_peek TP toy_sonic) /\
  ~ C67_claim spend_api (E:=Empty_set) (ledger_peek TP toy_sonic).
Proof.
  split; [exact spend_keeps_cells|]. split; [exact (spending_remembers _ _)|]. split; [exact spend_needs_inputs|].
  intros H.
  assert (spend_run ledger [entry_g; entry_1; entry_4] = Some (Ok tt)) as Hr by vm_refl.
  assert (spend_run ledger [entry_g; entry_v] = Some (Ok tt)) as Hv by vm_refl.
  pose proof (spend_session_of [] [] ledger _ _ (session_of_start _ _ _) Hr) as Hs.
  apply (proj1 C67_case_exact).
  refine (H (toy_on_chain one_chain) (toy_on_chain [tx_of 80 out_a id_v]) ledger _ _ _ [entry_g; entry_v] _ _
    spend_intact Hs _ _ _ (spend_evaluate _ _ _ Hv)).
  - apply toy_on_one_chain. vm_refl.
  - apply toy_on_any_chain; [|vm_refl]. unfold toy_chain. apply (bool_decide_unpack _). by vm_compute.
  - apply toy_self_contained. vm_refl.
Qed.

(** The ledger of the test-suite keeps consumed cells, so it accepts operation V as well.  It
    then has applied two operations which consume the same cell, and holds the outputs of both,
    though no chain has both transactions. *)
Example C67_both_applied :
  let c := toy_after (toy_after ledger [entry_g; entry_1]) [entry_g; entry_v] in
  toy_run ledger [entry_g; entry_1] = Some (Ok tt) /\
  toy_run (toy_after ledger [entry_g; entry_1]) [entry_g; entry_v] = Some (Ok tt) /\
  is_known toy_api c id_1 = true /\ is_known toy_api c id_v = true /\
  bool_decide (is_Some (tc_owned _ _ c !! MkCellAddr id_1 0)) = true /\
  bool_decide (is_Some (tc_owned _ _ c !! MkCellAddr id_v 0)) = true /\
  ~ toy_chain [tx_1; tx_of 80 out_a id_v].
Proof.
  cbv zeta. do 6 (split; [vm_refl|]). unfold toy_chain. apply (bool_decide_unpack _). by vm_compute.
Qed.

Print Assumptions C67_reorg_partial.
Print Assumptions C67_exact.
Print Assumptions C67_reorg_refuted.
