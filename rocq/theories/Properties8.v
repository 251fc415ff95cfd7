(** * Property C54: merging consignments *)
From Verif Require Import Consensus Merge LedgerCells BitcoinChain Derived Scenario Counterexamples
  Properties2 Properties3 Properties5 Properties6 Properties7.
Notation block := Verif.Concrete.block.

Section properties.
Context {P : SealProtocol} {U : Ultrasonic} (A : ContractApi P U) {E X : Type}.
Context (peek : Contract A -> Slot -> option X) (out : Operation -> Slot -> option X).
Context (gone : Operation -> Slot -> bool).

Notation accepts c0 bs c t := (evaluate A (E:=E) c0 bs None = (c, t, Some (Ok tt))).
Notation id_of := (id_of (U:=U)).
Notation on_one_chain := (on_one_chain (U:=U)).
Notation merged := (merged (U:=U)).
Notation merged_all := (merged_all (U:=U)).
Notation proper := (proper (U:=U)).

(** ** C54 Merging consignments

    Two consignments for the same contract, each of which is accepted, can be merged: the
    entries of the first one, with the definitions which only the second one reveals, then the
    entries of the second whose operations are new.  On a chain the merge is accepted, and
    leaves the contract in the state in which the evaluation of one consignment after the
    other leaves it.  So nothing is lost or gained when a wallet stores or sends one
    consignment instead of two. *)
Theorem C54_merge (on_chain : SealWitness P -> Prop) (c : Contract A) g bs1 bs2 c1 t1 c2 t2 :
  keeps_cells A peek out gone -> remembers A -> faithful U -> needs_inputs A peek -> intact A peek c ->
  accepts c bs1 c1 t1 -> accepts c bs2 c2 t2 ->
  proper (contract_id A c) g bs1 -> proper (contract_id A c) g bs2 ->
  on_one_chain on_chain (history (contract_id A c) bs1 ++ history (contract_id A c) bs2) ->
  exists d t c12 t12,
    accepts c (merged (contract_id A c) bs1 bs2) d t /\
    accepts c1 bs2 c12 t12 /\ same_state A peek d c12 /\
    (forall o, is_known A d o = true <->
       is_known A c1 o = true \/ o ∈ id_of <$> tail (history (contract_id A c) bs2)).
Proof.
  intros K1 K2 K3 K4 Hint H1 H2 [(b0 & r1 & -> & Hg1) Hnd1] [(e0 & r2 & -> & Hg2) Hnd2] Hch.
  destruct (merge_two A peek out gone K1 K2 K3 K4 (E:=E) on_chain c c1 c2 b0 r1 e0 r2 t1 t2)
    as (d & t & c12 & Hd & Htwo & Hs); try done; [congruence|].
  apply evaluates_two in Htwo as (d1 & u1 & u2 & Hm' & Hx2). rewrite H1 in Hm'.
  assert (d1 = c1) as -> by congruence.
  exists d, t, c12, u2. split; [done|]. split; [done|]. split; [done|].
  intros o. destruct Hs as (_ & Hk & _). rewrite Hk.
  apply evaluate_ok_iff in Hx2 as (v & Hv & _). apply evaluate_ok_iff in H1 as (u & Hu & _).
  destruct (run_state A peek out gone K1 K2 K3 c _ _ _ Hint Hu) as (Hset & Hint1 & _).
  destruct (run_state A peek out gone K1 K2 K3 c1 _ _ _ Hint1 Hv) as (_ & _ & Hk12 & _).
  rewrite Hk12, (proj1 Hset), elem_of_list_fmap. split; (intros [?|(b & ? & ?)]; [by left|right; by eauto]).
Qed.

(** Any number of consignments; the order in which they are merged does not matter for the
    state. *)
Theorem C54_merge_all (on_chain : SealWitness P -> Prop) (c : Contract A) g bs L :
  keeps_cells A peek out gone -> remembers A -> faithful U -> needs_inputs A peek -> intact A peek c ->
  (forall x, x ∈ bs :: L -> exists c1 t, accepts c x c1 t) ->
  (forall x, x ∈ bs :: L -> proper (contract_id A c) g x) ->
  on_one_chain on_chain (all_entries (contract_id A c) (bs :: L)) ->
  exists d t d',
    accepts c (merged_all (contract_id A c) bs L) d t /\
    evaluates_all A E c (bs :: L) d' /\ same_state A peek d d' /\
    forall bs2 L2, Permutation (bs :: L) (bs2 :: L2) ->
      exists d2 t2, accepts c (merged_all (contract_id A c) bs2 L2) d2 t2 /\ same_state A peek d d2.
Proof.
  intros K1 K2 K3 K4 Hint Hall Hprop Hch.
  destruct (merge_many A peek out gone K1 K2 K3 K4 (E:=E) on_chain c g bs L Hint Hall Hprop Hch)
    as (d & t & d' & Hd & Hev & Hs).
  exists d, t, d'. split; [done|]. split; [done|]. split; [done|]. intros bs2 L2 Hp.
  destruct (merge_many A peek out gone K1 K2 K3 K4 (E:=E) on_chain c g bs2 L2 Hint) as (d2 & t2 & d2' & Hd2 & Hev2 & Hs2).
  - intros x Hx. apply Hall. by rewrite Hp.
  - intros x Hx. apply Hprop. by rewrite Hp.
  - eapply on_one_chain_sub; [|exact Hch]. intros b Hb. unfold all_entries in *.
    apply elem_of_list_join in Hb as (h & Hb & Hh). apply elem_of_list_join. exists h. split; [done|].
    by rewrite Hp.
  - exists d2, t2. split; [done|].
    destruct (chain_any_order A peek out gone K1 K2 K3 K4 (E:=E) on_chain c (bs :: L) Hint Hall Hch
      (bs :: L) (bs2 :: L2) (Permutation_refl _) Hp) as (e1 & e2 & He1 & He2 & Hse & _).
    assert (forall M x y, evaluates_all A E c M x -> evaluates_all A E c M y -> x = y) as Hdet.
    { clear. intros M. generalize c. induction M as [|b M IH]; intros c0 x y Hx Hy.
      - inversion Hx; inversion Hy; congruence.
      - inversion Hx as [|? ? k1 ? ? ? Hb1 Hr1]; inversion Hy as [|? ? k2 ? ? ? Hb2 Hr2]; subst.
        rewrite Hb1 in Hb2. assert (k1 = k2) as -> by congruence. by eapply IH. }
    rewrite (Hdet _ _ _ He1 Hev) in Hse. rewrite (Hdet _ _ _ He2 Hev2) in Hse.
    eapply same_state_trans; [exact Hs|]. eapply same_state_trans; [exact Hse|]. by apply same_state_sym.
Qed.
End properties.

(** ** For the ledger which drops consumed cells, with bitcoin seals *)
Corollary C54_bitcoin (B : BpCore) (spends : Tx B -> nat -> Outpoint -> Prop)
    (commits : Tx B -> nat -> MmbMessage B -> Prop) (on_chain : Tx B -> Prop)
    (S : Sonic) (E : Type) (c : TestContract (bitcoin B) S) g bs1 bs2 c1 t1 c2 t2 :
  let A := spending_ledger (bitcoin B) S in
  let h := history (tc_contract_id _ _ c) bs1 ++ history (tc_contract_id _ _ c) bs2 in
  sonic_local S -> sonic_needs S -> ledger_intact _ S c ->
  evaluate A (E:=E) c bs1 None = (c1, t1, Some (Ok tt)) ->
  evaluate A (E:=E) c bs2 None = (c2, t2, Some (Ok tt)) ->
  proper (U:=sonic S) (tc_contract_id _ _ c) g bs1 -> proper (U:=sonic S) (tc_contract_id _ _ c) g bs2 ->
  closing_spends B spends commits -> one_message B commits -> spent_once B spends on_chain ->
  messages_differ (bitcoin B) ->
  anchored (bitcoin B) (mined B on_chain) h -> no_collisions (U:=sonic S) h h ->
  Forall positions_bound h -> all_settled h ->
  exists d t c12 t12,
    evaluate A (E:=E) c (merged (U:=sonic S) (tc_contract_id _ _ c) bs1 bs2) None = (d, t, Some (Ok tt)) /\
    evaluate A (E:=E) c1 bs2 None = (c12, t12, Some (Ok tt)) /\
    tc_owned _ _ d = tc_owned _ _ c12 /\ tc_global _ _ d = tc_global _ _ c12.
Proof.
  intros A h Hloc Hneed Hint H1 H2 Hp1 Hp2 Hsp Hone Honce Hm Ha Hc Hpos Hroot.
  destruct (C54_merge A (E:=E) (ledger_peek _ S) outputs inputs_gone (mined B on_chain) c g bs1 bs2 c1 t1 c2 t2)
    as (d & t & c12 & t12 & Hd & H12 & (_ & _ & Hpk) & _); try done.
  - by apply spending_keeps_cells.
  - apply spending_remembers.
  - apply sonic_faithful.
  - by apply spending_needs_inputs.
  - by apply ledger_intact_iff.
  - split; try done; intros s _; [by eapply bitcoin_single_use|by eapply bitcoin_closed_by_one].
  - exists d, t, c12, t12. split; [done|]. split; [done|]. split; apply map_eq; intros a.
    + specialize (Hpk (Owned a)). cbn in Hpk.
      destruct (tc_owned _ _ d !! a), (tc_owned _ _ c12 !! a); cbn in Hpk; congruence.
    + specialize (Hpk (Global a)). cbn in Hpk.
      destruct (tc_global _ _ d !! a), (tc_global _ _ c12 !! a); cbn in Hpk; congruence.
Qed.

(** *** Concrete cases *)
(** Two consignments which reveal different seals of the genesis. *)
Definition entry_ga : ToyBlock := block (as_genesis op_g) [(0%N, def_a)] None.
Definition entry_gb : ToyBlock := block (as_genesis op_g) [(1%N, def_b)] None.
Definition to_a : list ToyBlock := [entry_ga; entry_1; entry_4].
Definition to_b : list ToyBlock := [entry_gb; entry_3; entry_5].
Definition to_c : list ToyBlock := [entry_g; entry_3; entry_1].
Lemma toy_proper (bs : list ToyBlock) b r :
  bs = b :: r -> id_of (U:=TU) (seen_first toy_cid b) = id_g ->
  bool_decide (NoDup (id_of (U:=TU) <$> history toy_cid bs)) = true ->
  proper (U:=TU) toy_cid id_g bs.
Proof. intros H1 H2 H3. split; [by exists b, r|]. by apply bool_decide_eq_true in H3. Qed.
Lemma to_a_accepted : spend_accepts ledger to_a (spend_after ledger to_a) (spend_log ledger to_a).
Proof. apply spend_evaluate. vm_refl. Qed.
Lemma to_b_accepted : spend_accepts ledger to_b (spend_after ledger to_b) (spend_log ledger to_b).
Proof. apply spend_evaluate. vm_refl. Qed.

(** The merge is the consignment with both branches; the other order gives the same state. *)
Example C54_case :
  merged (U:=TU) toy_cid to_a to_b = [entry_g; entry_1; entry_4; entry_3; entry_5] /\
  exists d t c12 t12,
    spend_accepts ledger (merged (U:=TU) toy_cid to_a to_b) d t /\
    spend_accepts (spend_after ledger to_a) to_b c12 t12 /\
    same_state spend_api (ledger_peek TP toy_sonic) d c12 /\
    is_known spend_api d id_4 = true /\ is_known spend_api d id_5 = true.
Proof.
  split.
  { assert (forall b b' : ToyBlock, operation b = operation b' -> witness b = witness b' ->
      bool_decide ((defined_seals b : gmap N WTxoSeal) = defined_seals b') = true -> b = b') as Heq.
    { intros [? ? ?] [? ? ?]; cbn. intros -> -> ->%bool_decide_eq_true. done. }
    repeat (apply (f_equal2 cons); [apply Heq; vm_refl|]). vm_refl. }
  destruct (C54_merge spend_api (E:=Empty_set) (ledger_peek TP toy_sonic) outputs inputs_gone
    (toy_on_chain one_chain) ledger id_g to_a to_b _ _ _ _
    spend_keeps_cells (spending_remembers _ _) (sonic_faithful _) spend_needs_inputs spend_intact
    to_a_accepted to_b_accepted) as (d & t & c12 & t12 & H1 & H2 & H3 & H4).
  - apply (toy_proper _ entry_ga [entry_1; entry_4]); vm_refl.
  - apply (toy_proper _ entry_gb [entry_3; entry_5]); vm_refl.
  - apply toy_on_one_chain. vm_refl.
  - exists d, t, c12, t12. split; [exact H1|]. split; [exact H2|]. split; [exact H3|].
    split; apply H4; [left; vm_refl|right].
    apply (bool_decide_unpack _). by vm_compute.
Qed.

(** Without the definitions which only the second one reveals the merge is rejected. *)
Example C54_definitions_needed :
  spend_run ledger (to_a ++ tail to_b) = Some (Err (SealUnknown (MkCellAddr id_g 1))).
Proof. vm_refl. Qed.

(** Three consignments, in two orders. *)
Example C54_case_all :
  exists d t d2 t2,
    spend_accepts ledger (merged_all (U:=TU) toy_cid to_a [to_b; to_c]) d t /\
    spend_accepts ledger (merged_all (U:=TU) toy_cid to_c [to_b; to_a]) d2 t2 /\
    same_state spend_api (ledger_peek TP toy_sonic) d d2.
Proof.
  destruct (C54_merge_all spend_api (E:=Empty_set) (ledger_peek TP toy_sonic) outputs inputs_gone
    (toy_on_chain one_chain) ledger id_g to_a [to_b; to_c]
    spend_keeps_cells (spending_remembers _ _) (sonic_faithful _) spend_needs_inputs spend_intact)
    as (d & t & d' & H1 & H2 & H3 & H4).
  - intros x [->|[->|[->|[]%elem_of_nil]%elem_of_cons]%elem_of_cons]%elem_of_cons;
      eexists _, _; apply spend_evaluate; vm_refl.
  - intros x [->|[->|[->|[]%elem_of_nil]%elem_of_cons]%elem_of_cons]%elem_of_cons.
    + apply (toy_proper _ entry_ga [entry_1; entry_4]); vm_refl.
    + apply (toy_proper _ entry_gb [entry_3; entry_5]); vm_refl.
    + apply (toy_proper _ entry_g [entry_3; entry_1]); vm_refl.
  - apply toy_on_one_chain. vm_refl.
  - destruct (H4 to_c [to_b; to_a]) as (d2 & t2 & H5 & H6).
    + apply (Permutation_rev [to_a; to_b; to_c]).
    + exists d, t, d2, t2. split; [exact H1|]. split; [exact H5|exact H6].
Qed.

(** From the facts about the chain. *)
Example C54_case_bitcoin : exists d t c12 t12,
  spend_accepts ledger (merged (U:=TU) toy_cid to_a to_b) d t /\
  spend_accepts (spend_after ledger to_a) to_b c12 t12 /\
  tc_owned _ _ d = tc_owned _ _ c12 /\ tc_global _ _ d = tc_global _ _ c12.
Proof.
  assert (on_one_chain (U:=TU) (toy_on_chain one_chain) (history toy_cid to_a ++ history toy_cid to_b))
    as [_ _ H3 H4 H5 H6 H7].
  { apply toy_on_one_chain. vm_refl. }
  exact (C54_bitcoin toy_bp toy_spends toy_commits (fun tx : ToyTx => tx ∈ one_chain) toy_sonic Empty_set ledger id_g
    to_a to_b _ _ _ _ toy_local toy_needs (toy_intact op_g) to_a_accepted to_b_accepted
    (toy_proper to_a entry_ga [entry_1; entry_4] ltac:(vm_refl) ltac:(vm_refl) ltac:(vm_refl))
    (toy_proper to_b entry_gb [entry_3; entry_5] ltac:(vm_refl) ltac:(vm_refl) ltac:(vm_refl))
    toy_closing_spends toy_one_message (toy_spent_once _ one_chain_valid) H3 H4 H5 H6 H7).
Qed.

(** The premise on the chain is needed: each of two double spends is accepted, the merge is
    not. *)
Example C54_chain_needed :
  (exists c1 t1, spend_accepts ledger to_a c1 t1) /\
  (exists c2 t2, spend_accepts ledger [entry_ga; entry_v] c2 t2) /\
  spend_run ledger (merged (U:=TU) toy_cid to_a [entry_ga; entry_v]) =
    Some (Err (SealUnknown (MkCellAddr id_g 0))).
Proof.
  split; [eexists _, _; exact to_a_accepted|].
  split; [eexists _, _; apply spend_evaluate; vm_refl|]. vm_refl.
Qed.

Print Assumptions C54_merge.
Print Assumptions C54_merge_all.
Print Assumptions C54_bitcoin.
