(** * Properties, part 33: a payment valid for the payer is valid for everyone

    C83: the liveness counterpart of C81.  Who has received a cell can pass it on with checks of their own only. *)
From Verif Require Import CellFacts LedgerCells Refine Consensus BitcoinChain Derived Scenario Counterexamples
  Properties2 Properties3 Properties5 Properties6 Properties7.
Notation block := Verif.Concrete.block.

Section payment.
Context {P : SealProtocol} {U : Ultrasonic} (A : ContractApi P U) {E X : Type}.
Context (peek : Contract A -> Slot -> option X) (out : Operation -> Slot -> option X).
Context (gone : Operation -> Slot -> bool).
Notation accepts c0 bs c t := (evaluate A (E:=E) c0 bs None = (c, t, Some (Ok tt))).
Notation id_of := (id_of (U:=U)).
Notation message_of := (message_of (U:=U)).

(** ** C83 A payment valid for the payer is valid for everyone

    Two parties, the payer and the payee, start from the same contract and evaluate the consignments [L] and [L'],
    with failures and crashes on the way; all is on one chain, as in C53.  The payer accepts the consignment [bs], which
    takes the contract to the state [d], and adds the entry [b].  Whether the payee accepts all of it depends only on
    what the payer can check: the reported definitions are those of outputs; the codex accepts the operation in the
    state [d], unless it is known; the inputs are distinct, with live seals; and the witness closes these seals over the
    operation, or there are none.  The state of the payee, and what the payee was sent before, do not matter. *)
Theorem C83_payment (on_chain : SealWitness P -> Prop) (c0 : Contract A) L l c L' l' c' bs b d t :
  keeps_cells A peek out gone -> remembers A -> faithful U -> needs_inputs A peek -> intact A peek c0 ->
  session_of A E c0 L l c -> session_of A E c0 L' l' c' ->
  on_one_chain (U:=U) on_chain (all_entries (contract_id A c0) (L ++ L' ++ [bs ++ [b]])) ->
  self_contained A c0 (history (contract_id A c0) (bs ++ [b])) ->
  bs <> [] -> accepts c bs d t ->
  (exists d' t', accepts c' (bs ++ [b]) d' t') <->
  (forall pos def, defined_seals b !! pos = Some def ->
     exists cell, cell ∈ op_destructible_out (operation b) /\ cell_auth cell = auth_token P def) /\
  (is_known A d (opid_of U (operation b)) = false ->
     exists v, codex_verify U (codex A d) (contract_id A c0) (operation b) (memory A d) (repo A d) = Ok v) /\
  exists closed, NoDup (input_addr <$> op_destructible_in (operation b)) /\
    Forall2 (live (U:=U) (history (contract_id A c0) bs)) (input_addr <$> op_destructible_in (operation b)) closed /\
    match witness b with
    | Some w => witness_closes w closed (message_from P (opid_bytes (opid_of U (operation b)))) = Ok tt
    | None => closed = []
    end.
Proof.
  intros H1 H2 H3 H4 Hint Hs Hs' Hch Hself Hne Hacc.
  assert (contract_id A c = contract_id A c0) as Hc.
  { apply (session_state A (E:=E) peek out gone H1 H2 H3 c0 l c Hint). by eapply session_of_session. }
  destruct (C53_chain_consensus A (E:=E) peek out gone on_chain c0 L l c L' l' c' (bs ++ [b])
    H1 H2 H3 H4 Hint Hs Hs' Hch Hself) as [_ Hiff].
  rewrite <-(Hiff (bs ++ [b])) by done. clear Hiff Hself Hch.
  apply evaluate_ok_iff in Hacc as (u & Hrun & _).
  assert (seen (contract_id A c) bs b = b) as Hseen by (by destruct bs).
  split.
  - intros (d' & u' & Hd). apply evaluate_ok_iff in Hd as (u'' & Hr & _).
    apply valid_run_snoc_inv in Hr as (t1 & c1 & Hr1 & (_ & Ht & (closed & [Hnd Hl] & Hcl) & Hv) & _ & _).
    destruct (valid_run_functional A _ _ _ _ _ _ Hrun Hr1) as [_ <-].
    rewrite Hseen, Hc in *. split; [exact Ht|]. split; [exact Hv|].
    exists closed. split; [exact Hnd|]. split; [exact Hl|exact Hcl].
  - intros (Ht & Hv & closed & Hnd & Hl & Hcl). eexists _, _. apply evaluate_ok_iff. eexists. split; [|done].
    eapply valid_run_snoc; [exact Hrun|]. unfold block_valid. cbv zeta. rewrite Hseen, Hc.
    split; [by intros ->|]. split; [exact Ht|]. split; [|exact Hv].
    exists closed. split; [split; [exact Hnd|exact Hl]|exact Hcl].
Qed.

(** In particular the payer can tell by evaluating the consignment, even in the state it has got after applying it: it is
    accepted by any party if and only if it is accepted by the payer. *)
Corollary C83_rehearsal (on_chain : SealWitness P -> Prop) (c0 : Contract A) L l c parties bs :
  keeps_cells A peek out gone -> remembers A -> faithful U -> needs_inputs A peek -> intact A peek c0 ->
  session_of A E c0 L l c ->
  Forall (fun p => session_of A E c0 p.1.1 p.1.2 p.2) parties ->
  on_one_chain (U:=U) on_chain (all_entries (contract_id A c0) (L ++ (parties ≫= fun p => p.1.1) ++ [bs])) ->
  self_contained A c0 (history (contract_id A c0) bs) ->
  (exists d t, accepts c bs d t) ->
  Forall (fun p => exists d t, accepts p.2 bs d t) parties.
Proof.
  intros H1 H2 H3 H4 Hint Hs Hps Hch Hself (d & t & Hacc). apply list.Forall_forall. intros p Hp.
  rewrite list.Forall_forall in Hps. specialize (Hps p Hp).
  assert (forall b, b ∈ all_entries (contract_id A c0) (L ++ p.1.1 ++ [bs]) ->
    b ∈ all_entries (contract_id A c0) (L ++ (parties ≫= fun p => p.1.1) ++ [bs])) as Hsub.
  { intros b. unfold all_entries. rewrite !elem_of_list_join. intros (x & Hb & Hx). exists x. split; [done|].
    apply elem_of_list_fmap in Hx as (y & -> & Hx). apply elem_of_list_fmap. exists y. split; [done|].
    rewrite !elem_of_app in *. destruct Hx as [Hx|[Hx|Hx]]; [by left| |by right; right].
    right. left. apply elem_of_list_bind. exists p. split; [exact Hx|exact Hp]. }
  destruct (C53_chain_consensus A (E:=E) peek out gone on_chain c0 L l c p.1.1 p.1.2 p.2 bs
    H1 H2 H3 H4 Hint Hs Hps) as [Hc _]; [|done|].
  - by eapply on_one_chain_sub.
  - destruct (Hc _ _ Hacc) as (d' & t' & H & _). by exists d', t'.
Qed.
End payment.

(** ** With bitcoin seals and the ledger which drops consumed cells: only facts about the chain, the ids and the
    reported definitions remain. *)
Corollary C83_bitcoin (B : BpCore) (spends : Tx B -> nat -> Outpoint -> Prop)
    (commits : Tx B -> nat -> MmbMessage B -> Prop) (on_chain : Tx B -> Prop)
    (S : Sonic) (E : Type) (c0 : TestContract (bitcoin B) S) L l c L' l' c' bs b d t :
  let A := spending_ledger (bitcoin B) S in
  let cid := tc_contract_id _ _ c0 in
  let h := all_entries cid (L ++ L' ++ [bs ++ [b]]) in
  sonic_local S -> sonic_needs S -> ledger_intact _ S c0 ->
  session_of A E c0 L l c -> session_of A E c0 L' l' c' ->
  closing_spends B spends commits -> one_message B commits -> spent_once B spends on_chain ->
  messages_differ (bitcoin B) ->
  anchored (bitcoin B) (mined B on_chain) h -> no_collisions (U:=sonic S) h h ->
  Forall positions_bound h -> all_settled h ->
  self_contained A c0 (history cid (bs ++ [b])) ->
  bs <> [] -> evaluate A (E:=E) c bs None = (d, t, Some (Ok tt)) ->
  (exists d' t', evaluate A (E:=E) c' (bs ++ [b]) None = (d', t', Some (Ok tt))) <->
  tokens_committed b /\ vm_accepts A cid d b /\
  exists closed, Spec.spends (U:=sonic S) (history cid bs) b closed /\ properly_closed (U:=sonic S) b closed.
Proof.
  intros A cid h Hlocal Hneeds Hint Hs Hs' Hcl Hone Hso Hmsg Han Hcol Hpos Hroots Hself Hne Hacc.
  rewrite (C83_payment A (E:=E) (ledger_peek _ S) outputs inputs_gone (mined B on_chain) c0 L l c L' l' c' bs b d t);
    [|by apply spending_keeps_cells|apply spending_remembers|apply sonic_faithful|by apply spending_needs_inputs
     |by apply ledger_intact_iff|done|done| |exact Hself|exact Hne|exact Hacc].
  - split.
    + intros (H1 & H2 & closed & H3 & H4 & H5). split; [exact H1|]. split; [exact H2|].
      exists closed. split; [split; [exact H3|exact H4]|exact H5].
    + intros (H1 & H2 & closed & [H3 H4] & H5). split; [exact H1|]. split; [exact H2|].
      exists closed. split; [exact H3|]. split; [exact H4|exact H5].
  - split; try done; intros s _; [by eapply bitcoin_single_use|by eapply bitcoin_closed_by_one].
Qed.

(** *** Concrete cases

    The payer, who has rejected a double spend and seen one branch, accepts the entries up to operation 4 and adds
    operation 5, whose only input is the cell with the seal of D.  Its checks hold, so the payee, who has seen the other
    branch only, accepts all of it, and so does a party which has seen nothing. *)
Definition upto_4 : list ToyBlock := [entry_g; entry_1; entry_3; entry_4].
Lemma upto_4_accepted : spend_accepts state_14 upto_4 (spend_after state_14 upto_4) (spend_log state_14 upto_4).
Proof. apply spend_evaluate. vm_refl. Qed.
Example C83_case :
  (exists d t, spend_accepts spent_35 (upto_4 ++ [entry_5]) d t) /\
  (exists d t, spend_accepts ledger (upto_4 ++ [entry_5]) d t) /\
  is_known spend_api state_14 id_5 = false /\ is_known spend_api spent_35 id_5 = true.
Proof.
  assert (spend_run state_14 branches = Some (Ok tt)) as Hr by vm_refl.
  pose proof (spend_evaluate _ _ _ Hr) as Hacc. clear Hr.
  pose proof (fun L' l' c' Hs' Hch => C83_payment spend_api (E:=Empty_set) (ledger_peek TP toy_sonic) outputs inputs_gone
    (toy_on_chain one_chain) ledger sent_14 log_14 state_14 L' l' c' upto_4 entry_5 _ _
    spend_keeps_cells (spending_remembers _ _) (sonic_faithful _) spend_needs_inputs spend_intact
    session_of_14 Hs' (toy_on_one_chain _ Hch) (toy_self_contained (upto_4 ++ [entry_5]) ltac:(vm_refl)) ltac:(intros [=]) upto_4_accepted) as H.
  pose proof (proj1 (H _ _ _ session_of_14 ltac:(vm_refl)) (ex_intro _ _ (ex_intro _ _ Hacc))) as Hchecks.
  split; [|split; [|split; vm_refl]].
  - refine (proj2 (H _ _ _ session_of_35 _) Hchecks). vm_refl.
  - refine (proj2 (H _ _ _ (session_of_start _ _ _) _) Hchecks). vm_refl.
Qed.

(** What is assumed of the chain is needed: a payer which has seen nothing accepts a witness which is not on the chain,
    and its operation; the payee, who knows of the transaction on the chain which closes the seal, rejects it. *)
Example C83_chain_needed :
  spend_run ledger ([entry_g] ++ [entry_v]) = Some (Ok tt) /\
  spend_run state_14 ([entry_g] ++ [entry_v]) = Some (Err (Vm (NoReadOnceInput (MkCellAddr id_g 0) : CallError TU))).
Proof. split; vm_refl. Qed.

Print Assumptions C83_payment.
Print Assumptions C83_rehearsal.
Print Assumptions C83_bitcoin.
Print Assumptions C83_case.
