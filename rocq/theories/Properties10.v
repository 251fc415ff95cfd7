(** * Property C56: one transaction commits to messages of several protocols *)
From Verif Require Import Protocols Properties3 Properties5 Properties7 LedgerCells Consensus Derived Scenario Counterexamples.
From Coq Require Import Lia.
Notation block := Verif.Concrete.block.

(** ** C56 Commitments for several protocols

    An input of a transaction commits to one message for each protocol; the anchor tells
    the protocol (Protocols.v).  The claim: still, all cells consumed while assigned to one
    outpoint are consumed by one operation of the contract. *)
Section chain.
Context (B : BpCore) {Protocol : Type} (protocol_of : Anchor B -> Protocol).
Context (spends : Tx B -> nat -> Outpoint -> Prop) (commits : Tx B -> nat -> Protocol -> MmbMessage B -> Prop).
Context {U : Ultrasonic} (A A' : ContractApi (bitcoin B) U) {E E' : Type}.
Notation accepted c0 bs c t := (evaluate A (E:=E) c0 bs None = (c, t, Some (Ok tt))).
Notation accepted' c0 bs c t := (evaluate A' (E:=E') c0 bs None = (c, t, Some (Ok tt))).
Notation id_of := (id_of (U:=U)).

(** The full claim, false of the code ([C56_one_contract_refuted]). *)
Definition C56_claim : Prop :=
  forall (on_chain : Tx B -> Prop) c0 (c0' : Contract A') bs bs' c (c' : Contract A') t t' i i' b b' a a' s s',
  contract_id A c0 = contract_id A' c0' ->
  closing_spends_for B protocol_of spends commits -> one_message_each B commits ->
  spent_once B spends on_chain -> messages_differ (bitcoin B) ->
  accepted c0 bs c t -> accepted' c0' bs' c' t' ->
  anchored (bitcoin B) (mined B on_chain) bs -> anchored (bitcoin B) (mined B on_chain) bs' ->
  let h := history (contract_id A c0) bs in
  let h' := history (contract_id A' c0') bs' in
  h !! i = Some b -> consumes b a -> live (U:=U) (take i h) a s ->
  h' !! i' = Some b' -> consumes b' a' -> live (U:=U) (take i' h') a' s' ->
  seal_primary (s : TxoSeal) = seal_primary (s' : TxoSeal) ->
  id_of b = id_of b'.

(** What holds: the outpoint is spent by one transaction; and by one operation for anchors
    which tell the same protocol.  Missing: `evaluate` does not compare what the anchor
    tells with the contract. *)
Theorem C56_one_contract_partial (on_chain : Tx B -> Prop)
    c0 (c0' : Contract A') bs bs' c (c' : Contract A') t t' i i' b b' a a' s s' :
  closing_spends_for B protocol_of spends commits -> one_message_each B commits ->
  spent_once B spends on_chain -> messages_differ (bitcoin B) ->
  accepted c0 bs c t -> accepted' c0' bs' c' t' ->
  anchored (bitcoin B) (mined B on_chain) bs -> anchored (bitcoin B) (mined B on_chain) bs' ->
  let h := history (contract_id A c0) bs in
  let h' := history (contract_id A' c0') bs' in
  h !! i = Some b -> consumes b a -> live (U:=U) (take i h) a s ->
  h' !! i' = Some b' -> consumes b' a' -> live (U:=U) (take i' h') a' s' ->
  seal_primary (s : TxoSeal) = seal_primary (s' : TxoSeal) ->
  exists w w', witness b = Some w /\ witness b' = Some w' /\ published w = published w' /\
    (protocol_of (client w) = protocol_of (client w') -> id_of b = id_of b').
Proof. exact (outpoint_protocol B protocol_of spends commits A A' on_chain c0 c0' bs bs' c c' t t' i i' b b' a a' s s'). Qed.

(** If all anchors tell the protocol [p] - say, that of the contract - seals are single-use
    after all, and the theorems with that premise (C31, C32, C35, C43, C53, C54) apply. *)
Theorem C56_protocol_bound (on_chain : Tx B -> Prop) p (h : list (OperationSeals (bitcoin B))) :
  closing_spends_for B protocol_of spends commits -> one_message_each B commits ->
  spent_once B spends on_chain -> messages_differ (bitcoin B) ->
  (forall b w, b ∈ h -> witness b = Some w -> on_chain (published w) /\ protocol_of (client w) = p) ->
  no_collisions (U:=U) h h -> Forall positions_bound h -> all_settled h ->
  exists genuine, on_one_chain (U:=U) genuine h.
Proof.
  intros Hcl Hone Hso Hmsg Hall Hcol Hpos Hroots. exists (mined_for B protocol_of on_chain p). split; try done.
  - intros s _. by eapply protocol_single_use.
  - intros s _. by eapply protocol_closed_by_one.
Qed.
End chain.

(** With C53: consensus on a chain, for the ledger which drops consumed cells. *)
Corollary C56_consensus (B : BpCore) {Protocol : Type} (protocol_of : Anchor B -> Protocol)
    (spends : Tx B -> nat -> Outpoint -> Prop) (commits : Tx B -> nat -> Protocol -> MmbMessage B -> Prop)
    (on_chain : Tx B -> Prop) p (S : Sonic) (E : Type) (c0 : TestContract (bitcoin B) S) L l c L' l' c' bs :
  let A := spending_ledger (bitcoin B) S in
  let h := all_entries (tc_contract_id _ _ c0) (L ++ L' ++ [bs]) in
  sonic_local S -> sonic_needs S -> ledger_intact _ S c0 ->
  session_of A E c0 L l c -> session_of A E c0 L' l' c' ->
  closing_spends_for B protocol_of spends commits -> one_message_each B commits ->
  spent_once B spends on_chain -> messages_differ (bitcoin B) ->
  (forall b w, b ∈ h -> witness b = Some w -> on_chain (published w) /\ protocol_of (client w) = p) ->
  no_collisions (U:=sonic S) h h -> Forall positions_bound h -> all_settled h ->
  self_contained A c0 (history (tc_contract_id _ _ c0) bs) ->
  (exists d t, evaluate A (E:=E) c bs None = (d, t, Some (Ok tt))) <->
  (exists d' t', evaluate A (E:=E) c' bs None = (d', t', Some (Ok tt))).
Proof.
  intros A h Hlocal Hneeds Hint Hs Hs' Hcl Hone Hso Hmsg Han Hcol Hpos Hroots Hself.
  destruct (C56_protocol_bound B protocol_of spends commits (U:=sonic S) on_chain p h Hcl Hone Hso Hmsg Han Hcol Hpos Hroots)
    as [genuine Hch].
  apply (C53_chain_consensus A (E:=E) (ledger_peek _ S) outputs inputs_gone genuine c0 L l c L' l' c' bs); try done.
  - by apply spending_keeps_cells.
  - apply spending_remembers.
  - apply sonic_faithful.
  - by apply spending_needs_inputs.
  - by apply ledger_intact_iff.
Qed.

(** *** A concrete world: transactions with commitments for numbered protocols *)
Record MultiTx := MkMultiTx { mtx_id : Txid; mtx_inputs : list Outpoint; mtx_commitments : gmap (N * N) bytes }.
Fixpoint multi_included (n : N) (ins : list Outpoint) (cs : gmap (N * N) bytes) (p : N) (o : Outpoint) (msg : bytes) : bool :=
  match ins with
  | [] => false
  | i :: ins' => bool_decide (i = o /\ cs !! (n, p) = Some msg) || multi_included (n + 1) ins' cs p o msg
  end.
(** The anchor is the number of the protocol. *)
Definition multi_verify (tx : MultiTx) (p : N) (seals : list TxoSeal) (msg : bytes) : result unit unit :=
  if forallb (fun s => multi_included 0 (mtx_inputs tx) (mtx_commitments tx) p (seal_primary s) msg) seals
  then Ok tt else Err tt.
Definition multi_bp : BpCore := {|
  Tx := MultiTx;
  Anchor := N;
  MmbMessage := bytes;
  BpSealError := unit;
  txid_of := mtx_id;
  commit_id := toy_commit_id;
  bp_message := fun m => m;
  wtxo_to_string := fun _ => ""%string;
  bp_verify := multi_verify
|}.
Notation MP := (bitcoin multi_bp).
Notation MultiBlock := (OperationSeals (bitcoin multi_bp)).
Definition multi_api : ContractApi MP TU := test_ledger MP toy_sonic.
Definition multi_protocol_of (a : Anchor multi_bp) : N := a.
Definition multi_spends (tx : Tx multi_bp) (i : nat) (o : Outpoint) : Prop := mtx_inputs (tx : MultiTx) !! i = Some o.
Definition multi_commits (tx : Tx multi_bp) (i : nat) (p : N) (m : MmbMessage multi_bp) : Prop :=
  mtx_commitments (tx : MultiTx) !! (N.of_nat i, p) = Some (m : bytes).

Lemma multi_included_inv n ins cs p o msg :
  multi_included n ins cs p o msg = true ->
  exists i, ins !! i = Some o /\ cs !! (n + N.of_nat i, p)%N = Some msg.
Proof.
  revert n. induction ins as [|x ins IH]; intros n H; [done|].
  cbn in H. apply orb_true_iff in H as [H|H].
  - apply bool_decide_eq_true in H as [-> H]. exists 0. split; [done|]. by rewrite N.add_0_r.
  - apply IH in H as (i & Hi & Hc). exists (S i). split; [done|]. rewrite <-Hc. do 2 f_equal. lia.
Qed.
Lemma multi_closing_spends : closing_spends_for multi_bp multi_protocol_of multi_spends multi_commits.
Proof.
  intros tx p seals m s Hv Hs. cbn in Hv. unfold multi_verify in Hv.
  destruct (forallb _ _) eqn:Hf; [|done]. rewrite forallb_forall in Hf.
  apply elem_of_list_In, Hf, multi_included_inv in Hs as (i & Hi & Hc). exists i. split; [exact Hi|exact Hc].
Qed.
Lemma multi_one_message : one_message_each multi_bp multi_commits.
Proof. intros tx i p m m' H H'. unfold multi_commits in *. rewrite H in H'. by injection H'. Qed.
Lemma multi_messages : messages_differ MP.
Proof. intros [o] [o'] H. cbn in H. by rewrite H. Qed.

(** One transaction, one input; for protocol 1 it commits to operation 1 of the scenario,
    for protocol 2 to another operation which consumes the same cell. *)
Definition tx_both : MultiTx :=
  MkMultiTx (MkTxid [1%N]) [out_a] (<[ (0%N, 1%N) := opid_bytes id_1 ]> {[ (0%N, 2%N) := opid_bytes id_v ]}).
Definition both_chain (tx : Tx multi_bp) : Prop := (tx : MultiTx) = tx_both.
Lemma both_spent_once : spent_once multi_bp multi_spends both_chain.
Proof.
  intros tx tx' i i' o -> -> Hi Hi'. split; [done|]. unfold multi_spends in Hi, Hi'.
  destruct i, i'; [done|discriminate Hi'|discriminate Hi|discriminate Hi].
Qed.
Definition mblock (op : Operation) (defs : list (N * WTxoSeal)) (w : option (SealWitness MP)) : MultiBlock :=
  MkOperationSeals op (list_to_map defs : gmap N (SealDef MP)) w.
Definition by_protocol (p : N) (tx : MultiTx) : SealWitness MP := MkSealWitness (P:=MP) tx p.
Definition m_entry_g : MultiBlock := mblock (as_genesis op_g) [(0%N, def_a)] None.
Definition m_entry_1 : MultiBlock := mblock op_1 [] (Some (by_protocol 1 tx_both)).
Definition m_entry_v : MultiBlock := mblock op_v [] (Some (by_protocol 2 tx_both)).
Definition multi_contract (cid : ContractId) (genesis : Operation) : TestContract MP toy_sonic := {|
  tc_codex := toy_codex : sonic_codex toy_sonic;
  tc_contract_id := cid;
  tc_libs := ∅;
  tc_global := ∅;
  tc_owned := insert_outputs (toy_opid genesis) 0 (op_destructible_out genesis) ∅;
  tc_known_ops := {[ toy_opid genesis := genesis ]};
  tc_seal_definitions := {[ toy_opid genesis := ∅ ]};
  tc_witnesses := {[ toy_opid genesis := [] ]} |}.
Definition multi_ledger : TestContract MP toy_sonic := multi_contract toy_cid op_g.
Definition multi_run c bs : option (result (VerificationError MP TU Empty_set) unit) := (evaluate multi_api c bs None).2.
Definition multi_after c bs := (evaluate multi_api (E:=Empty_set) c bs None).1.1.
Definition multi_log c bs := (evaluate multi_api (E:=Empty_set) c bs None).1.2.
Lemma multi_evaluate c bs r :
  multi_run c bs = Some r ->
  evaluate multi_api (E:=Empty_set) c bs None = (multi_after c bs, multi_log c bs, Some r).
Proof.
  unfold multi_run, multi_after, multi_log. destruct (evaluate _ _ _ _) as [[c' t'] r']. cbn. by intros ->.
Qed.
Notation multi_accepts c bs c' t :=
  (evaluate multi_api (E:=Empty_set) c bs None = (c', t, Some (Ok tt))).
Lemma run_1_accepted : multi_accepts multi_ledger [m_entry_g; m_entry_1]
  (multi_after multi_ledger [m_entry_g; m_entry_1]) (multi_log multi_ledger [m_entry_g; m_entry_1]).
Proof. apply multi_evaluate. vm_refl. Qed.
Lemma run_v_accepted : multi_accepts multi_ledger [m_entry_g; m_entry_v]
  (multi_after multi_ledger [m_entry_g; m_entry_v]) (multi_log multi_ledger [m_entry_g; m_entry_v]).
Proof. apply multi_evaluate. vm_refl. Qed.
Lemma multi_anchored g b p :
  witness g = None -> witness b = Some (by_protocol p tx_both) -> anchored MP (mined multi_bp both_chain) [g; b].
Proof.
  intros Hg Hb x w [->|[->|[]%elem_of_nil]%elem_of_cons]%elem_of_cons Hw; [congruence|].
  rewrite Hb in Hw. by injection Hw as <-.
Qed.
Lemma multi_live cid genesis b :
  cid = op_contract_id genesis ->
  live (U:=TU) (take 1 (history cid [mblock (as_genesis genesis) [(0%N, def_a)] None; b])) (MkCellAddr (toy_opid genesis) 0)
    (MkTxoSeal out_a (Noise [1%N]) : Seal MP).
Proof.
  intros ->. exists 0, (seen_first (op_contract_id genesis) (mblock (as_genesis genesis) [(0%N, def_a)] None)).
  split; [reflexivity|]. split.
  - split; [by destruct genesis|]. exists (def_a : SealDef MP). split; [reflexivity|]. left. reflexivity.
  - intros [|j] bj Hj Hb; [lia|]. discriminate Hb.
Qed.

(** C56 is false: one contract, one outpoint, spent once on the chain, and two different
    operations consume the cell assigned to it in two accepted consignments. *)
Theorem C56_one_contract_refuted :
  ~ C56_claim multi_bp multi_protocol_of multi_spends multi_commits multi_api multi_api (E:=Empty_set) (E':=Empty_set).
Proof.
  intros H.
  assert (id_1 <> id_v) as Hne by (apply (bool_decide_unpack _); by vm_compute). apply Hne.
  apply (H both_chain multi_ledger multi_ledger [m_entry_g; m_entry_1] [m_entry_g; m_entry_v] _ _ _ _ 1 1
    m_entry_1 m_entry_v (MkCellAddr id_g 0) (MkCellAddr id_g 0) (MkTxoSeal out_a (Noise [1%N])) (MkTxoSeal out_a (Noise [1%N]))
    eq_refl multi_closing_spends multi_one_message both_spent_once multi_messages run_1_accepted run_v_accepted).
  - exact (multi_anchored m_entry_g m_entry_1 1%N eq_refl eq_refl).
  - exact (multi_anchored m_entry_g m_entry_v 2%N eq_refl eq_refl).
  - reflexivity.
  - left.
  - exact (multi_live toy_cid op_g m_entry_1 eq_refl).
  - reflexivity.
  - left.
  - exact (multi_live toy_cid op_g m_entry_v eq_refl).
  - reflexivity.
Qed.

(** What it is for: two contracts use one outpoint, and one transaction serves both. *)
Definition cid_2 : ContractId := MkContractId [8%N; 8%N].
Definition op_h2 : Operation := toy_op cid_2 1 [] [def_a; def_b].
Definition op_s2 : Operation := toy_op cid_2 2 [MkCellAddr (toy_opid op_h2) 0] [def_d].
Definition tx_shared : MultiTx :=
  MkMultiTx (MkTxid [1%N]) [out_a] (<[ (0%N, 1%N) := opid_bytes id_1 ]> {[ (0%N, 2%N) := opid_bytes (toy_opid op_s2) ]}).
Definition multi_ledger_2 : TestContract MP toy_sonic := multi_contract cid_2 op_h2.
Example C56_case :
  (exists d t, multi_accepts multi_ledger [m_entry_g; mblock op_1 [] (Some (by_protocol 1 tx_shared))] d t) /\
  (exists d t, multi_accepts multi_ledger_2 [mblock (as_genesis op_h2) [(0%N, def_a)] None;
     mblock op_s2 [] (Some (by_protocol 2 tx_shared))] d t) /\
  (* with the anchor of the other contract, the operation is rejected *)
  multi_run multi_ledger_2 [mblock (as_genesis op_h2) [(0%N, def_a)] None;
     mblock op_s2 [] (Some (by_protocol 1 tx_shared))] =
  Some (Err (SealsNotClosed (MkTxid [1%N] : WitnessId MP) (toy_opid op_s2) (tt : SealError MP))).
Proof.
  split; [|split].
  - eexists _, _. apply multi_evaluate. vm_refl.
  - eexists _, _. apply multi_evaluate. vm_refl.
  - vm_refl.
Qed.

(** The premises of the partial theorem, in the same world. *)
Example C56_case_partial :
  closing_spends_for multi_bp multi_protocol_of multi_spends multi_commits /\
  one_message_each multi_bp multi_commits /\ spent_once multi_bp multi_spends both_chain /\ messages_differ MP /\
  exists w w', witness m_entry_1 = Some w /\ witness m_entry_v = Some w' /\ published w = published w' /\
    multi_protocol_of (client w) <> multi_protocol_of (client w').
Proof.
  split; [exact multi_closing_spends|]. split; [exact multi_one_message|]. split; [exact both_spent_once|].
  split; [exact multi_messages|].
  destruct (C56_one_contract_partial multi_bp multi_protocol_of multi_spends multi_commits multi_api multi_api
    (E:=Empty_set) (E':=Empty_set) both_chain multi_ledger multi_ledger [m_entry_g; m_entry_1] [m_entry_g; m_entry_v] _ _ _ _ 1 1
    m_entry_1 m_entry_v (MkCellAddr id_g 0) (MkCellAddr id_g 0) (MkTxoSeal out_a (Noise [1%N])) (MkTxoSeal out_a (Noise [1%N]))
    multi_closing_spends multi_one_message both_spent_once multi_messages run_1_accepted run_v_accepted
    (multi_anchored m_entry_g m_entry_1 1%N eq_refl eq_refl) (multi_anchored m_entry_g m_entry_v 2%N eq_refl eq_refl)
    eq_refl (elem_of_list_here _ _) (multi_live toy_cid op_g m_entry_1 eq_refl)
    eq_refl (elem_of_list_here _ _) (multi_live toy_cid op_g m_entry_v eq_refl) eq_refl) as (w & w' & Hw & Hw' & Hp & Hid).
  exists w, w'. split; [exact Hw|]. split; [exact Hw'|]. split; [exact Hp|]. intros Heq. specialize (Hid Heq).
  assert (id_1 <> id_v) as Hne by (apply (bool_decide_unpack _); by vm_compute). exact (Hne Hid).
Qed.

(** All anchors tell protocol 1. *)
Lemma m_entry_g_defs cid pos (d : SealDef MP) :
  defined_seals (seen_first cid m_entry_g) !! pos = Some d -> pos = 0%N /\ d = def_a.
Proof.
  intros H. assert ((pos, d) ∈ [(0%N, def_a : SealDef MP)]) as Hin.
  { apply elem_of_list_to_map_2. exact H. }
  apply elem_of_list_singleton in Hin. by injection Hin as -> ->.
Qed.
Example C56_case_bound :
  exists genuine, on_one_chain (U:=TU) genuine (history toy_cid [m_entry_g; m_entry_1]).
Proof.
  assert (forall b pos (d : SealDef MP), b ∈ history toy_cid [m_entry_g; m_entry_1] -> defined_seals b !! pos = Some d ->
    b = seen_first toy_cid m_entry_g /\ pos = 0%N /\ d = def_a) as Hdefs.
  { intros b pos d [->|[->|[]%elem_of_nil]%elem_of_cons]%elem_of_cons Hd.
    - split; [done|]. exact (m_entry_g_defs _ _ _ Hd).
    - cbn in Hd. by rewrite lookup_empty in Hd. }
  apply (C56_protocol_bound multi_bp multi_protocol_of multi_spends multi_commits both_chain 1%N _
    multi_closing_spends multi_one_message both_spent_once multi_messages).
  - intros b w [->|[->|[]%elem_of_nil]%elem_of_cons]%elem_of_cons Hw; [discriminate|]. by injection Hw as <-.
  - split.
    + intros b b' _ _. apply toy_opid_inj.
    + intros b b' pos pos' d d' Hb Hb' Hd Hd' _.
      destruct (Hdefs _ _ _ Hb Hd) as (_ & _ & ->). by destruct (Hdefs _ _ _ Hb' Hd') as (_ & _ & ->).
  - apply list.Forall_forall. intros b Hb pos d Hd. destruct (Hdefs _ _ _ Hb Hd) as (-> & -> & ->).
    eexists. split; [reflexivity|]. reflexivity.
  - intros b b' pos d Hb _ _ _ Hd. destruct (Hdefs _ _ _ Hb Hd) as (-> & -> & ->). discriminate.
Qed.

Print Assumptions C56_one_contract_partial.
Print Assumptions C56_one_contract_refuted.
Print Assumptions C56_protocol_bound.
Print Assumptions C56_consensus.
