(** * Properties, part 31: what is received is safe until its outpoint is spent

    C81: a cell which was received - revealed in an accepted consignment - with a seal is consumed by nobody, unless
    a witness on the chain closes this very seal over the operation consuming it. *)
From Verif Require Import CellFacts LedgerCells Refine Effects Consensus Sharing Scenario Counterexamples
  DoubleSpend BitcoinChain Derived Properties1 Properties3 Properties5 Properties6 Properties7 Properties27 Properties28
  Properties29 Properties30.
Notation block := Verif.Concrete.block.

Section custody.
Context {P : SealProtocol} {U : Ultrasonic} (A : ContractApi P U) {E : Type}.
Context (cells : Contract A -> gmap CellAddr StateCell).
Notation Block := (OperationSeals P).
Notation ins op := (input_addr <$> op_destructible_in op).
Notation party := (list (list Block) * list (call P U) * Contract A)%type.
Notation accepted c0 bs c t := (evaluate A (E:=E) c0 bs None = (c, t, Some (Ok tt))).

(** The cell [a] was received with the seal [s]: an entry of a consignment among [L], in a part which is accepted,
    reveals it. *)
Definition received (cid : ContractId) (L : list (list Block)) (a : CellAddr) (s : Seal P) : Prop :=
  exists bs pre c c' t b, bs ∈ L /\ pre `prefix_of` bs /\ contract_id A c = cid /\
    accepted c pre c' t /\ b ∈ history cid pre /\ reveals (U:=U) b a s.

Lemma received_sound on_chain cid L op a s :
  on_one_chain (U:=U) on_chain (all_entries cid L) -> received cid L a s -> accepted_in A (E:=E) cid L op ->
  a ∈ ins op ->
  exists w closed, on_chain w /\ s ∈ closed /\
    witness_closes w closed (message_from P (opid_bytes (opid_of U op))) = Ok tt.
Proof.
  intros Hch (bs0 & pre0 & c0 & c0' & t0 & b0 & Hbs0 & Hp0 & Hc0 & Hacc0 & Hb0 & Hr) H Ha.
  assert (history cid pre0 ⊆ all_entries cid L) as Hsub0.
  { intros x Hx. eapply all_entries_elem; [done|]. by eapply history_prefix. }
  assert (anchored P on_chain pre0) as Han0.
  { pose proof (chain_anchored _ _ Hch) as Han. intros x w Hx Hw.
    destruct pre0 as [|y pre0]; [by apply elem_of_nil in Hx|]. apply elem_of_cons in Hx as [->|Hx].
    - apply (Han (seen_first cid y)); [|done]. apply Hsub0. by left.
    - apply (Han x); [|done]. apply Hsub0. cbn. by right. }
  destruct (accepted_in_sound A _ _ _ _ Hch H) as (pre & c & c' & t & b & Hc & Hacc & Hb & <- & Hsub & Han).
  destruct Hch as [Hsu Hone Hmsg _ [Hops Hdefs] Hpos Hroots].
  apply elem_of_list_lookup in Hb as [i Hi], Hb0 as [i0 Hi0].
  rewrite list.Forall_forall in Hpos.
  assert (history (contract_id A c) pre !! i = Some b) as Hi' by (by rewrite Hc).
  destruct (consumption A c _ _ _ _ _ _ Hacc Hi' Ha) as (w & closed & s1 & Hw & _ & Hl & Hs1 & Hcl).
  apply live_revealed in Hl as (k & bk & _ & Hk & Hrk).
  assert (s1 = s) as ->.
  { assert (history (contract_id A c0) pre0 !! i0 = Some b0) as Hi0' by (by rewrite Hc0).
    refine (seals_agree A A on_chain c c0 pre pre0 c' c0' t t0 Hacc Hacc0 Han Han0 _ _ _ _ _
      k i0 bk b0 a s1 s Hk Hrk Hi0' Hr); rewrite ?Hc, ?Hc0.
    - intros x Hx. apply Hone. exact (denoted_sub _ _ x Hsub Hx).
    - split.
      + intros x x' Hx Hx'. apply Hops; auto.
      + intros x x' p p' d d' Hx Hx'. apply (Hdefs x x'); auto.
    - apply list.Forall_forall. auto.
    - apply list.Forall_forall. auto.
    - apply list.Forall_forall. intros x Hx Hin p d Hd Hn. apply (Hroots x x p d); auto. }
  exists w, closed. split; [|done].
  eapply (history_anchored on_chain _ _ Han); [|done]. by eapply elem_of_list_lookup_2.
Qed.

Hypothesis Hcells : creates_outputs A cells.
Hypothesis Hfaith : faithful U.

(** Who consumes a received cell has closed its seal on the chain, over the operation consuming it. *)
Theorem C81_custody on_chain (c0 : Contract A) (parties : list party) a s p op :
  (forall L l c, (L, l, c) ∈ parties -> session_of A E c0 L l c) ->
  on_one_chain (U:=U) on_chain (all_entries (contract_id A c0) (parties ≫= fun p => p.1.1)) ->
  received (contract_id A c0) (parties ≫= fun p => p.1.1) a s ->
  p ∈ parties -> op ∈ applied_operations p.1.2 -> a ∈ ins op ->
  exists w closed, on_chain w /\ s ∈ closed /\
    witness_closes w closed (message_from P (opid_bytes (opid_of U op))) = Ok tt.
Proof.
  intros Hpart Hch Hr Hp Hop Ha. eapply received_sound; [done|done| |done].
  destruct p as [[L l] c].
  eapply accepted_in_sub; [|eapply (session_accepted A cells Hcells Hfaith); [by apply Hpart|done]].
  intros x Hx. apply elem_of_list_bind. by exists (L, l, c).
Qed.

(** As long as no witness on the chain closes the seal, the cell is open. *)
Theorem C81_unspent_open on_chain (c0 : Contract A) (parties : list party) a s x :
  (forall L l c, (L, l, c) ∈ parties -> session_of A E c0 L l c) ->
  on_one_chain (U:=U) on_chain (all_entries (contract_id A c0) (parties ≫= fun p => p.1.1)) ->
  received (contract_id A c0) (parties ≫= fun p => p.1.1) a s ->
  (forall w closed m, on_chain w -> s ∈ closed -> witness_closes w closed m <> Ok tt) ->
  (cells c0 !! a = Some x \/
   exists p op, p ∈ parties /\ op ∈ applied_operations p.1.2 /\ output_of (U:=U) op a x) ->
  open_cell A cells c0 parties a x.
Proof.
  intros Hpart Hch Hr Hun Hx. split; [done|]. intros p op Hp Hop Ha.
  destruct (C81_custody on_chain c0 parties a s p op Hpart Hch Hr Hp Hop Ha) as (w & closed & Hw & Hs & Hcl).
  by apply (Hun w closed _ Hw Hs) in Hcl.
Qed.
End custody.

(** With bitcoin seals, and with the very ledger of the test-suite: a transaction on the chain spends the outpoint of
    the seal, and commits to the operation. *)
Corollary C81_bitcoin (B : BpCore) (spends : Tx B -> nat -> Outpoint -> Prop)
    (commits : Tx B -> nat -> MmbMessage B -> Prop) (on_chain : Tx B -> Prop)
    (S : Sonic) (E : Type) (c0 : TestContract (bitcoin B) S)
    (parties : list (list (list (OperationSeals (bitcoin B))) * list (call (bitcoin B) (sonic S)) * TestContract (bitcoin B) S))
    (a : CellAddr) (s : Seal (bitcoin B)) p op :
  let A := test_ledger (bitcoin B) S in
  let h := all_entries (tc_contract_id _ _ c0) (parties ≫= fun p => p.1.1) in
  (forall L l c, (L, l, c) ∈ parties -> session_of A E c0 L l c) ->
  closing_spends B spends commits -> one_message B commits -> spent_once B spends on_chain ->
  messages_differ (bitcoin B) ->
  anchored (bitcoin B) (mined B on_chain) h -> no_collisions (U:=sonic S) h h ->
  Forall positions_bound h -> all_settled h ->
  received A (E:=E) (tc_contract_id _ _ c0) (parties ≫= fun p => p.1.1) a s ->
  p ∈ parties -> op ∈ applied_operations p.1.2 -> a ∈ input_addr <$> op_destructible_in op ->
  exists tx i, on_chain tx /\ spends tx i (seal_primary s) /\
    commits tx i (message_from (bitcoin B) (opid_bytes (sonic_opid S op))).
Proof.
  intros A h Hs Hcl Hone Hso Hmsg Han Hcol Hpos Hroots Hr Hp Hop Ha.
  destruct (C81_custody A (E:=E) (tc_owned _ _) (ledger_creates_outputs _ S) (sonic_faithful S)
    (mined B on_chain) c0 parties a s p op Hs) as (w & closed & Hw & Hin & Hv); [|done|done|done|done|].
  - split; try done; intros x _; [by eapply bitcoin_single_use|by eapply bitcoin_closed_by_one].
  - destruct (Hcl _ _ _ _ _ Hv Hin) as (i & Hi & Hm). by exists (published w), i.
Qed.

(** ** Cases

    The 3 of the first payment are received at [def_c]; the other parties are those of C80. Nobody has spent [out_c]:
    the 3 are there. The 2, received at the first output of the first transaction, are spent by the second one. *)
Definition entry_p1c : ToyBlock := block pay_1 [(1%N, def_c)] (Some (wit (tx_of 1 out_a id_p1))).
Definition four : list (list ToyBlock) := [entry_m; entry_p1c] :: three.
Definition sealed (d : WTxoSeal) (o : Outpoint) : Seal TP := MkTxoSeal o (wseal_secondary d).
Definition four_parties := party_of exact_sonic exact_api exact_purse <$> four.

Lemma toy_received (S : Sonic) (A : ContractApi TP (sonic S)) (c0 : Contract A) (lbs : list (list ToyBlock)) bs b a s :
  bs ∈ lbs -> (evaluate A (E:=Empty_set) c0 bs None).2 = Some (Ok tt) ->
  b ∈ history (contract_id A c0) bs -> reveals (U:=sonic S) b a s ->
  received A (E:=Empty_set) (contract_id A c0) ((party_of S A c0 <$> lbs) ≫= fun p => p.1.1) a s.
Proof.
  intros Hbs Hev Hb Hr. destruct (evaluate A c0 bs None) as [[d t] r] eqn:He. cbn in Hev. subst r.
  exists bs, bs, c0, d, t, b. split; [|done]. apply elem_of_list_bind. exists (party_of S A c0 bs).
  split; [apply elem_of_list_here|]. by apply elem_of_list_fmap_1.
Qed.
Lemma four_sessions L l c : (L, l, c) ∈ four_parties -> session_of exact_api Empty_set exact_purse L l c.
Proof. apply parties_session. apply (bool_decide_unpack _). by vm_compute. Qed.
Lemma four_chain :
  on_one_chain (U:=sonic exact_sonic) (toy_on_chain exact_chain) (all_entries toy_cid (four_parties ≫= fun p => p.1.1)).
Proof.
  apply toy_one_chain; [reflexivity| |].
  - unfold toy_chain. apply (bool_decide_unpack _). by vm_compute.
  - vm_refl.
Qed.
Lemma toy_unspent (ch : list ToyTx) (s : Seal TP) :
  forallb (fun tx => bool_decide (seal_primary s ∉ tx_inputs tx)) ch = true ->
  forall (w : SealWitness TP) closed m, toy_on_chain ch w -> s ∈ closed -> witness_closes w closed m <> Ok tt.
Proof.
  intros H w closed m Hw Hs Hv. destruct (toy_closing_spends _ _ _ _ _ Hv Hs) as (i & Hi & _).
  rewrite forallb_forall in H. apply elem_of_list_In, H, bool_decide_eq_true in Hw.
  apply Hw. by eapply elem_of_list_lookup_2.
Qed.
Lemma exact_chain_valid : toy_chain exact_chain.
Proof. unfold toy_chain. apply (bool_decide_unpack _). by vm_compute. Qed.
Example C81_case :
  open_cell exact_api (tc_owned _ _) exact_purse four_parties (MkCellAddr id_p1 1) (piece 3 def_c) /\
  exists (tx : ToyTx) (i : nat), tx ∈ exact_chain /\ toy_spends tx i (MkOutpoint (MkTxid [1%N]) 0) /\ toy_commits tx i (opid_bytes id_pe).
Proof.
  split.
  - refine (C81_unspent_open exact_api (E:=Empty_set) (tc_owned _ _) (ledger_creates_outputs _ _) (sonic_faithful _)
      (toy_on_chain exact_chain) exact_purse four_parties (MkCellAddr id_p1 1) (sealed def_c out_c) (piece 3 def_c)
      four_sessions four_chain _ _ _).
    + apply (toy_received exact_sonic exact_api exact_purse four [entry_m; entry_p1c] entry_p1c).
      * left.
      * vm_refl.
      * right. left.
      * split; [vm_refl|]. exists def_c. split; [vm_refl|]. left. vm_refl.
    + apply toy_unspent. vm_refl.
    + right. exists (party_of exact_sonic exact_api exact_purse [entry_m; entry_p1c]), pay_1. split; [left|].
      split; [|split; vm_refl]. assert (applied_operations (log_of exact_sonic exact_api exact_purse [entry_m; entry_p1c]) = [pay_1])
        as H by vm_refl. unfold party_of. cbn [fst snd]. rewrite H. left.
  - refine (C81_bitcoin toy_bp toy_spends toy_commits (fun tx => tx ∈ exact_chain) exact_sonic Empty_set exact_purse four_parties
      (MkCellAddr id_p1 0) (sealed def_w (MkOutpoint (MkTxid [1%N]) 0))
      (party_of exact_sonic exact_api exact_purse [entry_m; entry_p1; entry_pe]) pay_exact
      four_sessions toy_closing_spends toy_one_message (toy_spent_once _ exact_chain_valid) _ _ _ _ _ _ _ _ _).
    1-5: destruct four_chain as [_ _ H3 H4 H5 H6 H7]; assumption.
    + apply (toy_received exact_sonic exact_api exact_purse four [entry_m; entry_p1] entry_p1).
      * do 2 right. left.
      * vm_refl.
      * right. left.
      * split; [vm_refl|]. exists def_w. split; [vm_refl|]. right. split; [vm_refl|].
        exists (wit (tx_of 1 out_a id_p1)). split; vm_refl.
    + right. left.
    + assert (applied_operations (log_of exact_sonic exact_api exact_purse [entry_m; entry_p1; entry_pe]) = [pay_1; pay_exact])
        as H by vm_refl. unfold party_of. cbn [fst snd]. rewrite H. right. left.
    + left.
Qed.


(** If the positions of reported definitions are not bound to the outputs, what is received can be stolen. The thief,
    who got the 2 at the first output of the first transaction, reports their definition at the position of the 3, and
    consumes the 3 with the seal of the 2. The consignment is accepted; all other premises hold. *)
Definition theft : Operation := pay_op 7 [MkCellAddr id_p1 1] [(def_d, 3%N)].
Definition entry_p1t : ToyBlock := block pay_1 [(1%N, def_w)] (Some (wit (tx_of 1 out_a id_p1))).
Definition tx_theft : ToyTx := tx_of 7 (MkOutpoint (MkTxid [1%N]) 0) (toy_opid theft).
Definition entry_theft : ToyBlock := block theft [(0%N, def_d)] (Some (wit tx_theft)).
Definition robbed : list (list ToyBlock) := [[entry_m; entry_p1c]; [entry_m; entry_p1t; entry_theft]].
Definition theft_chain : list ToyTx := [tx_of 1 out_a id_p1; tx_theft].
Example C81_positions_needed :
  let parties := party_of exact_sonic exact_api exact_purse <$> robbed in
  let h := all_entries toy_cid (parties ≫= fun p => p.1.1) in
  (forall L l c, (L, l, c) ∈ parties -> session_of exact_api Empty_set exact_purse L l c) /\
  (forall s, single_use TP (toy_on_chain theft_chain) s) /\ (forall s, closed_by_one TP (toy_on_chain theft_chain) s) /\
  messages_differ TP /\ anchored TP (toy_on_chain theft_chain) h /\ no_collisions (U:=sonic exact_sonic) h h /\
  all_settled h /\
  received exact_api (E:=Empty_set) toy_cid (parties ≫= fun p => p.1.1) (MkCellAddr id_p1 1) (sealed def_c out_c) /\
  (forall (w : SealWitness TP) closed m, toy_on_chain theft_chain w -> sealed def_c out_c ∈ closed ->
     witness_closes w closed m <> Ok tt) /\
  exists p, p ∈ parties /\ theft ∈ applied_operations p.1.2 /\
    MkCellAddr id_p1 1 ∈ input_addr <$> op_destructible_in theft.
Proof.
  intros parties h.
  destruct (toy_sound_world every_seal theft_chain all_defs h h) as (H1 & H2 & H3 & H4 & _ & H5).
  { unfold toy_chain. apply (bool_decide_unpack _). by vm_compute. }
  { vm_refl. }
  { vm_refl. }
  split; [|split; [|split; [|split; [|split; [|split; [|split; [|split; [|split]]]]]]]].
  - apply parties_session. apply (bool_decide_unpack _). by vm_compute.
  - intros s. by apply H1.
  - intros s. by apply H2.
  - exact H3.
  - exact H4.
  - exact H5.
  - apply toy_all_settled. vm_refl.
  - apply (toy_received exact_sonic exact_api exact_purse robbed [entry_m; entry_p1c] entry_p1c).
    + left.
    + vm_refl.
    + right. left.
    + split; [vm_refl|]. exists def_c. split; [vm_refl|]. left. vm_refl.
  - apply toy_unspent. vm_refl.
  - exists (party_of exact_sonic exact_api exact_purse [entry_m; entry_p1t; entry_theft]). split; [right; left|]. split; [|left].
    assert (applied_operations (log_of exact_sonic exact_api exact_purse [entry_m; entry_p1t; entry_theft]) = [pay_1; theft])
      as H by vm_refl. unfold party_of. cbn [fst snd]. rewrite H. right. left.
Qed.
Print Assumptions C81_custody.
Print Assumptions C81_bitcoin.
Print Assumptions C81_positions_needed.
