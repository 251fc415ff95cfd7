(** * Property C57: seals with a fallback outpoint *)
From Verif Require Import Fallback Properties3 Properties5 Properties7 LedgerCells Consensus Derived Scenario Counterexamples.
From Coq Require Import Lia.
Notation block := Verif.Concrete.block.

(** ** C57 Seals with a fallback outpoint

    A closing spends the primary outpoint of the seal or its fallback (Fallback.v).  The
    claim: still, on a chain without double spends, all cells consumed while assigned to one
    seal are consumed by one operation. *)
Section chain.
Context (B : BpCore) (spends : Tx B -> nat -> Outpoint -> Prop) (commits : Tx B -> nat -> MmbMessage B -> Prop).
Context {U : Ultrasonic} (A A' : ContractApi (bitcoin B) U) {E E' : Type}.
Notation accepted c0 bs c t := (evaluate A (E:=E) c0 bs None = (c, t, Some (Ok tt))).
Notation accepted' c0 bs c t := (evaluate A' (E:=E') c0 bs None = (c, t, Some (Ok tt))).
Notation id_of := (id_of (U:=U)).
Notation message_of := (message_of (U:=U)).
Notation live := (live (P:=bitcoin B) (U:=U)).

(** The full claim, false of the code ([C57_one_seal_refuted]). *)
Definition C57_claim : Prop :=
  forall (on_chain : Tx B -> Prop) c0 (c0' : Contract A') bs bs' c (c' : Contract A') t t' i i' b b' a a' (s : TxoSeal),
  closing_spends_either B spends commits -> one_message B commits ->
  spent_once B spends on_chain -> messages_differ (bitcoin B) ->
  accepted c0 bs c t -> accepted' c0' bs' c' t' ->
  anchored (bitcoin B) (mined B on_chain) bs -> anchored (bitcoin B) (mined B on_chain) bs' ->
  let h := history (contract_id A c0) bs in
  let h' := history (contract_id A' c0') bs' in
  h !! i = Some b -> consumes b a -> live (take i h) a s ->
  h' !! i' = Some b' -> consumes b' a' -> live (take i' h') a' s ->
  id_of b = id_of b'.

(** What holds: if the operations differ, then one outpoint of the seal is spent for the one
    and the other outpoint for the other.  Missing: `evaluate` does not know, and cannot ask,
    whether the other outpoint has been spent. *)
Theorem C57_one_seal_partial (on_chain : Tx B -> Prop)
    c0 (c0' : Contract A') bs bs' c (c' : Contract A') t t' i i' b b' a a' (s : TxoSeal) :
  closing_spends_either B spends commits -> one_message B commits ->
  spent_once B spends on_chain -> messages_differ (bitcoin B) ->
  accepted c0 bs c t -> accepted' c0' bs' c' t' ->
  anchored (bitcoin B) (mined B on_chain) bs -> anchored (bitcoin B) (mined B on_chain) bs' ->
  let h := history (contract_id A c0) bs in
  let h' := history (contract_id A' c0') bs' in
  h !! i = Some b -> consumes b a -> live (take i h) a s ->
  h' !! i' = Some b' -> consumes b' a' -> live (take i' h') a' s ->
  id_of b = id_of b' \/
  exists w w' n n' o o', witness b = Some w /\ witness b' = Some w' /\
    closes_at s o /\ closes_at s o' /\ o <> o' /\
    spends (published w) n o /\ commits (published w) n (message_of b) /\
    spends (published w') n' o' /\ commits (published w') n' (message_of b').
Proof. exact (one_seal_either B spends commits A A' on_chain c0 c0' bs bs' c c' t t' i i' b b' a a' s). Qed.

(** In particular seals without fallback are consumed by one operation. *)
Corollary C57_noise (on_chain : Tx B -> Prop)
    c0 (c0' : Contract A') bs bs' c (c' : Contract A') t t' i i' b b' a a' o n :
  closing_spends_either B spends commits -> one_message B commits ->
  spent_once B spends on_chain -> messages_differ (bitcoin B) ->
  accepted c0 bs c t -> accepted' c0' bs' c' t' ->
  anchored (bitcoin B) (mined B on_chain) bs -> anchored (bitcoin B) (mined B on_chain) bs' ->
  let h := history (contract_id A c0) bs in
  let h' := history (contract_id A' c0') bs' in
  h !! i = Some b -> consumes b a -> live (take i h) a (MkTxoSeal o (Noise n)) ->
  h' !! i' = Some b' -> consumes b' a' -> live (take i' h') a' (MkTxoSeal o (Noise n)) ->
  id_of b = id_of b'.
Proof.
  intros Hcl Hone Hso Hmsg Hacc Hacc' Hch Hch' h h' Hi Ha Hs Hi' Ha' Hs'.
  destruct (C57_one_seal_partial on_chain c0 c0' bs bs' c c' t t' i i' b b' a a' _
    Hcl Hone Hso Hmsg Hacc Hacc' Hch Hch' Hi Ha Hs Hi' Ha' Hs')
    as [H|(w & w' & k & k' & x & x' & _ & _ & [Hx|Hx] & [Hx'|Hx'] & Hne & _)]; [done| | | |];
    cbn in Hx, Hx'; congruence.
Qed.

(** An accepted consumption spends an outpoint that the last entry revealing a seal for the
    cell names: as the place of the cell, or as its fallback. *)
Theorem C57_consumption_spends c0 bs c t i b a :
  closing_spends_either B spends commits -> accepted c0 bs c t ->
  let h := history (contract_id A c0) bs in
  h !! i = Some b -> consumes b a ->
  exists w n o k bk s, witness b = Some w /\ spends (published w) n o /\ commits (published w) n (message_of b) /\
    live (take i h) a s /\ closes_at s o /\
    k < i /\ h !! k = Some bk /\ id_of bk = cell_opid a /\ names B bk (cell_pos a) o.
Proof. intros Hcl Hacc. exact (consumption_spends_either B spends commits A c0 bs c t i b a Hcl Hacc). Qed.

(** If of no seal denoted by the entries both outpoints are spent on the chain, then these
    seals are single-use, and the theorems with that premise (C32, C35, C43, C53, C54) apply. *)
Theorem C57_exclusive (on_chain : Tx B -> Prop) (h : list (OperationSeals (bitcoin B))) :
  closing_spends_either B spends commits -> one_message B commits ->
  spent_once B spends on_chain -> messages_differ (bitcoin B) ->
  anchored (bitcoin B) (mined B on_chain) h ->
  (forall s : TxoSeal, denoted (bitcoin B) h s -> exclusive B spends on_chain s) ->
  no_collisions (U:=U) h h -> Forall positions_bound h -> all_settled h ->
  on_one_chain (U:=U) (mined B on_chain) h.
Proof.
  intros Hcl Hone Hso Hmsg Han Hex Hcol Hpos Hroots. split; try done.
  - intros s Hs. apply (fallback_single_use B spends commits on_chain s); auto.
  - intros s Hs. apply (fallback_closed_by_one B spends commits on_chain s); auto.
Qed.
End chain.

(** With C53: consensus on a chain, for the ledger which drops consumed cells. *)
Corollary C57_consensus (B : BpCore) (spends : Tx B -> nat -> Outpoint -> Prop) (commits : Tx B -> nat -> MmbMessage B -> Prop)
    (on_chain : Tx B -> Prop) (S : Sonic) (E : Type) (c0 : TestContract (bitcoin B) S) L l c L' l' c' bs :
  let A := spending_ledger (bitcoin B) S in
  let h := all_entries (tc_contract_id _ _ c0) (L ++ L' ++ [bs]) in
  sonic_local S -> sonic_needs S -> ledger_intact _ S c0 ->
  session_of A E c0 L l c -> session_of A E c0 L' l' c' ->
  closing_spends_either B spends commits -> one_message B commits ->
  spent_once B spends on_chain -> messages_differ (bitcoin B) ->
  anchored (bitcoin B) (mined B on_chain) h ->
  (forall s : TxoSeal, denoted (bitcoin B) h s -> exclusive B spends on_chain s) ->
  no_collisions (U:=sonic S) h h -> Forall positions_bound h -> all_settled h ->
  self_contained A c0 (history (tc_contract_id _ _ c0) bs) ->
  (exists d t, evaluate A (E:=E) c bs None = (d, t, Some (Ok tt))) <->
  (exists d' t', evaluate A (E:=E) c' bs None = (d', t', Some (Ok tt))).
Proof.
  intros A h Hlocal Hneeds Hint Hs Hs' Hcl Hone Hso Hmsg Han Hex Hcol Hpos Hroots Hself.
  apply (C53_chain_consensus A (E:=E) (ledger_peek _ S) outputs inputs_gone (mined B on_chain) c0 L l c L' l' c' bs); try done.
  - by apply spending_keeps_cells.
  - apply spending_remembers.
  - apply sonic_faithful.
  - by apply spending_needs_inputs.
  - by apply ledger_intact_iff.
  - by apply (C57_exclusive B spends commits).
Qed.

(** *** A concrete world: a closing spends the primary outpoint or the fallback *)
Definition fb_closes (tx : ToyTx) (s : TxoSeal) (msg : bytes) : bool :=
  toy_included 0 (tx_inputs tx) (tx_commitment tx) (seal_primary s) msg ||
  match seal_secondary s with
  | Noise _ => false
  | Fallback o => toy_included 0 (tx_inputs tx) (tx_commitment tx) o msg
  end.
Definition fb_verify (tx : ToyTx) (anchor : unit) (seals : list TxoSeal) (msg : bytes) : result unit unit :=
  if forallb (fun s => fb_closes tx s msg) seals then Ok tt else Err tt.
Definition fb_bp : BpCore := {|
  Tx := ToyTx;
  Anchor := unit;
  MmbMessage := bytes;
  BpSealError := unit;
  txid_of := tx_id;
  commit_id := toy_commit_id;
  bp_message := fun m => m;
  wtxo_to_string := fun _ => ""%string;
  bp_verify := fb_verify
|}.
Notation FP := (bitcoin fb_bp).
Notation FbBlock := (OperationSeals (bitcoin fb_bp)).
Definition fb_api : ContractApi FP TU := test_ledger FP toy_sonic.
Definition fb_spends (tx : Tx fb_bp) (i : nat) (o : Outpoint) : Prop := tx_inputs (tx : ToyTx) !! i = Some o.
Definition fb_commits (tx : Tx fb_bp) (i : nat) (m : MmbMessage fb_bp) : Prop :=
  tx_commitment (tx : ToyTx) !! N.of_nat i = Some (m : bytes).

Lemma fb_included_inv n ins cs o msg :
  toy_included n ins cs o msg = true ->
  exists i, ins !! i = Some o /\ cs !! (n + N.of_nat i)%N = Some msg.
Proof.
  revert n. induction ins as [|x ins IH]; intros n H; [done|].
  cbn in H. apply orb_true_iff in H as [H|H].
  - apply bool_decide_eq_true in H as [-> H]. exists 0. split; [done|]. by rewrite N.add_0_r.
  - apply IH in H as (i & Hi & Hc). exists (S i). split; [done|]. rewrite <-Hc. f_equal. lia.
Qed.
Lemma fb_closing_spends : closing_spends_either fb_bp fb_spends fb_commits.
Proof.
  intros tx k seals m s Hv Hs. cbn in Hv. unfold fb_verify in Hv.
  destruct (forallb _ _) eqn:Hf; [|done]. rewrite forallb_forall in Hf.
  apply elem_of_list_In, Hf in Hs. unfold fb_closes in Hs. apply orb_true_iff in Hs as [Hs|Hs].
  - apply fb_included_inv in Hs as (i & Hi & Hc). exists i, (seal_primary s). split; [by left|]. split; [exact Hi|exact Hc].
  - destruct (seal_secondary s) as [n|o] eqn:Ho; [done|].
    apply fb_included_inv in Hs as (i & Hi & Hc). exists i, o. split; [by right|]. split; [exact Hi|exact Hc].
Qed.
Lemma fb_one_message : one_message fb_bp fb_commits.
Proof. intros tx i m m' H H'. unfold fb_commits in *. rewrite H in H'. by injection H'. Qed.
Lemma fb_messages : messages_differ FP.
Proof. intros [o] [o'] H. cbn in H. by rewrite H. Qed.
Lemma fb_spent_once l : toy_chain l -> spent_once fb_bp fb_spends (fun tx : ToyTx => tx ∈ l).
Proof.
  intros Hl tx tx' i i' o Hx Hx' Hi Hi'. apply elem_of_list_lookup in Hx as [n Hn], Hx' as [n' Hn'].
  destruct (chain_input_unique l n n' i i' tx tx' o Hl Hn Hn' Hi Hi') as [<- ->].
  split; [|done]. rewrite Hn in Hn'. by injection Hn'.
Qed.

(** A cell at outpoint A with fallback B; one operation spends A, another spends B. *)
Definition def_f : WTxoSeal := MkWTxoSeal (Extern out_a) (Fallback out_b).
Definition op_f : Operation := toy_op toy_cid 1 [] [def_f].
Definition id_f : Opid := toy_opid op_f.
Definition op_p : Operation := toy_op toy_cid 2 [MkCellAddr id_f 0] [def_c].
Definition op_q : Operation := toy_op toy_cid 3 [MkCellAddr id_f 0] [def_d].
Definition tx_p : ToyTx := MkToyTx (MkTxid [1%N]) [out_a] {[ 0%N := opid_bytes (toy_opid op_p) ]}.
Definition tx_q : ToyTx := MkToyTx (MkTxid [2%N]) [out_b] {[ 0%N := opid_bytes (toy_opid op_q) ]}.
Definition fb_chain : list ToyTx := [tx_p; tx_q].
Lemma fb_chain_valid : toy_chain fb_chain.
Proof. unfold toy_chain. apply (bool_decide_unpack _). by vm_compute. Qed.
Definition fb_on_chain (l : list ToyTx) (tx : Tx fb_bp) : Prop := (tx : ToyTx) ∈ l.
Definition fblock (op : Operation) (defs : list (N * WTxoSeal)) (w : option (SealWitness FP)) : FbBlock :=
  MkOperationSeals op (list_to_map defs : gmap N (SealDef FP)) w.
Definition fwit (tx : ToyTx) : SealWitness FP := MkSealWitness (P:=FP) tx tt.
Definition f_entry_g : FbBlock := fblock (as_genesis op_f) [(0%N, def_f)] None.
Definition f_entry_p : FbBlock := fblock op_p [(0%N, def_c)] (Some (fwit tx_p)).
Definition f_entry_q : FbBlock := fblock op_q [(0%N, def_d)] (Some (fwit tx_q)).
Definition fb_ledger : TestContract FP toy_sonic := {|
  tc_codex := toy_codex : sonic_codex toy_sonic;
  tc_contract_id := toy_cid;
  tc_libs := ∅;
  tc_global := ∅;
  tc_owned := insert_outputs id_f 0 (op_destructible_out op_f) ∅;
  tc_known_ops := {[ id_f := op_f ]};
  tc_seal_definitions := {[ id_f := ∅ ]};
  tc_witnesses := {[ id_f := [] ]} |}.
Definition fb_run c bs : option (result (VerificationError FP TU Empty_set) unit) := (evaluate fb_api c bs None).2.
Definition fb_after c bs := (evaluate fb_api (E:=Empty_set) c bs None).1.1.
Definition fb_log c bs := (evaluate fb_api (E:=Empty_set) c bs None).1.2.
Lemma fb_evaluate c bs r :
  fb_run c bs = Some r ->
  evaluate fb_api (E:=Empty_set) c bs None = (fb_after c bs, fb_log c bs, Some r).
Proof.
  unfold fb_run, fb_after, fb_log. destruct (evaluate _ _ _ _) as [[c' t'] r']. cbn. by intros ->.
Qed.
Notation fb_accepts c bs c' t :=
  (evaluate fb_api (E:=Empty_set) c bs None = (c', t, Some (Ok tt))).
Lemma run_p_accepted : fb_accepts fb_ledger [f_entry_g; f_entry_p]
  (fb_after fb_ledger [f_entry_g; f_entry_p]) (fb_log fb_ledger [f_entry_g; f_entry_p]).
Proof. apply fb_evaluate. vm_refl. Qed.
Lemma run_q_accepted : fb_accepts fb_ledger [f_entry_g; f_entry_q]
  (fb_after fb_ledger [f_entry_g; f_entry_q]) (fb_log fb_ledger [f_entry_g; f_entry_q]).
Proof. apply fb_evaluate. vm_refl. Qed.
Lemma fb_anchored l b tx :
  witness b = Some (fwit tx) -> tx ∈ l -> anchored FP (mined fb_bp (fb_on_chain l)) [f_entry_g; b].
Proof.
  intros Hb Htx x w [->|[->|[]%elem_of_nil]%elem_of_cons]%elem_of_cons Hw; [discriminate|].
  rewrite Hb in Hw. by injection Hw as <-.
Qed.
Lemma fb_live b :
  live (U:=TU) (take 1 (history toy_cid [f_entry_g; b])) (MkCellAddr id_f 0) (MkTxoSeal out_a (Fallback out_b) : Seal FP).
Proof.
  exists 0, (seen_first toy_cid f_entry_g). split; [reflexivity|]. split.
  - split; [reflexivity|]. exists (def_f : SealDef FP). split; [reflexivity|]. left. reflexivity.
  - intros [|j] bj Hj Hb; [lia|]. discriminate Hb.
Qed.

(** C57 is false: no outpoint is spent twice, and two different operations consume the cell,
    one with the primary outpoint, the other with the fallback. *)
Theorem C57_one_seal_refuted :
  ~ C57_claim fb_bp fb_spends fb_commits fb_api fb_api (E:=Empty_set) (E':=Empty_set).
Proof.
  intros H.
  assert (toy_opid op_p <> toy_opid op_q) as Hne by (apply (bool_decide_unpack _); by vm_compute). apply Hne.
  apply (H (fb_on_chain fb_chain) fb_ledger fb_ledger [f_entry_g; f_entry_p] [f_entry_g; f_entry_q] _ _ _ _ 1 1
    f_entry_p f_entry_q (MkCellAddr id_f 0) (MkCellAddr id_f 0) (MkTxoSeal out_a (Fallback out_b))
    fb_closing_spends fb_one_message (fb_spent_once _ fb_chain_valid) fb_messages run_p_accepted run_q_accepted).
  - apply (fb_anchored _ _ tx_p); [reflexivity|left].
  - apply (fb_anchored _ _ tx_q); [reflexivity|right; left].
  - reflexivity.
  - left.
  - exact (fb_live f_entry_p).
  - reflexivity.
  - left.
  - exact (fb_live f_entry_q).
Qed.

(** The premises of the partial theorem, in the same world: the two outpoints are the
    primary one and the fallback. *)
Example C57_case :
  closing_spends_either fb_bp fb_spends fb_commits /\ one_message fb_bp fb_commits /\
  spent_once fb_bp fb_spends (fb_on_chain fb_chain) /\ messages_differ FP /\
  fb_spends tx_p 0 out_a /\ fb_spends tx_q 0 out_b /\ ~ exclusive fb_bp fb_spends (fb_on_chain fb_chain) (MkTxoSeal out_a (Fallback out_b)).
Proof.
  split; [exact fb_closing_spends|]. split; [exact fb_one_message|]. split; [exact (fb_spent_once _ fb_chain_valid)|].
  split; [exact fb_messages|]. split; [reflexivity|]. split; [reflexivity|]. intros H.
  assert (out_a = out_b) as Heq; [|discriminate Heq].
  apply (H tx_p tx_q 0 0); [left|right; left|by left|by right|reflexivity|reflexivity].
Qed.
(** The fallback alone: the consumption spends it. *)
Example C57_case_spends :
  names fb_bp (seen_first toy_cid f_entry_g) 0 out_b /\ fb_spends tx_q 0 out_b /\
  ~ assigns fb_bp (seen_first toy_cid f_entry_g) 0 out_b.
Proof.
  split; [right; exists def_f; split; reflexivity|]. split; [reflexivity|].
  intros (d & Hd & Ho).
  assert ((def_f : SealDef FP) = d) as <-.
  { enough (Some (def_f : SealDef FP) = Some d) as Heq by (by injection Heq). rewrite <-Hd. reflexivity. }
  destruct Ho as [Ho|(v & w & Ho & _)]; discriminate Ho.
Qed.
(** On a chain with only the transaction that spends the fallback. *)
Lemma f_defs cid pos (d : SealDef FP) b :
  b ∈ [seen_first cid f_entry_g; f_entry_q] -> defined_seals b !! pos = Some d ->
  pos = 0%N /\ (b = seen_first cid f_entry_g /\ d = def_f \/ b = f_entry_q /\ d = def_d).
Proof.
  intros [->|[->|[]%elem_of_nil]%elem_of_cons]%elem_of_cons H.
  - assert ((pos, d) ∈ [(0%N, def_f : SealDef FP)]) as Hin.
    { apply elem_of_list_to_map_2. exact H. }
    apply elem_of_list_singleton in Hin. injection Hin as -> ->. split; [done|]. by left.
  - assert ((pos, d) ∈ [(0%N, def_d : SealDef FP)]) as Hin.
    { apply elem_of_list_to_map_2. exact H. }
    apply elem_of_list_singleton in Hin. injection Hin as -> ->. split; [done|]. by right.
Qed.
Example C57_case_exclusive :
  on_one_chain (U:=TU) (mined fb_bp (fb_on_chain [tx_q])) (history toy_cid [f_entry_g; f_entry_q]).
Proof.
  apply (C57_exclusive fb_bp fb_spends fb_commits _ _ fb_closing_spends fb_one_message).
  - apply fb_spent_once. unfold toy_chain. apply (bool_decide_unpack _). by vm_compute.
  - exact fb_messages.
  - exact (history_anchored _ toy_cid _ (fb_anchored [tx_q] f_entry_q tx_q eq_refl (elem_of_list_here _ _))).
  - intros s (b & pos & d & Hb & Hd & Hs). destruct (f_defs _ _ _ _ Hb Hd) as (_ & [[_ ->]|[_ ->]]).
    + destruct Hs as [Hs|[Hs _]]; [|discriminate Hs]. injection Hs as <-.
      intros tx tx' i i' o o' ->%elem_of_list_singleton ->%elem_of_list_singleton _ _ Hi Hi'.
      destruct i, i'; try discriminate. injection Hi as <-. by injection Hi'.
    + destruct Hs as [Hs|[Hs _]]; [|discriminate Hs]. injection Hs as <-. by eapply noise_exclusive.
  - split.
    + intros b b' _ _. apply toy_opid_inj.
    + intros b b' pos pos' d d' Hb Hb' Hd Hd' Ht.
      destruct (f_defs _ _ _ _ Hb Hd) as (_ & [[_ ->]|[_ ->]]), (f_defs _ _ _ _ Hb' Hd') as (_ & [[_ ->]|[_ ->]]);
        try done; vm_compute in Ht; discriminate Ht.
  - apply list.Forall_forall. intros b Hb pos d Hd. destruct (f_defs _ _ _ _ Hb Hd) as (-> & [[-> ->]|[-> ->]]);
      eexists; (split; [reflexivity|reflexivity]).
  - intros b b' pos d Hb _ _ _ Hd. destruct (f_defs _ _ _ _ Hb Hd) as (_ & [[-> ->]|[-> ->]]); discriminate.
Qed.

Print Assumptions C57_one_seal_partial.
Print Assumptions C57_one_seal_refuted.
Print Assumptions C57_noise.
Print Assumptions C57_consumption_spends.
Print Assumptions C57_exclusive.
Print Assumptions C57_consensus.
