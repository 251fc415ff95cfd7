(** * A consignment used as the concrete case beside the theorems

    The genesis assigns two cells to the outpoints A and B.  A first operation spends the
    cell of A (closing A with transaction [1]) into a cell whose seal is output 0 of this very
    transaction, and a second cell whose seal is kept concealed.  A second operation spends
    both the first of these and the cell of B, closing two seals with transaction [2], into a
    cell at an external outpoint D. *)
From Verif Require Export DoubleSpend Concrete.

Definition out_a : Outpoint := MkOutpoint (MkTxid [101%N]) 0.
Definition out_b : Outpoint := MkOutpoint (MkTxid [102%N]) 1.
Definition out_c : Outpoint := MkOutpoint (MkTxid [103%N]) 2.
Definition out_d : Outpoint := MkOutpoint (MkTxid [104%N]) 3.
Definition def_a : WTxoSeal := MkWTxoSeal (Extern out_a) (Noise [1%N]).
Definition def_b : WTxoSeal := MkWTxoSeal (Extern out_b) (Noise [2%N]).
Definition def_c : WTxoSeal := MkWTxoSeal (Extern out_c) (Noise [3%N]).
Definition def_d : WTxoSeal := MkWTxoSeal (Extern out_d) (Noise [4%N]).
Definition def_w : WTxoSeal := MkWTxoSeal (Wout 0) (Noise [5%N]).

Definition op_g : Operation := toy_op toy_cid 1 [] [def_a; def_b].
Definition id_g : Opid := toy_opid op_g.
Definition op_1 : Operation := toy_op toy_cid 2 [MkCellAddr id_g 0] [def_w; def_c].
Definition id_1 : Opid := toy_opid op_1.
Definition op_2 : Operation := toy_op toy_cid 3 [MkCellAddr id_1 0; MkCellAddr id_g 1] [def_d].
Definition id_2 : Opid := toy_opid op_2.

Definition tx_1 : ToyTx := MkToyTx (MkTxid [1%N]) [out_a] {[ 0%N := opid_bytes id_1 ]}.
Definition tx_2 : ToyTx := MkToyTx (MkTxid [2%N]) [MkOutpoint (MkTxid [1%N]) 0; out_b]
  (<[ 0%N := opid_bytes id_2 ]> {[ 1%N := opid_bytes id_2 ]}).

Definition entry_g : ToyBlock := block (as_genesis op_g) [(0%N, def_a); (1%N, def_b)] None.
Definition entry_1 : ToyBlock := block op_1 [(0%N, def_w)] (Some (wit tx_1)).
Definition entry_2 : ToyBlock := block op_2 [(0%N, def_d)] (Some (wit tx_2)).
Definition scenario : list ToyBlock := [entry_g; entry_1; entry_2].
Definition ledger : ToyContract := toy_contract op_g.

Notation toy_accepts c bs c' t :=
  (evaluate toy_api (E:=Empty_set) c bs None = (c', t, Some (Ok tt))).

Example scenario_accepted : toy_accepts ledger scenario (toy_after ledger scenario) (toy_log ledger scenario).
Proof. apply toy_evaluate. vm_refl. Qed.

(** All three operations are known afterwards, two of them were applied. *)
Example scenario_known :
  is_known toy_api (toy_after ledger scenario) id_g = true /\
  is_known toy_api (toy_after ledger scenario) id_1 = true /\
  is_known toy_api (toy_after ledger scenario) id_2 = true /\
  is_known toy_api ledger id_g = true /\ is_known toy_api ledger id_1 = false /\
  is_known toy_api ledger id_2 = false /\
  applied_ids (toy_log ledger scenario) = [id_1; id_2].
Proof. by vm_compute. Qed.

(** Prefixes *)
Example prefix_1_accepted :
  toy_accepts ledger [entry_g] (toy_after ledger [entry_g]) (toy_log ledger [entry_g]).
Proof. apply toy_evaluate. vm_refl. Qed.
Example prefix_2_accepted :
  toy_accepts ledger [entry_g; entry_1] (toy_after ledger [entry_g; entry_1]) (toy_log ledger [entry_g; entry_1]).
Proof. apply toy_evaluate. vm_refl. Qed.

(** The history, as seen by the contract. *)
Definition seen_g : ToyBlock := seen_first toy_cid entry_g.
Example scenario_history : history (contract_id toy_api ledger) scenario = [seen_g; entry_1; entry_2].
Proof. reflexivity. Qed.
Example scenario_ids :
  id_of (U:=TU) seen_g = id_g /\ id_of (U:=TU) entry_1 = id_1 /\ id_of (U:=TU) entry_2 = id_2.
Proof. by vm_compute. Qed.

(** The seal of the first cell of the first operation is output 0 of transaction 1. *)
Example entry_1_reveals :
  reveals (U:=TU) entry_1 (MkCellAddr id_1 0) (MkTxoSeal (MkOutpoint (MkTxid [1%N]) 0) (Noise [5%N]) : Seal TP).
Proof.
  split; [by vm_compute|]. exists (def_w : SealDef TP). split; [by vm_compute|].
  right. split; [done|]. exists (wit tx_1). split; done.
Qed.
Example seen_g_reveals pos d :
  defined_seals seen_g !! pos = Some d ->
  reveals (U:=TU) seen_g (MkCellAddr id_g pos) (wtxo_resolve d (MkTxid []) : Seal TP).
Proof.
  intros H. split; [by vm_compute|]. exists d. split; [done|]. left.
  cbn in H. unfold block in H. cbn in H.
  apply lookup_insert_Some in H as [[_ <-]|[_ H]]; [done|].
  apply lookup_insert_Some in H as [[_ <-]|[_ H]]; [done|]. by rewrite lookup_empty in H.
Qed.

(** ** Published transactions: none spends an outpoint twice, no two share an outpoint *)
Definition toy_chain (l : list ToyTx) : Prop :=
  NoDup (mjoin (tx_inputs <$> l)).

Lemma toy_included_inv n ins bundle o msg :
  toy_included n ins bundle o msg = true ->
  exists i, ins !! i = Some o /\ bundle !! (n + N.of_nat i)%N = Some msg.
Proof.
  revert n. induction ins as [|x ins IH]; intros n; cbn [toy_included]; [done|].
  intros [H|H]%orb_true_iff.
  - apply bool_decide_eq_true in H as [-> H]. exists 0. split; [done|]. by rewrite N.add_0_r.
  - apply IH in H as (i & Hi & Hb). exists (S i). split; [done|].
    by replace (n + N.of_nat (S i))%N with (n + 1 + N.of_nat i)%N by lia.
Qed.

Lemma toy_verify_inv tx anchor seals msg s :
  toy_verify_from tx anchor seals msg = Ok tt -> s ∈ seals ->
  exists i, tx_inputs tx !! i = Some (seal_primary s) /\ tx_commitment tx !! N.of_nat i = Some msg.
Proof.
  induction seals as [|s' seals IH]; [intros _ Hs; by apply elem_of_nil in Hs|].
  cbn [toy_verify_from]. destruct (toy_included 0 _ _ _ _) eqn:Hin; [|done].
  intros Hv [->|Hs]%elem_of_cons; [|by apply IH].
  assert (anchor = tx_commitment tx) as Hanchor.
  { clear -Hv. induction seals as [|s' seals IH]; cbn [toy_verify_from] in Hv.
    - by case_decide.
    - destruct (toy_included 0 _ _ _ _); [by apply IH|done]. }
  apply toy_included_inv in Hin as (i & Hi & Hb). subst anchor. eauto.
Qed.

Lemma chain_input_unique l i j k m tx tx' o :
  toy_chain l -> l !! i = Some tx -> l !! j = Some tx' ->
  tx_inputs tx !! k = Some o -> tx_inputs tx' !! m = Some o -> i = j /\ k = m.
Proof.
  unfold toy_chain. revert i j. induction l as [|t l IH]; intros i j; [done|].
  cbn. intros (Hnd & Hdis & Hrest)%NoDup_app Hi Hj Hk Hm.
  assert (forall x tx'', l !! x = Some tx'' -> forall y, tx_inputs tx'' !! y = Some o ->
    o ∈ mjoin (tx_inputs <$> l)) as Hin.
  { intros x tx'' Hx y Hy. apply elem_of_list_join. exists (tx_inputs tx'').
    split; [by eapply elem_of_list_lookup_2|]. apply elem_of_list_fmap_1. by eapply elem_of_list_lookup_2. }
  destruct i as [|i], j as [|j].
  - injection Hi as ->. injection Hj as ->. split; [done|]. exact (NoDup_lookup _ _ _ _ Hnd Hk Hm).
  - injection Hi as ->. destruct (Hdis o); [by eapply elem_of_list_lookup_2|]. exact (Hin j _ Hj m Hm).
  - injection Hj as ->. destruct (Hdis o); [by eapply elem_of_list_lookup_2|]. exact (Hin i _ Hi k Hk).
  - destruct (IH i j Hrest Hi Hj Hk Hm) as [-> ->]. done.
Qed.

Lemma toy_single_use l s : toy_chain l -> single_use TP (fun w : SealWitness TP => (published w : ToyTx) ∈ l) s.
Proof.
  intros Hl [p k] [p' k'] x x' m m' Hp Hp' Hv Hv' Hs Hs'. cbn [published] in Hp, Hp'.
  apply (toy_verify_inv _ _ _ _ s) in Hv as (i & Hi & Hm); [|done].
  apply (toy_verify_inv _ _ _ _ s) in Hv' as (i' & Hi' & Hm'); [|done].
  apply elem_of_list_lookup in Hp as [n Hn]. apply elem_of_list_lookup in Hp' as [n' Hn'].
  destruct (chain_input_unique l n n' i i' p p' _ Hl Hn Hn' Hi Hi') as [<- <-].
  assert (p = p') as <- by (rewrite Hn in Hn'; by injection Hn').
  cbn [published] in Hm, Hm'. rewrite Hm in Hm'. by injection Hm'.
Qed.

Lemma toy_closed_by_one l s : toy_chain l -> closed_by_one TP (fun w : SealWitness TP => (published w : ToyTx) ∈ l) s.
Proof.
  intros Hl [p k] [p' k'] x x' m m' Hp Hp' Hv Hv' Hs Hs'. cbn [published] in Hp, Hp'.
  apply (toy_verify_inv _ _ _ _ s) in Hv as (i & Hi & Hm); [|done].
  apply (toy_verify_inv _ _ _ _ s) in Hv' as (i' & Hi' & Hm'); [|done].
  apply elem_of_list_lookup in Hp as [n Hn]. apply elem_of_list_lookup in Hp' as [n' Hn'].
  destruct (chain_input_unique l n n' i i' p p' _ Hl Hn Hn' Hi Hi') as [<- <-].
  rewrite Hn in Hn'. by injection Hn' as ->.
Qed.

Lemma toy_messages : messages_differ TP.
Proof. intros [o] [o'] H. cbn in H. by rewrite H. Qed.

(** The transactions of the scenario. *)
Definition chain : list ToyTx := [tx_1; tx_2].
Lemma chain_valid : toy_chain chain.
Proof. unfold toy_chain. apply (bool_decide_unpack _). by vm_compute. Qed.
