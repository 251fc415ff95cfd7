(** * Consignments used in the refutations

    All evaluated on [ledger], which knows exactly the genesis [op_g] with the cells of the
    seals A and B, and with published transactions no two of which spend one outpoint. *)
From Verif Require Export Derived Scenario.

(** ** A seal reported at a wrong position
    The genesis reports the definition of B for the cell 0, whose token is that of A. *)
Definition entry_g_swapped : ToyBlock := block (as_genesis op_g) [(0%N, def_b)] None.
(** The thief: spends the cell 0 of the genesis, closing B. *)
Definition op_x : Operation := toy_op toy_cid 20 [MkCellAddr id_g 0] [def_c].
Definition id_x : Opid := toy_opid op_x.
Definition tx_x : ToyTx := tx_of 20 out_b id_x.
Definition entry_x : ToyBlock := block op_x [(0%N, def_c)] (Some (wit tx_x)).
Definition swapped : list ToyBlock := [entry_g_swapped; entry_x].
Definition honest : list ToyBlock := [entry_g; entry_1].

Example swapped_accepted :
  toy_accepts ledger swapped (toy_after ledger swapped) (toy_log ledger swapped).
Proof. apply toy_evaluate. vm_refl. Qed.
Example honest_accepted :
  toy_accepts ledger honest (toy_after ledger honest) (toy_log ledger honest).
Proof. apply toy_evaluate. vm_refl. Qed.
Example swapped_chain : toy_chain [tx_1; tx_x].
Proof. unfold toy_chain. apply (bool_decide_unpack _). by vm_compute. Qed.

(** ** Another genesis *)
Definition op_h : Operation := toy_op toy_cid 30 [] [def_c].
Definition id_h : Opid := toy_opid op_h.
Definition entry_h : ToyBlock := block (as_genesis op_h) [(0%N, def_c)] None.
Example wrong_genesis_accepted :
  toy_accepts ledger [entry_h] (toy_after ledger [entry_h]) (toy_log ledger [entry_h]).
Proof. apply toy_evaluate. vm_refl. Qed.

(** ** Witnesses of operations without inputs *)
Definition entry_g_witness : ToyBlock :=
  block (as_genesis op_g) [(0%N, def_a); (1%N, def_b)] (Some (wit tx_1)).
Example genesis_witness_accepted :
  toy_accepts ledger [entry_g_witness] (toy_after ledger [entry_g_witness]) (toy_log ledger [entry_g_witness]).
Proof. apply toy_evaluate. vm_refl. Qed.

(** An operation without inputs, whose cell is at output 0 of its witness transaction. It
    can be delivered with any published witness. *)
Definition op_i : Operation := toy_op toy_cid 40 [] [def_w].
Definition id_i : Opid := toy_opid op_i.
Definition tx_y : ToyTx := MkToyTx (MkTxid [41%N]) [out_c] ∅.
Definition tx_z : ToyTx := MkToyTx (MkTxid [42%N]) [out_d] ∅.
Definition entry_iy : ToyBlock := block op_i [(0%N, def_w)] (Some (wit tx_y)).
Definition entry_iz : ToyBlock := block op_i [(0%N, def_w)] (Some (wit tx_z)).
(** Two operations spending its cell. *)
Definition op_y : Operation := toy_op toy_cid 43 [MkCellAddr id_i 0] [def_a].
Definition id_y : Opid := toy_opid op_y.
Definition op_z : Operation := toy_op toy_cid 44 [MkCellAddr id_i 0] [def_b].
Definition id_z : Opid := toy_opid op_z.
Definition tx_yy : ToyTx := tx_of 45 (MkOutpoint (MkTxid [41%N]) 0) id_y.
Definition tx_zz : ToyTx := tx_of 46 (MkOutpoint (MkTxid [42%N]) 0) id_z.
Definition entry_y : ToyBlock := block op_y [(0%N, def_a)] (Some (wit tx_yy)).
Definition entry_z : ToyBlock := block op_z [(0%N, def_b)] (Some (wit tx_zz)).
Definition run_y : list ToyBlock := [entry_g; entry_iy; entry_y].
Definition run_z : list ToyBlock := [entry_g; entry_iz; entry_z].
Definition run_yz : list ToyBlock := [entry_g; entry_iy; entry_y; entry_iz; entry_z].

Example run_y_accepted : toy_accepts ledger run_y (toy_after ledger run_y) (toy_log ledger run_y).
Proof. apply toy_evaluate. vm_refl. Qed.
Example run_z_accepted : toy_accepts ledger run_z (toy_after ledger run_z) (toy_log ledger run_z).
Proof. apply toy_evaluate. vm_refl. Qed.
Example run_yz_accepted : toy_accepts ledger run_yz (toy_after ledger run_yz) (toy_log ledger run_yz).
Proof. apply toy_evaluate. vm_refl. Qed.
Definition yz_chain : list ToyTx := [tx_y; tx_z; tx_yy; tx_zz].
Example yz_chain_valid : toy_chain yz_chain.
Proof. unfold toy_chain. apply (bool_decide_unpack _). by vm_compute. Qed.

(** ** Deciding the premises on concrete consignments *)
Lemma positions_bound_dec (b : ToyBlock) :
  (forallb (fun e => bool_decide
      (cell_auth <$> op_destructible_out (operation b) !! N.to_nat e.1 = Some (wtxo_auth_token toy_bp e.2)))
    (map_to_list (defined_seals b : gmap N WTxoSeal)) = true) -> positions_bound b.
Proof.
  intros H pos d Hd. rewrite forallb_forall in H.
  specialize (H (pos, d)). cbn in H.
  assert (List.In (pos, d) (map_to_list (defined_seals b : gmap N WTxoSeal))) as Hin.
  { by apply elem_of_list_In, elem_of_map_to_list. }
  specialize (H Hin). apply bool_decide_eq_true in H.
  apply fmap_Some in H as (cell & Hc & Hauth). by exists cell.
Qed.

Lemma anchored_dec (l : list ToyTx) (bs : list ToyBlock) :
  (forall b, b ∈ bs -> match witness b with Some w => (published w : ToyTx) ∈ l | None => True end) ->
  anchored TP (fun w : SealWitness TP => (published w : ToyTx) ∈ l) bs.
Proof. intros H b w Hb Hw. specialize (H b Hb). by rewrite Hw in H. Qed.

(** No two definitions in [l] have the same token. *)
Definition tokens_apart (l : list WTxoSeal) : bool :=
  forallb (fun d => forallb (fun d' =>
    bool_decide (wtxo_auth_token toy_bp d = wtxo_auth_token toy_bp d' -> d = d')) l) l.

Lemma no_collisions_dec (h h' : list ToyBlock) (l : list WTxoSeal) :
  tokens_apart l = true ->
  (forall b, b ∈ h ++ h' -> forall pos d, defined_seals b !! pos = Some d -> (d : WTxoSeal) ∈ l) ->
  no_collisions (U:=TU) h h'.
Proof.
  intros Hl Hin. split.
  - intros b b' _ _. apply toy_opid_inj.
  - intros b b' pos pos' d d' Hb Hb' Hd Hd' Ht.
    unfold tokens_apart in Hl. rewrite forallb_forall in Hl.
    assert ((d : WTxoSeal) ∈ l) as H1 by (eapply Hin; [|done]; set_solver).
    assert ((d' : WTxoSeal) ∈ l) as H2 by (eapply Hin; [|done]; set_solver).
    apply elem_of_list_In in H1, H2. specialize (Hl _ H1). rewrite forallb_forall in Hl.
    specialize (Hl _ H2). apply bool_decide_eq_true in Hl. by apply Hl.
Qed.

Lemma block_lookup op defs w pos (d : SealDef TP) :
  defined_seals (block op defs w) !! pos = Some d -> (pos, d) ∈ (defs : list (N * SealDef TP)).
Proof. apply elem_of_list_to_map_2. Qed.

Lemma block_defs_in op defs w (l : list WTxoSeal) pos d :
  defs.*2 ⊆ l -> defined_seals (block op defs w) !! pos = Some d -> (d : WTxoSeal) ∈ l.
Proof.
  intros Hs Hd. apply Hs. cbn in Hd. apply elem_of_list_to_map_2 in Hd.
  apply elem_of_list_fmap. by exists (pos, d).
Qed.
