(** * A concrete world: transactions, seals, operations, ledger

    Used for examples and counterexamples.  All definitions compute.
    - An operation id is a full encoding of the operation, so it has no collisions at all.
    - A transaction spends outpoints, and commits to a bundle: one message per input.
      The anchor reveals the bundle.  A seal is closed over a message by a transaction
      spending its primary outpoint with the input that commits to the message.
    - The codex requires the contract id to match, the inputs to be in memory, and the
      called method to exist. *)
From Verif Require Export BitcoinSeals TestLedger StrictCodec.
From Coq Require Import Lia.

(** Equality by computation. *)
Ltac vm_refl := match goal with |- ?l = ?r => exact (eq_refl r <: l = r) end.

(** ** Operation ids *)
Definition c_any : codec N := {|
  enc := fun n => [n];
  dec := fun l => match l with n :: r => Some (n, r) | [] => None end
|}.
Definition c_vec {X} (C : codec X) : codec (list X) := c_list c_any C.
Definition c_addr : codec CellAddr :=
  c_iso (fun a => (opid_bytes (cell_opid a), cell_pos a)) (fun p => MkCellAddr (MkOpid p.1) p.2)
    (c_pair (c_vec c_any) c_any).
Definition c_input : codec Input :=
  c_iso (fun i => (input_addr i, input_witness i)) (fun p => MkInput p.1 p.2)
    (c_pair c_addr (c_vec c_any)).
Definition c_cell : codec StateCell :=
  c_iso (fun c => (cell_data c, (auth_token_value (cell_auth c), cell_lock c)))
    (fun p => MkStateCell p.1 (MkAuthToken p.2.1) p.2.2)
    (c_pair (c_vec c_any) (c_pair c_any (c_option (c_vec c_any)))).
Definition c_data : codec StateData :=
  c_iso (fun d => (data_value d, data_raw d)) (fun p => MkStateData p.1 p.2)
    (c_pair (c_vec c_any) (c_option (c_vec c_any))).
Definition c_operation : codec Operation :=
  c_iso (fun o => (op_version o, (contract_id_bytes (op_contract_id o), (op_call_id o, (op_nonce o,
           (op_witness o, (op_destructible_in o, (op_immutable_in o,
           (op_destructible_out o, op_immutable_out o)))))))))
    (fun '(a, (b, (c, (d, (e, (f, (g, (h, i)))))))) =>
       MkOperation a (MkContractId b) c d e f g h i)
    (c_pair c_any (c_pair (c_vec c_any) (c_pair c_any (c_pair c_any
       (c_pair (c_vec c_any) (c_pair (c_vec c_input) (c_pair (c_vec c_addr)
       (c_pair (c_vec c_cell) (c_vec c_data))))))))).

(** Codecs that read back every value. *)
Definition total {X} (C : codec X) : Prop := forall x r, dec C (enc C x ++ r) = Some (x, r).

Lemma total_any : total c_any.
Proof. done. Qed.
Lemma total_pair {X Y} (C : codec X) (D : codec Y) : total C -> total D -> total (c_pair C D).
Proof. intros H H' [x y] r. cbn. by rewrite <-app_assoc, H, H'. Qed.
Lemma total_iso {X Y} (f : Y -> X) (g : X -> Y) C :
  (forall y, g (f y) = y) -> total C -> total (c_iso f g C).
Proof. intros Hgf H y r. cbn. by rewrite H, Hgf. Qed.
Lemma total_option {X} (C : codec X) : total C -> total (c_option C).
Proof. intros H [x|] r; cbn; [|done]. by rewrite H. Qed.
Lemma total_vec {X} (C : codec X) : total C -> total (c_vec C).
Proof.
  intros H xs r. cbn. rewrite Nat2N.id. induction xs as [|x xs IH]; cbn; [done|].
  by rewrite <-app_assoc, H, IH.
Qed.

Lemma total_operation : total c_operation.
Proof.
  assert (total (c_vec c_any)) by (apply total_vec, total_any).
  assert (total c_addr).
  { apply total_iso; [by intros [[] ?]|]. by apply total_pair. }
  apply total_iso; [by intros [? [] ? ? ? ? ? ? ?]|].
  repeat apply total_pair; try done.
  - apply total_vec, total_iso; [by intros []|]. by apply total_pair.
  - by apply total_vec.
  - apply total_vec, total_iso; [by intros [? [] ?]|]. repeat apply total_pair; [done|done|].
    by apply total_option.
  - apply total_vec, total_iso; [by intros []|]. apply total_pair; [done|]. by apply total_option.
Qed.

Definition toy_opid (op : Operation) : Opid := MkOpid (enc c_operation op).

Lemma toy_opid_inj op op' : toy_opid op = toy_opid op' -> op = op'.
Proof.
  intros H. apply (f_equal opid_bytes) in H. unfold toy_opid in H. cbn [opid_bytes] in H.
  pose proof (total_operation op []) as Hop. rewrite H, (total_operation op' []) in Hop. congruence.
Qed.

(** ** Transactions and anchors *)
Record ToyTx := MkToyTx { tx_id : Txid; tx_inputs : list Outpoint; tx_commitment : gmap N bytes }.

Inductive ToySealError :=
| NotIncluded (s : TxoSeal) (w : Txid)
| NotCommitted (w : Txid).

(** Does one of the inputs [ins], numbered from [n], spend [o] and commit to [msg]? *)
Fixpoint toy_included (n : N) (ins : list Outpoint) (bundle : gmap N bytes) (o : Outpoint) (msg : bytes)
    : bool :=
  match ins with
  | [] => false
  | i :: ins' => bool_decide (i = o /\ bundle !! n = Some msg) || toy_included (n + 1) ins' bundle o msg
  end.

Fixpoint toy_verify_from (tx : ToyTx) (anchor : gmap N bytes) (seals : list TxoSeal) (msg : bytes)
    : result ToySealError unit :=
  match seals with
  | [] => if decide (anchor = tx_commitment tx) then Ok tt else Err (NotCommitted (tx_id tx))
  | s :: seals' =>
      if toy_included 0 (tx_inputs tx) anchor (seal_primary s) msg
      then toy_verify_from tx anchor seals' msg
      else Err (NotIncluded s (tx_id tx))
  end.

(** ** Seal definitions: 32 bytes with the outpoint and the second part *)
Definition enc_outpoint (o : Outpoint) : bytes := enc c_u16 (outpoint_vout o) ++ take 8 (txid_bytes (outpoint_txid o)).
Definition toy_commit_id (d : WTxoSeal) : bytes :=
  let raw :=
    match wseal_primary d with
    | Wout v => 0%N :: enc c_u16 v
    | Extern o => 1%N :: enc_outpoint o
    end ++
    match wseal_secondary d with
    | Noise n => 0%N :: take 8 n
    | Fallback o => 1%N :: enc_outpoint o
    end in
  take 32 (raw ++ replicate 32 0%N).

Definition toy_bp : BpCore := {|
  Tx := ToyTx;
  Anchor := gmap N bytes;
  MmbMessage := bytes;
  BpSealError := ToySealError;
  txid_of := tx_id;
  commit_id := toy_commit_id;
  bp_message := fun m => m;
  wtxo_to_string := fun _ => ""%string;
  bp_verify := toy_verify_from
|}.

(** ** Codex *)
Record ToyCodex := MkToyCodex { toy_codex_bytes : bytes; toy_methods : gset N }.
Inductive ToyCallError :=
| WrongContract
| NoReadOnceInput (a : CellAddr)
| NoImmutableInput (a : CellAddr)
| MethodNotFound (m : N).

Fixpoint missing {X} (get : CellAddr -> option X) (l : list CellAddr) : option CellAddr :=
  match l with
  | [] => None
  | a :: l' => match get a with Some _ => missing get l' | None => Some a end
  end.

Definition toy_sonic : Sonic := {|
  sonic_codex := ToyCodex;
  sonic_lib := N;
  sonic_error := ToyCallError;
  sonic_codex_id := fun k => MkCodexId (toy_codex_bytes k);
  sonic_opid := toy_opid;
  sonic_verify := fun k cid op owned global libs =>
    if decide (op_contract_id op <> cid) then Some WrongContract
    else if decide (op_call_id op ∉ toy_methods k) then Some (MethodNotFound (op_call_id op))
    else match missing owned (input_addr <$> op_destructible_in op) with
         | Some a => Some (NoReadOnceInput a)
         | None =>
             match missing global (op_immutable_in op) with
             | Some a => Some (NoImmutableInput a)
             | None => None
             end
         end
|}.

Notation TP := (bitcoin toy_bp).
Notation TU := (sonic toy_sonic).
Definition toy_api : ContractApi TP TU := test_ledger TP toy_sonic.
Notation ToyBlock := (OperationSeals (bitcoin toy_bp)).
Notation ToyContract := (TestContract (bitcoin toy_bp) toy_sonic).

(** ** The scenario of src/verify.rs:385-468 *)
Definition toy_cid : ContractId := MkContractId [7%N; 7%N].
Definition toy_codex : ToyCodex := MkToyCodex [3%N; 1%N; 4%N] {[0%N]}.
Definition coinbase : Outpoint := MkOutpoint (MkTxid [0%N]) 0.

(** src/verify.rs:409-417 *)
Definition seal_wout : WTxoSeal := MkWTxoSeal (Wout 0) (Fallback coinbase).
Definition seal_1 : WTxoSeal := MkWTxoSeal (Extern coinbase) (Fallback coinbase).

(** An operation with call id 0, given its inputs and the seals of its outputs. *)
Definition toy_op (cid : ContractId) (nonce : N) (ins : list CellAddr) (outs : list WTxoSeal) : Operation := {|
  op_version := 0; op_contract_id := cid; op_call_id := 0; op_nonce := nonce; op_witness := [];
  op_destructible_in := (fun a => MkInput a []) <$> ins;
  op_immutable_in := [];
  op_destructible_out := (fun d => MkStateCell [] (wtxo_auth_token toy_bp d) None) <$> outs;
  op_immutable_out := [] |}.

(** The operation a genesis is delivered as: the codex id in place of the contract id
    (src/verify.rs:511). *)
Definition as_genesis (op : Operation) : Operation :=
  with_contract_id (MkContractId (toy_codex_bytes toy_codex)) op.

(** A ledger that knows exactly the genesis operation (src/verify.rs:431-447). *)
Definition toy_contract (genesis : Operation) : ToyContract := {|
  tc_codex := toy_codex : sonic_codex toy_sonic;
  tc_contract_id := toy_cid;
  tc_libs := ∅;
  tc_global := ∅;
  tc_owned := insert_outputs (toy_opid genesis) 0 (op_destructible_out genesis) ∅;
  tc_known_ops := {[ toy_opid genesis := genesis ]};
  tc_seal_definitions := {[ toy_opid genesis := ∅ ]};
  tc_witnesses := {[ toy_opid genesis := [] ]} |}.

Definition block (op : Operation) (defs : list (N * WTxoSeal)) (w : option (SealWitness TP)) : ToyBlock :=
  MkOperationSeals op (list_to_map defs : gmap N (SealDef TP)) w.

(** A transaction with one input committing to one message, and the whole witness. *)
Definition tx_of (id : N) (o : Outpoint) (msg : Opid) : ToyTx :=
  MkToyTx (MkTxid [id]) [o] {[ 0%N := opid_bytes msg ]}.
Definition wit (tx : ToyTx) : SealWitness TP := MkSealWitness (P:=TP) tx (tx_commitment tx).

(** Result of an evaluation on a ledger. *)
Definition toy_run (c : ToyContract) (bs : list ToyBlock)
  : option (result (VerificationError TP TU Empty_set) unit) := (evaluate toy_api c bs None).2.
Definition toy_after (c : ToyContract) (bs : list ToyBlock) : ToyContract :=
  (evaluate toy_api (E:=Empty_set) c bs None).1.1.
Definition toy_log (c : ToyContract) (bs : list ToyBlock) : list (call TP TU) :=
  (evaluate toy_api (E:=Empty_set) c bs None).1.2.

Lemma toy_evaluate c bs r :
  toy_run c bs = Some r ->
  evaluate toy_api (E:=Empty_set) c bs None = (toy_after c bs, toy_log c bs, Some r).
Proof.
  unfold toy_run, toy_after, toy_log. destruct (evaluate _ _ _ _) as [[c' t'] r']. cbn. by intros ->.
Qed.

(** ** The tests of src/verify.rs:502-723 *)
Definition genesis : Operation := toy_op toy_cid 0 [] [seal_1].
Definition genesis_id : Opid := toy_opid genesis.
Definition contract : ToyContract := toy_contract genesis.
(** src/verify.rs:449-468 *)
Definition operation_1 : Operation := toy_op toy_cid 0 [MkCellAddr genesis_id 0] [].
Definition operation_1_id : Opid := toy_opid operation_1.

(** src/verify.rs:502-506 *)
Example test_empty : toy_run contract [] = Some (Ok tt).
Proof. vm_refl. Qed.
(** src/verify.rs:508-516 *)
Example test_genesis_only : toy_run contract [block (as_genesis genesis) [] None] = Some (Ok tt).
Proof. vm_refl. Qed.
(** src/verify.rs:518-528 *)
Example test_invalid_genesis :
  toy_run contract [block (with_contract_id (MkContractId [173%N]) genesis) [] None] =
    Some (Err NoCodexCommitment).
Proof. vm_refl. Qed.
(** src/verify.rs:530-561 *)
Definition seal_dumb : WTxoSeal := MkWTxoSeal (Wout 0) (Noise []).
Definition mismatch_of (r : option (result (VerificationError TP TU Empty_set) unit))
    : option (Opid * list AuthToken * list AuthToken * list (N * string)) :=
  match r with
  | Some (Err (SealsDefinitionMismatch o reported defined sources)) =>
      Some (o, elements reported, elements defined, map_to_list sources)
  | _ => None
  end.
Example test_invalid_seals :
  mismatch_of (toy_run contract [block (as_genesis genesis) [(0%N, seal_dumb)] None]) =
    Some (genesis_id, [wtxo_auth_token toy_bp seal_dumb], [wtxo_auth_token toy_bp seal_1], [(0%N, ""%string)]).
Proof. vm_refl. Qed.
(** src/verify.rs:563-575 *)
Example test_seal_unknown :
  toy_run contract [block (as_genesis genesis) [] None; block operation_1 [] None] =
    Some (Err (SealUnknown (MkCellAddr genesis_id 0))).
Proof. vm_refl. Qed.
(** src/verify.rs:577-594.  As in the test the contract has the other genesis, and the
    consumed cell is that of the other genesis. *)
Definition genesis_w : Operation := toy_op toy_cid 0 [] [seal_wout].
Example test_genesis_with_wout :
  toy_run contract [block (as_genesis genesis_w) [(0%N, seal_wout)] None; block operation_1 [] None] =
    Some (Err (SealUnknown (MkCellAddr genesis_id 0))).
Proof. vm_refl. Qed.
(** src/verify.rs:596-612 *)
Example test_no_witness :
  toy_run contract [block (as_genesis genesis) [(0%N, seal_1)] None; block operation_1 [] None] =
    Some (Err (NoWitness operation_1_id)).
Proof. vm_refl. Qed.
(** src/verify.rs:614-640: a transaction that spends nothing *)
Example test_seals_unclosed :
  toy_run contract [block (as_genesis genesis) [(0%N, seal_1)] None;
    block operation_1 [] (Some (wit (MkToyTx (MkTxid [9%N]) [] ∅)))] =
    Some (Err (SealsNotClosed (P:=TP) (MkTxid [9%N]) operation_1_id
      (NotIncluded (MkTxoSeal coinbase (Fallback coinbase)) (MkTxid [9%N]) : SealError TP))).
Proof. vm_refl. Qed.
(** src/verify.rs:642-677: a transaction that spends something else *)
Example test_not_spending_utxo :
  toy_run contract [block (as_genesis genesis) [(0%N, seal_1)] None;
    block operation_1 [] (Some (wit (tx_of 9 (MkOutpoint (MkTxid [8%N]) 0) operation_1_id)))] =
    Some (Err (SealsNotClosed (P:=TP) (MkTxid [9%N]) operation_1_id
      (NotIncluded (MkTxoSeal coinbase (Fallback coinbase)) (MkTxid [9%N]) : SealError TP))).
Proof. vm_refl. Qed.
(** src/verify.rs:679-723: the outpoint is spent, without a commitment *)
Example test_missing_commitment :
  toy_run contract [block (as_genesis genesis) [(0%N, seal_1)] None;
    block operation_1 [] (Some (wit (MkToyTx (MkTxid [9%N]) [coinbase] ∅)))] =
    Some (Err (SealsNotClosed (P:=TP) (MkTxid [9%N]) operation_1_id
      (NotIncluded (MkTxoSeal coinbase (Fallback coinbase)) (MkTxid [9%N]) : SealError TP))).
Proof. vm_refl. Qed.
(** Not in the test-suite: a witness that closes the seal. *)
Example test_transfer :
  toy_run contract [block (as_genesis genesis) [(0%N, seal_1)] None;
    block operation_1 [] (Some (wit (tx_of 9 coinbase operation_1_id)))] = Some (Ok tt).
Proof. vm_refl. Qed.
