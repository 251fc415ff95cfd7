(** * Properties, part 22: contracts are separate

    C72: an operation belongs to one contract, and consignments do not mix contracts. *)
From Verif Require Import Refine Laws Scenario Counterexamples Properties2.
From Coq Require Import Lia.
Notation block := Verif.Concrete.block.

(** The codex refuses operations of other contracts (`CallError::WrongContract` of the ultrasonic crate). *)
Definition refuses_foreign (U : Ultrasonic) : Prop :=
  forall k cid op m r v, codex_verify U k cid op m r = Ok v -> op_contract_id op = cid.

(** The id of an operation commits to the contract. *)
Definition ids_name_contract (U : Ultrasonic) : Prop :=
  forall op op', opid_of U op = opid_of U op' -> op_contract_id op = op_contract_id op'.

Section separate.
Context {P : SealProtocol} {U : Ultrasonic} (A : ContractApi P U) {E : Type}.
Notation Block := (OperationSeals P).
Notation accepted c0 bs c t := (evaluate A (E:=E) c0 bs None = (c, t, Some (Ok tt))).
Notation consumes := (consumes (P:=P)).
Implicit Types (bs : list Block).

(** Everything the contract knows belongs to the contract [cid]. *)
Definition knows_only (cid : ContractId) (c : Contract A) : Prop :=
  forall op, is_known A c (opid_of U op) = true -> op_contract_id op = cid.

Lemma knows_only_calls cid c (l : list (call P U)) :
  remembers A -> ids_name_contract U ->
  (forall v, CallApplyOperation v ∈ l -> op_contract_id (into_operation U v) = cid) ->
  knows_only cid c -> knows_only cid (apply_calls A c l).
Proof.
  intros (R1 & R2 & R3) Hids. revert c. induction l as [|e l IH]; intros c Hl Hc; [done|].
  cbn. apply IH; [intros v Hv; apply Hl; by right|]. intros op. destruct e; cbn; try apply Hc.
  all: try (rewrite R2; apply Hc); try (rewrite R3; apply Hc).
  rewrite R1. intros [Ho|Ho]; [|by apply Hc]. rewrite (Hids _ _ Ho). apply Hl. left.
Qed.

Lemma own_run c0 bs t c :
  faithful U -> refuses_foreign U -> ids_name_contract U -> remembers A ->
  knows_only (contract_id A c0) c0 -> valid_run A c0 bs t c ->
  knows_only (contract_id A c0) c /\
  forall b, b ∈ history (contract_id A c0) bs -> op_contract_id (operation b) = contract_id A c0.
Proof.
  intros Hf Hs Hids Hr H0 H. induction H as [|bs t c b H [IH1 IH2] (_ & _ & _ & Hvm)].
  { split; [done|]. by intros b ?%elem_of_nil. }
  assert (op_contract_id (operation (seen (contract_id A c0) bs b)) = contract_id A c0) as Hb.
  { destruct (is_known A c (id_of (U:=U) (seen (contract_id A c0) bs b))) eqn:Hk; [by apply IH1|].
    destruct (Hvm Hk) as (v & Hv). by eapply Hs. }
  split.
  - apply knows_only_calls; [done|done| |done]. intros v Hv. unfold block_effects, operation_calls in Hv.
    rewrite !elem_of_app in Hv. destruct Hv as [Hv|[Hv|Hv]].
    + unfold witness_calls in Hv. destruct (witness _); [|by apply elem_of_nil in Hv].
      by apply elem_of_list_singleton in Hv.
    + destruct (is_first bs); [by apply elem_of_nil in Hv|].
      destruct (is_known A c _); [by apply elem_of_nil in Hv|].
      destruct (vm_verdict A _ c _) as [v'|] eqn:Hver; [|by apply elem_of_nil in Hv].
      apply elem_of_list_singleton in Hv. injection Hv as ->. by rewrite (Hf _ _ _ _ _ _ Hver).
    + unfold seals_calls in Hv. destruct (decide _); [by apply elem_of_nil in Hv|].
      by apply elem_of_list_singleton in Hv.
  - intros b'. rewrite history_snoc. intros [Hb'|Hb']%elem_of_app; [by apply IH2|].
    apply elem_of_list_singleton in Hb' as ->. exact Hb.
Qed.

(** ** C72 Contracts are separate *)
Theorem C72_own c0 bs c t :
  faithful U -> refuses_foreign U -> ids_name_contract U -> remembers A ->
  knows_only (contract_id A c0) c0 ->
  accepted c0 bs c t ->
  (* after the first entry, all operations are marked with the contract *)
  (forall i b, bs !! S i = Some b -> op_contract_id (operation b) = contract_id A c0) /\
  (* no cell of an operation of another contract is consumed *)
  (forall b a op, b ∈ bs -> consumes b a -> cell_opid a = opid_of U op -> op_contract_id op = contract_id A c0) /\
  (* and the contract knows only its own operations afterwards *)
  knows_only (contract_id A c0) c.
Proof.
  intros Hf Hs Hids Hr H0 Hacc. apply evaluate_ok_iff in Hacc as (t' & Hrun & _).
  destruct (own_run c0 bs t' c Hf Hs Hids Hr H0 Hrun) as [Hc Hb]. split; [|split; [|exact Hc]].
  - intros i b Hi. apply Hb. destruct bs as [|x bs]; [done|]. right. by eapply elem_of_list_lookup_2.
  - intros b a op (pre & post & ->)%elem_of_list_split Ha Hop.
    apply valid_run_at in Hrun as (t1 & c1 & Hrun1 & (_ & _ & (closed & [_ Hsp] & _) & _) & _).
    destruct (own_run c0 pre t1 c1 Hf Hs Hids Hr H0 Hrun1) as [_ Hpre].
    replace (inputs_of (seen (contract_id A c0) pre b)) with (inputs_of b) in Hsp by (by destruct pre).
    apply elem_of_list_lookup in Ha as [j Hj].
    destruct (Forall2_lookup_l _ _ _ _ _ Hsp Hj) as (s & _ & i & b1 & Hi & [Hid _] & _).
    assert (opid_of U op = opid_of U (operation b1)) as Hx by (rewrite <-Hop; exact Hid).
    rewrite (Hids _ _ Hx). apply Hpre. by eapply elem_of_list_lookup_2.
Qed.
End separate.

(** A consignment with any operation beside the genesis is accepted by one contract only. *)
Theorem C72_apart {P U} (A A' : ContractApi P U) {E E' : Type} c0 c0' bs c t c' t' :
  faithful U -> refuses_foreign U -> ids_name_contract U -> remembers A -> remembers A' ->
  knows_only A (contract_id A c0) c0 -> knows_only A' (contract_id A' c0') c0' ->
  contract_id A c0 <> contract_id A' c0' ->
  evaluate A (E:=E) c0 bs None = (c, t, Some (Ok tt)) ->
  evaluate A' (E:=E') c0' bs None = (c', t', Some (Ok tt)) ->
  length bs <= 1.
Proof.
  intros Hf Hs Hids Hr Hr' H0 H0' Hne Hacc Hacc'.
  destruct bs as [|x [|y bs]]; cbn; [lia|lia|]. destruct Hne.
  destruct (C72_own A c0 _ c t Hf Hs Hids Hr H0 Hacc) as [H _].
  destruct (C72_own A' c0' _ c' t' Hf Hs Hids Hr' H0' Hacc') as [H' _].
  by rewrite <-(H 0 y eq_refl), <-(H' 0 y eq_refl).
Qed.

(** * Concrete cases *)
Lemma toy_refuses : refuses_foreign TU.
Proof.
  intros k cid op m r v. cbn. destruct (decide (op_contract_id op <> cid)) as [|Heq]; [done|]. intros _.
  by destruct (decide (op_contract_id op = cid)).
Qed.
Lemma toy_ids : ids_name_contract TU.
Proof. intros op op' H. by rewrite (toy_opid_inj _ _ H). Qed.

Lemma toy_knows_only op : op_contract_id op = toy_cid -> knows_only toy_api toy_cid (toy_contract op).
Proof.
  intros Hop op' H. cbn in H. apply bool_decide_eq_true in H as [x Hx].
  apply lookup_singleton_Some in Hx as [Hx _]. by rewrite <-(toy_opid_inj _ _ Hx).
Qed.

Example C72_case :
  (forall i b, scenario !! S i = Some b -> op_contract_id (operation b) = toy_cid) /\
  knows_only toy_api toy_cid (toy_after ledger scenario).
Proof.
  destruct (C72_own toy_api (E:=Empty_set) ledger scenario (toy_after ledger scenario) (toy_log ledger scenario)
    (sonic_faithful toy_sonic) toy_refuses toy_ids (ledger_remembers TP toy_sonic)
    (toy_knows_only op_g eq_refl) scenario_accepted) as (H1 & _ & H2).
  split; [exact H1|exact H2].
Qed.

(** Another contract with the same codex and a genesis that differs in its nonce. *)
Definition other_cid : ContractId := MkContractId [8%N; 8%N].
Definition other_ledger : ToyContract := {|
  tc_codex := toy_codex : sonic_codex toy_sonic;
  tc_contract_id := other_cid;
  tc_libs := ∅;
  tc_global := ∅;
  tc_owned := ∅;
  tc_known_ops := {[ toy_opid (toy_op other_cid 99 [] []) := toy_op other_cid 99 [] [] ]};
  tc_seal_definitions := ∅;
  tc_witnesses := ∅ |}.

(** Both contracts accept the genesis entry - it names only the codex - but the other one accepts nothing more. *)
Example C72_case_other :
  (evaluate toy_api (E:=Empty_set) ledger [entry_g] None).2 = Some (Ok tt) /\
  (evaluate toy_api (E:=Empty_set) other_ledger [entry_g] None).2 = Some (Ok tt) /\
  (evaluate toy_api (E:=Empty_set) other_ledger
    [entry_g; block (toy_op toy_cid 5 [] []) [] None] None).2 = Some (Err (Vm (WrongContract : CallError TU))) /\
  (evaluate toy_api (E:=Empty_set) ledger
    [entry_g; block (toy_op toy_cid 5 [] []) [] None] None).2 = Some (Ok tt).
Proof. repeat split; vm_refl. Qed.

(** `evaluate` itself does not look at the contract id after the first entry (src/verify.rs:162-214): with a
    codex that does not either, operations of any contract are applied. *)
Definition lax_sonic : Sonic := {|
  sonic_codex := ToyCodex;
  sonic_lib := N;
  sonic_error := ToyCallError;
  sonic_codex_id := fun k => MkCodexId (toy_codex_bytes k);
  sonic_opid := toy_opid;
  sonic_verify := fun _ _ _ _ _ _ => None
|}.
Definition lax_ledger (cid : ContractId) : TestContract TP lax_sonic := {|
  tc_codex := toy_codex : sonic_codex lax_sonic;
  tc_contract_id := cid;
  tc_libs := ∅; tc_global := ∅; tc_owned := ∅;
  tc_known_ops := ∅; tc_seal_definitions := ∅; tc_witnesses := ∅ |}.
Example C72_codex_needed :
  let bs := [entry_g; block (toy_op toy_cid 5 [] []) [] None] in
  knows_only (test_ledger TP lax_sonic) toy_cid (lax_ledger toy_cid) /\
  knows_only (test_ledger TP lax_sonic) other_cid (lax_ledger other_cid) /\
  (evaluate (test_ledger TP lax_sonic) (E:=Empty_set) (lax_ledger toy_cid) bs None).2 = Some (Ok tt) /\
  (evaluate (test_ledger TP lax_sonic) (E:=Empty_set) (lax_ledger other_cid) bs None).2 = Some (Ok tt).
Proof.
  assert (forall cid, knows_only (test_ledger TP lax_sonic) cid (lax_ledger cid)) as H.
  { intros cid op Hk. cbn in Hk. apply bool_decide_eq_true in Hk as [x Hx]. by rewrite lookup_empty in Hx. }
  intros bs. split; [apply H|]. split; [apply H|]. split; vm_refl.
Qed.

(** A contract that knows an operation of another contract accepts it without verification
    (src/verify.rs:204-214). *)
Definition mixed_ledger : ToyContract := {|
  tc_codex := toy_codex : sonic_codex toy_sonic;
  tc_contract_id := other_cid;
  tc_libs := ∅; tc_global := ∅; tc_owned := ∅;
  tc_known_ops := {[ toy_opid (toy_op toy_cid 5 [] []) := toy_op toy_cid 5 [] [] ]};
  tc_seal_definitions := ∅; tc_witnesses := ∅ |}.
Example C72_known_needed :
  ~ knows_only toy_api other_cid mixed_ledger /\
  (evaluate toy_api (E:=Empty_set) mixed_ledger
    [entry_g; block (toy_op toy_cid 5 [] []) [] None] None).2 = Some (Ok tt).
Proof.
  split; [|vm_refl]. intros H. specialize (H (toy_op toy_cid 5 [] [])).
  assert (is_known toy_api mixed_ledger (opid_of TU (toy_op toy_cid 5 [] [])) = true) as Hk by vm_refl.
  apply H in Hk. vm_compute in Hk. discriminate Hk.
Qed.

Print Assumptions C72_own.
Print Assumptions C72_apart.
