(** * Properties, part 16: operations without inputs

    C65: "Require state transitions to have at least 1 input" (CHANGELOG.md:31). *)
From Verif Require Import Refine Runs Laws DoubleSpend Counterexamples Properties1 Properties3.
From Coq Require Import Lia.
Notation block := Verif.Concrete.block.

(** A cell of entry [i] of [h] is consumed by a later entry [j]. *)
Definition hands_over {P U} (h : list (OperationSeals P)) (i j : nat) : Prop :=
  i < j /\ exists b b' a, h !! i = Some b /\ h !! j = Some b' /\ cell_opid a = opid_of U (operation b) /\
    a ∈ input_addr <$> op_destructible_in (operation b').

(** Entry [j] of [h] comes, over any number of such steps, from an entry with [root]. *)
Inductive descends {P U} (h : list (OperationSeals P)) (root : OperationSeals P -> Prop) : nat -> Prop :=
| descends_root i b : h !! i = Some b -> root b -> descends h root i
| descends_step i j : descends h root i -> hands_over (U:=U) h i j -> descends h root j.

Section inputs.
Context {P : SealProtocol} {U : Ultrasonic} (A : ContractApi P U) {E : Type}.
Notation Block := (OperationSeals P).
Notation id_of := (id_of (P:=P) (U:=U)).
Notation accepted c0 bs c t := (evaluate A (E:=E) c0 bs None = (c, t, Some (Ok tt))).
Implicit Types (b : Block) (bs : list Block).

(** ** C65 State transitions have at least one input *)

(** The full claim, false of the code ([C65_inputs_refuted]). *)
Definition C65_claim : Prop := forall c0 bs c t i b,
  accepted c0 bs c t -> bs !! S i = Some b ->
  op_destructible_in (operation b) <> [] \/ op_immutable_in (operation b) <> [].

(** The codex of the contract accepts no operation without inputs. *)
Definition codex_wants_inputs (c0 : Contract A) : Prop := forall op m r v,
  codex_verify U (codex A c0) (contract_id A c0) op m r = Ok v -> op_destructible_in op <> [].

(** Entries with the same id have the same operation. *)
Definition ids_differ (h : list Block) : Prop :=
  forall b b', b ∈ h -> b' ∈ h -> id_of b = id_of b' -> operation b = operation b'.

Section laws.
Hypothesis Hinert : records_inert A.
Hypothesis Hident : keeps_identity A.
Hypothesis Hrem : remembers A.
Hypothesis Hfaith : faithful U.

Lemma run_codex c0 bs t c : valid_run A c0 bs t c -> codex A c = codex A c0.
Proof.
  intros H. induction H as [|bs t c b H IH Hv]; [done|].
  rewrite (proj2 (apply_calls_identity A Hinert Hident c _)). done.
Qed.

Lemma run_known c0 bs t c : codex_wants_inputs c0 -> valid_run A c0 bs t c ->
  forall o, is_known A c o = true -> is_known A c0 o = true \/
    exists b, b ∈ history (contract_id A c0) bs /\ id_of b = o /\ op_destructible_in (operation b) <> [].
Proof.
  intros Hw H. induction H as [|bs t c b H IH Hv]; intros o Ho; [by left|].
  assert (is_known A c o = true \/ id_of (seen (contract_id A c0) bs b) = o /\
    op_destructible_in (operation (seen (contract_id A c0) bs b)) <> []) as [Hk|[Hid Hin]].
  { revert Ho. unfold block_effects. cbv zeta. set (b' := seen (contract_id A c0) bs b).
    unfold apply_calls. rewrite !foldl_app. destruct Hrem as (R1 & R2 & R3).
    assert (forall x, is_known A (foldl (apply_call A) x (seals_calls b')) o = is_known A x o) as ->.
    { intros x. unfold seals_calls. case_decide; cbn; [done|]. apply R2. }
    assert (forall x, is_known A (foldl (apply_call A) x (witness_calls (U:=U) b')) o = is_known A x o) as Hwit.
    { intros x. unfold witness_calls. destruct (witness b'); cbn; [apply R3|done]. }
    unfold operation_calls. destruct (is_first bs); [cbn; rewrite Hwit; by left|].
    destruct (is_known A c (id_of b')); [cbn; rewrite Hwit; by left|].
    destruct (vm_verdict A (contract_id A c0) c b') as [v|] eqn:Hvm; [|cbn; rewrite Hwit; by left].
    cbn. rewrite R1, Hwit. unfold vm_verdict in Hvm. rewrite (run_codex _ _ _ _ H) in Hvm.
    rewrite (Hfaith _ _ _ _ _ _ Hvm). intros [->|Ho]; [right|by left].
    split; [done|]. exact (Hw _ _ _ _ Hvm). }
  - destruct (IH o Hk) as [?|(b1 & Hb1 & Hid & Hin)]; [by left|right].
    exists b1. rewrite history_snoc. split; [apply elem_of_app; by left|done].
  - right. eexists. rewrite history_snoc. split; [apply elem_of_app; right; by left|done].
Qed.

Lemma entry_has_inputs c0 bs t c i b :
  codex_wants_inputs c0 -> valid_run A c0 bs t c -> ids_differ (history (contract_id A c0) bs) ->
  history (contract_id A c0) bs !! i = Some b -> is_known A c0 (id_of b) = false ->
  op_destructible_in (operation b) <> [].
Proof.
  intros Hw H. revert i b. induction H as [|bs t c b0 H IH Hv]; intros i b Hids Hi Hk; [done|].
  rewrite history_snoc in Hi, Hids.
  apply lookup_app_Some in Hi as [Hi|[_ Hi]].
  { apply (IH i b); [|done|done]. intros b1 b2 H1 H2. apply Hids; apply elem_of_app; by left. }
  apply list_lookup_singleton_Some in Hi as [_ <-].
  destruct Hv as (_ & _ & _ & Hvm). unfold vm_accepts in Hvm.
  set (b' := seen (contract_id A c0) bs b0) in *.
  destruct (is_known A c (id_of b')) eqn:Hkc.
  - destruct (run_known c0 bs t c Hw H _ Hkc) as [?|(b1 & Hb1 & Hid & Hin)]; [congruence|].
    rewrite <-(Hids b1 b'); [done|apply elem_of_app; by left|apply elem_of_app; right; by left|done].
  - destruct (Hvm eq_refl) as [v Hvv]. unfold vm_verdict in Hvv. rewrite (run_codex _ _ _ _ H) in Hvv.
    exact (Hw _ _ _ _ Hvv).
Qed.
End laws.

(** What holds: *)
Theorem C65_inputs_partial c0 bs c t :
  accepted c0 bs c t ->
  let h := history (contract_id A c0) bs in
  (* a further operation without inputs, not known before, is accepted just if the codex accepts
     it, its seals are committed, and the witness - if there is one - closes no seals *)
  (forall b, bs <> [] -> op_destructible_in (operation b) = [] -> is_known A c (id_of b) = false ->
     (exists d u, accepted c0 (bs ++ [b]) d u) <->
     tokens_committed b /\
     (exists v, codex_verify U (codex A c) (contract_id A c0) (operation b) (memory A c) (repo A c) = Ok v) /\
     forall w, witness b = Some w -> witness_closes w [] (message_of (U:=U) b) = Ok tt) /\
  (* each entry comes from an entry without inputs *)
  (forall i, i < length h -> descends (U:=U) h (fun b => op_destructible_in (operation b) = []) i) /\
  (* if the codex wants inputs, then all operations which the contract did not know before have
     inputs, and come from operations it knew *)
  (records_inert A -> keeps_identity A -> remembers A -> faithful U ->
   codex_wants_inputs c0 -> ids_differ h ->
   (forall i b, h !! i = Some b -> is_known A c0 (id_of b) = false -> op_destructible_in (operation b) <> []) /\
   forall i, i < length h -> descends (U:=U) h (fun b => is_known A c0 (id_of b) = true) i).
Proof.
  intros Hacc h. pose proof Hacc as (t' & Hrun & ->)%evaluate_ok_iff.
  assert (forall j b, h !! j = Some b -> op_destructible_in (operation b) <> [] -> exists i, hands_over (U:=U) h i j) as Hstep.
  { intros j b Hj Hin.
    destruct (proj1 (C05_seal_provenance A c0) bs c _ j b Hacc Hj) as (closed & Hcl & _).
    destruct (op_destructible_in (operation b)) as [|x l] eqn:Hx; [done|].
    cbn in Hcl. apply Forall2_cons_inv_l in Hcl as (s & sl & (k & bk & d & Hk & Hbk & Ha & _) & _).
    exists k. split; [done|]. exists bk, b, (input_addr x). split; [done|]. split; [done|]. split; [done|].
    rewrite Hx. by left. }
  assert (forall root : Block -> Prop,
    (forall j b, h !! j = Some b -> ~ root b -> op_destructible_in (operation b) <> []) ->
    (forall b, root b \/ ~ root b) -> forall i, i < length h -> descends (U:=U) h root i) as Hdesc.
  { intros root Hroot Hdec i. induction (lt_wf i) as [i _ IH]. intros Hi.
    apply lookup_lt_is_Some in Hi as [b Hb]. destruct (Hdec b) as [Hr|Hr]; [by eapply descends_root|].
    destruct (Hstep i b Hb (Hroot i b Hb Hr)) as [k Hk]. apply (descends_step _ _ k); [|done].
    apply IH; [by destruct Hk|]. destruct Hk as (_ & bk & _ & _ & Hbk & _). by eapply lookup_lt_Some. }
  split; [|split].
  - intros b Hne Hin Hk.
    assert (seen (contract_id A c0) bs b = b) as Hseen by (by destruct bs).
    assert (inputs_of b = []) as Hin' by (unfold inputs_of; by rewrite Hin).
    split.
    + intros (d & u & Hd). apply evaluate_ok_iff in Hd as (u' & Hr & _).
      apply valid_run_snoc_inv in Hr as (t1 & c1 & Hr1 & (_ & Ht & (closed & [_ Hs] & Hc) & Hv) & _ & _).
      destruct (valid_run_functional A _ _ _ _ _ _ Hrun Hr1) as [_ <-].
      rewrite Hseen in *. rewrite Hin' in Hs. apply Forall2_nil_inv_l in Hs as ->.
      split; [done|]. split; [by apply Hv|]. intros w Hw. unfold properly_closed in Hc. by rewrite Hw in Hc.
    + intros (Ht & Hv & Hw). eexists _, _. apply evaluate_ok_iff. eexists. split; [|done].
      eapply valid_run_snoc; [done|]. unfold block_valid. cbv zeta. rewrite Hseen.
      split; [by intros ->|]. split; [done|]. split.
      * exists []. split; [split; rewrite Hin'; constructor|]. unfold properly_closed.
        destruct (witness b) as [w|]; [by apply Hw|done].
      * intros _. exact Hv.
  - apply Hdesc; [done|]. intros b. destruct (op_destructible_in (operation b)); [by left|by right].
  - intros H1 H2 H3 H4 Hw Hids.
    assert (forall i b, h !! i = Some b -> is_known A c0 (id_of b) = false -> op_destructible_in (operation b) <> []) as Hin.
    { intros i b. by apply (entry_has_inputs H1 H2 H3 H4 c0 bs t' c i b). }
    split; [exact Hin|]. apply Hdesc.
    + intros j b Hj Hnr. apply (Hin j b Hj). by apply not_true_is_false.
    + intros b. destruct (is_known A c0 (id_of b)); [by left|by right].
Qed.

End inputs.

(** With such a codex, of the premises of C32 and C35 on operations without inputs only those
    on operations known before - the genesis - remain; C43 is the case of one consignment. *)
Section two.
Context {P : SealProtocol} {U : Ultrasonic} (A A' : ContractApi P U) {E E' : Type}.
Theorem C65_closes_gaps (on_chain : SealWitness P -> Prop) (c0 : Contract A) (c0' : Contract A')
    (bs bs' : list (OperationSeals P)) c c' t t' :
  records_inert A -> keeps_identity A -> remembers A -> faithful U ->
  evaluate A (E:=E) c0 bs None = (c, t, Some (Ok tt)) ->
  evaluate A' (E:=E') c0' bs' None = (c', t', Some (Ok tt)) ->
  let h := history (contract_id A c0) bs in
  let h' := history (contract_id A' c0') bs' in
  sound_world (U:=U) (denoted P h) on_chain h h' -> ids_differ (U:=U) h ->
  Forall positions_bound h -> Forall positions_bound h' ->
  codex_wants_inputs A c0 ->
  (forall b pos d, b ∈ h -> is_known A c0 (opid_of U (operation b)) = true ->
     defined_seals b !! pos = Some d -> to_src P d = None -> witness b = None \/ inputs_of b <> []) ->
  (forall i i' b b' a, h !! i = Some b -> consumes b a -> h' !! i' = Some b' -> consumes b' a ->
     operation b = operation b') /\
  (forall i i' b b' a s s', h !! i = Some b -> reveals (U:=U) b a s -> h' !! i' = Some b' ->
     reveals (U:=U) b' a s' -> s = s').
Proof.
  intros H1 H2 H3 H4 Hacc Hacc' h h' Hw Hids Hb Hb' Hc Hk.
  assert (Forall roots_settled h) as Hr.
  { apply list.Forall_forall. intros b Hin Hno pos d Hd Hsrc.
    destruct (is_known A c0 (id_of (U:=U) b)) eqn:Hkb.
    - by destruct (Hk b pos d Hin Hkb Hd Hsrc).
    - apply elem_of_list_lookup in Hin as [i Hi].
      destruct (proj2 (proj2 (C65_inputs_partial A c0 bs c t Hacc)) H1 H2 H3 H4 Hc Hids) as [Hall _].
      destruct (Hall i b Hi Hkb). unfold inputs_of in Hno. by apply fmap_nil_inv in Hno. }
  split.
  - intros i i' b b' a Hi Ha Hi' Ha'.
    exact (proj2 (C32_no_double_spend_partial A A' on_chain c0 c0' bs bs' c c' t t' i i' b b' a
      Hacc Hacc' Hw Hb Hb' Hr Hi Ha Hi' Ha')).
  - intros i i' b b' a s s' Hi Hs Hi' Hs'.
    exact (C35_seal_determined_partial A A' on_chain c0 c0' bs bs' c c' t t' i i' b b' a s s'
      Hacc Hacc' Hw Hb Hb' Hr Hi Hs Hi' Hs').
Qed.
End two.

(** * Concrete cases *)

(** An operation without inputs is applied, and gives a cell which comes from nothing; its
    cell is then spent. *)
Theorem C65_inputs_refuted :
  ~ C65_claim toy_api (E:=Empty_set) /\
  exists bs c t, toy_accepts ledger bs c t /\ applied_ids t = [id_i; id_y] /\
    bs !! 1 = Some entry_iy /\ op_destructible_in op_i = [] /\ op_immutable_in op_i = [] /\
    ~ descends (U:=TU) (history toy_cid bs) (fun b => is_known toy_api ledger (opid_of TU (operation b)) = true) 1 /\
    ~ descends (U:=TU) (history toy_cid bs) (fun b => is_known toy_api ledger (opid_of TU (operation b)) = true) 2.
Proof.
  split.
  - intros H. destruct (H ledger run_y _ _ 0 entry_iy run_y_accepted eq_refl) as [Hn|Hn]; by apply Hn.
  - exists run_y, (toy_after ledger run_y), (toy_log ledger run_y). split; [exact run_y_accepted|].
    split; [vm_refl|]. split; [reflexivity|]. split; [reflexivity|]. split; [reflexivity|].
    assert (is_known toy_api ledger id_i = false) as Hki by vm_refl.
    assert (is_known toy_api ledger id_y = false) as Hky by vm_refl.
    assert (id_i <> id_g) as Hne by (apply (bool_decide_unpack _); by vm_compute).
    assert (forall i, descends (U:=TU) (history toy_cid run_y)
      (fun b => is_known toy_api ledger (opid_of TU (operation b)) = true) i -> i = 0) as Hz.
    { intros i H. induction H as [i b Hi Hk|i j H -> (Hlt & b & b' & a & Hb & Hb' & Ha & Hin)].
      - destruct i as [|[|[|i]]]; [done| | |discriminate Hi].
        + assert (b = entry_iy) as -> by (injection Hi as <-; reflexivity).
          change (is_known toy_api ledger id_i = true) in Hk. congruence.
        + assert (b = entry_y) as -> by (injection Hi as <-; reflexivity).
          change (is_known toy_api ledger id_y = true) in Hk. congruence.
      - assert (b = seen_first toy_cid entry_g) as -> by (injection Hb as <-; reflexivity).
        change (cell_opid a = id_g) in Ha.
        destruct j as [|[|[|j]]]; [lia| | |discriminate Hb'].
        + assert (b' = entry_iy) as -> by (injection Hb' as <-; reflexivity). by apply elem_of_nil in Hin.
        + assert (b' = entry_y) as -> by (injection Hb' as <-; reflexivity).
          change (a ∈ [MkCellAddr id_i 0]) in Hin. apply elem_of_list_singleton in Hin as ->. by destruct Hne. }
    split; intros H; by apply Hz in H.
Qed.

(** The toy codex with a check for inputs. *)
Definition strict_sonic : Sonic := {|
  sonic_codex := ToyCodex;
  sonic_lib := N;
  sonic_error := ToyCallError;
  sonic_codex_id := sonic_codex_id toy_sonic;
  sonic_opid := toy_opid;
  sonic_verify := fun k cid op owned global libs =>
    match op_destructible_in op with
    | [] => Some (MethodNotFound (op_call_id op))
    | _ => sonic_verify toy_sonic k cid op owned global libs
    end |}.
Definition strict_api : ContractApi TP (sonic strict_sonic) := test_ledger TP strict_sonic.
Definition strict_ledger : TestContract TP strict_sonic := {|
  tc_codex := toy_codex : sonic_codex strict_sonic;
  tc_contract_id := toy_cid;
  tc_libs := ∅;
  tc_global := ∅;
  tc_owned := insert_outputs id_g 0 (op_destructible_out op_g) ∅;
  tc_known_ops := {[ id_g := op_g ]};
  tc_seal_definitions := {[ id_g := ∅ ]};
  tc_witnesses := {[ id_g := [] ]} |}.
Lemma strict_wants_inputs : codex_wants_inputs strict_api strict_ledger.
Proof.
  intros op m r v. cbn [strict_api test_ledger sonic codex_verify sonic_verify strict_sonic].
  by destruct (op_destructible_in op).
Qed.
Definition strict_run (bs : list ToyBlock) := evaluate strict_api (E:=Empty_set) strict_ledger bs None.
Lemma strict_accepts bs : (strict_run bs).2 = Some (Ok tt) ->
  strict_run bs = ((strict_run bs).1.1, (strict_run bs).1.2, Some (Ok tt)).
Proof. intros H. destruct (strict_run bs) as [[c t] r]. cbn in *. by rewrite H. Qed.

(** The scenario is accepted, everything in it comes from the genesis; what was accepted above
    is not. *)
Example C65_case :
  (strict_run scenario).2 = Some (Ok tt) /\
  (strict_run run_y).2 = Some (Err (Vm (MethodNotFound 0 : CallError (sonic strict_sonic)))) /\
  forall i, i < 3 -> descends (U:=sonic strict_sonic) (history toy_cid scenario)
    (fun b => is_known strict_api strict_ledger (toy_opid (operation b)) = true) i.
Proof.
  assert ((strict_run scenario).2 = Some (Ok tt)) as H by vm_refl.
  split; [exact H|]. split; [vm_refl|].
  destruct (C65_inputs_partial strict_api (E:=Empty_set) strict_ledger scenario _ _ (strict_accepts _ H)) as (_ & _ & H3).
  destruct (H3 (ledger_inert TP strict_sonic) (ledger_identity TP strict_sonic) (ledger_remembers TP strict_sonic)
    (sonic_faithful strict_sonic) strict_wants_inputs) as [_ H4]; [|exact H4].
  intros b b' _ _ Hid. exact (toy_opid_inj _ _ Hid).
Qed.

(** Two parties with this codex. *)
Example C65_case_gaps :
  (strict_run scenario).2 = Some (Ok tt) /\ (strict_run honest).2 = Some (Ok tt) /\
  forall i i' b b' a, history toy_cid scenario !! i = Some b -> consumes b a ->
    history toy_cid honest !! i' = Some b' -> consumes b' a -> operation b = operation b'.
Proof.
  assert ((strict_run scenario).2 = Some (Ok tt)) as H by vm_refl.
  assert ((strict_run honest).2 = Some (Ok tt)) as H' by vm_refl.
  split; [exact H|]. split; [exact H'|].
  refine (proj1 (C65_closes_gaps strict_api strict_api (E:=Empty_set) (E':=Empty_set) (toy_on_chain chain)
    strict_ledger strict_ledger scenario honest _ _ _ _
    (ledger_inert TP strict_sonic) (ledger_identity TP strict_sonic) (ledger_remembers TP strict_sonic)
    (sonic_faithful strict_sonic) (strict_accepts _ H) (strict_accepts _ H') _ _ _ _ strict_wants_inputs _)).
  - destruct world_scenario_honest as (W1 & W2 & W). split; [intros s _; by apply W1|].
    split; [intros s _; by apply W2|exact W].
  - intros b b' _ _ Hid. exact (toy_opid_inj _ _ Hid).
  - apply toy_positions_bound; by vm_compute.
  - apply toy_positions_bound; by vm_compute.
  - intros b pos d Hb _ _ _.
    assert (Forall (fun b : ToyBlock => witness b = None \/ inputs_of b <> []) (history toy_cid scenario)) as Hf.
    { apply list.Forall_cons. split; [left; reflexivity|]. apply list.Forall_cons. split; [right; done|].
      apply list.Forall_cons. split; [right; done|]. apply list.Forall_nil. exact I. }
    exact (proj1 (list.Forall_forall _ _) Hf b Hb).
Qed.

(** The premise on operations known before is needed: a genesis with its cell at output 0 of
    its witness transaction can be delivered with any witness, and its cell be spent twice. *)
Definition op_gw : Operation := toy_op toy_cid 50 [] [def_w].
Definition id_gw : Opid := toy_opid op_gw.
Definition op_gy : Operation := toy_op toy_cid 51 [MkCellAddr id_gw 0] [def_a].
Definition op_gz : Operation := toy_op toy_cid 52 [MkCellAddr id_gw 0] [def_b].
Definition tx_gy : ToyTx := tx_of 53 (MkOutpoint (MkTxid [41%N]) 0) (toy_opid op_gy).
Definition tx_gz : ToyTx := tx_of 54 (MkOutpoint (MkTxid [42%N]) 0) (toy_opid op_gz).
Definition run_gy : list ToyBlock :=
  [block (as_genesis op_gw) [(0%N, def_w)] (Some (wit tx_y)); block op_gy [(0%N, def_a)] (Some (wit tx_gy))].
Definition run_gz : list ToyBlock :=
  [block (as_genesis op_gw) [(0%N, def_w)] (Some (wit tx_z)); block op_gz [(0%N, def_b)] (Some (wit tx_gz))].
Definition gw_chain : list ToyTx := [tx_y; tx_z; tx_gy; tx_gz].
Definition gw_ledger : TestContract TP strict_sonic := {|
  tc_codex := toy_codex : sonic_codex strict_sonic;
  tc_contract_id := toy_cid;
  tc_libs := ∅;
  tc_global := ∅;
  tc_owned := insert_outputs id_gw 0 (op_destructible_out op_gw) ∅;
  tc_known_ops := {[ id_gw := op_gw ]};
  tc_seal_definitions := {[ id_gw := ∅ ]};
  tc_witnesses := {[ id_gw := [] ]} |}.
Example C65_known_needed :
  (evaluate strict_api (E:=Empty_set) gw_ledger run_gy None).2 = Some (Ok tt) /\
  (evaluate strict_api (E:=Empty_set) gw_ledger run_gz None).2 = Some (Ok tt) /\
  codex_wants_inputs strict_api gw_ledger /\
  sound_world (U:=TU) every_seal (toy_on_chain gw_chain) (history toy_cid run_gy) (history toy_cid run_gz) /\
  Forall positions_bound (history toy_cid run_gy) /\ Forall positions_bound (history toy_cid run_gz) /\
  (exists b b' a, history toy_cid run_gy !! 1 = Some b /\ consumes b a /\
     history toy_cid run_gz !! 1 = Some b' /\ consumes b' a /\ operation b <> operation b').
Proof.
  split; [vm_refl|]. split; [vm_refl|]. split; [exact strict_wants_inputs|].
  split.
  { apply (toy_sound_world _ _ all_defs); [unfold toy_chain; apply (bool_decide_unpack _); by vm_compute|by vm_compute|by vm_compute]. }
  split; [apply toy_positions_bound; by vm_compute|]. split; [apply toy_positions_bound; by vm_compute|].
  exists (block op_gy [(0%N, def_a)] (Some (wit tx_gy))), (block op_gz [(0%N, def_b)] (Some (wit tx_gz))), (MkCellAddr id_gw 0).
  split; [reflexivity|]. split; [left|]. split; [reflexivity|]. split; [left|].
  apply (bool_decide_unpack _). by vm_compute.
Qed.

Print Assumptions C65_inputs_partial.
Print Assumptions C65_inputs_refuted.
Print Assumptions C65_closes_gaps.
