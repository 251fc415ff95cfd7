(** * Properties, part 15: what the tests check

    C64: the assertions made after an evaluation by `run`, the common part of the tests
    (src/verify.rs:470-500). *)
From Verif Require Import TestRun Refine Scenario.
From Coq Require Import Lia.
Notation block := Verif.Concrete.block.

Section tests.
Context (P : SealProtocol) (S : Sonic) {E : Type}.
Notation Block := (OperationSeals P).
Notation A := (test_ledger P S).
Notation id_of := (id_of (P:=P) (U:=sonic S)).
Implicit Types (c : TestContract P S) (bs : list Block) (b : Block).

(** A contract as in the tests (src/verify.rs:431-447): records of one operation only. *)
Definition starts_at c (g : Opid) : Prop :=
  (forall o, is_Some (tc_known_ops P S c !! o) <-> o = g) /\
  (forall o, is_Some (tc_seal_definitions P S c !! o) <-> o = g) /\
  (forall o, is_Some (tc_witnesses P S c !! o) <-> o = g).

(** ** C64 The assertions of the tests *)

(** A consignment which starts with the genesis and delivers each operation once passes iff
    it is accepted, the id of the genesis - both as delivered and as seen by the contract -
    is before all others, and each later entry has seals and a witness. *)
Theorem C64_exact c0 g b0 bs :
  starts_at c0 g ->
  let h := history (tc_contract_id P S c0) (b0 :: bs) in
  id_of (seen_first (tc_contract_id P S c0) b0) = g ->
  NoDup (id_of <$> h) ->
  id_of b0 ∉ id_of <$> h ->
  test_run P S (E:=E) c0 (b0 :: bs) <->
  (exists c t, evaluate A (E:=E) c0 (b0 :: bs) None = (c, t, Some (Ok tt))) /\
  forall b, b ∈ bs ->
    opid_cmp (id_of b0) (id_of b) = Lt /\ opid_cmp g (id_of b) = Lt /\
    defined_seals b <> ∅ /\ is_Some (witness b).
Proof.
  intros (K0 & S0 & W0) h Hg Hnd Hraw.
  assert (NoDup (id_of <$> bs) /\ id_of b0 ∉ id_of <$> bs /\ g ∉ id_of <$> bs /\ id_of b0 <> g) as (H1 & H2 & H3 & H4).
  { subst h. cbn [history fmap list_fmap] in Hnd, Hraw. rewrite Hg in Hnd, Hraw.
    apply list.NoDup_cons in Hnd as [? ?]. apply not_elem_of_cons in Hraw as [? ?]. done. }
  assert (forall c t, evaluate A (E:=E) c0 (b0 :: bs) None = (c, t, Some (Ok tt)) ->
    assertions P S (b0 :: bs) c <->
    forall b, b ∈ bs -> opid_cmp (id_of b0) (id_of b) = Lt /\ opid_cmp g (id_of b) = Lt /\
      defined_seals b <> ∅ /\ is_Some (witness b)) as Hiff.
  { intros c t (t' & Hrun & _)%evaluate_ok_iff.
    destruct (run_records c0 (b0 :: bs) t' c g Hrun Hnd) as ((Kg & Sg & Wg) & K & Sd & W);
      [by intros b [= <-]|done|done|done|].
    unfold assertions.
    rewrite (compared_spec operation (fun _ => True) (tc_known_ops P S c) g b0 bs H1 H2 H3 H4 Kg).
    2:{ intros o x Hne. rewrite (K o x Hne). naive_solver. }
    rewrite (compared_spec defined_seals (fun b => defined_seals b <> ∅) (tc_seal_definitions P S c) g b0 bs H1 H2 H3 H4 Sg Sd).
    rewrite (compared_spec _ (fun b => is_Some (witness b)) (tc_witnesses P S c) g b0 bs H1 H2 H3 H4 Wg W).
    naive_solver. }
  unfold test_run. split.
  - intros (c & t & Hev & Has). split; [by exists c, t|]. by apply (Hiff c t).
  - intros [(c & t & Hev) H]. exists c, t. split; [done|]. by apply (Hiff c t).
Qed.

(** For consignments of at most one entry - and no longer one reaches the assertions in the
    tests (src/verify.rs:502-723) - the assertions say nothing about what is recorded, for
    whatever contract. *)
Theorem C64_blind bs c :
  length bs <= 1 ->
  assertions P S bs c <->
  (exists o v, tc_known_ops P S c = {[ o := v ]}) /\
  (exists o v, tc_seal_definitions P S c = {[ o := v ]}) /\
  (exists o v, tc_witnesses P S c = {[ o := v ]}).
Proof. intros H. unfold assertions. by rewrite !compared_short. Qed.

(** For longer ones they do, for whatever contract: apart from the first key of each map, the
    records are those of the entries after the first, if the id of the first one as delivered
    is before all others. *)
Definition records {V} (f : Block -> V) bs (m : gmap Opid V) : Prop :=
  forall o, (exists o', opid_cmp o' o = Lt /\ is_Some (m !! o')) ->
  forall x, m !! o = Some x <-> exists b, b ∈ bs /\ id_of b = o /\ f b = x.

Theorem C64_says b0 bs c :
  NoDup (id_of <$> b0 :: bs) ->
  (forall b, b ∈ bs -> opid_cmp (id_of b0) (id_of b) = Lt) ->
  assertions P S (b0 :: bs) c ->
  records operation bs (tc_known_ops P S c) /\
  records defined_seals bs (tc_seal_definitions P S c) /\
  records (fun b => match witness b with Some w => [w] | None => [] end) bs (tc_witnesses P S c).
Proof.
  intros Hnd Hlt (HK & HS & HW).
  assert (forall V (f : Block -> V) (m : gmap Opid V), compared (collected P S f (b0 :: bs)) m -> records f bs m) as Hgen.
  { intros V f m. unfold compared. destruct (first_key_value m) as [[o1 v1]|] eqn:Hf; [|done].
    intros Heq o (o' & Ho & Hs) x. apply first_key_value_spec in Hf as [_ Hl].
    assert (o1 <> o) as Hne1.
    { intros ->. destruct (Hl o' Hs) as [->|H]; [by apply opid_lt_irrefl in Ho|].
      pose proof (cmp_trans _ opid_cmp_lawful _ _ _ Ho H) as H'. by apply opid_lt_irrefl in H'. }
    rewrite <-Heq, lookup_insert_ne by done.
    rewrite (pop_first_least _ (id_of b0)).
    - rewrite lookup_delete_Some, collected_lookup by done. split.
      + intros (H0 & b & [->|Hb]%elem_of_cons & Hid & Hx); [done|eauto].
      + intros (b & Hb & <- & Hx). split; [|exists b; set_solver].
        intros Heq'. specialize (Hlt b Hb). rewrite Heq' in Hlt. by apply opid_lt_irrefl in Hlt.
    - exists (f b0). apply collected_lookup; [done|]. exists b0. set_solver.
    - intros o2 [x2 Hx2]. apply collected_lookup in Hx2 as (b' & [->|Hb']%elem_of_cons & <- & _); [by left|right; auto|done]. }
  split; [|split]; by apply Hgen.
Qed.
End tests.

(** The tests which reach the assertions: `empty` (src/verify.rs:502-506) and `genesis_only`
    (508-516). *)
Lemma contract_starts (op : Operation) : starts_at TP toy_sonic (toy_contract op) (toy_opid op).
Proof.
  assert (forall V (v : V) o, is_Some (({[ toy_opid op := v ]} : gmap Opid V) !! o) <-> o = toy_opid op) as H.
  { intros V v o. split; [by intros [x [-> _]%lookup_singleton_Some]|intros ->; rewrite lookup_singleton; eauto]. }
  split; [|split]; intros o; apply H.
Qed.
Example test_run_empty : test_run TP toy_sonic (E:=Empty_set) contract [].
Proof.
  exists (toy_after contract []), (toy_log contract []). split; [apply toy_evaluate; vm_refl|].
  apply (C64_blind TP toy_sonic); [cbn; lia|].
  split; [exists genesis_id, genesis; vm_refl|]. split; [exists genesis_id, ∅; vm_refl|exists genesis_id, []; vm_refl].
Qed.
Example test_run_genesis_only : test_run TP toy_sonic (E:=Empty_set) contract [block (as_genesis genesis) [] None].
Proof.
  apply (C64_exact TP toy_sonic contract genesis_id _ _ (contract_starts genesis)).
  - vm_refl.
  - cbn [history fmap list_fmap]. apply NoDup_singleton.
  - apply (bool_decide_unpack _). by vm_compute.
  - split; [|intros b Hb; by apply elem_of_nil in Hb].
    eexists _, _. apply toy_evaluate. vm_refl.
Qed.

(** ** C64: an accepted consignment in which each later entry has seals and a witness fails
    the assertions, since the genesis as delivered is not the first one in the order of ids *)
Theorem C64_honest_run_fails :
  toy_accepts ledger scenario (toy_after ledger scenario) (toy_log ledger scenario) /\
  starts_at TP toy_sonic ledger id_g /\
  Forall (fun b : ToyBlock => defined_seals b <> ∅ /\ is_Some (witness b)) (tail scenario) /\
  ~ test_run TP toy_sonic (E:=Empty_set) ledger scenario.
Proof.
  split; [exact scenario_accepted|]. split; [exact (contract_starts op_g)|]. split.
  { apply list.Forall_cons. split; [split; [intros H; apply (f_equal map_to_list) in H; vm_compute in H; discriminate H|by eexists]|].
    apply list.Forall_cons. split; [split; [intros H; apply (f_equal map_to_list) in H; vm_compute in H; discriminate H|by eexists]|].
    apply list.Forall_nil. done. }
  intros H. apply (C64_exact TP toy_sonic ledger id_g entry_g [entry_1; entry_2] (contract_starts op_g)) in H as [_ H].
  - destruct (H entry_1) as [H1 _]; [apply elem_of_list_here|]. vm_compute in H1. discriminate H1.
  - vm_refl.
  - apply (bool_decide_unpack _). by vm_compute.
  - apply (bool_decide_unpack _). by vm_compute.
Qed.

(** With a codex id which makes the id of the genesis as delivered the first one, the same
    consignment passes; and then the one operation of the tests (src/verify.rs:449-468),
    properly witnessed, still fails, as it has no outputs and thus no seals. *)
Definition early_codex : ToyCodex := MkToyCodex [1%N] {[0%N]}.
Definition early (c : ToyContract) : ToyContract := {|
  tc_codex := early_codex : sonic_codex toy_sonic;
  tc_contract_id := tc_contract_id TP toy_sonic c;
  tc_libs := tc_libs TP toy_sonic c;
  tc_global := tc_global TP toy_sonic c;
  tc_owned := tc_owned TP toy_sonic c;
  tc_known_ops := tc_known_ops TP toy_sonic c;
  tc_seal_definitions := tc_seal_definitions TP toy_sonic c;
  tc_witnesses := tc_witnesses TP toy_sonic c |}.
Definition early_genesis (op : Operation) (defs : list (N * WTxoSeal)) : ToyBlock :=
  block (with_contract_id (MkContractId [1%N]) op) defs None.

Example C64_case : test_run TP toy_sonic (E:=Empty_set) (early ledger)
  [early_genesis op_g [(0%N, def_a); (1%N, def_b)]; entry_1; entry_2].
Proof.
  apply (C64_exact TP toy_sonic (early ledger) id_g _ _ (contract_starts op_g)).
  - vm_refl.
  - apply (bool_decide_unpack _). by vm_compute.
  - apply (bool_decide_unpack _). by vm_compute.
  - split; [eexists _, _; apply toy_evaluate; vm_refl|].
    intros b [->|[->|Hb]%elem_of_cons]%elem_of_cons; [| |by apply elem_of_nil in Hb];
      (split; [vm_refl|]; split; [vm_refl|]; split; [|by eexists];
       intros H; apply (f_equal map_to_list) in H; vm_compute in H; discriminate H).
Qed.

Definition transfer_of_tests : list ToyBlock :=
  [early_genesis genesis [(0%N, seal_1)]; block operation_1 [] (Some (wit (tx_of 9 coinbase operation_1_id)))].
Example C64_case_no_outputs :
  toy_run (early contract) transfer_of_tests = Some (Ok tt) /\
  ~ test_run TP toy_sonic (E:=Empty_set) (early contract) transfer_of_tests.
Proof.
  split; [vm_refl|]. intros H.
  apply (C64_exact TP toy_sonic (early contract) genesis_id _ _ (contract_starts genesis)) in H as [_ H].
  - destruct (H (block operation_1 [] (Some (wit (tx_of 9 coinbase operation_1_id))))) as (_ & _ & H1 & _);
      [apply elem_of_list_here|]. apply H1. vm_refl.
  - vm_refl.
  - apply (bool_decide_unpack _). by vm_compute.
  - apply (bool_decide_unpack _). by vm_compute.
Qed.

(** ** C64: after the test `genesis_only` a contract with any other operation, seals and
    witnesses in place of its records passes too *)
Example C64_case_blind (o : Opid) (op : Operation) (d : gmap N (SealDef TP)) (l : list (SealWitness TP)) :
  assertions TP toy_sonic [block (as_genesis genesis) [] None]
    {| tc_codex := toy_codex : sonic_codex toy_sonic; tc_contract_id := toy_cid; tc_libs := ∅;
       tc_global := ∅; tc_owned := ∅; tc_known_ops := {[ o := op ]};
       tc_seal_definitions := {[ o := d ]}; tc_witnesses := {[ o := l ]} |}.
Proof.
  apply (C64_blind TP toy_sonic); [cbn; lia|]. cbn. eauto 10.
Qed.

(** ** C64: what the assertions say after the consignment of [C64_case] *)
Example C64_case_says :
  let c := toy_after (early ledger) [early_genesis op_g [(0%N, def_a); (1%N, def_b)]; entry_1; entry_2] in
  tc_witnesses TP toy_sonic c !! id_2 = Some [wit tx_2].
Proof.
  cbv zeta. destruct C64_case as (c & t & Hev & Has).
  assert (c = toy_after (early ledger) [early_genesis op_g [(0%N, def_a); (1%N, def_b)]; entry_1; entry_2]) as Hc.
  { symmetry. exact (f_equal (fun r => r.1.1) Hev). }
  apply (C64_says TP toy_sonic) in Has as (_ & _ & HW).
  - rewrite <-Hc. apply (HW id_2).
    + exists id_g. split; [vm_refl|]. rewrite Hc. exists []; vm_refl.
    + exists entry_2. split; [apply elem_of_list_further, elem_of_list_here|]. split; vm_refl.
  - apply (bool_decide_unpack _). by vm_compute.
  - intros b Hb. apply elem_of_cons in Hb as [->|Hb]; [vm_refl|].
    apply elem_of_cons in Hb as [->|Hb]; [vm_refl|]. exfalso. exact (not_elem_of_nil _ Hb).
Qed.

Print Assumptions C64_exact.
Print Assumptions C64_blind.
Print Assumptions C64_says.
Print Assumptions C64_honest_run_fails.
