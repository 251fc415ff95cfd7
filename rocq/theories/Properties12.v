(** * Properties C58, C59: how much a consignment can make the verifier do; positions in 16 bits *)
From Verif Require Import Accounting Ledger16 Derived Scenario Counterexamples.
From Coq Require Import Lia.
Notation block := Verif.Concrete.block.

(** ** C58 Seal accounting and bounded work *)
Section properties.
Context {P : SealProtocol} {U : Ultrasonic} (A : ContractApi P U) {E : Type}.
Notation Block := (OperationSeals P).
Notation VError := (VerificationError P U E).
Notation id_of := (id_of (U:=U)).
Notation accepted c0 bs c t := (evaluate A (E:=E) c0 bs None = (c, t, Some (Ok tt))).
Notation total f h := (sum_list_with f h).

(** Each consumed cell and each seal still live has its own reported definition, one which
    denotes a seal. *)
Theorem C58_accounting c0 bs c t :
  accepted c0 bs c t ->
  let h := history (contract_id A c0) bs in
  exists l, lists_live (U:=U) h l /\
    length l + total consumed_in h <= total revealed_in h /\
    total revealed_in h <= total reported_in h.
Proof.
  intros (t' & Hrun & _)%evaluate_ok_iff. cbn zeta.
  destruct (run_accounting A c0 bs t' c Hrun) as (m & Hm & Hle & _).
  exists (map_to_list m). split; [by apply tracks_lists_live|]. split; [exact Hle|].
  generalize (history (contract_id A c0) bs). intros h. induction h as [|b h IH]; cbn; [lia|].
  pose proof (revealed_reported b). lia.
Qed.
(** If no operation is delivered twice, nothing gets lost: revealed = consumed + live. *)
Theorem C58_conservation c0 bs c t l :
  accepted c0 bs c t ->
  let h := history (contract_id A c0) bs in
  NoDup (id_of <$> h) -> lists_live (U:=U) h l ->
  length l + total consumed_in h = total revealed_in h.
Proof.
  intros (t' & Hrun & _)%evaluate_ok_iff. cbn zeta. intros Hids [Hnd Hl].
  destruct (run_accounting A c0 bs t' c Hrun) as (m & Hm & _ & Heq). rewrite <-(Heq Hids). f_equal.
  change (size m) with (length (map_to_list m)). apply Permutation_length, NoDup_Permutation.
  - by eapply NoDup_fmap_1.
  - apply NoDup_map_to_list.
  - intros [a s]. rewrite elem_of_map_to_list. rewrite Hl. symmetry. apply Hm.
Qed.
(** Whatever is delivered, and however the evaluation ends: at most eight calls for each entry
    which is accepted and five for one which is not, the reading included; two calls before the
    loop; one read at the end of the stream. *)
Theorem C58_work c0 bs fin c t (r : result VError unit) :
  evaluate A c0 bs fin = (c, t, Some r) ->
  match r with
  | Ok _ | Err (Stream _) => length t <= 3 + 8 * length bs /\ count is_read t = S (length bs)
  | Err _ => length t < 8 * count is_read t /\ count is_read t <= length bs
  end.
Proof.
  intros H%evaluate_iff_outcome. destruct H as [t c H _|t c e H _|pre b post t c e -> H Hb].
  - pose proof (run_calls_length A _ _ _ _ H). rewrite !count_app, (run_reads A _ _ _ _ H), !app_length. cbn. lia.
  - pose proof (run_calls_length A _ _ _ _ H). rewrite !count_app, (run_reads A _ _ _ _ H), !app_length. cbn. lia.
  - pose proof (run_calls_length A _ _ _ _ H). pose proof (failing_calls_length A c0 pre c b e) as Hf.
    change (failing_calls A c0 pre c b e) with (CallRead :: failing_queries A c0 pre c b e) in *.
    assert (count is_read (CallRead :: failing_queries A c0 pre c b e) = 1) as Hq.
    { rewrite count_cons. destruct (failing_queries_inert A c0 pre c b e) as [-> _]. done. }
    rewrite !count_app, Hq, (run_reads A _ _ _ _ H), !app_length.
    destruct e as [e| | | | | |]; [exfalso; inversion Hb|..]; cbn in *; lia.
Qed.
End properties.

(** *** Concrete cases *)
(** The scenario: four definitions, three inputs, one live seal. *)
Example C58_case l :
  let h := history toy_cid scenario in
  lists_live (U:=TU) h l ->
  sum_list_with reported_in h = 4 /\ sum_list_with revealed_in h = 4 /\ sum_list_with consumed_in h = 3 /\ length l = 1.
Proof.
  cbn zeta. intros Hl.
  assert (sum_list_with reported_in (history toy_cid scenario) = 4) as H1 by vm_refl.
  assert (sum_list_with revealed_in (history toy_cid scenario) = 4) as H2 by vm_refl.
  assert (sum_list_with consumed_in (history toy_cid scenario) = 3) as H3 by vm_refl.
  split; [exact H1|]. split; [exact H2|]. split; [exact H3|].
  assert (length l + sum_list_with consumed_in (history toy_cid scenario) =
    sum_list_with revealed_in (history toy_cid scenario)) as H.
  { refine (C58_conservation toy_api ledger scenario _ _ l scenario_accepted _ Hl).
    apply (bool_decide_unpack _). by vm_compute. }
  rewrite H2, H3 in H. lia.
Qed.
(** A definition which nothing resolves is reported and not revealed: the witness-relative
    one of operation 1, delivered without a witness (and without inputs). *)
Definition op_0 : Operation := toy_op toy_cid 5 [] [def_w].
Example C58_case_unresolved :
  toy_run ledger [entry_g; block op_0 [(0%N, def_w)] None] = Some (Ok tt) /\
  let h := history toy_cid [entry_g; block op_0 [(0%N, def_w)] None] in
  sum_list_with reported_in h = 3 /\ sum_list_with revealed_in h = 2.
Proof. split; [vm_refl|]. split; vm_refl. Qed.
(** An operation delivered twice reveals its seals twice, but they are live once: the
    premise of [C58_conservation] is needed. *)
Definition twice : list ToyBlock := [entry_g; block op_g [(0%N, def_a); (1%N, def_b)] None].
Example C58_case_twice :
  toy_run ledger twice = Some (Ok tt) /\
  sum_list_with revealed_in (history toy_cid twice) = 4 /\ sum_list_with consumed_in (history toy_cid twice) = 0 /\
  exists l, lists_live (U:=TU) (history toy_cid twice) l /\ length l = 2.
Proof.
  split; [vm_refl|]. split; [vm_refl|]. split; [vm_refl|].
  set (m := foldl (fun m b => extend_seals (delete_all (inputs_of b) m) (sources_of (U:=TU) b)) ∅ (history toy_cid twice)).
  exists (map_to_list m). split; [|vm_refl]. apply tracks_lists_live.
  apply (tracks_snoc _ [seen_first toy_cid entry_g]), (tracks_snoc _ []), tracks_nil.
Qed.
(** Eight calls are made for an entry with everything, five for one which the virtual machine
    rejects, so the bounds are sharp. *)
Definition op_method : Operation := {|
  op_version := 0; op_contract_id := toy_cid; op_call_id := 5; op_nonce := 0; op_witness := [];
  op_destructible_in := []; op_immutable_in := []; op_destructible_out := []; op_immutable_out := [] |}.
Example C58_case_work :
  length (toy_log ledger [entry_g]) = 6 /\ length (toy_log ledger [entry_g; entry_1]) = 6 + 8 /\
  toy_run ledger [block (as_genesis op_method) [] None; entry_1] = Some (Err (Vm (MethodNotFound 5 : CallError TU))) /\
  length (toy_log ledger [block (as_genesis op_method) [] None; entry_1]) = 2 + 5.
Proof. split; [vm_refl|]. split; [vm_refl|]. split; vm_refl. Qed.

(** ** C59 Positions in 16 bits *)
Section positions.
Context (P : SealProtocol) (S : Sonic) {E : Type}.
(** As long as no operation has more than 65536 outputs of a kind, the evaluation with the
    conversion `no as u16` is the evaluation without it: contract, calls and result. *)
Theorem C59_same (c0 : TestContract P S) bs (fin : option E) :
  Forall (fun b => (N.of_nat (length (op_immutable_out (operation b))) <= 65536)%N /\
    (N.of_nat (length (op_destructible_out (operation b))) <= 65536)%N) bs ->
  evaluate (ledger16 P S) c0 bs fin = evaluate (test_ledger P S) c0 bs fin.
Proof. apply evaluate16. Qed.
(** The bound is exact: with one owned output more, the last one takes the place of the first,
    and its own address has no cell. *)
Theorem C59_bound_exact (c : TestContract P S) op xs (x : StateCell) :
  op_destructible_out op = xs ++ [x] -> N.of_nat (length xs) = 65536%N ->
  let opid := sonic_opid S op in
  tc_owned _ _ c !! MkCellAddr opid 65536 = None ->
  let owned := tc_owned _ _ (tc_apply_operation16 P S c op) in
  owned !! MkCellAddr opid 0 = Some x /\ owned !! MkCellAddr opid 65536 = None.
Proof.
  intros Hout Hlen opid Hfresh. cbn. rewrite Hout. split.
  - rewrite insert_outputs16_snoc, Hlen. apply lookup_insert.
  - by rewrite insert_outputs16_high.
Qed.
(** Same for global state. *)
Theorem C59_bound_exact_global (c : TestContract P S) op xs x :
  op_immutable_out op = xs ++ [x] -> N.of_nat (length xs) = 65536%N ->
  let opid := sonic_opid S op in
  tc_global _ _ c !! MkCellAddr opid 65536 = None ->
  let global := tc_global _ _ (tc_apply_operation16 P S c op) in
  global !! MkCellAddr opid 0 = Some (data_value x) /\ global !! MkCellAddr opid 65536 = None.
Proof.
  intros Hout Hlen opid Hfresh. cbn. rewrite Hout, fmap_app. split.
  - cbn [fmap list_fmap]. rewrite insert_outputs16_snoc, fmap_length, Hlen. apply lookup_insert.
  - by rewrite insert_outputs16_high.
Qed.
End positions.

(** *** Concrete cases *)
Definition toy_api16 : ContractApi TP TU := ledger16 TP toy_sonic.
(** The scenario has far fewer outputs. *)
Example C59_case :
  evaluate toy_api16 (E:=unit) ledger scenario None = evaluate toy_api ledger scenario None.
Proof.
  refine (C59_same TP toy_sonic ledger scenario None _). apply (bool_decide_unpack _). by vm_compute.
Qed.
(** 65537 outputs: the first cell is lost. *)
Example C59_case_lost (c : ToyContract) op (x y : StateCell) :
  op_destructible_out op = replicate (N.to_nat 65536) x ++ [y] -> tc_owned _ _ c = ∅ ->
  tc_owned _ _ (tc_apply_operation TP toy_sonic c op) !! MkCellAddr (sonic_opid toy_sonic op) 0 = Some x /\
  tc_owned _ _ (tc_apply_operation16 TP toy_sonic c op) !! MkCellAddr (sonic_opid toy_sonic op) 0 = Some y.
Proof.
  intros Hout Hc. split.
  - cbn -[N.to_nat]. rewrite Hout, insert_outputs_zero. destruct (N.to_nat 65536) eqn:Hn; [lia|]. cbn.
    by rewrite decide_True.
  - assert (N.of_nat (length (replicate (N.to_nat 65536) x)) = 65536%N) as Hlen by (rewrite replicate_length; lia).
    assert (tc_owned _ _ c !! MkCellAddr (sonic_opid toy_sonic op) 65536 = None) as Hnone by (rewrite Hc; apply lookup_empty).
    exact (proj1 (C59_bound_exact TP toy_sonic c op _ y Hout Hlen Hnone)).
Qed.

Print Assumptions C58_accounting.
Print Assumptions C58_conservation.
Print Assumptions C58_work.
Print Assumptions C59_same.
Print Assumptions C59_bound_exact.
Print Assumptions C59_bound_exact_global.
