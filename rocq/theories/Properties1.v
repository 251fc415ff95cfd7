(** * Properties C01-C14: checks made by [evaluate]

    Each theorem is followed by a concrete case that meets its hypotheses (the consignment of
    Scenario.v, or one of the test-suite), and by the axioms it depends on. *)
From Verif Require Import Derived Scenario Counterexamples.
From Coq Require Import Lia.

Section properties.
Context {P : SealProtocol} {U : Ultrasonic} (A : ContractApi P U) {E : Type}.

Notation Block := (OperationSeals P).
Notation VError := (VerificationError P U E).
Notation Calls := (list (call P U)).
Notation id_of := (id_of (U:=U)).
Notation reveals := (reveals (U:=U)).
Notation live := (live (U:=U)).
Notation spends := (spends (U:=U)).
Notation first_unspendable := (first_unspendable (U:=U)).

Implicit Types (c : Contract A) (bs pre post : list Block) (b : Block) (t : Calls)
  (fin : option E).

(** [evaluate] on the contract [c0] and the entries [bs] returns success, makes the calls
    [t] and leaves the contract [c]. *)
Notation accepted c0 bs c t := (evaluate A (E:=E) c0 bs None = (c, t, Some (Ok tt))).

(** ** C01 Genesis commits to the codex *)
Theorem C01_codex_commitment c0 :
  (* a wrong first entry: rejected, nothing applied, nothing read after it *)
  (forall b bs fin,
     contract_id_bytes (op_contract_id (operation b)) <> codex_id_bytes (codex_id U (codex A c0)) ->
     evaluate A c0 (b :: bs) fin =
       (c0, [CallContractId; CallCodex; CallRead], Some (Err NoCodexCommitment))) /\
  (* for each reader: it is left as after its first read *)
  (forall (R : ReadOperation P E) r r' b fuel,
     read_operation R r = (r', Ok (Some b)) ->
     contract_id_bytes (op_contract_id (operation b)) <> codex_id_bytes (codex_id U (codex A c0)) ->
     evaluate_reader A R (S fuel) c0 r =
       ((c0, [CallContractId; CallCodex; CallRead]), r', Some (Err NoCodexCommitment))) /\
  (* accepted consignments start with the right one *)
  (forall b bs c t, accepted c0 (b :: bs) c t ->
     contract_id_bytes (op_contract_id (operation b)) = codex_id_bytes (codex_id U (codex A c0))) /\
  (* the error is returned in no other case *)
  (forall bs fin c t, evaluate A c0 bs fin = (c, t, Some (Err NoCodexCommitment)) ->
     exists b bs', bs = b :: bs' /\
       contract_id_bytes (op_contract_id (operation b)) <> codex_id_bytes (codex_id U (codex A c0))).
Proof.
  split; [exact (wrong_codex_rejected A c0)|]. split; [|split].
  - intros R r r' b fuel Hr Hb.
    apply (reader_bad A R c0 [] b r r' c0 [CallContractId; CallCodex; CallRead]).
    + by repeat econstructor.
    + apply accepted_nil.
    + by apply wrong_codex_rejected.
    + cbn. lia.
  - exact (accepted_codex A c0).
  - exact (NoCodexCommitment_inv A c0).
Qed.

(** ** C02 Contract id substitution is confined to the first operation *)
Theorem C02_contract_id_substitution c0 b0 bs c t :
  accepted c0 (b0 :: bs) c t ->
  let cid := contract_id A c0 in
  (* the entries as the contract sees them: only the contract id of the first is replaced *)
  let h := {| operation := with_contract_id cid (operation b0);
              defined_seals := defined_seals b0;
              witness := witness b0 |} :: bs in
  (* the contract is asked for, and told, exactly the ids of these *)
  omap known_query t = (fun b => opid_of U (operation b)) <$> h /\
  omap witness_record t = omap (fun b => pair (opid_of U (operation b)) <$> witness b) h /\
  omap seals_record t =
    omap (fun b => if decide (defined_seals b = ∅) then None
                   else Some (opid_of U (operation b), defined_seals b)) h /\
  (* and the codex has verified exactly these operations, unless known *)
  forall i b, h !! i = Some b ->
    exists c1 t1, accepted c0 (take i (b0 :: bs)) c1 t1 /\
      (is_known A c1 (opid_of U (operation b)) = false ->
       exists v, codex_verify U (codex A c1) cid (operation b) (memory A c1) (repo A c1) = Ok v).
Proof.
  intros Hacc cid h. destruct (accepted_ids A c0 _ c t Hacc) as (H1 & H2 & H3).
  split; [exact H1|]. split; [exact H2|]. split; [exact H3|].
  intros i b. exact (accepted_verdicts A c0 (b0 :: bs) c t i b Hacc).
Qed.

(** ** C03 The first operation cannot consume state *)
Theorem C03_first_consumes_nothing c0 :
  (forall b bs fin i ins,
     contract_id_bytes (op_contract_id (operation b)) = codex_id_bytes (codex_id U (codex A c0)) ->
     tokens_committed b ->
     op_destructible_in (operation b) = i :: ins ->
     evaluate A c0 (b :: bs) fin =
       (c0, [CallContractId; CallCodex; CallRead], Some (Err (SealUnknown (input_addr i))))) /\
  (forall b bs c t, accepted c0 (b :: bs) c t -> op_destructible_in (operation b) = []).
Proof. exact (conj (first_has_no_inputs A c0) (accepted_first_no_inputs A c0)). Qed.

(** ** C04 Reported seals are committed by the operation *)
Theorem C04_reported_seals_committed c0 :
  (forall bs c t i b pos d,
     accepted c0 bs c t -> bs !! i = Some b -> defined_seals b !! pos = Some d ->
     exists cell, cell ∈ op_destructible_out (operation b) /\ cell_auth cell = auth_token P d) /\
  (forall pre b post fin c t,
     accepted c0 pre c t ->
     codex_committed A c0 pre b ->
     let b' := seen (contract_id A c0) pre b in
     ~ tokens_committed b' ->
     exists rep def, token_sets b' rep def /\
       evaluate A c0 (pre ++ b :: post) fin =
         (c, t, Some (Err (SealsDefinitionMismatch (id_of b') rep def
                             (def_to_string P <$> defined_seals b'))))).
Proof.
  split.
  - intros bs c t i b pos d Hacc Hi Hd.
    assert (exists b', history (contract_id A c0) bs !! i = Some b' /\ defined_seals b' = defined_seals b /\
      op_destructible_out (operation b') = op_destructible_out (operation b)) as (b' & Hb' & Hds & Hout).
    { destruct bs as [|b0 bs]; [done|]. destruct i as [|i]; cbn in *.
      - injection Hi as ->. eexists. split; [done|]. done.
      - by exists b. }
    destruct (accepted_checks A c0 bs c t i b' Hacc Hb') as [Ht _].
    rewrite <-Hds in Hd. rewrite <-Hout. exact (Ht pos d Hd).
  - exact (uncommitted_rejected A c0).
Qed.

(** ** C05 Seal provenance *)
Theorem C05_seal_provenance c0 :
  (* the seals closed by an entry are the live seals of its inputs, in input order *)
  (forall bs c t i b,
     accepted c0 bs c t -> history (contract_id A c0) bs !! i = Some b ->
     exists closed,
       Forall2 (fun a s =>
         (* the entry k reveals the seal s for the cell a ... *)
         exists k bk d, k < i /\ history (contract_id A c0) bs !! k = Some bk /\
           cell_opid a = id_of bk /\ defined_seals bk !! cell_pos a = Some d /\
           (to_src P d = Some s \/ to_src P d = None /\ exists w, witness bk = Some w /\
              s = resolve P d (pub_id P (published w))) /\
         (* ... and between k and i it is neither consumed nor revealed again *)
         forall j bj, k < j < i -> history (contract_id A c0) bs !! j = Some bj ->
           ~ consumes bj a /\ forall s', ~ reveals bj a s')
         (input_addr <$> op_destructible_in (operation b)) closed /\
       match witness b with
       | Some w => witness_closes w closed (message_from P (opid_bytes (id_of b))) = Ok tt
       | None => closed = []
       end) /\
  (* an input without such a seal *)
  (forall pre b post fin c t a,
     accepted c0 pre c t ->
     codex_committed A c0 pre b ->
     let b' := seen (contract_id A c0) pre b in
     tokens_committed b' ->
     first_unspendable (history (contract_id A c0) pre) b' a ->
     evaluate A c0 (pre ++ b :: post) fin = (c, t, Some (Err (SealUnknown a)))) /\
  (forall bs fin c t a,
     evaluate A c0 bs fin = (c, t, Some (Err (SealUnknown a))) ->
     exists pre b post, bs = pre ++ b :: post /\ accepted c0 pre c t /\
       first_unspendable (history (contract_id A c0) pre) (seen (contract_id A c0) pre b) a).
Proof.
  split; [|exact (conj (unspendable_rejected A c0) (SealUnknown_inv A c0))].
  intros bs c t i b Hacc Hi.
  destruct (accepted_checks A c0 bs c t i b Hacc Hi) as (_ & closed & [_ Hf] & Hp).
  exists closed. split; [|exact Hp].
  eapply Forall2_impl; [exact Hf|]. cbn. intros a s (k & bk & Hk & (Hid & d & Hd & Hs) & Hl).
  apply lookup_take_Some in Hk as [Hk Hlt].
  exists k, bk, d. repeat (split; [done|]). intros j bj [Hkj Hji] Hj. apply (Hl j); [done|].
  by rewrite lookup_take.
Qed.

(** ** C06 No double consumption without re-definition *)
Theorem C06_no_double_consumption c0 bs c t :
  accepted c0 bs c t ->
  (forall i j bi bj a, i < j ->
     history (contract_id A c0) bs !! i = Some bi ->
     history (contract_id A c0) bs !! j = Some bj ->
     consumes bi a -> consumes bj a ->
     exists k bk s, i <= k < j /\ history (contract_id A c0) bs !! k = Some bk /\ reveals bk a s) /\
  (forall i b, bs !! i = Some b -> NoDup (input_addr <$> op_destructible_in (operation b))).
Proof.
  intros Hacc. split.
  - intros i j bi bj a. exact (redefined_between A c0 bs c t i j bi bj a Hacc).
  - intros i b. exact (inputs_distinct A c0 bs c t i b Hacc).
Qed.

(** ** C07 Each cell is consumed at most once *)
Theorem C07_consumed_once c0 bs c t :
  accepted c0 bs c t ->
  NoDup (id_of <$> history (contract_id A c0) bs) ->
  forall i j m n bi bj a,
  history (contract_id A c0) bs !! i = Some bi -> inputs_of bi !! m = Some a ->
  history (contract_id A c0) bs !! j = Some bj -> inputs_of bj !! n = Some a ->
  i = j /\ m = n.
Proof.
  intros Hacc Hnd i j m n bi bj a. exact (consumed_once A c0 bs c t i j m n bi bj a Hacc Hnd).
Qed.

(** ** C08 Operations with inputs cannot be replayed within a consignment *)
Theorem C08_no_replay c0 b0 bs c t :
  accepted c0 (b0 :: bs) c t ->
  Forall (fun b => id_of b <> opid_of U (with_contract_id (contract_id A c0) (operation b0)) /\
                   op_destructible_in (operation b) <> []) bs ->
  (forall b b', b ∈ bs -> b' ∈ bs -> id_of b = id_of b' -> inputs_of b = inputs_of b') ->
  NoDup (opid_of U (with_contract_id (contract_id A c0) (operation b0)) :: (id_of <$> bs)).
Proof.
  intros Hacc Hall Hcol. refine (no_replay A c0 b0 bs c t Hacc _ Hcol).
  apply (list.Forall_impl _ _ _ Hall). cbn. intros b [H1 H2]. split; [done|].
  unfold inputs_of. by intros Hx%fmap_nil_inv.
Qed.

(** ** C09 A witness is mandatory for every state-consuming operation *)
Theorem C09_witness_mandatory c0 :
  (forall bs c t i b,
     accepted c0 bs c t -> bs !! i = Some b ->
     op_destructible_in (operation b) <> [] -> exists w, witness b = Some w) /\
  (* the attempt, known or not *)
  (forall pre b post fin c t closed,
     accepted c0 pre c t ->
     codex_committed A c0 pre b ->
     let b' := seen (contract_id A c0) pre b in
     tokens_committed b' ->
     spends (history (contract_id A c0) pre) b' closed ->
     (is_known A c (id_of b') = true \/
      exists v, codex_verify U (codex A c) (contract_id A c0) (operation b') (memory A c) (repo A c) = Ok v) ->
     op_destructible_in (operation b) <> [] -> witness b = None ->
     exists t', evaluate A c0 (pre ++ b :: post) fin = (c, t ++ t', Some (Err (NoWitness (id_of b')))) /\
       mutations t' = []).
Proof.
  split.
  - intros bs c t i b Hacc Hi Hne.
    destruct bs as [|b0 bs]; [done|]. destruct i as [|i]; cbn in Hi.
    + injection Hi as ->. destruct Hne. exact (accepted_first_no_inputs A c0 b bs c t Hacc).
    + exact (consuming_has_witness A c0 (b0 :: bs) c t (S i) b Hacc Hi Hne).
  - intros pre b post fin c t closed Hacc Hc b' Ht Hs Hv Hne Hw.
    exists (query_calls A c b'). split; [|apply mutations_query_calls].
    apply (no_witness_rejected A c0 pre b post fin c t closed); try done.
    intros Hk. destruct Hv as [Hv|Hv]; [|exact Hv]. change (is_known A c (id_of b') = false) in Hk. congruence.
Qed.

(** ** C10 Seal closing is verified over exactly the consumed seals and the operation id *)
Theorem C10_closing_verified c0 :
  (forall bs c t i b w,
     accepted c0 bs c t -> history (contract_id A c0) bs !! i = Some b -> witness b = Some w ->
     exists closed,
       Forall2 (live (take i (history (contract_id A c0) bs)))
               (input_addr <$> op_destructible_in (operation b)) closed /\
       verify_seals_closing P (published w) (client w) closed
         (message_from P (opid_bytes (opid_of U (operation b)))) = Ok tt) /\
  (forall pre b post fin c t closed w e,
     accepted c0 pre c t ->
     codex_committed A c0 pre b ->
     let b' := seen (contract_id A c0) pre b in
     tokens_committed b' ->
     spends (history (contract_id A c0) pre) b' closed ->
     (is_known A c (id_of b') = true \/
      exists v, codex_verify U (codex A c) (contract_id A c0) (operation b') (memory A c) (repo A c) = Ok v) ->
     witness b = Some w ->
     verify_seals_closing P (published w) (client w) closed
         (message_from P (opid_bytes (opid_of U (operation b')))) = Err e ->
     exists t', evaluate A c0 (pre ++ b :: post) fin =
         (c, t ++ t', Some (Err (SealsNotClosed (pub_id P (published w)) (id_of b') e))) /\
       mutations t' = []).
Proof.
  split; [exact (accepted_closing A c0)|].
  intros pre b post fin c t closed w e Hacc Hc b' Ht Hs Hv Hw He.
  exists (query_calls A c b'). split; [|apply mutations_query_calls].
  apply (not_closed_rejected A c0 pre b post fin c t closed w e); try done.
  intros Hk. destruct Hv as [Hv|Hv]; [|exact Hv]. change (is_known A c (id_of b') = false) in Hk. congruence.
Qed.

(** ** C11 Nothing unverified is applied *)
Theorem C11_applied_is_verified c0 :
  (* an application in the log: just before it the contract - then in the state reached by
     the calls t0 - was asked about the operation, for its codex, memory and repository *)
  (forall bs fin c t r t1 v t2,
     evaluate A (E:=E) c0 bs fin = (c, t, Some r) ->
     t = t1 ++ CallApplyOperation v :: t2 ->
     exists i b t0 c1, 0 < i /\ bs !! i = Some b /\
       t1 = t0 ++ [CallIsKnown (id_of b); CallCodex; CallMemory; CallRepo] ++
              match witness b with Some w => [CallApplyWitness (id_of b) w] | None => [] end /\
       c1 = apply_calls A c0 t0 /\
       is_known A c1 (id_of b) = false /\
       codex_verify U (codex A c1) (contract_id A c0) (operation b) (memory A c1) (repo A c1) = Ok v) /\
  (* a failing verification *)
  (forall pre b post fin c t closed e,
     accepted c0 pre c t ->
     codex_committed A c0 pre b ->
     let b' := seen (contract_id A c0) pre b in
     tokens_committed b' ->
     spends (history (contract_id A c0) pre) b' closed ->
     is_known A c (id_of b') = false ->
     codex_verify U (codex A c) (contract_id A c0) (operation b') (memory A c) (repo A c) = Err e ->
     evaluate A c0 (pre ++ b :: post) fin =
       (c, t ++ [CallIsKnown (id_of b'); CallCodex; CallMemory; CallRepo], Some (Err (Vm e)))).
Proof. exact (conj (applied_is_verified A c0) (vm_rejected A c0)). Qed.

(** ** C12 Known operations are not re-verified and not re-applied *)
Theorem C12_known_not_verified c0 :
  (* one known entry: the codex, memory and repository are not asked for, nothing is
     applied, and acceptance depends on the seal checks only *)
  (forall pre b c t,
     accepted c0 pre c t ->
     let cid := contract_id A c0 in
     let b' := seen cid pre b in
     is_known A c (id_of b') = true ->
     (forall c' t', accepted c0 (pre ++ [b]) c' t' ->
        t' = t ++ [CallIsKnown (id_of b')] ++ witness_calls b' ++ seals_calls b' ++ [CallRead]) /\
     ((exists c' t', accepted c0 (pre ++ [b]) c' t') <->
      codex_committed A c0 pre b /\ tokens_committed b' /\
      exists closed, spends (history cid pre) b' closed /\ properly_closed (U:=U) b' closed)) /\
  (* a whole consignment of known entries: any other contract with the same ids gives the
     same result, with the same calls, whatever its codex, memory and repository *)
  (forall (A' : ContractApi P U) (c0' : Contract A') bs fin c t r,
     known_stay_known A -> known_stay_known A' ->
     contract_id A' c0' = contract_id A c0 ->
     codex_id U (codex A' c0') = codex_id U (codex A c0) ->
     (forall b, b ∈ history (contract_id A c0) bs ->
        is_known A c0 (id_of b) = true /\ is_known A' c0' (id_of b) = true) ->
     evaluate A c0 bs fin = (c, t, Some (r : result VError unit)) ->
     exists c' : Contract A', evaluate A' c0' bs fin = (c', t, Some r)).
Proof.
  split; [exact (known_entry A c0)|].
  intros A' c0' bs fin c t r. exact (known_consignment A A' c0 c0' bs fin c t r).
Qed.

(** ** C13 The first operation is never applied as an operation *)
Theorem C13_first_not_applied c0 :
  (* each application comes after at least two reads, and what is applied after the n-th read
     is the n-th entry: number n-1 from zero *)
  (forall bs fin c t r t1 v t2,
     evaluate A (E:=E) c0 bs fin = (c, t, Some r) ->
     t = t1 ++ CallApplyOperation v :: t2 ->
     exists n b t0, count is_read t1 = S (S n) /\ bs !! S n = Some b /\
       t1 = t0 ++ [CallIsKnown (id_of b); CallCodex; CallMemory; CallRepo] ++ witness_calls b /\
       is_known A (apply_calls A c0 t0) (id_of b) = false /\
       codex_verify U (codex A (apply_calls A c0 t0)) (contract_id A c0) (operation b)
         (memory A (apply_calls A c0 t0)) (repo A (apply_calls A c0 t0)) = Ok v) /\
  (* its seals and witness are recorded: all mutations made for it are these *)
  (forall b c t, accepted c0 [b] c t ->
     let o := opid_of U (with_contract_id (contract_id A c0) (operation b)) in
     mutations t =
       match witness b with Some w => [CallApplyWitness o w] | None => [] end ++
       (if decide (defined_seals b = ∅) then [] else [CallApplySeals o (defined_seals b)])).
Proof.
  split; [exact (applied_after_read A c0)|].
  intros b c t Hacc o. destruct (accepted_effects_snoc A c0 [] b c t Hacc) as (c1 & t1 & Hnil & -> & _).
  apply accepted_effects_nil in Hnil as [-> ->]. reflexivity.
Qed.

(** ** C14 At most one application per operation id, over any number of evaluations *)
Theorem C14_applied_once :
  remembers A -> faithful U ->
  forall c0 l c,
  (* [session]: evaluations one after the other, of any consignments, succeeding or failing
     or interrupted after any call; [l] is the log of all calls *)
  session A E c0 l c ->
  NoDup (applied_ids l) /\ forall o, o ∈ applied_ids l -> is_known A c0 o = false.
Proof. intros Hr Hf c0 l c. exact (session_applies_once A Hr Hf c0 l c). Qed.
End properties.

(** ** Concrete cases *)
Notation ok c bs := (toy_accepts c bs (toy_after c bs) (toy_log c bs)).

(** C01: the contract of the test-suite, a genesis that names another codex; an accepted
    consignment starting with the right one *)
Definition bad_genesis : ToyBlock := block (with_contract_id (MkContractId [173%N]) op_g) [] None.
Example C01_case :
  evaluate toy_api ledger (bad_genesis :: [entry_1; entry_2]) (None : option Empty_set) =
    (ledger, [CallContractId; CallCodex; CallRead], Some (Err NoCodexCommitment)) /\
  contract_id_bytes (op_contract_id (operation entry_g)) = toy_codex_bytes toy_codex.
Proof.
  split.
  - by apply (proj1 (C01_codex_commitment toy_api ledger)).
  - apply (proj1 (proj2 (proj2 (C01_codex_commitment toy_api (E:=Empty_set) ledger))))
      with (1 := scenario_accepted).
Qed.

(** C02: the ids asked for in the scenario; the genesis is read with another contract id *)
Example C02_case :
  omap known_query (toy_log ledger scenario) = [id_g; id_1; id_2] /\
  opid_of TU (operation entry_g) <> id_g.
Proof.
  split.
  - rewrite (proj1 (C02_contract_id_substitution _ _ _ _ _ _ scenario_accepted)). vm_refl.
  - apply (bool_decide_unpack _). by vm_compute.
Qed.

(** C03: a first entry with an input *)
Definition consuming_genesis : ToyBlock := block (as_genesis op_1) [(0%N, def_w)] (Some (wit tx_1)).
Example C03_case :
  evaluate toy_api ledger (consuming_genesis :: [entry_2]) (None : option Empty_set) =
    (ledger, [CallContractId; CallCodex; CallRead], Some (Err (SealUnknown (MkCellAddr id_g 0)))).
Proof.
  apply (proj1 (C03_first_consumes_nothing toy_api ledger) consuming_genesis [entry_2] None
    (MkInput (MkCellAddr id_g 0) []) []); [done| |done].
  intros pos d Hd%block_lookup. apply elem_of_list_singleton in Hd. injection Hd as -> ->.
  eexists. split; [left|]. done.
Qed.

(** C04: an entry with a seal of nobody, after an accepted one; and the scenario *)
Definition foreign_seal : ToyBlock := block op_1 [(0%N, def_w); (1%N, def_d)] (Some (wit tx_1)).
Example C04_case :
  (exists rep def,
    evaluate toy_api ledger ([entry_g] ++ foreign_seal :: [entry_2]) (None : option Empty_set) =
      (toy_after ledger [entry_g], toy_log ledger [entry_g],
       Some (Err (SealsDefinitionMismatch id_1 rep def
         (def_to_string TP <$> defined_seals foreign_seal)))) /\
    auth_token TP def_d ∈ rep /\ auth_token TP def_d ∉ def) /\
  (exists cell, cell ∈ op_destructible_out op_1 /\ cell_auth cell = auth_token TP def_w).
Proof.
  assert (~ exists cell, cell ∈ op_destructible_out op_1 /\ auth_token TP def_d = cell_auth cell) as Hno.
  { intros (cell & Hc & Ha). cbn in Hc. revert Ha.
    rewrite !elem_of_cons, elem_of_nil in Hc. destruct Hc as [->|[->|[]]]; by vm_compute. }
  split.
  - destruct (proj2 (C04_reported_seals_committed toy_api (E:=Empty_set) ledger) [entry_g] foreign_seal [entry_2] None
      _ _ prefix_1_accepted) as (rep & def & [Hrep Hdef] & Hev).
    + done.
    + intros Ht. apply Hno. destruct (Ht 1%N def_d) as (cell & ? & ?); [done|]. by exists cell.
    + exists rep, def. split; [exact Hev|]. rewrite Hrep, Hdef. split; [|exact Hno].
      exists 1%N, def_d. split; [vm_refl|reflexivity].
  - apply (proj1 (C04_reported_seals_committed toy_api (E:=Empty_set) ledger) _ _ _ 1 entry_1 0%N def_w scenario_accepted);
      done.
Qed.

(** C05: operation 2 of the scenario closes the seal "output 0 of transaction 1" and B *)
Example C05_case :
  exists closed s1 s2, closed = [s1; s2] /\
    s1 = MkTxoSeal (MkOutpoint (MkTxid [1%N]) 0) (Noise [5%N]) /\
    s2 = MkTxoSeal out_b (Noise [2%N]) /\
    toy_verify_from tx_2 (tx_commitment tx_2) closed (opid_bytes id_2) = Ok tt.
Proof.
  destruct (proj1 (C05_seal_provenance toy_api (E:=Empty_set) ledger) _ _ _ 2 entry_2 scenario_accepted eq_refl)
    as (closed & Hf & Hw).
  cbn in Hf. apply Forall2_cons_inv_l in Hf as (s1 & l1 & H1 & Hf & ->).
  apply Forall2_cons_inv_l in Hf as (s2 & l2 & H2 & Hf & ->). apply Forall2_nil_inv_l in Hf as ->.
  exists [s1; s2], s1, s2. split; [done|].
  assert (id_g <> id_1 /\ id_g <> id_2 /\ id_1 <> id_2) as (N1 & N2 & N3).
  { split; [|split]; apply (bool_decide_unpack _); by vm_compute. }
  assert (forall d : WTxoSeal, defined_seals seen_g !! 1%N = Some d -> d = def_b) as Hgb.
  { intros d Hd%block_lookup. by rewrite !elem_of_cons, elem_of_nil in Hd; destruct Hd as [[=]|[[=]|[]]]. }
  split; [|split].
  - destruct H1 as (k & bk & d & Hk & Hbk & Hid & Hd & Hs & _).
    destruct k as [|[|[|]]]; [injection Hbk as <-; by destruct N1|injection Hbk as <-|lia|lia].
    apply block_lookup, elem_of_list_singleton in Hd. injection Hd as ->.
    destruct Hs as [Hs|(_ & w & [= <-] & ->)]; [done|]. done.
  - destruct H2 as (k & bk & d & Hk & Hbk & Hid & Hd & Hs & _).
    destruct k as [|[|[|]]]; [injection Hbk as <-|injection Hbk as <-; by destruct N1|lia|lia].
    apply Hgb in Hd as ->. destruct Hs as [Hs|(? & _)]; [|done]. by injection Hs as <-.
  - exact Hw.
Qed.

(** C06: in [run_yz] one cell is consumed by two entries *)
Example C06_case :
  exists k bk s, 2 <= k < 4 /\ history (contract_id toy_api ledger) run_yz !! k = Some bk /\
    reveals (U:=TU) bk (MkCellAddr id_i 0) s.
Proof.
  apply (proj1 (C06_no_double_consumption _ _ _ _ _ run_yz_accepted) 2 4 entry_y entry_z (MkCellAddr id_i 0));
    [lia|done|done|by left|by left].
Qed.

(** C07, C08: the scenario; the cell B of the genesis is consumed by the second input of the
    operation 2 only *)
Example C07_case i m b :
  history (contract_id toy_api ledger) scenario !! i = Some b ->
  inputs_of b !! m = Some (MkCellAddr id_g 1) -> i = 2 /\ m = 1.
Proof.
  intros Hi Hm. refine (C07_consumed_once _ _ _ _ _ scenario_accepted _ i 2 m 1 b entry_2 _ Hi Hm eq_refl eq_refl).
  apply (bool_decide_unpack _). by vm_compute.
Qed.
Example C08_case : NoDup [id_g; id_1; id_2].
Proof.
  refine (C08_no_replay toy_api ledger entry_g [entry_1; entry_2] _ _ scenario_accepted _ _).
  - repeat constructor; try done; apply (bool_decide_unpack _); by vm_compute.
  - intros b b' _ _ H. apply toy_opid_inj in H. unfold inputs_of. by rewrite H.
Qed.

(** C09, C10, C11: the operation 1 of the scenario after the genesis *)
Definition seal_a : TxoSeal := MkTxoSeal out_a (Noise [1%N]).
Lemma after_g_spends (b : ToyBlock) :
  inputs_of b = [MkCellAddr id_g 0] ->
  spends (U:=TU) (history (contract_id toy_api ledger) [entry_g]) b [seal_a : Seal TP].
Proof.
  intros Hin. unfold spends. rewrite Hin. split; [repeat constructor; set_solver|].
  repeat constructor. exists 0, seen_g. split; [done|]. split.
  - by apply (seen_g_reveals 0 def_a).
  - intros [|j] b' Hj Hb'; [lia|]. by destruct j.
Qed.

Definition unwitnessed : ToyBlock := block op_1 [] None.
Example C09_case :
  exists t', evaluate toy_api ledger ([entry_g] ++ unwitnessed :: [entry_2]) (None : option Empty_set) =
    (toy_after ledger [entry_g], toy_log ledger [entry_g] ++ t', Some (Err (NoWitness id_1))) /\ mutations t' = [].
Proof.
  apply (proj2 (C09_witness_mandatory toy_api (E:=Empty_set) ledger) [entry_g] unwitnessed [entry_2] None
    _ _ [seal_a] prefix_1_accepted); try done.
  - by apply after_g_spends.
  - right. exists op_1. vm_refl.
Qed.

Definition wrongly_witnessed : ToyBlock := block op_1 [] (Some (wit tx_2)).
Example C10_case :
  (exists t', evaluate toy_api ledger ([entry_g] ++ wrongly_witnessed :: [entry_2]) (None : option Empty_set) =
    (toy_after ledger [entry_g], toy_log ledger [entry_g] ++ t',
     Some (Err (SealsNotClosed (P:=TP) (MkTxid [2%N]) id_1 (NotIncluded seal_a (MkTxid [2%N]) : SealError TP)))) /\
    mutations t' = []) /\
  exists closed, length closed = 2 /\
    verify_seals_closing TP tx_2 (tx_commitment tx_2) closed (opid_bytes id_2) = Ok tt.
Proof.
  split.
  - apply (proj2 (C10_closing_verified toy_api (E:=Empty_set) ledger) [entry_g] wrongly_witnessed [entry_2] None
      _ _ [seal_a] (wit tx_2) _ prefix_1_accepted); try done.
    + by apply after_g_spends.
    + right. exists op_1. vm_refl.
  - destruct (proj1 (C10_closing_verified toy_api (E:=Empty_set) ledger) _ _ _ 2 entry_2 (wit tx_2) scenario_accepted)
      as (closed & Hf & Hv); [done|done|].
    exists closed. split; [|exact Hv]. by apply Forall2_length in Hf.
Qed.

(** An operation calling a method the codex does not have. *)
Definition op_bad : Operation := {|
  op_version := 0; op_contract_id := toy_cid; op_call_id := 5; op_nonce := 0; op_witness := [];
  op_destructible_in := [MkInput (MkCellAddr id_g 0) []]; op_immutable_in := [];
  op_destructible_out := []; op_immutable_out := [] |}.
Example C11_case :
  evaluate toy_api ledger ([entry_g] ++ block op_bad [] (Some (wit tx_1)) :: [entry_2]) (None : option Empty_set) =
    (toy_after ledger [entry_g],
     toy_log ledger [entry_g] ++ [CallIsKnown (toy_opid op_bad); CallCodex; CallMemory; CallRepo],
     Some (Err (Vm (MethodNotFound 5 : CallError TU)))) /\
  exists t1 t2, toy_log ledger scenario = t1 ++ CallApplyOperation (op_1 : VerifiedOperation TU) :: t2.
Proof.
  split.
  - apply (proj2 (C11_applied_is_verified toy_api (E:=Empty_set) ledger) [entry_g]
      (block op_bad [] (Some (wit tx_1))) [entry_2] None _ _ [seal_a] _ prefix_1_accepted); try done.
    + by apply after_g_spends.
  - eexists (take 11 (toy_log ledger scenario)), (drop 12 (toy_log ledger scenario)). vm_refl.
Qed.

(** C12: a ledger which knows the scenario, and another one with another memory *)
Definition knowing : ToyContract := toy_after ledger scenario.
Definition forgetful : ToyContract := {|
  tc_codex := tc_codex _ _ knowing; tc_contract_id := tc_contract_id _ _ knowing; tc_libs := ∅;
  tc_global := ∅; tc_owned := ∅; tc_known_ops := tc_known_ops _ _ knowing;
  tc_seal_definitions := ∅; tc_witnesses := ∅ |}.
Example C12_case :
  (exists c', evaluate toy_api forgetful scenario (None : option Empty_set) =
     (c', toy_log knowing scenario, Some (Ok tt))) /\
  applied_ids (toy_log knowing scenario) = [].
Proof.
  split.
  - apply (proj2 (C12_known_not_verified toy_api knowing) toy_api forgetful scenario None (toy_after knowing scenario)).
    + apply ledger_stays.
    + apply ledger_stays.
    + reflexivity.
    + reflexivity.
    + intros b Hb. change (history (contract_id toy_api knowing) scenario) with [seen_g; entry_1; entry_2] in Hb.
      rewrite !elem_of_cons, elem_of_nil in Hb. destruct Hb as [->|[->|[->|[]]]]; (split; vm_refl).
    + apply toy_evaluate. vm_refl.
  - vm_refl.
Qed.

(** C13: the log of the scenario; the genesis with a witness *)
Example C13_case :
  count is_read (take 11 (toy_log ledger scenario)) = 2 /\
  mutations (toy_log ledger [entry_g_witness]) =
    [CallApplyWitness id_g (wit tx_1); CallApplySeals id_g (defined_seals entry_g_witness)].
Proof.
  split; [vm_refl|].
  exact (proj2 (C13_first_not_applied toy_api (E:=Empty_set) ledger) _ _ _ genesis_witness_accepted).
Qed.

(** C14: an evaluation interrupted after the application of operation 1, then a failing one,
    then the whole scenario again *)
Definition crash_log : list (call TP TU) := take 12 (toy_log ledger scenario).
Definition crashed : ToyContract := apply_calls toy_api ledger crash_log.
Definition failing : list ToyBlock := [entry_g; wrongly_witnessed].
Definition failing_log : list (call TP TU) := toy_log crashed failing.
Definition failed : ToyContract := apply_calls toy_api crashed failing_log.
Example C14_case :
  exists l c, session toy_api Empty_set ledger l c /\ applied_ids l = [id_1; id_2].
Proof.
  exists ((([] ++ crash_log) ++ failing_log) ++ toy_log failed scenario),
    (apply_calls toy_api failed (toy_log failed scenario)). split; [|vm_refl].
  assert (session toy_api Empty_set ledger ([] ++ crash_log) crashed) as H1.
  { apply (session_step toy_api Empty_set ledger [] ledger scenario None (toy_after ledger scenario)
      crash_log (drop 12 (toy_log ledger scenario)) (Ok tt)); [constructor|].
    unfold crash_log. rewrite take_drop. exact scenario_accepted. }
  assert (session toy_api Empty_set ledger (([] ++ crash_log) ++ failing_log) failed) as H2.
  { eapply (session_step toy_api Empty_set ledger _ crashed failing None (toy_after crashed failing)
      failing_log [] (Err (SealsNotClosed (P:=TP) (MkTxid [2%N]) id_1 (NotIncluded seal_a (MkTxid [2%N]) : SealError TP)))); [exact H1|].
    rewrite app_nil_r. apply toy_evaluate. vm_refl. }
  apply (session_step toy_api Empty_set ledger _ failed scenario None (toy_after failed scenario)
    (toy_log failed scenario) [] (Ok tt)); [exact H2|].
  rewrite app_nil_r. apply toy_evaluate. vm_refl.
Qed.

Print Assumptions C01_codex_commitment.
Print Assumptions C02_contract_id_substitution.
Print Assumptions C03_first_consumes_nothing.
Print Assumptions C04_reported_seals_committed.
Print Assumptions C05_seal_provenance.
Print Assumptions C06_no_double_consumption.
Print Assumptions C07_consumed_once.
Print Assumptions C08_no_replay.
Print Assumptions C09_witness_mandatory.
Print Assumptions C10_closing_verified.
Print Assumptions C11_applied_is_verified.
Print Assumptions C12_known_not_verified.
Print Assumptions C13_first_not_applied.
Print Assumptions C14_applied_once.
