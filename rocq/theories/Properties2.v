(** * Properties C15-C27: effects, composition, recovery

    Each theorem is followed by a concrete case that meets its hypotheses, and by the axioms
    it depends on. *)
From Verif Require Import Derived Scenario Counterexamples Properties1.
From Coq Require Import Lia.

Section properties.
Context {P : SealProtocol} {U : Ultrasonic} (A : ContractApi P U) {E : Type}.

Notation Block := (OperationSeals P).
Notation VError := (VerificationError P U E).
Notation Calls := (list (call P U)).
Notation id_of := (id_of (U:=U)).
Notation reveals := (reveals (U:=U)).
Notation live := (live (U:=U)).
Notation independent := (independent (U:=U)).

Implicit Types (c : Contract A) (bs pre post : list Block) (b : Block) (t : Calls)
  (fin : option E).

Notation accepted c0 bs c t := (evaluate A (E:=E) c0 bs None = (c, t, Some (Ok tt))).

(** ** C15 Exact effects of an evaluation *)
Theorem C15_exact_effects c0 :
  (* nothing delivered, nothing done *)
  (forall c t, accepted c0 [] c t -> c = c0 /\ mutations t = []) /\
  (* each accepted entry adds exactly these calls to those made before it *)
  (forall pre b c' t',
     accepted c0 (pre ++ [b]) c' t' ->
     exists c t, accepted c0 pre c t /\
       let op := match pre with
                 | [] => with_contract_id (contract_id A c0) (operation b)
                 | _ :: _ => operation b
                 end in
       let o := opid_of U op in
       let effects :=
         match witness b with Some w => [CallApplyWitness o w] | None => [] end ++
         match pre, is_known A c o with
         | _ :: _, false =>
             match codex_verify U (codex A c) (contract_id A c0) op (memory A c) (repo A c) with
             | Ok v => [CallApplyOperation v]
             | Err _ => []
             end
         | _, _ => []
         end ++
         (if decide (defined_seals b = ∅) then [] else [CallApplySeals o (defined_seals b)]) in
       mutations t' = mutations t ++ effects /\ c' = apply_calls A c effects) /\
  (* a failing evaluation does what the entries before the failing one do *)
  (forall bs fin c t (e : VError),
     evaluate A c0 bs fin = (c, t, Some (Err e)) ->
     exists n t', accepted c0 (take n bs) c t' /\ mutations t = mutations t') /\
  (* and these calls are all that ever happens to the contract *)
  (forall bs fin c t r,
     evaluate A (E:=E) c0 bs fin = (c, t, Some r) -> c = apply_calls A c0 (mutations t)).
Proof.
  split; [exact (accepted_effects_nil A c0)|]. split; [|split].
  - intros pre b c' t' Hacc.
    destruct (accepted_effects_snoc A c0 pre b c' t' Hacc) as (c & t & Hpre & Hmut & Hc).
    exists c, t. split; [exact Hpre|]. intros op o effects.
    assert (effects = block_effects A c0 pre c b) as ->; [|done].
    unfold effects, block_effects, operation_calls, witness_calls, seals_calls, vm_verdict, o, op.
    destruct pre; [done|]. cbn. unfold Spec.id_of.
    by destruct (is_known A c (opid_of U (operation b))).
  - intros bs fin c t e H. apply failure_prefix in H as (n & t' & _ & H & _ & _ & Hm). eauto.
  - intros bs fin c t r H. rewrite apply_calls_mutations. by apply evaluate_log in H.
Qed.

(** ** C16 A failing evaluation leaves the contract as after its accepted prefix *)
Theorem C16_failure_atomic c0 bs fin c t (e : VError) :
  evaluate A c0 bs fin = (c, t, Some (Err e)) ->
  exists n t', n <= length bs /\
    accepted c0 (take n bs) c t' /\
    (forall m c' t'', n < m <= length bs -> ~ accepted c0 (take m bs) c' t'') /\
    t' `prefix_of` t /\ mutations t = mutations t'.
Proof. intros H. apply failure_prefix in H as (n & t' & H1 & H2 & H3 & H4 & H5). eauto 10. Qed.

(** ** C17 The error reported is the first violated check of the first bad operation

    [outcome] of Spec.v is the declarative description; it determines the result. *)
Theorem C17_first_violated_check c0 bs fin :
  (forall c t r, evaluate A c0 bs fin = (c, t, Some r) <-> outcome A c0 bs fin c t r) /\
  (exists c t r, outcome A c0 bs fin c t r) /\
  (forall c t r c' t' r', outcome A c0 bs fin c t r -> outcome A c0 bs fin c' t' r' ->
     c = c' /\ t = t' /\ r = r') /\
  (* a failing entry fails for one reason only, and a valid one for none *)
  (forall pre c b (e e' : VError),
     block_fails A c0 pre c b e -> block_fails A c0 pre c b e' -> e = e') /\
  (forall pre c b (e : VError), block_valid A c0 pre c b -> ~ block_fails A c0 pre c b e).
Proof.
  split; [exact (evaluate_iff_outcome A c0 bs fin)|]. split; [|split; [|split]].
  - destruct (evaluate_outcome A c0 bs fin) as (c & t & r & _ & H). eauto.
  - exact (outcome_functional A c0 bs fin).
  - exact (fails_functional A c0).
  - exact (valid_not_fails A c0).
Qed.

(** ** C18 Reader protocol *)
Theorem C18_reader_protocol (R : ReadOperation P E) c0 r :
  (* the reader delivers [bs], all accepted, and ends: one more read, and the end or the
     stream error decides *)
  (forall bs r1 r2 fin c t fuel,
     delivers R r bs r1 -> ends R r1 fin r2 -> accepted c0 bs c t -> length bs < fuel ->
     evaluate_reader A R fuel c0 r =
       ((c, t), r2, Some (match fin with None => Ok tt | Some e => Err (Stream e) end)) /\
     count is_read t = S (length bs)) /\
  (* the entry [b] after the accepted ones fails: no read after it *)
  (forall bs b r1 c t c' t' (e : VError) fuel,
     delivers R r (bs ++ [b]) r1 -> accepted c0 bs c t ->
     evaluate A c0 (bs ++ [b]) None = (c', t', Some (Err e)) -> length bs < fuel ->
     evaluate_reader A R fuel c0 r = ((c', t'), r1, Some (Err e)) /\
     count is_read t' = length (bs ++ [b])) /\
  (* accepted entries are completely processed before the next read *)
  (forall bs r1 c t, delivers R r bs r1 -> accepted c0 bs c t ->
     exists t', t = t' ++ [CallRead] /\
       evaluate_reader A R (length bs) c0 r = ((c, t'), r1, None) /\ count is_read t' = length bs) /\
  (* there are no other cases, whatever the reader: it never ends, or ends, or delivers a
     failing entry *)
  (forall fuel,
     (exists bs r1 c t, length bs = fuel /\ delivers R r bs r1 /\ accepted c0 bs c t) \/
     (exists bs r1 r2 fin c t, length bs < fuel /\ delivers R r bs r1 /\ ends R r1 fin r2 /\
        accepted c0 bs c t) \/
     (exists bs b r1 c t c' t' (e : VError), length bs < fuel /\ delivers R r (bs ++ [b]) r1 /\
        accepted c0 bs c t /\ evaluate A c0 (bs ++ [b]) None = (c', t', Some (Err e)))).
Proof.
  split; [|split; [|split]].
  - intros bs r1 r2 fin c t fuel H1 H2 H3 H4. split; [by eapply reader_end|].
    apply accepted_counts in H3 as [_ H3]. exact H3.
  - intros bs b r1 c t c' t' e fuel H1 H2 H3 H4. split; [by eapply reader_bad|].
    destruct (failing_last A c0 bs b c t c' t' e H2 H3) as (_ & _ & ->).
    apply accepted_counts in H2 as [_ H2]. rewrite count_app, H2, app_length. cbn.
    destruct (failing_queries_inert A c0 bs c b e) as [-> _]. lia.
  - intros bs r1 c t H1 H2. destruct (reader_goes_on A R c0 bs r r1 c t H1 H2) as (t' & -> & H).
    exists t'. split; [done|]. split; [done|].
    apply accepted_counts in H2 as [_ H2]. rewrite count_app in H2. cbn in H2. lia.
  - exact (reader_cases A R c0 r).
Qed.

(** ** C19 Prefixes of valid consignments are valid *)
Theorem C19_prefix_valid c0 pre post c t :
  accepted c0 (pre ++ post) c t ->
  exists c1 t1, accepted c0 pre c1 t1 /\ t1 `prefix_of` t.
Proof. exact (accepted_prefix A c0 pre post c t). Qed.

(** ** C20 Compositionality *)
Theorem C20_compositional c0 :
  (* after the accepted entries [pre] the evaluation goes on as a loop from the contract and
     the live seals reached *)
  (forall (R : ReadOperation P E) pre r r1 n c t,
     delivers R r pre r1 -> accepted c0 pre c t ->
     exists seals t0, t = t0 ++ [CallRead] /\
       (forall a s, seals !! a = Some s <-> live (history (contract_id A c0) pre) a s) /\
       evaluate_reader A R (length pre + n) c0 r =
       evaluate_loop A (E:=E) R n (contract_id A c0) (codex_id U (codex A c0))
         (match pre with [] => true | _ => false end) seals r1 (c, t0)) /\
  (* so two pasts which lead to the same contract and live seals have the same future *)
  (forall c0' pre pre' c t t' post fin c1 t1 (r : result VError unit),
     contract_id A c0 = contract_id A c0' ->
     pre <> [] -> pre' <> [] ->
     accepted c0 pre c t -> accepted c0' pre' c t' ->
     (forall a s, live (history (contract_id A c0) pre) a s <->
                  live (history (contract_id A c0') pre') a s) ->
     evaluate A c0 (pre ++ post) fin = (c1, t1, Some r) ->
     exists s, t1 = t ++ s /\ evaluate A c0' (pre' ++ post) fin = (c1, t' ++ s, Some r)).
Proof.
  split; [|exact (same_future A c0)].
  intros R pre r r1 n c t Hd (t0 & Hr & ->)%evaluate_ok_iff.
  destruct (reader_at A R c0 pre r r1 n t0 c Hd Hr) as (seals & Hs & Heq).
  exists seals, ([CallContractId; CallCodex] ++ t0). split; [by rewrite app_assoc|]. done.
Qed.

(** ** C21 Acceptance is equivalent to a declarative validity notion

    [valid_run] of Spec.v: every entry satisfies [block_valid] at its place. *)
Theorem C21_declarative_validity c0 bs c t :
  accepted c0 bs c t <->
  exists t', valid_run A c0 bs t' c /\ t = [CallContractId; CallCodex] ++ t' ++ [CallRead].
Proof. exact (evaluate_ok_iff A c0 bs c t). Qed.

(** ** C22 Witness-relative seals without a witness stay unspendable *)
Theorem C22_unresolved_unspendable c0 bs c t i j bi bj pos d :
  accepted c0 bs c t ->
  let h := history (contract_id A c0) bs in
  h !! i = Some bi -> defined_seals bi !! pos = Some d ->
  to_src P d = None -> witness bi = None ->
  h !! j = Some bj -> consumes bj (MkCellAddr (id_of bi) pos) ->
  (* there is another entry with this id revealing a seal, so ids repeat *)
  (exists k bk s, k < j /\ k <> i /\ h !! k = Some bk /\ id_of bk = id_of bi /\
     reveals bk (MkCellAddr (id_of bi) pos) s) /\
  ~ NoDup (id_of <$> h).
Proof.
  intros Hacc h Hi Hd Hn Hw Hj Ha.
  destruct (unresolved_not_consumed A c0 bs c t i j bi bj pos d Hacc Hi Hd Hn Hw Hj Ha)
    as (k & bk & s & Hk & Hne & Hbk & Hid & Hr).
  split; [by exists k, bk, s|].
  intros Hnd. apply Hne. apply (NoDup_lookup _ k i (id_of bi) Hnd).
  - rewrite list_lookup_fmap. unfold h. rewrite Hbk. cbn. by rewrite Hid.
  - rewrite list_lookup_fmap, Hi. done.
Qed.

(** ** C23 Witness-relative seals are bound to the witness of their own operation *)
Theorem C23_bound_to_own_witness c0 bs c t j bj a :
  accepted c0 bs c t ->
  history (contract_id A c0) bs !! j = Some bj ->
  consumes bj a ->
  (* the entry [i] defines the cell; its definition [d] is complete, or is resolved with the
     witness of the entry [i] itself; and the seal got is closed by the consuming entry *)
  exists i bi d s w closed, i < j /\ history (contract_id A c0) bs !! i = Some bi /\
    cell_opid a = id_of bi /\ defined_seals bi !! cell_pos a = Some d /\
    (to_src P d = Some s \/
     to_src P d = None /\ exists wi, witness bi = Some wi /\ s = resolve P d (pub_id P (published wi))) /\
    witness bj = Some w /\ s ∈ closed /\
    verify_seals_closing P (published w) (client w) closed
      (message_from P (opid_bytes (id_of bj))) = Ok tt.
Proof. exact (consumed_seal_bound A c0 bs c t j bj a). Qed.

(** ** C24 Concealed seals *)
Theorem C24_concealment c0 bs bs' c t :
  records_inert A -> view_sufficient A ->
  accepted c0 bs c t ->
  (* [bs'] has the same operations and witnesses; definitions are removed, but none of a cell
     that is consumed later *)
  conceals (U:=U) (contract_id A c0) bs bs' ->
  exists c' t', accepted c0 bs' c' t' /\ same_view A c c' /\
    (* the same operations and witnesses are applied, in the same order *)
    List.filter (fun e => negb (records_seals e)) (mutations t') =
    List.filter (fun e => negb (records_seals e)) (mutations t).
Proof. exact (concealment A c0 bs bs' c t). Qed.

(** ** C25 Re-evaluation is idempotent on operations *)
Theorem C25_idempotent :
  records_inert A -> view_sufficient A -> keeps_identity A -> remembers A -> faithful U ->
  forall c0 bs c t,
  (* the contract knows its genesis *)
  (forall b, bs !! 0 = Some b ->
     is_known A c0 (opid_of U (with_contract_id (contract_id A c0) (operation b))) = true) ->
  accepted c0 bs c t ->
  exists c' t', accepted c bs c' t' /\ applied t' = [] /\ same_view A c c' /\
    (* the records of seals and witnesses are repeated *)
    List.filter (fun e => negb (is_apply e)) (mutations t') =
    List.filter (fun e => negb (is_apply e)) (mutations t).
Proof. exact (idempotence A). Qed.

(** ** C26 Crash recovery *)
Theorem C26_crash_recovery :
  records_inert A -> view_sufficient A -> keeps_identity A -> remembers A -> faithful U ->
  forall c0 bs c t t1 t2,
  (forall b, bs !! 0 = Some b ->
     is_known A c0 (opid_of U (with_contract_id (contract_id A c0) (operation b))) = true) ->
  accepted c0 bs c t ->
  (* only the calls [t1] were made before the interruption *)
  t = t1 ++ t2 ->
  exists c' t', accepted (apply_calls A c0 t1) bs c' t' /\
    applied t = applied t1 ++ applied t' /\ same_view A c c' /\
    List.filter (fun e => negb (is_apply e)) (mutations t') =
    List.filter (fun e => negb (is_apply e)) (mutations t).
Proof. exact (crash_recovery A). Qed.

(** ** C27 Independent operations may be delivered in any order *)
Theorem C27_reordering c0 pre b1 b2 c t c1 t1 :
  pre <> [] -> independent b1 b2 ->
  accepted c0 pre c t ->
  is_known A c (id_of b1) = true -> is_known A c (id_of b2) = true ->
  accepted c0 (pre ++ [b1; b2]) c1 t1 ->
  (* the swapped entries are accepted, the effects are those of b2 and then of b1 *)
  (known_stay_known A ->
   exists c2 t2, accepted c0 (pre ++ [b2; b1]) c2 t2 /\
     mutations t2 = mutations t ++ (witness_calls b2 ++ seals_calls b2) ++ (witness_calls b1 ++ seals_calls b1)) /\
  (* the same seals are live *)
  (forall a s, live (history (contract_id A c0) (pre ++ [b1; b2])) a s <->
               live (history (contract_id A c0) (pre ++ [b2; b1])) a s) /\
  (* and whatever follows has the same result and applies the same operations *)
  (records_inert A -> view_sufficient A ->
   forall post fin c3 t3 (r : result VError unit),
   evaluate A c0 ((pre ++ [b1; b2]) ++ post) fin = (c3, t3, Some r) ->
   exists c4 t4, evaluate A c0 ((pre ++ [b2; b1]) ++ post) fin = (c4, t4, Some r) /\
     same_view A c3 c4 /\ applied t4 = applied t3).
Proof.
  intros Hne Hind Hpre Hk1 Hk2 Hacc. split; [|split].
  - intros Hk. destruct (swap_accepted A c0 pre b1 b2 c t c1 t1 Hk Hne Hind Hpre Hk1 Hk2 Hacc)
      as (c2 & t2 & H2 & _ & ->). exists c2, (t ++ CallIsKnown (id_of b2) :: witness_calls b2 ++ seals_calls b2 ++
         CallRead :: CallIsKnown (id_of b1) :: witness_calls b1 ++ seals_calls b1 ++ [CallRead]).
    split; [exact H2|]. rewrite mutations_app. f_equal. unfold witness_calls, seals_calls.
    destruct (witness b1), (witness b2); repeat case_decide; done.
  - intros a s. destruct pre as [|b0 pre]; [done|].
    cbn [history app]. change [b1; b2] with ([b1] ++ [b2]). change [b2; b1] with ([b2] ++ [b1]).
    rewrite !app_assoc. exact (swap_live (seen_first (contract_id A c0) b0 :: pre) b1 b2 Hind a s).
  - intros Hin Hsuff post fin c3 t3 r.
    exact (swap_future A c0 pre b1 b2 c t c1 t1 post fin c3 t3 r Hin Hsuff Hne Hind Hpre Hk1 Hk2 Hacc).
Qed.
End properties.

(** ** Concrete cases *)

Lemma same_accepted {P U} (A : ContractApi P U) {E} c0 bs c t c' t' :
  evaluate A (E:=E) c0 bs None = (c, t, Some (Ok tt)) ->
  evaluate A (E:=E) c0 bs None = (c', t', Some (Ok tt)) -> c = c' /\ t = t'.
Proof. intros H H'. rewrite H in H'. by injection H' as <- <-. Qed.

(** C15: the operation 1 of the scenario, after the genesis *)
Example C15_case :
  exists c t, toy_accepts ledger [entry_g] c t /\
    mutations (toy_log ledger [entry_g; entry_1]) =
      mutations t ++ [CallApplyWitness id_1 (wit tx_1); CallApplyOperation (op_1 : VerifiedOperation TU);
                      CallApplySeals id_1 (defined_seals entry_1)].
Proof.
  destruct (proj1 (proj2 (C15_exact_effects toy_api (E:=Empty_set) ledger)) [entry_g] entry_1 _ _ prefix_2_accepted)
    as (c & t & Hacc & Hm & _).
  exists c, t. split; [exact Hacc|].
  destruct (same_accepted toy_api _ _ _ _ _ _ Hacc prefix_1_accepted) as [-> ->]. exact Hm.
Qed.

(** C16, C17: a consignment whose second entry has a wrong witness *)
Definition failing_result : result (VerificationError TP TU Empty_set) unit :=
  Err (SealsNotClosed (P:=TP) (MkTxid [2%N]) id_1 (NotIncluded seal_a (MkTxid [2%N]) : SealError TP)).
Lemma failing_evaluates :
  evaluate toy_api ledger failing None = (toy_after ledger failing, toy_log ledger failing, Some failing_result).
Proof. apply toy_evaluate. vm_refl. Qed.
Example C16_case :
  exists n t', n <= 2 /\ toy_accepts ledger (take n failing) (toy_after ledger failing) t'.
Proof.
  destruct (C16_failure_atomic toy_api ledger failing None _ _ _ failing_evaluates)
    as (n & t' & Hn & Hacc & _). by exists n, t'.
Qed.
Example C17_case :
  outcome toy_api ledger failing None (toy_after ledger failing) (toy_log ledger failing) failing_result.
Proof. apply (proj1 (C17_first_violated_check toy_api ledger failing None)), failing_evaluates. Qed.

(** C18: an endless reader delivering the genesis and then the genesis again and again; and a
    reader failing after the scenario *)
Lemma accepted_stream_type {P U} (A : ContractApi P U) E E' c0 bs c t :
  evaluate A (E:=E) c0 bs None = (c, t, Some (Ok tt)) ->
  evaluate A (E:=E') c0 bs None = (c, t, Some (Ok tt)).
Proof. intros H%evaluate_ok_iff. by apply evaluate_ok_iff. Qed.
Definition repeated : ToyBlock := block op_g [] None.
Definition endless : ReadOperation TP Empty_set := {|
  Reader := bool;
  read_operation := fun first => (false, Ok (Some (if first then entry_g else repeated)))
|}.
Example C18_case :
  (exists c t', evaluate_reader toy_api endless 3 ledger true = ((c, t'), false, None) /\
     count is_read t' = 3) /\
  evaluate_reader toy_api (script_reader (E:=nat)) 4 ledger (scenario, Some 5) =
    ((toy_after ledger scenario, toy_log ledger scenario), ([], Some 5), Some (Err (Stream 5))).
Proof.
  split.
  - destruct (C18_reader_protocol toy_api endless ledger true) as (_ & _ & H & _).
    destruct (H [entry_g; repeated; repeated] false (toy_after ledger [entry_g; repeated; repeated])
      (toy_log ledger [entry_g; repeated; repeated])) as (t' & _ & H1 & H2).
    + by repeat econstructor.
    + apply toy_evaluate. vm_refl.
    + eexists _, t'. split; [exact H1|exact H2].
  - destruct (C18_reader_protocol toy_api (script_reader (E:=nat)) ledger (scenario, Some 5)) as (H & _).
    destruct (H scenario ([], Some 5) ([], Some 5) (Some 5) (toy_after ledger scenario)
      (toy_log ledger scenario) 4) as [H1 _].
    + exact (script_delivers scenario [] (Some 5)).
    + apply script_ends.
    + apply (accepted_stream_type _ Empty_set), scenario_accepted.
    + cbn. lia.
    + exact H1.
Qed.

(** C19: the scenario without its last entry *)
Example C19_case :
  exists c1 t1, toy_accepts ledger [entry_g; entry_1] c1 t1 /\ t1 `prefix_of` toy_log ledger scenario.
Proof. exact (C19_prefix_valid toy_api ledger [entry_g; entry_1] [entry_2] _ _ scenario_accepted). Qed.

(** C20: the same future after a past with a repeated genesis *)
Example C20_case :
  exists s c t', toy_accepts ledger [entry_g; entry_1; repeated] c t' /\
    toy_accepts ledger ([entry_g; entry_1; repeated] ++ [entry_2]) (toy_after ledger scenario) (t' ++ s).
Proof.
  assert (toy_accepts ledger [entry_g; entry_1; repeated] (toy_after ledger [entry_g; entry_1])
    (toy_log ledger [entry_g; entry_1] ++ [CallIsKnown id_g; CallRead])) as Hacc.
  { refine (accepted_snoc toy_api ledger [entry_g; entry_1] repeated _ _ prefix_2_accepted _).
    split; [done|]. split; [by intros ??|]. split.
    - exists []. split; [|done]. split; [apply NoDup_nil_2|constructor].
    - intros Hk. exfalso.
      assert (is_known toy_api (toy_after ledger [entry_g; entry_1]) id_g = true) as Hk' by vm_refl.
      change (is_known toy_api (toy_after ledger [entry_g; entry_1]) id_g = false) in Hk. congruence. }
  assert (forall a s, live (U:=TU) (history (contract_id toy_api ledger) [entry_g; entry_1]) a s <->
    live (U:=TU) (history (contract_id toy_api ledger) [entry_g; entry_1; repeated]) a s) as Hlive.
  { intros a s. symmetry.
    change (history (contract_id toy_api ledger) [entry_g; entry_1; repeated])
      with ([seen_g; entry_1] ++ [repeated]).
    rewrite live_snoc. split.
    + intros [(_ & d & Hd & _)|(H & _)]; [done|exact H].
    + intros H. right. split; [exact H|]. split; [apply not_elem_of_nil|].
      by intros s' (_ & d & Hd & _). }
  destruct (proj2 (C20_compositional toy_api (E:=Empty_set) ledger) ledger [entry_g; entry_1]
    [entry_g; entry_1; repeated] (toy_after ledger [entry_g; entry_1]) (toy_log ledger [entry_g; entry_1])
    (toy_log ledger [entry_g; entry_1] ++ [CallIsKnown id_g; CallRead]) [entry_2] None
    (toy_after ledger scenario) (toy_log ledger scenario) (Ok tt) eq_refl
    ltac:(discriminate) ltac:(discriminate) prefix_2_accepted Hacc Hlive scenario_accepted) as (s & _ & Hs).
  eexists s, _, _. split; [exact Hacc|exact Hs].
Qed.

(** C21: the scenario is a valid run *)
Example C21_case : exists t', valid_run toy_api ledger scenario t' (toy_after ledger scenario).
Proof.
  destruct (proj1 (C21_declarative_validity toy_api ledger _ _ _) scenario_accepted) as (t' & H & _).
  by exists t'.
Qed.

(** C22: the operation [op_i] first without a witness, and then with one *)
Definition entry_i : ToyBlock := block op_i [(0%N, def_w)] None.
Definition run_iy : list ToyBlock := [entry_g; entry_i; entry_iy; entry_y].
Example C22_case :
  (exists k bk s, k < 3 /\ k <> 1 /\ history (contract_id toy_api ledger) run_iy !! k = Some bk /\
     id_of (U:=TU) bk = id_i /\ reveals (U:=TU) bk (MkCellAddr id_i 0) s) /\
  ~ NoDup (id_of (U:=TU) <$> history (contract_id toy_api ledger) run_iy) /\
  (* without the other entry *)
  toy_run ledger [entry_g; entry_i; entry_y] = Some (Err (SealUnknown (MkCellAddr id_i 0))).
Proof.
  assert (toy_accepts ledger run_iy (toy_after ledger run_iy) (toy_log ledger run_iy)) as Hacc.
  { apply toy_evaluate. vm_refl. }
  destruct (C22_unresolved_unspendable toy_api ledger run_iy _ _ 1 3 entry_i entry_y 0 def_w Hacc) as [H1 H2].
  - reflexivity.
  - vm_refl.
  - reflexivity.
  - reflexivity.
  - reflexivity.
  - left.
  - split; [exact H1|]. split; [exact H2|]. vm_refl.
Qed.

(** C23: the first input of operation 2 of the scenario *)
Example C23_case :
  exists closed s, s ∈ closed /\ s = MkTxoSeal (MkOutpoint (MkTxid [1%N]) 0) (Noise [5%N]) /\
    toy_verify_from tx_2 (tx_commitment tx_2) closed (opid_bytes id_2) = Ok tt.
Proof.
  destruct (C23_bound_to_own_witness toy_api ledger scenario _ _ 2 entry_2 (MkCellAddr id_1 0) scenario_accepted
    eq_refl ltac:(left)) as (i & bi & d & s & w & closed & Hi & Hbi & Hid & Hd & Hs & Hw & Hin & Hv).
  exists closed, s. split; [exact Hin|]. injection Hw as <-. split; [|exact Hv].
  assert (id_g <> id_1) as N1 by (apply (bool_decide_unpack _); by vm_compute).
  destruct i as [|[|[|]]]; [injection Hbi as <-; by destruct N1|injection Hbi as <-|lia|lia].
  apply block_lookup, elem_of_list_singleton in Hd. injection Hd as ->.
  destruct Hs as [Hs|(_ & wi & [= <-] & ->)]; done.
Qed.

(** C24: the scenario with the seal of the last operation concealed *)
Definition entry_2_concealed : ToyBlock := block op_2 [] (Some (wit tx_2)).
Example C24_case :
  exists c' t', toy_accepts ledger [entry_g; entry_1; entry_2_concealed] c' t' /\
    same_view toy_api (toy_after ledger scenario) c' /\
    applied_ids t' = [id_1; id_2].
Proof.
  destruct (C24_concealment toy_api ledger scenario [entry_g; entry_1; entry_2_concealed] _ _
    (ledger_inert _ _) (ledger_sufficient _ _) scenario_accepted) as (c' & t' & H1 & H2 & H3).
  - split.
    + constructor; [done|]. constructor; [done|]. constructor; [|constructor].
      split; [done|]. split; [done|].
      exact (map_empty_subseteq (M:=gmap N) (defined_seals entry_2)).
    + intros i j bi bi' bj pos d Hij Hi Hi' Hj _ Hd.
      destruct i as [|[|i]]; [injection Hi as <-; injection Hi' as <-; exact Hd|
                              injection Hi as <-; injection Hi' as <-; exact Hd|].
      apply lookup_lt_Some in Hj. cbn in Hj. lia.
  - exists c', t'. split; [exact H1|]. split; [exact H2|].
    assert (forall l : list (call TP TU), applied_ids l =
      applied_ids (List.filter (fun e => negb (records_seals e)) (mutations l))) as Hids.
    { intros l. induction l as [|e l IH]; [done|]. unfold applied_ids in *.
      destruct e; cbn; rewrite ?IH; done. }
    rewrite Hids, H3, <-Hids. vm_refl.
Qed.

(** C25, C26: the scenario again, after its end and after a crash *)
Lemma scenario_genesis_known b :
  scenario !! 0 = Some b ->
  is_known toy_api ledger (opid_of TU (with_contract_id (contract_id toy_api ledger) (operation b))) = true.
Proof. intros [= <-]. vm_refl. Qed.
Example C25_case :
  exists c' t', toy_accepts (toy_after ledger scenario) scenario c' t' /\ applied t' = [] /\
    same_view toy_api (toy_after ledger scenario) c'.
Proof.
  destruct (C25_idempotent toy_api (ledger_inert _ _) (ledger_sufficient _ _) (ledger_identity _ _)
    (ledger_remembers _ _) (sonic_faithful _) ledger scenario _ _ scenario_genesis_known scenario_accepted)
    as (c' & t' & H1 & H2 & H3 & _).
  exists c', t'. exact (conj H1 (conj H2 H3)).
Qed.
Example C26_case :
  exists c' t', toy_accepts crashed scenario c' t' /\
    applied (toy_log ledger scenario) = applied crash_log ++ applied t' /\
    applied_ids crash_log = [id_1] /\ same_view toy_api (toy_after ledger scenario) c'.
Proof.
  destruct (C26_crash_recovery toy_api (ledger_inert _ _) (ledger_sufficient _ _) (ledger_identity _ _)
    (ledger_remembers _ _) (sonic_faithful _) ledger scenario _ _ crash_log (drop 12 (toy_log ledger scenario))
    scenario_genesis_known scenario_accepted) as (c' & t' & H1 & H2 & H3 & _).
  - symmetry. apply take_drop.
  - exists c', t'. split; [exact H1|]. split; [exact H2|]. split; [vm_refl|exact H3].
Qed.

(** C27: two operations spending the two cells of the genesis, on a ledger that knows them *)
Definition op_3 : Operation := toy_op toy_cid 50 [MkCellAddr id_g 1] [def_d].
Definition id_3 : Opid := toy_opid op_3.
Definition tx_3 : ToyTx := tx_of 50 out_b id_3.
Definition entry_3 : ToyBlock := block op_3 [(0%N, def_d)] (Some (wit tx_3)).
Definition knowing_3 : ToyContract := toy_after ledger [entry_g; entry_1; entry_3].
Lemma independent_1_3 : independent (U:=TU) entry_1 entry_3.
Proof.
  assert (id_1 <> id_3 /\ id_g <> id_1 /\ id_g <> id_3) as (N1 & N2 & N3).
  { split; [|split]; apply (bool_decide_unpack _); by vm_compute. }
  assert (forall a, consumes entry_1 a -> a = MkCellAddr id_g 0) as H1.
  { intros a Ha. apply elem_of_list_singleton in Ha. exact Ha. }
  assert (forall a, consumes entry_3 a -> a = MkCellAddr id_g 1) as H3.
  { intros a Ha. apply elem_of_list_singleton in Ha. exact Ha. }
  split; [exact N1|]. split; [|split].
  - intros a ->%H1 [=]%H3.
  - intros a ->%H1. exact N3.
  - intros a ->%H3. exact N2.
Qed.
Example C27_case :
  exists c2 t2, toy_accepts knowing_3 [entry_g; entry_3; entry_1] c2 t2.
Proof.
  destruct (C27_reordering toy_api (E:=Empty_set) knowing_3 [entry_g] entry_1 entry_3
    (toy_after knowing_3 [entry_g]) (toy_log knowing_3 [entry_g])
    (toy_after knowing_3 [entry_g; entry_1; entry_3]) (toy_log knowing_3 [entry_g; entry_1; entry_3]))
    as (H & _).
  - discriminate.
  - exact independent_1_3.
  - apply toy_evaluate. vm_refl.
  - vm_refl.
  - vm_refl.
  - apply toy_evaluate. vm_refl.
  - destruct (H (ledger_stays _ _)) as (c2 & t2 & H2 & _). exists c2, t2. exact H2.
Qed.

Print Assumptions C15_exact_effects.
Print Assumptions C16_failure_atomic.
Print Assumptions C17_first_violated_check.
Print Assumptions C18_reader_protocol.
Print Assumptions C19_prefix_valid.
Print Assumptions C20_compositional.
Print Assumptions C21_declarative_validity.
Print Assumptions C22_unresolved_unspendable.
Print Assumptions C23_bound_to_own_witness.
Print Assumptions C24_concealment.
Print Assumptions C25_idempotent.
Print Assumptions C26_crash_recovery.
Print Assumptions C27_reordering.
