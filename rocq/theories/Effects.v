(** * The log of calls of an evaluation *)
From Verif Require Export Runs.
From Coq Require Import Lia.

Section effects.
Context {P : SealProtocol} {U : Ultrasonic} (A : ContractApi P U) {E : Type}.

Notation Block := (OperationSeals P).
Notation VError := (VerificationError P U E).
Notation Calls := (list (call P U)).
Notation id_of := (id_of (U:=U)).
Notation reveals := (reveals (U:=U)).
Notation live := (live (U:=U)).
Notation spends := (spends (U:=U)).
Notation message_of := (message_of (U:=U)).
Notation properly_closed := (properly_closed (U:=U)).

Implicit Types (c : Contract A) (bs pre post : list Block) (b : Block) (t : Calls)
  (fin : option E).

Notation accepted c0 bs c t := (evaluate A (E:=E) c0 bs None = (c, t, Some (Ok tt))).

(** ** The final contract is the result of the calls *)
Lemma apply_calls_app c t1 t2 :
  apply_calls A c (t1 ++ t2) = apply_calls A (apply_calls A c t1) t2.
Proof. apply foldl_app. Qed.

Lemma apply_calls_mutations c t : apply_calls A c (mutations t) = apply_calls A c t.
Proof.
  revert c. induction t as [|e t IH]; intros c; [done|].
  change (apply_calls A c (e :: t)) with (apply_calls A (apply_call A c e) t).
  rewrite <-IH. by destruct e.
Qed.

Lemma apply_query_calls c b t : apply_calls A c (query_calls A c b ++ t) = apply_calls A c t.
Proof. unfold query_calls. by destruct (is_known A c (id_of b)). Qed.

Lemma valid_run_contract c0 bs t c : valid_run A c0 bs t c -> c = apply_calls A c0 t.
Proof.
  induction 1 as [|bs t c b _ IH _]; [done|].
  rewrite apply_calls_app, <-IH. symmetry. apply apply_query_calls.
Qed.

Lemma evaluate_log c0 bs fin c t r :
  evaluate A (E:=E) c0 bs fin = (c, t, Some r) -> c = apply_calls A c0 t.
Proof.
  intros H%evaluate_iff_outcome. inversion H; subst; rewrite !apply_calls_app;
    match goal with H : valid_run _ _ _ _ _ |- _ => apply valid_run_contract in H as Hc end;
    change (apply_calls A c0 [CallContractId; CallCodex]) with c0; rewrite <-Hc; [done..|].
  unfold failing_calls, query_calls. destruct e; cbn; try done; by destruct (is_known A _ _).
Qed.

(** ** Mutations *)
Lemma mutations_app t1 t2 : mutations (t1 ++ t2) = mutations t1 ++ mutations t2.
Proof. apply List.filter_app. Qed.

Lemma mutations_query_calls c b : mutations (query_calls A c b) = [].
Proof. unfold query_calls. by destruct (is_known A c (id_of b)). Qed.

Lemma mutations_block_effects c0 bs c b :
  mutations (block_effects A c0 bs c b) = block_effects A c0 bs c b.
Proof.
  unfold block_effects, witness_calls, operation_calls, seals_calls.
  rewrite !mutations_app. f_equal; [by case_match|]. f_equal; by repeat case_match.
Qed.

Lemma mutations_block_calls c0 bs c b :
  mutations (block_calls A c0 bs c b) = block_effects A c0 bs c b.
Proof.
  unfold block_calls. change (CallRead :: ?x) with ([CallRead] ++ x).
  by rewrite !mutations_app, mutations_query_calls, mutations_block_effects.
Qed.

Lemma accepted_effects_nil c0 c t :
  accepted c0 [] c t -> c = c0 /\ mutations t = [].
Proof. rewrite accepted_nil. by intros [= <- <-]. Qed.

Lemma accepted_effects_snoc c0 pre b c' t' :
  accepted c0 (pre ++ [b]) c' t' ->
  exists c t, accepted c0 pre c t /\ mutations t' = mutations t ++ block_effects A c0 pre c b /\
    c' = apply_calls A c (block_effects A c0 pre c b).
Proof.
  intros (t & H & ->)%evaluate_ok_iff. apply valid_run_snoc_inv in H as (t1 & c & H & _ & -> & ->).
  exists c, ([CallContractId; CallCodex] ++ t1 ++ [CallRead]). split; [by apply valid_run_accepted|].
  split; [|done]. rewrite !mutations_app, mutations_block_calls.
  change (mutations [CallRead]) with ([] : Calls). by rewrite !app_nil_r, app_assoc.
Qed.

(** ** Position of a call in the log *)
Lemma app_cons_split {X} (l1 l2 k1 k2 : list X) x :
  l1 ++ l2 = k1 ++ x :: k2 ->
  (exists k, l1 = k1 ++ x :: k /\ k2 = k ++ l2) \/
  (exists k, k1 = l1 ++ k /\ l2 = k ++ x :: k2).
Proof.
  revert k1. induction l1 as [|y l1 IH]; intros k1 H; cbn in H.
  - right. by exists k1.
  - destruct k1 as [|z k1]; cbn in H; injection H as -> H.
    + left. exists l1. done.
    + destruct (IH _ H) as [(k & -> & ->)|(k & -> & ->)]; [left|right]; eexists; by cbn.
Qed.

Lemma run_call_inv c0 bs t c t1 e t2 :
  valid_run A c0 bs t c -> t = t1 ++ e :: t2 ->
  exists pre b post t0 c1 s1 s2 s3,
    bs = pre ++ b :: post /\ valid_run A c0 pre t0 c1 /\ block_valid A c0 pre c1 b /\
    t1 = t0 ++ s1 /\ block_calls A c0 pre c1 b = s1 ++ e :: s2 /\ t2 = s2 ++ s3.
Proof.
  intros H. revert t1 e t2. induction H as [|bs t c b H IH Hv]; intros t1 e t2 Heq.
  - by destruct t1.
  - apply app_cons_split in Heq as [(k & -> & ->)|(k & -> & Hk)].
    + destruct (IH _ _ _ eq_refl) as (pre & b' & post & t0 & c1 & s1 & s2 & s3 & -> & ? & ? & -> & ? & ->).
      exists pre, b', (post ++ [b]), t0, c1, s1, s2, (s3 ++ block_calls A c0 (pre ++ b' :: post) c b).
      rewrite <-!app_assoc. done.
    + exists bs, b, [], t, c, k, t2, []. by rewrite app_nil_r.
Qed.

Lemma seals_calls_apply b k v s : seals_calls (U:=U) b <> k ++ CallApplyOperation v :: s.
Proof.
  intros H. assert (CallApplyOperation v ∈ seals_calls (U:=U) b) as Hin by (rewrite H; set_solver).
  unfold seals_calls in Hin. case_match; set_solver.
Qed.

Lemma block_calls_apply c0 bs c b s1 v s2 :
  block_calls A c0 bs c b = s1 ++ CallApplyOperation v :: s2 ->
  bs <> [] /\ is_known A c (id_of b) = false /\
  vm_verdict A (contract_id A c0) c b = Ok v /\
  s1 = [CallRead; CallIsKnown (id_of b); CallCodex; CallMemory; CallRepo] ++ witness_calls b.
Proof.
  unfold block_calls, query_calls, block_effects, operation_calls. intros Heq.
  set (b' := seen (contract_id A c0) bs b) in *.
  change (CallRead :: ?x) with ([CallRead] ++ x) in Heq.
  assert (forall l k1 k2, (l ++ k1 = k2 ++ CallApplyOperation v :: s2) ->
    CallApplyOperation v ∉ l -> exists k, k2 = l ++ k /\ k1 = k ++ CallApplyOperation v :: s2) as Hskip.
  { intros l k1 k2 H Hn. apply app_cons_split in H as [(k & -> & _)|(k & -> & ->)]; [|by eauto].
    exfalso. apply Hn. set_solver. }
  apply Hskip in Heq as (k1 & -> & Heq); [|set_solver].
  apply Hskip in Heq as (k2 & -> & Heq); [|destruct (is_known A c (id_of b')); set_solver].
  apply Hskip in Heq as (k3 & -> & Heq); [|unfold witness_calls; destruct (witness b'); set_solver].
  destruct (is_known A c (id_of b')) eqn:Hk.
  { assert (seals_calls b' = k3 ++ CallApplyOperation v :: s2) as Hs by (by destruct (is_first bs)).
    by apply seals_calls_apply in Hs. }
  destruct (is_first bs) eqn:Hf; [by apply seals_calls_apply in Heq|].
  destruct (vm_verdict A (contract_id A c0) c b') as [v'|x] eqn:Hv; cycle 1.
  { by apply seals_calls_apply in Heq. }
  destruct bs as [|b0 bs]; [done|].
  destruct k3 as [|? k3]; cbn in Heq.
  - injection Heq as -> _. cbn in b'. subst b'. split; [done|]. split; [done|]. split; [done|].
    by rewrite app_nil_r.
  - injection Heq as _ Heq. by apply seals_calls_apply in Heq.
Qed.

(** ** C11 *)
Lemma applied_is_verified c0 bs fin c t r t1 v t2 :
  evaluate A (E:=E) c0 bs fin = (c, t, Some r) ->
  t = t1 ++ CallApplyOperation v :: t2 ->
  exists i b t0 c1, 0 < i /\ bs !! i = Some b /\
    t1 = t0 ++ [CallIsKnown (id_of b); CallCodex; CallMemory; CallRepo] ++ witness_calls b /\
    c1 = apply_calls A c0 t0 /\
    is_known A c1 (id_of b) = false /\
    codex_verify U (codex A c1) (contract_id A c0) (operation b) (memory A c1) (repo A c1) = Ok v.
Proof.
  intros H%evaluate_iff_outcome Heq.
  assert (exists bs' t' c' hd tl, bs' `prefix_of` bs /\ valid_run A c0 bs' t' c' /\
    t = [CallContractId; CallCodex] ++ t' ++ hd :: tl /\
    CallApplyOperation v ∉ hd :: tl) as (bs' & t' & c' & hd & tl & Hpre & Hrun & -> & Hn).
  { inversion H; subst.
    - exists bs, t0, c, CallRead, []. repeat split; try done. set_solver.
    - exists bs, t0, c, CallRead, []. repeat split; try done. set_solver.
    - unfold failing_calls in *. eexists pre, t0, c, CallRead, _. repeat split; try done.
      { by exists (b :: post). }
      unfold query_calls. destruct e; try case_match; set_solver. }
  clear H. destruct t1 as [|? [|? t1]]; [done|cbn in Heq; simplify_eq|].
  cbn in Heq. injection Heq as <- <- Heq.
  apply app_cons_split in Heq as [(k & -> & ->)|(k & -> & Hk)]; cycle 1.
  { exfalso. apply Hn. rewrite Hk. set_solver. }
  destruct (run_call_inv _ _ _ _ _ _ _ Hrun eq_refl)
    as (pre & b & post & t0 & c1 & s1 & s2 & s3 & -> & Hr & Hv & -> & Hb & ->).
  apply block_calls_apply in Hb as (Hne & Hk & Hvm & ->).
  exists (length pre), b, ([CallContractId; CallCodex] ++ t0 ++ [CallRead]), c1.
  split. { destruct pre; [done|cbn; lia]. }
  split. { destruct Hpre as [l ->]. rewrite <-app_assoc. by apply list_lookup_middle. }
  split. { cbn. by rewrite <-!app_assoc. }
  split. { rewrite !apply_calls_app. exact (valid_run_contract _ _ _ _ Hr). }
  done.
Qed.

(** ** C13 *)
Lemma first_not_applied c0 b fin c t r v :
  evaluate A (E:=E) c0 [b] fin = (c, t, Some r) -> CallApplyOperation v ∉ t.
Proof.
  intros H Hin. apply elem_of_list_split in Hin as (t1 & t2 & ->).
  destruct (applied_is_verified _ _ _ _ _ _ _ _ _ H eq_refl) as (i & b' & _ & _ & Hi & Hb & _).
  apply lookup_lt_Some in Hb. cbn in Hb. lia.
Qed.

(** ** C02: ids under which the contract is called *)
Lemma accepted_ids c0 bs c t :
  accepted c0 bs c t ->
  let h := history (contract_id A c0) bs in
  omap known_query t = id_of <$> h /\
  omap witness_record t = omap (fun b => (id_of b,.) <$> witness b) h /\
  omap seals_record t =
    omap (fun b => if decide (defined_seals b = ∅) then None else Some (id_of b, defined_seals b)) h.
Proof.
  intros (t' & H & ->)%evaluate_ok_iff. cbn. rewrite !omap_app. cbn. rewrite !app_nil_r.
  induction H as [|bs t c' b H IH Hv]; [done|].
  destruct IH as (IH1 & IH2 & IH3). rewrite history_snoc, fmap_app, !omap_app, IH1, IH2, IH3.
  unfold block_calls, query_calls, block_effects, witness_calls, operation_calls, seals_calls. cbn.
  set (b' := seen _ bs b). rewrite !omap_app. cbn.
  split; [|split]; f_equal; repeat case_match; cbn in *; by simplify_eq.
Qed.

Lemma accepted_verdict c0 b bs c t :
  accepted c0 (b :: bs) c t ->
  let op := with_contract_id (contract_id A c0) (operation b) in
  is_known A c0 (opid_of U op) = false ->
  exists v, codex_verify U (codex A c0) (contract_id A c0) op (memory A c0) (repo A c0) = Ok v.
Proof.
  intros H. apply (accepted_at A c0 []) in H as (c1 & t1 & Hr & Hv).
  apply valid_run_nil_inv in Hr as [-> ->]. apply Hv.
Qed.

(** ** C33: number of queries *)
Lemma count_app f t1 t2 : count f (t1 ++ t2) = count f t1 + count f t2.
Proof. unfold count. by rewrite List.filter_app, app_length. Qed.
Lemma count_cons f e t : count f (e :: t) = (if f e then 1 else 0) + count f t.
Proof. unfold count. cbn. by destruct (f e). Qed.

Lemma count_block_effects f c0 bs c b :
  (forall o w, f (CallApplyWitness o w) = false) ->
  (forall v, f (CallApplyOperation v) = false) ->
  (forall o m, f (CallApplySeals o m) = false) ->
  count f (block_effects A c0 bs c b) = 0.
Proof.
  intros H1 H2 H3. unfold block_effects, witness_calls, operation_calls, seals_calls.
  rewrite !count_app. repeat case_match; rewrite ?count_cons, ?H1, ?H2, ?H3; done.
Qed.

Lemma unknown_answers_app c t1 t2 :
  unknown_answers A c (t1 ++ t2) = unknown_answers A c t1 + unknown_answers A (apply_calls A c t1) t2.
Proof.
  revert c. induction t1 as [|e t1 IH]; intros c; [done|].
  change (apply_calls A c (e :: t1)) with (apply_calls A (apply_call A c e) t1).
  destruct e; cbn; rewrite IH; cbn; done || lia.
Qed.

Lemma unknown_answers_effects c' c0 bs c b : unknown_answers A c' (block_effects A c0 bs c b) = 0.
Proof.
  unfold block_effects, witness_calls, operation_calls, seals_calls. by repeat case_match.
Qed.

Lemma run_counts c0 bs t c :
  valid_run A c0 bs t c ->
  count is_contract_id t = 0 /\ count is_codex t = count is_memory t /\
  count is_repo t = count is_memory t /\ count is_known_query t = length bs /\
  count is_read t = length bs /\ count is_memory t = unknown_answers A c0 t.
Proof.
  induction 1 as [|bs t c b H IH Hv]; [done|].
  destruct IH as (? & ? & ? & ? & ? & ?).
  rewrite !count_app, app_length, unknown_answers_app, <-(valid_run_contract _ _ _ _ H).
  unfold block_calls, query_calls.
  rewrite !count_cons, !count_app, !count_cons.
  rewrite !count_block_effects by done.
  cbn. rewrite unknown_answers_app, unknown_answers_effects.
  destruct (is_known A c _); unfold count in *; cbn in *; lia.
Qed.

Lemma query_counts c0 bs fin c t (r : result VError unit) :
  evaluate A c0 bs fin = (c, t, Some r) ->
  count is_contract_id t = 1 /\ count is_codex t = S (count is_memory t) /\
  count is_repo t = count is_memory t /\ count is_memory t = unknown_answers A c0 t.
Proof.
  intros H%evaluate_iff_outcome. inversion H; subst;
    match goal with H : valid_run _ _ _ _ _ |- _ =>
      pose proof (valid_run_contract _ _ _ _ H) as Hc;
      apply run_counts in H as (? & ? & ? & ? & ? & ?) end;
    rewrite !count_app, !unknown_answers_app;
    change (apply_calls A c0 [CallContractId; CallCodex]) with c0; rewrite <-Hc;
    unfold failing_calls, query_calls; rewrite ?count_cons;
    try (destruct e); cbn; try (destruct (is_known A c _)); unfold count in *; cbn in *; lia.
Qed.

Lemma accepted_counts c0 bs c t :
  accepted c0 bs c t ->
  count is_known_query t = length bs /\ count is_read t = S (length bs).
Proof.
  intros (t' & H & ->)%evaluate_ok_iff. apply run_counts in H as (? & ? & ? & ? & ? & ?).
  rewrite !count_app. unfold count in *; cbn in *; lia.
Qed.

(** Number of [is_known] questions and reads on failure. *)
Lemma failed_counts c0 bs fin c t (e : VError) :
  evaluate A c0 bs fin = (c, t, Some (Err e)) ->
  exists n c' t', n <= length bs /\ accepted c0 (take n bs) c' t' /\
    count is_read t = S n /\
    count is_known_query t =
      match e with Vm _ | SealsNotClosed _ _ _ | NoWitness _ => S n | _ => n end.
Proof.
  intros [(_ & x & t' & -> & -> & H & ->)|(pre & b & post & t' & -> & H & Hf & ->)]%error_inv.
  - exists (length bs), c, ([CallContractId; CallCodex] ++ t' ++ [CallRead]).
    rewrite firstn_all. split; [done|]. split; [by apply valid_run_accepted|].
    apply run_counts in H as (? & ? & ? & ? & ? & ?).
    rewrite !count_app. unfold count in *; cbn in *; lia.
  - exists (length pre), c, ([CallContractId; CallCodex] ++ t' ++ [CallRead]).
    rewrite app_length, take_app. split; [cbn; lia|]. split; [by apply valid_run_accepted|].
    apply run_counts in H as (? & ? & ? & ? & ? & ?).
    rewrite !count_app. unfold failing_calls, query_calls. rewrite !count_cons.
    destruct e; cbn; try (destruct (is_known A c _)); unfold count in *; cbn in *; lia.
Qed.

End effects.
