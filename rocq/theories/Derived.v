(** * Consequences of the refinement for single entries *)
From Verif Require Export DoubleSpend.
From Coq Require Import Lia.

Section derived.
Context {P : SealProtocol} {U : Ultrasonic} (A : ContractApi P U) {E : Type}.

Notation Block := (OperationSeals P).
Notation VError := (VerificationError P U E).
Notation Calls := (list (call P U)).
Notation id_of := (id_of (U:=U)).
Notation reveals := (reveals (U:=U)).
Notation live := (live (U:=U)).
Notation spends := (spends (U:=U)).
Notation message_of := (message_of (U:=U)).
Notation properly_closed := (properly_closed (U:=U)).

Implicit Types (c : Contract A) (bs pre post : list Block) (b : Block) (t : Calls)
  (fin : option E).

Notation accepted c0 bs c t := (evaluate A (E:=E) c0 bs None = (c, t, Some (Ok tt))).

(** The checks an entry of an accepted consignment has passed. *)
Lemma accepted_checks c0 bs c t i b :
  accepted c0 bs c t ->
  history (contract_id A c0) bs !! i = Some b ->
  tokens_committed b /\
  exists closed, spends (take i (history (contract_id A c0) bs)) b closed /\ properly_closed b closed.
Proof.
  intros Hacc Hi. destruct (accepted_history _ _ _ _ _ _ _ Hacc Hi)
    as (b0 & c1 & t1 & _ & -> & _ & Hv & <-).
  destruct Hv as (_ & Ht & Hc & _). done.
Qed.

(** ** C02: what the codex verified *)
Lemma accepted_verdicts c0 bs c t i b :
  accepted c0 bs c t ->
  history (contract_id A c0) bs !! i = Some b ->
  exists c1 t1, accepted c0 (take i bs) c1 t1 /\
    (is_known A c1 (id_of b) = false ->
     exists v, codex_verify U (codex A c1) (contract_id A c0) (operation b)
                 (memory A c1) (repo A c1) = Ok v).
Proof.
  intros Hacc Hi. destruct (accepted_history _ _ _ _ _ _ _ Hacc Hi)
    as (b0 & c1 & t1 & _ & -> & Hr & Hv & _).
  exists c1, ([CallContractId; CallCodex] ++ t1 ++ [CallRead]).
  split; [by apply valid_run_accepted|]. by destruct Hv as (_ & _ & _ & Hvm).
Qed.

(** ** C04 *)
Lemma uncommitted_rejected c0 pre b post fin c t :
  accepted c0 pre c t ->
  codex_committed A c0 pre b ->
  let b' := seen (contract_id A c0) pre b in
  ~ tokens_committed b' ->
  exists rep def, token_sets b' rep def /\
    evaluate A c0 (pre ++ b :: post) fin =
      (c, t, Some (Err (SealsDefinitionMismatch (id_of b') rep def (def_to_string P <$> defined_seals b')))).
Proof.
  intros Hacc Hc b' Ht. exists (reported_tokens (defined_seals b')), (defined_tokens (operation b')).
  pose proof (token_sets_spec b') as Hs. split; [done|].
  pose proof (fails_tokens (E:=E) A c0 pre c b _ _ Hc Ht Hs) as Hf.
  apply (evaluate_fail_at A c0 pre b post fin c t) in Hf; [|done].
  rewrite Hf. cbn. rewrite app_nil_r. unfold b'. by rewrite seen_defined_seals.
Qed.

(** ** C05 *)
Lemma unspendable_rejected c0 pre b post fin c t a :
  accepted c0 pre c t ->
  codex_committed A c0 pre b ->
  let b' := seen (contract_id A c0) pre b in
  tokens_committed b' ->
  first_unspendable (U:=U) (history (contract_id A c0) pre) b' a ->
  evaluate A c0 (pre ++ b :: post) fin = (c, t, Some (Err (SealUnknown a))).
Proof.
  intros Hacc Hc b' Ht Hu.
  pose proof (fails_unknown (E:=E) A c0 pre c b a Hc Ht Hu) as Hf.
  apply (evaluate_fail_at A c0 pre b post fin c t) in Hf; [|done].
  rewrite Hf. cbn. by rewrite app_nil_r.
Qed.

Lemma SealUnknown_inv c0 bs fin c t a :
  evaluate A c0 bs fin = (c, t, Some (Err (SealUnknown a))) ->
  exists pre b post, bs = pre ++ b :: post /\ accepted c0 pre c t /\
    first_unspendable (U:=U) (history (contract_id A c0) pre) (seen (contract_id A c0) pre b) a.
Proof.
  intros [(_ & x & t' & _ & ? & _)|(pre & b & post & t' & -> & Hr & Hf & ->)]%error_inv; [done|].
  exists pre, b, post. split; [done|]. split.
  - by apply (valid_run_accepted A (E:=E)).
  - by inversion Hf.
Qed.

(** ** C09 *)
Lemma consuming_has_witness c0 bs c t i b :
  accepted c0 bs c t ->
  history (contract_id A c0) bs !! i = Some b ->
  op_destructible_in (operation b) <> [] ->
  exists w, witness b = Some w.
Proof.
  intros Hacc Hi Hne. destruct (accepted_checks _ _ _ _ _ _ Hacc Hi) as (_ & closed & [_ Hf] & Hp).
  unfold Spec.properly_closed in Hp. destruct (witness b) as [w|]; [by eauto|]. subst closed.
  apply Forall2_nil_inv_r in Hf. unfold inputs_of in Hf. by apply fmap_nil_inv in Hf.
Qed.

Lemma no_witness_rejected c0 pre b post fin c t closed :
  accepted c0 pre c t ->
  codex_committed A c0 pre b ->
  let b' := seen (contract_id A c0) pre b in
  tokens_committed b' ->
  spends (history (contract_id A c0) pre) b' closed ->
  vm_accepts A (contract_id A c0) c b' ->
  op_destructible_in (operation b) <> [] ->
  witness b = None ->
  evaluate A c0 (pre ++ b :: post) fin =
    (c, t ++ query_calls A c b', Some (Err (NoWitness (id_of b')))).
Proof.
  intros Hacc Hc b' Ht Hs Hvm Hne Hw.
  assert (inputs_of b <> []) as Hne'. { unfold inputs_of. by intros Hx%fmap_nil_inv. }
  pose proof (fails_no_witness (E:=E) A c0 pre c b closed Hc Ht Hs Hvm Hw Hne') as Hf.
  by apply (evaluate_fail_at A c0 pre b post fin c t) in Hf.
Qed.

Lemma NoWitness_inv c0 bs fin c t o :
  evaluate A c0 bs fin = (c, t, Some (Err (NoWitness o))) ->
  exists pre b post t', bs = pre ++ b :: post /\ accepted c0 pre c t' /\
    o = id_of (seen (contract_id A c0) pre b) /\ witness b = None /\
    op_destructible_in (operation b) <> [].
Proof.
  intros [(_ & x & t' & _ & ? & _)|(pre & b & post & t' & -> & Hr & Hf & ->)]%error_inv; [done|].
  exists pre, b, post, ([CallContractId; CallCodex] ++ t' ++ [CallRead]). split; [done|]. split.
  - by apply (valid_run_accepted A (E:=E)).
  - inversion Hf; subst. split; [done|]. split; [done|]. intros Hx. unfold inputs_of in *.
    rewrite Hx in *. done.
Qed.

(** ** C10 *)
Lemma accepted_closing c0 bs c t i b w :
  accepted c0 bs c t ->
  history (contract_id A c0) bs !! i = Some b ->
  witness b = Some w ->
  exists closed,
    Forall2 (live (take i (history (contract_id A c0) bs)))
            (input_addr <$> op_destructible_in (operation b)) closed /\
    verify_seals_closing P (published w) (client w) closed
      (message_from P (opid_bytes (opid_of U (operation b)))) = Ok tt.
Proof.
  intros Hacc Hi Hw. destruct (accepted_checks _ _ _ _ _ _ Hacc Hi) as (_ & closed & [_ Hf] & Hp).
  unfold Spec.properly_closed in Hp. rewrite Hw in Hp. by exists closed.
Qed.

Lemma not_closed_rejected c0 pre b post fin c t closed w e :
  accepted c0 pre c t ->
  codex_committed A c0 pre b ->
  let b' := seen (contract_id A c0) pre b in
  tokens_committed b' ->
  spends (history (contract_id A c0) pre) b' closed ->
  vm_accepts A (contract_id A c0) c b' ->
  witness b = Some w ->
  verify_seals_closing P (published w) (client w) closed
      (message_from P (opid_bytes (id_of b'))) = Err e ->
  evaluate A c0 (pre ++ b :: post) fin =
    (c, t ++ query_calls A c b', Some (Err (SealsNotClosed (pub_id P (published w)) (id_of b') e))).
Proof.
  intros Hacc Hc b' Ht Hs Hvm Hw Hv.
  pose proof (fails_closing (E:=E) A c0 pre c b closed w e Hc Ht Hs Hvm Hw Hv) as Hf.
  by apply (evaluate_fail_at A c0 pre b post fin c t) in Hf.
Qed.

(** ** C11 *)
Lemma vm_rejected c0 pre b post fin c t closed e :
  accepted c0 pre c t ->
  codex_committed A c0 pre b ->
  let b' := seen (contract_id A c0) pre b in
  tokens_committed b' ->
  spends (history (contract_id A c0) pre) b' closed ->
  is_known A c (id_of b') = false ->
  codex_verify U (codex A c) (contract_id A c0) (operation b') (memory A c) (repo A c) = Err e ->
  evaluate A c0 (pre ++ b :: post) fin =
    (c, t ++ [CallIsKnown (id_of b'); CallCodex; CallMemory; CallRepo], Some (Err (Vm e))).
Proof.
  intros Hacc Hc b' Ht Hs Hk Hv.
  pose proof (fails_vm (E:=E) A c0 pre c b closed e Hc Ht Hs Hk Hv) as Hf.
  apply (evaluate_fail_at A c0 pre b post fin c t) in Hf; [|done]. rewrite Hf.
  cbn. unfold query_calls. fold b'. by rewrite Hk.
Qed.

(** ** C13: nothing is applied before the second entry is read, and what is applied
    after the n-th read is the n-th entry *)
Lemma run_reads c0 bs t c : valid_run A c0 bs t c -> count is_read t = length bs.
Proof. intros H. apply (run_counts A) in H. tauto. Qed.

Lemma applied_after_read c0 bs fin c t r t1 v t2 :
  evaluate A (E:=E) c0 bs fin = (c, t, Some r) ->
  t = t1 ++ CallApplyOperation v :: t2 ->
  exists n b t0, count is_read t1 = S (S n) /\ bs !! S n = Some b /\
    t1 = t0 ++ [CallIsKnown (id_of b); CallCodex; CallMemory; CallRepo] ++ witness_calls b /\
    is_known A (apply_calls A c0 t0) (id_of b) = false /\
    codex_verify U (codex A (apply_calls A c0 t0)) (contract_id A c0) (operation b)
      (memory A (apply_calls A c0 t0)) (repo A (apply_calls A c0 t0)) = Ok v.
Proof.
  intros Hev ->. apply evaluate_iff_outcome in Hev.
  assert (exists bs' t' c', (exists post, bs = bs' ++ post) /\ valid_run A c0 bs' t' c' /\
    exists t2', [CallContractId; CallCodex] ++ t' = t1 ++ CallApplyOperation v :: t2')
    as (bs' & t' & c' & [post ->] & Hr & t2' & Ht).
  { inversion Hev as [t' c' Hr Hfin Hc Ht|t' c' e Hr Hfin Hc Ht|pre b post t' c' e Hbs Hr Hf Hc Ht]; subst.
    - exists bs, t', c. split; [exists []; by rewrite app_nil_r|]. split; [done|].
      change (([CallContractId; CallCodex] ++ t') ++ [CallRead] = t1 ++ CallApplyOperation v :: t2) in Ht.
      apply app_cons_split in Ht as [(k & -> & _)|(k & _ & Hk)]; [by eauto|].
      destruct k as [|? []]; by inversion Hk.
    - exists bs, t', c. split; [exists []; by rewrite app_nil_r|]. split; [done|].
      change (([CallContractId; CallCodex] ++ t') ++ [CallRead] = t1 ++ CallApplyOperation v :: t2) in Ht.
      apply app_cons_split in Ht as [(k & -> & _)|(k & _ & Hk)]; [by eauto|].
      destruct k as [|? []]; by inversion Hk.
    - exists pre, t', c. split; [by eauto|]. split; [done|].
      change (([CallContractId; CallCodex] ++ t') ++ failing_calls A c0 pre c b e = t1 ++ CallApplyOperation v :: t2) in Ht.
      apply app_cons_split in Ht as [(k & -> & _)|(k & _ & Hk)]; [by eauto|].
      exfalso. revert Hk. unfold failing_calls, query_calls. intros Hk.
      assert (CallApplyOperation v ∈ failing_calls A c0 pre c b e) as Hin.
      { unfold failing_calls, query_calls. rewrite Hk. set_solver. }
      unfold failing_calls, query_calls in Hin.
      destruct e; try destruct (is_known A c _); set_solver. }
  apply app_cons_split in Ht as [(k & Hk & _)|(k & -> & Hk)].
  { exfalso. destruct t1 as [|? [|? []]]; by inversion Hk. }
  destruct (run_call_inv _ _ _ _ _ _ _ _ Hr Hk) as (pre & b & rest & t0 & c1 & s1 & s2 & s3 & -> & Hpre & Hv & -> & Hbc & ->).
  apply block_calls_apply in Hbc as (Hne & Hkn & Hvd & ->).
  pose proof (valid_run_contract _ _ _ _ _ Hpre) as Hc1.
  destruct pre as [|b0 pre]; [done|].
  exists (length pre), b, ([CallContractId; CallCodex] ++ t0 ++ [CallRead]).
  split.
  { rewrite !count_app, (run_reads _ _ _ _ Hpre). unfold witness_calls.
    destruct (witness b); cbn; lia. }
  split. { rewrite <-app_assoc. change ((b0 :: pre ++ b :: (rest ++ post)) !! S (length pre) = Some b).
    exact (list_lookup_middle pre (rest ++ post) b (length pre) eq_refl). }
  split. { by rewrite <-!app_assoc. }
  replace (apply_calls A c0 _) with c1; [done|].
  rewrite !apply_calls_app. cbn. unfold apply_calls in Hc1. by rewrite Hc1.
Qed.

(** ** C18: a failing last entry is read, and nothing after it *)
Lemma failing_last c0 bs b c t c' t' (e : VError) :
  accepted c0 bs c t ->
  evaluate A c0 (bs ++ [b]) None = (c', t', Some (Err e)) ->
  c' = c /\ block_fails A c0 bs c b e /\ t' = t ++ failing_queries A c0 bs c b e.
Proof.
  intros Hacc Hev.
  assert (block_fails A c0 bs c b e) as Hf.
  { apply evaluate_ok_iff in Hacc as (u & Hr & _).
    apply error_inv in Hev as [[? _]|(pre & b1 & post & u' & Heq & Hr' & Hf & _)]; [done|].
    pose proof (f_equal length Heq) as Hlen.
    apply app_cons_cases in Heq as [(<- & <- & _)|[[m ->]|[m ->]]].
    - by destruct (valid_run_functional _ _ _ _ _ _ _ Hr Hr') as [_ ->].
    - exfalso. rewrite !app_length in Hlen. cbn in Hlen. lia.
    - exfalso. apply valid_run_at in Hr as (u2 & c2 & Hr2 & Hv & _).
      destruct (valid_run_functional _ _ _ _ _ _ _ Hr2 Hr') as [_ ->].
      by apply valid_not_fails in Hf. }
  pose proof (evaluate_fail_at A c0 bs b [] None c t e Hacc Hf) as Hev'.
  rewrite Hev' in Hev. by injection Hev as <- <-.
Qed.

Lemma failing_queries_inert c0 bs c b (e : VError) :
  count is_read (failing_queries A c0 bs c b e) = 0 /\ mutations (failing_queries A c0 bs c b e) = [].
Proof. unfold failing_queries, query_calls. destruct e; try done; by destruct (is_known A c _). Qed.

(** ** C23 *)
Lemma consumed_seal_bound c0 bs c t j bj a :
  accepted c0 bs c t ->
  history (contract_id A c0) bs !! j = Some bj ->
  consumes bj a ->
  exists i bi d s w closed, i < j /\ history (contract_id A c0) bs !! i = Some bi /\
    cell_opid a = id_of bi /\ defined_seals bi !! cell_pos a = Some d /\
    (to_src P d = Some s \/
     to_src P d = None /\ exists wi, witness bi = Some wi /\ s = resolve P d (pub_id P (published wi))) /\
    witness bj = Some w /\ s ∈ closed /\ witness_closes w closed (message_of bj) = Ok tt.
Proof.
  intros Hacc Hj Ha.
  destruct (consumption A (F:=E) c0 _ _ _ _ _ _ Hacc Hj Ha) as (w & closed & s & Hw & _ & Hl & Hin & Hcl).
  apply live_revealed in Hl as (i & bi & Hi & Hbi & Hid & d & Hd & Hs).
  by exists i, bi, d, s, w, closed.
Qed.

(** ** C28: what holds *)
Lemma consumed_token c0 bs c t j bj a :
  accepted c0 bs c t ->
  history (contract_id A c0) bs !! j = Some bj ->
  consumes bj a ->
  exists i bi d cell, i < j /\ history (contract_id A c0) bs !! i = Some bi /\
    cell_opid a = id_of bi /\ defined_seals bi !! cell_pos a = Some d /\
    cell ∈ op_destructible_out (operation bi) /\ cell_auth cell = auth_token P d.
Proof.
  intros Hacc Hj Ha.
  destruct (consumed_seal_bound _ _ _ _ _ _ _ Hacc Hj Ha) as (i & bi & d & s & w & closed & Hlt & Hi & Hid & Hd & _).
  destruct (accepted_checks _ _ _ _ _ _ Hacc Hi) as [Ht _].
  destruct (Ht _ _ Hd) as (cell & Hc & Hauth). by exists i, bi, d, cell.
Qed.

(** ** C29: what holds *)
Lemma first_harmless c0 b c t :
  records_inert A -> accepted c0 [b] c t -> same_view A c c0.
Proof.
  intros Hin Hacc. pose proof Hacc as Hl. apply evaluate_log in Hl.
  pose proof (accepted_effects_snoc A c0 [] b c t Hacc) as (c1 & t1 & Hnil & _ & ->).
  apply accepted_effects_nil in Hnil as [-> _].
  unfold block_effects, operation_calls. cbn [is_first app].
  destruct Hin as [Hs Hw]. rewrite apply_calls_app.
  assert (forall c' l, same_view A (apply_calls A c' (witness_calls l)) c') as H1.
  { intros c' l. unfold witness_calls. destruct (witness l); [apply Hw|apply same_view_refl]. }
  assert (forall c' l, same_view A (apply_calls A c' (seals_calls l)) c') as H2.
  { intros c' l. unfold seals_calls. case_decide; [apply same_view_refl|apply Hs]. }
  eapply same_view_trans; [apply H2|apply H1].
Qed.

(** ** C34: what holds *)
Lemma witness_recorded c0 bs c t o w :
  accepted c0 bs c t ->
  CallApplyWitness o w ∈ t <->
  exists i b, history (contract_id A c0) bs !! i = Some b /\ id_of b = o /\ witness b = Some w.
Proof.
  intros Hacc. destruct (accepted_ids A _ _ _ _ Hacc) as (_ & Hw & _).
  transitivity ((o, w) ∈ omap witness_record t).
  { rewrite elem_of_list_omap. split.
    - intros H. by exists (CallApplyWitness o w).
    - intros (e & He & Heq). by destruct e; simplify_eq/=. }
  rewrite Hw, elem_of_list_omap. split.
  - intros (b & [i Hi]%elem_of_list_lookup & Heq). exists i, b. split; [done|].
    destruct (witness b); by simplify_eq/=.
  - intros (i & b & Hi & <- & Hwit). exists b. split; [by eapply elem_of_list_lookup_2|].
    by rewrite Hwit.
Qed.

End derived.
