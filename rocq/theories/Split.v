(** * Validation of seals and validation of state (specification)

    Two notions of validity which together are the acceptance of a consignment (C66):
    [sealed] regards what is reported and published and no contract, [state_run] regards a
    contract and a list of operations and no seals. *)
From Verif Require Export Laws.

Section sealed.
Context {P : SealProtocol} {U : Ultrasonic}.
Notation Block := (OperationSeals P).

(** The entry [b] after the entries [bs], for a contract with id [cid] and codex id [k]: the
    first one carries the codex id; reported tokens are committed; the live seals of the inputs
    are closed. *)
Definition entry_sealed (cid : ContractId) (k : CodexId) (bs : list Block) (b : Block) : Prop :=
  let b' := seen cid bs b in
  (bs = [] -> contract_id_bytes (op_contract_id (operation b)) = codex_id_bytes k) /\
  tokens_committed b' /\
  exists closed, spends (U:=U) (history cid bs) b' closed /\ properly_closed (U:=U) b' closed.

Inductive sealed (cid : ContractId) (k : CodexId) : list Block -> Prop :=
| sealed_nil : sealed cid k []
| sealed_snoc bs b : sealed cid k bs -> entry_sealed cid k bs b -> sealed cid k (bs ++ [b]).

(** Running operations on a contract, without any seals: all must be known, or pass the codex;
    those not known, except the first, are applied.  [vs] lists what was applied. *)
Context (A : ContractApi P U).
Definition op_seen (cid : ContractId) (ops : list Operation) (op : Operation) : Operation :=
  match ops with [] => with_contract_id cid op | _ => op end.

Inductive state_run (c0 : Contract A) : list Operation -> list (VerifiedOperation U) -> Contract A -> Prop :=
| state_run_nil : state_run c0 [] [] c0
| state_run_known ops vs c op :
    state_run c0 ops vs c ->
    is_known A c (opid_of U (op_seen (contract_id A c0) ops op)) = true ->
    state_run c0 (ops ++ [op]) vs c
| state_run_new ops vs c op v :
    state_run c0 ops vs c ->
    is_known A c (opid_of U (op_seen (contract_id A c0) ops op)) = false ->
    codex_verify U (codex A c) (contract_id A c0) (op_seen (contract_id A c0) ops op) (memory A c) (repo A c) = Ok v ->
    state_run c0 (ops ++ [op])
      (match ops with [] => vs | _ => vs ++ [v] end)
      (match ops with [] => c | _ => apply_operation A c v end).
End sealed.

Section facts.
Context {P : SealProtocol} {U : Ultrasonic} (A : ContractApi P U).
Notation Block := (OperationSeals P).
Notation id_of := (id_of (P:=P) (U:=U)).
Implicit Types (bs : list Block) (b : Block).

Lemma sealed_snoc_inv cid k bs b :
  sealed (U:=U) cid k (bs ++ [b]) -> sealed (U:=U) cid k bs /\ entry_sealed (U:=U) cid k bs b.
Proof.
  intros H. inversion H as [H0|bs' b' H1 H2 Heq]; [by destruct bs|].
  apply app_inj_tail in Heq as [-> ->]. done.
Qed.

Lemma op_seen_block cid bs b :
  op_seen cid (operation <$> bs) (operation b) = operation (seen cid bs b).
Proof. by destruct bs. Qed.

Lemma is_first_ops bs {X} (x y : X) :
  (match operation <$> bs with [] => x | _ => y end) = if is_first bs then x else y.
Proof. by destruct bs. Qed.

Hypothesis Hinert : records_inert A.
Hypothesis Hsuff : view_sufficient A.

Lemma effects_view c c' b (l : list (call P U)) :
  same_view A c c' ->
  Forall (fun e => exists v, e = CallApplyOperation v) l ->
  same_view A (apply_calls A c (witness_calls b ++ l ++ seals_calls b)) (apply_calls A c' l).
Proof.
  intros Hs Hl. eapply same_view_trans; [|exact (apply_calls_view A Hinert Hsuff c c' l Hs)].
  eapply same_view_trans; [by apply (apply_calls_applied A Hinert Hsuff)|].
  eapply same_view_trans; [|apply same_view_sym; by apply (apply_calls_applied A Hinert Hsuff)].
  unfold applied. rewrite !filter_app.
  assert (List.filter is_apply (witness_calls (U:=U) b) = []) as -> by (unfold witness_calls; by destruct (witness b)).
  assert (List.filter is_apply (seals_calls (U:=U) b) = []) as -> by (unfold seals_calls; by case_decide).
  rewrite app_nil_r. apply same_view_refl.
Qed.

Lemma run_splits c0 bs t c :
  valid_run A c0 bs t c ->
  sealed (U:=U) (contract_id A c0) (codex_id U (codex A c0)) bs /\
  exists vs c', state_run A c0 (operation <$> bs) vs c' /\ same_view A c c' /\
    applied t = CallApplyOperation <$> vs.
Proof.
  intros H. induction H as [|bs t c b H [IH1 (vs & c' & IH2 & IH3 & IH4)] Hv].
  { split; [constructor|]. exists [], c0. split; [constructor|]. split; [apply same_view_refl|done]. }
  destruct Hv as (H1 & H2 & H3 & H4). split; [constructor; [done|]; by split|].
  unfold vm_accepts in H4. rewrite fmap_app. cbn [fmap list_fmap].
  set (b' := seen (contract_id A c0) bs b) in *.
  assert (applied (block_calls A c0 bs c b) = operation_calls A (contract_id A c0) c (is_first bs) b') as Happ.
  { unfold applied, block_calls, query_calls, block_effects. fold b'. cbn [List.filter is_apply].
    rewrite !filter_app.
    assert (List.filter is_apply (witness_calls (U:=U) b') = []) as -> by (unfold witness_calls; by destruct (witness b')).
    assert (List.filter is_apply (seals_calls (U:=U) b') = []) as -> by (unfold seals_calls; by case_decide).
    rewrite app_nil_r. unfold operation_calls.
    destruct (is_first bs), (is_known A c (id_of b')); cbn [List.filter is_apply app]; try done; by destruct (vm_verdict _ _ _ _). }
  assert (same_view A (apply_calls A c (block_effects A c0 bs c b))
    (apply_calls A c' (operation_calls A (contract_id A c0) c (is_first bs) b'))) as Hview.
  { unfold block_effects. fold b'. apply effects_view; [done|]. unfold operation_calls.
    destruct (is_first bs); [constructor|]. destruct (is_known A c (id_of b')); [constructor|].
    destruct (vm_verdict _ _ _ _) as [v|]; [|constructor]. constructor; [by exists v|constructor]. }
  destruct IH3 as (E1 & E2 & E3 & E4 & E5).
  assert (is_known A c' (id_of b') = is_known A c (id_of b')) as Ek by (symmetry; apply E5).
  unfold applied in *. rewrite filter_app.
  rewrite Happ, IH4. clear Happ. unfold operation_calls in Hview |- *.
  destruct (is_known A c (id_of b')) eqn:Hk.
  - exists vs, c'. split; [|split].
    + apply state_run_known; [done|]. by rewrite op_seen_block.
    + by destruct (is_first bs).
    + destruct (is_first bs); by rewrite app_nil_r.
  - destruct (H4 eq_refl) as [v Hvm]. rewrite Hvm in Hview |- *.
    eexists _, _. split; [|split].
    + eapply (state_run_new A c0 _ vs c' _ v); [done|by rewrite op_seen_block|].
      rewrite op_seen_block, <-E2, <-E3, <-E4. exact Hvm.
    + rewrite is_first_ops. by destruct (is_first bs).
    + rewrite is_first_ops. destruct (is_first bs); [by rewrite app_nil_r|]. by rewrite fmap_app.
Qed.

Lemma split_runs c0 bs vs c' :
  sealed (U:=U) (contract_id A c0) (codex_id U (codex A c0)) bs ->
  state_run A c0 (operation <$> bs) vs c' ->
  exists t c, valid_run A c0 bs t c /\ same_view A c c'.
Proof.
  revert vs c'. induction bs as [|b bs IH] using rev_ind; intros vs c' Hs Hr.
  { exists [], c0. split; [constructor|]. inversion Hr as [|ops ? ? ? _ _ Heq|ops ? ? ? ? _ _ _ Heq]; [apply same_view_refl| |]; by destruct ops. }
  apply sealed_snoc_inv in Hs as [Hs He]. rewrite fmap_app in Hr. cbn [fmap list_fmap] in Hr.
  assert (exists vs1 c1, state_run A c0 (operation <$> bs) vs1 c1 /\
    (is_known A c1 (id_of (seen (contract_id A c0) bs b)) = true /\ c' = c1 \/
     is_known A c1 (id_of (seen (contract_id A c0) bs b)) = false /\
     exists v, vm_verdict A (contract_id A c0) c1 (seen (contract_id A c0) bs b) = Ok v /\
       c' = if is_first bs then c1 else apply_operation A c1 v)) as (vs1 & c1 & Hr1 & Hcase).
  { inversion Hr as [Heq|ops vs1 c1 op H1 Hk Heq|ops vs1 c1 op v H1 Hk Hv Heq].
    - by destruct (operation <$> bs).
    - apply app_inj_tail in Heq as [-> ->]. subst. eexists _, _. split; [exact H1|]. left.
      rewrite op_seen_block in Hk. done.
    - apply app_inj_tail in Heq as [-> ->]. eexists _, _. split; [exact H1|]. right.
      rewrite op_seen_block in Hk, Hv. split; [done|]. exists v. split; [done|]. by rewrite is_first_ops. }
  destruct (IH vs1 c1 Hs Hr1) as (t & c & Hrun & Hview). pose proof Hview as (E1 & E2 & E3 & E4 & E5).
  destruct He as (H1 & H2 & H3). set (b' := seen (contract_id A c0) bs b) in *.
  assert (vm_verdict A (contract_id A c0) c b' = vm_verdict A (contract_id A c0) c1 b') as Ev.
  { unfold vm_verdict. by rewrite E2, E3, E4. }
  eexists _, _. split.
  - eapply valid_run_snoc; [exact Hrun|]. split; [exact H1|]. split; [exact H2|]. split; [exact H3|].
    intros Hk. fold b' in Hk |- *. rewrite Ev. destruct Hcase as [[Hk' _]|(_ & v & Hv & _)]; [rewrite <-E5 in Hk'; congruence|eauto].
  - unfold block_effects. fold b'. eapply same_view_trans.
    { apply effects_view; [exact Hview|]. unfold operation_calls. destruct (is_first bs); [constructor|].
      destruct (is_known A c (id_of b')); [constructor|].
      destruct (vm_verdict _ _ c _) as [v|]; [|constructor]. constructor; [by exists v|constructor]. }
    unfold operation_calls. rewrite E5, Ev. destruct Hcase as [[Hk ->]|(Hk & v & Hv & ->)].
    + rewrite Hk. destruct (is_first bs); apply same_view_refl.
    + rewrite Hk, Hv. destruct (is_first bs); apply same_view_refl.
Qed.

Lemma state_run_fun c0 ops vs c : state_run A c0 ops vs c ->
  forall vs' c', state_run A c0 ops vs' c' -> vs' = vs /\ c' = c.
Proof.
  intros H. induction H as [|ops vs c op H IH Hk|ops vs c op v H IH Hk Hv]; intros vs' c' H'.
  - inversion H' as [|ops ? ? ? _ _ Heq|ops ? ? ? ? _ _ _ Heq]; [done| |]; by destruct ops.
  - inversion H' as [Heq|ops' ? ? ? H1 Hk1 Heq|ops' ? ? ? ? H1 Hk1 Hv1 Heq]; [by destruct ops| |];
      apply app_inj_tail in Heq as [-> ->]; destruct (IH _ _ H1) as [-> ->]; [done|congruence].
  - inversion H' as [Heq|ops' ? ? ? H1 Hk1 Heq|ops' ? ? ? ? H1 Hk1 Hv1 Heq]; [by destruct ops| |];
      apply app_inj_tail in Heq as [-> ->]; destruct (IH _ _ H1) as [-> ->]; [congruence|].
    rewrite Hv in Hv1. injection Hv1 as <-. done.
Qed.
End facts.

(** ** A contract which knows everything: an evaluation on it checks the seals only *)
Definition seals_only (P : SealProtocol) (U : Ultrasonic) (cid : ContractId) (k : Codex U)
    (m : MemoryView U) (r : LibRepo U) : ContractApi P U := {|
  Contract := unit;
  contract_id := fun _ => cid;
  codex := fun _ => k;
  repo := fun _ => r;
  memory := fun _ => m;
  is_known := fun _ _ => true;
  apply_operation := fun c _ => c;
  apply_seals := fun c _ _ => c;
  apply_witness := fun c _ _ => c
|}.
Lemma seals_only_inert P U cid k m r : records_inert (seals_only P U cid k m r).
Proof. split; intros; apply same_view_refl. Qed.
Lemma seals_only_sufficient P U cid k m r : view_sufficient (seals_only P U cid k m r).
Proof. intros c c' v H. exact H. Qed.
