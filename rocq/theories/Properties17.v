(** * Properties, part 17: validation of seals and validation of state

    C66: `evaluate` does two checks which do not depend on each other. *)
From Verif Require Import Split Refine Scenario Counterexamples Properties2.
From Coq Require Import Lia.
Notation block := Verif.Concrete.block.

Section split.
Context {P : SealProtocol} {U : Ultrasonic} (A : ContractApi P U) {E : Type}.
Notation Block := (OperationSeals P).
Notation accepted c0 bs c t := (evaluate A (E:=E) c0 bs None = (c, t, Some (Ok tt))).
Implicit Types (bs : list Block).

(** ** C66 Seals and state are validated independently *)
Theorem C66_split c0 bs :
  records_inert A -> view_sufficient A ->
  (* a consignment is accepted iff its seals are valid, for which the contract does not matter,
     and its operations are valid, for which the seals do not matter *)
  ((exists c t, accepted c0 bs c t) <->
   sealed (U:=U) (contract_id A c0) (codex_id U (codex A c0)) bs /\
   exists vs c', state_run A c0 (operation <$> bs) vs c') /\
  (* the contract then looks as if there were no seals, and the same operations were applied *)
  (forall c t vs c', accepted c0 bs c t -> state_run A c0 (operation <$> bs) vs c' ->
     same_view A c c' /\ applied t = CallApplyOperation <$> vs).
Proof.
  intros H1 H2. split; [split|].
  - intros (c & t & H). apply evaluate_ok_iff in H as (t' & Hrun & _).
    destruct (run_splits A H1 H2 c0 bs t' c Hrun) as (Hs & vs & c' & Hr & _). eauto.
  - intros (Hs & vs & c' & Hr). destruct (split_runs A H1 H2 c0 bs vs c' Hs Hr) as (t & c & Hrun & _).
    exists c. eexists. apply evaluate_ok_iff. eauto.
  - intros c t vs c' H Hr. apply evaluate_ok_iff in H as (t' & Hrun & ->).
    destruct (run_splits A H1 H2 c0 bs t' c Hrun) as (_ & vs1 & c1 & Hr1 & Hv & Ha).
    destruct (state_run_fun A c0 _ vs1 c1 Hr1 vs c' Hr) as [-> ->]. split; [done|].
    rewrite <-Ha. unfold applied. rewrite !filter_app. cbn. by rewrite app_nil_r.
Qed.

(** The check of the seals is an evaluation on a contract that knows everything, whatever its
    memory and its libraries. *)
Theorem C66_seal_checker (cid : ContractId) (k : Codex U) m r bs :
  (exists t, evaluate (seals_only P U cid k m r) (E:=E) tt bs None = (tt, t, Some (Ok tt))) <->
  sealed (U:=U) cid (codex_id U k) bs.
Proof.
  set (Z := seals_only P U cid k m r).
  assert (forall ops, state_run Z tt ops [] tt) as Hall.
  { intros ops. induction ops as [|op ops IH] using rev_ind; [constructor|]. by apply state_run_known. }
  split.
  - intros (t & H). apply evaluate_ok_iff in H as (t' & Hrun & _).
    by apply (run_splits Z (seals_only_inert _ _ _ _ _ _) (seals_only_sufficient _ _ _ _ _ _) tt bs t' tt).
  - intros Hs.
    destruct (split_runs Z (seals_only_inert _ _ _ _ _ _) (seals_only_sufficient _ _ _ _ _ _) tt bs [] tt Hs (Hall _))
      as (t & [] & Hrun & _).
    eexists. apply evaluate_ok_iff. eauto.
Qed.
End split.

(** Operations accepted by one party with some seals, and by any other party with other seals -
    other witnesses, say, because the transactions were replaced, or other definitions revealed -
    are accepted by the first party with the other seals, with the same result. *)
Theorem C66_transplant {P U} (A A' : ContractApi P U) {E E' : Type} c0 c0' bs bs' c t c' t' :
  records_inert A -> view_sufficient A -> records_inert A' -> view_sufficient A' ->
  contract_id A' c0' = contract_id A c0 -> codex_id U (codex A' c0') = codex_id U (codex A c0) ->
  operation <$> bs' = operation <$> bs ->
  evaluate A (E:=E) c0 bs None = (c, t, Some (Ok tt)) ->
  evaluate A' (E:=E') c0' bs' None = (c', t', Some (Ok tt)) ->
  exists d u, evaluate A (E:=E) c0 bs' None = (d, u, Some (Ok tt)) /\ same_view A d c /\ applied u = applied t.
Proof.
  intros H1 H2 H1' H2' Hcid Hk Hops Hacc Hacc'.
  destruct (proj1 (proj1 (C66_split A (E:=E) c0 bs H1 H2)) ltac:(eauto)) as (_ & vs & c1 & Hr).
  destruct (proj1 (proj1 (C66_split A' (E:=E') c0' bs' H1' H2')) ltac:(eauto)) as (Hs & _).
  rewrite Hcid, Hk in Hs. pose proof Hr as Hr'. rewrite <-Hops in Hr'.
  destruct (proj2 (proj1 (C66_split A (E:=E) c0 bs' H1 H2)) ltac:(eauto)) as (d & u & Hd).
  exists d, u. split; [done|].
  destruct (proj2 (C66_split A (E:=E) c0 bs H1 H2) c t vs c1 Hacc Hr) as [Hv ->].
  destruct (proj2 (C66_split A (E:=E) c0 bs' H1 H2) d u vs c1 Hd Hr') as [Hv' ->].
  split; [|done]. eapply same_view_trans; [exact Hv'|]. by apply same_view_sym.
Qed.

(** * Concrete cases *)

(** The transaction of the first transfer was replaced by another one, so the second transfer
    spends another outpoint.  Operations and their ids are as before. *)
Definition tx_1r : ToyTx := tx_of 61 out_a id_1.
Definition tx_2r : ToyTx := MkToyTx (MkTxid [62%N]) [MkOutpoint (MkTxid [61%N]) 0; out_b]
  (<[ 0%N := opid_bytes id_2 ]> {[ 1%N := opid_bytes id_2 ]}).
Definition replaced : list ToyBlock :=
  [entry_g; block op_1 [(0%N, def_w)] (Some (wit tx_1r)); block op_2 [(0%N, def_d)] (Some (wit tx_2r))].
Definition toy_checker : ContractApi TP TU :=
  seals_only TP TU toy_cid (toy_codex : Codex TU) (MkLedgerMemory ∅ ∅) (∅ : gmap N N).
Example C66_case :
  (evaluate toy_checker (E:=Empty_set) tt replaced None).2 = Some (Ok tt) /\
  exists d u, toy_accepts ledger replaced d u /\ same_view toy_api d (toy_after ledger scenario) /\
    applied_ids u = [id_1; id_2].
Proof.
  assert ((evaluate toy_checker (E:=Empty_set) tt replaced None).2 = Some (Ok tt)) as H by vm_refl.
  split; [exact H|].
  destruct (evaluate toy_checker (E:=Empty_set) tt replaced None) as [[[] t'] r] eqn:Hev. cbn in H. subst r.
  destruct (C66_transplant toy_api toy_checker (E:=Empty_set) (E':=Empty_set) ledger tt scenario replaced _ _ _ _
    (ledger_inert TP toy_sonic) (ledger_sufficient TP toy_sonic)
    (seals_only_inert _ _ _ _ _ _) (seals_only_sufficient _ _ _ _ _ _)
    eq_refl eq_refl eq_refl scenario_accepted Hev) as (d & u & Hd & Hv & Ha).
  exists d, u. split; [exact Hd|]. split; [exact Hv|].
  assert (forall l : list (call TP TU), applied_ids l = applied_ids (applied l)) as Hx.
  { intros l. unfold applied_ids, applied. induction l as [|e l IH]; [done|]. cbn. destruct e; cbn; by rewrite IH. }
  rewrite Hx, Ha, <-Hx. vm_refl.
Qed.

(** If only one of the two transactions is replaced, the seals are not closed. *)
Example C66_case_half :
  ~ sealed (U:=TU) toy_cid (codex_id TU toy_codex)
      [entry_g; block op_1 [(0%N, def_w)] (Some (wit tx_1r)); entry_2].
Proof.
  rewrite <-(C66_seal_checker (E:=Empty_set) toy_cid (toy_codex : Codex TU) (MkLedgerMemory ∅ ∅) (∅ : gmap N N)).
  intros [t H]. apply (f_equal snd) in H. revert H. cbn [snd].
  set (r := (evaluate _ _ _ _).2).
  assert (match r with Some (Ok _) => true | _ => false end = false) as Hr by vm_refl.
  intros H. by rewrite H in Hr.
Qed.

Print Assumptions C66_split.
Print Assumptions C66_seal_checker.
Print Assumptions C66_transplant.
