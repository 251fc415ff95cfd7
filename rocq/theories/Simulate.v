(** * Simulation between two evaluations *)
From Verif Require Export Effects.
From Coq Require Import Lia.

(** ** Histories with the same live seals *)
Section same_live.
Context {P : SealProtocol} {U : Ultrasonic}.
Notation Block := (OperationSeals P).
Notation id_of := (id_of (U:=U)).
Notation reveals := (reveals (U:=U)).
Notation live := (live (U:=U)).
Notation spends := (spends (U:=U)).

Definition same_live (h h' : list Block) : Prop := forall a s, live h a s <-> live h' a s.

Lemma same_live_snoc h h' b : same_live h h' -> same_live (h ++ [b]) (h' ++ [b]).
Proof. intros H a s. by rewrite !live_snoc, (H a s). Qed.

Lemma spends_live h h' b closed : same_live h h' -> spends h b closed -> spends h' b closed.
Proof.
  intros Hl [Hnd H]. split; [done|]. eapply Forall2_impl; [exact H|]. intros a s. apply Hl.
Qed.

Lemma first_unspendable_live h h' b a :
  same_live h h' -> first_unspendable (U:=U) h b a -> first_unspendable (U:=U) h' b a.
Proof.
  intros Hl (k & Hk & Hn & Hb). exists k. split; [done|]. unfold spendable in *. split.
  - intros [H1 [s Hs]]. apply Hn. split; [done|]. exists s. by apply Hl.
  - intros j a' Hj Ha'. destruct (Hb _ _ Hj Ha') as [H1 [s Hs]]. split; [done|]. exists s. by apply Hl.
Qed.
End same_live.

Section simulate.
Context {P : SealProtocol} {U : Ultrasonic} (A A' : ContractApi P U) {E : Type}.

Notation Block := (OperationSeals P).
Notation VError := (VerificationError P U E).
Notation Calls := (list (call P U)).
Notation id_of := (id_of (U:=U)).
Notation reveals := (reveals (U:=U)).
Notation live := (live (U:=U)).
Notation spends := (spends (U:=U)).
Notation message_of := (message_of (U:=U)).
Notation properly_closed := (properly_closed (U:=U)).
Notation same_live := (same_live (U:=U)).

(** Two contracts at the start; [S] relates the contracts on the way; [Q] holds of the
    entries from now on. *)
Context (c0 : Contract A) (c0' : Contract A') (S : Contract A -> Contract A' -> Prop) (Q : Block -> Prop).
Notation cid := (contract_id A c0).
Hypothesis Hcid : contract_id A' c0' = cid.
Hypothesis Hquery : forall c c' b, S c c' -> Q b ->
  is_known A' c' (id_of b) = is_known A c (id_of b) /\
  (is_known A c (id_of b) = false -> vm_verdict A' cid c' b = vm_verdict A cid c b).
Hypothesis Hwitness : forall c c' o w, S c c' -> S (apply_witness A c o w) (apply_witness A' c' o w).
Hypothesis Hseals : forall c c' o m, S c c' -> S (apply_seals A c o m) (apply_seals A' c' o m).
Hypothesis Happly : forall c1 c1' b v c c', S c1 c1' -> Q b -> is_known A c1 (id_of b) = false ->
  vm_verdict A cid c1 b = Ok v -> S c c' -> S (apply_operation A c v) (apply_operation A' c' v).

(** The prefixes read so far. *)
Definition matching (pre pre' : list Block) : Prop :=
  is_first pre = is_first pre' /\
  (is_first pre = true -> codex_id U (codex A' c0') = codex_id U (codex A c0)) /\
  same_live (history cid pre) (history cid pre').

Lemma matching_snoc pre pre' b : matching pre pre' -> matching (pre ++ [b]) (pre' ++ [b]).
Proof.
  intros (H1 & H2 & H3). split; [by destruct pre, pre'|]. split; [by destruct pre|].
  rewrite !history_snoc. replace (seen cid pre' b) with (seen cid pre b) by (by destruct pre, pre').
  by apply same_live_snoc.
Qed.

Lemma matching_seen pre pre' b : matching pre pre' -> seen cid pre' b = seen cid pre b.
Proof. intros (H1 & _). by destruct pre, pre'. Qed.

Lemma sim_codex pre pre' b :
  matching pre pre' -> codex_committed A c0 pre b <-> codex_committed A' c0' pre' b.
Proof.
  intros (H1 & H2 & _). rewrite !codex_committed_first, <-H1.
  split; intros H Hf; rewrite (H Hf), H2; done.
Qed.

Lemma sim_accepts c c' b :
  S c c' -> Q b -> vm_accepts A cid c b <-> vm_accepts A' cid c' b.
Proof.
  intros HS HQ. destruct (Hquery _ _ _ HS HQ) as [H1 H2]. unfold vm_accepts. rewrite H1.
  split; intros H Hk; destruct (H Hk) as [v Hv]; exists v; rewrite <-?H2 in * by done; done.
Qed.

Lemma sim_valid pre pre' c c' b :
  matching pre pre' -> S c c' -> Q (seen cid pre b) ->
  block_valid A c0 pre c b -> block_valid A' c0' pre' c' b.
Proof.
  intros Hm HS HQ (H1 & H2 & (closed & H3 & H4) & H5).
  unfold block_valid. rewrite Hcid, (matching_seen _ _ _ Hm).
  split; [by apply (sim_codex _ _ _ Hm)|]. split; [done|]. split; [|by eapply sim_accepts].
  exists closed. split; [|done]. eapply spends_live; [|done]. apply Hm.
Qed.

Lemma sim_calls pre pre' c c' b :
  matching pre pre' -> S c c' -> Q (seen cid pre b) ->
  block_effects A' c0' pre' c' b = block_effects A c0 pre c b /\
  block_calls A' c0' pre' c' b = block_calls A c0 pre c b.
Proof.
  intros Hm HS HQ. destruct (Hquery _ _ _ HS HQ) as [H1 H2].
  assert (block_effects A' c0' pre' c' b = block_effects A c0 pre c b) as Heff.
  { unfold block_effects, operation_calls. rewrite Hcid, (matching_seen _ _ _ Hm), H1.
    replace (is_first pre') with (is_first pre) by apply Hm.
    destruct (is_known A c (id_of (seen cid pre b))); [done|]. by rewrite H2. }
  split; [done|]. unfold block_calls, query_calls.
  by rewrite Heff, Hcid, (matching_seen _ _ _ Hm), H1.
Qed.

Lemma sim_effects pre c c' b :
  S c c' -> Q (seen cid pre b) ->
  S (apply_calls A c (block_effects A c0 pre c b)) (apply_calls A' c' (block_effects A c0 pre c b)).
Proof.
  intros HS HQ. unfold block_effects, witness_calls, operation_calls, seals_calls.
  set (b' := seen cid pre b) in *.
  assert (S (apply_calls A c (witness_calls b')) (apply_calls A' c' (witness_calls b'))) as H1.
  { unfold witness_calls. destruct (witness b'); cbn; auto. }
  unfold witness_calls in H1.
  unfold apply_calls in *. rewrite !foldl_app.
  set (c1 := foldl (apply_call A) c _) in *. set (c1' := foldl (apply_call A') c' _) in *.
  clearbody c1 c1'.
  repeat case_match; cbn; eauto.
Qed.

Lemma sim_run pre pre' t t' c c' :
  matching pre pre' -> S c c' ->
  valid_run A c0 pre t c -> valid_run A' c0' pre' t' c' ->
  forall post t1 c1, Forall Q (drop (length pre) (history cid (pre ++ post))) ->
  valid_run A c0 (pre ++ post) t1 c1 ->
  exists s c1', t1 = t ++ s /\ valid_run A' c0' (pre' ++ post) (t' ++ s) c1' /\ S c1 c1' /\
    matching (pre ++ post) (pre' ++ post).
Proof.
  intros Hm HS Hr Hr' post. induction post as [|b post IH] using rev_ind; intros t1 c1 HQ H1.
  - rewrite app_nil_r in H1. destruct (valid_run_functional _ _ _ _ _ _ _ Hr H1) as [-> ->].
    exists [], c'. by rewrite !app_nil_r.
  - rewrite !app_assoc in *.
    apply valid_run_snoc_inv in H1 as (t2 & c2 & H2 & Hv & -> & ->).
    rewrite history_snoc, drop_app_le in HQ by (rewrite history_length, app_length; lia).
    apply Forall_app in HQ as [HQ1 HQ2]. apply Forall_inv in HQ2.
    destruct (IH _ _ HQ1 H2) as (s & c2' & -> & H2' & HS2 & Hm2).
    destruct (sim_calls _ _ _ _ _ Hm2 HS2 HQ2) as [Heff Hcalls].
    exists (s ++ block_calls A c0 (pre ++ post) c2 b),
      (apply_calls A' c2' (block_effects A c0 (pre ++ post) c2 b)).
    split; [by rewrite app_assoc|]. split.
    { rewrite <-Heff, app_assoc, <-Hcalls. constructor; [done|]. by eapply sim_valid. }
    split; [by apply sim_effects|]. by apply matching_snoc.
Qed.

Lemma sim_fails pre pre' c c' b (e : VError) :
  matching pre pre' -> S c c' -> Q (seen cid pre b) ->
  block_fails A c0 pre c b e -> block_fails A' c0' pre' c' b e.
Proof.
  intros Hm HS HQ H.
  pose proof (matching_seen _ _ b Hm) as Hs. rewrite <-Hcid in Hs at 1.
  destruct (Hquery _ _ _ HS HQ) as [Hk Hvm].
  assert (same_live (history cid pre) (history (contract_id A' c0') pre')) as Hl by (rewrite Hcid; apply Hm).
  pose proof (sim_codex _ _ b Hm) as Hc.
  destruct H as [H1|r d H1 H2 H3|a H1 H2 H3|cl e H1 H2 H3 H4 H5|cl w e H1 H2 H3 H4 H5 H6|cl H1 H2 H3 H4 H5 H6].
  - constructor. by rewrite <-Hc.
  - rewrite <-Hs in *. apply fails_tokens; [by rewrite <-Hc|done..].
  - rewrite <-Hs in *. apply fails_unknown; [by rewrite <-Hc|done|].
    eapply first_unspendable_live; done.
  - eapply fails_vm; rewrite ?Hs; [by rewrite <-Hc|done| |by rewrite Hk|by rewrite Hcid, Hvm].
    eapply spends_live; done.
  - rewrite <-Hs. eapply fails_closing; rewrite ?Hs; [by rewrite <-Hc|done| | |done|done].
    { eapply spends_live; done. }
    rewrite Hcid. by eapply sim_accepts.
  - rewrite <-Hs. eapply fails_no_witness; rewrite ?Hs; [by rewrite <-Hc|done| | |done|done].
    { eapply spends_live; done. }
    rewrite Hcid. by eapply sim_accepts.
Qed.

Lemma sim_failing_calls pre pre' c c' b (e : VError) :
  matching pre pre' -> S c c' -> Q (seen cid pre b) ->
  failing_calls A' c0' pre' c' b e = failing_calls A c0 pre c b e.
Proof.
  intros Hm HS HQ. destruct (Hquery _ _ _ HS HQ) as [H1 _]. unfold failing_calls, query_calls.
  by rewrite Hcid, (matching_seen _ _ _ Hm), H1.
Qed.

Lemma prefix_cases {X} (l k pre post : list X) x :
  l ++ k = pre ++ x :: post ->
  (exists m, pre = l ++ m /\ k = m ++ x :: post) \/ (exists m, l = pre ++ x :: m).
Proof.
  intros H. apply app_cons_split in H as [(m & -> & _)|(m & -> & ->)]; eauto.
Qed.

(** The calls made after a prefix start with a read. *)
Lemma run_suffix_read pre post u s c c1 k :
  valid_run A c0 pre u c -> valid_run A c0 (pre ++ post) (u ++ s) c1 ->
  exists s', s ++ CallRead :: k = CallRead :: s'.
Proof.
  intros H1 H2. destruct post as [|b post].
  - rewrite app_nil_r in H2. destruct (valid_run_functional _ _ _ _ _ _ _ H1 H2) as [Heq _].
    assert (s = []) as ->; [|by eauto]. apply (app_inv_head u). by rewrite app_nil_r.
  - apply valid_run_at in H2 as (u' & c' & H2 & _ & [l Hl]).
    destruct (valid_run_functional _ _ _ _ _ _ _ H1 H2) as [<- _].
    rewrite <-app_assoc in Hl. apply app_inv_head in Hl as ->. cbn. eauto.
Qed.

(** The rest of the evaluation is the same from matching prefixes. *)
Lemma sim_evaluate pre pre' t t' c c' post fin c1 t1 (r : result VError unit) :
  matching pre pre' -> S c c' ->
  evaluate A c0 pre None = (c, t, Some (Ok tt : result VError unit)) ->
  evaluate A' c0' pre' None = (c', t', Some (Ok tt : result VError unit)) ->
  Forall Q (drop (length pre) (history cid (pre ++ post))) ->
  evaluate A c0 (pre ++ post) fin = (c1, t1, Some r) ->
  (exists s c1', t1 = t ++ s /\
    evaluate A' c0' (pre' ++ post) fin = (c1', t' ++ s, Some r) /\ S c1 c1').
Proof.
  intros Hm HS (u & Hr & ->)%evaluate_ok_iff (u' & Hr' & ->)%evaluate_ok_iff HQ
    H%evaluate_iff_outcome.
  inversion H as [t2 c2 Hrun Hfin|t2 c2 e Hrun Hfin|pre1 b post1 t2 c2 e Hbs Hrun Hf]; subst.
  - destruct (sim_run _ _ _ _ _ _ Hm HS Hr Hr' _ _ _ HQ Hrun) as (s & c1' & -> & Hrun' & HS1 & _).
    destruct (run_suffix_read _ _ _ _ _ _ [] Hr Hrun) as [s' Hs'].
    exists s', c1'. split; [|split; [|done]].
    { rewrite <-!app_assoc. cbn. rewrite Hs'. done. }
    replace (([CallContractId; CallCodex] ++ u' ++ [CallRead]) ++ s')
      with ([CallContractId; CallCodex] ++ (u' ++ s) ++ [CallRead])
      by (rewrite <-!app_assoc; cbn; by rewrite Hs').
    apply evaluate_iff_outcome. by apply outcome_end.
  - destruct (sim_run _ _ _ _ _ _ Hm HS Hr Hr' _ _ _ HQ Hrun) as (s & c1' & -> & Hrun' & HS1 & _).
    destruct (run_suffix_read _ _ _ _ _ _ [] Hr Hrun) as [s' Hs'].
    exists s', c1'. split; [|split; [|done]].
    { rewrite <-!app_assoc. cbn. rewrite Hs'. done. }
    replace (([CallContractId; CallCodex] ++ u' ++ [CallRead]) ++ s')
      with ([CallContractId; CallCodex] ++ (u' ++ s) ++ [CallRead])
      by (rewrite <-!app_assoc; cbn; by rewrite Hs').
    apply evaluate_iff_outcome. by apply outcome_stream.
  - apply prefix_cases in Hbs as [(m & -> & ->)|[m ->]]; cycle 1.
    { exfalso. apply valid_run_at in Hr as (t3 & c3 & Hr3 & Hv & _).
      destruct (valid_run_functional _ _ _ _ _ _ _ Hrun Hr3) as [<- <-]. by eapply valid_not_fails. }
    rewrite app_assoc, history_middle in HQ.
    rewrite drop_app_le in HQ by (rewrite history_length, app_length; lia).
    apply Forall_app in HQ as [HQ1 HQ2]. apply Forall_inv in HQ2.
    destruct (sim_run _ _ _ _ _ _ Hm HS Hr Hr' _ _ _ HQ1 Hrun) as (s & c1' & -> & Hrun' & HS1 & Hm1).
    unfold failing_calls at 1.
    match goal with |- context [CallRead :: ?k] =>
      destruct (run_suffix_read _ _ _ _ _ _ k Hr Hrun) as [s' Hs'] end.
    exists s', c1'. split; [|split; [|done]].
    { rewrite <-!app_assoc. cbn. rewrite Hs'. done. }
    replace (([CallContractId; CallCodex] ++ u' ++ [CallRead]) ++ s')
      with ([CallContractId; CallCodex] ++ (u' ++ s) ++ failing_calls A' c0' (pre' ++ m) c1' b e).
    2:{ rewrite (sim_failing_calls _ _ _ _ _ _ Hm1 HS1 HQ2).
        rewrite <-!app_assoc; cbn. unfold failing_calls. by rewrite Hs'. }
    apply evaluate_iff_outcome. rewrite app_assoc. eapply outcome_bad; [done|done|].
    by eapply sim_fails.
Qed.

(** From the start. *)
Lemma sim_evaluate_all bs fin c1 t1 (r : result VError unit) :
  S c0 c0' -> codex_id U (codex A' c0') = codex_id U (codex A c0) ->
  Forall Q (history cid bs) ->
  evaluate A c0 bs fin = (c1, t1, Some r) ->
  exists c1', evaluate A' c0' bs fin = (c1', t1, Some r) /\ S c1 c1'.
Proof.
  intros HS Hkid HQ H.
  destruct (sim_evaluate [] [] [CallContractId; CallCodex; CallRead] [CallContractId; CallCodex; CallRead]
    c0 c0' bs fin c1 t1 r) as (s & c1' & -> & H' & HS'); try done.
  eauto.
Qed.

End simulate.
