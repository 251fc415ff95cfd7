(** * Transformations of consignments: concealing seals, reordering *)
From Verif Require Export Laws.
From Coq Require Import Lia.

Section transform.
Context {P : SealProtocol} {U : Ultrasonic} (A : ContractApi P U) {E : Type}.

Notation Block := (OperationSeals P).
Notation VError := (VerificationError P U E).
Notation Calls := (list (call P U)).
Notation id_of := (id_of (U:=U)).
Notation reveals := (reveals (U:=U)).
Notation live := (live (U:=U)).
Notation spends := (spends (U:=U)).
Notation message_of := (message_of (U:=U)).
Notation properly_closed := (properly_closed (U:=U)).
Notation same_live := (same_live (U:=U)).
Notation conceals := (conceals (U:=U)).
Notation independent := (independent (U:=U)).

Implicit Types (c : Contract A) (bs pre post : list Block) (b : Block) (t : Calls)
  (fin : option E).

Notation accepted c0 bs c t := (evaluate A (E:=E) c0 bs None = (c, t, Some (Ok tt))).

(** ** C24 *)
Lemma conceals_snoc_inv cid bs b bs2 :
  conceals cid (bs ++ [b]) bs2 ->
  exists bs' b', bs2 = bs' ++ [b'] /\ conceals cid bs bs' /\
    operation b' = operation b /\ witness b' = witness b /\ defined_seals b' ⊆ defined_seals b.
Proof.
  intros [H1 H2]. apply Forall2_app_inv_l in H1 as (bs' & l & H1 & Hl & ->).
  inversion Hl as [|? b' ? ? Hb Hnil]; subst. inversion Hnil; subst.
  exists bs', b'. split; [done|]. split; [|done]. split; [done|].
  intros i j bi bi' bj pos d Hij Hi Hi' Hj. eapply (H2 i j); [done|..].
  - rewrite history_snoc. by apply lookup_app_l_Some.
  - rewrite history_snoc. by apply lookup_app_l_Some.
  - rewrite history_snoc. by apply lookup_app_l_Some.
Qed.

Lemma history_conceals cid bs bs' i b b' :
  conceals cid bs bs' -> history cid bs !! i = Some b -> history cid bs' !! i = Some b' ->
  operation b' = operation b /\ witness b' = witness b /\ defined_seals b' ⊆ defined_seals b.
Proof.
  intros [H _] Hi Hi'. destruct H as [|x x' bs bs' (H1 & H2 & H3) H]; [done|]. destruct i as [|i]; cbn in *.
  - simplify_eq. cbn. by rewrite H1.
  - by eapply Forall2_lookup_lr in H; [|done|done].
Qed.

Lemma conceals_live cid bs b bs' b' a s :
  conceals cid (bs ++ [b]) (bs' ++ [b']) -> length bs = length bs' ->
  consumes b a -> live (history cid bs) a s -> live (history cid bs') a s.
Proof.
  intros Hc Hlen Ha (i & bi & Hi & (Hid & d & Hd & Hs) & Hlater).
  assert (conceals cid bs bs') as Hc'.
  { pose proof Hc as Hx. apply conceals_snoc_inv in Hx as (bs1 & b1 & Heq & Hx & _).
    by apply app_inj_tail in Heq as [-> ->]. }
  assert (is_Some (history cid bs' !! i)) as [bi' Hi'].
  { apply lookup_lt_is_Some. rewrite history_length, <-Hlen. apply lookup_lt_Some in Hi.
    by rewrite history_length in Hi. }
  destruct (history_conceals _ _ _ _ _ _ Hc' Hi Hi') as (Hop & Hw & _).
  exists i, bi'. split; [done|]. split.
  - split; [unfold Spec.id_of in *; by rewrite Hop|]. exists d. rewrite Hw. split; [|done].
    destruct Hc as [_ Hret].
    apply (Hret i (length bs) bi bi' (seen cid bs b) (cell_pos a) d).
    + apply lookup_lt_Some in Hi. by rewrite history_length in Hi.
    + rewrite history_snoc. by apply lookup_app_l_Some.
    + rewrite history_snoc. by apply lookup_app_l_Some.
    + rewrite history_snoc. apply list_lookup_middle. by rewrite history_length.
    + rewrite <-Hid. unfold consumes. rewrite seen_inputs. by destruct a.
    + done.
  - intros j bj' Hij Hj'.
    assert (is_Some (history cid bs !! j)) as [bj Hj].
    { apply lookup_lt_is_Some. rewrite history_length, Hlen. apply lookup_lt_Some in Hj'.
      by rewrite history_length in Hj'. }
    destruct (history_conceals _ _ _ _ _ _ Hc' Hj Hj') as (Hop' & Hw' & Hd').
    destruct (Hlater _ _ Hij Hj) as [Hn1 Hn2]. split.
    + unfold consumes, inputs_of in *. by rewrite Hop'.
    + intros s' (Hid' & d' & Hdd & Hs'). destruct (Hn2 s'). split.
      { unfold Spec.id_of in *. by rewrite Hop' in Hid'. }
      exists d'. rewrite Hw' in Hs'. split; [|done]. by eapply lookup_weaken.
Qed.

Lemma concealment_run c0 bs bs' t c :
  records_inert A -> view_sufficient A ->
  valid_run A c0 bs t c -> conceals (contract_id A c0) bs bs' ->
  exists t' c', valid_run A c0 bs' t' c' /\ same_view A c c' /\
    List.filter (fun e => negb (records_seals e)) (mutations t') =
    List.filter (fun e => negb (records_seals e)) (mutations t).
Proof.
  intros Hinert Hsuff H. revert bs'. induction H as [|bs t c b H IH Hv]; intros bs2 Hc.
  { destruct Hc as [Hc _]. inversion Hc; subst. exists [], c0.
    split; [constructor|]. split; [apply same_view_refl|done]. }
  pose proof Hc as Hc2.
  apply conceals_snoc_inv in Hc2 as (bs' & b' & -> & Hc2 & Hop & Hw & Hd).
  destruct (IH _ Hc2) as (t' & c' & Hr & Hview & Hmut).
  assert (length bs = length bs') as Hlen by (eapply Forall2_length, Hc2).
  assert (is_first bs' = is_first bs) as Hfirst by (by destruct bs, bs').
  set (cid := contract_id A c0) in *.
  assert (operation (seen cid bs' b') = operation (seen cid bs b)) as Hop'.
  { by rewrite !seen_operation, Hfirst, Hop. }
  assert (id_of (seen cid bs' b') = id_of (seen cid bs b)) as Hid by (unfold Spec.id_of; by rewrite Hop').
  assert (is_known A c' (id_of (seen cid bs b)) = is_known A c (id_of (seen cid bs b))) as Hk.
  { destruct Hview as (_ & _ & _ & _ & Hview). by rewrite Hview. }
  assert (vm_verdict A cid c' (seen cid bs' b') = vm_verdict A cid c (seen cid bs b)) as Hvm.
  { rewrite <-(view_verdict A cid c c') by done. unfold vm_verdict. by rewrite Hop'. }
  assert (List.filter (fun e => negb (records_seals e)) (block_effects A c0 bs' c' b') =
          List.filter (fun e => negb (records_seals e)) (block_effects A c0 bs c b)) as Heff.
  { unfold block_effects. fold cid. rewrite !List.filter_app. f_equal; [|f_equal].
    - unfold witness_calls. by rewrite !seen_witness, Hw, Hid.
    - unfold operation_calls. by rewrite Hfirst, Hid, Hk, Hvm.
    - unfold seals_calls. by repeat case_match. }
  exists (t' ++ block_calls A c0 bs' c' b'), (apply_calls A c' (block_effects A c0 bs' c' b')).
  split; [|split].
  - constructor; [done|]. destruct Hv as (H1 & H2 & (closed & [H3 H3'] & H4) & H5). split; [|split; [|split]].
    + rewrite codex_committed_first in *. by rewrite Hfirst, Hop.
    + fold cid in H2 |- *. intros pos d Hpos. rewrite seen_defined_seals in Hpos. rewrite Hop'.
      apply (H2 pos). rewrite seen_defined_seals. by eapply lookup_weaken.
    + exists closed. fold cid in H3, H3', H4 |- *. rewrite !seen_inputs in H3, H3'. split.
      * split; [rewrite seen_inputs; unfold inputs_of in *; by rewrite Hop|].
        rewrite seen_inputs. replace (inputs_of b') with (inputs_of b) by (unfold inputs_of; by rewrite Hop).
        apply Forall2_same_length_lookup in H3' as [Hl3 H3']. apply Forall2_same_length_lookup.
        split; [done|]. intros i a s Ha Hs. eapply conceals_live; [exact Hc|done| |by eapply H3'].
        unfold consumes. by eapply elem_of_list_lookup_2.
      * unfold Spec.properly_closed, Spec.message_of in *. rewrite !seen_witness in *. by rewrite Hw, Hid.
    + fold cid in H5 |- *. unfold vm_accepts. by rewrite Hid, Hk, Hvm.
  - assert (applied (block_effects A c0 bs' c' b') = applied (block_effects A c0 bs c b)) as Happ.
    { assert (forall l : Calls, applied l = applied (List.filter (fun e => negb (records_seals e)) l)) as Hfl.
      { intros l. induction l as [|e l IHl]; [done|]. destruct e; try exact IHl. exact (f_equal (cons _) IHl). }
      by rewrite Hfl, Heff, <-Hfl. }
    eapply same_view_trans; [by apply apply_calls_applied|]. rewrite <-Happ.
    eapply same_view_trans; [by apply (apply_calls_view A Hinert Hsuff _ c')|].
    apply same_view_sym. by apply apply_calls_applied.
  - by rewrite !mutations_app, !mutations_block_calls, !List.filter_app, Hmut, Heff.
Qed.

Lemma concealment c0 bs bs' c t :
  records_inert A -> view_sufficient A ->
  accepted c0 bs c t -> conceals (contract_id A c0) bs bs' ->
  exists c' t', accepted c0 bs' c' t' /\ same_view A c c' /\
    List.filter (fun e => negb (records_seals e)) (mutations t') =
    List.filter (fun e => negb (records_seals e)) (mutations t).
Proof.
  intros Hinert Hsuff (u & Hr & ->)%evaluate_ok_iff Hc.
  destruct (concealment_run _ _ _ _ _ Hinert Hsuff Hr Hc) as (u' & c' & Hr' & Hv & Hm).
  eexists _, _. split; [by apply valid_run_accepted|]. split; [done|].
  rewrite !mutations_app, !List.filter_app, Hm. done.
Qed.

(** ** C27 *)
Lemma swap_live h b1 b2 :
  independent b1 b2 -> same_live ((h ++ [b1]) ++ [b2]) ((h ++ [b2]) ++ [b1]).
Proof.
  intros (Hid & H1 & H2 & H3) a s.
  assert (forall b s', reveals b a s' -> cell_opid a = id_of b) as Hrev by (by intros b s' [? _]).
  rewrite !live_snoc.
  assert (forall s' s'', reveals b1 a s' -> ~ reveals b2 a s'') as Hr12.
  { intros s' s'' R1 R2. apply Hid. by rewrite <-(Hrev _ _ R1), <-(Hrev _ _ R2). }
  assert (forall s', reveals b1 a s' -> ~ consumes b2 a) as Hr1 by (intros s' R1 C2; eapply H3; eauto).
  assert (forall s', reveals b2 a s' -> ~ consumes b1 a) as Hr2 by (intros s' R2 C1; eapply H2; eauto).
  split.
  - intros [R2|[[R1|(L & C1 & R1)] [C2 R2]]].
    + right. split; [by left|]. split; [by eapply Hr2|]. intros s' R1. by eapply Hr12.
    + by left.
    + right. split; [right; done|done].
  - intros [R1|[[R2|(L & C2 & R2)] [C1 R1]]].
    + right. split; [by left|]. split; [by eapply Hr1|]. intros s' R2. by eapply Hr12.
    + by left.
    + right. split; [right; done|done].
Qed.

Lemma independent_spends h b1 b2 closed :
  independent b1 b2 -> spends (h ++ [b1]) b2 closed <-> spends h b2 closed.
Proof.
  intros (Hid & H1 & H2 & H3).
  assert (forall a s, a ∈ inputs_of b2 -> live (h ++ [b1]) a s <-> live h a s) as Hl.
  { intros a s Ha. rewrite live_snoc. split.
    - intros [[R _]|[L _]]; [|done]. exfalso. by apply (H3 a Ha).
    - intros L. right. split; [done|]. split.
      + intros C. by apply (H1 a C).
      + intros s' [R _]. by apply (H3 a Ha). }
  unfold Spec.spends. f_equiv. rewrite !Forall2_same_length_lookup. f_equiv.
  split; intros H i a s Ha Hs; apply Hl; eauto using elem_of_list_lookup_2.
Qed.

Lemma independent_sym b1 b2 : independent b1 b2 -> independent b2 b1.
Proof. intros (H & H1 & H2 & H3). split; [done|]. split; [|done]. intros a Ha Hb. by eapply H1. Qed.

Lemma swap_accepted c0 pre b1 b2 c t c1 t1 :
  known_stay_known A -> pre <> [] -> independent b1 b2 ->
  accepted c0 pre c t ->
  is_known A c (id_of b1) = true -> is_known A c (id_of b2) = true ->
  accepted c0 (pre ++ [b1; b2]) c1 t1 ->
  exists c2 t2, accepted c0 (pre ++ [b2; b1]) c2 t2 /\
    c2 = apply_calls A c (witness_calls b2 ++ seals_calls b2 ++ witness_calls b1 ++ seals_calls b1) /\
    t2 = t ++ CallIsKnown (id_of b2) :: witness_calls b2 ++ seals_calls b2 ++
         CallRead :: CallIsKnown (id_of b1) :: witness_calls b1 ++ seals_calls b1 ++ [CallRead].
Proof.
  intros Hst Hne Hind (u & Hr & ->)%evaluate_ok_iff Hk1 Hk2 (u1 & Hr1 & ->)%evaluate_ok_iff.
  set (cid := contract_id A c0).
  assert (forall bs b, bs <> [] -> seen cid bs b = b) as Hseen by (by intros []).
  assert (forall c' l o, is_known A c' o = true -> applied l = [] -> is_known A (apply_calls A c' l) o = true)
    as Hstay.
  { intros c' l. revert c'. induction l as [|e l IH]; intros c' o Hk Hl; [done|].
    change (apply_calls A c' (e :: l)) with (apply_calls A (apply_call A c' e) l).
    apply IH; [|by destruct e]. destruct Hst as [Hs Hw]. destruct e; cbn; try done; auto. }
  assert (forall bs c' b, bs <> [] -> is_known A c' (id_of b) = true ->
    block_effects A c0 bs c' b = witness_calls b ++ seals_calls b /\
    applied (block_effects A c0 bs c' b) = []) as Heff.
  { intros bs c' b Hbs Hk. unfold block_effects, operation_calls. fold cid. rewrite Hseen, Hk by done.
    destruct (is_first bs); split; try done; unfold witness_calls, seals_calls; rewrite !applied_app;
      repeat case_match; done. }
  replace (pre ++ [b1; b2]) with ((pre ++ [b1]) ++ [b2]) in Hr1 by (by rewrite <-app_assoc).
  apply valid_run_snoc_inv in Hr1 as (u2 & d2 & Hr2 & Hv2 & -> & ->).
  apply valid_run_snoc_inv in Hr2 as (u3 & d3 & Hr3 & Hv1 & -> & ->).
  destruct (valid_run_functional _ _ _ _ _ _ _ Hr Hr3) as [<- <-].
  destruct Hv1 as (Hc1 & Ht1 & (cl1 & Hs1 & Hp1) & _). destruct Hv2 as (Hc2 & Ht2 & (cl2 & Hs2 & Hp2) & _).
  fold cid in Ht1, Hs1, Hp1, Ht2, Hs2, Hp2. rewrite history_snoc in Hs2.
  rewrite !Hseen in * by (by destruct pre).
  apply independent_spends in Hs2; [|done].
  assert (block_valid A c0 pre c b2) as Hv2.
  { split; [by intros ->|]. fold cid. rewrite Hseen by done. split; [done|]. split; [by eauto|].
    intros Hk. congruence. }
  pose proof (valid_run_snoc A c0 _ _ _ _ Hr Hv2) as Hr2.
  destruct (Heff pre c b2 Hne Hk2) as [He2 Ha2].
  assert (is_known A (apply_calls A c (block_effects A c0 pre c b2)) (id_of b1) = true) as Hk1'.
  { by apply Hstay. }
  assert (block_valid A c0 (pre ++ [b2]) (apply_calls A c (block_effects A c0 pre c b2)) b1) as Hv1.
  { split; [by destruct pre|]. fold cid. rewrite history_snoc. rewrite !Hseen by (by destruct pre).
    split; [done|]. split; [|intros Hk; congruence].
    exists cl1. split; [|done]. apply independent_spends; [by apply independent_sym|done]. }
  pose proof (valid_run_snoc A c0 _ _ _ _ Hr2 Hv1) as Hr1. rewrite <-app_assoc in Hr1. cbn in Hr1.
  apply (valid_run_accepted A (E:=E)) in Hr1.
  eexists _, _. split; [exact Hr1|].
  destruct (Heff (pre ++ [b2]) (apply_calls A c (block_effects A c0 pre c b2)) b1) as [He1 _];
    [by destruct pre|done|].
  split; [rewrite He1, He2, <-apply_calls_app; by rewrite <-!app_assoc|].
  unfold block_calls, query_calls. fold cid. rewrite !Hseen by (by destruct pre).
  rewrite Hk2, He2, <-He2, Hk1', He1, He2. rewrite <-!app_assoc. cbn. by rewrite <-!app_assoc.
Qed.

(** Whatever follows the pair, the order does not matter. *)
Lemma swap_future c0 pre b1 b2 c t c1 t1 post fin c3 t3 (r : result VError unit) :
  records_inert A -> view_sufficient A -> pre <> [] -> independent b1 b2 ->
  accepted c0 pre c t ->
  is_known A c (id_of b1) = true -> is_known A c (id_of b2) = true ->
  accepted c0 (pre ++ [b1; b2]) c1 t1 ->
  evaluate A c0 ((pre ++ [b1; b2]) ++ post) fin = (c3, t3, Some r) ->
  exists c4 t4, evaluate A c0 ((pre ++ [b2; b1]) ++ post) fin = (c4, t4, Some r) /\
    same_view A c3 c4 /\ applied t4 = applied t3.
Proof.
  intros Hinert Hsuff Hne Hind Hacc Hk1 Hk2 Hacc1 Hev.
  assert (known_stay_known A) as Hst.
  { split.
    - intros c' o m o' Hk. destruct (proj1 Hinert c' o m) as (_ & _ & _ & _ & Hx). by rewrite Hx.
    - intros c' o w o' Hk. destruct (proj2 Hinert c' o w) as (_ & _ & _ & _ & Hx). by rewrite Hx. }
  destruct (swap_accepted _ _ _ _ _ _ _ _ Hst Hne Hind Hacc Hk1 Hk2 Hacc1) as (c2 & t2 & Hacc2 & Hc2 & Ht2).
  destruct (swap_accepted _ _ _ _ _ _ _ _ Hst Hne (independent_sym _ _ Hind) Hacc Hk2 Hk1 Hacc2)
    as (c1' & t1' & Hacc1' & Hc1 & Ht1).
  rewrite Hacc1 in Hacc1'. injection Hacc1' as <- <-.
  assert (forall x : Block, applied (witness_calls x : Calls) = []) as Hnw.
  { intros x. unfold witness_calls. by case_match. }
  assert (forall x : Block, applied (seals_calls x : Calls) = []) as Hns.
  { intros x. unfold seals_calls. by case_match. }
  assert (same_view A c1 c2) as Hview.
  { rewrite Hc1, Hc2. eapply same_view_trans; [by apply apply_calls_applied|].
    apply same_view_sym. eapply same_view_trans; [by apply apply_calls_applied|].
    rewrite !applied_app, !Hnw, !Hns. apply same_view_refl. }
  destruct (sim_evaluate A A (E:=E) c0 c0 (same_view A) (fun _ => True)) with (pre := pre ++ [b1; b2])
    (pre' := pre ++ [b2; b1])
    (t := t1) (t' := t2) (c := c1) (c' := c2) (post := post) (fin := fin) (c1 := c3) (t1 := t3) (r := r)
    as (s & c4 & -> & Hev' & Hview'); try done.
  - intros x x' b H1 _. split; [destruct H1 as (_ & _ & _ & _ & H1); by rewrite H1|].
    intros _. by apply view_verdict.
  - intros x x' o w H1. by apply (apply_call_view A Hinert Hsuff _ _ (CallApplyWitness o w)).
  - intros x x' o w H1. by apply (apply_call_view A Hinert Hsuff _ _ (CallApplySeals o w)).
  - intros x x' b v y y' _ _ _ _ H1. by apply Hsuff.
  - split; [by destruct pre|]. split; [by destruct pre|].
    replace (pre ++ [b1; b2]) with ((pre ++ [b1]) ++ [b2]) by (by rewrite <-app_assoc).
    replace (pre ++ [b2; b1]) with ((pre ++ [b2]) ++ [b1]) by (by rewrite <-app_assoc).
    rewrite !history_snoc.
    assert (forall bs b, bs <> [] -> seen (contract_id A c0) bs b = b) as Hseen by (by intros []).
    rewrite !Hseen by (by destruct pre). by apply swap_live.
  - by apply list.Forall_forall.
  - exists c4, (t2 ++ s). split; [done|]. split; [done|]. rewrite !applied_app. f_equal.
    rewrite Ht1, Ht2, !applied_app. f_equal.
    assert (forall (x y : Block) o o', applied (CallIsKnown o :: witness_calls x ++ seals_calls x ++
      CallRead :: CallIsKnown o' :: witness_calls y ++ seals_calls y ++ [CallRead] : Calls) = []) as Hno.
    { intros x y o o'. change (applied (witness_calls x ++ seals_calls x ++
        ([CallRead; CallIsKnown o'] ++ witness_calls y ++ seals_calls y ++ [CallRead]) : Calls) = []).
      by rewrite !applied_app, !Hnw, !Hns. }
    by rewrite !Hno.
Qed.

End transform.
