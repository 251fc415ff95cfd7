(** * Consequences of the refinement for single evaluations *)
From Verif Require Export Refine.
From Coq Require Import Lia.

Section runs.
Context {P : SealProtocol} {U : Ultrasonic} (A : ContractApi P U) {E : Type}.

Notation Block := (OperationSeals P).
Notation VError := (VerificationError P U E).
Notation Calls := (list (call P U)).
Notation id_of := (id_of (U:=U)).
Notation reveals := (reveals (U:=U)).
Notation live := (live (U:=U)).
Notation spends := (spends (U:=U)).
Notation message_of := (message_of (U:=U)).
Notation properly_closed := (properly_closed (U:=U)).

Implicit Types (c : Contract A) (bs pre post : list Block) (b : Block) (t : Calls)
  (fin : option E).

(** Success of [evaluate] on a whole consignment. *)
Notation accepted c0 bs c t := (evaluate A (E:=E) c0 bs None = (c, t, Some (Ok tt))).

Lemma accepted_at c0 pre b post c t :
  accepted c0 (pre ++ b :: post) c t ->
  exists c1 t1, valid_run A c0 pre t1 c1 /\ block_valid A c0 pre c1 b.
Proof.
  intros (t' & H & ->)%evaluate_ok_iff. apply valid_run_at in H as (t1 & c1 & H & Hv & _). eauto.
Qed.

Lemma valid_run_accepted c0 bs c t :
  valid_run A c0 bs t c ->
  accepted c0 bs c ([CallContractId; CallCodex] ++ t ++ [CallRead]).
Proof. intros H. apply evaluate_ok_iff. eauto. Qed.

(** The calls other than the read made for a failing entry. *)
Definition failing_queries c0 bs c b (e : VError) : Calls :=
  match e with
  | Vm _ | SealsNotClosed _ _ _ | NoWitness _ => query_calls A c (seen (contract_id A c0) bs b)
  | _ => []
  end.

Lemma evaluate_fail_at c0 pre b post fin c t (e : VError) :
  accepted c0 pre c t ->
  block_fails A c0 pre c b e ->
  evaluate A c0 (pre ++ b :: post) fin =
    (c, t ++ failing_queries c0 pre c b e, Some (Err e)).
Proof.
  intros (t' & H & ->)%evaluate_ok_iff Hf. apply evaluate_iff_outcome.
  replace (([CallContractId; CallCodex] ++ t' ++ [CallRead]) ++ failing_queries c0 pre c b e)
    with ([CallContractId; CallCodex] ++ t' ++ failing_calls A c0 pre c b e)
    by (by rewrite <-!app_assoc).
  by eapply outcome_bad.
Qed.

Lemma accepted_nil c0 : accepted c0 [] c0 [CallContractId; CallCodex; CallRead].
Proof. apply (valid_run_accepted c0 [] c0 []). constructor. Qed.

Lemma accepted_snoc c0 pre b c t :
  accepted c0 pre c t ->
  block_valid A c0 pre c b ->
  accepted c0 (pre ++ [b]) (apply_calls A c (block_effects A c0 pre c b))
    (t ++ query_calls A c (seen (contract_id A c0) pre b) ++ block_effects A c0 pre c b ++ [CallRead]).
Proof.
  intros (t' & H & ->)%evaluate_ok_iff Hv. apply evaluate_ok_iff.
  exists (t' ++ block_calls A c0 pre c b). split; [by constructor|].
  unfold block_calls. rewrite <-!app_assoc. cbn. by rewrite <-!app_assoc.
Qed.

Lemma history_app cid pre b post :
  exists post', history cid (pre ++ b :: post) = history cid pre ++ seen cid pre b :: post' /\
    post' = post.
Proof. destruct pre; cbn; eauto. Qed.

Lemma history_middle cid pre b post :
  history cid (pre ++ b :: post) = history cid pre ++ seen cid pre b :: post.
Proof. by destruct pre. Qed.

Lemma history_length cid bs : length (history cid bs) = length bs.
Proof. by destruct bs. Qed.

(** Each entry of the history of an accepted consignment. *)
Lemma accepted_history c0 bs c t i b' :
  accepted c0 bs c t ->
  history (contract_id A c0) bs !! i = Some b' ->
  exists b c1 t1, bs !! i = Some b /\ b' = seen (contract_id A c0) (take i bs) b /\
    valid_run A c0 (take i bs) t1 c1 /\ block_valid A c0 (take i bs) c1 b /\
    history (contract_id A c0) (take i bs) = take i (history (contract_id A c0) bs).
Proof.
  intros Hacc Hi. assert (i < length bs) as Hlt.
  { apply lookup_lt_Some in Hi. by rewrite history_length in Hi. }
  apply lookup_lt_is_Some in Hlt as [b Hb].
  pose proof (take_drop_middle _ _ _ Hb) as Hsplit.
  rewrite <-Hsplit in Hacc. apply accepted_at in Hacc as (c1 & t1 & Hrun & Hv).
  exists b, c1, t1. split; [done|].
  assert (length (take i bs) = i) as Hlen.
  { rewrite take_length. apply lookup_lt_Some in Hb. lia. }
  assert (history (contract_id A c0) bs =
    history (contract_id A c0) (take i bs) ++ seen (contract_id A c0) (take i bs) b :: drop (S i) bs) as Hh.
  { rewrite <-history_middle. by rewrite Hsplit. }
  split.
  { rewrite Hh in Hi. rewrite list_lookup_middle in Hi by (by rewrite history_length). congruence. }
  split; [done|]. split; [done|].
  rewrite Hh. rewrite take_app_alt; [done|]. by rewrite history_length.
Qed.

(** ** C01 *)
Lemma wrong_codex_rejected c0 b bs fin :
  contract_id_bytes (op_contract_id (operation b)) <> codex_id_bytes (codex_id U (codex A c0)) ->
  evaluate A c0 (b :: bs) fin =
    (c0, [CallContractId; CallCodex; CallRead], Some (Err NoCodexCommitment)).
Proof.
  intros Hne. pose proof (evaluate_fail_at c0 [] b bs fin c0 _ NoCodexCommitment (accepted_nil c0)) as H.
  apply H. constructor. intros Hc. by apply Hne, Hc.
Qed.

Lemma accepted_codex c0 b bs c t :
  accepted c0 (b :: bs) c t ->
  contract_id_bytes (op_contract_id (operation b)) = codex_id_bytes (codex_id U (codex A c0)).
Proof.
  intros H. apply (accepted_at c0 []) in H as (c1 & t1 & _ & Hv). by apply Hv.
Qed.

(** ** Errors at an entry of the stream *)
Lemma error_inv c0 bs fin c t (e : VError) :
  evaluate A c0 bs fin = (c, t, Some (Err e)) ->
  (fin <> None /\ exists x t', fin = Some x /\ e = Stream x /\ valid_run A c0 bs t' c /\
     t = [CallContractId; CallCodex] ++ t' ++ [CallRead]) \/
  exists pre b post t', bs = pre ++ b :: post /\ valid_run A c0 pre t' c /\
    block_fails A c0 pre c b e /\
    t = [CallContractId; CallCodex] ++ t' ++ failing_calls A c0 pre c b e.
Proof.
  intros H. apply evaluate_iff_outcome in H. inversion H; subst.
  - left. split; [done|]. eauto 10.
  - right. eauto 10.
Qed.

Lemma NoCodexCommitment_inv c0 bs fin c t :
  evaluate A c0 bs fin = (c, t, Some (Err NoCodexCommitment)) ->
  exists b bs', bs = b :: bs' /\
   contract_id_bytes (op_contract_id (operation b)) <> codex_id_bytes (codex_id U (codex A c0)).
Proof.
  intros [(_ & x & t' & _ & Heq & _)|(pre & b & post & t' & -> & _ & Hf & _)]%error_inv; [done|].
  inversion Hf as [Hn| | | | |]. unfold codex_committed in Hn. destruct pre as [|b0 pre].
  - exists b, post. split; [done|]. intros Heq. by apply Hn.
  - exfalso. by apply Hn.
Qed.

(** ** C03 *)
Lemma first_has_no_inputs c0 b bs fin i ins :
  contract_id_bytes (op_contract_id (operation b)) = codex_id_bytes (codex_id U (codex A c0)) ->
  tokens_committed b ->
  op_destructible_in (operation b) = i :: ins ->
  evaluate A c0 (b :: bs) fin =
    (c0, [CallContractId; CallCodex; CallRead], Some (Err (SealUnknown (input_addr i)))).
Proof.
  intros Hc Ht Hin.
  pose proof (evaluate_fail_at c0 [] b bs fin c0 _ (SealUnknown (input_addr i)) (accepted_nil c0)) as H.
  apply H. apply fails_unknown; [by intros _|exact Ht|].
  exists 0. unfold inputs_of. cbn. rewrite Hin. cbn. split; [done|]. split.
  - intros [_ [s Hs]]. by apply live_nil in Hs.
  - intros j a' Hj. lia.
Qed.

Lemma accepted_first_no_inputs c0 b bs c t :
  accepted c0 (b :: bs) c t -> op_destructible_in (operation b) = [].
Proof.
  intros H. apply (accepted_at c0 []) in H as (c1 & t1 & _ & (_ & _ & (cl & [_ Hs] & _) & _)).
  cbn in Hs. unfold inputs_of in Hs. cbn in Hs.
  destruct (op_destructible_in (operation b)) as [|i ins]; [done|].
  inversion Hs as [|? ? ? ? Hl]. by apply live_nil in Hl.
Qed.

(** ** C06 *)
Lemma live_before (h : list Block) i j b a s :
  live (take j h) a s -> i < j -> h !! i = Some b -> consumes b a ->
  exists k b' s', i <= k < j /\ h !! k = Some b' /\ reveals b' a s'.
Proof.
  intros (k & b' & Hk & Hr & Hlater) Hij Hi Hc.
  apply lookup_take_Some in Hk as [Hk Hlt].
  exists k, b', s. split; [|done]. split; [|done].
  destruct (decide (k < i)) as [Hki|]; [|lia].
  destruct (Hlater i b Hki) as [Hn _]; [|done]. by rewrite lookup_take.
Qed.

Lemma redefined_between c0 bs c t i j bi bj a :
  accepted c0 bs c t -> i < j ->
  history (contract_id A c0) bs !! i = Some bi ->
  history (contract_id A c0) bs !! j = Some bj ->
  consumes bi a -> consumes bj a ->
  exists k bk s, i <= k < j /\ history (contract_id A c0) bs !! k = Some bk /\ reveals bk a s.
Proof.
  intros Hacc Hij Hi Hj Hci Hcj.
  destruct (accepted_history _ _ _ _ _ _ Hacc Hj) as (b & c1 & t1 & _ & -> & _ & Hv & Hh).
  destruct Hv as (_ & _ & (cl & [_ Hl] & _) & _). rewrite Hh in Hl.
  apply elem_of_list_lookup in Hcj as [n Hn].
  eapply Forall2_lookup_l in Hl as (s & _ & Hs); [|exact Hn].
  by eapply live_before.
Qed.

Lemma inputs_distinct c0 bs c t i b :
  accepted c0 bs c t -> bs !! i = Some b -> NoDup (inputs_of b).
Proof.
  intros Hacc Hi. assert (is_Some (history (contract_id A c0) bs !! i)) as [b' Hb'].
  { apply lookup_lt_is_Some. rewrite history_length. by eapply lookup_lt_Some. }
  destruct (accepted_history _ _ _ _ _ _ Hacc Hb') as (b1 & c1 & t1 & Hb1 & -> & _ & Hv & Hh).
  simplify_eq. destruct Hv as (_ & _ & (cl & [Hnd _] & _) & _). by rewrite seen_inputs in Hnd.
Qed.

(** ** C07 *)
Lemma consumed_once c0 bs c t i j m n bi bj a :
  accepted c0 bs c t ->
  NoDup (id_of <$> history (contract_id A c0) bs) ->
  history (contract_id A c0) bs !! i = Some bi -> inputs_of bi !! m = Some a ->
  history (contract_id A c0) bs !! j = Some bj -> inputs_of bj !! n = Some a ->
  i = j /\ m = n.
Proof.
  intros Hacc Hnd.
  assert (forall i j bi bj a, i < j ->
    history (contract_id A c0) bs !! i = Some bi -> a ∈ inputs_of bi ->
    history (contract_id A c0) bs !! j = Some bj -> a ∈ inputs_of bj -> False) as Hlt.
  { clear i j m n bi bj a. intros i j bi bj a Hij Hi Hm Hj Hn.
    destruct (redefined_between _ _ _ _ _ _ _ _ _ Hacc Hij Hi Hj Hm Hn)
      as (k & bk & s & Hk & Hbk & Hr).
    (* the cell was live before [i], so it had been revealed there too *)
    destruct (accepted_history _ _ _ _ _ _ Hacc Hi) as (b & c1 & t1 & _ & -> & _ & Hv & Hh).
    destruct Hv as (_ & _ & (cl & [_ Hl] & _) & _). rewrite Hh in Hl.
    apply elem_of_list_lookup in Hm as [m Hm].
    eapply Forall2_lookup_l in Hl as (s' & _ & Hs'); [|exact Hm].
    destruct Hs' as (l & bl & Hl & Hrl & _). apply lookup_take_Some in Hl as [Hl Hli].
    destruct Hr as [Hid _], Hrl as [Hid' _].
    assert (l = k); [|lia].
    eapply NoDup_lookup; [exact Hnd| |]; rewrite list_lookup_fmap, ?Hl, ?Hbk; cbn; [done|].
    by rewrite <-Hid, <-Hid'. }
  intros Hi Hm Hj Hn. destruct (decide (i = j)) as [->|Hne].
  - split; [done|]. simplify_eq.
    destruct (accepted_history _ _ _ _ _ _ Hacc Hi) as (b & c1 & t1 & _ & -> & _ & Hv & _).
    destruct Hv as (_ & _ & (cl & [Hnd' _] & _) & _). by eapply NoDup_lookup.
  - exfalso. apply elem_of_list_lookup_2 in Hm, Hn.
    destruct (decide (i < j)).
    + by eapply (Hlt i j).
    + eapply (Hlt j i); [lia|done..].
Qed.

(** ** C08 *)
Lemma no_replay c0 b0 bs c t :
  accepted c0 (b0 :: bs) c t ->
  Forall (fun b => id_of b <> id_of (seen_first (contract_id A c0) b0) /\ inputs_of b <> []) bs ->
  (forall b b', b ∈ bs -> b' ∈ bs -> id_of b = id_of b' -> inputs_of b = inputs_of b') ->
  NoDup (id_of <$> history (contract_id A c0) (b0 :: bs)).
Proof.
  intros Hacc Hall Hinj. rewrite list.Forall_forall in Hall.
  set (h := history (contract_id A c0) (b0 :: bs)) in *.
  assert (forall i b, h !! S i = Some b -> b ∈ bs) as Htail.
  { intros i b Hi. apply (elem_of_list_lookup_2 _ i). exact Hi. }
  (* no entry has the id of an earlier one *)
  assert (forall j i bi bj, i < j -> h !! i = Some bi -> h !! j = Some bj -> id_of bi <> id_of bj) as Hmain.
  { intros j. induction (lt_wf j) as [j _ IH]. intros i bi bj Hij Hi Hj Heq.
    destruct j as [|j]; [lia|].
    destruct (Hall bj (Htail _ _ Hj)) as [Hfirst Hne].
    destruct i as [|i].
    { cbn in Hi. injection Hi as <-. by destruct Hfirst. }
    assert (inputs_of bi = inputs_of bj) as Hins by (by apply Hinj; eauto).
    destruct (inputs_of bj) as [|a ins] eqn:Hbj; [done|].
    assert (a ∈ inputs_of bi) as Hci by (rewrite Hins; left).
    assert (a ∈ inputs_of bj) as Hcj by (rewrite Hbj; left).
    destruct (redefined_between _ _ _ _ _ _ _ _ _ Hacc Hij Hi Hj Hci Hcj)
      as (k & bk & s & Hk & Hbk & Hr). fold h in Hbk.
    destruct (accepted_history _ _ _ _ _ _ Hacc Hi) as (b & c1 & t1 & _ & Hseen & _ & Hv & Hh).
    destruct Hv as (_ & _ & (cl & [_ Hl] & _) & _). rewrite Hh in Hl. rewrite <-Hseen in Hl.
    apply elem_of_list_lookup in Hci as [m Hm].
    eapply Forall2_lookup_l in Hl as (s' & _ & Hs'); [|exact Hm].
    destruct Hs' as (l & bl & Hl & Hrl & _). apply lookup_take_Some in Hl as [Hl Hli].
    fold h in Hl. destruct Hr as [Hid _], Hrl as [Hid' _].
    eapply (IH k); [lia| |exact Hl|exact Hbk|congruence]. lia. }
  apply NoDup_alt. intros i j x Hi Hj.
  rewrite list_lookup_fmap in Hi, Hj.
  destruct (h !! i) as [bi|] eqn:Hbi; [|done]. destruct (h !! j) as [bj|] eqn:Hbj; [|done].
  cbn in Hi, Hj. simplify_eq.
  destruct (decide (i = j)); [done|]. exfalso. destruct (decide (i < j)).
  - by eapply (Hmain j i).
  - eapply (Hmain i j); [|done..|]; [lia|done].
Qed.

(** ** C22 *)
Lemma unresolved_not_consumed c0 bs c t i j bi bj pos d :
  accepted c0 bs c t ->
  history (contract_id A c0) bs !! i = Some bi ->
  defined_seals bi !! pos = Some d -> to_src P d = None -> witness bi = None ->
  history (contract_id A c0) bs !! j = Some bj ->
  consumes bj (MkCellAddr (id_of bi) pos) ->
  exists k bk s, k < j /\ k <> i /\ history (contract_id A c0) bs !! k = Some bk /\
    id_of bk = id_of bi /\ reveals bk (MkCellAddr (id_of bi) pos) s.
Proof.
  intros Hacc Hi Hd Hsrc Hw Hj Hcj.
  destruct (accepted_history _ _ _ _ _ _ Hacc Hj) as (b & c1 & t1 & _ & -> & _ & Hv & Hh).
  destruct Hv as (_ & _ & (cl & [_ Hl] & _) & _). rewrite Hh in Hl.
  apply elem_of_list_lookup in Hcj as [m Hm].
  eapply Forall2_lookup_l in Hl as (s & _ & Hs); [|exact Hm].
  destruct Hs as (k & bk & Hk & Hr & _). apply lookup_take_Some in Hk as [Hk Hkj].
  exists k, bk, s. split; [done|]. split.
  - intros ->. simplify_eq. destruct Hr as (_ & d' & Hd' & Hs). cbn in Hd'. naive_solver.
  - split; [done|]. split; [|done]. symmetry. apply Hr.
Qed.

(** ** C19 *)
Lemma accepted_prefix c0 pre post c t :
  accepted c0 (pre ++ post) c t ->
  exists c1 t1, accepted c0 pre c1 t1 /\ t1 `prefix_of` t.
Proof.
  intros (t' & H & ->)%evaluate_ok_iff. destruct post as [|b post].
  - rewrite app_nil_r in H. exists c, ([CallContractId; CallCodex] ++ t' ++ [CallRead]).
    split; [by apply valid_run_accepted|done].
  - apply valid_run_at in H as (t1 & c1 & H & _ & [t2 ->]).
    exists c1, ([CallContractId; CallCodex] ++ t1 ++ [CallRead]).
    split; [by apply valid_run_accepted|]. unfold block_calls.
    eexists. rewrite <-!app_assoc. cbn. reflexivity.
Qed.

(** ** C16 *)
Lemma failure_prefix c0 bs fin c t (e : VError) :
  evaluate A c0 bs fin = (c, t, Some (Err e)) ->
  exists n t', n <= length bs /\
    accepted c0 (take n bs) c t' /\ t' `prefix_of` t /\
    (forall m c' t'', n < m <= length bs -> ~ accepted c0 (take m bs) c' t'') /\
    mutations t = mutations t'.
Proof.
  intros [(_ & x & t' & -> & -> & H & ->)|(pre & b & post & t' & -> & H & Hf & ->)]%error_inv.
  - exists (length bs), ([CallContractId; CallCodex] ++ t' ++ [CallRead]).
    rewrite firstn_all. split; [done|]. split; [by apply valid_run_accepted|]. split; [done|].
    split; [|done]. intros m. lia.
  - exists (length pre), ([CallContractId; CallCodex] ++ t' ++ [CallRead]).
    rewrite app_length. cbn. split; [lia|]. rewrite take_app. split; [by apply valid_run_accepted|].
    split. { exists (failing_queries c0 pre c b e). cbn. by rewrite <-!app_assoc. }
    split.
    + intros m c' t'' Hm Hacc.
      replace m with (length pre + S (m - length pre - 1)) in Hacc by lia.
      rewrite take_add_app in Hacc by done. cbn in Hacc.
      apply accepted_at in Hacc as (c1 & t1 & H1 & Hv).
      destruct (valid_run_functional _ _ _ _ _ _ _ H H1) as [-> ->]. by eapply valid_not_fails.
    + unfold mutations. rewrite !List.filter_app.
      assert (List.filter is_mutation (failing_calls A c0 pre c b e) = []) as ->; [|done].
      unfold failing_calls, query_calls. destruct e; cbn; try done; by destruct (is_known A c _).
Qed.

End runs.
