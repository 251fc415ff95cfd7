(** * Properties, part 21: what a consignment has to disclose

    C71: the definitions of seals and the witnesses that may be left out. *)
From Verif Require Import Disclosure Refine Scenario Counterexamples Properties2 Properties17.
From Coq Require Import Lia.
Notation block := Verif.Concrete.block.

Section disclosure.
Context {P : SealProtocol} {U : Ultrasonic} (A : ContractApi P U) {E : Type}.
Notation Block := (OperationSeals P).
Notation accepted c0 bs c t := (evaluate A (E:=E) c0 bs None = (c, t, Some (Ok tt))).
Notation least := (least (P:=P) (U:=U)).
Notation id_of := (id_of (P:=P) (U:=U)).
Implicit Types (bs : list Block).

Lemma reduces_ops bs bs' : reduces bs bs' -> operation <$> bs' = operation <$> bs.
Proof. intros H. induction H as [|b b' bs bs' (H1 & _) _ IH]; [done|]. cbn. by rewrite H1, IH. Qed.
Lemma reduces_refl bs : reduces bs bs.
Proof. induction bs as [|b bs IH]; constructor; [|done]. split; [done|]. split; [done|by left]. Qed.
Lemma trim_reduces cells o (b : Block) :
  operation (trim cells o b) = operation b /\ defined_seals (trim cells o b) ⊆ defined_seals b /\
  (witness (trim cells o b) = witness b \/ witness (trim cells o b) = None).
Proof.
  split; [done|]. split; [apply map_filter_subseteq|]. unfold trim. cbn [witness]. destruct (decide _); [by right|by left].
Qed.
Lemma least_below cid bs : reduces bs (least cid bs).
Proof.
  destruct bs as [|b bs]; [constructor|]. constructor; [apply trim_reduces|].
  generalize (spent (b :: bs)). intros cells. induction bs as [|b' bs IH]; constructor; [apply trim_reduces|done].
Qed.

Lemma history_app_take cid (pre post : list Block) :
  history cid (pre ++ post) = history cid pre ++ drop (length pre) (history cid (pre ++ post)).
Proof.
  rewrite <-(take_drop (length pre) (history cid (pre ++ post))) at 1. by rewrite <-history_take, take_app.
Qed.

(** ** C71 A consignment has to disclose exactly the seals that are spent *)
Theorem C71_exact c0 bs c t :
  records_inert A -> view_sufficient A ->
  accepted c0 bs c t -> NoDup (id_of <$> history (contract_id A c0) bs) ->
  forall bs', reduces bs bs' ->
    (* what is left is accepted iff it contains everything the least consignment does *)
    ((exists c' t', accepted c0 bs' c' t') <-> reduces bs' (least (contract_id A c0) bs)) /\
    (* the result is the same *)
    (forall c' t', accepted c0 bs' c' t' -> same_view A c' c /\ applied t' = applied t).
Proof.
  intros H1 H2 Hacc Hids bs' Hred. set (cid := contract_id A c0).
  destruct (proj1 (proj1 (C66_split A (E:=E) c0 bs H1 H2)) ltac:(eauto)) as (Hs & vs & c1 & Hr).
  pose proof Hr as Hr'. rewrite <-(reduces_ops _ _ Hred) in Hr'.
  apply sealed_index in Hs as [Hs1 Hs2].
  pose proof (history_reduces cid _ _ Hred) as Hredh.
  split.
  - rewrite (least_reduces cid bs bs' Hred), <-(history_reduced _ _ Hredh Hids Hs2).
    rewrite (proj1 (C66_split A (E:=E) c0 bs' H1 H2)), sealed_index. split; [by intros [[_ H] _]|].
    intros H. split; [|eauto]. split; [|exact H].
    intros b' Hb'. destruct (Forall2_lookup_r _ _ _ _ _ Hred Hb') as (b & Hb & -> & _). by apply Hs1.
  - intros c' t' Hacc'.
    destruct (proj2 (C66_split A (E:=E) c0 bs H1 H2) c t vs c1 Hacc Hr) as [Hv ->].
    destruct (proj2 (C66_split A (E:=E) c0 bs' H1 H2) c' t' vs c1 Hacc' Hr') as [Hv' ->].
    split; [|done]. eapply same_view_trans; [exact Hv'|]. by apply same_view_sym.
Qed.

(** So the least consignment is accepted, and nothing can be taken from it. *)
Theorem C71_least c0 bs c t :
  records_inert A -> view_sufficient A ->
  accepted c0 bs c t -> NoDup (id_of <$> history (contract_id A c0) bs) ->
  exists c' t', accepted c0 (least (contract_id A c0) bs) c' t' /\ same_view A c' c /\ applied t' = applied t.
Proof.
  intros H1 H2 Hacc Hids.
  destruct (C71_exact c0 bs c t H1 H2 Hacc Hids _ (least_below (contract_id A c0) bs)) as [Hiff Hsame].
  destruct (proj2 Hiff (reduces_refl _)) as (c' & t' & Hacc'). exists c', t'. split; [done|by apply Hsame].
Qed.

(** If too much is left out, the consignment is refused for the cell whose seal is not known, or for the
    operation whose witness is missing - for no other reason. *)
Theorem C71_error c0 bs c t bs' d u (e : VerificationError P U E) :
  records_inert A -> view_sufficient A ->
  accepted c0 bs c t -> NoDup (id_of <$> history (contract_id A c0) bs) -> reduces bs bs' ->
  evaluate A c0 bs' None = (d, u, Some (Err e)) ->
  (exists a, e = SealUnknown a /\ a ∈ spent bs) \/
  (exists b, e = NoWitness (id_of b) /\ b ∈ history (contract_id A c0) bs /\ inputs_of b <> []).
Proof.
  intros H1 H2 Hacc Hids Hred Herr.
  apply evaluate_ok_iff in Hacc as (t1 & Hrun & ->).
  apply error_inv in Herr as [[Hne _]|(pre' & b' & post' & t' & -> & Hrun' & Hf & _)]; [done|].
  apply Forall2_app_inv_r in Hred as (pre & rest & Hpre & Hrest & ->).
  inversion Hrest as [|b ? post ? (Hop & Hdef & Hwit) Hpost]; subst.
  assert (exists tp cp, valid_run A c0 pre tp cp /\ block_valid A c0 pre cp b) as (tp & cp & Hrunp & Hval).
  { change (b :: post) with ([b] ++ post) in Hrun. rewrite app_assoc in Hrun.
    apply valid_run_app_inv in Hrun as (tq & cq & Hq & _).
    apply valid_run_snoc_inv in Hq as (tp & cp & Hp & Hv & _). eauto. }
  assert (same_view A d cp) as Hview.
  { destruct (run_splits A H1 H2 c0 pre tp cp Hrunp) as (_ & vs & x & Hx & Hvx & _).
    destruct (run_splits A H1 H2 c0 pre' t' d Hrun') as (_ & vs' & x' & Hx' & Hvx' & _).
    rewrite (reduces_ops _ _ Hpre) in Hx'. destruct (state_run_fun A c0 _ vs x Hx vs' x' Hx') as [-> ->].
    eapply same_view_trans; [exact Hvx'|]. by apply same_view_sym. }
  assert (pre' = [] <-> pre = []) as Hnil.
  { split; intros ->; inversion Hpre; done. }
  assert (operation (seen (contract_id A c0) pre' b') = operation (seen (contract_id A c0) pre b)) as Hsop.
  { inversion Hpre; subst; cbn; by rewrite Hop. }
  assert (defined_seals (seen (contract_id A c0) pre' b') ⊆ defined_seals (seen (contract_id A c0) pre b)) as Hsdef.
  { inversion Hpre; subst; exact Hdef. }
  assert (id_of (seen (contract_id A c0) pre' b') = id_of (seen (contract_id A c0) pre b)) as Hsid by (unfold Spec.id_of; by rewrite Hsop).
  assert (inputs_of (seen (contract_id A c0) pre' b') = inputs_of b) as Hsin.
  { unfold inputs_of. rewrite Hsop. by destruct pre. }
  destruct Hval as (Hc & Htok & (closed & Hsp & Hcl) & Hvm).
  assert (tokens_committed (seen (contract_id A c0) pre' b')) as Htok'.
  { intros pos x Hx. rewrite Hsop. apply (Htok pos). by eapply lookup_weaken. }
  assert (codex_committed A c0 pre' b') as Hc'.
  { intros Hn. rewrite Hop. apply Hc. by apply Hnil. }
  assert (forall a, a ∈ inputs_of b -> a ∈ spent (pre ++ b :: post)) as Hspent.
  { intros a Ha. unfold spent. apply elem_of_list_join. exists (inputs_of b). split; [done|].
    apply elem_of_list_fmap. exists b. split; [done|]. apply elem_of_app. right. left. }
  inversion Hf as [Hx|rep def Hx Hx2|a Hx Hx2 Hu|closed' e' Hx Hx2 Hs Hk Hv|closed' w e' Hx Hx2 Hs Hk Hw Hcl'
    |closed' Hx Hx2 Hs Hk Hw Hin]; subst.
  - by destruct Hx.
  - by destruct Hx2.
  - left. exists a. split; [done|]. apply Hspent. destruct Hu as (k & Hu & _). rewrite Hsin in Hu.
    by eapply elem_of_list_lookup_2.
  - exfalso. destruct Hview as (V1 & V2 & V3 & V4 & V5). rewrite V5, Hsid in Hk.
    destruct (Hvm Hk) as (v & Hok). unfold vm_verdict in Hok, Hv. rewrite V2, V3, V4, Hsop in Hv. congruence.
  - exfalso. assert (witness b = Some w) as Hw2 by (destruct Hwit; congruence).
    assert (closed' = closed) as ->.
    { destruct Hs as [_ Hs]. rewrite Hsin in Hs. apply (spends_functional (U:=U) (history (contract_id A c0) pre) (seen (contract_id A c0) pre b)); [|done].
      split; [by destruct Hsp|].
      replace (inputs_of (seen (contract_id A c0) pre b)) with (inputs_of b) by (by destruct pre).
      eapply Forall2_impl; [exact Hs|]. intros a s Hl. cbn in Hl.
      pose proof (history_reduces (contract_id A c0) _ _ Hpre) as Hh.
      assert (NoDup (id_of <$> history (contract_id A c0) pre)) as Hids'.
      { rewrite (history_app_take (contract_id A c0) pre (b :: post)), fmap_app in Hids. by apply list.NoDup_app in Hids as [Hids _]. }
      rewrite <-(take_ge (history (contract_id A c0) pre') (length (history (contract_id A c0) pre'))) in Hl by done.
      apply (live_reduced _ _ Hh Hids') in Hl as [Hl _]. rewrite take_ge in Hl; [done|].
      apply Forall2_length in Hh. lia. }
    assert (witness (seen (contract_id A c0) pre b) = Some w) as Hw3 by (by destruct pre).
    unfold properly_closed in Hcl. rewrite Hw3 in Hcl. unfold message_of in Hcl, Hcl'. rewrite Hsid in Hcl'. congruence.
  - right. exists (seen (contract_id A c0) pre b). split; [by rewrite Hsid|]. split.
    + apply elem_of_list_lookup. exists (length pre).
      rewrite (seen_take (contract_id A c0) (pre ++ b :: post) (length pre) b) by (by apply list_lookup_middle). by rewrite take_app.
    + replace (inputs_of (seen (contract_id A c0) pre b)) with (inputs_of b) by (by destruct pre). unfold inputs_of in *. by rewrite <-Hop.
Qed.
End disclosure.

(** * Concrete cases *)

(** The two transfers with every seal disclosed.  Two definitions are not spent: output 1 of the first
    transfer, and the output of the second one. *)
Definition disclosed : list ToyBlock :=
  [entry_g; block op_1 [(0%N, def_w); (1%N, def_c)] (Some (wit tx_1)); entry_2].
Definition undisclosed : list ToyBlock := [entry_g; entry_1; block op_2 [] (Some (wit tx_2))].

Lemma block_eq (b b' : ToyBlock) :
  operation b = operation b' -> defined_seals b = defined_seals b' -> witness b = witness b' -> b = b'.
Proof. destruct b, b'. cbn. by intros -> -> ->. Qed.

Lemma cons_eq {X} (x y : X) l l' : x = y -> l = l' -> x :: l = y :: l'.
Proof. by intros -> ->. Qed.

Example C71_case :
  least (U:=TU) toy_cid disclosed = undisclosed /\
  exists c t, toy_accepts ledger undisclosed c t /\ same_view toy_api c (toy_after ledger disclosed).
Proof.
  assert (least (U:=TU) toy_cid disclosed = undisclosed) as Hleast.
  { unfold disclosed, undisclosed, least. cbn [fmap list_fmap].
    apply cons_eq; [|apply cons_eq; [|apply cons_eq; [|reflexivity]]]; (apply block_eq; [vm_refl| |vm_refl]);
      apply (bool_decide_unpack _); by vm_compute. }
  split; [exact Hleast|].
  destruct (C71_least toy_api (E:=Empty_set) ledger disclosed (toy_after ledger disclosed) (toy_log ledger disclosed)
    (ledger_inert TP toy_sonic) (ledger_sufficient TP toy_sonic)) as (c & t & H1 & H2 & _).
  - apply toy_evaluate. vm_refl.
  - apply (bool_decide_unpack _). by vm_compute.
  - exists c, t. change (contract_id toy_api ledger) with toy_cid in H1. rewrite Hleast in H1. by split.
Qed.

(** Nothing more can be left out: neither the definition of a seal that is spent, nor the witness of a transfer. *)
Example C71_case_too_little :
  (evaluate toy_api (E:=Empty_set) ledger [entry_g; block op_1 [] (Some (wit tx_1)); entry_2] None).2
    = Some (Err (SealUnknown (MkCellAddr id_1 0))) /\
  (evaluate toy_api (E:=Empty_set) ledger [entry_g; block op_1 [(0%N, def_w)] None; entry_2] None).2
    = Some (Err (NoWitness id_1)).
Proof. split; vm_refl. Qed.

(** An operation without inputs whose cell is sealed by an output of its own witness: the witness may not be
    left out, and if it is the seal is what is reported as missing. *)
Definition op_m : Operation := toy_op toy_cid 71 [] [def_w].
Definition tx_m : ToyTx := tx_of 71 out_d (toy_opid op_m).
Definition op_n : Operation := toy_op toy_cid 72 [MkCellAddr (toy_opid op_m) 0] [def_d].
Definition tx_n : ToyTx := tx_of 72 (MkOutpoint (MkTxid [71%N]) 0) (toy_opid op_n).
Definition entry_n : ToyBlock := block op_n [] (Some (wit tx_n)).
Definition minted (w : option (SealWitness TP)) : list ToyBlock :=
  [block (as_genesis op_g) [] None; block op_m [(0%N, def_w)] w; entry_n].
Example C71_case_minted :
  least (U:=TU) toy_cid (minted (Some (wit tx_m))) = minted (Some (wit tx_m)) /\
  (evaluate toy_api (E:=Empty_set) ledger (minted (Some (wit tx_m))) None).2 = Some (Ok tt) /\
  (evaluate toy_api (E:=Empty_set) ledger (minted None) None).2
    = Some (Err (SealUnknown (MkCellAddr (toy_opid op_m) 0))).
Proof.
  split; [|split; vm_refl].
  unfold minted, least. cbn [fmap list_fmap].
  apply cons_eq; [|apply cons_eq; [|apply cons_eq; [|reflexivity]]]; (apply block_eq; [vm_refl| |vm_refl]);
    apply (bool_decide_unpack _); by vm_compute.
Qed.

(** If the same operation comes twice, it is enough that one of the entries discloses its seals. *)
Definition twice (defs : list (N * WTxoSeal)) : list ToyBlock :=
  [entry_g; block op_g defs None; entry_1; entry_2].
Example C71_ids_needed :
  (evaluate toy_api (E:=Empty_set) ledger (twice [(0%N, def_a); (1%N, def_b)]) None).2 = Some (Ok tt) /\
  (evaluate toy_api (E:=Empty_set) ledger (twice []) None).2 = Some (Ok tt) /\
  reduces (twice [(0%N, def_a); (1%N, def_b)]) (twice []) /\
  ~ reduces (twice []) (least (U:=TU) toy_cid (twice [(0%N, def_a); (1%N, def_b)])).
Proof.
  split; [vm_refl|]. split; [vm_refl|]. split.
  - constructor; [|constructor; [|apply reduces_refl]].
    + split; [done|]. split; [done|by left].
    + split; [done|]. split; [apply map_empty_subseteq|by left].
  - intros H.
    destruct (Forall2_lookup_lr _ _ _ 1 (block op_g [] None)
      (trim (spent (twice [(0%N, def_a); (1%N, def_b)])) id_g (block op_g [(0%N, def_a); (1%N, def_b)] None)) H
      eq_refl eq_refl) as (_ & Hsub & _).
    assert (defined_seals (trim (spent (twice [(0%N, def_a); (1%N, def_b)])) id_g
      (block op_g [(0%N, def_a); (1%N, def_b)] None)) !! 0%N = Some (def_a : SealDef TP)) as Hl by vm_refl.
    apply (lookup_weaken _ _ _ _ Hl) in Hsub. cbn in Hsub. by rewrite lookup_empty in Hsub.
Qed.

Print Assumptions C71_exact.
Print Assumptions C71_least.
Print Assumptions C71_error.
