(** * Properties, part 36: what a payer has to check

    C86: C83 among parties which trust nobody.  With the checks of C82 by the readers, whether a payment is accepted
    depends only on what the payer can check, whatever consignments anyone was sent. *)
From Verif Require Import Guard CellFacts LedgerCells EvalFacts Refine Consensus BitcoinChain Derived Scenario
  Counterexamples Properties2 Properties3 Properties5 Properties6 Properties7 Properties27 Properties31 Properties32
  Properties33 Properties34 Properties35.
Notation block := Verif.Concrete.block.

Section payer.
Context {P : SealProtocol} {U : Ultrasonic} (A : ContractApi P U) {E X : Type}.
Context (peek : Contract A -> Slot -> option X) (out : Operation -> Slot -> option X).
Context (gone : Operation -> Slot -> bool).
Notation Block := (OperationSeals P).
Notation View := (SealWitness P -> bool).
Notation id_of := (id_of (U:=U)).
Notation accepts view c0 bs c t :=
  (evaluate_guarded_by A (careful view) c0 bs (None : option E) = (c, t, Some (Ok tt))).

Lemma all_pass_snoc (view : View) bs b :
  bs <> [] ->
  all_pass (careful view) true (bs ++ [b]) = all_pass (careful view) true bs && careful view false b.
Proof.
  intros Hne. generalize true. revert Hne. induction bs as [|b0 bs IH]; intros Hne first; [done|]. cbn [app all_pass].
  destruct (careful view first b0); [|done]. destruct bs as [|b1 bs].
  - cbn [app all_pass]. by destruct (careful view false b).
  - by apply IH.
Qed.

Lemma brought_by_accepted (view : View) (c0 c : Contract A) bs d t :
  contract_id A c = contract_id A c0 ->
  (forall b, head (history (contract_id A c0) bs) = Some b -> is_known A c0 (id_of b) = true) ->
  (forall b, b ∈ bs -> op_immutable_in (operation b) = []) ->
  accepts view c bs d t -> self_contained A c0 (history (contract_id A c0) bs).
Proof.
  intros Hc Hgen Himm Hacc. apply evaluate_guarded_accepts in Hacc as (_ & _ & Hev).
  apply (C85_only_immutables A (E:=E) c0 c bs d t Hc Hev Hgen).
  intros i b a Hi Ha. exfalso.
  assert (exists b0, b0 ∈ bs /\ op_immutable_in (operation b) = op_immutable_in (operation b0)) as (b0 & Hb0 & Heq).
  { destruct bs as [|b1 bs]; [done|]. cbn [history] in Hi. destruct i as [|i].
    - injection Hi as <-. exists b1. split; [left|done].
    - exists b. split; [right; by eapply elem_of_list_lookup_2|done]. }
  rewrite Heq, (Himm b0 Hb0) in Ha. by apply elem_of_nil in Ha.
Qed.

(** ** C86 What a payer has to check

    Payer and payee start from the same contract, which knows its genesis, and evaluate whatever consignments they are
    sent; their readers make the checks of C82.  Operations have no immutable inputs.  The payer accepts the consignment
    [bs], which takes its contract to the state [d], and adds the entry [b]; both see the same of its witnesses on the
    chain.  The payee accepts all of it if and only if the entry passes the checks of the reader, the codex accepts the
    operation in the state [d] unless it is known there, the inputs are distinct cells whose seals are live after [bs],
    and the witness closes these seals over the operation.  *)
Theorem C86_payment (on_chain : SealWitness P -> Prop) (view view' : View) (c0 : Contract A) L l c L' l' c' bs b d t :
  keeps_cells A peek out gone -> remembers A -> faithful U -> needs_inputs A peek -> intact A peek c0 ->
  (forall w, view w = true -> on_chain w) -> (forall w, view' w = true -> on_chain w) ->
  careful_session A (E:=E) view c0 L l c -> careful_session A (E:=E) view' c0 L' l' c' ->
  fair_world (U:=U) on_chain (all_entries (contract_id A c0) (L ++ L' ++ [bs ++ [b]])) ->
  (forall b0, head (history (contract_id A c0) bs) = Some b0 -> is_known A c0 (id_of b0) = true) ->
  (forall b0, b0 ∈ bs ++ [b] -> op_immutable_in (operation b0) = []) ->
  (forall b0 w, b0 ∈ bs ++ [b] -> witness b0 = Some w -> view w = view' w) ->
  bs <> [] -> accepts view c bs d t ->
  (exists d' t', accepts view' c' (bs ++ [b]) d' t') <->
  careful view false b = true /\
  (is_known A d (opid_of U (operation b)) = false ->
     exists v, codex_verify U (codex A d) (contract_id A c0) (operation b) (memory A d) (repo A d) = Ok v) /\
  exists closed, NoDup (input_addr <$> op_destructible_in (operation b)) /\
    Forall2 (live (U:=U) (history (contract_id A c0) bs)) (input_addr <$> op_destructible_in (operation b)) closed /\
    match witness b with
    | Some w => witness_closes w closed (message_from P (opid_bytes (opid_of U (operation b)))) = Ok tt
    | None => closed = []
    end.
Proof.
  intros H1 H2 H3 H4 Hint Hv Hv' Hs Hs' Hfair Hgen Himm Hsame Hne Hacc.
  assert (forall v L0 l0 c1, careful_session A (E:=E) v c0 L0 l0 c1 -> contract_id A c1 = contract_id A c0) as Hcid.
  { intros v L0 l0 c1 H. apply (session_state A (E:=E + Block) peek out gone H1 H2 H3 c0 l0 c1 Hint).
    eapply session_of_session. by apply careful_session_of. }
  pose proof (Hcid _ _ _ _ Hs) as Hc. pose proof (Hcid _ _ _ _ Hs') as Hc'. clear Hcid.
  assert (forall b0, head (history (contract_id A c0) (bs ++ [b])) = Some b0 -> is_known A c0 (id_of b0) = true) as Hgen'.
  { intros b0 Hb0. apply Hgen. by destruct bs. }
  assert ((exists d' t', accepts view' c' (bs ++ [b]) d' t') <-> (exists d' t', accepts view c (bs ++ [b]) d' t')) as ->.
  { split; intros (d' & t' & Hd).
    - pose proof (brought_by_accepted view' c0 c' _ d' t' Hc' Hgen' Himm Hd) as Hself.
      apply (C84_same_view A (E:=E) peek out gone on_chain view view' c0 L l c L' l' c' (bs ++ [b])); try done.
      by exists d', t'.
    - pose proof (brought_by_accepted view c0 c _ d' t' Hc Hgen' Himm Hd) as Hself.
      apply (C84_same_view A (E:=E) peek out gone on_chain view view' c0 L l c L' l' c' (bs ++ [b])); try done.
      by exists d', t'. }
  apply evaluate_guarded_accepts in Hacc as (_ & Hpass & Hacc).
  apply evaluate_ok_iff in Hacc as (u & Hrun & _).
  assert (seen (contract_id A c) bs b = b) as Hseen by (by destruct bs).
  split.
  - intros (d' & u' & Hd). apply evaluate_guarded_accepts in Hd as (_ & Hpass' & Hd).
    rewrite all_pass_snoc in Hpass' by done. apply andb_true_iff in Hpass' as [_ Hb].
    apply evaluate_ok_iff in Hd as (u'' & Hr & _).
    apply valid_run_snoc_inv in Hr as (t1 & c1 & Hr1 & (_ & _ & (closed & [Hnd Hl] & Hcl) & Hvm) & _ & _).
    destruct (valid_run_functional A _ _ _ _ _ _ Hrun Hr1) as [_ <-].
    rewrite Hseen, Hc in *. split; [exact Hb|]. split; [exact Hvm|].
    exists closed. split; [exact Hnd|]. split; [exact Hl|exact Hcl].
  - intros (Hb & Hvm & closed & Hnd & Hl & Hcl). eexists _, _. apply evaluate_guarded_accepts. split; [done|].
    split; [rewrite all_pass_snoc by done; by rewrite Hpass, Hb|].
    apply evaluate_ok_iff. eexists. split; [|done].
    eapply valid_run_snoc; [exact Hrun|]. unfold block_valid. cbv zeta. rewrite Hseen, Hc.
    split; [by intros ->|]. split; [|split; [|exact Hvm]].
    + unfold careful in Hb. apply andb_true_iff in Hb as [[Hp _]%andb_true_iff _].
      apply well_placed_spec in Hp. intros pos def Hdef. destruct (Hp pos def Hdef) as (cell & Hcell & Hauth).
      exists cell. split; [by eapply elem_of_list_lookup_2|exact Hauth].
    + exists closed. split; [split; [exact Hnd|exact Hl]|exact Hcl].
Qed.
End payer.

(** ** With bitcoin seals and the ledger which drops consumed cells. *)
Corollary C86_bitcoin (B : BpCore) (spends : Tx B -> nat -> Outpoint -> Prop)
    (commits : Tx B -> nat -> MmbMessage B -> Prop) (on_chain : Tx B -> Prop)
    (S : Sonic) (E : Type) (view view' : SealWitness (bitcoin B) -> bool) (c0 : TestContract (bitcoin B) S)
    L l c L' l' c' bs b d t :
  let A := spending_ledger (bitcoin B) S in
  let cid := tc_contract_id _ _ c0 in
  let h := all_entries cid (L ++ L' ++ [bs ++ [b]]) in
  sonic_local S -> sonic_needs S -> ledger_intact _ S c0 ->
  (forall w, view w = true -> on_chain (published w)) -> (forall w, view' w = true -> on_chain (published w)) ->
  careful_session A (E:=E) view c0 L l c -> careful_session A (E:=E) view' c0 L' l' c' ->
  closing_spends B spends commits -> one_message B commits -> spent_once B spends on_chain ->
  messages_differ (bitcoin B) -> no_collisions (U:=sonic S) h h ->
  (forall b0, head (history cid bs) = Some b0 -> is_known A c0 (id_of (U:=sonic S) b0) = true) ->
  (forall b0, b0 ∈ bs ++ [b] -> op_immutable_in (operation b0) = []) ->
  (forall b0 w, b0 ∈ bs ++ [b] -> witness b0 = Some w -> view w = view' w) ->
  bs <> [] -> evaluate_guarded_by A (careful view) c bs (None : option E) = (d, t, Some (Ok tt)) ->
  (exists d' t', evaluate_guarded_by A (careful view') c' (bs ++ [b]) (None : option E) = (d', t', Some (Ok tt))) <->
  careful view false b = true /\ vm_accepts A cid d b /\
  exists closed, Spec.spends (U:=sonic S) (history cid bs) b closed /\ properly_closed (U:=sonic S) b closed.
Proof.
  intros A cid h Hlocal Hneeds Hint Hv Hv' Hs Hs' Hcl Hone Hso Hmsg Hcol Hgen Himm Hsame Hne Hacc.
  rewrite (C86_payment A (E:=E) (ledger_peek _ S) outputs inputs_gone (mined B on_chain) view view' c0 L l c L' l' c' bs b d t);
    [|by apply spending_keeps_cells|apply spending_remembers|apply sonic_faithful|by apply spending_needs_inputs
     |by apply ledger_intact_iff|exact Hv|exact Hv'|exact Hs|exact Hs'| |exact Hgen|exact Himm|exact Hsame|exact Hne|exact Hacc].
  - split.
    + intros (G1 & G2 & closed & G3 & G4 & G5). split; [exact G1|]. split; [exact G2|].
      exists closed. split; [split; [exact G3|exact G4]|exact G5].
    + intros (G1 & G2 & closed & [G3 G4] & G5). split; [exact G1|]. split; [exact G2|].
      exists closed. split; [exact G3|]. split; [exact G4|exact G5].
  - split; [intros s; by eapply bitcoin_single_use|intros s; by eapply bitcoin_closed_by_one|done|done].
Qed.

(** *** Concrete case

    The first party of [C84_case], who was sent a double spend and a misplaced definition, pays with operation 5; its
    checks hold, so the second party accepts.  An entry which does not pass the checks of the reader is refused. *)
Lemma wary_result ch c bs r : (wary ch c bs).2 = Some r -> wary ch c bs = ((wary ch c bs).1.1, (wary ch c bs).1.2, Some r).
Proof. destruct (wary ch c bs) as [[d t] r']. cbn [fst snd]. by intros ->. Qed.
Example C86_case :
  (exists d t, wary chain_now wary_35 ([entry_g; entry_1; entry_3] ++ [entry_5]) = (d, t, Some (Ok tt))) /\
  careful (P:=TP) (look_up one_chain) false entry_5 = true /\
  (wary one_chain wary_14 ([entry_g; entry_1; entry_3] ++ [misplaced])).2 = Some (Err (Stream (inr misplaced))).
Proof.
  split; [|split; vm_refl].
  destruct wary_first as [l Hs], wary_second as [l' Hs'].
  assert ((wary one_chain wary_14 [entry_g; entry_1; entry_3]).2 = Some (Ok tt)) as Hr by vm_refl.
  pose proof (wary_result _ _ _ _ Hr) as Hacc. clear Hr.
  destruct (toy_sound_world every_seal one_chain all_defs [] [] one_chain_valid) as (W1 & W2 & W3 & _); [vm_refl|vm_refl|].
  assert (fair_world (U:=TU) (toy_on_chain one_chain) wary_entries) as Hfair.
  { split; [intros s; by apply W1|intros s; by apply W2|exact W3|exact wary_apart]. }
  assert (forall w, look_up one_chain w = true -> toy_on_chain one_chain w) as Hv.
  { intros w Hw. by apply bool_decide_eq_true in Hw. }
  assert (forall w, look_up chain_now w = true -> toy_on_chain one_chain w) as Hv'.
  { intros w Hw. apply bool_decide_eq_true in Hw. unfold toy_on_chain. revert Hw. generalize (published w : ToyTx).
    intros tx Htx. assert (forallb (fun tx => bool_decide (tx ∈ one_chain)) chain_now = true) as Hall by vm_refl.
    rewrite forallb_forall in Hall. apply elem_of_list_In in Htx. specialize (Hall tx Htx).
    by apply bool_decide_eq_true in Hall. }
  assert (forall b0, head (history toy_cid [entry_g; entry_1; entry_3]) = Some b0 ->
    is_known spend_api ledger (id_of (U:=TU) b0) = true) as Hgen.
  { intros b0 Hb0. assert (b0 = Verif.Spec.seen_first toy_cid entry_g) as -> by (by injection Hb0). vm_refl. }
  assert (forall b0, b0 ∈ [entry_g; entry_1; entry_3] ++ [entry_5] -> op_immutable_in (operation b0) = []) as Himm.
  { intros b0 Hb0.
    assert (forallb (fun b => bool_decide (op_immutable_in (operation b) = [])) ([entry_g; entry_1; entry_3] ++ [entry_5])
      = true) as Hall by vm_refl.
    rewrite forallb_forall in Hall. apply elem_of_list_In in Hb0. specialize (Hall b0 Hb0).
    by apply bool_decide_eq_true in Hall. }
  assert (forall (b0 : ToyBlock) w, b0 ∈ [entry_g; entry_1; entry_3] ++ [entry_5] -> witness b0 = Some w ->
    look_up one_chain w = look_up chain_now w) as Hsame.
  { intros b0 w Hb0 Hw.
    assert (forallb (fun b : ToyBlock => match witness b with
        Some w => Bool.eqb (look_up one_chain w) (look_up chain_now w) | None => true end)
      ([entry_g; entry_1; entry_3] ++ [entry_5]) = true) as Hall by vm_refl.
    rewrite forallb_forall in Hall. apply elem_of_list_In in Hb0. specialize (Hall b0 Hb0). rewrite Hw in Hall.
    by apply Bool.eqb_prop in Hall. }
  pose proof (C86_payment spend_api (E:=Empty_set) (ledger_peek TP toy_sonic) outputs inputs_gone
    (toy_on_chain one_chain) (look_up one_chain) (look_up chain_now) ledger wary_sent l wary_14 sent_35 l' wary_35
    [entry_g; entry_1; entry_3] entry_5 _ _ spend_keeps_cells (spending_remembers _ _) (sonic_faithful _)
    spend_needs_inputs spend_intact Hv Hv' Hs Hs' Hfair Hgen Himm Hsame ltac:(intros [=]) Hacc) as Hpay.
  apply Hpay. split; [vm_refl|]. split; [intros _; exists op_5; vm_refl|].
  exists [sealed def_d out_d]. split; [apply NoDup_singleton|]. split; [|hnf; vm_refl].
  constructor; [|constructor]. exists 2, entry_3. split; [reflexivity|]. split.
  - split; [vm_refl|]. exists def_d. split; [vm_refl|]. left. vm_refl.
  - intros [|[|[|j]]] b' Hj Hl; [lia|lia|lia|done].
Qed.

Print Assumptions C86_payment.
Print Assumptions C86_bitcoin.
Print Assumptions C86_case.
