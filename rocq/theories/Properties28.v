(** * Properties, part 28: no inflation among all parties

    C78: on one chain the cells not consumed, wherever they are known, hold no more than there was at the start. *)
From Verif Require Import CellFacts LedgerCells Refine Effects Consensus Sharing Scenario Counterexamples
  BitcoinChain Derived Properties1 Properties3 Properties5 Properties7 Properties27.
From Coq Require Import Lia.
Notation block := Verif.Concrete.block.
Notation total := Verif.Properties27.total.

Section totals.
Context (amount : StateCell -> N).

(** Each cell of [m] is outweighed by one of [m1] or [m2] at the same address. *)
Lemma total_two (m m1 m2 : gmap CellAddr StateCell) :
  (forall a x, m !! a = Some x ->
     exists y, (m1 !! a = Some y \/ m2 !! a = Some y) /\ (amount x <= amount y)%N) ->
  (total amount m <= total amount m1 + total amount m2)%N.
Proof.
  revert m1 m2. induction m as [|a x m Ha IH] using map_ind; intros m1 m2 Hm.
  { change (total amount ∅) with 0%N. lia. }
  rewrite total_insert by done. destruct (Hm a x) as (y & [Hy|Hy] & Hle); [apply lookup_insert| |].
  - rewrite (total_delete amount m1 a y Hy).
    assert (total amount m <= total amount (delete a m1) + total amount m2)%N; [|lia]. apply IH. intros b z Hz.
    assert (a <> b) as Hne by (intros ->; congruence). rewrite lookup_delete_ne by done. apply Hm.
    by rewrite lookup_insert_ne.
  - rewrite (total_delete amount m2 a y Hy).
    assert (total amount m <= total amount m1 + total amount (delete a m2))%N; [|lia]. apply IH. intros b z Hz.
    assert (a <> b) as Hne by (intros ->; congruence). rewrite lookup_delete_ne by done. apply Hm.
    by rewrite lookup_insert_ne.
Qed.
Lemma total_mono (m m' : gmap CellAddr StateCell) :
  (forall a x, m !! a = Some x -> exists y, m' !! a = Some y /\ (amount x <= amount y)%N) ->
  (total amount m <= total amount m')%N.
Proof.
  intros H. pose proof (total_two m m' ∅) as Hle. change (total amount ∅) with 0%N in Hle. rewrite N.add_0_r in Hle.
  apply Hle. intros a x (y & Hy & Hx)%H. exists y. split; [by left|done].
Qed.

Lemma amounts_app l l' : amounts amount (l ++ l') = (amounts amount l + amounts amount l')%N.
Proof.
  induction l as [|x l IH]; [done|]. change (amounts amount ((x :: l) ++ l')) with (amount x + amounts amount (l ++ l'))%N.
  change (amounts amount (x :: l)) with (amount x + amounts amount l)%N. lia.
Qed.
Lemma found_app m l l' : found amount m (l ++ l') = (found amount m l + found amount m l')%N.
Proof. unfold found. by rewrite omap_app, amounts_app. Qed.
Lemma found_mono m m' l :
  (forall a x, a ∈ l -> m !! a = Some x -> exists y, m' !! a = Some y /\ (amount x <= amount y)%N) ->
  (found amount m l <= found amount m' l)%N.
Proof.
  unfold found. induction l as [|a l IH]; intros H; [done|]. cbn [omap list_omap].
  assert (amounts amount (omap (fun b => m !! b) l) <= amounts amount (omap (fun b => m' !! b) l))%N as Hl.
  { apply IH. intros b x Hb. apply H. by right. }
  destruct (m !! a) as [x|] eqn:Hx.
  - destruct (H a x (elem_of_list_here _ _) Hx) as (y & -> & Hle). unfold amounts in *. cbn. lia.
  - destruct (m' !! a); unfold amounts in *; cbn; lia.
Qed.
End totals.

Section world.
Context {P : SealProtocol} {U : Ultrasonic} (A : ContractApi P U) {E : Type}.
Context (cells : Contract A -> gmap CellAddr StateCell) (amount : StateCell -> N).
Notation Block := (OperationSeals P).
Notation opid := (opid_of U).
Notation ins op := (input_addr <$> op_destructible_in op).

(** Cells come from operations: a cell that is held after an operation was applied was held before, or is an
    output of it, at its position.  Nothing is said on which cells are dropped.  Seals and witnesses leave cells alone, and
    nothing changes the contract id.  (A behaviour of implementations of `ContractApi`, src/verify.rs:90-118.) *)
Record creates_outputs : Prop := {
  creates_operation c v a x : cells (apply_operation A c v) !! a = Some x ->
    (cell_opid a = opid (into_operation U v) /\
     op_destructible_out (into_operation U v) !! N.to_nat (cell_pos a) = Some x) \/ cells c !! a = Some x;
  creates_seals c o s : cells (apply_seals A c o s) = cells c;
  creates_witness c o w : cells (apply_witness A c o w) = cells c;
  creates_id_operation c v : contract_id A (apply_operation A c v) = contract_id A c;
  creates_id_seals c o s : contract_id A (apply_seals A c o s) = contract_id A c;
  creates_id_witness c o w : contract_id A (apply_witness A c o w) = contract_id A c
}.

(** The cell [x] at [a] is an output of [op]. *)
Definition output_of (op : Operation) (a : CellAddr) (x : StateCell) : Prop :=
  cell_opid a = opid op /\ op_destructible_out op !! N.to_nat (cell_pos a) = Some x.

Hypothesis Hcells : creates_outputs.
Hypothesis Hfaith : faithful U.

Lemma log_id c0 l : contract_id A (apply_calls A c0 l) = contract_id A c0.
Proof.
  revert c0. induction l as [|e l IH]; intros c0; [done|].
  change (apply_calls A c0 (e :: l)) with (apply_calls A (apply_call A c0 e) l). rewrite IH.
  destruct e as [ | | | | | |o w|v|o s]; cbn; try done;
    [apply (creates_id_witness Hcells)|apply (creates_id_operation Hcells)|apply (creates_id_seals Hcells)].
Qed.

Lemma log_cells c0 l a x : cells (apply_calls A c0 l) !! a = Some x ->
  cells c0 !! a = Some x \/ exists op, op ∈ applied_operations l /\ output_of op a x.
Proof.
  induction l as [|e l IH] using rev_ind; [by left|]. rewrite apply_calls_app, applied_operations_app.
  set (c := apply_calls A c0 l) in *.
  assert (cells c !! a = Some x -> cells c0 !! a = Some x \/
    exists op, op ∈ applied_operations l ++ applied_operations [e] /\ output_of op a x) as Hold.
  { intros [H|(op & Hop & H)]%IH; [by left|]. right. exists op. split; [|done]. apply elem_of_app. by left. }
  cbn [apply_calls foldl]. destruct e as [ | | | | | |o w|v|o s]; cbn [apply_call]; try exact Hold.
  - by rewrite (creates_witness Hcells).
  - intros [H|H]%(creates_operation Hcells); [|by apply Hold]. right. exists (into_operation U v).
    split; [|done]. apply elem_of_app. right. left.
  - by rewrite (creates_seals Hcells).
Qed.

Lemma session_accepted c0 L l c op :
  session_of A E c0 L l c -> op ∈ applied_operations l -> accepted_in A (E:=E) (contract_id A c0) L op.
Proof.
  intros H. induction H as [|L l c bs fin c' t1 t2 r Hs IH Hev]; intros Hop; [by apply elem_of_nil in Hop|].
  rewrite applied_operations_app, elem_of_app in Hop. destruct Hop as [Hop|Hop].
  - eapply accepted_in_sub; [|by apply IH]. intros x Hx. apply elem_of_app. by left.
  - destruct (applied_in_accepted A Hfaith _ _ _ _ _ _ op Hev) as (pre & b & d & t' & Hp & Hacc & Hb & Hbo).
    { rewrite applied_operations_app, elem_of_app. by left. }
    assert (contract_id A c = contract_id A c0) as Hc.
    { pose proof (session_known A c0 l c (session_of_session A c0 L l c Hs)) as ->. apply log_id. }
    rewrite Hc in Hb.
    exists bs, pre, c, d, t', b. split; [|done]. apply elem_of_app. right. by left.
Qed.

(** ** All cells there ever were

    The outputs of [ops], and the cells of the start; at an address which has both, the one which holds more. *)
Definition outputs (ops : list Operation) : gmap CellAddr StateCell :=
  foldr (fun op m => insert_outputs (opid op) 0 (op_destructible_out op) m) ∅ ops.
Definition world (c0 : Contract A) (ops : list Operation) : gmap CellAddr StateCell :=
  union_with (fun x y => Some (if (amount x <=? amount y)%N then y else x)) (cells c0) (outputs ops).

Lemma outputs_output ops op a x :
  (forall op1 op2, op1 ∈ ops -> op2 ∈ ops -> opid op1 = opid op2 -> op1 = op2) ->
  op ∈ ops -> output_of op a x -> outputs ops !! a = Some x.
Proof.
  intros Hinj Hop [Ha Hx]. induction ops as [|op1 ops IH]; [by apply elem_of_nil in Hop|].
  cbn [outputs foldr]. rewrite insert_outputs_zero. destruct (decide (cell_opid a = opid op1)) as [H1|H1].
  - assert (op1 = op) as ->. { apply Hinj; [left|done|congruence]. } by rewrite Hx.
  - apply elem_of_cons in Hop as [->|Hop]; [done|]. apply IH; [|done]. intros op2 op3 H2 H3. apply Hinj; by right.
Qed.
Lemma outputs_total ops : (total amount (outputs ops) <= amounts amount (ops ≫= op_destructible_out))%N.
Proof.
  induction ops as [|op ops IH]; [done|].
  change (outputs (op :: ops)) with (insert_outputs (opid op) 0 (op_destructible_out op) (outputs ops)).
  pose proof (total_insert_outputs_le amount (opid op) (op_destructible_out op) 0 (outputs ops)).
  rewrite bind_cons, amounts_app. lia.
Qed.
Lemma world_start c0 ops a x :
  cells c0 !! a = Some x -> exists y, world c0 ops !! a = Some y /\ (amount x <= amount y)%N.
Proof.
  intros Hx. unfold world. rewrite lookup_union_with, Hx. destruct (outputs ops !! a) as [z|]; cbn.
  - eexists. split; [done|]. destruct (N.leb_spec (amount x) (amount z)); lia.
  - by exists x.
Qed.
Lemma world_output c0 ops op a x :
  (forall op1 op2, op1 ∈ ops -> op2 ∈ ops -> opid op1 = opid op2 -> op1 = op2) ->
  op ∈ ops -> output_of op a x -> exists y, world c0 ops !! a = Some y /\ (amount x <= amount y)%N.
Proof.
  intros Hinj Hop Hx. unfold world. rewrite lookup_union_with, (outputs_output ops op a x Hinj Hop Hx).
  destruct (cells c0 !! a) as [z|]; cbn.
  - eexists. split; [done|]. destruct (N.leb_spec (amount z) (amount x)); lia.
  - by exists x.
Qed.
Lemma world_total c0 ops :
  (total amount (world c0 ops) <= amounts amount (ops ≫= op_destructible_out) + total amount (cells c0))%N.
Proof.
  etrans; [apply (total_two amount _ (outputs ops) (cells c0))|pose proof (outputs_total ops); lia].
  intros a x. unfold world. rewrite lookup_union_with.
  destruct (cells c0 !! a) as [y|], (outputs ops !! a) as [z|]; cbn; try done; intros [= <-].
  - destruct (_ <=? _)%N; [exists z|exists y]; (split; [|done]); [by left|by right].
  - exists y. split; [by right|done].
  - exists z. split; [by left|done].
Qed.

(** What holds of the operations [ops] applied by all parties together. *)
Lemma world_bound c0 ops (u : gmap CellAddr StateCell) :
  NoDup ops ->
  (forall op, op ∈ ops -> NoDup (ins op) /\
     (amounts amount (op_destructible_out op) <= found amount (world c0 ops) (ins op))%N) ->
  (forall op op' a, op ∈ ops -> op' ∈ ops -> a ∈ ins op -> a ∈ ins op' -> op = op') ->
  (forall a x, u !! a = Some x ->
     (exists y, world c0 ops !! a = Some y /\ (amount x <= amount y)%N) /\ forall op, op ∈ ops -> a ∉ ins op) ->
  (total amount u <= total amount (cells c0))%N.
Proof.
  intros Hnd Hops Hdis Hu.
  assert (Forall (fun op => NoDup (ins op)) ops) as Hn.
  { apply list.Forall_forall. intros op Hop. apply (Hops op Hop). }
  set (w := world c0 ops) in *.
  assert (NoDup (ops ≫= fun op => ins op)) as Hall.
  { clear -Hnd Hdis Hn. induction ops as [|op ops IH]; [apply NoDup_nil_2|].
    apply list.NoDup_cons in Hnd as [Hop Hnd]. apply list.Forall_cons in Hn as [Ho Hn]. rewrite bind_cons. apply NoDup_app.
    split; [done|]. split.
    - intros a Ha Ha'. apply elem_of_list_bind in Ha' as (op' & Ha' & Hop').
      assert (op = op') as <-; [|done]. apply (Hdis op op' a); [left|by right|done|done].
    - apply IH; [done| |done]. intros op1 op2 a H1 H2. apply Hdis; by right. }
  pose proof (total_delete_all amount w _ Hall) as Ht.
  assert (total amount u <= total amount (foldr delete w (ops ≫= fun op => ins op)))%N as Hle.
  { apply total_mono. intros a x Hx. apply Hu in Hx as [Hx Hno]. rewrite lookup_delete_all.
    rewrite decide_False; [done|]. intros (op & Ha & Hop)%elem_of_list_bind. by apply (Hno op). }
  pose proof (world_total c0 ops) as Hw. fold w in Hw.
  assert (amounts amount (ops ≫= op_destructible_out) <= found amount w (ops ≫= fun op => ins op))%N as Hf; [|lia].
  clearbody w. clear -Hops. induction ops as [|op ops IH]; [cbn; lia|]. rewrite !bind_cons, found_app, amounts_app.
  pose proof (proj2 (Hops op (elem_of_list_here _ _))).
  assert (amounts amount (ops ≫= op_destructible_out) <= found amount w (ops ≫= fun op => ins op))%N; [|lia].
  apply IH. intros op' Hop'. apply Hops. by right.
Qed.

(** ** C78 No inflation among all parties

    Any number of parties start with the same contract, and evaluate whatever consignments they get, in whatever
    order, to the end or not; all witnesses are on one chain.  Take any cells, each of which is held at the start or is
    an output of an operation applied by one of the parties, and none of which is consumed by an operation that
    one of the parties has applied: they hold no more than there was at the start. *)
Theorem C78_no_inflation (on_chain : SealWitness P -> Prop) (c0 : Contract A)
    (parties : list (list (list Block) * list (call P U) * Contract A)) (u : gmap CellAddr StateCell) :
  covered A cells amount ->
  (forall L l c, (L, l, c) ∈ parties -> session_of A E c0 L l c) ->
  on_one_chain (U:=U) on_chain (all_entries (contract_id A c0) (parties ≫= fun p => p.1.1)) ->
  (forall a x, u !! a = Some x ->
     (cells c0 !! a = Some x \/
      exists p op, p ∈ parties /\ op ∈ applied_operations p.1.2 /\ output_of op a x) /\
     forall p op, p ∈ parties -> op ∈ applied_operations p.1.2 -> a ∉ ins op) ->
  (total amount u <= total amount (cells c0))%N.
Proof.
  intros Hcov Hpart Hch Hu.
  set (all := parties ≫= fun p => applied_operations p.1.2). set (ops := remove_dups all).
  assert (forall op, op ∈ ops <-> exists p, p ∈ parties /\ op ∈ applied_operations p.1.2) as Hops.
  { intros op. unfold ops, all. rewrite elem_of_remove_dups, elem_of_list_bind. naive_solver. }
  assert (forall op, op ∈ ops -> accepted_in A (E:=E) (contract_id A c0) (parties ≫= fun p => p.1.1) op) as Hacc.
  { intros op ([[L l] c] & Hp & Hop)%Hops. eapply accepted_in_sub; [|eapply session_accepted; [by apply Hpart|done]].
    intros x Hx. apply elem_of_list_bind. by exists (L, l, c). }
  assert (forall op op', op ∈ ops -> op' ∈ ops -> opid op = opid op' -> op = op') as Hinj.
  { intros op op' Hop Hop'.
    exact (accepted_ids_apart A (E:=E) on_chain _ _ ops Hch Hacc op op' Hop Hop'). }
  assert (forall op, op ∈ ops -> exists L l c l1 v l2, (L, l, c) ∈ parties /\ l = l1 ++ CallApplyOperation v :: l2 /\
    into_operation U v = op) as Hat.
  { intros op ([[L l] c] & Hp & Hop)%Hops. cbn in Hop. apply elem_of_list_omap in Hop as (e & He & Heq).
    destruct e as [ | | | | | | |v|]; try done. cbn in Heq. injection Heq as <-.
    apply elem_of_list_split in He as (l1 & l2 & ->). by exists L, (l1 ++ CallApplyOperation v :: l2), c, l1, v, l2. }
  apply (world_bound c0 ops u).
  - apply NoDup_remove_dups.
  - intros op Hop. pose proof (Hat op Hop) as (L & l & c & l1 & v & l2 & Hp & -> & <-).
    pose proof (session_of_session A c0 _ _ _ (Hpart _ _ _ Hp)) as Hs.
    destruct (session_fair A cells Hfaith (creates_witness Hcells) _ _ _ Hs) as [Hf _].
    destruct (Hf l1 v l2 eq_refl) as (_ & Hnd & c1 & cid & v' & Hc1 & Hv). split; [done|].
    etrans; [exact (Hcov _ _ _ _ Hv)|]. rewrite Hc1. apply found_mono. intros a x _ Hx.
    apply log_cells in Hx as [Hx|(op & Hop' & Hx)]; [by apply world_start|].
    apply (world_output c0 ops op a x Hinj); [|done]. apply Hops. eexists. split; [exact Hp|]. cbn [fst snd].
    rewrite applied_operations_app, elem_of_app. by left.
  - intros op op' a Hop Hop'. exact (accepted_no_double_spend A (E:=E) on_chain _ _ op op' a Hch (Hacc _ Hop) (Hacc _ Hop')).
  - intros a x Hx. destruct (Hu a x Hx) as [[H|(p & op & Hp & Hop & H)] Hn]; (split; [|by intros op' (p' & ? & ?)%Hops; eapply Hn]).
    + by apply world_start.
    + apply (world_output c0 ops op a x Hinj); [|done]. apply Hops. by exists p.
Qed.

(** For one party: the cells it holds and has not consumed. *)
Theorem C78_one_party (on_chain : SealWitness P -> Prop) (c0 : Contract A) L l c (u : gmap CellAddr StateCell) :
  covered A cells amount -> session_of A E c0 L l c ->
  on_one_chain (U:=U) on_chain (all_entries (contract_id A c0) L) ->
  u ⊆ cells c -> (forall a op, is_Some (u !! a) -> op ∈ applied_operations l -> a ∉ ins op) ->
  (total amount u <= total amount (cells c0))%N.
Proof.
  intros Hcov Hs Hch Hsub Hu. apply (C78_no_inflation on_chain c0 [(L, l, c)] u); try done.
  - intros L' l' c' H%elem_of_list_singleton. by injection H as -> -> ->.
  - cbn. by rewrite app_nil_r.
  - intros a x Hx. split.
    + assert (cells c !! a = Some x) as Hc by (eapply lookup_weaken; [exact Hx|exact Hsub]).
      pose proof (session_known A c0 l c (session_of_session A c0 L l c Hs)) as Hl. rewrite Hl in Hc.
      apply log_cells in Hc as [H|(op & Hop & H)]; [by left|]. right. exists (L, l, c), op.
      split; [left|done].
    + intros p op ->%elem_of_list_singleton Hop. apply Hu; [by exists x|done].
Qed.
End world.

(** ** The ledger of the test-suite, which keeps consumed cells, and the one which drops them *)
Section ledger.
Context (P : SealProtocol) (S : Sonic) (E : Type) (amount : StateCell -> N).

Lemma ledger_creates_outputs : creates_outputs (test_ledger P S) (tc_owned P S).
Proof.
  split; try done. intros c v a x. cbn. rewrite insert_outputs_zero.
  destruct (decide (cell_opid a = _)) as [Ha|]; [|by right].
  destruct (op_destructible_out v !! _) eqn:Hx; [|by right]. intros [= <-]. by left.
Qed.
Lemma spending_creates_outputs : creates_outputs (spending_ledger P S) (tc_owned P S).
Proof.
  split; try done. intros c v a x. cbn. rewrite insert_outputs_zero, lookup_delete_all.
  destruct (decide (cell_opid a = _)) as [Ha|].
  - destruct (op_destructible_out v !! _) eqn:Hx; [intros [= <-]; by left|].
    destruct (decide _); [done|]. by right.
  - destruct (decide _); [done|]. by right.
Qed.
End ledger.

(** With bitcoin seals, and with the very ledger of the test-suite. *)
Corollary C78_bitcoin (B : BpCore) (spends : Tx B -> nat -> Outpoint -> Prop)
    (commits : Tx B -> nat -> MmbMessage B -> Prop) (on_chain : Tx B -> Prop)
    (S : Sonic) (E : Type) (amount : StateCell -> N) (c0 : TestContract (bitcoin B) S)
    (parties : list (list (list (OperationSeals (bitcoin B))) * list (call (bitcoin B) (sonic S)) * TestContract (bitcoin B) S))
    (u : gmap CellAddr StateCell) :
  let A := test_ledger (bitcoin B) S in
  let h := all_entries (tc_contract_id _ _ c0) (parties ≫= fun p => p.1.1) in
  sonic_covered S amount ->
  (forall L l c, (L, l, c) ∈ parties -> session_of A E c0 L l c) ->
  closing_spends B spends commits -> one_message B commits -> spent_once B spends on_chain ->
  messages_differ (bitcoin B) ->
  anchored (bitcoin B) (mined B on_chain) h -> no_collisions (U:=sonic S) h h ->
  Forall positions_bound h -> all_settled h ->
  (forall a x, u !! a = Some x ->
     (tc_owned _ _ c0 !! a = Some x \/
      exists p op, p ∈ parties /\ op ∈ applied_operations p.1.2 /\ cell_opid a = sonic_opid S op /\
        op_destructible_out op !! N.to_nat (cell_pos a) = Some x) /\
     forall p op, p ∈ parties -> op ∈ applied_operations p.1.2 -> a ∉ input_addr <$> op_destructible_in op) ->
  (total amount u <= total amount (tc_owned _ _ c0))%N.
Proof.
  intros A h Hcov Hs Hcl Hone Hso Hmsg Han Hcol Hpos Hroots Hu.
  apply (C78_no_inflation A (E:=E) (tc_owned _ _) amount (ledger_creates_outputs _ S)
    (sonic_faithful S) (mined B on_chain) c0 parties u); try done.
  - intros c cid op v. cbn. destruct (sonic_verify S _ _ _ _ _ _) eqn:Hv; [done|]. intros _.
    exact (Hcov _ _ _ _ _ _ Hv).
  - split; try done; intros s _; [by eapply bitcoin_single_use|by eapply bitcoin_closed_by_one].
Qed.

(** ** Cases *)
Definition pay_chain : list ToyTx := [tx_of 1 out_a id_p1;
  MkToyTx (MkTxid [2%N]) [MkOutpoint (MkTxid [1%N]) 0; out_b]
    (<[ 0%N := opid_bytes id_p2 ]> {[ 1%N := opid_bytes id_p2 ]})].
Lemma pay_on_chain (h : list ToyBlock) :
  forallb (fun b => witness_in pay_chain b && defs_in all_defs b && bound_b b && complete_b b) h = true ->
  on_one_chain (U:=sonic fair_sonic) (toy_on_chain pay_chain) h.
Proof.
  intros H. rewrite forallb_forall in H.
  assert (toy_chain pay_chain) as Hchain. { unfold toy_chain. apply (bool_decide_unpack _). by vm_compute. }
  destruct (toy_sound_world every_seal pay_chain all_defs h h Hchain ltac:(vm_refl)) as (H1 & H2 & H3 & H4 & _ & H5).
  { apply forallb_forall. intros b Hb. apply andb_true_iff.
    apply elem_of_list_In, elem_of_app in Hb.
    assert (In b h) as Hb' by (destruct Hb; by apply elem_of_list_In).
    specialize (H b Hb'). apply andb_true_iff in H as [[[? ?]%andb_true_iff ?]%andb_true_iff ?]. done. }
  split; try assumption.
  - intros s _. by apply H1.
  - intros s _. by apply H2.
  - apply toy_positions_bound, forallb_forall. intros b Hb. specialize (H b Hb).
    by apply andb_true_iff in H as [[_ ?]%andb_true_iff _].
  - apply toy_all_settled, forallb_forall. intros b Hb. specialize (H b Hb).
    by apply andb_true_iff in H as [_ ?].
Qed.

Notation keep_api := (test_ledger TP fair_sonic).
Definition keep_eval (c : TestContract TP fair_sonic) (bs : list ToyBlock) :=
  evaluate keep_api (E:=Empty_set) c bs None.
Definition keep_log c bs : list (call TP (sonic fair_sonic)) := (keep_eval c bs).1.2.
Lemma keep_step c0 L l c bs r :
  session_of keep_api Empty_set c0 L l c -> (keep_eval c bs).2 = Some r ->
  session_of keep_api Empty_set c0 (L ++ [bs]) (l ++ keep_log c bs) (kept_after c bs).
Proof.
  unfold kept_after, keep_log, keep_eval. intros Hs. destruct (evaluate _ _ _ _) as [[d t] r'] eqn:H. cbn. intros ->.
  pose proof (evaluate_log keep_api _ _ _ _ _ _ H) as ->. rewrite <-(app_nil_r t) in H.
  exact (session_of_step keep_api Empty_set c0 L l c bs None _ _ _ _ Hs H).
Qed.

(** One party gets both payments.  Another gets the first, and then is offered the 5 once more: the only
    transaction on the chain which closes the seal commits to the first payment, so that this comes without a witness. *)
Definition entry_again_n : ToyBlock := block pay_again [(0%N, def_d)] None.
Definition party_1 := ([[entry_m; entry_p1; entry_p2]], keep_log purse [entry_m; entry_p1; entry_p2],
  kept_after purse [entry_m; entry_p1; entry_p2]).
Definition party_2 := ([[entry_m; entry_p1]; [entry_m; entry_again_n]],
  keep_log purse [entry_m; entry_p1] ++ keep_log (kept_after purse [entry_m; entry_p1]) [entry_m; entry_again_n],
  kept_after (kept_after purse [entry_m; entry_p1]) [entry_m; entry_again_n]).
Definition coins : gmap CellAddr StateCell :=
  <[MkCellAddr id_p2 0 := MkStateCell [4%N] (wtxo_auth_token toy_bp def_d) None]>
  {[ MkCellAddr id_p1 1 := MkStateCell [3%N] (wtxo_auth_token toy_bp def_c) None ]}.

Lemma party_sessions L l c : (L, l, c) ∈ [party_1; party_2] -> session_of keep_api Empty_set purse L l c.
Proof.
  cut (forall p, p ∈ [party_1; party_2] -> session_of keep_api Empty_set purse p.1.1 p.1.2 p.2).
  { intros H Hp. exact (H _ Hp). }
  assert ((keep_eval purse [entry_m; entry_p1; entry_p2]).2 = Some (Ok tt)) as H1 by vm_refl.
  assert ((keep_eval purse [entry_m; entry_p1]).2 = Some (Ok tt)) as H2 by vm_refl.
  assert ((keep_eval (kept_after purse [entry_m; entry_p1]) [entry_m; entry_again_n]).2 =
    Some (Err (NoWitness (toy_opid pay_again)))) as H3 by vm_refl.
  pose proof (keep_step purse [] [] purse _ _ (session_of_start _ _ _) H1) as S1.
  pose proof (keep_step purse [] [] purse _ _ (session_of_start _ _ _) H2) as S2.
  pose proof (keep_step purse _ _ _ _ _ S2 H3) as S3. clear H1 H2 H3 S2.
  intros p [->| ->%elem_of_list_singleton]%elem_of_cons; [exact S1|exact S3].
Qed.
Lemma fair_covers : covered keep_api (tc_owned TP fair_sonic) coin.
Proof.
  intros c cid op v.
  change (codex_verify (sonic fair_sonic) ?k _ _ ?m ?r) with
    (match sonic_verify fair_sonic k cid op (fun a => tc_owned _ _ c !! a) (fun a => tc_global _ _ c !! a)
       (fun n => tc_libs _ _ c !! n) with None => Ok (op : VerifiedOperation (sonic fair_sonic)) | Some e => Err e end).
  destruct (sonic_verify fair_sonic _ _ _ _ _ _) eqn:Hv; [done|]. intros _. exact (fair_covered _ _ _ _ _ _ Hv).
Qed.

Example C78_case :
  total coin coins = 7%N /\ total coin (tc_owned _ _ purse) = 8%N /\
  (total coin coins <= total coin (tc_owned _ _ purse))%N.
Proof.
  split; [vm_refl|]. split; [vm_refl|].
  refine (C78_no_inflation keep_api (E:=Empty_set) (tc_owned _ _) coin (ledger_creates_outputs _ _)
    (sonic_faithful _) (toy_on_chain pay_chain) purse [party_1; party_2] coins fair_covers party_sessions _ _).
  - apply pay_on_chain. vm_refl.
  - assert (applied_operations (keep_log purse [entry_m; entry_p1; entry_p2]) = [pay_1; pay_2]) as H1 by vm_refl.
    assert (applied_operations (keep_log purse [entry_m; entry_p1] ++
      keep_log (kept_after purse [entry_m; entry_p1]) [entry_m; entry_again_n]) = [pay_1]) as H2 by vm_refl.
    assert (forall p op, p ∈ [party_1; party_2] -> op ∈ applied_operations p.1.2 -> op ∈ [pay_1; pay_2]) as Hops.
    { intros p op [->| ->%elem_of_list_singleton]%elem_of_cons; cbn [fst snd party_1 party_2].
      - by rewrite H1.
      - rewrite H2. intros ->%elem_of_list_singleton. left. }
    assert (forall a, a ∈ [MkCellAddr id_p2 0; MkCellAddr id_p1 1] ->
      forallb (fun op => bool_decide (a ∉ input_addr <$> op_destructible_in op)) [pay_1; pay_2] = true) as Hfree.
    { intros a [->| ->%elem_of_list_singleton]%elem_of_cons; vm_refl. }
    assert (forall a, a ∈ [MkCellAddr id_p2 0; MkCellAddr id_p1 1] -> forall p op, p ∈ [party_1; party_2] ->
      op ∈ applied_operations p.1.2 -> a ∉ input_addr <$> op_destructible_in op) as Hun.
    { intros a Ha p op Hp Hop. specialize (Hfree a Ha). rewrite forallb_forall in Hfree.
      specialize (Hops p op Hp Hop). apply elem_of_list_In, Hfree, bool_decide_eq_true in Hops. exact Hops. }
    intros a x Hx. unfold coins in Hx. 
    apply lookup_insert_Some in Hx as [[Ha Hx]|[_ Hx]]; [|apply lookup_singleton_Some in Hx as [Ha Hx]]; rewrite <-Ha, <-Hx.
    + split; [|apply Hun; left]. right. exists party_1, pay_2. split; [left|].
      split; [unfold party_1; cbn [fst snd]; rewrite H1; right; left|]. split; vm_refl.
    + split; [|apply Hun; right; left]. right. exists party_1, pay_1. split; [left|].
      split; [unfold party_1; cbn [fst snd]; rewrite H1; left|]. split; vm_refl.
Qed.

(** The premises on the cells [u], decided. *)
Definition not_spent (ops : list Operation) (u : gmap CellAddr StateCell) : bool :=
  forallb (fun e =>
    (bool_decide (tc_owned _ _ purse !! e.1 = Some e.2) ||
     existsb (fun op => bool_decide (cell_opid e.1 = toy_opid op) &&
       bool_decide (op_destructible_out op !! N.to_nat (cell_pos e.1) = Some e.2)) ops) &&
    forallb (fun op => bool_decide (e.1 ∉ input_addr <$> op_destructible_in op)) ops) (map_to_list u).
Lemma not_spent_ok {X Y} (parties : list (X * list (call TP (sonic fair_sonic)) * Y)) ops u :
  (forall op, op ∈ ops <-> exists p, p ∈ parties /\ op ∈ applied_operations p.1.2) -> not_spent ops u = true ->
  forall a x, u !! a = Some x ->
    (tc_owned _ _ purse !! a = Some x \/ exists p op, p ∈ parties /\ op ∈ applied_operations p.1.2 /\
       output_of (U:=sonic fair_sonic) op a x) /\
    forall p op, p ∈ parties -> op ∈ applied_operations p.1.2 -> a ∉ input_addr <$> op_destructible_in op.
Proof.
  unfold not_spent. rewrite forallb_forall. intros Hops H a x Hx.
  apply elem_of_map_to_list, elem_of_list_In, H, andb_true_iff in Hx as [Hx Hn]. cbn [fst snd] in Hx, Hn. split.
  - apply orb_true_iff in Hx as [Hx|Hx]; [left; by apply bool_decide_eq_true in Hx|]. right.
    apply existsb_exists in Hx as (op & Hop%elem_of_list_In & Hx).
    apply andb_true_iff in Hx as [H1%bool_decide_eq_true H2%bool_decide_eq_true].
    apply Hops in Hop as (p & Hp & Hop). exists p, op. split; [done|]. split; [done|]. split; [exact H1|exact H2].
  - intros p op Hp Hop. rewrite forallb_forall in Hn. assert (In op ops) as Hin.
    { apply elem_of_list_In, Hops. by exists p. }
    by apply Hn, bool_decide_eq_true in Hin.
Qed.

(** Witnesses on two chains: one party accepts the first payment, another one accepts that the same 5 are paid
    to someone else.  All premises but that on the chain hold, even with the ledger which drops consumed cells. *)
Definition split_1 := ([[entry_m; entry_p1]], (fair_eval purse [entry_m; entry_p1]).1.2, fair_after purse [entry_m; entry_p1]).
Definition split_2 :=
  ([[entry_m; entry_again]], (fair_eval purse [entry_m; entry_again]).1.2, fair_after purse [entry_m; entry_again]).
Definition split_coins : gmap CellAddr StateCell :=
  <[MkCellAddr id_m 1 := MkStateCell [3%N] (wtxo_auth_token toy_bp def_b) None]>
  (<[MkCellAddr id_p1 0 := MkStateCell [2%N] (wtxo_auth_token toy_bp def_w) None]>
  (<[MkCellAddr id_p1 1 := MkStateCell [3%N] (wtxo_auth_token toy_bp def_c) None]>
  {[ MkCellAddr (toy_opid pay_again) 0 := MkStateCell [5%N] (wtxo_auth_token toy_bp def_d) None ]})).
Example C78_chain_needed :
  (forall p, p ∈ [split_1; split_2] -> session_of fair_api Empty_set purse p.1.1 p.1.2 p.2) /\
  (forall a x, split_coins !! a = Some x ->
    (tc_owned _ _ purse !! a = Some x \/ exists p op, p ∈ [split_1; split_2] /\ op ∈ applied_operations p.1.2 /\
       output_of (U:=sonic fair_sonic) op a x) /\
    forall p op, p ∈ [split_1; split_2] -> op ∈ applied_operations p.1.2 -> a ∉ input_addr <$> op_destructible_in op) /\
  total coin (tc_owned _ _ purse) = 8%N /\ total coin split_coins = 13%N.
Proof.
  split; [|split; [|split; vm_refl]].
  - assert (forall bs r, (fair_eval purse bs).2 = Some r ->
      session_of fair_api Empty_set purse [bs] (fair_eval purse bs).1.2 (fair_after purse bs)) as Hs.
    { intros bs r. unfold fair_after, fair_eval. destruct (evaluate _ _ _ _) as [[d t] r'] eqn:H. cbn. intros ->.
      pose proof (evaluate_log fair_api _ _ _ _ _ _ H) as ->. rewrite <-(app_nil_r t) in H.
      exact (session_of_step fair_api Empty_set purse [] [] purse bs None _ _ _ _ (session_of_start _ _ _) H). }
    assert ((fair_eval purse [entry_m; entry_p1]).2 = Some (Ok tt)) as H1 by vm_refl.
    assert ((fair_eval purse [entry_m; entry_again]).2 = Some (Ok tt)) as H2 by vm_refl.
    intros p [->| ->%elem_of_list_singleton]%elem_of_cons; [exact (Hs _ _ H1)|exact (Hs _ _ H2)].
  - apply (not_spent_ok [split_1; split_2] [pay_1; pay_again]); [|vm_refl].
    assert (applied_operations split_1.1.2 = [pay_1]) as H1 by vm_refl.
    assert (applied_operations split_2.1.2 = [pay_again]) as H2 by vm_refl.
    intros op. split.
    + intros [->| ->%elem_of_list_singleton]%elem_of_cons.
      * exists split_1. split; [left|]. rewrite H1. left.
      * exists split_2. split; [right; left|]. rewrite H2. left.
    + intros (p & [->| ->%elem_of_list_singleton]%elem_of_cons & Hop).
      * rewrite H1 in Hop. apply elem_of_list_singleton in Hop as ->. left.
      * rewrite H2 in Hop. apply elem_of_list_singleton in Hop as ->. right. left.
Qed.

Print Assumptions C78_no_inflation.
Print Assumptions C78_one_party.
Print Assumptions C78_bitcoin.
Print Assumptions C78_case.
Print Assumptions C78_chain_needed.
