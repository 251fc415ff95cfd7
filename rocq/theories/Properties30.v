(** * Properties, part 30: nothing is lost among all parties

    C80: on one chain the cells which are not consumed, of all parties together, hold exactly what there was at the
    start. *)
From Verif Require Import CellFacts LedgerCells Refine Effects Consensus Sharing Scenario Counterexamples
  BitcoinChain Derived Properties1 Properties3 Properties5 Properties7 Properties27 Properties28 Properties29.
From Coq Require Import Lia.
Notation block := Verif.Concrete.block.
Notation total := Verif.Properties27.total.
Notation outputs := Verif.Properties28.outputs.

Section kept.
Context {P : SealProtocol} {U : Ultrasonic} (A : ContractApi P U) {E : Type}.
Context (cells : Contract A -> gmap CellAddr StateCell) (amount : StateCell -> N).
Notation Block := (OperationSeals P).
Notation opid := (opid_of U).
Notation ins op := (input_addr <$> op_destructible_in op).
Notation party := (list (list Block) * list (call P U) * Contract A)%type.

(** The codex refuses an operation if one of its inputs is not held. *)
Definition needs_cells : Prop := forall c cid op v,
  codex_verify U (codex A c) cid op (memory A c) (repo A c) = Ok v ->
  forall a, a ∈ ins op -> is_Some (cells c !! a).

(** A cell is open: held at the start or an output of an operation applied by one of the parties, and not
    consumed by an operation that one of the parties has applied. *)
Definition open_cell (c0 : Contract A) (parties : list party) (a : CellAddr) (x : StateCell) : Prop :=
  (cells c0 !! a = Some x \/
   exists p op, p ∈ parties /\ op ∈ applied_operations p.1.2 /\ output_of (U:=U) op a x) /\
  forall p op, p ∈ parties -> op ∈ applied_operations p.1.2 -> a ∉ ins op.

Hypothesis Hcells : creates_outputs A cells.
Hypothesis Hrem : remembers A.
Hypothesis Hfaith : faithful U.

Lemma outputs_inv ops a x :
  outputs (U:=U) ops !! a = Some x -> exists op, op ∈ ops /\ output_of (U:=U) op a x.
Proof.
  induction ops as [|op ops IH]; cbn [outputs foldr]; [by rewrite lookup_empty|].
  rewrite insert_outputs_zero. intros H.
  assert ((cell_opid a = opid op /\ op_destructible_out op !! N.to_nat (cell_pos a) = Some x) \/
    outputs (U:=U) ops !! a = Some x) as [Hx|(op' & Hop' & Hx)%IH].
  { destruct (decide _); [|by right]. destruct (op_destructible_out op !! _) eqn:Hx; [|by right].
    left. split; [done|congruence]. }
  - exists op. split; [left|done].
  - exists op'. split; [by right|done].
Qed.
Lemma outputs_total_eq ops :
  NoDup ops -> (forall op1 op2, op1 ∈ ops -> op2 ∈ ops -> opid op1 = opid op2 -> op1 = op2) ->
  total amount (outputs (U:=U) ops) = amounts amount (ops ≫= op_destructible_out).
Proof.
  induction ops as [|op ops IH]; intros Hnd Hinj; [done|]. apply list.NoDup_cons in Hnd as [Hop Hnd].
  change (outputs (U:=U) (op :: ops)) with
    (insert_outputs (opid op) 0 (op_destructible_out op) (outputs (U:=U) ops)).
  rewrite total_insert_outputs, bind_cons, amounts_app, IH; [done|done| |].
  - intros op1 op2 H1 H2. apply Hinj; by right.
  - intros pos. left. apply eq_None_not_Some. intros (x & (op' & Hop' & Hx & _)%outputs_inv). cbn in Hx.
    apply Hop. rewrite (Hinj op op'); [done|left|by right|done].
Qed.
Lemma total_union (m1 m2 : gmap CellAddr StateCell) :
  m1 ##ₘ m2 -> total amount (m1 ∪ m2) = (total amount m1 + total amount m2)%N.
Proof.
  induction m1 as [|a x m1 Ha IH] using map_ind; intros Hd.
  { rewrite map_empty_union. done. }
  apply map_disjoint_insert_l in Hd as [H2 Hd]. rewrite <-insert_union_l, !total_insert, IH; [lia|done|done|].
  by apply lookup_union_None.
Qed.
Lemma found_ext m m' l :
  (forall a, a ∈ l -> m !! a = m' !! a) -> found amount m l = found amount m' l.
Proof.
  unfold found. induction l as [|a l IH]; intros H; [done|]. cbn [omap list_omap].
  rewrite (H a (elem_of_list_here _ _)). destruct (m' !! a).
  - unfold amounts in *. cbn. f_equal. apply IH. intros b Hb. apply H. by right.
  - apply IH. intros b Hb. apply H. by right.
Qed.

(** ** C80 Nothing is lost among all parties

    Parties as in C78.  If the codex demands that operations create exactly what their inputs hold, and
    that all their inputs are held, then the open cells hold exactly what there was at the start. *)
Theorem C80_conserved (on_chain : SealWitness P -> Prop) (c0 : Contract A) (parties : list party) :
  balanced A cells amount -> needs_cells -> known_cells A cells c0 ->
  (forall L l c, (L, l, c) ∈ parties -> session_of A E c0 L l c) ->
  on_one_chain (U:=U) on_chain (all_entries (contract_id A c0) (parties ≫= fun p => p.1.1)) ->
  exists u : gmap CellAddr StateCell,
    (forall a x, u !! a = Some x <-> open_cell c0 parties a x) /\
    total amount u = total amount (cells c0).
Proof.
  intros Hbal Hneed Hknown Hpart Hch.
  set (all := parties ≫= fun p => applied_operations p.1.2). set (ops := remove_dups all).
  assert (forall op, op ∈ ops <-> exists p, p ∈ parties /\ op ∈ applied_operations p.1.2) as Hops.
  { intros op. unfold ops, all. rewrite elem_of_remove_dups, elem_of_list_bind. naive_solver. }
  assert (NoDup ops) as Hnd by apply NoDup_remove_dups. clearbody ops. clear all.
  assert (forall op, op ∈ ops -> accepted_in A (E:=E) (contract_id A c0) (parties ≫= fun p => p.1.1) op) as Hacc.
  { intros op ([[L l] c] & Hp & Hop)%Hops.
    eapply accepted_in_sub; [|eapply (session_accepted A cells Hcells Hfaith); [by apply Hpart|done]].
    intros x Hx. apply elem_of_list_bind. by exists (L, l, c). }
  assert (forall op op', op ∈ ops -> op' ∈ ops -> opid op = opid op' -> op = op') as Hinj.
  { intros op op' Hop Hop'.
    exact (accepted_ids_apart A (E:=E) on_chain _ _ ops Hch Hacc op op' Hop Hop'). }
  assert (forall op, op ∈ ops -> exists L l c l1 v l2, (L, l, c) ∈ parties /\ l = l1 ++ CallApplyOperation v :: l2 /\
    into_operation U v = op) as Hat.
  { intros op ([[L l] c] & Hp & Hop)%Hops. cbn in Hop. apply elem_of_list_omap in Hop as (e & He & Heq).
    destruct e as [ | | | | | | |v|]; try done. cbn in Heq. injection Heq as <-.
    apply elem_of_list_split in He as (l1 & l2 & ->). by exists L, (l1 ++ CallApplyOperation v :: l2), c, l1, v, l2. }
  assert (forall op, op ∈ ops -> is_known A c0 (opid op) = false) as Hnew.
  { intros op (L & l & c & l1 & v & l2 & Hp & -> & <-)%Hat.
    pose proof (session_of_session A c0 _ _ _ (Hpart _ _ _ Hp)) as Hs.
    destruct (session_fair A cells Hfaith (creates_witness A cells Hcells) _ _ _ Hs) as [Hf _].
    destruct (Hf l1 v l2 eq_refl) as (Hk & _). specialize (Hk Hrem).
    apply not_true_is_false. intros H. assert (is_known A (apply_calls A c0 l1) (opid (into_operation U v)) = true).
    { apply apply_calls_known; [done|]. by right. } congruence. }
  assert (cells c0 ##ₘ outputs (U:=U) ops) as Hdis.
  { apply map_disjoint_spec. intros a x y Hx (op & Hop & Ha & _)%outputs_inv. apply Hnew in Hop.
    rewrite <-Ha, (Hknown a) in Hop; [done|]. by exists x. }
  set (w := cells c0 ∪ outputs (U:=U) ops).
  assert (forall a x, w !! a = Some x <-> cells c0 !! a = Some x \/ exists op, op ∈ ops /\ output_of (U:=U) op a x) as Hw.
  { intros a x. unfold w. rewrite lookup_union_Some by done. split.
    - intros [H|H%outputs_inv]; [by left|by right].
    - intros [H|(op & Hop & H)]; [by left|]. right. by apply (outputs_output ops op a x Hinj). }
  assert (forall op, op ∈ ops -> NoDup (ins op) /\
    amounts amount (op_destructible_out op) = found amount w (ins op)) as Hop.
  { intros op Hop. pose proof (Hat op Hop) as (L & l & c & l1 & v & l2 & Hp & -> & <-).
    pose proof (session_of_session A c0 _ _ _ (Hpart _ _ _ Hp)) as Hs.
    destruct (session_fair A cells Hfaith (creates_witness A cells Hcells) _ _ _ Hs) as [Hf _].
    destruct (Hf l1 v l2 eq_refl) as (_ & Hn & c1 & cid & v' & Hc1 & Hv). split; [done|].
    rewrite (Hbal _ _ _ _ Hv). apply found_ext. intros a Ha.
    destruct (Hneed _ _ _ _ Hv a Ha) as [x Hx]. rewrite Hx. symmetry. apply Hw. rewrite Hc1 in Hx.
    apply (log_cells A cells Hcells) in Hx as [Hx|(op & Hop' & Hx)]; [by left|]. right. exists op. split; [|done].
    apply Hops. eexists. split; [exact Hp|]. cbn [fst snd]. rewrite applied_operations_app, elem_of_app. by left. }
  assert (forall op op' a, op ∈ ops -> op' ∈ ops -> a ∈ ins op -> a ∈ ins op' -> op = op') as Hone.
  { intros op op' a H H'.
    exact (accepted_no_double_spend A (E:=E) on_chain _ _ op op' a Hch (Hacc _ H) (Hacc _ H')). }
  assert (NoDup (ops ≫= fun op => ins op)) as Hall.
  { assert (forall op, op ∈ ops -> NoDup (ins op)) as Hn by (intros op H; by apply Hop).
    clear -Hnd Hone Hn. induction ops as [|op ops IH]; [apply NoDup_nil_2|].
    apply list.NoDup_cons in Hnd as [Hop Hnd]. rewrite bind_cons. apply NoDup_app.
    split; [apply Hn; left|]. split.
    - intros a Ha Ha'. apply elem_of_list_bind in Ha' as (op' & Ha' & Hop').
      assert (op = op') as <-; [|done]. apply (Hone op op' a); [left|by right|done|done].
    - apply IH; [done| |].
      + intros op1 op2 a H1 H2. apply Hone; by right.
      + intros op1 H1. apply Hn. by right. }
  exists (foldr delete w (ops ≫= fun op => ins op)). split.
  - intros a x. rewrite lookup_delete_all. unfold open_cell. split.
    + destruct (decide _) as [|Hn]; [done|]. intros Hx%Hw. split.
      * destruct Hx as [Hx|(op & (p & Hp & Ho)%Hops & Hx)]; [by left|]. right. by exists p, op.
      * intros p op Hp Ho Ha. apply Hn, elem_of_list_bind. exists op. split; [done|]. apply Hops. by exists p.
    + intros [Hx Hn]. rewrite decide_False.
      * apply Hw. destruct Hx as [Hx|(p & op & Hp & Ho & Hx)]; [by left|]. right. exists op. split; [|done].
        apply Hops. by exists p.
      * intros (op & Ha & (p & Hp & Ho)%Hops)%elem_of_list_bind. by apply (Hn p op).
  - pose proof (total_delete_all amount w _ Hall) as Ht.
    assert (total amount w = total amount (cells c0) + amounts amount (ops ≫= op_destructible_out))%N as Htw.
    { unfold w. rewrite total_union by done. by rewrite outputs_total_eq. }
    assert (amounts amount (ops ≫= op_destructible_out) = found amount w (ops ≫= fun op => ins op)) as Hf; [|lia].
    clearbody w. clear -Hop. induction ops as [|op ops IH]; [done|]. rewrite !bind_cons, found_app, amounts_app.
    rewrite (proj2 (Hop op (elem_of_list_here _ _))). f_equal. apply IH. intros op' Hop'. apply Hop. by right.
Qed.
End kept.

(** A token that is there at the start has exactly one owner, if the codex demands that operations pass it on
    exactly as often as they get it. *)
Theorem C80_exactly_one_owner {P U} (A : ContractApi P U) (E : Type) (cells : Contract A -> gmap CellAddr StateCell)
    (on_chain : SealWitness P -> Prop) (carries : StateCell -> bool) (c0 : Contract A)
    (parties : list (list (list (OperationSeals P)) * list (call P U) * Contract A)) b y :
  creates_outputs A cells -> remembers A -> faithful U ->
  (forall c cid op v, codex_verify U (codex A c) cid op (memory A c) (repo A c) = Ok v ->
     length (filter (fun x => carries x = true) (op_destructible_out op)) =
     length (filter (fun x => carries x = true)
               (omap (fun a => cells c !! a) (input_addr <$> op_destructible_in op)))) ->
  needs_cells A cells -> known_cells A cells c0 ->
  (forall L l c, (L, l, c) ∈ parties -> session_of A E c0 L l c) ->
  on_one_chain (U:=U) on_chain (all_entries (contract_id A c0) (parties ≫= fun p => p.1.1)) ->
  cells c0 !! b = Some y -> carries y = true ->
  (forall b' y', cells c0 !! b' = Some y' -> carries y' = true -> b' = b) ->
  exists a x, open_cell A cells c0 parties a x /\ carries x = true /\
    forall a' x', open_cell A cells c0 parties a' x' -> carries x' = true -> a' = a.
Proof.
  intros H1 H2 H3 Hcount H5 H6 H7 H8 Hb Hy Huniq.
  assert (balanced A cells (one_for carries)) as Hbal.
  { intros c cid op v Hv. unfold found. by rewrite !count_amounts, (Hcount _ _ _ _ Hv). }
  destruct (C80_conserved A (E:=E) cells (one_for carries) H1 H2 H3 on_chain c0 parties Hbal H5 H6 H7 H8)
    as (u & Hu & Ht).
  assert (total (one_for carries) (cells c0) = 1)%N as Hone.
  { rewrite (total_delete _ _ b y Hb), total_none; [unfold one_for; by rewrite Hy|].
    intros b' y' [Hne Hy']%lookup_delete_Some. apply not_true_is_false. intros Hc. by apply Hne; symmetry; eapply Huniq. }
  destruct (decide (map_Forall (fun _ x => carries x = false) u)) as [Hn|Hn].
  { rewrite total_none in Ht; [lia|]. intros a x Hx. exact (Hn a x Hx). }
  apply map_not_Forall in Hn as (a & x & Hx & Hc); [|apply _]. apply not_false_is_true in Hc.
  exists a, x. split; [by apply Hu|]. split; [done|]. intros a' x' Hx'%Hu Hc'.
  destruct (decide (a' = a)) as [|Hne]; [done|]. exfalso.
  rewrite (total_delete _ u a x Hx), (total_delete _ (delete a u) a' x') in Ht.
  - unfold one_for at 1 2 in Ht. rewrite Hc, Hc' in Ht. lia.
  - by rewrite lookup_delete_ne.
Qed.

(** With bitcoin seals, and with the very ledger of the test-suite. *)
Corollary C80_bitcoin (B : BpCore) (spends : Tx B -> nat -> Outpoint -> Prop)
    (commits : Tx B -> nat -> MmbMessage B -> Prop) (on_chain : Tx B -> Prop)
    (S : Sonic) (E : Type) (amount : StateCell -> N) (c0 : TestContract (bitcoin B) S)
    (parties : list (list (list (OperationSeals (bitcoin B))) * list (call (bitcoin B) (sonic S)) * TestContract (bitcoin B) S)) :
  let A := test_ledger (bitcoin B) S in
  let h := all_entries (tc_contract_id _ _ c0) (parties ≫= fun p => p.1.1) in
  sonic_balanced S amount -> sonic_needs S ->
  (forall a, is_Some (tc_owned _ _ c0 !! a) -> is_Some (tc_known_ops _ _ c0 !! cell_opid a)) ->
  (forall L l c, (L, l, c) ∈ parties -> session_of A E c0 L l c) ->
  closing_spends B spends commits -> one_message B commits -> spent_once B spends on_chain ->
  messages_differ (bitcoin B) ->
  anchored (bitcoin B) (mined B on_chain) h -> no_collisions (U:=sonic S) h h ->
  Forall positions_bound h -> all_settled h ->
  exists u : gmap CellAddr StateCell,
    (forall a x, u !! a = Some x <->
       (tc_owned _ _ c0 !! a = Some x \/
        exists p op, p ∈ parties /\ op ∈ applied_operations p.1.2 /\ cell_opid a = sonic_opid S op /\
          op_destructible_out op !! N.to_nat (cell_pos a) = Some x) /\
       forall p op, p ∈ parties -> op ∈ applied_operations p.1.2 -> a ∉ input_addr <$> op_destructible_in op) /\
    total amount u = total amount (tc_owned _ _ c0).
Proof.
  intros A h Hbal Hneed Hk Hs Hcl Hone Hso Hmsg Han Hcol Hpos Hroots.
  apply (C80_conserved A (E:=E) (tc_owned _ _) amount (ledger_creates_outputs _ S) (ledger_remembers _ S)
    (sonic_faithful S) (mined B on_chain) c0 parties).
  - intros c cid op v. cbn. destruct (sonic_verify S _ _ _ _ _ _) eqn:Hv; [done|]. intros _.
    exact (Hbal _ _ _ _ _ _ Hv).
  - intros c cid op v. cbn. destruct (sonic_verify S _ _ _ _ _ _) eqn:Hv; [done|]. intros _.
    exact (proj1 (Hneed _ _ _ _ _ _ Hv)).
  - intros a Ha. cbn. apply bool_decide_eq_true. by apply Hk.
  - exact Hs.
  - split; try done; intros s _; [by eapply bitcoin_single_use|by eapply bitcoin_closed_by_one].
Qed.

(** ** Cases

    As in C78, with the codex demanding equality: the second payment spends the 2 and the 3 of the genesis into 5. *)
Definition pay_exact : Operation := pay_op 3 [MkCellAddr id_p1 0; MkCellAddr id_m 1] [(def_d, 5%N)].
Definition id_pe : Opid := toy_opid pay_exact.
Definition tx_pe : ToyTx := MkToyTx (MkTxid [2%N]) [MkOutpoint (MkTxid [1%N]) 0; out_b]
  (<[ 0%N := opid_bytes id_pe ]> {[ 1%N := opid_bytes id_pe ]}).
Definition entry_pe : ToyBlock := block pay_exact [(0%N, def_d)] (Some (wit tx_pe)).
Definition exact_chain : list ToyTx := [tx_of 1 out_a id_p1; tx_pe].
(** Whatever the ids of operations are taken for, as long as they are those of the toy. *)
Lemma toy_one_chain (S : Sonic) ch (h : list ToyBlock) :
  sonic_opid S = toy_opid -> toy_chain ch ->
  forallb (fun b => witness_in ch b && defs_in all_defs b && bound_b b && complete_b b) h = true ->
  on_one_chain (U:=sonic S) (toy_on_chain ch) h.
Proof.
  intros HS Hchain H. rewrite forallb_forall in H.
  destruct (toy_sound_world every_seal ch all_defs h h Hchain ltac:(vm_refl)) as (H1 & H2 & H3 & H4 & _ & H5).
  { apply forallb_forall. intros b Hb. apply andb_true_iff.
    apply elem_of_list_In, elem_of_app in Hb.
    assert (In b h) as Hb' by (destruct Hb; by apply elem_of_list_In).
    specialize (H b Hb'). apply andb_true_iff in H as [[[? ?]%andb_true_iff ?]%andb_true_iff ?]. done. }
  split; try assumption.
  - intros s _. by apply H1.
  - intros s _. by apply H2.
  - unfold no_collisions in *. cbn in *. rewrite HS. assumption.
  - apply toy_positions_bound, forallb_forall. intros b Hb. specialize (H b Hb).
    by apply andb_true_iff in H as [[_ ?]%andb_true_iff _].
  - apply toy_all_settled, forallb_forall. intros b Hb. specialize (H b Hb).
    by apply andb_true_iff in H as [_ ?].
Qed.

Section world.
Context (S : Sonic) (A : ContractApi TP (sonic S)) (c0 : Contract A).
Definition log_of (bs : list ToyBlock) := (evaluate A (E:=Empty_set) c0 bs None).1.2.
Definition party_of (bs : list ToyBlock) := ([bs], log_of bs, (evaluate A (E:=Empty_set) c0 bs None).1.1).
Lemma party_session bs r :
  (evaluate A (E:=Empty_set) c0 bs None).2 = Some r ->
  session_of A Empty_set c0 (party_of bs).1.1 (party_of bs).1.2 (party_of bs).2.
Proof.
  unfold party_of, log_of. destruct (evaluate _ _ _ _) as [[d t] r'] eqn:H. cbn. intros ->.
  pose proof (evaluate_log A _ _ _ _ _ _ H) as ->. rewrite <-(app_nil_r t) in H.
  exact (session_of_step A Empty_set c0 [] [] c0 bs None _ _ _ _ (session_of_start _ _ _) H).
Qed.
Lemma parties_session lbs :
  Forall (fun bs => is_Some (evaluate A (E:=Empty_set) c0 bs None).2) lbs ->
  forall L l c, (L, l, c) ∈ party_of <$> lbs -> session_of A Empty_set c0 L l c.
Proof.
  intros H L l c Hp.
  cut (forall p, p ∈ party_of <$> lbs -> session_of A Empty_set c0 p.1.1 p.1.2 p.2). { intros Hc. exact (Hc _ Hp). }
  clear -H. intros p (bs & -> & Hbs)%elem_of_list_fmap. rewrite list.Forall_forall in H.
  destruct (H bs Hbs) as [r Hr]. by eapply party_session.
Qed.
(** Open cells, decided. *)
Definition opened (owned : gmap CellAddr StateCell) (ops : list Operation) (a : CellAddr) (x : StateCell) : bool :=
  (bool_decide (owned !! a = Some x) ||
   existsb (fun op => bool_decide (cell_opid a = toy_opid op) &&
     bool_decide (op_destructible_out op !! N.to_nat (cell_pos a) = Some x)) ops) &&
  forallb (fun op => bool_decide (a ∉ input_addr <$> op_destructible_in op)) ops.
Lemma opened_ok (cells : Contract A -> gmap CellAddr StateCell) lbs a x :
  sonic_opid S = toy_opid ->
  opened (cells c0) (lbs ≫= fun bs => applied_operations (log_of bs)) a x = true <->
  open_cell A cells c0 (party_of <$> lbs) a x.
Proof.
  intros HS. set (ops := lbs ≫= _).
  assert (forall op, op ∈ ops <-> exists p, p ∈ party_of <$> lbs /\ op ∈ applied_operations p.1.2) as Hops.
  { intros op. unfold ops. rewrite elem_of_list_bind. split.
    - intros (bs & Ho & Hbs). exists (party_of bs). split; [by apply elem_of_list_fmap_1|done].
    - intros (p & (bs & -> & Hbs)%elem_of_list_fmap & Ho). by exists bs. }
  clearbody ops. unfold opened, open_cell. rewrite andb_true_iff, orb_true_iff, bool_decide_eq_true, forallb_forall.
  assert (existsb (fun op => bool_decide (cell_opid a = toy_opid op) &&
     bool_decide (op_destructible_out op !! N.to_nat (cell_pos a) = Some x)) ops = true <->
    exists p op, p ∈ party_of <$> lbs /\ op ∈ applied_operations p.1.2 /\ output_of (U:=sonic S) op a x) as ->.
  { rewrite existsb_exists. unfold output_of. cbn [opid_of sonic]. rewrite HS. split.
    - intros (op & Hop%elem_of_list_In & [H1%bool_decide_eq_true H2%bool_decide_eq_true]%andb_true_iff).
      apply Hops in Hop as (p & Hp & Hop). by exists p, op.
    - intros (p & op & Hp & Hop & H1 & H2). exists op. split; [apply elem_of_list_In, Hops; by exists p|].
      apply andb_true_iff. split; by apply bool_decide_eq_true. }
  split; intros [Hx Hn]; (split; [exact Hx|]).
  - intros p op Hp Hop. apply (bool_decide_eq_true (a ∉ input_addr <$> op_destructible_in op)), Hn, elem_of_list_In, Hops. by exists p.
  - intros op (p & Hp & Hop)%elem_of_list_In%Hops. apply bool_decide_eq_true. by eapply Hn.
Qed.
End world.

Notation exact_api := (test_ledger TP exact_sonic).
Lemma exact_needs : sonic_needs exact_sonic.
Proof.
  intros k cid op owned global libs. unfold exact_sonic. cbn [sonic_verify].
  destruct (sonic_verify toy_sonic _ _ _ _ _ _) eqn:Hv; [done|]. intros _. exact (toy_needs _ _ _ _ _ _ Hv).
Qed.
Lemma exact_purse_known a :
  is_Some (tc_owned _ _ exact_purse !! a) -> is_Some (tc_known_ops _ _ exact_purse !! cell_opid a).
Proof.
  intros Ha. cbn [tc_owned tc_known_ops exact_purse] in *. rewrite insert_outputs_zero in Ha.
  destruct (decide (cell_opid a = id_m)) as [->|].
  - exists mint. apply lookup_singleton.
  - rewrite lookup_empty in Ha. by destruct Ha.
Qed.

(** One party has seen both payments, another one the first alone, a third one nothing but the genesis. *)
Definition three : list (list ToyBlock) := [[entry_m; entry_p1; entry_pe]; [entry_m; entry_p1]; [entry_m]].
Definition piece (n : N) (s : WTxoSeal) : StateCell := MkStateCell [n] (wtxo_auth_token toy_bp s) None.
Example C80_case :
  exists u : gmap CellAddr StateCell,
    (forall a x, u !! a = Some x <->
       open_cell exact_api (tc_owned _ _) exact_purse (party_of exact_sonic exact_api exact_purse <$> three) a x) /\
    u !! MkCellAddr id_pe 0 = Some (piece 5 def_d) /\ u !! MkCellAddr id_p1 1 = Some (piece 3 def_c) /\
    u !! MkCellAddr id_m 1 = None /\
    total coin u = 8%N.
Proof.
  destruct (C80_conserved exact_api (E:=Empty_set) (tc_owned _ _) coin (ledger_creates_outputs _ _) (ledger_remembers _ _)
    (sonic_faithful _) (toy_on_chain exact_chain) exact_purse (party_of exact_sonic exact_api exact_purse <$> three))
    as (u & Hu & Ht).
  - intros c cid op v.
    change (codex_verify (sonic exact_sonic) ?q _ _ ?m ?r) with
      (match sonic_verify exact_sonic q cid op (fun a => tc_owned _ _ c !! a) (fun a => tc_global _ _ c !! a)
         (fun n => tc_libs _ _ c !! n) with None => Ok (op : VerifiedOperation (sonic exact_sonic)) | Some e => Err e end).
    destruct (sonic_verify exact_sonic _ _ _ _ _ _) eqn:Hv; [done|]. intros _. exact (exact_balanced _ _ _ _ _ _ Hv).
  - intros c cid op v.
    change (codex_verify (sonic exact_sonic) ?q _ _ ?m ?r) with
      (match sonic_verify exact_sonic q cid op (fun a => tc_owned _ _ c !! a) (fun a => tc_global _ _ c !! a)
         (fun n => tc_libs _ _ c !! n) with None => Ok (op : VerifiedOperation (sonic exact_sonic)) | Some e => Err e end).
    destruct (sonic_verify exact_sonic _ _ _ _ _ _) eqn:Hv; [done|]. intros _. exact (proj1 (exact_needs _ _ _ _ _ _ Hv)).
  - intros a Ha. change (bool_decide (is_Some (tc_known_ops _ _ exact_purse !! cell_opid a)) = true).
    apply bool_decide_eq_true. by apply exact_purse_known.
  - apply parties_session. apply (bool_decide_unpack _). by vm_compute.
  - apply toy_one_chain; [reflexivity| |].
    + unfold toy_chain. apply (bool_decide_unpack _). by vm_compute.
    + vm_refl.
  - exists u. split; [exact Hu|].
    assert (forall a x, u !! a = Some x <-> opened (tc_owned _ _ exact_purse)
      (three ≫= fun bs => applied_operations (log_of exact_sonic exact_api exact_purse bs)) a x = true) as Hb.
    { intros a x. rewrite Hu. symmetry. exact (opened_ok exact_sonic exact_api exact_purse (tc_owned _ _) three a x eq_refl). }
    split; [apply Hb; vm_refl|]. split; [apply Hb; vm_refl|]. split.
    + apply eq_None_not_Some. intros [x Hx%Hb]. unfold opened in Hx. apply andb_true_iff in Hx as [_ Hx].
      revert Hx. apply not_true_iff_false. vm_refl.
    + rewrite Ht. vm_refl.
Qed.

(** A codex that compares with what is found at the inputs, but does not demand that they are held, and a contract which
    forgets its cells at each operation: an operation consumes the 2 and the 3 of the genesis, and creates nothing of value.
    All other premises hold. *)
Definition sum_sonic : Sonic := {|
  sonic_codex := ToyCodex;
  sonic_lib := N;
  sonic_error := unit;
  sonic_codex_id := fun k => MkCodexId (toy_codex_bytes k);
  sonic_opid := toy_opid;
  sonic_verify := fun k cid op owned global libs =>
    if decide (amounts coin (op_destructible_out op) =
               amounts coin (omap owned (input_addr <$> op_destructible_in op)))
    then None else Some tt
|}.
Lemma sum_balanced : sonic_balanced sum_sonic coin.
Proof. intros k cid op owned global libs. unfold sum_sonic. cbn [sonic_verify]. by destruct (decide _). Qed.
Definition forgets (c : TestContract TP sum_sonic) (op : Operation) : TestContract TP sum_sonic :=
  let d := tc_apply_operation TP sum_sonic c op in {|
  tc_codex := tc_codex _ _ d; tc_contract_id := tc_contract_id _ _ d;
  tc_libs := tc_libs _ _ d; tc_global := tc_global _ _ d;
  tc_owned := ∅;
  tc_known_ops := tc_known_ops _ _ d;
  tc_seal_definitions := tc_seal_definitions _ _ d;
  tc_witnesses := tc_witnesses _ _ d |}.
Definition forgetful : ContractApi TP (sonic sum_sonic) := let A := test_ledger TP sum_sonic in {|
  Contract := TestContract TP sum_sonic;
  contract_id := contract_id A; codex := codex A; repo := repo A; memory := memory A; is_known := is_known A;
  apply_operation := forgets : TestContract TP sum_sonic -> VerifiedOperation (sonic sum_sonic) -> _;
  apply_seals := apply_seals A; apply_witness := apply_witness A |}.
Definition sum_purse : TestContract TP sum_sonic := {|
  tc_codex := toy_codex : sonic_codex sum_sonic;
  tc_contract_id := toy_cid;
  tc_libs := ∅; tc_global := ∅;
  tc_owned := insert_outputs id_m 0 (op_destructible_out mint) ∅;
  tc_known_ops := {[ id_m := mint ]};
  tc_seal_definitions := {[ id_m := ∅ ]};
  tc_witnesses := {[ id_m := [] ]} |}.
Definition burn : Operation := pay_op 3 [MkCellAddr id_p1 0; MkCellAddr id_m 1] [(def_d, 0%N)].
Definition tx_burn : ToyTx := MkToyTx (MkTxid [2%N]) [MkOutpoint (MkTxid [1%N]) 0; out_b]
  (<[ 0%N := opid_bytes (toy_opid burn) ]> {[ 1%N := opid_bytes (toy_opid burn) ]}).
Definition burning : list (list ToyBlock) := [[entry_m; entry_p1; block burn [(0%N, def_d)] (Some (wit tx_burn))]].
Definition burnt : gmap CellAddr StateCell :=
  <[MkCellAddr (toy_opid burn) 0 := piece 0 def_d]> {[ MkCellAddr id_p1 1 := piece 3 def_c ]}.
Example C80_held_needed :
  let parties := party_of sum_sonic forgetful sum_purse <$> burning in
  let cells := tc_owned TP sum_sonic in
  creates_outputs forgetful cells /\ remembers forgetful /\ balanced forgetful cells coin /\
  known_cells forgetful cells sum_purse /\
  (forall L l c, (L, l, c) ∈ parties -> session_of forgetful Empty_set sum_purse L l c) /\
  on_one_chain (U:=sonic sum_sonic) (toy_on_chain [tx_of 1 out_a id_p1; tx_burn])
    (all_entries toy_cid (parties ≫= fun p => p.1.1)) /\
  (forall a x, burnt !! a = Some x <-> open_cell forgetful cells sum_purse parties a x) /\
  total coin (cells sum_purse) = 8%N /\ total coin burnt = 3%N.
Proof.
  intros parties cells. split; [|split; [|split; [|split; [|split; [|split; [|split; [|split; vm_refl]]]]]]].
  - by split.
  - destruct (ledger_remembers TP sum_sonic) as (H1 & H2 & H3). split; [|split]; [exact H1|exact H2|exact H3].
  - intros c cid op v.
    change (codex_verify (sonic sum_sonic) ?q _ _ ?m ?r) with
      (match sonic_verify sum_sonic q cid op (fun a => tc_owned _ _ c !! a) (fun a => tc_global _ _ c !! a)
         (fun n => tc_libs _ _ c !! n) with None => Ok (op : VerifiedOperation (sonic sum_sonic)) | Some e => Err e end).
    destruct (sonic_verify sum_sonic _ _ _ _ _ _) eqn:Hv; [done|]. intros _. exact (sum_balanced _ _ _ _ _ _ Hv).
  - intros a Ha. change (bool_decide (is_Some (tc_known_ops _ _ sum_purse !! cell_opid a)) = true).
    apply bool_decide_eq_true. unfold cells in Ha. cbn [tc_owned tc_known_ops sum_purse] in *.
    rewrite insert_outputs_zero in Ha. destruct (decide (cell_opid a = id_m)) as [->|].
    + exists mint. apply lookup_singleton.
    + rewrite lookup_empty in Ha. by destruct Ha.
  - apply parties_session. apply (bool_decide_unpack _). by vm_compute.
  - apply toy_one_chain; [reflexivity| |].
    + unfold toy_chain. apply (bool_decide_unpack _). by vm_compute.
    + vm_refl.
  - intros a x. unfold parties. rewrite <-(opened_ok sum_sonic forgetful sum_purse cells burning a x eq_refl).
    assert ((burning ≫= fun bs => applied_operations (log_of sum_sonic forgetful sum_purse bs)) = [pay_1; burn]) as ->
      by vm_refl.
    set (ops := [pay_1; burn]). set (own := cells sum_purse). split.
    + unfold burnt. intros [[<- <-]|[_ [<- <-]%lookup_singleton_Some]]%lookup_insert_Some; vm_refl.
    + intros Hx.
      assert (forallb (fun e => implb (opened own ops e.1 e.2) (bool_decide (burnt !! e.1 = Some e.2)))
        (map_to_list own ++ (ops ≫= fun op => imap (fun i y => (MkCellAddr (toy_opid op) (N.of_nat i), y))
           (op_destructible_out op))) = true) as Hall by vm_refl.
      rewrite forallb_forall in Hall. specialize (Hall (a, x)). cbn [fst snd] in Hall. rewrite Hx in Hall.
      apply (bool_decide_eq_true (burnt !! a = Some x)), Hall, elem_of_list_In, elem_of_app.
      unfold opened in Hx. apply andb_true_iff in Hx as [[Hx|Hx]%orb_true_iff _].
      * left. apply elem_of_map_to_list. by apply bool_decide_eq_true in Hx.
      * right. apply existsb_exists in Hx as (op & Hop%elem_of_list_In & [H1%bool_decide_eq_true H2%bool_decide_eq_true]%andb_true_iff).
        apply elem_of_list_bind. exists op. split; [|exact Hop]. apply elem_of_lookup_imap. exists (N.to_nat (cell_pos a)), x.
        split; [|exact H2]. rewrite N2Nat.id, <-H1. by destruct a.
Qed.

(** A codex for tokens which are neither doubled nor lost; the moves of C79. *)
Definition deed_sonic : Sonic := {|
  sonic_codex := ToyCodex;
  sonic_lib := N;
  sonic_error := option ToyCallError;
  sonic_codex_id := fun k => MkCodexId (toy_codex_bytes k);
  sonic_opid := toy_opid;
  sonic_verify := fun k cid op owned global libs =>
    match sonic_verify toy_sonic k cid op owned global libs with
    | Some e => Some (Some e)
    | None =>
        let held := omap owned (input_addr <$> op_destructible_in op) in
        if forallb (fun x => bool_decide
             (length (filter (fun y => cell_data y = cell_data x) (op_destructible_out op)) =
              length (filter (fun y => cell_data y = cell_data x) held)))
           (op_destructible_out op ++ held)
        then None else Some None
    end
|}.
Notation deed_api := (test_ledger TP deed_sonic).
Lemma deed_counts k q cid op owned global libs :
  sonic_verify deed_sonic q cid op owned global libs = None ->
  length (filter (fun x => cell_data x = [k]) (op_destructible_out op)) =
  length (filter (fun x => cell_data x = [k]) (omap owned (input_addr <$> op_destructible_in op))).
Proof.
  unfold deed_sonic. cbn [sonic_verify].
  destruct (sonic_verify toy_sonic _ _ _ _ _ _); [done|]. cbn zeta. set (held := omap owned _).
  destruct (forallb _ _) eqn:Hall; [|done]. intros _. rewrite forallb_forall in Hall.
  assert (forall x, x ∈ op_destructible_out op ++ held -> cell_data x = [k] ->
    length (filter (fun x => cell_data x = [k]) (op_destructible_out op)) =
    length (filter (fun x => cell_data x = [k]) held)) as H.
  { intros x Hx Hk. apply elem_of_list_In, Hall, bool_decide_eq_true in Hx. by rewrite Hk in Hx. }
  destruct (filter (fun x => cell_data x = [k]) (op_destructible_out op)) as [|x l] eqn:Hf.
  - destruct (filter (fun x => cell_data x = [k]) held) as [|x l] eqn:Hg; [done|].
    assert (x ∈ filter (fun y => cell_data y = [k]) held) as Hx by (rewrite Hg; left).
    apply elem_of_list_filter in Hx as [Hk Hx]. apply (H x); [|done]. apply elem_of_app. by right.
  - assert (x ∈ filter (fun y => cell_data y = [k]) (op_destructible_out op)) as Hx by (rewrite Hf; left).
    apply elem_of_list_filter in Hx as [Hk Hx]. apply (H x); [|done]. apply elem_of_app. by left.
Qed.
Definition deed_wallet : TestContract TP deed_sonic := {|
  tc_codex := toy_codex : sonic_codex deed_sonic;
  tc_contract_id := toy_cid;
  tc_libs := ∅; tc_global := ∅;
  tc_owned := insert_outputs id_m 0 (op_destructible_out mint) ∅;
  tc_known_ops := {[ id_m := mint ]};
  tc_seal_definitions := {[ id_m := ∅ ]};
  tc_witnesses := {[ id_m := [] ]} |}.
Definition deed_parties := party_of deed_sonic deed_api deed_wallet <$> [nft_all; nft_some].
Example C80_token_case :
  (exists a x, open_cell deed_api (tc_owned _ _) deed_wallet deed_parties a x /\ token 5 x = true /\
     forall a' x', open_cell deed_api (tc_owned _ _) deed_wallet deed_parties a' x' -> token 5 x' = true -> a' = a) /\
  open_cell deed_api (tc_owned _ _) deed_wallet deed_parties (MkCellAddr id_n2 1) (five def_d) /\
  (* the token is not dropped *)
  sonic_verify deed_sonic toy_codex toy_cid (pay_op 9 [MkCellAddr id_m 0] [(def_w, 4%N)])
    (fun a => tc_owned _ _ deed_wallet !! a) (fun _ => None) (fun _ => None) = Some None.
Proof.
  split; [|split; [|vm_refl]].
  - assert (tc_owned _ _ deed_wallet !! MkCellAddr id_m 0 = Some (five def_a)) as H0 by vm_refl.
    refine (C80_exactly_one_owner deed_api Empty_set (tc_owned _ _) (toy_on_chain nft_chain) (token 5) deed_wallet deed_parties
      (MkCellAddr id_m 0) (five def_a) (ledger_creates_outputs _ _) (ledger_remembers _ _) (sonic_faithful _)
      _ _ _ _ _ H0 ltac:(vm_refl) _).
    + intros c cid op v.
      change (codex_verify (sonic deed_sonic) ?q _ _ ?m ?r) with
        (match sonic_verify deed_sonic q cid op (fun a => tc_owned _ _ c !! a) (fun a => tc_global _ _ c !! a)
           (fun n => tc_libs _ _ c !! n) with None => Ok (op : VerifiedOperation (sonic deed_sonic)) | Some e => Err e end).
      destruct (sonic_verify deed_sonic _ _ _ _ _ _) eqn:Hv; [done|]. intros _. rewrite !count_token.
      exact (deed_counts 5 _ _ _ _ _ _ Hv).
    + intros c cid op v.
      change (codex_verify (sonic deed_sonic) ?q _ _ ?m ?r) with
        (match sonic_verify deed_sonic q cid op (fun a => tc_owned _ _ c !! a) (fun a => tc_global _ _ c !! a)
           (fun n => tc_libs _ _ c !! n) with None => Ok (op : VerifiedOperation (sonic deed_sonic)) | Some e => Err e end).
      destruct (sonic_verify deed_sonic _ _ _ _ _ _) eqn:Hv; [done|]. intros _. unfold deed_sonic in Hv. cbn [sonic_verify] in Hv.
      destruct (sonic_verify toy_sonic _ _ _ _ _ _) eqn:Ht; [done|]. exact (proj1 (toy_needs _ _ _ _ _ _ Ht)).
    + intros a Ha. exact (bool_decide_eq_true_2 _ (exact_purse_known a Ha)).
    + apply parties_session. apply (bool_decide_unpack _). by vm_compute.
    + apply toy_one_chain; [reflexivity| |].
      * unfold toy_chain. apply (bool_decide_unpack _). by vm_compute.
      * vm_refl.
    + intros b' y' Hb' Hy'. exact (wallet_unique 5 b' _ y' (five def_a) Hb' H0 Hy' ltac:(vm_refl)).
  - apply (opened_ok deed_sonic deed_api deed_wallet (tc_owned _ _) [nft_all; nft_some] _ _ eq_refl). vm_refl.
Qed.

Print Assumptions C80_conserved.
Print Assumptions C80_exactly_one_owner.
Print Assumptions C80_bitcoin.
Print Assumptions C80_case.
Print Assumptions C80_held_needed.
Print Assumptions C80_token_case.
