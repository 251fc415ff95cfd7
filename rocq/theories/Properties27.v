(** * Properties, part 27: no inflation

    C77: what `evaluate` adds to a codex that lets no operation create more than it consumes. *)
From Verif Require Import CellFacts LedgerCells Refine Effects Consensus Sharing Scenario Counterexamples
  Properties1 Properties5.
From Coq Require Import Lia.
Notation block := Verif.Concrete.block.

(** The sum of the amounts in all cells held. *)
Definition total (amount : StateCell -> N) (m : gmap CellAddr StateCell) : N :=
  map_fold (fun _ x n => amount x + n)%N 0%N m.
(** The sum of amounts in a list of cells. *)
Definition amounts (amount : StateCell -> N) (l : list StateCell) : N :=
  foldr (fun x n => amount x + n)%N 0%N l.
(** The sum of what is found at a list of addresses; an address named twice counts twice. *)
Definition found (amount : StateCell -> N) (m : gmap CellAddr StateCell) (l : list CellAddr) : N :=
  amounts amount (omap (fun a => m !! a) l).

Section totals.
Context (amount : StateCell -> N).

Lemma total_insert m a x :
  m !! a = None -> total amount (<[a := x]> m) = (amount x + total amount m)%N.
Proof. intros H. unfold total. rewrite map_fold_insert_L; [done| |done]. intros. lia. Qed.
Lemma total_delete m a x :
  m !! a = Some x -> total amount m = (amount x + total amount (delete a m))%N.
Proof.
  intros H. rewrite <-(insert_delete m a x H) at 1. apply total_insert. apply lookup_delete.
Qed.

Lemma total_insert_le m a x :
  (total amount (<[a := x]> m) <= amount x + total amount m)%N.
Proof.
  destruct (m !! a) as [y|] eqn:Hy; [|rewrite total_insert by done; lia].
  rewrite <-insert_delete_insert, total_insert by apply lookup_delete.
  rewrite (total_delete m a y Hy). lia.
Qed.

Lemma found_delete m a l : a ∉ l -> found amount (delete a m) l = found amount m l.
Proof.
  unfold found. induction l as [|b l IH]; [done|]. intros [Hab Hl]%not_elem_of_cons. cbn.
  rewrite lookup_delete_ne by done. destruct (m !! b); cbn; [f_equal|]; by apply IH.
Qed.
Lemma total_delete_all m l :
  NoDup l -> total amount m = (found amount m l + total amount (foldr delete m l))%N.
Proof.
  induction l as [|a l IH]; intros Hnd; [done|].
  apply list.NoDup_cons in Hnd as [Ha Hnd]. rewrite (IH Hnd).
  unfold found at 2. cbn [omap list_omap foldr].
  assert (foldr delete m l !! a = m !! a) as Hl by (by rewrite lookup_delete_all, decide_False).
  destruct (m !! a) as [x|] eqn:Hx.
  - cbn [amounts foldr]. change (foldr _ _ (omap _ l)) with (found amount m l).
    rewrite (total_delete _ a x Hl). lia.
  - change (amounts amount (omap _ l)) with (found amount m l). by rewrite (delete_notin _ _ Hl).
Qed.
Lemma total_insert_outputs o l no m :
  (forall pos, m !! MkCellAddr o pos = None \/ pos < no)%N ->
  total amount (insert_outputs o no l m) = (amounts amount l + total amount m)%N.
Proof.
  revert no m. induction l as [|x l IH]; intros no m Hm; [done|].
  cbn [insert_outputs amounts foldr]. rewrite IH.
  - rewrite total_insert; [unfold amounts; lia|]. destruct (Hm no); [done|lia].
  - intros pos. destruct (decide (pos = no)) as [->|Hne]; [right; lia|].
    destruct (Hm pos) as [H|H]; [left|right; lia]. rewrite lookup_insert_ne; [done|]. congruence.
Qed.
Lemma total_insert_outputs_le o l no m :
  (total amount (insert_outputs o no l m) <= amounts amount l + total amount m)%N.
Proof.
  revert no m. induction l as [|x l IH]; intros no m; [cbn; lia|].
  cbn [insert_outputs amounts foldr]. etrans; [apply IH|].
  pose proof (total_insert_le m (MkCellAddr o no) x). unfold amounts. lia.
Qed.
End totals.

Section fair.
Context {P : SealProtocol} {U : Ultrasonic} (A : ContractApi P U) {E : Type}.
Context (cells : Contract A -> gmap CellAddr StateCell).
Hypothesis Hfaith : faithful U.
Hypothesis Hwit : forall c o w, cells (apply_witness A c o w) = cells c.

(** What holds of each operation applied in a log, in the state it is applied to. *)
Definition fair_log (c0 : Contract A) (l : list (call P U)) : Prop :=
  forall l1 v l2, l = l1 ++ CallApplyOperation v :: l2 ->
  let c := apply_calls A c0 l1 in let op := into_operation U v in
  let ins := input_addr <$> op_destructible_in op in
  (remembers A -> is_known A c (opid_of U op) = false) /\ NoDup ins /\
  exists c1 cid v', cells c1 = cells c /\ codex_verify U (codex A c1) cid op (memory A c1) (repo A c1) = Ok v'.

Lemma evaluation_fair c0 bs (fin : option E) c t r :
  evaluate A c0 bs fin = (c, t, Some r) -> fair_log c0 t.
Proof.
  intros H l1 v l2 Heq.
  destruct (applied_is_verified _ _ _ _ _ _ _ _ _ _ H Heq) as (i & b & t0 & c1 & _ & _ & Hl1 & -> & Hk & Hv).
  cbn zeta. rewrite (Hfaith _ _ _ _ _ _ Hv).
  assert (operation b ∈ applied_operations t) as Hop.
  { rewrite Heq, applied_operations_app. apply elem_of_app. right.
    change (applied_operations (CallApplyOperation v :: l2)) with (into_operation U v :: applied_operations l2).
    rewrite (Hfaith _ _ _ _ _ _ Hv). left. }
  split; [|split].
  - intros Hrem. rewrite Hl1. apply not_true_is_false. intros Hx.
    assert (is_known A (apply_calls A c0 t0) (Spec.id_of (U:=U) b) = true) as Hx'; [|congruence].
    apply apply_calls_known in Hx; [|done]. apply apply_calls_known; [done|].
    destruct Hx as [Hx|Hx]; [|by right]. left.
    unfold applied_ids, witness_calls in *. rewrite !omap_app in Hx.
    destruct (witness b); cbn in Hx; by rewrite app_nil_r in Hx.
  - destruct (applied_in_accepted A Hfaith _ _ _ _ _ _ _ H Hop) as (pre & b' & c' & t' & _ & Hacc & Hb' & <-).
    pose proof (proj2 (C06_no_double_consumption A _ _ _ _ Hacc)) as Hnd.
    destruct pre as [|b0 pre]; [by apply elem_of_nil in Hb'|].
    apply elem_of_cons in Hb' as [->|Hb'].
    + exact (Hnd 0 b0 eq_refl).
    + apply elem_of_list_lookup in Hb' as [j Hj]. exact (Hnd (S j) b' Hj).
  - exists (apply_calls A c0 t0), (contract_id A c0), v. split; [|done].
    rewrite Hl1, !apply_calls_app. symmetry. unfold witness_calls. destruct (witness b); [|done].
    apply Hwit.
Qed.

Lemma session_fair c0 l c : session A E c0 l c -> fair_log c0 l /\ c = apply_calls A c0 l.
Proof.
  intros Hs. split; [|exact (session_known A c0 l c Hs)].
  induction Hs as [|l c bs fin c' t1 t2 r Hs IH Hev].
  { intros l1 v l2 Heq. by destruct l1. }
  pose proof (session_known A c0 l c Hs) as Hc.
  intros l1 v l2 Heq. apply app_cons_split in Heq as [(k & -> & ->)|(k & -> & Hk)].
  - by eapply IH.
  - rewrite apply_calls_app, <-Hc. eapply (evaluation_fair _ _ _ _ _ _ Hev).
    rewrite Hk. by rewrite <-app_assoc.
Qed.

Lemma fair_log_snoc c0 l e : fair_log c0 (l ++ [e]) -> fair_log c0 l.
Proof. intros H l1 v l2 ->. apply (H l1 v (l2 ++ [e])). by rewrite <-app_assoc. Qed.
End fair.

Section supply.
Context {P : SealProtocol} {U : Ultrasonic} (A : ContractApi P U) {E : Type}.
Context (cells : Contract A -> gmap CellAddr StateCell) (amount : StateCell -> N).
Notation Block := (OperationSeals P).

(** The contract drops the cells an applied operation consumes and keeps those it creates,
    numbered in their order; recording seals and witnesses changes no cell.  (A behaviour of implementations of
    `ContractApi`, src/verify.rs:90-118, like that of [tc_apply_operation], src/verify.rs:365-376, extended by the
    removal of what src/verify.rs:204-205 says is no part of the state anymore.) *)
Record spends_cells : Prop := {
  spends_operation c v a :
    let op := into_operation U v in
    cells (apply_operation A c v) !! a =
      match (if decide (cell_opid a = opid_of U op) then op_destructible_out op !! N.to_nat (cell_pos a) else None) with
      | Some x => Some x
      | None => if decide (a ∈ input_addr <$> op_destructible_in op) then None else cells c !! a
      end;
  spends_seals c o s : cells (apply_seals A c o s) = cells c;
  spends_witness c o w : cells (apply_witness A c o w) = cells c
}.

(** What the codex demands of an operation: it creates not more than it consumes — where an input that is
    named twice is counted twice, and one that is not held is not counted. *)
Definition covered : Prop := forall c cid op v,
  codex_verify U (codex A c) cid op (memory A c) (repo A c) = Ok v ->
  (amounts amount (op_destructible_out op) <= found amount (cells c) (input_addr <$> op_destructible_in op))%N.
Definition balanced : Prop := forall c cid op v,
  codex_verify U (codex A c) cid op (memory A c) (repo A c) = Ok v ->
  amounts amount (op_destructible_out op) = found amount (cells c) (input_addr <$> op_destructible_in op).

(** Only cells of known operations are held. *)
Definition known_cells (c : Contract A) : Prop :=
  forall a, is_Some (cells c !! a) -> is_known A c (cell_opid a) = true.

Hypothesis Hcells : spends_cells.
Hypothesis Hfaith : faithful U.

Lemma operation_cells c v :
  let op := into_operation U v in
  cells (apply_operation A c v) =
    insert_outputs (opid_of U op) 0 (op_destructible_out op)
      (foldr delete (cells c) (input_addr <$> op_destructible_in op)).
Proof.
  intros op. apply map_eq. intros a. rewrite (spends_operation Hcells). cbn zeta. fold op.
  rewrite insert_outputs_zero, lookup_delete_all.
  destruct (decide (cell_opid a = opid_of U op)); [|done]. by destruct (op_destructible_out op !! _).
Qed.

Lemma operation_total_le c v :
  let op := into_operation U v in let ins := input_addr <$> op_destructible_in op in
  NoDup ins ->
  (total amount (cells (apply_operation A c v)) + found amount (cells c) ins <=
   total amount (cells c) + amounts amount (op_destructible_out op))%N.
Proof.
  intros op ins Hnd. rewrite operation_cells. fold op ins.
  pose proof (total_insert_outputs_le amount (opid_of U op) (op_destructible_out op) 0 (foldr delete (cells c) ins)).
  rewrite (total_delete_all amount (cells c) ins) by done. lia.
Qed.

Lemma operation_total c v :
  let op := into_operation U v in let ins := input_addr <$> op_destructible_in op in
  known_cells c -> is_known A c (opid_of U op) = false -> NoDup ins ->
  (total amount (cells (apply_operation A c v)) + found amount (cells c) ins =
   total amount (cells c) + amounts amount (op_destructible_out op))%N.
Proof.
  intros op ins Hknown Hnew Hnd. rewrite operation_cells. fold op ins. rewrite total_insert_outputs.
  - rewrite (total_delete_all amount (cells c) ins) by done. lia.
  - intros pos. left. rewrite lookup_delete_all. destruct (decide _); [done|].
    apply eq_None_not_Some. intros Hs%Hknown. cbn in Hs. congruence.
Qed.


Lemma log_total_le c0 l :
  covered -> fair_log A cells c0 l -> (total amount (cells (apply_calls A c0 l)) <= total amount (cells c0))%N.
Proof.
  intros Hcov. induction l as [|e l IH] using rev_ind; intros Hfair; [done|].
  specialize (IH (fair_log_snoc A cells _ _ _ Hfair)). rewrite apply_calls_app.
  etrans; [|exact IH]. set (c := apply_calls A c0 l) in *. cbn.
  destruct e as [ | | | | | |o w|v|o sl]; cbn; try done.
  - by rewrite (spends_witness Hcells).
  - destruct (Hfair l v [] eq_refl) as (_ & Hnd & c1 & cid & v' & Hc1 & Hv). fold c in Hc1.
    pose proof (Hcov _ _ _ _ Hv) as Hle. rewrite Hc1 in Hle.
    pose proof (operation_total_le c v Hnd). lia.
  - by rewrite (spends_seals Hcells).
Qed.

Lemma log_total c0 l :
  remembers A -> balanced -> known_cells c0 -> fair_log A cells c0 l ->
  known_cells (apply_calls A c0 l) /\ total amount (cells (apply_calls A c0 l)) = total amount (cells c0).
Proof.
  intros Hrem Hbal Hc0. pose proof Hrem as (Hr1 & Hr2 & Hr3).
  induction l as [|e l IH] using rev_ind; intros Hfair; [done|].
  destruct (IH (fair_log_snoc A cells _ _ _ Hfair)) as [Hkn <-]. rewrite apply_calls_app.
  set (c := apply_calls A c0 l) in *. cbn.
  destruct e as [ | | | | | |o w|v|o sl]; cbn; try done.
  - rewrite (spends_witness Hcells). split; [|done]. intros a. rewrite (spends_witness Hcells), Hr3. apply Hkn.
  - destruct (Hfair l v [] eq_refl) as (Hk & Hnd & c1 & cid & v' & Hc1 & Hv). fold c in Hc1, Hk.
    pose proof (Hbal _ _ _ _ Hv) as Heq. rewrite Hc1 in Heq. split.
    + intros a. rewrite (spends_operation Hcells). cbn zeta. rewrite Hr1.
      destruct (decide (cell_opid a = _)) as [->|]; [by left|].
      destruct (decide _); [by intros [? ?]|]. right. by apply Hkn.
    + pose proof (operation_total c v Hkn (Hk Hrem) Hnd). lia.
  - rewrite (spends_seals Hcells). split; [|done]. intros a. rewrite (spends_seals Hcells), Hr2. apply Hkn.
Qed.

(** ** C77 No inflation

    Whatever is evaluated, to the end or not: with a codex that lets no operation create more than its inputs
    hold, the total never grows; with one that demands equality it never changes. *)
Theorem C77_no_inflation c0 l c :
  covered -> session A E c0 l c -> (total amount (cells c) <= total amount (cells c0))%N.
Proof. intros Hcov Hs. destruct (session_fair A cells Hfaith (spends_witness Hcells) _ _ _ Hs) as [Hf ->].
  by apply log_total_le. Qed.

Theorem C77_conserved c0 l c :
  remembers A -> balanced -> known_cells c0 -> session A E c0 l c ->
  total amount (cells c) = total amount (cells c0).
Proof. intros Hrem Hbal Hc0 Hs.
  destruct (session_fair A cells Hfaith (spends_witness Hcells) _ _ _ Hs) as [Hf ->]. by apply log_total. Qed.
End supply.

(** ** With the ledger that drops consumed cells *)
Section ledger.
Context (P : SealProtocol) (S : Sonic) (E : Type) (amount : StateCell -> N).

(** What the dependency has to guarantee. *)
Definition sonic_covered : Prop := forall k cid op owned global libs,
  sonic_verify S k cid op owned global libs = None ->
  (amounts amount (op_destructible_out op) <=
   amounts amount (omap owned (input_addr <$> op_destructible_in op)))%N.
Definition sonic_balanced : Prop := forall k cid op owned global libs,
  sonic_verify S k cid op owned global libs = None ->
  amounts amount (op_destructible_out op) =
    amounts amount (omap owned (input_addr <$> op_destructible_in op)).

Lemma spending_spends_cells : spends_cells (spending_ledger P S) (tc_owned P S).
Proof.
  split; try done. intros c v a op. cbn. rewrite insert_outputs_zero, lookup_delete_all.
  change (into_operation (sonic S) v) with v in op. subst op.
  destruct (decide (cell_opid a = _)); [|done]. by destruct (op_destructible_out v !! _).
Qed.

Theorem C77_ledger (c0 c : TestContract P S) l :
  session (spending_ledger P S) E c0 l c ->
  (sonic_covered -> (total amount (tc_owned _ _ c) <= total amount (tc_owned _ _ c0))%N) /\
  (sonic_balanced -> (forall a, is_Some (tc_owned _ _ c0 !! a) -> is_Some (tc_known_ops _ _ c0 !! cell_opid a)) ->
   total amount (tc_owned _ _ c) = total amount (tc_owned _ _ c0)).
Proof.
  intros Hs. split.
  - intros Hcov. refine (C77_no_inflation (spending_ledger P S) _ amount spending_spends_cells
      (sonic_faithful S) c0 l c _ Hs).
    intros d cid op v. cbn. destruct (sonic_verify S _ _ _ _ _ _) eqn:Hv; [done|]. intros _.
    exact (Hcov _ _ _ _ _ _ Hv).
  - intros Hbal Hk. refine (C77_conserved (spending_ledger P S) _ amount spending_spends_cells
      (sonic_faithful S) c0 l c (spending_remembers P S) _ _ Hs).
    + intros d cid op v. cbn. destruct (sonic_verify S _ _ _ _ _ _) eqn:Hv; [done|]. intros _.
      exact (Hbal _ _ _ _ _ _ Hv).
    + intros a Ha. cbn. apply bool_decide_eq_true. by apply Hk.
Qed.
End ledger.

(** ** Cases *)
Definition coin (x : StateCell) : N := hd 0%N (cell_data x).
Definition pay_op (nonce : N) (ins : list CellAddr) (outs : list (WTxoSeal * N)) : Operation := {|
  op_version := 0; op_contract_id := toy_cid; op_call_id := 0; op_nonce := nonce; op_witness := [];
  op_destructible_in := (fun a => MkInput a []) <$> ins;
  op_immutable_in := [];
  op_destructible_out := (fun d => MkStateCell [d.2] (wtxo_auth_token toy_bp d.1) None) <$> outs;
  op_immutable_out := [] |}.

(** The toy codex, with a check of the amounts; [None] is the error of this check. *)
Definition fair_sonic : Sonic := {|
  sonic_codex := ToyCodex;
  sonic_lib := N;
  sonic_error := option ToyCallError;
  sonic_codex_id := fun k => MkCodexId (toy_codex_bytes k);
  sonic_opid := toy_opid;
  sonic_verify := fun k cid op owned global libs =>
    match sonic_verify toy_sonic k cid op owned global libs with
    | Some e => Some (Some e)
    | None =>
        if decide (amounts coin (op_destructible_out op) <=
                   amounts coin (omap owned (input_addr <$> op_destructible_in op)))%N
        then None else Some None
    end
|}.
Lemma fair_covered : sonic_covered fair_sonic coin.
Proof.
  intros k cid op owned global libs. unfold fair_sonic. cbn [sonic_verify].
  destruct (sonic_verify toy_sonic _ _ _ _ _ _) eqn:Hv; [done|]. destruct (decide _) as [Hle|]; [|done].
  done.
Qed.

(** The genesis issues 5 and 3; the first payment splits the 5 into 2 and 3; the second one spends the 2 and
    the 3 of the genesis into 4, and loses 1. *)
Definition mint : Operation := pay_op 1 [] [(def_a, 5%N); (def_b, 3%N)].
Definition id_m : Opid := toy_opid mint.
Definition pay_1 : Operation := pay_op 2 [MkCellAddr id_m 0] [(def_w, 2%N); (def_c, 3%N)].
Definition id_p1 : Opid := toy_opid pay_1.
Definition pay_2 : Operation := pay_op 3 [MkCellAddr id_p1 0; MkCellAddr id_m 1] [(def_d, 4%N)].
Definition id_p2 : Opid := toy_opid pay_2.
(** More than there is; the 5 once more, to someone else; the 5 counted twice. *)
Definition pay_more : Operation := pay_op 4 [MkCellAddr id_m 0] [(def_d, 6%N)].
Definition pay_again : Operation := pay_op 5 [MkCellAddr id_m 0] [(def_d, 5%N)].
Definition pay_twice : Operation := pay_op 6 [MkCellAddr id_m 0; MkCellAddr id_m 0] [(def_d, 10%N)].

Definition entry_m : ToyBlock := block (as_genesis mint) [(0%N, def_a); (1%N, def_b)] None.
Definition entry_p1 : ToyBlock := block pay_1 [(0%N, def_w)] (Some (wit (tx_of 1 out_a id_p1))).
Definition entry_p2 : ToyBlock := block pay_2 [(0%N, def_d)] (Some (wit
  (MkToyTx (MkTxid [2%N]) [MkOutpoint (MkTxid [1%N]) 0; out_b]
    (<[ 0%N := opid_bytes id_p2 ]> {[ 1%N := opid_bytes id_p2 ]})))).
Definition entry_more : ToyBlock := block pay_more [(0%N, def_d)] (Some (wit (tx_of 3 out_a (toy_opid pay_more)))).
Definition entry_again : ToyBlock :=
  block pay_again [(0%N, def_d)] (Some (wit (tx_of 4 out_a (toy_opid pay_again)))).
Definition entry_twice : ToyBlock :=
  block pay_twice [(0%N, def_d)] (Some (wit (tx_of 5 out_a (toy_opid pay_twice)))).

Definition purse : TestContract TP fair_sonic := {|
  tc_codex := toy_codex : sonic_codex fair_sonic;
  tc_contract_id := toy_cid;
  tc_libs := ∅; tc_global := ∅;
  tc_owned := insert_outputs id_m 0 (op_destructible_out mint) ∅;
  tc_known_ops := {[ id_m := mint ]};
  tc_seal_definitions := {[ id_m := ∅ ]};
  tc_witnesses := {[ id_m := [] ]} |}.
Definition fair_api : ContractApi TP (sonic fair_sonic) := spending_ledger TP fair_sonic.
Definition fair_eval (c : TestContract TP fair_sonic) (bs : list ToyBlock) :=
  evaluate fair_api (E:=Empty_set) c bs None.
Definition fair_after c bs : TestContract TP fair_sonic := (fair_eval c bs).1.1.
Lemma fair_session c bs r :
  (fair_eval c bs).2 = Some r -> exists l, session fair_api Empty_set c l (fair_after c bs).
Proof.
  unfold fair_after, fair_eval. destruct (evaluate _ _ _ _) as [[d t] r'] eqn:H. cbn. intros ->. exists t.
  pose proof (evaluate_log fair_api _ _ _ _ _ _ H) as ->. rewrite <-(app_nil_r t) in H.
  exact (session_step fair_api Empty_set c [] c bs None _ _ _ _ (session_start _ _ _) H).
Qed.

Definition codex_refuses (r : option (result (VerificationError TP (sonic fair_sonic) Empty_set) unit)) : bool :=
  match r with Some (Err (Vm _)) => true | _ => false end.

Example C77_case :
  total coin (tc_owned _ _ purse) = 8%N /\
  (fair_eval purse [entry_m; entry_p1; entry_p2]).2 = Some (Ok tt) /\
  total coin (tc_owned _ _ (fair_after purse [entry_m; entry_p1; entry_p2])) = 7%N /\
  (total coin (tc_owned _ _ (fair_after purse [entry_m; entry_p1; entry_p2])) <= total coin (tc_owned _ _ purse))%N.
Proof.
  assert ((fair_eval purse [entry_m; entry_p1; entry_p2]).2 = Some (Ok tt)) as H by vm_refl.
  split; [vm_refl|]. split; [exact H|]. split; [vm_refl|].
  destruct (fair_session _ _ _ H) as [l Hl].
  exact (proj1 (C77_ledger TP fair_sonic Empty_set coin _ _ _ Hl) fair_covered).
Qed.

(** What would inflate is refused: by the codex, when more is paid than there is, or the 5 is paid again after
    it has been spent; and by `evaluate` (src/verify.rs:195-202), when the 5 is counted twice — the codex alone
    lets this pass, and the total would be 13. *)
Example C77_refused :
  let spent := fair_after purse [entry_m; entry_p1] in
  codex_refuses (fair_eval purse [entry_m; entry_more]).2 = true /\
  (fair_eval purse [entry_m; entry_again]).2 = Some (Ok tt) /\
  codex_refuses (fair_eval spent [entry_m; entry_again]).2 = true /\
  total coin (tc_owned _ _ (fair_after spent [entry_m; entry_again])) = 8%N /\
  codex_verify (sonic fair_sonic) toy_codex toy_cid pay_twice (memory fair_api purse) (repo fair_api purse)
    = Ok (pay_twice : VerifiedOperation (sonic fair_sonic)) /\
  total coin (tc_owned _ _ (apply_operation fair_api purse (pay_twice : VerifiedOperation (sonic fair_sonic)))) = 13%N /\
  (fair_eval purse [entry_m; entry_twice]).2 = Some (Err (SealUnknown (MkCellAddr id_m 0))) /\
  total coin (tc_owned _ _ (fair_after purse [entry_m; entry_twice])) = 8%N.
Proof.
  intros spent. split; [vm_refl|]. split; [vm_refl|]. split; [vm_refl|]. split; [vm_refl|].
  split; [vm_refl|]. split; [vm_refl|]. split; vm_refl.
Qed.

(** The same codex with the ledger of the test-suite, which keeps consumed cells (src/verify.rs:365-376): in
    two consignments the 5 is spent twice, and the cells that no known operation consumes hold 13. *)
Definition unspent (c : TestContract TP fair_sonic) : gmap CellAddr StateCell :=
  filter (fun e => forallb (fun o => negb (bool_decide (e.1 ∈ input_addr <$> op_destructible_in o.2)))
    (map_to_list (tc_known_ops _ _ c)) = true) (tc_owned _ _ c).
Definition kept_after (c : TestContract TP fair_sonic) (bs : list ToyBlock) : TestContract TP fair_sonic :=
  (evaluate (test_ledger TP fair_sonic) (E:=Empty_set) c bs None).1.1.
Example C77_spending_needed :
  let c1 := kept_after purse [entry_m; entry_p1] in
  (evaluate (test_ledger TP fair_sonic) (E:=Empty_set) purse [entry_m; entry_p1] None).2 = Some (Ok tt) /\
  (evaluate (test_ledger TP fair_sonic) (E:=Empty_set) c1 [entry_m; entry_again] None).2 = Some (Ok tt) /\
  total coin (unspent purse) = 8%N /\ total coin (unspent c1) = 8%N /\
  total coin (unspent (kept_after c1 [entry_m; entry_again])) = 13%N.
Proof.
  intros c1. split; [vm_refl|]. split; [vm_refl|]. split; [vm_refl|]. split; vm_refl.
Qed.

(** A codex demanding equality. *)
Definition exact_sonic : Sonic := {|
  sonic_codex := ToyCodex;
  sonic_lib := N;
  sonic_error := option ToyCallError;
  sonic_codex_id := fun k => MkCodexId (toy_codex_bytes k);
  sonic_opid := toy_opid;
  sonic_verify := fun k cid op owned global libs =>
    match sonic_verify toy_sonic k cid op owned global libs with
    | Some e => Some (Some e)
    | None =>
        if decide (amounts coin (op_destructible_out op) =
                   amounts coin (omap owned (input_addr <$> op_destructible_in op)))
        then None else Some None
    end
|}.
Lemma exact_balanced : sonic_balanced exact_sonic coin.
Proof.
  intros k cid op owned global libs. unfold exact_sonic. cbn [sonic_verify].
  destruct (sonic_verify toy_sonic _ _ _ _ _ _) eqn:Hv; [done|]. destruct (decide _) as [Hle|]; [|done].
  done.
Qed.
Definition exact_purse : TestContract TP exact_sonic := {|
  tc_codex := toy_codex : sonic_codex exact_sonic;
  tc_contract_id := toy_cid;
  tc_libs := ∅; tc_global := ∅;
  tc_owned := insert_outputs id_m 0 (op_destructible_out mint) ∅;
  tc_known_ops := {[ id_m := mint ]};
  tc_seal_definitions := {[ id_m := ∅ ]};
  tc_witnesses := {[ id_m := [] ]} |}.
Definition exact_eval (bs : list ToyBlock) :=
  evaluate (spending_ledger TP exact_sonic) (E:=Empty_set) exact_purse bs None.

(** The second payment, which loses 1, is refused; the first one stays. *)
Example C77_exact_case :
  let d := (exact_eval [entry_m; entry_p1; entry_p2]).1.1 in
  tc_owned _ _ d !! MkCellAddr id_p1 0 = Some (MkStateCell [2%N] (wtxo_auth_token toy_bp def_w) None) /\
  tc_owned _ _ d !! MkCellAddr id_p2 0 = None /\
  total coin (tc_owned _ _ d) = 8%N /\
  total coin (tc_owned _ _ d) = total coin (tc_owned _ _ exact_purse).
Proof.
  intros d. split; [vm_refl|]. split; [vm_refl|]. split; [vm_refl|]. unfold d, exact_eval.
  assert (is_Some (exact_eval [entry_m; entry_p1; entry_p2]).2) as [r Hr].
  { apply (bool_decide_unpack _). by vm_compute. }
  unfold exact_eval in Hr. destruct (evaluate _ _ _ _) as [[e t] r'] eqn:H. cbn in Hr |- *. subst r'.
  pose proof (evaluate_log (spending_ledger TP exact_sonic) _ _ _ _ _ _ H) as Hlog. rewrite Hlog.
  rewrite <-(app_nil_r t) in H.
  refine (proj2 (C77_ledger TP exact_sonic Empty_set coin _ _ _
    (session_step (spending_ledger TP exact_sonic) Empty_set _ [] _ _ None _ _ _ _ (session_start _ _ _) H))
    exact_balanced _).
  intros a Ha. cbn [tc_owned tc_known_ops exact_purse] in *. rewrite insert_outputs_zero in Ha.
  destruct (decide (cell_opid a = id_m)) as [->|].
  - exists mint. apply lookup_singleton.
  - rewrite lookup_empty in Ha. by destruct Ha.
Qed.

Print Assumptions C77_no_inflation.
Print Assumptions C77_conserved.
Print Assumptions C77_ledger.
Print Assumptions C77_case.
Print Assumptions C77_refused.
Print Assumptions C77_spending_needed.
Print Assumptions C77_exact_case.
