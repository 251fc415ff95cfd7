(** * Facts about contracts that keep cells *)
From Verif Require Export Cells Laws.
From Coq Require Import Lia.

Section facts.
Context {P : SealProtocol} {U : Ultrasonic} (A : ContractApi P U).
Context {X : Type} (peek : Contract A -> Slot -> option X) (out : Operation -> Slot -> option X).
Context (gone : Operation -> Slot -> bool).

Notation Block := (OperationSeals P).
Notation Calls := (list (call P U)).
Notation id_of := (id_of (U:=U)).
Notation reveals := (reveals (U:=U)).
Notation live := (live (U:=U)).
Notation spends := (spends (U:=U)).
Notation intact := (intact A peek).

Implicit Types (c : Contract A) (bs pre post h : list Block) (b : Block) (t l : Calls) (s : Slot).

Hypothesis Hcells : keeps_cells A peek out gone.
Hypothesis Hrem : remembers A.
Hypothesis Hfaith : faithful U.

Lemma same_setting_refl c : same_setting A c c.
Proof. done. Qed.
Lemma same_setting_sym c c' : same_setting A c c' -> same_setting A c' c.
Proof. by intros (? & ? & ?). Qed.
Lemma same_setting_trans c c' c'' : same_setting A c c' -> same_setting A c' c'' -> same_setting A c c''.
Proof. intros (? & ? & ?) (? & ? & ?). repeat split; congruence. Qed.

Lemma not_known c o : is_known A c o = false <-> ~ is_known A c o = true.
Proof. by rewrite not_true_iff_false. Qed.

(** ** Logs *)

(** Each operation applied in the log was unknown then, and the cells it destroys were there. *)
Definition fresh_log c0 l : Prop :=
  forall l1 v l2, l = l1 ++ CallApplyOperation v :: l2 ->
    is_known A (apply_calls A c0 l1) (opid_of U (into_operation U v)) = false /\
    forall s, gone (into_operation U v) s = true -> is_Some (peek (apply_calls A c0 l1) s).

Lemma applied_ids_operations l : applied_ids l = opid_of U <$> applied_operations l.
Proof.
  unfold applied_ids, applied_operations. induction l as [|e l IH]; [done|].
  destruct e; cbn; by rewrite IH.
Qed.

Lemma applied_operations_app l l' :
  applied_operations (l ++ l') = applied_operations l ++ applied_operations l'.
Proof. apply omap_app. Qed.

Lemma apply_calls_known_op c l o :
  is_known A (apply_calls A c l) o = true <->
  is_known A c o = true \/ exists op, op ∈ applied_operations l /\ opid_of U op = o.
Proof.
  rewrite apply_calls_known by done. rewrite applied_ids_operations, elem_of_list_fmap.
  split; intros [H|H]; try (by auto).
  - right. destruct H as (op & ? & ?). by exists op.
  - left. destruct H as (op & ? & ?). by exists op.
Qed.

Lemma apply_call_setting c e : same_setting A (apply_call A c e) c.
Proof. destruct e; cbn; try done; apply Hcells. Qed.

(** The contract [c] has the cells of [c0], changed by the operations [ops]. *)
Definition cells_after c0 (ops : list Operation) c : Prop :=
  (forall op s, op ∈ ops -> gone op s = true -> peek c s = None /\ is_known A c (slot_opid s) = true) /\
  (forall s, (forall op, op ∈ ops -> gone op s = false) ->
     is_known A c0 (slot_opid s) = true -> peek c s = peek c0 s) /\
  (forall op s, (forall op', op' ∈ ops -> gone op' s = false) ->
     op ∈ ops -> slot_opid s = opid_of U op -> peek c s = out op s).

Lemma log_state c0 l :
  intact c0 -> fresh_log c0 l ->
  let c := apply_calls A c0 l in
  same_setting A c c0 /\ intact c /\ cells_after c0 (applied_operations l) c.
Proof.
  intros Hint. cbv zeta. induction l as [|e l IH] using rev_ind; intros Hfresh.
  { cbn. split; [done|]. split; [done|]. split; [|split]; intros; try done; exfalso; by eapply elem_of_nil. }
  destruct IH as (I1 & I2 & I3 & I4 & I5).
  { intros l1 v l2 ->. eapply Hfresh. by rewrite <-app_assoc. }
  rewrite apply_calls_app, applied_operations_app. set (c := apply_calls A c0 l) in *.
  change (apply_calls A c [e]) with (apply_call A c e).
  split. { eapply same_setting_trans; [apply apply_call_setting|done]. }
  assert (forall v, e = CallApplyOperation v -> is_known A c (opid_of U (into_operation U v)) = false /\
    forall s, gone (into_operation U v) s = true -> is_Some (peek c s)) as Hunk.
  { intros v ->. by apply (Hfresh l v []). }
  assert ((forall v, e <> CallApplyOperation v) -> forall s, peek (apply_call A c e) s = peek c s) as Hsame.
  { intros Hne s. destruct e; cbn; try done; try apply Hcells. by destruct (Hne v). }
  assert (forall o, is_known A (apply_call A c e) o = true <-> applied_id e = Some o \/ is_known A c o = true) as Hk.
  { intros o. by apply apply_call_known. }
  destruct (applied_operation e) as [op|] eqn:He.
  - destruct e as [ | | | | | | |v|]; try done. cbn in He. injection He as <-.
    destruct (Hunk v eq_refl) as [Hun Hpres].
    assert (forall s, peek (apply_call A c (CallApplyOperation v)) s =
      if decide (slot_opid s = opid_of U (into_operation U v)) then out (into_operation U v) s
      else if gone (into_operation U v) s then None else peek c s) as Hpk.
    { intros s. cbn. apply (cells_operation _ _ _ _ Hcells). intros s' Hs'. apply I2. by rewrite Hs'. }
    assert (forall o, is_known A c o = true -> o <> opid_of U (into_operation U v)) as Hne.
    { intros o Ho ->. congruence. }
    change (applied_operations [CallApplyOperation v]) with [into_operation U v].
    split; [|split; [|split]].
    + intros s Hs. apply not_known in Hs. rewrite Hk in Hs. rewrite Hpk. cbn in Hs.
      rewrite decide_False by (intros Heq; apply Hs; left; by rewrite Heq).
      destruct (gone _ _); [done|]. apply I2, not_known. intros Hx. apply Hs. by right.
    + intros op s Hop Hg. rewrite Hpk, Hk. apply elem_of_app in Hop as [Hop| ->%elem_of_list_singleton].
      * destruct (I3 op s Hop Hg) as [Hn Hkn]. rewrite decide_False by (by apply Hne).
        rewrite Hn. split; [by case_match|by right].
      * assert (is_known A c (slot_opid s) = true) as Hkn.
        { destruct (is_known A c (slot_opid s)) eqn:Hx; [done|]. destruct (Hpres s Hg) as [x Hxx].
          by rewrite (I2 s Hx) in Hxx. }
        rewrite decide_False by (by apply Hne). rewrite Hg. split; [done|by right].
    + intros s Hno Hs. rewrite Hpk.
      assert (is_known A c (slot_opid s) = true) as Hkn.
      { unfold c. apply apply_calls_known_op. by left. }
      rewrite decide_False by (by apply Hne). rewrite (Hno (into_operation U v)).
      * apply I4; [|done]. intros op Hop. apply Hno. apply elem_of_app. by left.
      * apply elem_of_app. right. left.
    + intros op s Hno Hop Hs. rewrite Hpk. apply elem_of_app in Hop as [Hop| ->%elem_of_list_singleton].
      * assert (is_known A c (slot_opid s) = true) as Hkn.
        { unfold c. apply apply_calls_known_op. right. by exists op. }
        rewrite decide_False by (by apply Hne). rewrite (Hno (into_operation U v)).
        -- apply I5; [|done..]. intros op' Hop'. apply Hno. apply elem_of_app. by left.
        -- apply elem_of_app. right. left.
      * by rewrite decide_True.
  - assert (forall v, e <> CallApplyOperation v) as Hne by (intros v ->; done).
    assert (forall o, is_known A (apply_call A c e) o = true <-> is_known A c o = true) as Hk'.
    { intros o. rewrite Hk. clear -Hne. destruct e; cbn; naive_solver. }
    assert (applied_operations [e] = []) as ->. { unfold applied_operations. cbn. by rewrite He. }
    rewrite app_nil_r. split; [|split; [|split]].
    + intros s Hs. rewrite Hsame by done. apply I2. apply not_known. rewrite <-Hk'. by apply not_known.
    + intros op s Hop Hg. rewrite Hsame, Hk' by done. by apply (I3 op).
    + intros s Hno Hs. rewrite Hsame by done. by apply I4.
    + intros op s Hno Hop Hs. rewrite Hsame by done. by apply I5.
Qed.

Lemma evaluation_fresh {E} c0 bs (fin : option E) c t r :
  evaluate A c0 bs fin = (c, t, Some r) -> fresh_log c0 t.
Proof.
  intros H l1 v l2 Heq.
  destruct (applied_is_verified _ _ _ _ _ _ _ _ _ _ H Heq) as (i & b & t0 & c1 & _ & _ & -> & -> & Hk & Hv).
  rewrite (Hfaith _ _ _ _ _ _ Hv). split.
  - apply not_known. intros Hx. apply not_known in Hk. apply Hk.
    apply apply_calls_known in Hx; [|done]. apply apply_calls_known; [done|].
    destruct Hx as [Hx|Hx]; [|by right]. left.
    unfold applied_ids, witness_calls in *. rewrite !omap_app in Hx.
    destruct (witness b); cbn in Hx; by rewrite app_nil_r in Hx.
  - intros s Hg. rewrite !apply_calls_app.
    assert (forall d, peek (apply_calls A d (witness_calls b)) s = peek d s) as Hw.
    { intros d. unfold witness_calls. destruct (witness b); [|done]. apply (cells_witness _ _ _ _ Hcells). }
    rewrite Hw. exact (gone_present _ _ _ _ Hcells _ _ _ _ _ Hv Hg).
Qed.

Lemma session_log {E} c0 l c : session A E c0 l c -> c = apply_calls A c0 l.
Proof. apply session_known. Qed.

Lemma session_fresh {E} c0 l c : session A E c0 l c -> fresh_log c0 l.
Proof.
  induction 1 as [|l c bs fin c' t1 t2 r Hs IH Hev].
  { intros l1 v l2 Heq. by destruct l1. }
  pose proof (session_log _ _ _ Hs) as Hc.
  intros l1 v l2 Heq. apply app_cons_split in Heq as [(k & -> & ->)|(k & -> & Hk)].
  - by eapply IH.
  - rewrite apply_calls_app, <-Hc. eapply (evaluation_fresh _ _ _ _ _ _ Hev).
    rewrite Hk. by rewrite <-app_assoc.
Qed.

Lemma session_state {E} c0 l c :
  intact c0 -> session A E c0 l c ->
  same_setting A c c0 /\ intact c /\
  (forall o, is_known A c o = true <->
     is_known A c0 o = true \/ exists op, op ∈ applied_operations l /\ opid_of U op = o) /\
  cells_after c0 (applied_operations l) c.
Proof.
  intros Hint Hs. pose proof (session_fresh _ _ _ Hs) as Hf. rewrite (session_log _ _ _ Hs).
  destruct (log_state c0 l Hint Hf) as (H1 & H2 & H3).
  split; [done|]. split; [done|]. split; [|done]. intros o. apply apply_calls_known_op.
Qed.

Lemma session_new {E} c0 l c op :
  session A E c0 l c -> op ∈ applied_operations l -> is_known A c0 (opid_of U op) = false.
Proof.
  intros Hs%session_fresh Hop. apply elem_of_list_omap in Hop as (e & He & Heop).
  destruct e as [ | | | | | | |v|]; try done. cbn in Heop. injection Heop as <-.
  apply elem_of_list_split in He as (k1 & k2 & ->). destruct (Hs k1 v k2 eq_refl) as [Hk _].
  apply not_known. intros Hx. apply not_known in Hk. apply Hk. apply apply_calls_known_op. by left.
Qed.

(** ** A run *)
Lemma effects_applied c0 bs c b :
  block_valid A c0 bs c b ->
  let b' := seen (contract_id A c0) bs b in
  applied_operations (block_effects A c0 bs c b) =
    if is_first bs then [] else if is_known A c (id_of b') then [] else [operation b'].
Proof.
  intros (_ & _ & _ & Hvm) b'. unfold block_effects. fold b'. rewrite !applied_operations_app.
  assert (applied_operations (witness_calls (U:=U) b') = []) as ->.
  { unfold witness_calls. by destruct (witness b'). }
  assert (applied_operations (seals_calls (U:=U) b') = []) as ->.
  { unfold seals_calls. by destruct (decide _). }
  rewrite app_nil_r. cbn. unfold operation_calls. destruct (is_first bs); [done|].
  fold b' in Hvm. destruct (is_known A c (id_of b')) eqn:Hk; [done|].
  destruct (Hvm Hk) as [v Hv]. rewrite Hv. cbn. by rewrite (Hfaith _ _ _ _ _ _ Hv).
Qed.

Lemma block_calls_applied c0 bs c b :
  applied_operations (block_calls A c0 bs c b) = applied_operations (block_effects A c0 bs c b).
Proof.
  unfold block_calls. change (CallRead :: ?x) with ([CallRead] ++ x). rewrite !applied_operations_app. cbn.
  unfold query_calls. by destruct (is_known A c _).
Qed.

Lemma run_fresh c0 bs t c : valid_run A c0 bs t c -> fresh_log c0 t.
Proof.
  intros H%(valid_run_accepted A (E:=Empty_set)) l1 v l2 ->.
  apply evaluation_fresh in H.
  specialize (H ([CallContractId; CallCodex] ++ l1) v (l2 ++ [CallRead])).
  rewrite apply_calls_app in H. apply H. by rewrite <-!app_assoc.
Qed.

Lemma is_first_false bs : is_first bs = false <-> bs <> [].
Proof. by destruct bs. Qed.

Lemma tail_snoc c0 bs b :
  let cid := contract_id A c0 in
  tail (history cid (bs ++ [b])) = if is_first bs then [] else tail (history cid bs) ++ [b].
Proof. by destruct bs. Qed.

Lemma run_state c0 bs t c :
  intact c0 -> valid_run A c0 bs t c ->
  let h := history (contract_id A c0) bs in
  same_setting A c c0 /\ intact c /\
  (forall o, is_known A c o = true <-> is_known A c0 o = true \/ exists b, b ∈ tail h /\ id_of b = o) /\
  (forall op, op ∈ applied_operations t ->
     exists b, b ∈ tail h /\ operation b = op /\ is_known A c0 (id_of b) = false) /\
  (forall b, b ∈ tail h -> is_known A c0 (id_of b) = false ->
     exists op, op ∈ applied_operations t /\ opid_of U op = id_of b) /\
  cells_after c0 (applied_operations t) c.
Proof.
  intros Hint H. cbv zeta.
  pose proof (run_fresh _ _ _ _ H) as Hf. pose proof (valid_run_contract _ _ _ _ _ H) as Hc.
  destruct (log_state c0 t Hint Hf) as (H1 & H2 & H3). rewrite <-Hc in H1, H2, H3.
  assert (forall op, op ∈ applied_operations t ->
    exists b, b ∈ tail (history (contract_id A c0) bs) /\ operation b = op /\ is_known A c0 (id_of b) = false) as Ha.
  { clear -Hfaith H Hrem. induction H as [|bs t c b H IH Hv]; [by intros op Hop%elem_of_nil|].
    intros op. rewrite applied_operations_app, block_calls_applied, effects_applied by done.
    rewrite tail_snoc, elem_of_app. intros [Hop|Hop].
    - destruct (IH op Hop) as (x & Hx & Hxo). exists x. split; [|done].
      destruct bs; [by apply elem_of_nil in Hx|]. cbn. apply elem_of_app. by left.
    - destruct bs as [|b0 bs]; [by apply elem_of_nil in Hop|]. cbn [is_first seen] in Hop |- *.
      destruct (is_known A c (id_of b)) eqn:Hk; [by apply elem_of_nil in Hop|].
      apply elem_of_list_singleton in Hop as ->. exists b.
      split; [apply elem_of_app; right; left|]. split; [done|].
      apply not_known. intros Hx. apply not_known in Hk. apply Hk.
      rewrite (valid_run_contract _ _ _ _ _ H). apply apply_calls_known_op. by left. }
  assert (forall b, b ∈ tail (history (contract_id A c0) bs) -> is_known A c (id_of b) = true) as Hb.
  { clear -Hfaith H Hrem. induction H as [|bs t c b H IH Hv]; [by intros b Hb%elem_of_nil|].
    intros x. rewrite tail_snoc. destruct bs as [|b0 bs]; [by intros Hx%elem_of_nil|].
    cbn [is_first]. intros Hx. apply apply_calls_known_op. rewrite effects_applied by done. cbn [is_first seen].
    apply elem_of_app in Hx as [Hx| ->%elem_of_list_singleton]; [left; by apply IH|].
    destruct (is_known A c (id_of b)) eqn:Hk; [by left|]. right. exists (operation b). split; [left|done]. }
  assert (forall o, is_known A c o = true <-> is_known A c0 o = true \/
    exists op, op ∈ applied_operations t /\ opid_of U op = o) as Hk.
  { intros o. rewrite Hc. apply apply_calls_known_op. }
  split; [done|]. split; [done|]. split; [|split; [done|split; [|done]]].
  - intros o. split.
    + intros [Ho|(op & Hop & <-)]%Hk; [by left|]. destruct (Ha op Hop) as (b & Hbt & <- & _). right. by exists b.
    + intros [Ho|(b & Hbt & <-)]; [apply Hk; by left|by apply Hb].
  - intros b Hbt Hn. apply Hb in Hbt. apply Hk in Hbt as [Hx|Hx]; [congruence|done].
Qed.

(** ** C45 *)
Lemma valid_live h h' a sl i j b :
  NoDup (id_of <$> h) -> NoDup (id_of <$> h') -> h' ⊆ h ->
  h !! j = Some b -> h' !! i = Some b ->
  (forall k bk, h !! k = Some bk -> consumes bk a -> k = j) ->
  (forall e, e ∈ h -> id_of e = cell_opid a -> precedes h e b -> precedes h' e b) ->
  live (take j h) a sl -> live (take i h') a sl.
Proof.
  intros Hnd Hnd' Hsub Hj Hi Honce Hprec (k & e & Hk & Hr & Hlater).
  apply lookup_take_Some in Hk as [Hk Hkj].
  destruct (Hprec e) as (i1 & i2 & Hlt & Hi1 & Hi2).
  { by eapply elem_of_list_lookup_2. }
  { symmetry. apply Hr. }
  { by exists k, j. }
  assert (forall x y bx, h' !! x = Some bx -> h' !! y = Some bx -> x = y) as Hinj.
  { intros x y bx Hx Hy. eapply NoDup_lookup; [exact Hnd'| |]; rewrite list_lookup_fmap, ?Hx, ?Hy; done. }
  assert (forall x y bx by', h' !! x = Some bx -> h' !! y = Some by' -> id_of bx = id_of by' -> x = y) as Hinj2.
  { intros x y bx by' Hx Hy Heq. eapply NoDup_lookup; [exact Hnd'| |]; rewrite list_lookup_fmap, ?Hx, ?Hy; cbn; [done|by rewrite Heq]. }
  assert (i2 = i) as -> by (by eapply Hinj).
  exists i1, e. split; [by rewrite lookup_take|]. split; [done|].
  intros x bx Hx Hbx. apply lookup_take_Some in Hbx as [Hbx Hxi]. split.
  - intros Hc. assert (bx ∈ h) as Hin by (apply Hsub; by eapply elem_of_list_lookup_2).
    apply elem_of_list_lookup in Hin as [y Hy].
    assert (y = j) as -> by (by eapply Honce). simplify_eq.
    assert (x = i) by (by eapply Hinj). lia.
  - intros s' Hr'. assert (x = i1); [|lia]. eapply Hinj2; [done|done|].
    destruct Hr as [Hr _], Hr' as [Hr' _]. congruence.
Qed.

Lemma calls_for_app o t t' : calls_for o (t ++ t') = calls_for o t ++ calls_for o t'.
Proof. apply List.filter_app. Qed.

Lemma calls_for_effects c0 bs c b o :
  let b' := seen (contract_id A c0) bs b in
  calls_for o (block_effects A c0 bs c b) = if decide (o = id_of b') then block_effects A c0 bs c b else [].
Proof.
  intros b'. unfold block_effects. fold b'. rewrite !calls_for_app.
  assert (calls_for o (witness_calls b') = if decide (o = id_of b') then witness_calls b' else []) as ->.
  { unfold witness_calls. destruct (witness b'); cbn; repeat case_decide; try done;
      case_bool_decide; congruence. }
  assert (calls_for o (seals_calls b') = if decide (o = id_of b') then seals_calls b' else []) as ->.
  { unfold seals_calls. destruct (decide (defined_seals b' = ∅)); cbn; repeat case_decide; try done;
      case_bool_decide; congruence. }
  assert (calls_for o (operation_calls A (contract_id A c0) c (is_first bs) b') =
    if decide (o = id_of b') then operation_calls A (contract_id A c0) c (is_first bs) b' else []) as ->.
  { unfold operation_calls. destruct (is_first bs); [by case_decide|].
    destruct (is_known A c (id_of b')); [by case_decide|].
    destruct (vm_verdict A (contract_id A c0) c b') as [v|] eqn:Hv; [|by case_decide].
    apply Hfaith in Hv. cbn. rewrite Hv. change (opid_of U (operation b')) with (id_of b').
    case_decide; case_bool_decide; congruence. }
  by case_decide.
Qed.

Lemma calls_for_block c0 bs c b o :
  let b' := seen (contract_id A c0) bs b in
  calls_for o (block_calls A c0 bs c b) = if decide (o = id_of b') then block_effects A c0 bs c b else [].
Proof.
  intros b'. unfold block_calls. change (CallRead :: ?x) with ([CallRead] ++ x).
  rewrite !calls_for_app, calls_for_effects. fold b'.
  assert (calls_for o (query_calls A c b') = []) as ->; [|done].
  unfold query_calls. by destruct (is_known A c (id_of b')).
Qed.

Lemma calls_for_none c0 bs t c o :
  valid_run A c0 bs t c -> o ∉ id_of <$> history (contract_id A c0) bs -> calls_for o t = [].
Proof.
  intros H Hn. induction H as [|bs t c b H IH Hv]; [done|].
  rewrite history_snoc, fmap_app in Hn.
  rewrite calls_for_app, calls_for_block, decide_False.
  - rewrite IH; [done|]. set_solver.
  - set_solver.
Qed.

Lemma calls_for_entry c0 pre b post t c t1 c1 :
  NoDup (id_of <$> history (contract_id A c0) (pre ++ b :: post)) ->
  valid_run A c0 (pre ++ b :: post) t c -> valid_run A c0 pre t1 c1 ->
  calls_for (id_of (seen (contract_id A c0) pre b)) t = block_effects A c0 pre c1 b.
Proof.
  intros Hnd H H1. revert t c Hnd H. induction post as [|x post IH] using rev_ind; intros t c Hnd H.
  - apply valid_run_snoc_inv in H as (t' & c' & H' & Hv & -> & _).
    destruct (valid_run_functional _ _ _ _ _ _ _ H1 H') as [<- <-].
    rewrite calls_for_app, calls_for_block, decide_True by done.
    assert (calls_for (id_of (seen (contract_id A c0) pre b)) t1 = []) as ->; [|done].
    rewrite history_middle, fmap_app in Hnd. apply NoDup_app in Hnd as (_ & Hnd & _).
    assert (id_of (seen (contract_id A c0) pre b) ∉ id_of <$> history (contract_id A c0) pre) as Hn.
    { intros Hin. apply (Hnd _ Hin). set_solver. }
    by eapply calls_for_none.
  - rewrite app_comm_cons, app_assoc in H, Hnd.
    apply valid_run_snoc_inv in H as (t' & c' & H' & Hv & -> & _).
    rewrite history_snoc, fmap_app in Hnd. apply NoDup_app in Hnd as (Hnd1 & Hnd2 & _).
    rewrite calls_for_app, (IH _ _ Hnd1 H'), calls_for_block, decide_False; [by rewrite app_nil_r|].
    intros Heq. apply (Hnd2 (id_of (seen (contract_id A c0) pre b))).
    + apply elem_of_list_fmap_1. rewrite history_middle. set_solver.
    + rewrite Heq. set_solver.
Qed.

(** The verdict depends on the cells named. *)
Lemma verdict_local cid c c' b :
  same_setting A c c' ->
  (forall s, s ∈ reads (operation b) -> peek c s = peek c' s) ->
  vm_verdict A cid c b = vm_verdict A cid c' b.
Proof. intros (_ & H1 & H2) Hr. by apply (cells_local _ _ _ _ Hcells). Qed.

Lemma elem_of_reads_owned (b : Block) a : consumes b a <-> Owned a ∈ reads (operation b).
Proof.
  unfold consumes, inputs_of, reads. rewrite elem_of_app. split.
  - intros H. left. by apply elem_of_list_fmap_1.
  - intros [H|H].
    + apply elem_of_list_fmap in H as (x & [= <-] & H). done.
    + apply elem_of_list_fmap in H as (x & H & _). done.
Qed.

Lemma NoDup_ids_inj h i j b b' :
  NoDup (id_of <$> h) -> h !! i = Some b -> h !! j = Some b' -> id_of b = id_of b' -> i = j.
Proof.
  intros Hnd Hi Hj Heq.
  eapply NoDup_lookup; [exact Hnd| |]; rewrite list_lookup_fmap, ?Hi, ?Hj; cbn; [done|by rewrite Heq].
Qed.

(** What the state is after a run all entries of which have different ids. *)
Lemma run_cell c0 bs t c s :
  intact c0 -> valid_run A c0 bs t c ->
  NoDup (id_of <$> history (contract_id A c0) bs) ->
  (forall b, b ∈ tail (history (contract_id A c0) bs) -> is_known A c0 (id_of b) = false ->
     gone (operation b) s = false) ->
  (forall b, b ∈ tail (history (contract_id A c0) bs) -> is_known A c0 (id_of b) = false ->
     slot_opid s = id_of b -> peek c s = out (operation b) s) /\
  ((forall b, b ∈ tail (history (contract_id A c0) bs) -> slot_opid s <> id_of b) \/
   is_known A c0 (slot_opid s) = true -> peek c s = peek c0 s).
Proof.
  intros Hint Hr Hnd Hno.
  destruct (run_state c0 bs t c Hint Hr) as (R1 & R2 & R3 & R4 & R5 & D1 & D2 & D3).
  assert (forall op, op ∈ applied_operations t -> gone op s = false) as Hno'.
  { intros op Hop. destruct (R4 op Hop) as (b & Hb & <- & Hk). by apply Hno. }
  split.
  - intros b Hb Hunk Hs. destruct (R5 b Hb Hunk) as (op & Hop & Hid).
    rewrite (D3 op s Hno' Hop) by congruence. f_equal.
    destruct (R4 op Hop) as (b' & Hb' & <- & _). f_equal.
    destruct (history (contract_id A c0) bs) as [|x h]; [set_solver|]. cbn in Hb, Hb', Hnd.
    apply list.NoDup_cons in Hnd as [_ Hnd].
    apply elem_of_list_lookup in Hb as [i Hi], Hb' as [j Hj].
    assert (i = j) as -> by (by eapply NoDup_ids_inj). congruence.
  - intros Hc. destruct (is_known A c0 (slot_opid s)) eqn:Hk; [by apply D2|].
    destruct Hc as [Hn|Hc]; [|done].
    rewrite (Hint s Hk). apply R2. apply not_known. intros Hx.
    apply R3 in Hx as [Hx|(b & Hb & Hid)]; [congruence|]. by apply (Hn b Hb).
Qed.

(** A cell named by an entry is destroyed by no other entry. *)
Lemma named_not_gone c0 bs c t i j b e s :
  evaluate A (E:=Empty_set) c0 bs None = (c, t, Some (Ok tt)) ->
  NoDup (id_of <$> history (contract_id A c0) bs) ->
  history (contract_id A c0) bs !! i = Some b -> history (contract_id A c0) bs !! j = Some e ->
  s ∈ reads (operation b) -> i <> j -> gone (operation e) s = false.
Proof.
  intros Hacc Hnd Hi Hj Hs Hne. destruct (gone (operation e) s) eqn:Hg; [|done]. exfalso. apply Hne.
  destruct (gone_input _ _ _ _ Hcells _ _ Hg) as (a & -> & Ha).
  apply elem_of_reads_owned in Hs. apply elem_of_list_lookup in Hs as [m Hm], Ha as [n Hn].
  exact (proj1 (consumed_once A c0 bs c t i j m n b e a Hacc Hnd Hi Hm Hj Hn)).
Qed.

Lemma selection_run c0 b0 rest rest' t c :
  intact c0 -> valid_run A c0 (b0 :: rest) t c ->
  let h := history (contract_id A c0) (b0 :: rest) in
  let h' := history (contract_id A c0) (b0 :: rest') in
  NoDup (id_of <$> h) -> NoDup (id_of <$> h') -> rest' ⊆ rest ->
  (forall b e s, b ∈ rest' -> e ∈ h -> s ∈ reads (operation b) -> slot_opid s = id_of e ->
     precedes h e b <-> precedes h' e b) ->
  forall pre' post', b0 :: rest' = pre' ++ post' ->
  exists t' c', valid_run A c0 pre' t' c' /\
    forall b, b ∈ history (contract_id A c0) pre' -> calls_for (id_of b) t' = calls_for (id_of b) t.
Proof.
  intros Hint Hrun h h' Hnd Hnd' Hsub Hord pre'.
  assert (Hacc : evaluate A (E:=Empty_set) c0 (b0 :: rest) None =
    (c, [CallContractId; CallCodex] ++ t ++ [CallRead], Some (Ok tt))) by (by apply valid_run_accepted).
  assert (h' ⊆ h) as Hsub'.
  { unfold h, h'. cbn. intros x Hx. apply elem_of_cons in Hx as [->|Hx]; [left|right; by apply Hsub]. }
  induction pre' as [|b pre' IH] using rev_ind; intros post' Heq.
  { exists [], c0. split; [constructor|]. set_solver. }
  rewrite <-app_assoc in Heq. cbn in Heq.
  destruct (IH _ Heq) as (t' & c' & Hrun' & Hcalls).
  set (b1 := seen (contract_id A c0) pre' b).
  assert (h' = history (contract_id A c0) pre' ++ b1 :: post') as Hh'.
  { unfold h'. rewrite Heq. apply history_middle. }
  (* where the entry is in the original *)
  assert (exists pre post, b0 :: rest = pre ++ b :: post /\ is_first pre = is_first pre' /\
    h = history (contract_id A c0) pre ++ b1 :: post) as (pre & post & Hsplit & Hfirst & Hh).
  { destruct pre' as [|x pre'].
    - cbn in Heq. injection Heq as <- <-. exists [], rest. done.
    - cbn in Heq. injection Heq as <- Heq. cbn in b1. subst b1.
      assert (b ∈ rest) as Hb by (apply Hsub; rewrite Heq; apply elem_of_app; right; left).
      apply elem_of_list_split in Hb as (l1 & l2 & ->). exists (b0 :: l1), l2.
      split; [done|]. split; [done|]. done. }
  rewrite Hsplit in Hrun. pose proof Hrun as (t1 & c1 & Hr1 & Hv & _)%valid_run_at.
  assert (seen (contract_id A c0) pre b = b1) as Hseen.
  { unfold b1. destruct pre, pre'; done. }
  destruct Hv as (V1 & V2 & (closed & V3 & V4) & V5). rewrite Hseen in V2, V3, V4, V5.
  set (i := length pre'). set (j := length pre).
  assert (h' !! i = Some b1) as Hi.
  { rewrite Hh'. apply list_lookup_middle. by rewrite history_length. }
  assert (h !! j = Some b1) as Hj.
  { rewrite Hh. apply list_lookup_middle. by rewrite history_length. }
  assert (take i h' = history (contract_id A c0) pre') as Hti.
  { rewrite Hh', take_app_alt; [done|]. by rewrite history_length. }
  assert (take j h = history (contract_id A c0) pre) as Htj.
  { rewrite Hh, take_app_alt; [done|]. by rewrite history_length. }
  assert (forall e s, e ∈ h -> s ∈ reads (operation b1) -> slot_opid s = id_of e ->
     precedes h e b1 <-> precedes h' e b1) as Hord1.
  { intros e s He Hs Hid. destruct pre' as [|x pre'].
    - assert (pre = []) as -> by (by destruct pre).
      split; intros (x & y & Hxy & _ & Hy); exfalso.
      + assert (y = 0); [|lia]. eapply NoDup_ids_inj; [exact Hnd|exact Hy|exact Hj|done].
      + assert (y = 0); [|lia]. eapply NoDup_ids_inj; [exact Hnd'|exact Hy|exact Hi|done].
    - cbn in b1. subst b1. apply (Hord b e s); try done. cbn in Heq. injection Heq as _ Heq. rewrite Heq.
      apply elem_of_app. right. left. }
  assert (forall e, precedes h e b1 <-> e ∈ history (contract_id A c0) pre) as Hprec.
  { intros e. rewrite <-Htj. split.
    - intros (x & y & Hxy & Hx & Hy). assert (y = j) as -> by exact (NoDup_ids_inj _ _ _ _ _ Hnd Hy Hj eq_refl).
      apply (elem_of_list_lookup_2 _ x). by rewrite lookup_take.
    - intros He. apply elem_of_list_lookup in He as [x Hx]. apply lookup_take_Some in Hx as [Hx Hlt].
      by exists x, j. }
  assert (forall e, precedes h' e b1 <-> e ∈ history (contract_id A c0) pre') as Hprec'.
  { intros e. rewrite <-Hti. split.
    - intros (x & y & Hxy & Hx & Hy). assert (y = i) as -> by exact (NoDup_ids_inj _ _ _ _ _ Hnd' Hy Hi eq_refl).
      apply (elem_of_list_lookup_2 _ x). by rewrite lookup_take.
    - intros He. apply elem_of_list_lookup in He as [x Hx]. apply lookup_take_Some in Hx as [Hx Hlt].
      by exists x, i. }
  (* the entry is known in the one run iff in the other *)
  assert (NoDup (id_of <$> history (contract_id A c0) pre)) as Hndpre.
  { rewrite Hh, fmap_app in Hnd. by apply NoDup_app in Hnd as [? _]. }
  assert (NoDup (id_of <$> history (contract_id A c0) pre')) as Hndpre'.
  { rewrite Hh', fmap_app in Hnd'. by apply NoDup_app in Hnd' as [? _]. }
  destruct (run_state c0 pre t1 c1 Hint Hr1) as (R1 & R2 & R3 & _).
  destruct (run_state c0 pre' t' c' Hint Hrun') as (R1' & R2' & R3' & _).
  assert (forall hh (l1 l2 : list Block) , NoDup (id_of <$> hh) -> hh = l1 ++ b1 :: l2 ->
    ~ exists b, b ∈ tail l1 /\ id_of b = id_of b1) as Htail.
  { intros hh l1 l2 Hn Heqh (x & Hx & Hid). rewrite Heqh, fmap_app in Hn.
    apply NoDup_app in Hn as (_ & Hn & _). apply (Hn (id_of x)).
    - apply elem_of_list_fmap_1. destruct l1; [done|]. by right.
    - rewrite Hid. cbn. left. }
  assert (is_known A c' (id_of b1) = is_known A c1 (id_of b1)) as Hknown.
  { apply eq_true_iff_eq. rewrite R3, R3'.
    pose proof (Htail _ _ _ Hnd Hh) as N1. pose proof (Htail _ _ _ Hnd' Hh') as N2.
    clear -N1 N2. naive_solver. }
  assert (vm_verdict A (contract_id A c0) c' b1 = vm_verdict A (contract_id A c0) c1 b1) as Hverdict.
  { apply verdict_local. { eapply same_setting_trans; [exact R1'|]. by apply same_setting_sym. }
    intros s Hs.
    assert (forall e, e ∈ h -> e <> b1 -> gone (operation e) s = false) as Hng.
    { intros e He Hne. apply elem_of_list_lookup in He as [k Hk].
      refine (named_not_gone c0 _ c _ j k b1 e s Hacc Hnd Hj Hk Hs _). intros ->. congruence. }
    assert (forall e, e ∈ tail (history (contract_id A c0) pre) -> gone (operation e) s = false) as Hg.
    { intros e He. apply Hng.
      - rewrite Hh. apply elem_of_app. left. destruct pre; [done|]. by right.
      - intros ->. apply (Htail _ _ _ Hnd Hh). by exists b1. }
    assert (forall e, e ∈ tail (history (contract_id A c0) pre') -> gone (operation e) s = false) as Hg'.
    { intros e He. apply Hng.
      - apply Hsub'. rewrite Hh'. apply elem_of_app. left. destruct pre'; [done|]. by right.
      - intros ->. apply (Htail _ _ _ Hnd' Hh'). by exists b1. }
    destruct (run_cell c0 pre t1 c1 s Hint Hr1 Hndpre) as [C1 C2]; [by auto|].
    destruct (run_cell c0 pre' t' c' s Hint Hrun' Hndpre') as [C1' C2']; [by auto|].
    destruct (is_known A c0 (slot_opid s)) eqn:Hk0.
    { rewrite C2, C2' by (by right). done. }
    (* a slot of an operation unknown at the start *)
    assert (forall e, e ∈ tail (history (contract_id A c0) pre) -> slot_opid s = id_of e ->
      e ∈ tail (history (contract_id A c0) pre')) as Hfwd.
    { intros e He Hid. assert (e ∈ history (contract_id A c0) pre) as He1.
      { destruct pre; [done|]. by right. }
      assert (e ∈ h) as Heh. { rewrite Hh. apply elem_of_app. by left. }
      apply Hprec in He1. apply (Hord1 e s Heh Hs Hid) in He1. apply Hprec' in He1.
      destruct pre' as [|x pre']; [by apply elem_of_nil in He1|]. cbn in He1. apply elem_of_cons in He1 as [->|He1]; [|done].
      exfalso. destruct pre as [|y pre]; [done|]. cbn in He, Hsplit, Heq.
      injection Hsplit as -> Hsplit. injection Heq as -> Heq. cbn in He.
      rewrite Hh in Hnd. cbn in Hnd. apply list.NoDup_cons in Hnd as [Hnd _]. apply Hnd.
      apply elem_of_list_fmap_1. apply elem_of_app. by left. }
    assert (forall e, e ∈ tail (history (contract_id A c0) pre') -> slot_opid s = id_of e ->
      e ∈ tail (history (contract_id A c0) pre)) as Hbwd.
    { intros e He Hid. assert (e ∈ history (contract_id A c0) pre') as He1.
      { destruct pre'; [done|]. by right. }
      assert (e ∈ h) as Heh. { apply Hsub'. rewrite Hh'. apply elem_of_app. by left. }
      apply Hprec' in He1. apply (Hord1 e s Heh Hs Hid) in He1. apply Hprec in He1.
      destruct pre as [|x pre]; [by apply elem_of_nil in He1|]. cbn in He1. apply elem_of_cons in He1 as [->|He1]; [|done].
      exfalso. destruct pre' as [|y pre']; [done|]. cbn in He, Hsplit, Heq.
      injection Hsplit as -> Hsplit. injection Heq as -> Heq. cbn in He.
      rewrite Hh' in Hnd'. cbn in Hnd'. apply list.NoDup_cons in Hnd' as [Hnd' _]. apply Hnd'.
      apply elem_of_list_fmap_1. apply elem_of_app. by left. }
    destruct (decide (slot_opid s ∈ id_of <$> tail (history (contract_id A c0) pre))) as [Hin|Hn].
    - apply elem_of_list_fmap in Hin as (e & Hid & He).
      rewrite (C1 e), (C1' e); try done; rewrite <-?Hid; auto.
    - rewrite C2, C2'; [done|left..].
      + intros e He Hid. apply Hn. rewrite Hid. apply elem_of_list_fmap_1. by apply Hbwd.
      + intros e He Hid. apply Hn. rewrite Hid. by apply elem_of_list_fmap_1. }
  assert (block_valid A c0 pre' c' b) as Hv'.
  { split.
    { rewrite codex_committed_first in V1 |- *. rewrite <-Hfirst. exact V1. }
    fold b1. split; [done|]. split.
    - exists closed. split; [|done]. destruct V3 as [V3 V3']. split; [done|].
      rewrite <-Hti. rewrite <-Htj in V3'.
      assert (forall a, consumes b1 a -> forall sl, live (take j h) a sl -> live (take i h') a sl) as Hlive.
      { intros a Ha sl. eapply valid_live; try done.
        - intros k bk Hk Hc. apply elem_of_list_lookup in Ha as [m Hm], Hc as [n Hn].
          exact (proj1 (consumed_once A c0 (b0 :: rest) _ _ k j n m bk b1 a Hacc Hnd Hk Hn Hj Hm)).
        - intros e He Hid. apply (Hord1 e (Owned a)); [done| |done]. by apply elem_of_reads_owned. }
      clear -V3' Hlive. unfold consumes in Hlive. induction V3' as [|a sl l l' H1 _ IH]; [constructor|].
      constructor; [apply Hlive; [left|done]|]. apply IH. intros a' Ha'. apply Hlive. by right.
    - intros Hk. rewrite Hknown in Hk. rewrite Hverdict. by apply V5. }
  exists (t' ++ block_calls A c0 pre' c' b), (apply_calls A c' (block_effects A c0 pre' c' b)).
  split; [by constructor|].
  assert (block_effects A c0 pre' c' b = block_effects A c0 pre c1 b) as Heff.
  { unfold block_effects, operation_calls. fold b1. by rewrite Hseen, Hfirst, Hknown, Hverdict. }
  intros x Hx. rewrite history_snoc in Hx. fold b1 in Hx.
  rewrite calls_for_app, calls_for_block. fold b1.
  apply elem_of_app in Hx as [Hx| ->%elem_of_list_singleton].
  - rewrite decide_False, app_nil_r; [by apply Hcalls|]. intros Hid.
    rewrite Hh', fmap_app in Hnd'. apply NoDup_app in Hnd' as (_ & Hn & _). apply (Hn (id_of x)).
    + by apply elem_of_list_fmap_1.
    + rewrite Hid. cbn. left.
  - rewrite decide_True by done. rewrite Heff.
    rewrite <-Hseen at 2.
    rewrite (calls_for_entry c0 pre b post t c t1 c1); [|by rewrite <-Hsplit|done|done].
    assert (calls_for (id_of b1) t' = []) as ->; [|done].
    eapply calls_for_none; [exact Hrun'|]. intros Hin.
    rewrite Hh', fmap_app in Hnd'. apply NoDup_app in Hnd' as (_ & Hn & _).
    apply (Hn _ Hin). cbn. left.
Qed.

End facts.
