(** * Properties C28-C35, C43: what the checks amount to

    Several of these claims are false of the code.  For these the full claim is a definition
    ([..._claim]), the theorem [..._refuted] gives a concrete consignment against it, and
    [..._partial] is what does hold, with the missing premise in view. *)
From Verif Require Import Derived Scenario Counterexamples Properties1 Properties2.
From Coq Require Import Lia.

Section properties.
Context {P : SealProtocol} {U : Ultrasonic} (A A' : ContractApi P U) {E E' : Type}.

Notation Block := (OperationSeals P).
Notation VError := (VerificationError P U E).
Notation Calls := (list (call P U)).
Notation id_of := (id_of (U:=U)).
Notation reveals := (reveals (U:=U)).
Notation live := (live (U:=U)).
Notation no_collisions := (no_collisions (U:=U)).

Implicit Types (c : Contract A) (bs pre post : list Block) (b : Block) (t : Calls)
  (fin : option E).

Notation accepted c0 bs c t := (evaluate A (E:=E) c0 bs None = (c, t, Some (Ok tt))).
Notation accepted' c0 bs c t := (evaluate A' (E:=E') c0 bs None = (c, t, Some (Ok tt))).

(** ** C28 Positional binding of seals to cells *)

(** The full claim, false of the code ([C28_positional_binding_refuted]): the seal closed for
    a cell comes from a definition whose token is stored in that very cell. *)
Definition C28_claim : Prop :=
  forall c0 bs c t j bj a s,
  accepted c0 bs c t ->
  history (contract_id A c0) bs !! j = Some bj -> consumes bj a ->
  live (take j (history (contract_id A c0) bs)) a s ->
  exists i bi d cell, i < j /\ history (contract_id A c0) bs !! i = Some bi /\ cell_opid a = id_of bi /\
    (to_src P d = Some s \/
     to_src P d = None /\ exists w, witness bi = Some w /\ s = resolve P d (pub_id P (published w))) /\
    op_destructible_out (operation bi) !! N.to_nat (cell_pos a) = Some cell /\
    cell_auth cell = auth_token P d.

(** What holds: the token is stored in some cell of the operation; and in the very cell if
    all entries report the definitions at their positions.  Missing: `evaluate` does not
    check the latter, it compares only sets of tokens (src/verify.rs:172-193). *)
Theorem C28_positional_binding_partial c0 bs c t j bj a s :
  accepted c0 bs c t ->
  history (contract_id A c0) bs !! j = Some bj -> consumes bj a ->
  live (take j (history (contract_id A c0) bs)) a s ->
  exists i bi d cell, i < j /\ history (contract_id A c0) bs !! i = Some bi /\ cell_opid a = id_of bi /\
    (to_src P d = Some s \/
     to_src P d = None /\ exists w, witness bi = Some w /\ s = resolve P d (pub_id P (published w))) /\
    cell ∈ op_destructible_out (operation bi) /\
    cell_auth cell = auth_token P d /\
    (positions_bound bi -> op_destructible_out (operation bi) !! N.to_nat (cell_pos a) = Some cell).
Proof.
  intros Hacc Hj Ha (i & bi & [Hi Hlt]%lookup_take_Some & (Hid & d & Hd & Hs) & _).
  destruct (accepted_checks A c0 bs c t i bi Hacc Hi) as [Ht _].
  destruct (Ht _ _ Hd) as (cell & Hin & Hauth).
  destruct (op_destructible_out (operation bi) !! N.to_nat (cell_pos a)) as [cell'|] eqn:Hc.
  - destruct (decide (cell_auth cell' = auth_token P d)) as [Heq|Hne].
    + exists i, bi, d, cell'. pose proof (elem_of_list_lookup_2 _ _ _ Hc) as Hin'.
      exact (conj Hlt (conj Hi (conj Hid (conj Hs (conj Hin' (conj Heq (fun _ => Hc))))))).
    + exists i, bi, d, cell. split; [done|]. split; [done|]. split; [done|]. split; [done|].
      split; [done|]. split; [done|]. intros Hb. destruct (Hb _ _ Hd) as (x & Hx & Hax). congruence.
  - exists i, bi, d, cell. split; [done|]. split; [done|]. split; [done|]. split; [done|].
    split; [done|]. split; [done|]. intros Hb. destruct (Hb _ _ Hd) as (x & Hx & Hax). congruence.
Qed.

(** ** C29 A wrong genesis is rejected *)

(** The full claim, false of the code ([C29_wrong_genesis_refuted]): a first operation which
    the contract does not know is rejected. *)
Definition C29_claim : Prop :=
  forall c0 b bs c t,
  accepted c0 (b :: bs) c t ->
  is_known A c0 (opid_of U (with_contract_id (contract_id A c0) (operation b))) = true.

(** What holds: an accepted first operation is known, or passes the verification by the codex
    as any operation of this contract; it is not applied; and for contracts whose seal and
    witness records do not influence verification it changes nothing visible. *)
Theorem C29_wrong_genesis_partial c0 b bs c t :
  accepted c0 (b :: bs) c t ->
  let op := with_contract_id (contract_id A c0) (operation b) in
  (is_known A c0 (opid_of U op) = false ->
   exists v, codex_verify U (codex A c0) (contract_id A c0) op (memory A c0) (repo A c0) = Ok v) /\
  exists c1 t1, accepted c0 [b] c1 t1 /\ t1 `prefix_of` t /\
    (forall v, CallApplyOperation v ∉ t1) /\
    (records_inert A -> same_view A c1 c0).
Proof.
  intros Hacc op. split; [exact (accepted_verdict A c0 b bs c t Hacc)|].
  destruct (accepted_prefix A c0 [b] bs c t Hacc) as (c1 & t1 & H1 & Hp).
  exists c1, t1. split; [exact H1|]. split; [exact Hp|]. split.
  - intros v. exact (first_not_applied A c0 b None c1 t1 (Ok tt) v H1).
  - intros Hin. exact (first_harmless A c0 b c1 t1 Hin H1).
Qed.

(** ** C30 A wrong genesis cannot inject state

    [has m a]: the memory [m] holds the cell [a]. *)
Theorem C30_no_injected_state (has : MemoryView U -> CellAddr -> Prop) :
  faithful U ->
  (* verification requires the inputs to be in memory *)
  (forall k cid op m r v, codex_verify U k cid op m r = Ok v ->
     forall i, i ∈ op_destructible_in op -> has m (input_addr i)) ->
  (* applying an operation adds only its own cells to the memory, records add nothing *)
  (forall c v a, has (memory A (apply_operation A c v)) a ->
     has (memory A c) a \/ cell_opid a = opid_of U (into_operation U v)) ->
  (forall c o m a, has (memory A (apply_seals A c o m)) a -> has (memory A c) a) ->
  (forall c o w a, has (memory A (apply_witness A c o w)) a -> has (memory A c) a) ->
  forall c0 bs fin c t (r : result VError unit) t1 v t2 i,
  (* memory holds only cells of known operations *)
  (forall a, has (memory A c0) a -> is_known A c0 (cell_opid a) = true) ->
  evaluate A c0 bs fin = (c, t, Some r) ->
  (* the operation in [v] is applied, and [i] is one of its inputs *)
  t = t1 ++ CallApplyOperation v :: t2 ->
  i ∈ op_destructible_in (into_operation U v) ->
  (* then it spends a cell of an operation known at the start or applied before *)
  (is_known A c0 (cell_opid (input_addr i)) = true \/ cell_opid (input_addr i) ∈ applied_ids t1) /\
  (* in particular not of the first operation, if unknown and not delivered again *)
  (forall b bs', bs = b :: bs' ->
     let o := opid_of U (with_contract_id (contract_id A c0) (operation b)) in
     is_known A c0 o = false -> (forall b', b' ∈ bs' -> id_of b' <> o) ->
     cell_opid (input_addr i) <> o).
Proof.
  intros Hf Hm Hop Hs Hw c0 bs fin c t r t1 v t2 i Hinit H Heq Hi.
  pose proof (applied_inputs_known A has Hf Hm Hop Hs Hw c0 bs fin c t r t1 v t2 i Hinit H Heq Hi) as Hres.
  split; [exact Hres|]. intros b bs' -> o Hk Hnot Ho. rewrite Ho in Hres.
  destruct Hres as [Hres|Hres]; [congruence|].
  apply elem_of_list_omap in Hres as (e & He & Hid). destruct e as [| | | | | | |v'|]; try done.
  cbn in Hid. injection Hid as Hid. apply elem_of_list_split in He as (u1 & u2 & ->).
  rewrite <-app_assoc in Heq. cbn in Heq.
  destruct (applied_is_verified A c0 _ _ _ _ _ _ _ _ H Heq) as (n & b' & t0 & c1 & Hn & Hb' & _ & _ & _ & Hv).
  apply Hf in Hv. rewrite Hv in Hid. destruct n as [|n]; [lia|]. cbn in Hb'.
  apply elem_of_list_lookup_2 in Hb'. by apply (Hnot b').
Qed.

(** ** C31 One seal, one operation *)
Theorem C31_one_seal_one_operation (on_chain : SealWitness P -> Prop)
    c0 (c0' : Contract A') bs bs' c (c' : Contract A') t t' i i' b b' a a' s :
  (* the seal is not closed over two messages by published witnesses; ids differ as messages *)
  single_use P on_chain s -> messages_differ P ->
  accepted c0 bs c t -> accepted' c0' bs' c' t' ->
  anchored P on_chain bs -> anchored P on_chain bs' ->
  let h := history (contract_id A c0) bs in
  let h' := history (contract_id A' c0') bs' in
  h !! i = Some b -> consumes b a -> live (take i h) a s ->
  h' !! i' = Some b' -> consumes b' a' -> live (take i' h') a' s ->
  id_of b = id_of b'.
Proof.
  intros Hsu Hmsg Hacc Hacc' Hch Hch' h h' Hi Ha Hs Hi' Ha' Hs'.
  exact (one_seal_one_operation A A' on_chain c0 c0' bs bs' c c' t t' Hacc Hacc' Hch Hch'
    i i' b b' a a' s Hsu Hmsg Hi Ha Hs Hi' Ha' Hs').
Qed.

(** ** C32 No double spend of a cell across verifiers *)

(** The premises on the world: the seals [used] are single-use, ids and tokens do not collide. *)
Definition sound_world (used : Seal P -> Prop) (on_chain : SealWitness P -> Prop) (h h' : list Block) : Prop :=
  (forall s, used s -> single_use P on_chain s) /\ (forall s, used s -> closed_by_one P on_chain s) /\ messages_differ P /\
  anchored P on_chain h /\ anchored P on_chain h' /\ no_collisions h h'.

Definition every_seal (_ : Seal P) : Prop := True.

(** The full claim, false of the code ([C32_no_double_spend_refuted]). *)
Definition C32_claim : Prop :=
  forall (on_chain : SealWitness P -> Prop) c0 (c0' : Contract A') bs bs' c (c' : Contract A') t t' i i' b b' a,
  contract_id A c0 = contract_id A' c0' ->
  accepted c0 bs c t -> accepted' c0' bs' c' t' ->
  let h := history (contract_id A c0) bs in
  let h' := history (contract_id A' c0') bs' in
  sound_world every_seal on_chain h h' ->
  h !! i = Some b -> consumes b a -> h' !! i' = Some b' -> consumes b' a ->
  operation b = operation b'.

Lemma anchored_history on_chain cid (l : list Block) :
  anchored P on_chain (history cid l) -> anchored P on_chain l.
Proof.
  intros H b w Hb Hw. destruct l as [|b0 l]; [by apply elem_of_nil in Hb|].
  apply elem_of_cons in Hb as [->|Hb].
  - apply (H (seen_first cid b0)); [by left|done].
  - apply (H b); [by right|done].
Qed.

(** What holds.  Missing: the two premises [positions_bound] and [roots_settled], neither of
    which `evaluate` checks. *)
Theorem C32_no_double_spend_partial (on_chain : SealWitness P -> Prop)
    c0 (c0' : Contract A') bs bs' c (c' : Contract A') t t' i i' b b' a :
  accepted c0 bs c t -> accepted' c0' bs' c' t' ->
  let h := history (contract_id A c0) bs in
  let h' := history (contract_id A' c0') bs' in
  (* the seals denoted by the entries of the first are single-use *)
  sound_world (denoted P h) on_chain h h' ->
  (* each definition is reported at the position of the cell with its token *)
  Forall positions_bound h -> Forall positions_bound h' ->
  (* an operation without inputs has only seals which need no witness, or comes without one
     (in one of the two consignments) *)
  Forall roots_settled h ->
  h !! i = Some b -> consumes b a -> h' !! i' = Some b' -> consumes b' a ->
  id_of b = id_of b' /\ operation b = operation b'.
Proof.
  intros Hacc Hacc' h h' (Hsu & Hone & Hmsg & Hch & Hch' & Hcol) Hb Hb' Hroots Hi Ha Hi' Ha'.
  exact (no_double_spend A A' on_chain c0 c0' bs bs' c c' t t' Hacc Hacc'
    (anchored_history _ _ _ Hch) (anchored_history _ _ _ Hch') Hone Hcol Hb Hb' Hroots
    i i' b b' a Hsu Hmsg Hi Ha Hi' Ha').
Qed.

(** ** C33 Documented callback protocol *)
Theorem C33_callback_protocol c0 :
  (forall bs fin c t (r : result VError unit),
     evaluate A c0 bs fin = (c, t, Some r) ->
     (* the contract id once; memory and repository once for each operation not known, the
        codex once more *)
     count is_contract_id t = 1 /\ count is_codex t = S (count is_memory t) /\
     count is_repo t = count is_memory t /\ count is_memory t = unknown_answers A c0 t /\
     (* the first two calls are these, and not repeated *)
     exists t', t = CallContractId :: CallCodex :: t') /\
  (* `is_known` once for each accepted operation *)
  (forall bs c t, accepted c0 bs c t ->
     count is_known_query t = length bs /\ count is_read t = S (length bs)) /\
  (* and once more for a failing one that has passed the checks of its seals *)
  (forall pre b c t c' t' (e : VError),
     accepted c0 pre c t -> evaluate A c0 (pre ++ [b]) None = (c', t', Some (Err e)) ->
     count is_known_query t' =
       match e with
       | Vm _ | SealsNotClosed _ _ _ | NoWitness _ => S (length pre)
       | _ => length pre
       end) /\
  (* the witness is applied directly before the operation *)
  (forall bs fin c t r t1 v t2,
     evaluate A (E:=E) c0 bs fin = (c, t, Some r) ->
     t = t1 ++ CallApplyOperation v :: t2 ->
     exists i b t0, bs !! i = Some b /\
       t1 = t0 ++ [CallIsKnown (id_of b); CallCodex; CallMemory; CallRepo] ++
              match witness b with Some w => [CallApplyWitness (id_of b) w] | None => [] end).
Proof.
  split; [|split; [|split]].
  - intros bs fin c t r H. destruct (query_counts A c0 bs fin c t r H) as (H1 & H2 & H3 & H4).
    split; [exact H1|]. split; [exact H2|]. split; [exact H3|]. split; [exact H4|].
    apply evaluate_iff_outcome in H. destruct H; eexists; reflexivity.
  - exact (accepted_counts A c0).
  - intros pre b c t c' t' e Hacc Hev.
    destruct (failing_last A c0 pre b c t c' t' e Hacc Hev) as (_ & _ & ->).
    apply accepted_counts in Hacc as [Hk _]. rewrite count_app, Hk.
    unfold failing_queries, query_calls. destruct e; try destruct (is_known A c _); cbn; lia.
  - intros bs fin c t r t1 v t2 H Heq.
    destruct (applied_is_verified A c0 bs fin c t r t1 v t2 H Heq) as (i & b & t0 & c1 & _ & Hb & Ht & _).
    exists i, b, t0. split; [exact Hb|exact Ht].
Qed.

(** ** C34 Witness recorded only for state-consuming operations *)

(** The full claim - the documentation of `apply_witness`, src/verify.rs:132-137 - is false of
    the code ([C34_witness_recorded_refuted]). *)
Definition C34_claim : Prop :=
  forall c0 bs c t o w,
  accepted c0 bs c t -> CallApplyWitness o w ∈ t ->
  exists i b, 0 < i /\ bs !! i = Some b /\ id_of b = o /\ op_destructible_in (operation b) <> [].

(** What holds: a witness is recorded exactly for the entries that come with one, and all
    state-consuming ones do.  Missing: entries without inputs may come with one, too. *)
Theorem C34_witness_recorded_partial c0 bs c t :
  accepted c0 bs c t ->
  (forall o w, CallApplyWitness o w ∈ t <->
     exists i b, history (contract_id A c0) bs !! i = Some b /\ id_of b = o /\ witness b = Some w) /\
  (forall i b, history (contract_id A c0) bs !! i = Some b -> op_destructible_in (operation b) <> [] ->
     exists w, witness b = Some w /\ CallApplyWitness (id_of b) w ∈ t).
Proof.
  intros Hacc. split; [intros o w; exact (witness_recorded A c0 bs c t o w Hacc)|].
  intros i b Hi Hne. destruct (consuming_has_witness A c0 bs c t i b Hacc Hi Hne) as [w Hw].
  exists w. split; [exact Hw|]. apply (witness_recorded A c0 bs c t (id_of b) w Hacc). eauto.
Qed.

(** ** C35 A cell's seal is determined by its operation *)

(** The full claim, false of the code ([C35_seal_determined_refuted]). *)
Definition C35_claim : Prop :=
  forall (on_chain : SealWitness P -> Prop) c0 (c0' : Contract A') bs bs' c (c' : Contract A') t t' i i' b b' a s s',
  accepted c0 bs c t -> accepted' c0' bs' c' t' ->
  let h := history (contract_id A c0) bs in
  let h' := history (contract_id A' c0') bs' in
  sound_world every_seal on_chain h h' ->
  h !! i = Some b -> reveals b a s -> h' !! i' = Some b' -> reveals b' a s' ->
  s = s'.

(** What holds.  Missing: as for C32. *)
Theorem C35_seal_determined_partial (on_chain : SealWitness P -> Prop)
    c0 (c0' : Contract A') bs bs' c (c' : Contract A') t t' i i' b b' a s s' :
  accepted c0 bs c t -> accepted' c0' bs' c' t' ->
  let h := history (contract_id A c0) bs in
  let h' := history (contract_id A' c0') bs' in
  sound_world (denoted P h) on_chain h h' ->
  Forall positions_bound h -> Forall positions_bound h' -> Forall roots_settled h ->
  h !! i = Some b -> reveals b a s -> h' !! i' = Some b' -> reveals b' a s' ->
  s = s'.
Proof.
  intros Hacc Hacc' h h' (Hsu & Hone & Hmsg & Hch & Hch' & Hcol) Hb Hb' Hroots Hi Hr Hi' Hr'.
  exact (seals_agree A A' on_chain c0 c0' bs bs' c c' t t' Hacc Hacc'
    (anchored_history _ _ _ Hch) (anchored_history _ _ _ Hch') Hone Hcol Hb Hb' Hroots
    i i' b b' a s s' Hi Hr Hi' Hr').
Qed.
End properties.

(** ** C43 Within one consignment a cell is spent by one operation *)
Section one.
Context {P : SealProtocol} {U : Ultrasonic} (A : ContractApi P U) {E : Type}.
Notation accepted c0 bs c t := (evaluate A (E:=E) c0 bs None = (c, t, Some (Ok tt))).

(** The full claim, false of the code ([C43_spent_once_refuted]). *)
Definition C43_claim : Prop :=
  forall (on_chain : SealWitness P -> Prop) c0 bs c t i i' b b' a,
  accepted c0 bs c t ->
  let h := history (contract_id A c0) bs in
  sound_world (U:=U) every_seal on_chain h h ->
  h !! i = Some b -> consumes b a -> h !! i' = Some b' -> consumes b' a ->
  operation b = operation b'.

(** What holds: it is so if no operation id repeats; and also - whatever is repeated - under
    the premises of C32. *)
Theorem C43_spent_once_partial (on_chain : SealWitness P -> Prop) c0 bs c t i i' b b' a :
  accepted c0 bs c t ->
  let h := history (contract_id A c0) bs in
  NoDup (id_of (U:=U) <$> h) \/
  sound_world (U:=U) (denoted P h) on_chain h h /\ Forall positions_bound h /\ Forall roots_settled h ->
  h !! i = Some b -> consumes b a -> h !! i' = Some b' -> consumes b' a ->
  operation b = operation b'.
Proof.
  intros Hacc h [Hnd|(Hw & Hb & Hr)] Hi Ha Hi' Ha'.
  - apply elem_of_list_lookup in Ha as [m Hm]. apply elem_of_list_lookup in Ha' as [n Hn].
    destruct (consumed_once A c0 bs c t i i' m n b b' a Hacc Hnd Hi Hm Hi' Hn) as [-> _].
    rewrite Hi in Hi'. by injection Hi' as ->.
  - exact (proj2 (C32_no_double_spend_partial A A on_chain c0 c0 bs bs c c t t i i' b b' a
      Hacc Hacc Hw Hb Hb Hr Hi Ha Hi' Ha')).
Qed.
End one.

(** * Concrete cases *)

(** Deciding [sound_world] for concrete consignments. *)
Global Instance toy_tx_eq_dec : EqDecision ToyTx.
Proof. solve_decision. Defined.
Definition witness_in (l : list ToyTx) (b : ToyBlock) : bool :=
  match witness b with Some w => bool_decide ((published w : ToyTx) ∈ l) | None => true end.
Definition defs_in (l : list WTxoSeal) (b : ToyBlock) : bool :=
  forallb (fun e => bool_decide (e.2 ∈ l)) (map_to_list (defined_seals b : gmap N WTxoSeal)).

Definition toy_on_chain (l : list ToyTx) : SealWitness TP -> Prop := fun w => (published w : ToyTx) ∈ l.

Lemma toy_sound_world used (l : list ToyTx) (defs : list WTxoSeal) (h h' : list ToyBlock) :
  toy_chain l -> tokens_apart defs = true ->
  forallb (fun b => witness_in l b && defs_in defs b) (h ++ h') = true ->
  sound_world (U:=TU) used (toy_on_chain l) h h'.
Proof.
  intros Hl Hd Hall. rewrite forallb_forall in Hall.
  assert (forall b, b ∈ h ++ h' ->
    match witness b with Some w => (published w : ToyTx) ∈ l | None => True end) as Hw.
  { intros b Hb%elem_of_list_In. specialize (Hall b Hb). apply andb_true_iff in Hall as [Hw _].
    unfold witness_in in Hw. destruct (witness b); [|done]. by apply bool_decide_eq_true in Hw. }
  split; [intros s _; exact (toy_single_use l s Hl)|]. split; [intros s _; exact (toy_closed_by_one l s Hl)|].
  split; [exact toy_messages|].
  split; [apply anchored_dec; intros b Hb; apply Hw; set_solver|].
  split; [apply anchored_dec; intros b Hb; apply Hw; set_solver|].
  apply (no_collisions_dec h h' defs Hd). intros b Hb%elem_of_list_In pos d Hp.
  specialize (Hall b Hb). apply andb_true_iff in Hall as [_ Ha].
  unfold defs_in in Ha. rewrite forallb_forall in Ha. specialize (Ha (pos, d)).
  apply bool_decide_eq_true in Ha; [exact Ha|]. by apply elem_of_list_In, elem_of_map_to_list.
Qed.

Definition all_defs : list WTxoSeal := [def_a; def_b; def_c; def_d; def_w].

Definition bound_b (b : ToyBlock) : bool :=
  forallb (fun e => bool_decide
      (cell_auth <$> op_destructible_out (operation b) !! N.to_nat e.1 = Some (wtxo_auth_token toy_bp e.2)))
    (map_to_list (defined_seals b : gmap N WTxoSeal)).
Lemma toy_positions_bound (h : list ToyBlock) : forallb bound_b h = true -> Forall positions_bound h.
Proof.
  intros H. rewrite forallb_forall in H. apply list.Forall_forall. intros b Hb%elem_of_list_In.
  apply positions_bound_dec. exact (H b Hb).
Qed.

Definition complete_b (b : ToyBlock) : bool :=
  match inputs_of b with
  | [] => forallb (fun e => bool_decide (is_Some (wtxo_to_src e.2)))
            (map_to_list (defined_seals b : gmap N WTxoSeal))
  | _ => true
  end.
Lemma toy_roots_settled (h : list ToyBlock) : forallb complete_b h = true -> Forall roots_settled h.
Proof.
  intros H. rewrite forallb_forall in H. apply list.Forall_forall. intros b Hb%elem_of_list_In Hin pos d Hd Hn.
  specialize (H b Hb). unfold complete_b in H. rewrite Hin, forallb_forall in H.
  specialize (H (pos, d)). assert (is_Some (wtxo_to_src d)) as [s Hs].
  { apply bool_decide_eq_true in H; [exact H|]. by apply elem_of_list_In, elem_of_map_to_list. }
  change (wtxo_to_src d = None) in Hn. congruence.
Qed.

Lemma toy_all_settled (h : list ToyBlock) : forallb complete_b h = true -> all_settled h.
Proof.
  intros H b b' pos d Hb _ _ Hin Hd Hn. rewrite forallb_forall in H. apply elem_of_list_In in Hb.
  specialize (H b Hb). unfold complete_b in H. rewrite Hin, forallb_forall in H.
  specialize (H (pos, d)). assert (is_Some (wtxo_to_src d)) as [s Hs].
  { apply bool_decide_eq_true in H; [exact H|]. by apply elem_of_list_In, elem_of_map_to_list. }
  change (wtxo_to_src d = None) in Hn. congruence.
Qed.

(** ** C28 *)
Definition seal_b : Seal TP := MkTxoSeal out_b (Noise [2%N]).

Lemma swapped_live : live (U:=TU) [seen_first toy_cid entry_g_swapped] (MkCellAddr id_g 0) seal_b.
Proof.
  exists 0, (seen_first toy_cid entry_g_swapped). split; [done|]. split.
  - split; [by vm_compute|]. exists (def_b : SealDef TP). split; [by vm_compute|]. left. done.
  - intros k b' Hk H. destruct k as [|k]; [lia|]. done.
Qed.

(** The claim is false: the consignment [swapped] is accepted; its second operation consumes
    the cell 0 of the genesis closing the seal B, though this cell has the token of A. *)
Theorem C28_positional_binding_refuted : ~ C28_claim toy_api (E:=Empty_set).
Proof.
  intros H.
  destruct (H ledger swapped _ _ 1 entry_x (MkCellAddr id_g 0) seal_b swapped_accepted) as
    (i & bi & d & cell & Hi & Hbi & _ & Hs & Hc & Ht).
  - reflexivity.
  - left.
  - exact swapped_live.
  - destruct i as [|i]; [|lia]. injection Hbi as <-.
    assert (wtxo_to_src d = Some seal_b) as Hd.
    { destruct Hs as [Hs|(_ & w & Hw & _)]; [exact Hs|].
      change (None = Some w) in Hw. discriminate Hw. }
    assert (cell_auth cell = wtxo_auth_token toy_bp def_a) as Ha.
    { cbn in Hc. injection Hc as <-. reflexivity. }
    rewrite Ha in Ht. destruct d as [[v|o] n]; cbn in Hd; [discriminate Hd|]. injection Hd as -> ->.
    revert Ht. apply (bool_decide_unpack _). by vm_compute.
Qed.

(** The consignment [scenario] meets the premises of what holds. *)
Example C28_case :
  exists j bj a s, toy_accepts ledger scenario (toy_after ledger scenario) (toy_log ledger scenario) /\
  history (contract_id toy_api ledger) scenario !! j = Some bj /\ consumes bj a /\
  live (U:=TU) (take j (history (contract_id toy_api ledger) scenario)) a s /\
  (forall i bi, history (contract_id toy_api ledger) scenario !! i = Some bi -> positions_bound bi).
Proof.
  exists 2, entry_2, (MkCellAddr id_1 0), (MkTxoSeal (MkOutpoint (MkTxid [1%N]) 0) (Noise [5%N]) : Seal TP).
  split; [exact scenario_accepted|]. split; [reflexivity|]. split; [left|]. split.
  - exists 1, entry_1. split; [reflexivity|]. split; [exact entry_1_reveals|].
    intros j b' Hj H. destruct j as [|[|j]]; [lia|lia|]. done.
  - intros i bi Hi. apply elem_of_list_lookup_2 in Hi.
    assert (Forall positions_bound (history (contract_id toy_api ledger) scenario)) as Hall.
    { apply toy_positions_bound. by vm_compute. }
    rewrite list.Forall_forall in Hall. by apply Hall.
Qed.

(** ** C29 *)

(** The claim is false: the consignment [[entry_h]] is accepted by a contract which does not
    know [op_h], and whose genesis is [op_g]. *)
Theorem C29_wrong_genesis_refuted :
  ~ C29_claim toy_api (E:=Empty_set) /\
  is_known toy_api ledger id_g = true /\ id_g <> id_h /\ op_g <> op_h.
Proof.
  split; [|split; [by vm_compute|split; apply (bool_decide_unpack _); by vm_compute]].
  intros H. specialize (H ledger entry_h [] _ _ wrong_genesis_accepted).
  assert (is_known toy_api ledger id_h = false) as Hn by (by vm_compute).
  change (is_known toy_api ledger id_h = true) in H. rewrite Hn in H. discriminate H.
Qed.

Example C29_case :
  toy_accepts ledger [entry_h] (toy_after ledger [entry_h]) (toy_log ledger [entry_h]) /\
  is_known toy_api ledger id_h = false /\ records_inert toy_api.
Proof. split; [exact wrong_genesis_accepted|]. split; [by vm_compute|exact (ledger_inert TP toy_sonic)]. Qed.

(** ** C30 *)
Definition toy_has (m : MemoryView TU) (a : CellAddr) : Prop := is_Some (mem_owned m !! a).

(** The premises hold of the reference ledger with the codex of Concrete.v. *)
Lemma toy_has_premises :
  faithful TU /\
  (forall k cid op m r v, codex_verify TU k cid op m r = Ok v ->
     forall i, i ∈ op_destructible_in op -> toy_has m (input_addr i)) /\
  (forall c v a, toy_has (memory toy_api (apply_operation toy_api c v)) a ->
     toy_has (memory toy_api c) a \/ cell_opid a = opid_of TU (into_operation TU v)) /\
  (forall c o m a, toy_has (memory toy_api (apply_seals toy_api c o m)) a -> toy_has (memory toy_api c) a) /\
  (forall c o w a, toy_has (memory toy_api (apply_witness toy_api c o w)) a -> toy_has (memory toy_api c) a).
Proof.
  split; [exact (sonic_faithful toy_sonic)|]. split; [|split; [|split; [done|done]]].
  - intros k cid op m r v Hv i Hi. cbn in Hv.
    destruct (decide (op_contract_id op <> cid)); [done|].
    destruct (decide (op_call_id op ∉ toy_methods k)); [done|].
    destruct (missing _ (input_addr <$> op_destructible_in op)) eqn:Hm; [done|].
    assert (forall l (get : CellAddr -> option StateCell), missing get l = None -> forall a, a ∈ l -> is_Some (get a)) as Hmiss.
    { clear. induction l as [|a' l IH]; intros get H a; [by intros ?%elem_of_nil|].
      cbn in H. destruct (get a') eqn:Hg; [|done]. intros [->|Ha]%elem_of_cons; [by rewrite Hg|by apply IH]. }
    eapply Hmiss in Hm; [exact Hm|]. by apply elem_of_list_fmap_1.
  - intros c v a. unfold toy_has. cbn. rewrite insert_outputs_zero.
    destruct (decide (cell_opid a = toy_opid v)); [by right|]. by left.
Qed.

Lemma toy_has_ledger a : toy_has (memory toy_api ledger) a -> is_known toy_api ledger (cell_opid a) = true.
Proof.
  unfold toy_has. cbn -[insert_outputs op_g]. rewrite insert_outputs_zero.
  destruct (decide (cell_opid a = toy_opid op_g)) as [->|Hne].
  - intros _. apply bool_decide_eq_true. rewrite lookup_insert. eauto.
  - rewrite lookup_empty. by intros [].
Qed.

(** The first operation applied in [scenario] spends a cell of the genesis, which is known; a
    consignment which spends a cell of a wrong genesis fails. *)
Definition op_k : Operation := toy_op toy_cid 31 [MkCellAddr id_h 0] [].
Definition tx_k : ToyTx := tx_of 31 out_c (toy_opid op_k).
Example C30_case :
  (exists t1 v t2 i, toy_log ledger scenario = t1 ++ CallApplyOperation v :: t2 /\
    i ∈ op_destructible_in (into_operation TU v) /\ input_addr i = MkCellAddr id_g 0) /\
  toy_run ledger [entry_h; block op_k [] (Some (wit tx_k))] =
    Some (Err (Vm (NoReadOnceInput (MkCellAddr id_h 0) : CallError TU))).
Proof.
  split; [|vm_refl].
  exists (take 11 (toy_log ledger scenario)), (op_1 : VerifiedOperation TU),
    (drop 12 (toy_log ledger scenario)), (MkInput (MkCellAddr id_g 0) []).
  split; [vm_refl|]. split; [left|reflexivity].
Qed.

(** ** C31-C32 *)
Lemma world_scenario_honest :
  sound_world (U:=TU) every_seal (toy_on_chain chain) (history toy_cid scenario) (history toy_cid honest).
Proof. apply (toy_sound_world _ _ all_defs); [exact chain_valid|by vm_compute|by vm_compute]. Qed.

Lemma live_seal_a bs : (* the seal of the cell 0 of the genesis, after the genesis *)
  bs = scenario \/ bs = honest ->
  live (U:=TU) (take 1 (history toy_cid bs)) (MkCellAddr id_g 0) (wtxo_resolve def_a (MkTxid []) : Seal TP).
Proof.
  assert (live (U:=TU) [seen_g] (MkCellAddr id_g 0) (wtxo_resolve def_a (MkTxid []) : Seal TP)) as H.
  { exists 0, seen_g. split; [done|]. split; [apply seen_g_reveals; vm_refl|].
    intros [|k] b Hk Hb; [lia|done]. }
  intros [-> | ->]; exact H.
Qed.

(** Two different consignments, of two and three entries, with an operation that closes the
    same seal (it is one operation). *)
Example C31_case :
  (forall s, single_use TP (toy_on_chain chain) s) /\ messages_differ TP /\
  toy_accepts ledger scenario (toy_after ledger scenario) (toy_log ledger scenario) /\
  toy_accepts ledger honest (toy_after ledger honest) (toy_log ledger honest) /\
  anchored TP (toy_on_chain chain) scenario /\ anchored TP (toy_on_chain chain) honest /\
  exists i i' b b' a a' s,
    history toy_cid scenario !! i = Some b /\ consumes b a /\
    live (U:=TU) (take i (history toy_cid scenario)) a s /\
    history toy_cid honest !! i' = Some b' /\ consumes b' a' /\
    live (U:=TU) (take i' (history toy_cid honest)) a' s.
Proof.
  destruct world_scenario_honest as (H1 & _ & H3 & H4 & H5 & _).
  split; [intros s; by apply H1|]. split; [exact H3|]. split; [exact scenario_accepted|].
  split; [exact honest_accepted|]. split; [exact (anchored_history _ _ _ H4)|].
  split; [exact (anchored_history _ _ _ H5)|].
  exists 1, 1, entry_1, entry_1, (MkCellAddr id_g 0), (MkCellAddr id_g 0), (wtxo_resolve def_a (MkTxid []) : Seal TP).
  split; [reflexivity|]. split; [left|]. split; [apply live_seal_a; by left|].
  split; [reflexivity|]. split; [left|]. apply live_seal_a; by right.
Qed.

(** C32 is false: two contracts with the same state accept two consignments, all witnesses
    of which are published; no outpoint is spent twice; yet the cell 0 of the genesis is
    consumed by two different operations. *)
Theorem C32_no_double_spend_refuted : ~ C32_claim toy_api toy_api (E:=Empty_set) (E':=Empty_set).
Proof.
  intros H.
  assert (op_1 <> op_x) as Hne by (apply (bool_decide_unpack _); by vm_compute). apply Hne.
  apply (H (toy_on_chain [tx_1; tx_x]) ledger ledger honest swapped _ _ _ _ 1 1 entry_1 entry_x
    (MkCellAddr id_g 0) eq_refl honest_accepted swapped_accepted).
  - apply (toy_sound_world _ _ all_defs); [exact swapped_chain|by vm_compute|by vm_compute].
  - reflexivity.
  - left.
  - reflexivity.
  - left.
Qed.

(** It is also false if only definitions reported at the right positions are accepted: an
    operation without inputs can be delivered with any witness, and so one of its cells with
    a seal relative to the witness transaction has several seals. *)
Theorem C32_free_witness_refuted :
  exists (on_chain : SealWitness TP -> Prop) bs bs' c c' t t' i i' b b' a,
  toy_accepts ledger bs c t /\ toy_accepts ledger bs' c' t' /\
  let h := history (contract_id toy_api ledger) bs in
  let h' := history (contract_id toy_api ledger) bs' in
  sound_world (U:=TU) every_seal on_chain h h' /\
  Forall positions_bound h /\ Forall positions_bound h' /\
  h !! i = Some b /\ consumes b a /\ h' !! i' = Some b' /\ consumes b' a /\
  operation b <> operation b'.
Proof.
  exists (toy_on_chain yz_chain), run_y, run_z, (toy_after ledger run_y), (toy_after ledger run_z),
    (toy_log ledger run_y), (toy_log ledger run_z), 2, 2, entry_y, entry_z, (MkCellAddr id_i 0).
  split; [exact run_y_accepted|]. split; [exact run_z_accepted|]. cbv zeta.
  split; [apply (toy_sound_world _ _ all_defs); [exact yz_chain_valid|by vm_compute|by vm_compute]|].
  split; [apply toy_positions_bound; by vm_compute|]. split; [apply toy_positions_bound; by vm_compute|].
  split; [reflexivity|]. split; [left|]. split; [reflexivity|]. split; [left|].
  change (op_y <> op_z). apply (bool_decide_unpack _). by vm_compute.
Qed.

Example C32_case :
  toy_accepts ledger scenario (toy_after ledger scenario) (toy_log ledger scenario) /\
  toy_accepts ledger honest (toy_after ledger honest) (toy_log ledger honest) /\
  let h := history (contract_id toy_api ledger) scenario in
  let h' := history (contract_id toy_api ledger) honest in
  sound_world (U:=TU) every_seal (toy_on_chain chain) h h' /\
  Forall positions_bound h /\ Forall positions_bound h' /\ Forall roots_settled h /\
  exists i i' b b' a, h !! i = Some b /\ consumes b a /\ h' !! i' = Some b' /\ consumes b' a.
Proof.
  split; [exact scenario_accepted|]. split; [exact honest_accepted|]. cbv zeta.
  split; [exact world_scenario_honest|]. split; [apply toy_positions_bound; by vm_compute|].
  split; [apply toy_positions_bound; by vm_compute|]. split; [apply toy_roots_settled; by vm_compute|].
  exists 1, 1, entry_1, entry_1, (MkCellAddr id_g 0).
  split; [reflexivity|]. split; [left|]. split; [reflexivity|]. left.
Qed.

(** ** C33 *)
Example C33_case :
  let t := toy_log ledger scenario in
  count is_contract_id t = 1 /\ count is_codex t = 3 /\ count is_memory t = 2 /\
  count is_repo t = 2 /\ count is_known_query t = 3 /\ count is_read t = 4 /\
  (* failing after the checks of the seals, and before *)
  count is_known_query (toy_log ledger failing) = 2 /\
  count is_known_query (toy_log ledger [entry_g; entry_2]) = 1.
Proof. by vm_compute. Qed.

(** ** C34 *)

(** The claim is false: a witness is recorded for the genesis, and for a later operation
    without inputs. *)
Theorem C34_witness_recorded_refuted :
  ~ C34_claim toy_api (E:=Empty_set) /\
  exists bs c t o w, toy_accepts ledger bs c t /\ CallApplyWitness o w ∈ t /\
    forall b, b ∈ history (contract_id toy_api ledger) bs -> id_of (U:=TU) b = o ->
      op_destructible_in (operation b) = [] /\ op_destructible_out (operation b) <> [].
Proof.
  split.
  - intros H.
    destruct (H ledger [entry_g_witness] _ _ id_g (wit tx_1) genesis_witness_accepted) as (i & b & Hi & Hb & _).
    + apply (proj1 (C34_witness_recorded_partial toy_api ledger _ _ _ genesis_witness_accepted)).
      exists 0, (seen_first toy_cid entry_g_witness). split; [reflexivity|]. split; [vm_refl|reflexivity].
    + destruct i as [|i]; [lia|]. discriminate Hb.
  - exists run_y, (toy_after ledger run_y), (toy_log ledger run_y), id_i, (wit tx_y).
    split; [exact run_y_accepted|]. split.
    + apply (proj1 (C34_witness_recorded_partial toy_api ledger _ _ _ run_y_accepted)).
      exists 1, entry_iy. split; [reflexivity|]. split; [vm_refl|reflexivity].
    + intros b Hb Hid. apply toy_opid_inj in Hid. rewrite Hid. split; [reflexivity|done].
Qed.

Example C34_case :
  toy_accepts ledger scenario (toy_after ledger scenario) (toy_log ledger scenario) /\
  CallApplyWitness id_1 (wit tx_1) ∈ toy_log ledger scenario /\
  CallApplyWitness id_2 (wit tx_2) ∈ toy_log ledger scenario.
Proof.
  pose proof (proj2 (C34_witness_recorded_partial toy_api ledger _ _ _ scenario_accepted)) as H.
  split; [exact scenario_accepted|]. split.
  - destruct (H 1 entry_1) as (w & Hw & Hin); [reflexivity|done|].
    change (Some (wit tx_1) = Some w) in Hw. injection Hw as Hw. rewrite Hw. exact Hin.
  - destruct (H 2 entry_2) as (w & Hw & Hin); [reflexivity|done|].
    change (Some (wit tx_2) = Some w) in Hw. injection Hw as Hw. rewrite Hw. exact Hin.
Qed.

(** ** C35 *)
Lemma reveals_i b tx :
  operation b = op_i -> defined_seals b !! 0%N = Some (def_w : SealDef TP) -> witness b = Some (wit tx) ->
  reveals (U:=TU) b (MkCellAddr id_i 0) (MkTxoSeal (MkOutpoint (tx_id tx) 0) (Noise [5%N]) : Seal TP).
Proof.
  intros Ho Hd Hw. split; [by unfold id_of; rewrite Ho|]. exists (def_w : SealDef TP). split; [exact Hd|].
  right. split; [reflexivity|]. exists (wit tx). split; [exact Hw|reflexivity].
Qed.

Theorem C35_seal_determined_refuted :
  ~ C35_claim toy_api toy_api (E:=Empty_set) (E':=Empty_set) /\
  (* not even if definitions are reported at their positions *)
  Forall positions_bound (history toy_cid run_y) /\ Forall positions_bound (history toy_cid run_z).
Proof.
  split; [|split; apply toy_positions_bound; by vm_compute]. intros H.
  assert ((MkTxoSeal (MkOutpoint (tx_id tx_y) 0) (Noise [5%N]) : Seal TP) =
    (MkTxoSeal (MkOutpoint (tx_id tx_z) 0) (Noise [5%N]) : Seal TP)) as Heq; [|discriminate Heq].
  apply (H (toy_on_chain yz_chain) ledger ledger run_y run_z _ _ _ _ 1 1 entry_iy entry_iz
    (MkCellAddr id_i 0) _ _ run_y_accepted run_z_accepted).
  - apply (toy_sound_world _ _ all_defs); [exact yz_chain_valid|by vm_compute|by vm_compute].
  - reflexivity.
  - apply reveals_i; [reflexivity|vm_refl|reflexivity].
  - reflexivity.
  - apply reveals_i; [reflexivity|vm_refl|reflexivity].
Qed.

Example C35_case :
  exists i i' b b' a s, history toy_cid scenario !! i = Some b /\ reveals (U:=TU) b a s /\
    history toy_cid honest !! i' = Some b' /\ reveals (U:=TU) b' a s /\
    op_destructible_in (operation b) <> [] /\
    sound_world (U:=TU) every_seal (toy_on_chain chain) (history toy_cid scenario) (history toy_cid honest) /\
    Forall positions_bound (history toy_cid scenario) /\ Forall positions_bound (history toy_cid honest) /\
    Forall roots_settled (history toy_cid scenario).
Proof.
  exists 1, 1, entry_1, entry_1, (MkCellAddr id_1 0), (MkTxoSeal (MkOutpoint (MkTxid [1%N]) 0) (Noise [5%N]) : Seal TP).
  split; [reflexivity|]. split; [exact entry_1_reveals|]. split; [reflexivity|]. split; [exact entry_1_reveals|].
  split; [done|]. split; [exact world_scenario_honest|].
  split; [apply toy_positions_bound; by vm_compute|]. split; [apply toy_positions_bound; by vm_compute|].
  apply toy_roots_settled; by vm_compute.
Qed.

(** ** C43 *)
Theorem C43_spent_once_refuted :
  ~ C43_claim toy_api (E:=Empty_set) /\ Forall positions_bound (history toy_cid run_yz).
Proof.
  split; [|apply toy_positions_bound; by vm_compute]. intros H.
  assert (op_y <> op_z) as Hne by (apply (bool_decide_unpack _); by vm_compute). apply Hne.
  apply (H (toy_on_chain yz_chain) ledger run_yz _ _ 2 4 entry_y entry_z (MkCellAddr id_i 0) run_yz_accepted).
  - apply (toy_sound_world _ _ all_defs); [exact yz_chain_valid|by vm_compute|by vm_compute].
  - reflexivity.
  - left.
  - reflexivity.
  - left.
Qed.

Example C43_case :
  NoDup (id_of (U:=TU) <$> history toy_cid scenario) /\
  sound_world (U:=TU) every_seal (toy_on_chain chain) (history toy_cid scenario) (history toy_cid scenario) /\
  Forall positions_bound (history toy_cid scenario) /\ Forall roots_settled (history toy_cid scenario).
Proof.
  split; [apply (bool_decide_unpack _); by vm_compute|].
  split; [apply (toy_sound_world _ _ all_defs); [exact chain_valid|by vm_compute|by vm_compute]|].
  split; [apply toy_positions_bound; by vm_compute|]. apply toy_roots_settled; by vm_compute.
Qed.

Print Assumptions C28_positional_binding_partial.
Print Assumptions C28_positional_binding_refuted.
Print Assumptions C29_wrong_genesis_partial.
Print Assumptions C29_wrong_genesis_refuted.
Print Assumptions C30_no_injected_state.
Print Assumptions C31_one_seal_one_operation.
Print Assumptions C32_no_double_spend_partial.
Print Assumptions C32_no_double_spend_refuted.
Print Assumptions C32_free_witness_refuted.
Print Assumptions C33_callback_protocol.
Print Assumptions C34_witness_recorded_partial.
Print Assumptions C34_witness_recorded_refuted.
Print Assumptions C35_seal_determined_partial.
Print Assumptions C35_seal_determined_refuted.
Print Assumptions C43_spent_once_partial.
Print Assumptions C43_spent_once_refuted.
