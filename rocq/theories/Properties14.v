(** * Property C63: a reader which checks the entries makes the false claims true

    C28, C29, C32, C34, C35 and C43 are false of `evaluate`.  All of them hold if the reader
    refuses an entry which reports a definition for an output without its token, which has a
    witness without inputs, or which comes first and is not the genesis (Guard.v). *)
From Verif Require Import Guard LedgerCells Derived Scenario Counterexamples
  Properties2 Properties3 Properties5 Properties6 Properties7.
From Coq Require Import Lia.
Notation block := Verif.Concrete.block.

Section properties.
Context {P : SealProtocol} {U : Ultrasonic} (A : ContractApi P U) {E : Type}.
Notation Block := (OperationSeals P).
Notation id_of := (id_of (U:=U)).
Notation live := (live (U:=U)).
Notation reveals := (reveals (U:=U)).
Notation in_order := (in_order (U:=U)).
Implicit Types (c : Contract A) (bs pre post : list Block) (b : Block) (g : Opid).

Notation accepted c0 bs c t := (evaluate A (E:=E) c0 bs None = (c, t, Some (Ok tt))).
Notation guarded g c0 bs c t := (evaluate_guarded (E:=E) A g c0 bs None = (c, t, Some (Ok tt))).

(** ** What the guarded evaluation does

    It accepts what `evaluate` accepts and passes the checks, with the same calls and the same
    contract afterwards.  A refused entry leaves the contract as the entries before it. *)
Theorem C63_exact g c bs (fin : option E) :
  (forall d t, evaluate_guarded A g c bs fin = (d, t, Some (Ok tt)) <->
     fin = None /\ in_order (contract_id A c) g bs /\ accepted c bs d t) /\
  (forall pre b post d t, bs = pre ++ b :: post ->
     in_order (contract_id A c) g pre -> ~ in_order (contract_id A c) g (pre ++ [b]) -> accepted c pre d t ->
     evaluate_guarded A g c bs fin = (d, t, Some (Err (Stream (inr b))))).
Proof.
  split.
  - intros d t. unfold evaluate_guarded. rewrite evaluate_guarded_accepts, all_pass_spec. done.
  - intros pre b post d t -> Hpre Hb Hacc. unfold evaluate_guarded. rewrite evaluate_guarded_by_cut.
    rewrite <-all_pass_spec in Hpre, Hb. revert Hpre Hb. generalize (all_checks (U:=U) (P:=P) (contract_id A c) g). intros ps Hpre Hb.
    assert (forall l f, all_pass ps f l = true -> all_pass ps f (l ++ [b]) <> true ->
      cut ps f (l ++ b :: post) = l /\ cut_end ps f (l ++ b :: post) fin = Some (inr b)) as Hcut.
    { clear. induction l as [|x l IH]; intros f; cbn; [by destruct (ps f b)|].
      destruct (ps f x); [|done]. intros H1 H2. destruct (IH false H1 H2) as [-> ->]. done. }
    destruct (Hcut pre true Hpre Hb) as [-> ->].
    apply evaluate_ok_iff in Hacc as (t' & Hrun & ->). apply evaluate_iff_outcome. by apply outcome_stream.
Qed.

(** The same for any reader, however it delivers the entries. *)
Theorem C63_any_reader (R : ReadOperation P E) r g c d t :
  (exists fuel rr,
     evaluate_reader A (guarded_reader (all_checks (U:=U) (contract_id A c) g) R) fuel c (r, true) =
       ((d, t), rr, Some (Ok tt))) <->
  exists bs r1 r2, delivers R r bs r1 /\ ends R r1 None r2 /\ in_order (contract_id A c) g bs /\ accepted c bs d t.
Proof.
  set (G := guarded_reader (all_checks (U:=U) (contract_id A c) g) R). split.
  - intros (fuel & rr & Hev).
    destruct (reader_cases A G c ((r, true) : Reader G) fuel) as
      [(bs & r1 & c1 & t1 & Hlen & Hd & Hacc)|[(bs & r1 & r2 & fin & c1 & t1 & Hlen & Hd & He & Hacc)|
       (bs & b & r1 & c1 & t1 & c2 & t2 & e & Hlen & Hd & Hacc & Hbad)]].
    + destruct (reader_goes_on A G c bs _ r1 c1 t1 Hd Hacc) as (t' & _ & Hx). rewrite Hlen, Hev in Hx. congruence.
    + pose proof (reader_end A G c bs _ r1 r2 fin c1 t1 fuel Hd He Hacc Hlen) as Hx. rewrite Hev in Hx.
      destruct fin as [e|]; [congruence|]. assert (c1 = d /\ t1 = t) as [-> ->] by (split; congruence).
      apply guarded_delivers in Hd as (Hp & r3 & Hd & ->). apply guarded_ends in He as (r4 & He & _).
      exists bs, r3, r4. split; [done|]. split; [done|]. split; [by apply all_pass_spec|].
      apply evaluate_ok_iff. by apply evaluate_ok_iff in Hacc.
    + pose proof (reader_bad A G c bs b _ r1 c1 t1 c2 t2 e fuel Hd Hacc Hbad Hlen) as Hx. rewrite Hev in Hx. congruence.
  - intros (bs & r1 & r2 & Hd & He & Hp & Hacc).
    set (f := match bs with [] => true | _ => false end).
    exists (S (length bs)), (r2, f).
    refine (reader_end A G c bs ((r, true) : Reader G) ((r1, f) : Reader G) ((r2, f) : Reader G) None d t (S (length bs)) _ _ _ ltac:(lia)).
    + apply guarded_delivers. split; [by apply all_pass_spec|]. exists r1. split; [done|]. by destruct bs.
    + apply guarded_ends. by exists r2.
    + apply evaluate_ok_iff. by apply evaluate_ok_iff in Hacc.
Qed.

Lemma placed_history cid bs : Forall placed bs -> Forall placed (history cid bs).
Proof. destruct bs as [|b bs]; [done|]. cbn [history]. rewrite !list.Forall_cons. intros [H Hr]. split; [exact H|exact Hr]. Qed.
Lemma placed_bound bs : Forall placed bs -> Forall positions_bound bs.
Proof. apply Forall_impl. by intros b [? _]. Qed.
Lemma placed_all_settled (h : list Block) : Forall placed h -> all_settled h.
Proof.
  rewrite list.Forall_forall. intros H b b' pos d _ Hb' Ho Hin _ _. apply (H b' Hb').
  unfold inputs_of in Hin. apply fmap_nil_inv in Hin. by rewrite <-Ho.
Qed.

(** ** C28, C29 and C34 hold in full *)
Theorem C63_repaired g c0 bs c t :
  guarded g c0 bs c t ->
  let h := history (contract_id A c0) bs in
  (* C28: the seal closed for a cell comes from a definition whose token is in that very cell *)
  (forall j bj a s, h !! j = Some bj -> consumes bj a -> live (take j h) a s ->
     exists i bi d cell, i < j /\ h !! i = Some bi /\ cell_opid a = id_of bi /\
       (to_src P d = Some s \/
        to_src P d = None /\ exists w, witness bi = Some w /\ s = resolve P d (pub_id P (published w))) /\
       op_destructible_out (operation bi) !! N.to_nat (cell_pos a) = Some cell /\ cell_auth cell = auth_token P d) /\
  (* C29: the first operation is the genesis *)
  (forall b bs', bs = b :: bs' -> opid_of U (with_contract_id (contract_id A c0) (operation b)) = g) /\
  (* C34: witnesses are recorded for operations with inputs, other than the first, only *)
  (forall o w, CallApplyWitness o w ∈ t ->
     exists i b, 0 < i /\ bs !! i = Some b /\ id_of b = o /\ op_destructible_in (operation b) <> []).
Proof.
  intros H h. apply C63_exact in H as (_ & [Hpl Hst] & Hacc). split; [|split].
  - intros j bj a s Hj Ha Hl.
    destruct (C28_positional_binding_partial A c0 bs c t j bj a s Hacc Hj Ha Hl)
      as (i & bi & d & cell & Hi & Hbi & Hid & Hs & _ & Hauth & Hpos).
    exists i, bi, d, cell. split; [done|]. split; [done|]. split; [done|]. split; [done|]. split; [|done].
    apply Hpos. apply (placed_history (contract_id A c0)), placed_bound in Hpl.
    rewrite list.Forall_forall in Hpl. apply Hpl. by eapply elem_of_list_lookup_2.
  - intros b bs' ->. by apply Hst.
  - intros o w Hw. apply (proj1 (C34_witness_recorded_partial A c0 bs c t Hacc)) in Hw as (i & b & Hi & Hid & Hw).
    pose proof (placed_history (contract_id A c0) _ Hpl) as Hpl'. rewrite list.Forall_forall in Hpl'.
    destruct (Hpl' b (elem_of_list_lookup_2 _ _ _ Hi)) as [_ Hnone].
    assert (op_destructible_in (operation b) <> []) as Hne by (intros Hx; apply Hnone in Hx; congruence).
    destruct bs as [|b0 bs]; [done|]. destruct i as [|i].
    + exfalso. apply Hne. cbn in Hi. injection Hi as <-. cbn.
      by eapply (accepted_first_no_inputs A (E:=E)).
    + exists (S i), b. split; [lia|]. done.
Qed.

(** ** Consensus

    Parties whose readers check the entries: C53 without its premises on what consignments
    report - only the facts about the chain, and that ids and tokens do not collide, remain. *)
Inductive guarded_session g c0 : list (list Block) -> Contract A -> Prop :=
| guarded_session_start : guarded_session g c0 [] c0
| guarded_session_step L c bs (fin : option E) c' t1 t2 r :
    guarded_session g c0 L c ->
    evaluate_guarded A g c bs fin = (c', t1 ++ t2, Some r) ->
    guarded_session g c0 (L ++ [bs]) (apply_calls A c t1).

Context {X : Type} (peek : Contract A -> Slot -> option X) (out : Operation -> Slot -> option X).
Context (gone : Operation -> Slot -> bool).

Lemma guarded_session_of g c0 L c :
  keeps_cells A peek out gone -> remembers A -> faithful U -> intact A peek c0 ->
  guarded_session g c0 L c ->
  exists L' l, session_of A (E + Block) c0 L' l c /\ Forall2 prefix L' L /\ Forall (Forall placed) L'.
Proof.
  intros K1 K2 K3 Hint. induction 1 as [|L c bs fin c' t1 t2 r _ (L' & l & Hs & Hp & Hpl) Hev].
  { exists [], []. split; [constructor|]. by split. }
  unfold evaluate_guarded in Hev. rewrite evaluate_guarded_by_cut in Hev.
  eexists (L' ++ [_]), _. split; [eapply session_of_step; [exact Hs|exact Hev]|]. split.
  - apply Forall2_app; [done|]. constructor; [apply cut_prefix|done].
  - apply Forall_app. split; [done|]. constructor; [|done].
    pose proof (cut_passes (all_checks (U:=U) (contract_id A c) g) true bs) as Hcp.
    by apply all_pass_spec in Hcp as [? _].
Qed.

Lemma Forall2_prefix_entries cid (L' L : list (list Block)) :
  Forall2 prefix L' L -> all_entries cid L' ⊆ all_entries cid L.
Proof.
  intros H b Hb. unfold all_entries in *. apply elem_of_list_join in Hb as (h & Hb & Hh).
  apply elem_of_list_fmap in Hh as (bs' & -> & Hbs'). apply elem_of_list_lookup in Hbs' as [i Hi].
  eapply Forall2_lookup_l in H as (bs & Hbs & Hpre); [|done].
  apply elem_of_list_join. exists (history cid bs). split; [by eapply history_prefix|].
  apply elem_of_list_fmap. exists bs. split; [done|]. by eapply elem_of_list_lookup_2.
Qed.

Theorem C63_consensus (on_chain : SealWitness P -> Prop) g c0 L c L' c' bs :
  keeps_cells A peek out gone -> remembers A -> faithful U -> needs_inputs A peek -> intact A peek c0 ->
  guarded_session g c0 L c -> guarded_session g c0 L' c' ->
  let h := all_entries (contract_id A c0) (L ++ L' ++ [bs]) in
  sound_world (U:=U) (denoted P h) on_chain h h ->
  self_contained A c0 (history (contract_id A c0) bs) ->
  (exists d t, guarded g c bs d t) <-> (exists d' t', guarded g c' bs d' t').
Proof.
  intros K1 K2 K3 K4 Hint Hs Hs' h (W1 & W2 & W3 & W4 & _ & W5) Hself.
  destruct (guarded_session_of g c0 L c K1 K2 K3 Hint Hs) as (M & l & HM & HpM & HplM).
  destruct (guarded_session_of g c0 L' c' K1 K2 K3 Hint Hs') as (M' & l' & HM' & HpM' & HplM').
  assert (contract_id A c = contract_id A c0) as Hc.
  { apply (session_state A (E:=E + Block) peek out gone K1 K2 K3 c0 l c Hint). by eapply session_of_session. }
  assert (contract_id A c' = contract_id A c0) as Hc'.
  { apply (session_state A (E:=E + Block) peek out gone K1 K2 K3 c0 l' c' Hint). by eapply session_of_session. }
  assert (in_order (contract_id A c0) g bs ->
    (exists d t, accepted c bs d t) <-> (exists d' t', accepted c' bs d' t')) as Hiff.
  { intros [Hbs _].
    set (k := all_entries (contract_id A c0) (M ++ M' ++ [bs])).
    assert (k ⊆ h) as Hsub.
    { apply Forall2_prefix_entries. apply Forall2_app; [done|]. apply Forall2_app; [done|]. by repeat constructor. }
    assert (Forall placed k) as Hk.
    { apply list.Forall_forall. intros b Hb. unfold k, all_entries in Hb. apply elem_of_list_join in Hb as (x & Hb & Hx).
      apply elem_of_list_fmap in Hx as (y & -> & Hy). revert b Hb. apply list.Forall_forall, placed_history.
      rewrite list.Forall_forall in HplM, HplM'.
      apply elem_of_app in Hy as [Hy|[Hy|Hy]%elem_of_app]; [by apply HplM|by apply HplM'|].
      apply elem_of_list_singleton in Hy as ->. done. }
    assert (on_one_chain (U:=U) on_chain k) as Hch.
    { split; try done.
      - intros s Hd. apply W1. by eapply denoted_sub.
      - intros s Hd. apply W2. by eapply denoted_sub.
      - intros b w Hb. apply W4. by apply Hsub.
      - destruct W5 as [V1 V2]. split; [intros b b' Hb Hb'; apply V1; by apply Hsub|].
        intros b b' p p' d d' Hb Hb'. apply (V2 b b'); by apply Hsub.
      - by apply placed_bound.
      - by apply placed_all_settled. }
    destruct (C53_chain_consensus A (E:=E + Block) peek out gone on_chain c0 M l c M' l' c' bs K1 K2 K3 K4 Hint HM HM' Hch Hself)
      as [_ Hboth]. specialize (Hboth bs (reflexivity bs)).
    assert (forall (x : Contract A), (exists d t, evaluate A (E:=E + Block) x bs None = (d, t, Some (Ok tt))) <->
      exists d t, accepted x bs d t) as Hex.
    { intros x. split; intros (d & t & Hd); exists d, t; apply evaluate_ok_iff; by apply evaluate_ok_iff in Hd. }
    by rewrite <-!Hex. }
  split; intros (d & t & Hd); apply C63_exact in Hd as (_ & Ho & Hacc).
  - rewrite Hc in Ho. destruct (proj1 (Hiff Ho) (ex_intro _ d (ex_intro _ t Hacc))) as (d' & t' & H').
    exists d', t'. apply C63_exact. by rewrite Hc'.
  - rewrite Hc' in Ho. destruct (proj2 (Hiff Ho) (ex_intro _ d (ex_intro _ t Hacc))) as (d' & t' & H').
    exists d', t'. apply C63_exact. by rewrite Hc.
Qed.
End properties.

(** ** C32, C35 and C43 hold in full *)
Section two.
Context {P : SealProtocol} {U : Ultrasonic} (A A' : ContractApi P U) {E E' : Type}.
Notation Block := (OperationSeals P).
Notation guarded g c0 bs c t := (evaluate_guarded (E:=E) A g c0 bs None = (c, t, Some (Ok tt))).
Notation guarded' g c0 bs c t := (evaluate_guarded (E:=E') A' g c0 bs None = (c, t, Some (Ok tt))).

Theorem C63_no_double_spend (on_chain : SealWitness P -> Prop) g g'
    (c0 : Contract A) (c0' : Contract A') (bs bs' : list Block) c c' t t' :
  guarded g c0 bs c t -> guarded' g' c0' bs' c' t' ->
  let h := history (contract_id A c0) bs in
  let h' := history (contract_id A' c0') bs' in
  sound_world (U:=U) (denoted P h) on_chain h h' ->
  (* C32 (and C43, for two entries of one consignment): a cell is consumed by one operation *)
  (forall i i' b b' a, h !! i = Some b -> consumes b a -> h' !! i' = Some b' -> consumes b' a ->
     operation b = operation b') /\
  (* C35: a cell has one seal *)
  (forall i i' b b' a s s', h !! i = Some b -> reveals (U:=U) b a s -> h' !! i' = Some b' -> reveals (U:=U) b' a s' ->
     s = s').
Proof.
  intros H H' h h' Hw.
  apply C63_exact in H as (_ & [Hpl _] & Hacc). apply C63_exact in H' as (_ & [Hpl' _] & Hacc').
  apply (placed_history (contract_id A c0)) in Hpl. apply (placed_history (contract_id A' c0')) in Hpl'.
  pose proof (placed_bound _ Hpl) as Hb. pose proof (placed_bound _ Hpl') as Hb'.
  pose proof (settled_each _ (placed_all_settled _ Hpl)) as Hr. split.
  - intros i i' b b' a Hi Ha Hi' Ha'.
    exact (proj2 (C32_no_double_spend_partial A A' on_chain c0 c0' bs bs' c c' t t' i i' b b' a Hacc Hacc' Hw Hb Hb' Hr Hi Ha Hi' Ha')).
  - intros i i' b b' a s s' Hi Hs Hi' Hs'.
    exact (C35_seal_determined_partial A A' on_chain c0 c0' bs bs' c c' t t' i i' b b' a s s' Hacc Hacc' Hw Hb Hb' Hr Hi Hs Hi' Hs').
Qed.
End two.

(** * Concrete cases *)
Notation toy_checked passes bs := (evaluate_guarded_by (E:=Empty_set) toy_api passes ledger bs None).
Notation toy_guarded bs := (evaluate_guarded (E:=Empty_set) toy_api id_g ledger bs None).
Notation refused b := (Some (Err (Stream (inr (b : ToyBlock))))).

Lemma toy_checked_ok passes bs : (toy_checked passes bs).2 = Some (Ok tt) ->
  exists c t, toy_checked passes bs = (c, t, Some (Ok tt)).
Proof. destruct (toy_checked passes bs) as [[c t] r]. cbn. intros ->. by exists c, t. Qed.

(** The consignment [scenario] passes; the ones of the refutations are refused, at the first
    entry which is not in order. *)
Example C63_case :
  (exists c t, toy_guarded scenario = (c, t, Some (Ok tt))) /\ is_known toy_api ledger id_g = true /\
  (toy_guarded swapped).2 = refused entry_g_swapped /\
  (toy_guarded [entry_g_witness]).2 = refused entry_g_witness /\
  (toy_guarded [entry_h]).2 = refused entry_h /\
  (toy_guarded run_yz).2 = refused entry_iy /\
  (toy_guarded run_yz).1.1 = toy_after ledger [entry_g].
Proof.
  split; [apply toy_checked_ok; vm_refl|]. split; [vm_refl|]. split; [vm_refl|]. split; [vm_refl|].
  split; [vm_refl|]. split; vm_refl.
Qed.

(** No check is superfluous.  Without the first, the consignment of [C28_positional_binding_refuted]
    is accepted; without the second, the one of [C43_spent_once_refuted], in which two operations
    consume the same cell; without the third, the one of [C29_wrong_genesis_refuted]. *)
Definition unplaced (first : bool) (b : ToyBlock) : bool := witness_in_place b && is_genesis (U:=TU) toy_cid id_g first b.
Definition unwitnessed (first : bool) (b : ToyBlock) : bool := well_placed b && is_genesis (U:=TU) toy_cid id_g first b.
Definition any_genesis (_ : bool) (b : ToyBlock) : bool := well_placed b && witness_in_place b.
Example C63_each_needed :
  (exists c t, toy_checked unplaced swapped = (c, t, Some (Ok tt))) /\
  (exists c t, toy_checked unwitnessed run_yz = (c, t, Some (Ok tt))) /\
  (exists c t, toy_checked any_genesis [entry_h] = (c, t, Some (Ok tt))).
Proof. split; [|split]; apply toy_checked_ok; vm_refl. Qed.

(** Two different consignments which pass, with the premises about the world. *)
Example C63_case_spend :
  (exists c t, toy_guarded scenario = (c, t, Some (Ok tt))) /\ (exists c t, toy_guarded honest = (c, t, Some (Ok tt))) /\
  sound_world (U:=TU) every_seal (toy_on_chain chain) (history toy_cid scenario) (history toy_cid honest) /\
  forall i i' b b' a, history toy_cid scenario !! i = Some b -> consumes b a ->
    history toy_cid honest !! i' = Some b' -> consumes b' a -> operation b = operation b'.
Proof.
  assert (exists c t, toy_guarded scenario = (c, t, Some (Ok tt))) as H1 by (apply toy_checked_ok; vm_refl).
  assert (exists c t, toy_guarded honest = (c, t, Some (Ok tt))) as H2 by (apply toy_checked_ok; vm_refl).
  split; [exact H1|]. split; [exact H2|]. split; [exact world_scenario_honest|].
  destruct H1 as (c & t & H1), H2 as (c' & t' & H2).
  refine (proj1 (C63_no_double_spend toy_api toy_api (toy_on_chain chain) id_g id_g ledger ledger scenario honest c c' t t' H1 H2 _)).
  destruct world_scenario_honest as (W1 & W2 & W). split; [intros s _; by apply W1|]. split; [intros s _; by apply W2|exact W].
Qed.

(** Two parties.  One is first sent a genesis with definitions at wrong positions, which is
    not among the entries for which C53 can be used; its reader refuses it. *)
Notation spend_guarded c bs := (evaluate_guarded (E:=Empty_set) spend_api id_g c bs None).
Definition after_14 : ToyContract := (spend_guarded (spend_guarded ledger [entry_g_swapped]).1.1 [entry_g; entry_1; entry_4]).1.1.
Definition after_35 : ToyContract := (spend_guarded ledger [entry_g; entry_3; entry_5]).1.1.
Lemma spend_guarded_session L c bs r :
  guarded_session spend_api (E:=Empty_set) id_g ledger L c -> (spend_guarded c bs).2 = Some r ->
  guarded_session spend_api (E:=Empty_set) id_g ledger (L ++ [bs]) (spend_guarded c bs).1.1.
Proof.
  intros Hs Hr. destruct (spend_guarded c bs) as [[d t] r'] eqn:H. cbn in *. subst r'.
  assert (d = apply_calls spend_api c t) as ->.
  { unfold evaluate_guarded in H. rewrite evaluate_guarded_by_cut in H. exact (evaluate_log spend_api _ _ _ _ _ _ H). }
  eapply (guarded_session_step spend_api id_g ledger L c bs None _ t []); [exact Hs|]. rewrite app_nil_r. exact H.
Qed.
Example C63_case_consensus :
  (spend_guarded ledger [entry_g_swapped]).2 = refused entry_g_swapped /\
  ~ Forall positions_bound (all_entries toy_cid [[entry_g_swapped]; [entry_g; entry_1; entry_4]]) /\
  (exists d t, spend_guarded after_14 branches = (d, t, Some (Ok tt))) /\
  (exists d' t', spend_guarded after_35 branches = (d', t', Some (Ok tt))).
Proof.
  assert ((spend_guarded ledger [entry_g_swapped]).2 = refused entry_g_swapped) as H0 by vm_refl.
  split; [exact H0|]. split.
  { intros Hf. apply list.Forall_forall with (x := seen_first toy_cid entry_g_swapped) in Hf; [|left].
    destruct (Hf 0%N (def_b : SealDef TP)) as (cell & Hc & Ha); [vm_refl|]. cbn in Hc. injection Hc as <-.
    revert Ha. apply (bool_decide_unpack _). by vm_compute. }
  assert ((spend_guarded (spend_guarded ledger [entry_g_swapped]).1.1 [entry_g; entry_1; entry_4]).2 = Some (Ok tt)) as H1 by vm_refl.
  assert ((spend_guarded ledger [entry_g; entry_3; entry_5]).2 = Some (Ok tt)) as H2 by vm_refl.
  assert ((spend_guarded after_14 branches).2 = Some (Ok tt)) as H3 by vm_refl.
  assert (exists d t, spend_guarded after_14 branches = (d, t, Some (Ok tt))) as Hacc.
  { destruct (spend_guarded after_14 branches) as [[d t] r]. cbn in H3. subst r. by exists d, t. }
  split; [exact Hacc|].
  pose proof (spend_guarded_session _ _ _ _ (spend_guarded_session _ _ _ _
    (guarded_session_start spend_api (E:=Empty_set) id_g ledger) H0) H1) as S1.
  pose proof (spend_guarded_session _ _ _ _ (guarded_session_start spend_api (E:=Empty_set) id_g ledger) H2) as S2.
  refine (proj1 (C63_consensus spend_api (E:=Empty_set) (ledger_peek TP toy_sonic) outputs inputs_gone
    (toy_on_chain one_chain) id_g ledger _ _ _ _ branches
    spend_keeps_cells (spending_remembers _ _) (sonic_faithful _) spend_needs_inputs spend_intact S1 S2 _ _) Hacc).
  - apply (toy_sound_world _ _ all_defs); [exact one_chain_valid|vm_refl|vm_refl].
  - apply toy_self_contained. vm_refl.
Qed.

Print Assumptions C63_exact.
Print Assumptions C63_any_reader.
Print Assumptions C63_repaired.
Print Assumptions C63_consensus.
Print Assumptions C63_no_double_spend.
