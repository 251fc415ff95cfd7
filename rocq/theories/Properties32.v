(** * Properties, part 32: careful parties need not trust consignments

    C82: if the reader of each party refuses entries which report a definition for another output than its own, which
    have a witness without inputs, or whose witness is not on the chain, then C78, C80 and C81 hold whatever the
    consignments are. *)
From Verif Require Import Guard CellFacts LedgerCells Refine Effects Consensus Sharing Scenario Counterexamples
  DoubleSpend BitcoinChain Derived Properties1 Properties3 Properties5 Properties6 Properties7 Properties14 Properties27
  Properties28 Properties29 Properties30 Properties31.
Notation block := Verif.Concrete.block.
Notation total := Verif.Properties27.total.

Section careful.
Context {P : SealProtocol} {U : Ultrasonic} (A : ContractApi P U) {E : Type}.
Context (cells : Contract A -> gmap CellAddr StateCell) (amount : StateCell -> N).
Notation Block := (OperationSeals P).
Notation ins op := (input_addr <$> op_destructible_in op).
Notation View := (SealWitness P -> bool).
Notation party := (list (list Block) * list (call P U) * Contract A)%type.

(** The check of an entry, by a party which finds on the chain the witnesses that [view] tells. *)
Definition careful (view : View) (first : bool) (b : Block) : bool :=
  well_placed b && witness_in_place b && match witness b with Some w => view w | None => true end.

(** The sessions of a party whose reader checks the entries ([evaluate_guarded_by], Guard.v). *)
Inductive careful_session (view : View) (c0 : Contract A)
    : list (list Block) -> list (call P U) -> Contract A -> Prop :=
| careful_session_start : careful_session view c0 [] [] c0
| careful_session_step L l c bs (fin : option E) c' t1 t2 r :
    careful_session view c0 L l c ->
    evaluate_guarded_by A (careful view) c bs fin = (c', t1 ++ t2, Some r) ->
    careful_session view c0 (L ++ [bs]) (l ++ t1) (apply_calls A c t1).

(** The cell [a] was received by one of the parties with the seal [s]: an entry of a consignment which the party has
    accepted reveals it. *)
Definition received_carefully (cid : ContractId) (parties : list (View * party)) (a : CellAddr) (s : Seal P) : Prop :=
  exists view p bs c c' t b, (view, p) ∈ parties /\ bs ∈ p.1.1 /\ contract_id A c = cid /\
    evaluate_guarded_by A (careful view) c bs (None : option E) = (c', t, Some (Ok tt)) /\
    b ∈ history cid bs /\ reveals (U:=U) b a s.

(** What is assumed: of the chain, and that ids of operations and tokens do not collide.  Nothing is assumed about
    which definitions are reported for which outputs, nor about the witnesses that come with the entries. *)
Record fair_world (on_chain : SealWitness P -> Prop) (h : list Block) : Prop := {
  fair_single_use : forall s, single_use P on_chain s;
  fair_closed_by_one : forall s, closed_by_one P on_chain s;
  fair_messages : messages_differ P;
  fair_collisions : no_collisions (U:=U) h h }.

(** What is read by a party is the part of the consignments before the first entry which is refused. *)
Definition read_by (p : View * party) : party := ((cut (careful p.1) true <$> p.2.1.1), p.2.1.2, p.2.2).

Lemma careful_session_of view c0 L l c :
  careful_session view c0 L l c -> session_of A (E + Block) c0 (cut (careful view) true <$> L) l c.
Proof.
  induction 1 as [|L l c bs fin c' t1 t2 r _ IH Hev]; [constructor|].
  rewrite fmap_app. rewrite evaluate_guarded_by_cut in Hev. by eapply session_of_step.
Qed.

Definition passed (view : View) (b : Block) : Prop :=
  placed b /\ forall w, witness b = Some w -> view w = true.
Lemma careful_passed view bs : Forall (passed view) (cut (careful view) true bs).
Proof.
  generalize true. induction bs as [|b bs IH]; intros first; cbn [cut]; [constructor|].
  destruct (careful view first b) eqn:Hc; [|constructor]. constructor; [|apply IH].
  unfold careful in Hc. apply andb_true_iff in Hc as [[Hp Hw]%andb_true_iff Hv].
  split; [split; [by apply well_placed_spec|by apply witness_in_place_spec]|].
  intros w Hb. by rewrite Hb in Hv.
Qed.

Lemma read_entries (on_chain : SealWitness P -> Prop) cid (parties : list (View * party)) :
  (forall view p w, (view, p) ∈ parties -> view w = true -> on_chain w) ->
  fair_world on_chain (all_entries cid (parties ≫= fun p => p.2.1.1)) ->
  on_one_chain (U:=U) on_chain (all_entries cid ((read_by <$> parties) ≫= fun p => p.1.1)).
Proof.
  intros Hview [W1 W2 W3 [V1 V2]]. set (k := all_entries cid ((read_by <$> parties) ≫= _)).
  assert (forall b, b ∈ k -> b ∈ all_entries cid (parties ≫= fun p => p.2.1.1) /\
    exists view p, (view, p) ∈ parties /\ passed view b) as Hk.
  { intros b Hb. unfold k, all_entries in Hb. apply elem_of_list_join in Hb as (h & Hb & Hh).
    apply elem_of_list_fmap in Hh as (bs' & -> & Hbs'). apply elem_of_list_bind in Hbs' as (q & Hbs' & Hq).
    apply elem_of_list_fmap in Hq as ([view p] & -> & Hp). cbn in Hbs'. apply elem_of_list_fmap in Hbs' as (bs & -> & Hbs).
    split.
    - unfold all_entries. apply elem_of_list_join. exists (history cid bs). split.
      + eapply history_prefix; [|exact Hb]. apply cut_prefix.
      + apply elem_of_list_fmap. exists bs. split; [done|]. apply elem_of_list_bind. by exists (view, p).
    - exists view, p. split; [done|]. pose proof (careful_passed view bs) as Hall.
      destruct (cut (careful view) true bs) as [|b0 l]; [by apply elem_of_nil in Hb|].
      apply list.Forall_cons in Hall as [H0 Hl]. rewrite list.Forall_forall in Hl.
      cbn [history] in Hb. apply elem_of_cons in Hb as [->|Hb]; [exact H0|by apply Hl]. }
  assert (Forall placed k) as Hpl.
  { apply list.Forall_forall. intros b (_ & view & p & _ & H & _)%Hk. exact H. }
  split; try done.
  - intros b w Hb Hw. apply Hk in Hb as (_ & view & p & Hp & _ & Hv). by eapply Hview, Hv.
  - split; [intros b b' Hb%Hk Hb'%Hk; apply V1; naive_solver|].
    intros b b' pos pos' d d' Hb%Hk Hb'%Hk. apply (V2 b b'); naive_solver.
  - by apply placed_bound.
  - by apply placed_all_settled.
Qed.

Hypothesis Hcells : creates_outputs A cells.
Hypothesis Hfaith : faithful U.

Section world.
Context (on_chain : SealWitness P -> Prop) (c0 : Contract A) (parties : list (View * party)).
Hypothesis Hviews : forall view p w, (view, p) ∈ parties -> view w = true -> on_chain w.
Hypothesis Hpart : forall view L l c, (view, (L, l, c)) ∈ parties -> careful_session view c0 L l c.
Hypothesis Hworld : fair_world on_chain (all_entries (contract_id A c0) (parties ≫= fun p => p.2.1.1)).

Lemma read_sessions L l c : (L, l, c) ∈ read_by <$> parties -> session_of A (E + Block) c0 L l c.
Proof.
  intros ([view [[L' l'] c']] & Heq & Hp)%elem_of_list_fmap. cbn in Heq. injection Heq as -> -> ->.
  apply careful_session_of. by apply Hpart.
Qed.
Lemma read_applied op :
  (exists p, p ∈ read_by <$> parties /\ op ∈ applied_operations p.1.2) <->
  exists p, p ∈ snd <$> parties /\ op ∈ applied_operations p.1.2.
Proof.
  split.
  - intros (q & (p & -> & Hp)%elem_of_list_fmap & Hop). exists p.2. split; [by apply elem_of_list_fmap_1|done].
  - intros (q & (p & -> & Hp)%elem_of_list_fmap & Hop). exists (read_by p). split; [by apply elem_of_list_fmap_1|done].
Qed.
Lemma read_open a x :
  open_cell A cells c0 (read_by <$> parties) a x <-> open_cell A cells c0 (snd <$> parties) a x.
Proof.
  unfold open_cell. split; intros [Hx Hn]; (split; [destruct Hx as [Hx|(p & op & Hp & Hop & Ho)]; [by left|right]|]).
  - destruct (proj1 (read_applied op)) as (q & Hq & Hq'); [by exists p|]. by exists q, op.
  - intros p op Hp Hop. destruct (proj2 (read_applied op)) as (q & Hq & Hq'); [by exists p|]. by apply (Hn q op).
  - destruct (proj2 (read_applied op)) as (q & Hq & Hq'); [by exists p|]. by exists q, op.
  - intros p op Hp Hop. destruct (proj1 (read_applied op)) as (q & Hq & Hq'); [by exists p|]. by apply (Hn q op).
Qed.

(** C78 *)
Theorem C82_no_inflation (u : gmap CellAddr StateCell) :
  covered A cells amount ->
  (forall a x, u !! a = Some x -> open_cell A cells c0 (snd <$> parties) a x) ->
  (total amount u <= total amount (cells c0))%N.
Proof.
  intros Hcov Hu.
  apply (C78_no_inflation A (E:=E + Block) cells amount Hcells Hfaith on_chain c0 (read_by <$> parties) u Hcov read_sessions).
  - by apply read_entries.
  - intros a x Hx. apply (read_open a x). by apply Hu.
Qed.

(** C80 *)
Theorem C82_conserved :
  remembers A -> balanced A cells amount -> needs_cells A cells -> known_cells A cells c0 ->
  exists u : gmap CellAddr StateCell,
    (forall a x, u !! a = Some x <-> open_cell A cells c0 (snd <$> parties) a x) /\
    total amount u = total amount (cells c0).
Proof.
  intros Hrem Hbal Hneed Hk.
  destruct (C80_conserved A (E:=E + Block) cells amount Hcells Hrem Hfaith on_chain c0 (read_by <$> parties) Hbal Hneed Hk
    read_sessions) as (u & Hu & Ht); [by apply read_entries|].
  exists u. split; [|done]. intros a x. by rewrite Hu, read_open.
Qed.

(** C81 *)
Theorem C82_custody a s p op :
  received_carefully (contract_id A c0) parties a s ->
  p ∈ snd <$> parties -> op ∈ applied_operations p.1.2 -> a ∈ ins op ->
  exists w closed, on_chain w /\ s ∈ closed /\
    witness_closes w closed (message_from P (opid_bytes (opid_of U op))) = Ok tt.
Proof.
  intros (view & q & bs & c & c' & t & b & Hq & Hbs & Hc & Hev & Hb & Hr) Hp Hop Ha.
  destruct (proj2 (read_applied op)) as (p' & Hp' & Hop'); [by exists p|].
  refine (C81_custody A (E:=E + Block) cells Hcells Hfaith on_chain c0 (read_by <$> parties) a s p' op read_sessions
    _ _ Hp' Hop' Ha); [by apply read_entries|].
  apply evaluate_guarded_accepts in Hev as (_ & Hpass & Hev).
  exists bs, bs, c, c', t, b. split; [|split; [done|split; [done|split; [|done]]]].
  - apply elem_of_list_bind. exists (read_by (view, q)). split; [|by apply elem_of_list_fmap_1]. cbn.
    apply elem_of_list_fmap. exists bs. split; [|done]. symmetry. by apply cut_all.
  - apply evaluate_ok_iff. by apply evaluate_ok_iff in Hev.
Qed.
End world.
End careful.

(** With bitcoin seals, and with the very ledger of the test-suite: parties which look up transactions on the chain. *)
Corollary C82_bitcoin (B : BpCore) (spends : Tx B -> nat -> Outpoint -> Prop)
    (commits : Tx B -> nat -> MmbMessage B -> Prop) (on_chain : Tx B -> Prop)
    (S : Sonic) (E : Type) (amount : StateCell -> N) (c0 : TestContract (bitcoin B) S)
    (parties : list ((SealWitness (bitcoin B) -> bool) *
       (list (list (OperationSeals (bitcoin B))) * list (call (bitcoin B) (sonic S)) * TestContract (bitcoin B) S))) :
  let A := test_ledger (bitcoin B) S in
  let h := all_entries (tc_contract_id _ _ c0) (parties ≫= fun p => p.2.1.1) in
  sonic_balanced S amount -> sonic_needs S ->
  (forall a, is_Some (tc_owned _ _ c0 !! a) -> is_Some (tc_known_ops _ _ c0 !! cell_opid a)) ->
  (forall view L l c, (view, (L, l, c)) ∈ parties -> careful_session A (E:=E) view c0 L l c) ->
  (forall view p w, (view, p) ∈ parties -> view w = true -> on_chain (published w)) ->
  closing_spends B spends commits -> one_message B commits -> spent_once B spends on_chain ->
  messages_differ (bitcoin B) -> no_collisions (U:=sonic S) h h ->
  (exists u : gmap CellAddr StateCell,
     (forall a x, u !! a = Some x <-> open_cell A (tc_owned _ _) c0 (snd <$> parties) a x) /\
     total amount u = total amount (tc_owned _ _ c0)) /\
  (forall a s p op, received_carefully A (E:=E) (tc_contract_id _ _ c0) parties a s ->
     p ∈ snd <$> parties -> op ∈ applied_operations p.1.2 -> a ∈ input_addr <$> op_destructible_in op ->
     exists tx i, on_chain tx /\ spends tx i (seal_primary s) /\
       commits tx i (message_from (bitcoin B) (opid_bytes (sonic_opid S op)))).
Proof.
  intros A h Hbal Hneed Hk Hs Hv Hcl Hone Hso Hmsg Hcol.
  assert (fair_world (U:=sonic S) (mined B on_chain) h) as Hw.
  { split; try done; intros x; [by eapply bitcoin_single_use|by eapply bitcoin_closed_by_one]. }
  split.
  - apply (C82_conserved A (E:=E) (tc_owned _ _) amount (ledger_creates_outputs _ S) (sonic_faithful S)
      (mined B on_chain) c0 parties Hv Hs Hw (ledger_remembers _ S)).
    + intros c cid op v. cbn. destruct (sonic_verify S _ _ _ _ _ _) eqn:Hx; [done|]. intros _.
      exact (Hbal _ _ _ _ _ _ Hx).
    + intros c cid op v. cbn. destruct (sonic_verify S _ _ _ _ _ _) eqn:Hx; [done|]. intros _.
      exact (proj1 (Hneed _ _ _ _ _ _ Hx)).
    + intros a Ha. cbn. apply bool_decide_eq_true. by apply Hk.
  - intros a s p op Hr Hp Hop Ha.
    destruct (C82_custody A (E:=E) (tc_owned _ _) (ledger_creates_outputs _ S) (sonic_faithful S)
      (mined B on_chain) c0 parties Hv Hs Hw a s p op Hr Hp Hop Ha) as (w & closed & Hon & Hin & Hx).
    destruct (Hcl _ _ _ _ _ Hx Hin) as (i & Hi & Hm). by exists (published w), i.
Qed.

(** ** Case

    The consignment of the thief of C81 is refused at the misplaced definition, one whose witness is not on the chain at
    that entry, and the 8 are there - the 3 where they were received - whatever the consignments are. *)
Definition look_up (ch : list ToyTx) (w : SealWitness TP) : bool := bool_decide ((published w : ToyTx) ∈ ch).
Definition careful_eval (ch : list ToyTx) (bs : list ToyBlock) :=
  evaluate_guarded_by (E:=Empty_set) exact_api (careful (P:=TP) (look_up ch)) exact_purse bs None.
Definition careful_party (ch : list ToyTx) (bs : list ToyBlock) :=
  (look_up ch, ([bs], (careful_eval ch bs).1.2, (careful_eval ch bs).1.1)).
Lemma careful_party_session ch bs :
  is_Some (careful_eval ch bs).2 ->
  careful_session exact_api (E:=Empty_set) (look_up ch) exact_purse (careful_party ch bs).2.1.1 (careful_party ch bs).2.1.2
    (careful_party ch bs).2.2.
Proof.
  intros [r Hr]. unfold careful_party. destruct (careful_eval ch bs) as [[d t] r'] eqn:H. cbn [fst snd] in *. subst r'.
  unfold careful_eval in H. pose proof H as H'. rewrite evaluate_guarded_by_cut in H'.
  pose proof (evaluate_log exact_api _ _ _ _ _ _ H') as ->. rewrite <-(app_nil_r t) in H.
  exact (careful_session_step exact_api (E:=Empty_set) (look_up ch) exact_purse [] [] exact_purse bs None _ _ _ _
    (careful_session_start _ _ _) H).
Qed.
Lemma careful_parties ch (lbs : list (list ToyBlock)) view p :
  (view, p) ∈ careful_party ch <$> lbs -> view = look_up ch /\ exists bs, bs ∈ lbs /\ p = (careful_party ch bs).2.
Proof.
  intros (bs & Heq & Hbs)%elem_of_list_fmap. split; [exact (f_equal fst Heq)|]. exists bs.
  split; [done|exact (f_equal snd Heq)].
Qed.
Lemma careful_sessions ch (lbs : list (list ToyBlock)) view L l c :
  Forall (fun bs => is_Some (careful_eval ch bs).2) lbs ->
  (view, (L, l, c)) ∈ careful_party ch <$> lbs -> careful_session exact_api (E:=Empty_set) view exact_purse L l c.
Proof.
  rewrite list.Forall_forall. intros Hall [-> (bs & Hbs & Heq)]%careful_parties.
  pose proof (careful_party_session _ _ (Hall bs Hbs)) as Hs. rewrite <-Heq in Hs. exact Hs.
Qed.
Definition hostile : list (list ToyBlock) :=
  [[entry_m; entry_p1c]; [entry_m; entry_p1t; entry_theft]; [entry_m; entry_again]; [entry_m; entry_p1; entry_pe]].
Definition hostile_parties := careful_party theft_chain <$> hostile.
(** Ids and tokens in these consignments do not collide. *)
Definition hostile_entries : list ToyBlock := all_entries toy_cid (hostile_parties ≫= fun p => p.2.1.1).
Lemma hostile_apart : no_collisions (U:=sonic exact_sonic) hostile_entries hostile_entries.
Proof.
  assert (forallb (defs_in all_defs) (hostile_entries ++ hostile_entries) = true) as H by vm_refl.
  apply (no_collisions_dec hostile_entries hostile_entries all_defs ltac:(vm_refl)).
  intros b Hb%elem_of_list_In pos d Hp. rewrite forallb_forall in H. specialize (H b Hb).
  unfold defs_in in H. rewrite forallb_forall in H. specialize (H (pos, d)).
  apply bool_decide_eq_true in H; [exact H|]. by apply elem_of_list_In, elem_of_map_to_list.
Qed.
Example C82_case :
  (snd <$> (careful_eval theft_chain <$> hostile)) =
    [Some (Ok tt); Some (Err (Stream (inr entry_p1t))); Some (Err (Stream (inr entry_again)));
     Some (Err (Stream (inr entry_pe)))] /\
  (exists u : gmap CellAddr StateCell,
     (forall a x, u !! a = Some x <-> open_cell exact_api (tc_owned _ _) exact_purse (snd <$> hostile_parties) a x) /\
     total coin u = 8%N) /\
  open_cell exact_api (tc_owned _ _) exact_purse (snd <$> hostile_parties) (MkCellAddr id_p1 1) (piece 3 def_c) /\
  (* without the checks the consignments are accepted *)
  ((fun bs => (evaluate exact_api (E:=Empty_set) exact_purse bs None).2) <$> hostile) = replicate 4 (Some (Ok tt)).
Proof.
  split; [|split; [|split]].
  - vm_refl.
  - destruct (C82_conserved exact_api (E:=Empty_set) (tc_owned _ _) coin (ledger_creates_outputs _ _) (sonic_faithful _)
      (toy_on_chain theft_chain) exact_purse hostile_parties) as (u & Hu & Ht).
    + intros view p w [-> _]%careful_parties Hw. by apply bool_decide_eq_true in Hw.
    + intros view L l c. apply careful_sessions. apply (bool_decide_unpack _). by vm_compute.
    + destruct (toy_sound_world every_seal theft_chain all_defs [] []) as (H1 & H2 & H3 & _).
      { unfold toy_chain. apply (bool_decide_unpack _). by vm_compute. }
      { vm_refl. }
      { vm_refl. }
      pose proof hostile_apart as H5.
      split; [intros s; by apply H1|intros s; by apply H2|exact H3|exact H5].
    + apply ledger_remembers.
    + intros c cid op v.
      change (codex_verify (sonic exact_sonic) ?q _ _ ?m ?r) with
        (match sonic_verify exact_sonic q cid op (fun a => tc_owned _ _ c !! a) (fun a => tc_global _ _ c !! a)
           (fun n => tc_libs _ _ c !! n) with None => Ok (op : VerifiedOperation (sonic exact_sonic)) | Some e => Err e end).
      destruct (sonic_verify exact_sonic _ _ _ _ _ _) eqn:Hv; [done|]. intros _. exact (exact_balanced _ _ _ _ _ _ Hv).
    + intros c cid op v.
      change (codex_verify (sonic exact_sonic) ?q _ _ ?m ?r) with
        (match sonic_verify exact_sonic q cid op (fun a => tc_owned _ _ c !! a) (fun a => tc_global _ _ c !! a)
           (fun n => tc_libs _ _ c !! n) with None => Ok (op : VerifiedOperation (sonic exact_sonic)) | Some e => Err e end).
      destruct (sonic_verify exact_sonic _ _ _ _ _ _) eqn:Hv; [done|]. intros _. exact (proj1 (exact_needs _ _ _ _ _ _ Hv)).
    + intros a Ha. change (bool_decide (is_Some (tc_known_ops _ _ exact_purse !! cell_opid a)) = true).
      apply bool_decide_eq_true. by apply exact_purse_known.
    + exists u. split; [exact Hu|]. rewrite Ht. vm_refl.
  - split.
    + right. exists (careful_party theft_chain [entry_m; entry_p1c]).2, pay_1. split; [left|]. split; [|split; vm_refl].
      assert (applied_operations (careful_eval theft_chain [entry_m; entry_p1c]).1.2 = [pay_1]) as H by vm_refl.
      unfold careful_party. cbn [fst snd]. rewrite H. left.
    + intros p op Hp Hop.
      assert (op ∈ (hostile ≫= fun bs => applied_operations (careful_eval theft_chain bs).1.2)) as Hin.
      { apply elem_of_list_fmap in Hp as ([view q] & -> & [_ (bs & Hbs & ->)]%careful_parties).
        apply elem_of_list_bind. by exists bs. }
      assert ((hostile ≫= fun bs => applied_operations (careful_eval theft_chain bs).1.2) = [pay_1; pay_1]) as Hops by vm_refl.
      rewrite Hops in Hin. assert (op = pay_1) as -> by (by apply elem_of_cons in Hin as [|?%elem_of_list_singleton]).
      apply (bool_decide_unpack _). by vm_compute.
  - vm_refl.
Qed.

Print Assumptions C82_no_inflation.
Print Assumptions C82_conserved.
Print Assumptions C82_custody.
Print Assumptions C82_bitcoin.
Print Assumptions C82_case.
