(** * Properties, part 34: careful parties agree

    C84: consensus (C53) among parties whose readers check the entries as in C82, whatever the consignments are. *)
From Verif Require Import Guard CellFacts LedgerCells Refine Consensus BitcoinChain Derived Scenario Counterexamples
  Properties2 Properties3 Properties5 Properties6 Properties7 Properties27 Properties31 Properties32.
Notation block := Verif.Concrete.block.

Section agreement.
Context {P : SealProtocol} {U : Ultrasonic} (A : ContractApi P U) {E X : Type}.
Context (peek : Contract A -> Slot -> option X) (out : Operation -> Slot -> option X).
Context (gone : Operation -> Slot -> bool).
Notation Block := (OperationSeals P).
Notation View := (SealWitness P -> bool).
Notation accepts view c0 bs c t :=
  (evaluate_guarded_by A (careful view) c0 bs (None : option E) = (c, t, Some (Ok tt))).
Notation without_applied t := (List.filter (fun e => negb (is_apply e)) (mutations t)).

(** The party with the view [view'] finds on the chain the witnesses of [bs] that the one with the view [view] finds. *)
Definition sees_as_much (view view' : View) (bs : list Block) : Prop :=
  forall b w, b ∈ bs -> witness b = Some w -> view w = true -> view' w = true.

Lemma all_pass_seen view view' bs first :
  sees_as_much view view' bs -> all_pass (careful view) first bs = true -> all_pass (careful view') first bs = true.
Proof.
  revert first. induction bs as [|b bs IH]; intros first Hsee; [done|]. cbn [all_pass].
  destruct (careful view first b) eqn:Hb; [|done]. intros Hbs.
  assert (careful view' first b = true) as ->.
  { unfold careful in *. apply andb_true_iff in Hb as [Hp Hw]. apply andb_true_iff. split; [done|].
    destruct (witness b) as [w|] eqn:Hwit; [|done]. apply (Hsee b w); [left|done|done]. }
  apply IH; [|done]. intros b' w Hb'. apply Hsee. by right.
Qed.

(** ** C84 Careful parties agree

    Two parties start from the same contract and evaluate the consignments [L] and [L'], whatever these are, with
    failures and crashes on the way; each one's reader makes the three checks of C82 with the party's own view of the
    chain.  One of them accepts the consignment [bs], which brings the operations that it needs.  Then the other
    accepts it, and makes the same records, if it finds on the chain the witnesses of [bs] which the first one finds.
    Only facts about the chain, and that ids and tokens do not collide, are assumed. *)
Theorem C84_agreement (on_chain : SealWitness P -> Prop) (view view' : View) (c0 : Contract A) L l c L' l' c' bs d t :
  keeps_cells A peek out gone -> remembers A -> faithful U -> needs_inputs A peek -> intact A peek c0 ->
  (forall w, view w = true -> on_chain w) -> (forall w, view' w = true -> on_chain w) ->
  careful_session A (E:=E) view c0 L l c -> careful_session A (E:=E) view' c0 L' l' c' ->
  fair_world (U:=U) on_chain (all_entries (contract_id A c0) (L ++ L' ++ [bs])) ->
  self_contained A c0 (history (contract_id A c0) bs) ->
  accepts view c bs d t -> sees_as_much view view' bs ->
  exists d' t', accepts view' c' bs d' t' /\ without_applied t' = without_applied t.
Proof.
  intros H1 H2 H3 H4 Hint Hv Hv' Hs Hs' Hfair Hself Hacc Hsee.
  apply evaluate_guarded_accepts in Hacc as (_ & Hpass & Hacc).
  pose proof (all_pass_seen view view' bs true Hsee Hpass) as Hpass'.
  set (parties := [(view, (L ++ [bs], l, c)); (view', (L', l', c'))]).
  assert (on_one_chain (U:=U) on_chain
    (all_entries (contract_id A c0) ((cut (careful view) true <$> L) ++ (cut (careful view') true <$> L') ++ [bs]))) as Hch.
  { eapply on_one_chain_sub; [|apply (read_entries A on_chain (contract_id A c0) parties)].
    - intros b. unfold all_entries. rewrite !elem_of_list_join. intros (x & Hb & (y & -> & Hy)%elem_of_list_fmap).
      exists (history (contract_id A c0) y). split; [done|]. apply elem_of_list_fmap. exists y. split; [done|].
      apply elem_of_list_bind. rewrite !elem_of_app in Hy. destruct Hy as [Hy|[Hy|Hy%elem_of_list_singleton]].
      + exists (read_by A (view, (L ++ [bs], l, c))). split; [|left]. cbn. rewrite fmap_app. apply elem_of_app. by left.
      + exists (read_by A (view', (L', l', c'))). split; [exact Hy|]. right. left.
      + exists (read_by A (view, (L ++ [bs], l, c))). split; [|left]. cbn. rewrite fmap_app. apply elem_of_app. right.
        apply elem_of_list_fmap. exists bs. split; [|left]. subst y. symmetry. by apply cut_all.
    - intros v p w Hp. unfold parties in Hp. apply elem_of_cons in Hp as [Hp|Hp%elem_of_list_singleton];
        injection Hp as -> _; [apply Hv|apply Hv'].
    - destruct Hfair as [F1 F2 F3 [F4 F5]]. 
      assert (forall b, b ∈ all_entries (contract_id A c0) (parties ≫= fun p => p.2.1.1) ->
        b ∈ all_entries (contract_id A c0) (L ++ L' ++ [bs])) as Hsub.
      { intros b. unfold all_entries. rewrite !elem_of_list_join. intros (x & Hb & (y & -> & Hy)%elem_of_list_fmap).
        exists (history (contract_id A c0) y). split; [done|]. apply elem_of_list_fmap. exists y. split; [done|].
        cbn in Hy. rewrite app_nil_r in Hy. rewrite !elem_of_app in *. tauto. }
      split; [done|done|done|]. split.
      + intros b b' Hb%Hsub Hb'%Hsub. by apply F4.
      + intros b b' pos pos' x x' Hb%Hsub Hb'%Hsub. by apply (F5 b b'). }
  apply careful_session_of in Hs, Hs'.
  destruct (C53_chain_consensus A (E:=E + Block) peek out gone on_chain c0 _ l c _ l' c' bs
    H1 H2 H3 H4 Hint Hs Hs' Hch Hself) as [Hcons _].
  destruct (Hcons d t) as (d' & t' & Hd & Ht).
  - apply evaluate_ok_iff. by apply evaluate_ok_iff in Hacc.
  - exists d', t'. split; [|done]. apply evaluate_guarded_accepts. split; [done|]. split; [done|].
    apply evaluate_ok_iff. by apply evaluate_ok_iff in Hd.
Qed.

(** Parties with the same view of the witnesses of a consignment both accept it, or both do not. *)
Corollary C84_same_view (on_chain : SealWitness P -> Prop) (view view' : View) (c0 : Contract A) L l c L' l' c' bs :
  keeps_cells A peek out gone -> remembers A -> faithful U -> needs_inputs A peek -> intact A peek c0 ->
  (forall w, view w = true -> on_chain w) -> (forall w, view' w = true -> on_chain w) ->
  careful_session A (E:=E) view c0 L l c -> careful_session A (E:=E) view' c0 L' l' c' ->
  fair_world (U:=U) on_chain (all_entries (contract_id A c0) (L ++ L' ++ [bs])) ->
  self_contained A c0 (history (contract_id A c0) bs) ->
  (forall b w, b ∈ bs -> witness b = Some w -> view w = view' w) ->
  (exists d t, accepts view c bs d t) <-> (exists d' t', accepts view' c' bs d' t').
Proof.
  intros H1 H2 H3 H4 Hint Hv Hv' Hs Hs' Hfair Hself Hsame. split.
  - intros (d & t & Hacc).
    destruct (C84_agreement on_chain view view' c0 L l c L' l' c' bs d t) as (d' & t' & H & _); try done.
    + intros b w Hb Hw. by rewrite (Hsame b w).
    + by exists d', t'.
  - intros (d & t & Hacc).
    destruct (C84_agreement on_chain view' view c0 L' l' c' L l c bs d t) as (d' & t' & H & _); try done.
    + destruct Hfair as [F1 F2 F3 [F4 F5]].
      assert (forall b, b ∈ all_entries (contract_id A c0) (L' ++ L ++ [bs]) ->
        b ∈ all_entries (contract_id A c0) (L ++ L' ++ [bs])) as Hsub.
      { intros b. unfold all_entries. rewrite !elem_of_list_join. intros (x & Hb & (y & -> & Hy)%elem_of_list_fmap).
        exists (history (contract_id A c0) y). split; [done|]. apply elem_of_list_fmap. exists y. split; [done|].
        rewrite !elem_of_app in *. tauto. }
      split; [done|done|done|]. split.
      * intros b b' Hb%Hsub Hb'%Hsub. by apply F4.
      * intros b b' pos pos' x x' Hb%Hsub Hb'%Hsub. by apply (F5 b b').
    + intros b w Hb Hw. by rewrite (Hsame b w).
    + by exists d', t'.
Qed.
End agreement.

(** ** With bitcoin seals and the ledger which drops consumed cells: parties which look up transactions on the chain. *)
Corollary C84_bitcoin (B : BpCore) (spends : Tx B -> nat -> Outpoint -> Prop)
    (commits : Tx B -> nat -> MmbMessage B -> Prop) (on_chain : Tx B -> Prop)
    (S : Sonic) (E : Type) (view view' : SealWitness (bitcoin B) -> bool) (c0 : TestContract (bitcoin B) S)
    L l c L' l' c' bs d t :
  let A := spending_ledger (bitcoin B) S in
  let h := all_entries (tc_contract_id _ _ c0) (L ++ L' ++ [bs]) in
  sonic_local S -> sonic_needs S -> ledger_intact _ S c0 ->
  (forall w, view w = true -> on_chain (published w)) -> (forall w, view' w = true -> on_chain (published w)) ->
  careful_session A (E:=E) view c0 L l c -> careful_session A (E:=E) view' c0 L' l' c' ->
  closing_spends B spends commits -> one_message B commits -> spent_once B spends on_chain ->
  messages_differ (bitcoin B) -> no_collisions (U:=sonic S) h h ->
  self_contained A c0 (history (tc_contract_id _ _ c0) bs) ->
  evaluate_guarded_by A (careful view) c bs (None : option E) = (d, t, Some (Ok tt)) -> sees_as_much view view' bs ->
  exists d' t', evaluate_guarded_by A (careful view') c' bs (None : option E) = (d', t', Some (Ok tt)).
Proof.
  intros A h Hlocal Hneeds Hint Hv Hv' Hs Hs' Hcl Hone Hso Hmsg Hcol Hself Hacc Hsee.
  destruct (C84_agreement A (E:=E) (ledger_peek _ S) outputs inputs_gone (mined B on_chain) view view' c0 L l c L' l' c' bs d t)
    as (d' & t' & H & _); try done.
  - by apply spending_keeps_cells.
  - apply spending_remembers.
  - apply sonic_faithful.
  - by apply spending_needs_inputs.
  - by apply ledger_intact_iff.
  - split; [intros s; by eapply bitcoin_single_use|intros s; by eapply bitcoin_closed_by_one|done|done].
  - by exists d', t'.
Qed.

(** *** Concrete cases *)
Definition wary (ch : list ToyTx) (c : ToyContract) (bs : list ToyBlock) :=
  evaluate_guarded_by (E:=Empty_set) spend_api (careful (P:=TP) (look_up ch)) c bs None.
Definition wary_after ch (c : ToyContract) bs : ToyContract := (wary ch c bs).1.1.
Lemma wary_step ch L l c bs r :
  careful_session spend_api (E:=Empty_set) (look_up ch) ledger L l c -> (wary ch c bs).2 = Some r ->
  careful_session spend_api (E:=Empty_set) (look_up ch) ledger (L ++ [bs]) (l ++ (wary ch c bs).1.2) (wary_after ch c bs).
Proof.
  intros Hs Hr. unfold wary_after. destruct (wary ch c bs) as [[d t] r'] eqn:H. cbn [fst snd] in *. subst r'.
  unfold wary in H. pose proof H as H'. rewrite evaluate_guarded_by_cut in H'.
  pose proof (evaluate_log spend_api _ _ _ _ _ _ H') as ->. rewrite <-(app_nil_r t) in H.
  exact (careful_session_step spend_api (E:=Empty_set) (look_up ch) ledger L l c bs None _ _ _ _ Hs H).
Qed.

(** The first party was sent a double spend whose witness is not on the chain, and a consignment which reports a
    definition at the wrong position; both are refused.  Then it accepts one branch.  The second one has accepted the
    other branch; it does not see yet the transaction of operation 4. *)
Definition misplaced : ToyBlock := block op_3 [(1%N, def_d)] (Some (wit tx_3)).
Definition chain_now : list ToyTx := [tx_1; tx_3; tx_of 52 out_d id_5].
Definition wary_1 := wary_after one_chain ledger [entry_g; entry_v].
Definition wary_2 := wary_after one_chain wary_1 [entry_g; misplaced].
Definition wary_14 := wary_after one_chain wary_2 [entry_g; entry_1; entry_4].
Definition wary_35 := wary_after chain_now ledger [entry_g; entry_3; entry_5].
Definition wary_sent : list (list ToyBlock) := [[entry_g; entry_v]; [entry_g; misplaced]; [entry_g; entry_1; entry_4]].
Definition all_but_4 : list ToyBlock := [entry_g; entry_1; entry_3; entry_5].
Lemma wary_first : exists l, careful_session spend_api (E:=Empty_set) (look_up one_chain) ledger wary_sent l wary_14.
Proof.
  eexists.
  assert ((wary one_chain ledger [entry_g; entry_v]).2 = Some (Err (Stream (inr entry_v)))) as R1 by vm_refl.
  assert ((wary one_chain wary_1 [entry_g; misplaced]).2 = Some (Err (Stream (inr misplaced)))) as R2 by vm_refl.
  assert ((wary one_chain wary_2 [entry_g; entry_1; entry_4]).2 = Some (Ok tt)) as R3 by vm_refl.
  pose proof (wary_step one_chain [] [] ledger _ _ (careful_session_start _ _ _) R1) as S1.
  pose proof (wary_step one_chain _ _ _ _ _ S1 R2) as S2.
  exact (wary_step one_chain _ _ _ _ _ S2 R3).
Qed.
Lemma wary_second : exists l, careful_session spend_api (E:=Empty_set) (look_up chain_now) ledger sent_35 l wary_35.
Proof.
  eexists.
  assert ((wary chain_now ledger [entry_g; entry_3; entry_5]).2 = Some (Ok tt)) as R1 by vm_refl.
  exact (wary_step chain_now [] [] ledger _ _ (careful_session_start _ _ _) R1).
Qed.
Definition wary_entries : list ToyBlock := all_entries toy_cid (wary_sent ++ sent_35 ++ [all_but_4]).
Lemma wary_apart : no_collisions (U:=TU) wary_entries wary_entries.
Proof.
  assert (forallb (defs_in all_defs) (wary_entries ++ wary_entries) = true) as H by vm_refl.
  apply (no_collisions_dec wary_entries wary_entries all_defs ltac:(vm_refl)).
  intros b Hb%elem_of_list_In pos d Hp. rewrite forallb_forall in H. specialize (H b Hb).
  unfold defs_in in H. rewrite forallb_forall in H. specialize (H (pos, d)).
  apply bool_decide_eq_true in H; [exact H|]. by apply elem_of_list_In, elem_of_map_to_list.
Qed.

(** A consignment with all operations but the fourth is accepted by the second party since the first one accepts it;
    the one with operation 4 too is accepted by the first party only.  This party's contract knows neither operation 3
    nor 5, the second party's knows neither 1 nor 4. *)
Example C84_case :
  (exists d t, wary chain_now wary_35 all_but_4 = (d, t, Some (Ok tt))) /\
  ((wary one_chain wary_14 branches).2, (wary chain_now wary_35 branches).2) =
    (Some (Ok tt), Some (Err (Stream (inr entry_4)))) /\
  (is_known spend_api wary_14 <$> [id_1; id_3; id_4; id_5], is_known spend_api wary_35 <$> [id_1; id_3; id_4; id_5]) =
    ([true; false; true; false], [false; true; false; true]).
Proof.
  split; [|split; vm_refl].
  destruct wary_first as [l Hs], wary_second as [l' Hs'].
  assert ((wary one_chain wary_14 all_but_4).2 = Some (Ok tt)) as Hr by vm_refl.
  destruct (wary one_chain wary_14 all_but_4) as [[d t] r] eqn:Hacc. cbn [snd] in Hr. subst r.
  destruct (C84_agreement spend_api (E:=Empty_set) (ledger_peek TP toy_sonic) outputs inputs_gone
    (toy_on_chain one_chain) (look_up one_chain) (look_up chain_now) ledger wary_sent l wary_14 sent_35 l' wary_35
    all_but_4 d t spend_keeps_cells (spending_remembers _ _) (sonic_faithful _) spend_needs_inputs spend_intact)
    as (d' & t' & H & _).
  - intros w Hw. by apply bool_decide_eq_true in Hw.
  - intros w Hw. apply bool_decide_eq_true in Hw. unfold toy_on_chain. revert Hw. generalize (published w : ToyTx).
    intros tx Htx. assert (forallb (fun tx => bool_decide (tx ∈ one_chain)) chain_now = true) as Hall by vm_refl.
    rewrite forallb_forall in Hall. apply elem_of_list_In in Htx. specialize (Hall tx Htx). by apply bool_decide_eq_true in Hall.
  - exact Hs.
  - exact Hs'.
  - destruct (toy_sound_world every_seal one_chain all_defs [] [] one_chain_valid) as (W1 & W2 & W3 & _); [vm_refl|vm_refl|].
    split; [intros s; by apply W1|intros s; by apply W2|exact W3|exact wary_apart].
  - apply toy_self_contained. vm_refl.
  - exact Hacc.
  - intros b w Hb Hw _.
    assert (forallb (fun b : ToyBlock => match witness b with Some w => look_up chain_now w | None => true end) all_but_4 = true)
      as Hall by vm_refl.
    rewrite forallb_forall in Hall. apply elem_of_list_In in Hb. specialize (Hall b Hb). rewrite Hw in Hall. exact Hall.
  - exists d', t'. exact H.
Qed.

Print Assumptions C84_agreement.
Print Assumptions C84_same_view.
Print Assumptions C84_bitcoin.
Print Assumptions C84_case.
