(** * Properties, part 23: which operations a consignment has to include

    C73: the parts of a consignment that are accepted, and in which order. *)
From Verif Require Import CellFacts LedgerCells Sharing Refine Scenario Counterexamples Properties2 Properties5 Properties21.
From Coq Require Import Lia.
Notation block := Verif.Concrete.block.

Section parts.
Context {P : SealProtocol} {U : Ultrasonic} (A : ContractApi P U) {E : Type}.
Context {X : Type} (peek : Contract A -> Slot -> option X) (out : Operation -> Slot -> option X).
Context (gone : Operation -> Slot -> bool).
Notation Block := (OperationSeals P).
Notation accepted c0 bs c t := (evaluate A (E:=E) c0 bs None = (c, t, Some (Ok tt))).
Notation id_of := (id_of (P:=P) (U:=U)).
Implicit Types (rest : list Block) (b e : Block).

(** The entries of [rest] which are in [T], whose cells are named by such entries, and so on. *)
Inductive required (h rest T : list Block) : Block -> Prop :=
| required_target b : b ∈ T -> required h rest T b
| required_named b e s :
    required h rest T b -> b ∈ rest -> s ∈ reads (operation b) -> slot_opid s = id_of e -> e ∈ h ->
    required h rest T e.

Lemma nodup_ids (l : list Block) x y : NoDup (id_of <$> l) -> x ∈ l -> y ∈ l -> id_of x = id_of y -> x = y.
Proof.
  intros Hnd [i Hi]%elem_of_list_lookup [j Hj]%elem_of_list_lookup Heq.
  assert (i = j) as ->; [|congruence].
  eapply (NoDup_lookup _ i j (id_of x) Hnd); rewrite list_lookup_fmap; [by rewrite Hi|]. rewrite Hj. cbn. by rewrite Heq.
Qed.
Lemma nodup_part first rest rest' :
  NoDup (id_of <$> first :: rest) -> NoDup rest' -> rest' ⊆ rest -> NoDup (id_of <$> first :: rest').
Proof.
  intros Hnd Hnd1 Hsub. rewrite fmap_cons in Hnd |- *. apply list.NoDup_cons in Hnd as [Hn Hnd]. apply list.NoDup_cons. split.
  - intros Hin. apply Hn. apply elem_of_list_fmap in Hin as (x & Hx & Hin). apply elem_of_list_fmap. exists x.
    split; [done|by apply Hsub].
  - apply NoDup_alt. intros i j o Hi Hj. rewrite list_lookup_fmap in Hi, Hj.
    destruct (rest' !! i) as [x|] eqn:Hx; [|done]. destruct (rest' !! j) as [y|] eqn:Hy; [|done].
    cbn in Hi, Hj. eapply NoDup_lookup; [exact Hnd1|exact Hx|]. rewrite Hy. f_equal.
    apply (nodup_ids rest); [done| | |congruence]; apply Hsub; by eapply elem_of_list_lookup_2.
Qed.
Lemma precedes_elem (l : list Block) x y : precedes l x y -> x ∈ l /\ y ∈ l.
Proof. intros (i & j & _ & Hi & Hj). split; by eapply elem_of_list_lookup_2. Qed.
Lemma sublist_subseteq (l' l : list Block) : l' `sublist_of` l -> l' ⊆ l.
Proof.
  intros Hs. induction Hs as [|z l' l Hs IH|z l' l Hs IH]; [done| |]; intros x Hx; [|right; by apply IH].
  apply elem_of_cons in Hx as [->|Hx]; [left|right; by apply IH].
Qed.
Lemma sublist_NoDup (l' l : list Block) : l' `sublist_of` l -> NoDup l -> NoDup l'.
Proof.
  intros Hs. induction Hs as [|z l' l Hs IH|z l' l Hs IH]; [done| |]; intros [Hz Hnd]%list.NoDup_cons; [|by apply IH].
  apply list.NoDup_cons. split; [|by apply IH]. intros Hin. apply Hz. by apply (sublist_subseteq l' l).
Qed.
Lemma sublist_precedes (l' l : list Block) x y : l' `sublist_of` l -> precedes l' x y -> precedes l x y.
Proof.
  intros Hs. induction Hs as [|z l' l Hs IH|z l' l Hs IH]; [done| |].
  - intros (i & j & Hij & Hi & Hj). destruct j as [|j]; [lia|]. destruct i as [|i].
    + cbn in Hi, Hj. injection Hi as ->.
      assert (y ∈ l) as [k Hk]%elem_of_list_lookup.
      { eapply (sublist_subseteq l' l); [done|]. by eapply elem_of_list_lookup_2. }
      exists 0, (S k). split; [lia|done].
    + destruct IH as (i' & j' & ? & ? & ?); [exists i, j; split; [lia|done]|]. exists (S i'), (S j'). split; [lia|done].
  - intros Hp. destruct (IH Hp) as (i & j & ? & ? & ?). exists (S i), (S j). split; [lia|done].
Qed.
Lemma precedes_asym (l : list Block) x y : NoDup l -> precedes l x y -> ~ precedes l y x.
Proof.
  intros Hnd (i & j & Hij & Hi & Hj) (i' & j' & Hij' & Hi' & Hj').
  assert (i = j') by (by eapply NoDup_lookup). assert (j = i') by (by eapply NoDup_lookup). lia.
Qed.
Lemma precedes_sublist (l' l : list Block) x y :
  NoDup l -> l' `sublist_of` l -> x ∈ l' -> y ∈ l' -> precedes l x y -> precedes l' x y.
Proof.
  intros Hnd Hs [i Hi]%elem_of_list_lookup [j Hj]%elem_of_list_lookup Hp.
  destruct (decide (i < j)) as [Hlt|Hge]; [by exists i, j|]. exfalso.
  destruct (decide (i = j)) as [->|Hne].
  - rewrite Hi in Hj. injection Hj as ->. destruct Hp as (k & k' & Hk & H1 & H2).
    assert (k = k') by (by eapply NoDup_lookup). lia.
  - apply (precedes_asym l x y Hnd Hp). apply (sublist_precedes l'); [done|]. exists j, i. split; [lia|done].
Qed.

Section proofs.
Hypothesis Hcells : keeps_cells A peek out gone.
Hypothesis Hrem : remembers A.
Hypothesis Hfaith : faithful U.
Hypothesis Hneeds : needs_inputs A peek.

(** Cells named by an operation that is verified are there. *)
Lemma named_before c0 b0 rest t c :
  intact A peek c0 -> valid_run A c0 (b0 :: rest) t c ->
  let h := history (contract_id A c0) (b0 :: rest) in
  NoDup (id_of <$> h) -> (forall b, b ∈ rest -> is_known A c0 (id_of b) = false) ->
  forall b s, b ∈ rest -> s ∈ reads (operation b) ->
    is_known A c0 (slot_opid s) = true \/ exists e, precedes h e b /\ id_of e = slot_opid s.
Proof.
  intros Hint Hrun h Hnd Hfresh b s Hb Hs. pose proof (Hfresh b Hb) as Hkb.
  apply elem_of_list_split in Hb as (r1 & r2 & ->).
  change (b0 :: r1 ++ b :: r2) with ((b0 :: r1) ++ b :: r2) in Hrun.
  apply valid_run_at in Hrun as (t1 & c1 & Hrun1 & (_ & _ & _ & Hvm) & _).
  destruct (run_state A peek out gone Hcells Hrem Hfaith c0 (b0 :: r1) t1 c1 Hint Hrun1)
    as (Hset & Hint1 & Hk & _). cbn [seen] in Hvm. cbn [history tail] in Hk.
  assert (is_known A c1 (id_of b) = false) as Hkb1.
  { apply not_true_iff_false. rewrite Hk. intros [Hx|(b' & Hb' & Hx)]; [congruence|].
    unfold h in Hnd. cbn [history] in Hnd. rewrite fmap_cons in Hnd. apply list.NoDup_cons in Hnd as [_ Hnd].
    rewrite fmap_app, fmap_cons in Hnd. apply list.NoDup_app in Hnd as (_ & Hd & _).
    apply (Hd (id_of b)); [|left]. apply elem_of_list_fmap. by exists b'. }
  destruct (Hvm Hkb1) as (v & Hv). destruct (Hneeds _ _ _ _ Hv s Hs) as [x Hx].
  assert (is_known A c1 (slot_opid s) = true) as Hks.
  { apply not_false_iff_true. intros Hn. rewrite (Hint1 s Hn) in Hx. done. }
  apply Hk in Hks as [Hks|(e & He & Hid)]; [by left|]. right. exists e. split; [|done].
  apply elem_of_list_lookup in He as [i Hi]. exists (S i), (S (length r1)). unfold h. cbn.
  split; [apply lookup_lt_Some in Hi; lia|]. split; [by apply lookup_app_l_Some|]. by apply list_lookup_middle.
Qed.

Lemma named_order c0 b0 rest rest' t c :
  intact A peek c0 ->
  let h := history (contract_id A c0) (b0 :: rest) in
  let h' := history (contract_id A c0) (b0 :: rest') in
  NoDup (id_of <$> h) -> NoDup rest' -> rest' ⊆ rest -> (forall b, b ∈ rest -> is_known A c0 (id_of b) = false) ->
  valid_run A c0 (b0 :: rest') t c ->
  forall b e s, b ∈ rest' -> e ∈ h -> s ∈ reads (operation b) -> slot_opid s = id_of e -> precedes h' e b.
Proof.
  intros Hint h h' Hnd Hnd1 Hsub Hfresh Hrun b e s Hb He Hs Hid.
  assert (NoDup (id_of <$> h')) as Hnd' by (by apply (nodup_part _ rest)).
  destruct (named_before c0 b0 rest' t c Hint Hrun Hnd' ltac:(intros x Hx; apply Hfresh, Hsub, Hx) b s Hb Hs)
    as [Hk|(e' & Hp & Hid')].
  - unfold h in He. cbn in He. apply elem_of_cons in He as [->|He].
    + apply elem_of_list_lookup in Hb as [j Hj]. exists 0, (S j). split; [lia|done].
    + exfalso. apply Hfresh in He. congruence.
  - assert (e = e') as ->; [|exact Hp].
    apply (nodup_ids h); [done|done| |congruence]. apply precedes_elem in Hp as [Hp _].
    cbn in Hp |- *. apply elem_of_cons in Hp as [->|Hp]; [left|right; by apply Hsub].
Qed.
End proofs.

(** ** C73 Which operations have to be included, and in which order *)
Theorem C73_exact c0 b0 rest c t :
  keeps_cells A peek out gone -> remembers A -> faithful U -> needs_inputs A peek -> intact A peek c0 ->
  accepted c0 (b0 :: rest) c t ->
  let h := history (contract_id A c0) (b0 :: rest) in
  NoDup (id_of <$> h) -> (forall b, b ∈ rest -> is_known A c0 (id_of b) = false) ->
  (* of the entries after the first, some are kept, in some order *)
  forall rest', NoDup rest' -> rest' ⊆ rest ->
    (* they are accepted iff whatever they name comes before them *)
    (exists c' t', accepted c0 (b0 :: rest') c' t') <->
    forall b e s, b ∈ rest' -> e ∈ h -> s ∈ reads (operation b) -> slot_opid s = id_of e ->
      precedes (history (contract_id A c0) (b0 :: rest')) e b.
Proof.
  intros Hcells Hrem Hfaith Hneeds Hint Hacc h Hnd Hfresh rest' Hnd1 Hsub. split.
  - intros (c' & t' & Hacc'). apply evaluate_ok_iff in Hacc' as (t1 & Hrun & _).
    by apply (named_order Hcells Hrem Hfaith Hneeds c0 b0 rest rest' t1 c').
  - intros Hord.
    destruct (C45_selection A peek out gone (E:=E) c0 b0 rest rest' c t Hcells Hrem Hfaith Hint Hacc Hnd Hnd1 Hsub)
      as (c' & t' & Hacc' & _); [|eauto].
    intros b e s Hb He Hs Hid. split; [by eauto|]. intros _.
    apply evaluate_ok_iff in Hacc as (t1 & Hrun & _).
    apply (named_order Hcells Hrem Hfaith Hneeds c0 b0 rest rest t1 c Hint Hnd) with (s := s); try done; [|by apply Hsub].
    unfold h in Hnd. cbn in Hnd. apply list.NoDup_cons in Hnd as [_ Hnd]. by apply NoDup_fmap_1 in Hnd.
Qed.

(** For given operations there is a least part that contains them and is accepted: what they require. *)
Theorem C73_least c0 b0 rest c t :
  keeps_cells A peek out gone -> remembers A -> faithful U -> needs_inputs A peek -> intact A peek c0 ->
  accepted c0 (b0 :: rest) c t ->
  let h := history (contract_id A c0) (b0 :: rest) in
  NoDup (id_of <$> h) -> (forall b, b ∈ rest -> is_known A c0 (id_of b) = false) ->
  forall T rest', T ⊆ rest -> rest' `sublist_of` rest ->
    (forall b, b ∈ rest' <-> b ∈ rest /\ required h rest T b) ->
    (exists c' t', accepted c0 (b0 :: rest') c' t') /\
    forall part c' t', NoDup part -> part ⊆ rest -> T ⊆ part -> accepted c0 (b0 :: part) c' t' -> rest' ⊆ part.
Proof.
  intros Hcells Hrem Hfaith Hneeds Hint Hacc h Hnd Hfresh T rest' HT Hsubl Hreq.
  assert (NoDup h) as Hndh by (by apply NoDup_fmap_1 in Hnd).
  assert (NoDup rest) as Hndr by (unfold h in Hndh; cbn in Hndh; by apply list.NoDup_cons in Hndh as [_ Hndh]).
  pose proof (C73_exact c0 b0 rest c t Hcells Hrem Hfaith Hneeds Hint Hacc Hnd Hfresh) as Hexact. fold h in Hexact.
  split.
  - apply Hexact; [by eapply sublist_NoDup|by apply sublist_subseteq|].
    intros b e s Hb He Hs Hid. pose proof (proj1 (Hreq b) Hb) as [Hbr Hbq].
    assert (precedes h e b) as Hp.
    { apply (proj1 (Hexact rest Hndr ltac:(done)) ltac:(eauto) b e s Hbr He Hs Hid). }
    apply (precedes_sublist _ h); [done| | | |exact Hp].
    + unfold h. cbn. by constructor.
    + unfold h in He. cbn in He |- *. apply elem_of_cons in He as [->|He]; [left|]. right. apply Hreq. split; [done|].
      apply (required_named h rest T b e s); try done. unfold h. cbn. by right.
    + cbn. by right.
  - intros part c' t' Hndp Hsubp HTp Haccp.
    pose proof (proj1 (Hexact part Hndp Hsubp) ltac:(eauto)) as Hord.
    assert (forall b, required h rest T b -> b ∈ history (contract_id A c0) (b0 :: part)) as Hall.
    { intros b Hb. induction Hb as [b Hb|b e s Hb IH Hbr Hs Hid He]; [cbn; right; by apply HTp|].
      assert (b ∈ part) as Hbp.
      { cbn in IH. apply elem_of_cons in IH as [IH|IH]; [|done]. exfalso. subst b.
        unfold h in Hndh. cbn in Hndh. by apply list.NoDup_cons in Hndh as [Hn _]. }
      specialize (Hord b e s Hbp He Hs Hid). by apply precedes_elem in Hord as [Hord _]. }
    intros b [Hbr Hb]%Hreq. specialize (Hall b Hb). cbn in Hall. apply elem_of_cons in Hall as [->|Hall]; [|done].
    exfalso. unfold h in Hndh. cbn in Hndh. by apply list.NoDup_cons in Hndh as [Hn _].
Qed.
End parts.

(** * Concrete cases *)

(** Of two branches of transfers, the second is wanted: operation 5, which consumes a cell of operation 3. *)
Lemma branches_fresh (b : ToyBlock) :
  b ∈ [entry_1; entry_3; entry_4; entry_5] -> is_known toy_api ledger (id_of (U:=TU) b) = false.
Proof.
  intros [->|[->|[->|[->|[]%elem_of_nil]%elem_of_cons]%elem_of_cons]%elem_of_cons]%elem_of_cons; vm_refl.
Qed.
Lemma branches_required (b : ToyBlock) :
  b ∈ [entry_3; entry_5] <->
  b ∈ [entry_1; entry_3; entry_4; entry_5] /\
  required (U:=TU) (history toy_cid branches) [entry_1; entry_3; entry_4; entry_5] [entry_5] b.
Proof.
  assert (id_1 <> id_g /\ id_4 <> id_g /\ id_1 <> id_3 /\ id_4 <> id_3 /\ id_1 <> id_5 /\ id_4 <> id_5 /\
    id_3 <> id_g /\ id_5 <> id_g /\ id_of (U:=TU) entry_1 = id_1 /\ id_of (U:=TU) entry_4 = id_4 /\
    id_of (U:=TU) entry_3 = id_3 /\ id_of (U:=TU) entry_5 = id_5)
    as (N1 & N2 & N3 & N4 & N5 & N6 & N7 & N8 & E1 & E4 & E3 & E5).
  { repeat split; apply (bool_decide_unpack _); by vm_compute. }
  split.
  - intros [->|[->|[]%elem_of_nil]%elem_of_cons]%elem_of_cons.
    + split; [right; left|]. apply (required_named _ _ _ entry_5 entry_3 (Owned (MkCellAddr id_3 0))).
      * apply required_target. left.
      * right. right. right. left.
      * left.
      * by rewrite E3.
      * right. right. left.
    + split; [right; right; right; left|]. apply required_target. left.
  - intros [Hb Hr].
    assert (id_of (U:=TU) b ∈ [id_5; id_3; id_g]) as Hid.
    { clear Hb. induction Hr as [b Hb|b e s Hr IH Hb Hs Hid He].
      - apply elem_of_list_singleton in Hb as ->. rewrite E5. left.
      - rewrite <-Hid. clear Hid He.
        apply elem_of_cons in Hb as [->|[->|[->|[->|[]%elem_of_nil]%elem_of_cons]%elem_of_cons]%elem_of_cons].
        + exfalso. rewrite E1 in IH. apply elem_of_cons in IH as [IH|[IH|[IH|[]%elem_of_nil]%elem_of_cons]%elem_of_cons]; congruence.
        + apply elem_of_list_singleton in Hs as ->. unfold slot_opid. cbn [slot_addr input_addr cell_opid]. right. right. left.
        + exfalso. rewrite E4 in IH. apply elem_of_cons in IH as [IH|[IH|[IH|[]%elem_of_nil]%elem_of_cons]%elem_of_cons]; congruence.
        + apply elem_of_list_singleton in Hs as ->. unfold slot_opid. cbn [slot_addr input_addr cell_opid]. right. left. }
    apply elem_of_cons in Hb as [->|[->|[->|[->|[]%elem_of_nil]%elem_of_cons]%elem_of_cons]%elem_of_cons].
    + exfalso. rewrite E1 in Hid. apply elem_of_cons in Hid as [Hid|[Hid|[Hid|[]%elem_of_nil]%elem_of_cons]%elem_of_cons]; congruence.
    + left.
    + exfalso. rewrite E4 in Hid. apply elem_of_cons in Hid as [Hid|[Hid|[Hid|[]%elem_of_nil]%elem_of_cons]%elem_of_cons]; congruence.
    + right. left.
Qed.
Example C73_case :
  (exists c' t', toy_accepts ledger [entry_g; entry_3; entry_5] c' t') /\
  forall part c' t', NoDup part -> part ⊆ [entry_1; entry_3; entry_4; entry_5] -> entry_5 ∈ part ->
    toy_accepts ledger (entry_g :: part) c' t' -> entry_3 ∈ part.
Proof.
  destruct (C73_least toy_api (E:=Empty_set) (ledger_peek TP toy_sonic) outputs nothing_gone ledger entry_g
    [entry_1; entry_3; entry_4; entry_5] _ _ toy_keeps_cells (ledger_remembers _ _) (sonic_faithful _)
    (ledger_needs_inputs TP toy_sonic toy_needs) ledger_cells_intact branches_accepted branches_ids branches_fresh
    [entry_5] [entry_3; entry_5]) as [H1 H2].
  - intros b Hb. apply elem_of_list_singleton in Hb as ->. right. right. right. left.
  - apply sublist_cons, sublist_skip, sublist_cons, sublist_skip. constructor.
  - exact branches_required.
  - split; [exact H1|]. intros part c' t' Hnd Hsub Hin Hacc.
    apply (H2 part c' t' Hnd Hsub ltac:(intros b Hb; by apply elem_of_list_singleton in Hb as ->) Hacc). left.
Qed.
(** Without what is required, or with it in the wrong order, the part is refused. *)
Example C73_case_refused :
  (evaluate toy_api (E:=Empty_set) ledger [entry_g; entry_5] None).2 = Some (Err (SealUnknown (MkCellAddr id_3 0))) /\
  (evaluate toy_api (E:=Empty_set) ledger [entry_g; entry_5; entry_3] None).2
    = Some (Err (SealUnknown (MkCellAddr id_3 0))) /\
  (evaluate toy_api (E:=Empty_set) ledger [entry_g; entry_3; entry_1; entry_5] None).2 = Some (Ok tt).
Proof. split; [|split]; vm_refl. Qed.

(** Cells that are only read count as well - unless the operation reading them is known already, and so not verified. *)
Definition op_q : Operation := {|
  op_version := 0; op_contract_id := toy_cid; op_call_id := 0; op_nonce := 73; op_witness := [];
  op_destructible_in := []; op_immutable_in := []; op_destructible_out := [];
  op_immutable_out := [MkStateData [1%N] None] |}.
Definition op_r : Operation := {|
  op_version := 0; op_contract_id := toy_cid; op_call_id := 0; op_nonce := 74; op_witness := [];
  op_destructible_in := []; op_immutable_in := [MkCellAddr (toy_opid op_q) 0]; op_destructible_out := [];
  op_immutable_out := [] |}.
Definition entry_q : ToyBlock := block op_q [] None.
Definition entry_r : ToyBlock := block op_r [] None.
Example C73_fresh_needed :
  (evaluate toy_api (E:=Empty_set) ledger [entry_g; entry_q; entry_r] None).2 = Some (Ok tt) /\
  (evaluate toy_api (E:=Empty_set) ledger [entry_g; entry_r] None).2
    = Some (Err (Vm (NoImmutableInput (MkCellAddr (toy_opid op_q) 0) : CallError TU))) /\
  (evaluate toy_api (E:=Empty_set) (toy_after ledger [entry_g; entry_q; entry_r]) [entry_g; entry_q; entry_r] None).2
    = Some (Ok tt) /\
  (evaluate toy_api (E:=Empty_set) (toy_after ledger [entry_g; entry_q; entry_r]) [entry_g; entry_r] None).2
    = Some (Ok tt).
Proof. split; [|split; [|split]]; vm_refl. Qed.

Print Assumptions C73_exact.
Print Assumptions C73_least.
