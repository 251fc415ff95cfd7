(** * Properties, part 25: the least consignment for given operations

    C75: selection of entries (C73) and disclosure (C71) together. *)
From Verif Require Import Disclosure CellFacts LedgerCells Sharing Refine Scenario Counterexamples
  Properties2 Properties5 Properties21 Properties23.
From Coq Require Import Lia.
Notation block := Verif.Concrete.block.

Section least.
Context {P : SealProtocol} {U : Ultrasonic} (A : ContractApi P U) {E : Type}.
Context {X : Type} (peek : Contract A -> Slot -> option X) (out : Operation -> Slot -> option X).
Context (gone : Operation -> Slot -> bool).
Notation Block := (OperationSeals P).
Notation accepted c0 bs c t := (evaluate A (E:=E) c0 bs None = (c, t, Some (Ok tt))).
Notation id_of := (id_of (P:=P) (U:=U)).
Notation precedes := Verif.Cells.precedes.
Implicit Types (rest part : list Block) (b e : Block).

(** Entry [e] tells no more than [e']. *)
Definition tells_less e e' : Prop :=
  operation e = operation e' /\ defined_seals e ⊆ defined_seals e' /\ (witness e = witness e' \/ witness e = None).

Lemma reduces_ids (h h' : list Block) : reduces h h' -> id_of <$> h' = id_of <$> h.
Proof.
  induction 1 as [|b b' h h' (Ho & _) _ IH]; [done|]. rewrite !fmap_cons, IH. f_equal. unfold Spec.id_of. by rewrite Ho.
Qed.
Lemma reduces_at (h h' : list Block) i b' : reduces h h' -> h' !! i = Some b' -> exists b, h !! i = Some b /\ tells_less b' b.
Proof. intros Hr Hi. destruct (Forall2_lookup_r _ _ _ _ _ Hr Hi) as (b & Hb & H). by exists b. Qed.
Lemma reduces_elem (h h' : list Block) b : reduces h h' -> b ∈ h -> exists b', b' ∈ h' /\ tells_less b' b.
Proof.
  intros Hr [i Hi]%elem_of_list_lookup. destruct (Forall2_lookup_l _ _ _ _ _ Hr Hi) as (b' & Hb & H).
  exists b'. split; [by eapply elem_of_list_lookup_2|exact H].
Qed.
Lemma tells_less_trans e1 e2 e3 : tells_less e1 e2 -> tells_less e2 e3 -> tells_less e1 e3.
Proof.
  intros (H1 & H2 & H3) (G1 & G2 & G3). split; [congruence|]. split; [by etransitivity|]. intuition congruence.
Qed.

(** What a reduced consignment has left is in order if it is accepted. *)
Lemma reduced_order c0 b0 rest part bs' c' t' :
  keeps_cells A peek out gone -> remembers A -> faithful U -> needs_inputs A peek -> intact A peek c0 ->
  let h := history (contract_id A c0) (b0 :: rest) in
  NoDup (id_of <$> h) -> (forall b, b ∈ rest -> is_known A c0 (id_of b) = false) ->
  NoDup part -> part ⊆ rest -> reduces (b0 :: part) bs' -> accepted c0 bs' c' t' ->
  forall b e s, b ∈ part -> e ∈ h -> s ∈ reads (operation b) -> slot_opid s = id_of e ->
    precedes (history (contract_id A c0) (b0 :: part)) e b.
Proof.
  intros Hcells Hrem Hfaith Hneeds Hint h Hnd Hfresh Hndp Hsub Hred Hacc b e s Hb He Hs Hid.
  pose proof (nodup_part _ rest part Hnd Hndp Hsub) as Hndp'.
  change (NoDup (id_of <$> history (contract_id A c0) (b0 :: part))) in Hndp'.
  pose proof (history_reduces (contract_id A c0) _ _ Hred) as Hredh. pose proof (reduces_ids _ _ Hredh) as Hids.
  inversion Hred as [|? b1 ? part' Hb1 Hredp]; subst.
  apply evaluate_ok_iff in Hacc as (u & Hrun & _).
  destruct (elem_of_list_lookup_1 _ _ Hb) as [j Hj]. destruct (Forall2_lookup_l _ _ _ _ _ Hredp Hj) as (b' & Hj' & Hbb').
  destruct (named_before A peek out gone Hcells Hrem Hfaith Hneeds c0 b1 part' u c' Hint Hrun) with (b := b') (s := s)
    as [Hk|(e' & (i & k & Hik & Hi & Hk) & Hid')].
  - by rewrite Hids.
  - intros x Hx. assert (id_of x ∈ id_of <$> part') as Hxp by (apply elem_of_list_fmap; by exists x).
    rewrite (reduces_ids part part' Hredp) in Hxp. apply elem_of_list_fmap in Hxp as (y & -> & Hy). by apply Hfresh, Hsub.
  - by eapply elem_of_list_lookup_2.
  - destruct Hbb' as (-> & _). exact Hs.
  - unfold h in He. cbn in He. apply elem_of_cons in He as [->|He].
    + exists 0, (S j). split; [lia|done].
    + exfalso. apply Hfresh in He. congruence.
  - destruct (reduces_at _ _ _ _ Hredh Hi) as (e1 & Hi1 & Ho1 & _). destruct (reduces_at _ _ _ _ Hredh Hk) as (x & Hk1 & Hox & _).
    assert (e1 = e) as ->.
    { apply (nodup_ids (U:=U) h); [done| |done|].
      - apply elem_of_list_lookup_2 in Hi1. unfold h. cbn in Hi1 |- *. apply elem_of_cons in Hi1 as [->|Hi1]; [left|right; by apply Hsub].
      - rewrite <-Hid, <-Hid'. unfold Spec.id_of. by rewrite Ho1. }
    assert (x = b) as ->; [|by exists i, k].
    apply (nodup_ids (U:=U) (history (contract_id A c0) (b0 :: part))); [done|by eapply elem_of_list_lookup_2|by right|].
    unfold Spec.id_of. rewrite <-Hox. destruct Hbb' as (-> & _). done.
Qed.

(** ** C75 What may be sent of an accepted consignment

    Some entries after the first are kept, in some order, and some of what they tell is left out.
    This is accepted iff what the entries name comes before them and nothing is missing that the
    least form of these entries has. *)
Theorem C75_exact c0 b0 rest c t :
  keeps_cells A peek out gone -> remembers A -> faithful U -> needs_inputs A peek -> intact A peek c0 ->
  records_inert A -> view_sufficient A ->
  accepted c0 (b0 :: rest) c t ->
  let h := history (contract_id A c0) (b0 :: rest) in
  NoDup (id_of <$> h) -> (forall b, b ∈ rest -> is_known A c0 (id_of b) = false) ->
  forall part bs', NoDup part -> part ⊆ rest -> reduces (b0 :: part) bs' ->
    (exists c' t', accepted c0 bs' c' t') <->
    (forall b e s, b ∈ part -> e ∈ h -> s ∈ reads (operation b) -> slot_opid s = id_of e ->
       precedes (history (contract_id A c0) (b0 :: part)) e b) /\
    reduces bs' (least (U:=U) (contract_id A c0) (b0 :: part)).
Proof.
  intros Hcells Hrem Hfaith Hneeds Hint Hinert Hview Hacc h Hnd Hfresh part bs' Hndp Hsub Hred.
  pose proof (C73_exact A (E:=E) peek out gone c0 b0 rest c t Hcells Hrem Hfaith Hneeds Hint Hacc Hnd Hfresh part Hndp Hsub) as H73.
  pose proof (nodup_part _ rest part Hnd Hndp Hsub) as Hndp'.
  change (NoDup (id_of <$> history (contract_id A c0) (b0 :: part))) in Hndp'.
  assert ((exists c1 t1, accepted c0 (b0 :: part) c1 t1) ->
    (exists c' t', accepted c0 bs' c' t') <-> reduces bs' (least (U:=U) (contract_id A c0) (b0 :: part))) as H71.
  { intros (c1 & t1 & H1). apply (C71_exact A (E:=E) c0 (b0 :: part) c1 t1 Hinert Hview H1 Hndp' bs' Hred). }
  split.
  - intros (c' & t' & Hacc').
    assert (forall b e s, b ∈ part -> e ∈ h -> s ∈ reads (operation b) -> slot_opid s = id_of e ->
      precedes (history (contract_id A c0) (b0 :: part)) e b) as Hord.
    { by eapply (reduced_order c0 b0 rest part bs' c' t'). }
    split; [exact Hord|]. apply H71; [by apply H73|eauto].
  - intros [Hord Hl]. apply H71; [by apply H73|exact Hl].
Qed.

Lemma spent_mono (l l' : list Block) : l ⊆ l' -> spent l ⊆ spent l'.
Proof.
  intros Hs a. unfold spent. rewrite !elem_of_list_join. intros (x & Ha & (b & -> & Hb)%elem_of_list_fmap).
  exists (inputs_of b). split; [done|]. apply elem_of_list_fmap. exists b. split; [done|by apply Hs].
Qed.
Lemma trim_mono cells cells' o b : cells ⊆ cells' -> tells_less (trim cells o b) (trim cells' o b).
Proof.
  intros Hs. assert (trim_defs cells o b ⊆ trim_defs cells' o b) as Hd.
  { apply map_subseteq_spec. intros k x [Hx Hin]%map_filter_lookup_Some. apply map_filter_lookup_Some. split; [done|by apply Hs]. }
  split; [done|]. split; [exact Hd|]. cbn [trim witness].
  destruct (decide (inputs_of b = [] /\ map_Forall _ (trim_defs cells o b))) as [|Hn]; [by right|].
  destruct (decide (inputs_of b = [] /\ map_Forall _ (trim_defs cells' o b))) as [[Hi Hf]|]; [|by left].
  exfalso. apply Hn. split; [done|]. intros k x Hx. apply (Hf k x). by eapply lookup_weaken.
Qed.
Lemma least_elem cid b0 rest e :
  e ∈ least (U:=U) cid (b0 :: rest) -> e = trim (spent (b0 :: rest)) (id_of (seen_first cid b0)) b0 \/
    exists b, b ∈ rest /\ e = trim (spent (b0 :: rest)) (id_of b) b.
Proof. intros [->|(b & -> & Hb)%elem_of_list_fmap]%elem_of_cons; [by left|right; by exists b]. Qed.

(** For given operations there is a least consignment: what they require, in its least form.
    All that is in it is in every other one. *)
Theorem C75_least c0 b0 rest c t :
  keeps_cells A peek out gone -> remembers A -> faithful U -> needs_inputs A peek -> intact A peek c0 ->
  records_inert A -> view_sufficient A ->
  accepted c0 (b0 :: rest) c t ->
  let h := history (contract_id A c0) (b0 :: rest) in
  NoDup (id_of <$> h) -> (forall b, b ∈ rest -> is_known A c0 (id_of b) = false) ->
  forall T needed, T ⊆ rest -> needed `sublist_of` rest ->
    (forall b, b ∈ needed <-> b ∈ rest /\ required (U:=U) h rest T b) ->
    (exists c' t', accepted c0 (least (U:=U) (contract_id A c0) (b0 :: needed)) c' t') /\
    forall part bs' c' t', NoDup part -> part ⊆ rest -> T ⊆ part -> reduces (b0 :: part) bs' -> accepted c0 bs' c' t' ->
      forall e, e ∈ least (U:=U) (contract_id A c0) (b0 :: needed) -> exists e', e' ∈ bs' /\ tells_less e e'.
Proof.
  intros Hcells Hrem Hfaith Hneeds Hint Hinert Hview Hacc h Hnd Hfresh T needed HT Hsubl Hreq.
  destruct (C73_least A (E:=E) peek out gone c0 b0 rest c t Hcells Hrem Hfaith Hneeds Hint Hacc Hnd Hfresh T needed HT Hsubl Hreq)
    as [(c1 & t1 & H1) Hmin].
  assert (NoDup rest) as Hndr.
  { unfold h in Hnd. cbn [history] in Hnd. rewrite fmap_cons in Hnd. apply list.NoDup_cons in Hnd as [_ Hnd].
    by apply NoDup_fmap_1 in Hnd. }
  assert (NoDup needed) as Hndn by (by eapply sublist_NoDup).
  assert (needed ⊆ rest) as Hsubn by (by apply sublist_subseteq).
  split.
  - destruct (C71_least A (E:=E) c0 (b0 :: needed) c1 t1 Hinert Hview H1) as (c2 & t2 & H2 & _); [|eauto].
    exact (nodup_part _ rest needed Hnd Hndn Hsubn).
  - intros part bs' c' t' Hndp Hsub HTp Hred Hacc' e He.
    destruct (proj1 (C75_exact c0 b0 rest c t Hcells Hrem Hfaith Hneeds Hint Hinert Hview Hacc Hnd Hfresh part bs' Hndp Hsub Hred)
      ltac:(eauto)) as [Hord Hl].
    destruct (proj2 (C73_exact A (E:=E) peek out gone c0 b0 rest c t Hcells Hrem Hfaith Hneeds Hint Hacc Hnd Hfresh part Hndp Hsub) Hord)
      as (c3 & t3 & H3).
    pose proof (Hmin part c3 t3 Hndp Hsub HTp H3) as Hnp.
    assert (spent (b0 :: needed) ⊆ spent (b0 :: part)) as Hsp.
    { apply spent_mono. intros x [->|Hx]%elem_of_cons; [left|right; by apply Hnp]. }
    assert (exists m, m ∈ least (U:=U) (contract_id A c0) (b0 :: part) /\ tells_less e m) as (m & Hm & Hem).
    { apply least_elem in He as [->|(b & Hb & ->)].
      - eexists. split; [left|]. by apply trim_mono.
      - eexists. split; [right; apply elem_of_list_fmap; exists b; split; [reflexivity|by apply Hnp]|]. by apply trim_mono. }
    apply elem_of_list_lookup in Hm as [i Hi]. destruct (reduces_at _ _ _ _ Hl Hi) as (e' & Hi' & Hme).
    exists e'. split; [by eapply elem_of_list_lookup_2|]. by eapply tells_less_trans.
Qed.
End least.

(** For the contract of the test-suite. *)
Corollary C75_test_ledger {P : SealProtocol} {S : Sonic} {E : Type} (c0 : TestContract P S) b0 rest c t :
  sonic_local S -> sonic_needs S -> ledger_intact P S c0 ->
  evaluate (test_ledger P S) (E:=E) c0 (b0 :: rest) None = (c, t, Some (Ok tt)) ->
  let h := history (tc_contract_id P S c0) (b0 :: rest) in
  NoDup (id_of (U:=sonic S) <$> h) -> (forall b, b ∈ rest -> tc_known_ops P S c0 !! id_of (U:=sonic S) b = None) ->
  forall part bs', NoDup part -> part ⊆ rest -> reduces (b0 :: part) bs' ->
    (exists c' t', evaluate (test_ledger P S) (E:=E) c0 bs' None = (c', t', Some (Ok tt))) <->
    (forall b e s, b ∈ part -> e ∈ h -> s ∈ reads (operation b) -> slot_opid s = id_of (U:=sonic S) e ->
       Cells.precedes (history (tc_contract_id P S c0) (b0 :: part)) e b) /\
    reduces bs' (least (U:=sonic S) (tc_contract_id P S c0) (b0 :: part)).
Proof.
  intros Hloc Hneeds Hint Hacc h Hnd Hfresh.
  refine (C75_exact (test_ledger P S) (E:=E) (ledger_peek P S) outputs nothing_gone c0 b0 rest c t
    (ledger_keeps_cells P S Hloc) (ledger_remembers P S) (sonic_faithful S) (ledger_needs_inputs P S Hneeds)
    (proj1 (ledger_intact_iff P S c0) Hint) (ledger_inert P S) (ledger_sufficient P S) Hacc Hnd _).
  intros b Hb. apply bool_decide_eq_false. intros [x Hx]. by rewrite Hfresh in Hx.
Qed.

(** ** Cases *)

(** To pass on operation 5 of the two branches, operation 3 and one definition of the genesis are needed. *)
Definition least_5 : list ToyBlock :=
  [block (as_genesis op_g) [(1%N, def_b)] None; entry_3; block op_5 [] (witness entry_5)].
Lemma least_5_is : least (U:=TU) toy_cid [entry_g; entry_3; entry_5] = least_5.
Proof.
  unfold least_5, least. cbn [fmap list_fmap].
  apply cons_eq; [|apply cons_eq; [|apply cons_eq; [|reflexivity]]]; (apply block_eq; [vm_refl| |vm_refl]);
    apply (bool_decide_unpack _); by vm_compute.
Qed.
Example C75_case :
  (exists c' t', toy_accepts ledger least_5 c' t') /\
  forall part bs' c' t', NoDup part -> part ⊆ [entry_1; entry_3; entry_4; entry_5] -> entry_5 ∈ part ->
    reduces (entry_g :: part) bs' -> toy_accepts ledger bs' c' t' ->
    forall e, e ∈ least_5 -> exists e', e' ∈ bs' /\ tells_less e e'.
Proof.
  destruct (C75_least toy_api (E:=Empty_set) (ledger_peek TP toy_sonic) outputs nothing_gone ledger entry_g
    [entry_1; entry_3; entry_4; entry_5] _ _ toy_keeps_cells (ledger_remembers _ _) (sonic_faithful _)
    (ledger_needs_inputs TP toy_sonic toy_needs) ledger_cells_intact (ledger_inert _ _) (ledger_sufficient _ _)
    branches_accepted branches_ids branches_fresh [entry_5] [entry_3; entry_5]) as [H1 H2].
  - intros b Hb. apply elem_of_list_singleton in Hb as ->. right. right. right. left.
  - apply sublist_cons, sublist_skip, sublist_cons, sublist_skip. constructor.
  - exact branches_required.
  - change (contract_id toy_api ledger) with toy_cid in H1, H2. rewrite least_5_is in H1, H2. split; [exact H1|].
    intros part bs' c' t' Hnd Hsub Hin. apply (H2 part bs' c' t' Hnd Hsub).
    intros b Hb. by apply elem_of_list_singleton in Hb as ->.
Qed.
(** With less it is refused. *)
Example C75_case_too_little :
  (evaluate toy_api (E:=Empty_set) ledger (block (as_genesis op_g) [] None :: tail least_5) None).2
    = Some (Err (SealUnknown (MkCellAddr id_g 1))) /\
  (evaluate toy_api (E:=Empty_set) ledger [block (as_genesis op_g) [(1%N, def_b)] None; block op_5 [] (witness entry_5)] None).2
    = Some (Err (SealUnknown (MkCellAddr id_3 0))) /\
  (evaluate toy_api (E:=Empty_set) ledger [block (as_genesis op_g) [(1%N, def_b)] None; entry_3; block op_5 [] None] None).2
    = Some (Err (NoWitness id_5)).
Proof. split; [vm_refl|split; vm_refl]. Qed.

Print Assumptions C75_exact.
Print Assumptions C75_least.
Print Assumptions C75_test_ledger.
Print Assumptions C75_case.
Print Assumptions C75_case_too_little.
