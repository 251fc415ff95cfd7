(** * Properties, part 26: consignments which are passed on and on

    C76: parties make consignments of what they have recorded, out of consignments made in the same way. *)
From Verif Require Import Stock CellFacts LedgerCells Refine Effects Consensus Merge Sharing Scenario Counterexamples
  Properties1 Properties2 Properties3 Properties5 Properties7 Properties8 Properties23 Properties24.
From Coq Require Import Lia.
Notation block := Verif.Concrete.block.

Section relay.
Context {P : SealProtocol} {U : Ultrasonic} (A : ContractApi P U) {E X : Type}.
Context (peek : Contract A -> Slot -> option X) (out : Operation -> Slot -> option X).
Context (gone : Operation -> Slot -> bool).
Context (ops : Contract A -> gmap Opid Operation).
Context (defs : Contract A -> gmap Opid (gmap N (SealDef P))) (wits : Contract A -> gmap Opid (list (SealWitness P))).
Notation Block := (OperationSeals P).
Notation accepted c0 bs c t := (evaluate A (E:=E) c0 bs None = (c, t, Some (Ok tt))).
Notation id_of := (id_of (P:=P) (U:=U)).
Notation stocked := (stocked A defs wits).
Notation export := (export A defs wits).
Notation precedes := Verif.Cells.precedes.
Implicit Types (b e : Block) (op : Operation).

(** A selection of the operations kept by a party, in an order in which they can be sent. *)
Definition sendable (c : Contract A) (g : Operation) (l : list Operation) : Prop :=
  NoDup l /\ (forall op, op ∈ l -> ops c !! opid_of U op = Some op /\ op <> g) /\
  forall op op' s, op ∈ l -> ops c !! opid_of U op' = Some op' -> s ∈ reads op -> slot_opid s = opid_of U op' ->
    op' = g \/ precedes l op' op.

(** The consignments in circulation: those first issued, and those made by parties who have
    started from the genesis and have evaluated consignments in circulation. *)
Inductive circulating (c0 : Contract A) (g : Operation) (issued : list (list Block)) : list Block -> Prop :=
| circulating_issued x : x ∈ issued -> circulating c0 g issued x
| circulating_passed_on x L c l :
    (forall y, y ∈ x :: L -> circulating c0 g issued y) ->
    evaluates_all A E c0 (x :: L) c -> sendable c g l ->
    circulating c0 g issued (export c g l).

(** Entries made of entries: the witness may be left out. *)
Definition made_of (h : list Block) (b : Block) : Prop :=
  (exists e, e ∈ h /\ operation b = operation e /\ (witness b = witness e \/ witness b = None)) /\
  (forall pos x, defined_seals b !! pos = Some x ->
     exists e, e ∈ h /\ operation e = operation b /\ defined_seals e !! pos = Some x).
Lemma made_of_elem (h : list Block) b : b ∈ h -> made_of h b.
Proof. intros Hb. split; [exists b; split; [done|split; [done|by left]]|]. intros pos x Hx. by exists b. Qed.
Lemma made_of_trans (h h' : list Block) b : (forall e, e ∈ h -> made_of h' e) -> made_of h b -> made_of h' b.
Proof.
  intros Hh [(e & He & Ho & Hw) Hd]. split.
  - destruct (Hh e He) as [(e' & He' & Ho' & Hw') _]. exists e'. split; [done|]. split; [congruence|]. intuition congruence.
  - intros pos x Hx. destruct (Hd pos x Hx) as (e1 & He1 & Ho1 & Hx1). destruct (Hh e1 He1) as [_ Hd1].
    destruct (Hd1 pos x Hx1) as (e2 & He2 & Ho2 & Hx2). exists e2. split; [done|]. split; [congruence|done].
Qed.
Lemma made_of_denoted (h h' : list Block) s : (forall b, b ∈ h' -> made_of h b) -> denoted P h' s -> denoted P h s.
Proof.
  intros Hc (b & pos & d & Hb & Hd & Hs). destruct (Hc b Hb) as [_ Hdef]. destruct (Hdef pos d Hd) as (e & He & _ & Hde).
  exists e, pos, d. split; [done|]. split; [done|]. destruct Hs as [Hs|(Hn & b' & w & Hb' & Hw & ->)]; [by left|right].
  split; [done|]. destruct (Hc b' Hb') as [(e' & He' & _ & Hwe) _]. exists e', w. split; [done|]. split; [|done].
  destruct Hwe; congruence.
Qed.
Lemma made_of_chain on_chain (h h' : list Block) :
  on_one_chain (U:=U) on_chain h -> (forall b, b ∈ h' -> made_of h b) -> on_one_chain (U:=U) on_chain h'.
Proof.
  intros [H1 H2 H3 H4 [H5 H5'] H6 H7] Hc. rewrite list.Forall_forall in H6. split; try done.
  - intros s Hs. apply H1. by eapply made_of_denoted.
  - intros s Hs. apply H2. by eapply made_of_denoted.
  - intros b w Hb Hw. destruct (Hc b Hb) as [(e & He & _ & Hwe) _]. apply (H4 e); [done|]. destruct Hwe; congruence.
  - split.
    + intros b b' Hb Hb' Hid. destruct (Hc b Hb) as [(e & He & Ho & _) _], (Hc b' Hb') as [(e' & He' & Ho' & _) _].
      rewrite Ho, Ho'. apply H5; [done|done|]. unfold Spec.id_of in *. by rewrite <-Ho, <-Ho'.
    + intros b b' p p' x x' Hb Hb' Hx Hx' Ht.
      destruct (Hc b Hb) as [_ Hd], (Hc b' Hb') as [_ Hd'].
      destruct (Hd p x Hx) as (e & He & _ & Hxe), (Hd' p' x' Hx') as (e' & He' & _ & Hxe').
      by eapply (H5' e e').
  - apply list.Forall_forall. intros b Hb pos x Hx. destruct (Hc b Hb) as [_ Hd].
    destruct (Hd pos x Hx) as (e & He & Ho & Hxe). rewrite <-Ho. by apply (H6 e He pos x).
  - intros b b' pos x Hb Hb' Hop Hins Hx Hn. destruct (Hc b Hb) as [_ Hd].
    destruct (Hd pos x Hx) as (e & He & Ho & Hxe). destruct (Hc b' Hb') as [(e' & He' & Ho' & [->|?]) _]; [|done].
    apply (H7 e e' pos x He He'); [congruence| |done|done]. unfold inputs_of in *. by rewrite Ho.
Qed.

Lemma evaluates_session c0 L c : evaluates_all A E c0 L c -> exists l, session_of A E c0 L l c.
Proof.
  assert (forall c1 L2 c2, evaluates_all A E c1 L2 c2 -> forall L1 l1, session_of A E c0 L1 l1 c1 ->
    exists l, session_of A E c0 (L1 ++ L2) l c2) as H.
  { intros c1 L2 c2 Hall. induction Hall as [c1|c1 bs c2 t L2 c3 H1 Hall IH]; intros L1 l1 Hs.
    - exists l1. by rewrite app_nil_r.
    - pose proof (evaluate_log _ _ _ _ _ _ _ H1) as Hlog. rewrite <-(app_nil_r t) in H1.
      pose proof (session_of_step A E c0 L1 l1 c1 bs None c2 t [] _ Hs H1) as Hs'. rewrite <-Hlog in Hs'.
      destruct (IH _ _ Hs') as [l Hl]. exists l. by rewrite <-app_assoc in Hl. }
  intros Hall. exact (H c0 L c Hall [] [] (session_of_start _ _ _)).
Qed.

Section proof.
Hypothesis Hstock : keeps_stock A ops defs wits.
Hypothesis Hinert : records_inert A.
Hypothesis Hview : view_sufficient A.
Hypothesis Hident : keeps_identity A.
Hypothesis Hcells : keeps_cells A peek out gone.
Hypothesis Hrem : remembers A.
Hypothesis Hfaith : faithful U.
Hypothesis Hneeds : needs_inputs A peek.
Context (on_chain : SealWitness P -> Prop) (g : Operation) (c0 : Contract A) (issued : list (list Block)).
Hypothesis Hint : intact A peek c0.
Hypothesis Hfresh : only_genesis A ops defs wits g c0.
Notation cid := (contract_id A c0).
Notation pool := (all_entries cid issued).
Hypothesis Hacc : forall x, x ∈ issued -> exists d t, accepted c0 x d t.
Hypothesis Hstart : forall x, x ∈ issued -> starts_with (U:=U) cid g x.
Hypothesis Hchain : on_one_chain (U:=U) on_chain pool.

Definition sound (x : list Block) : Prop :=
  (exists d t, accepted c0 x d t) /\ starts_with (U:=U) cid g x /\ forall e, e ∈ history cid x -> made_of pool e.

Lemma sound_pool L : (forall x, x ∈ L -> sound x) -> forall e, e ∈ all_entries cid L -> made_of pool e.
Proof.
  intros HL e He. unfold all_entries in He. apply elem_of_list_join in He as (h & He & (x & -> & Hx)%elem_of_list_fmap).
  destruct (HL x Hx) as (_ & _ & Hm). by apply Hm.
Qed.
Lemma sound_chain L : (forall x, x ∈ L -> sound x) -> on_one_chain (U:=U) on_chain (all_entries cid L).
Proof. intros HL. apply (made_of_chain on_chain pool); [done|]. by apply sound_pool. Qed.

(** What a party makes of sound consignments is sound. *)
Lemma sound_export x L c l :
  (forall y, y ∈ x :: L -> sound y) -> evaluates_all A E c0 (x :: L) c -> sendable c g l -> sound (export c g l).
Proof.
  intros HL Hall (Hnd & Hl & Hord). pose proof (sound_chain _ HL) as Hch. set (h := all_entries cid (x :: L)) in *.
  assert (forall y, y ∈ x :: L -> exists d t, accepted c0 y d t) as Ha by (intros y Hy; by apply HL).
  assert (forall y, y ∈ x :: L -> starts_with (U:=U) cid g y) as Hs by (intros y Hy; by apply HL).
  assert (forall a b, a ∈ h -> b ∈ h -> id_of a = id_of b -> operation a = operation b) as Hsame.
  { intros a b Ha' Hb'. destruct (chain_collisions _ _ Hch) as [Hc _]. by apply Hc. }
  assert (with_contract_id cid g = g) as Hgc.
  { destruct (Hs x ltac:(left)) as [(b & r & _ & <-) _]. done. }
  assert (forall op, (op ∈ l \/ op = g) -> exists b, b ∈ h /\ operation b = op) as Hin.
  { intros op [Hop| ->].
    - destruct (Hl op Hop) as [Hk Hne]. apply (kept_ops A (E:=E) ops defs wits c0 (x :: L) c) in Hk as [Hk|(b & Hb & Ho & _)]; try done.
      + destruct Hfresh as (Hf & _). rewrite Hf in Hk. apply lookup_singleton_Some in Hk as [_ Hk]. by symmetry in Hk.
      + by exists b.
    - destruct (Hs x ltac:(left)) as [(b & r & Hbx & Hg) _]. exists (seen_first cid b). split; [|exact Hg].
      apply (all_entries_elem _ _ x); [left|]. rewrite Hbx. left. }
  assert (forall op e, (op ∈ l \/ op = g) -> operation e = op -> defined_seals e = default ∅ (defs c !! opid_of U op) ->
    (witness e = None \/ witness e = head (default [] (wits c !! opid_of U op))) -> made_of h e) as Hmade.
  { intros op e Hop Ho Hd Hw. destruct (Hin op Hop) as (b & Hb & Hbo). split.
    - destruct Hw as [Hw|Hw]; [exists b; split; [done|]; split; [congruence|by right]|].
      destruct (witness e) as [w|] eqn:Hwe; [|exists b; split; [done|]; split; [congruence|by right]].
      rewrite (kept_wits A ops defs wits Hstock Hinert Hident (E:=E) c0 (x :: L) c _ Hall (proj2 (proj2 Hfresh))) in Hw.
      symmetry in Hw. apply head_Some_elem_of in Hw. apply elem_of_list_omap in Hw as (e' & He' & Hwe').
      apply elem_of_list_filter in He' as [Hid He']. exists e'. split; [done|]. split; [|left; congruence].
      rewrite Ho, <-Hbo. apply Hsame; [done|done|]. rewrite Hid. unfold Spec.id_of. by rewrite Hbo.
    - intros pos y Hy. rewrite Hd in Hy.
      apply (kept_defs A ops defs wits Hstock Hinert Hident (E:=E) c0 (x :: L) c _ _ _ Hall (proj1 (proj2 Hfresh))
        (chain_agreeing on_chain _ Hch)) in Hy as (e' & He' & Hid & Hd'). exists e'. split; [done|]. split; [|done].
      rewrite Ho, <-Hbo. apply Hsame; [done|done|]. rewrite Hid. unfold Spec.id_of. by rewrite Hbo. }
  split; [|split].
  - apply (C74_export A (E:=E) peek out gone ops defs wits on_chain g c0 c x L Hstock Hinert Hview Hident Hcells Hrem Hfaith Hneeds Hint
      Hfresh Ha Hs Hch Hall l Hnd Hl). exact Hord.
  - split.
    + exists (stocked_first A defs c g), (stocked c <$> l). split; [done|]. rewrite <-Hgc at 2. done.
    + unfold Stock.export. cbn [history]. rewrite fmap_cons. apply list.NoDup_cons. split.
      * intros (b & Hid & (op & -> & Hop)%elem_of_list_fmap)%elem_of_list_fmap. destruct (Hl op Hop) as [Hk Hne].
        assert (opid_of U g = opid_of U op) as Hgo.
        { unfold Spec.id_of in Hid. cbn in Hid. rewrite <-Hgc at 1. exact Hid. }
        destruct (Hin op (or_introl Hop)) as (b1 & Hb1 & Ho1), (Hin g (or_intror eq_refl)) as (b2 & Hb2 & Ho2).
        apply Hne. rewrite <-Ho1, <-Ho2. apply Hsame; [done|done|]. unfold Spec.id_of. by rewrite Ho1, Ho2.
      * rewrite <-list_fmap_compose. apply NoDup_fmap_2_strong; [|done]. intros a b Ha' Hb' Hab.
        destruct (Hl a Ha') as [Ka _], (Hl b Hb') as [Kb _]. cbn in Hab. unfold Spec.id_of in Hab. cbn in Hab.
        rewrite Hab in Ka. congruence.
  - intros e He. apply (made_of_trans h); [by apply sound_pool|]. unfold Stock.export in He. cbn [history] in He.
    apply elem_of_cons in He as [->|(op & -> & Hop)%elem_of_list_fmap].
    + apply (Hmade g); [by right| |done|by left]. rewrite <-Hgc at 2. done.
    + apply (Hmade op); [by left|done|done|]. cbn [Stock.stocked witness]. destruct (decide _); [by left|by right].
Qed.

Lemma circulating_sound x : circulating c0 g issued x -> sound x.
Proof.
  induction 1 as [x Hx|x L c l Hc IH Hall Hsend]; [|by eapply sound_export].
  split; [by apply Hacc|]. split; [by apply Hstart|]. intros e He. apply made_of_elem. by apply (all_entries_elem _ _ x).
Qed.
End proof.

(** ** C76 Consignments which are passed on and on stay acceptable

    Let some consignments be issued: each is accepted by who knows the genesis only, and their
    witnesses are on one chain.  Parties evaluate consignments, make new ones of what they have recorded,
    send them to others, and so on.  Each consignment in circulation is accepted by who
    knows the genesis only; parties can evaluate any of them in any order, and what they have then
    depends on which operations they know, and on nothing else. *)
Theorem C76_circulation (on_chain : SealWitness P -> Prop) g c0 issued :
  keeps_stock A ops defs wits -> records_inert A -> view_sufficient A -> keeps_identity A ->
  keeps_cells A peek out gone -> remembers A -> faithful U -> needs_inputs A peek -> intact A peek c0 ->
  only_genesis A ops defs wits g c0 ->
  (forall x, x ∈ issued -> exists d t, accepted c0 x d t) ->
  (forall x, x ∈ issued -> starts_with (U:=U) (contract_id A c0) g x) ->
  on_one_chain (U:=U) on_chain (all_entries (contract_id A c0) issued) ->
  (* each is accepted *)
  (forall x, circulating c0 g issued x -> exists d t, accepted c0 x d t) /\
  (* a party accepts all those it receives *)
  (forall L, (forall x, x ∈ L -> circulating c0 g issued x) -> exists c, evaluates_all A E c0 L c) /\
  (* parties which know the same operations have the same state *)
  (forall L L' c c', (forall x, x ∈ L ++ L' -> circulating c0 g issued x) ->
     evaluates_all A E c0 L c -> evaluates_all A E c0 L' c' ->
     (forall o, is_known A c o = is_known A c' o) -> same_state A peek c c') /\
  (* each party can pass on all that it has, by a consignment which again circulates *)
  (forall x L c, (forall y, y ∈ x :: L -> circulating c0 g issued y) -> evaluates_all A E c0 (x :: L) c ->
     exists l d t, circulating c0 g issued (export c g l) /\ accepted c0 (export c g l) d t /\ same_state A peek d c) /\
  (* no operation comes into being by passing on *)
  (forall x e, circulating c0 g issued x -> e ∈ history (contract_id A c0) x ->
     exists e', e' ∈ all_entries (contract_id A c0) issued /\ operation e = operation e').
Proof.
  intros H1 H2 H3 H4 H5 H6 H7 H8 Hint Hf Ha Hs Hch.
  pose proof (circulating_sound H1 H2 H3 H4 H5 H6 H7 H8 on_chain g c0 issued Hint Hf Ha Hs Hch) as Hsound.
  assert (forall L, (forall x, x ∈ L -> circulating c0 g issued x) -> on_one_chain (U:=U) on_chain (all_entries (contract_id A c0) L)) as HLch.
  { intros L HL. apply (sound_chain on_chain g c0 issued Hch). intros x Hx. by apply Hsound, HL. }
  split; [|split; [|split; [|split]]].
  - intros x Hx. by apply (Hsound x Hx).
  - intros L HL. destruct (C53_any_order A peek out gone (E:=E) on_chain c0 L H5 H6 H7 H8 Hint) with (L1 := L) (L2 := L)
      as (c & _ & Hc & _); try done; [|by apply HLch|by exists c].
    intros x Hx. by apply (Hsound x (HL x Hx)).
  - intros L L' c c' HL Hc Hc' Hk.
    destruct (evaluates_session c0 L c Hc) as [l Hse], (evaluates_session c0 L' c' Hc') as [l' Hse'].
    pose proof (session_of_session A c0 L l c Hse) as Hss. pose proof (session_of_session A c0 L' l' c' Hse') as Hss'.
    apply (same_session_state A (E:=E) peek out gone c0 l l' c c' H5 H6 H7 Hint Hss Hss').
    pose proof (HLch _ HL) as Hch'. destruct (chain_collisions _ _ Hch') as [Hcol _].
    assert (forall M k d op, (M = L /\ k = l /\ d = c \/ M = L' /\ k = l' /\ d = c') -> op ∈ applied_operations k ->
      exists b, b ∈ all_entries (contract_id A c0) (L ++ L') /\ operation b = op) as Hfrom.
    { intros M k d op HM Hop.
      assert (session_of A E c0 M k d /\ M ⊆ L ++ L') as [HsM HsubM].
      { destruct HM as [(-> & -> & ->)|(-> & -> & ->)]; (split; [done|]); intros y Hy; apply elem_of_app; [by left|by right]. }
      destruct (session_accepted_in A peek out gone H5 H6 H7 c0 M k d op Hint HsM Hop) as (bs & pre & a & a' & u & b & Hbs & Hp & _ & _ & Hb & Ho).
      exists b. split; [|done]. apply (all_entries_elem _ _ bs); [by apply HsubM|]. by apply (history_prefix _ pre). }
    assert (forall M k d M' k' d' op, (M = L /\ k = l /\ d = c /\ M' = L' /\ k' = l' /\ d' = c' \/
        M = L' /\ k = l' /\ d = c' /\ M' = L /\ k' = l /\ d' = c) -> op ∈ applied_operations k -> op ∈ applied_operations k') as Hgo.
    { intros M k d M' k' d' op HM Hop.
      assert (session A E c0 k d /\ session A E c0 k' d' /\ forall o, is_known A d o = is_known A d' o) as (Hd & Hd' & Hkd).
      { destruct HM as [(-> & -> & -> & -> & -> & ->)|(-> & -> & -> & -> & -> & ->)]; done. }
      destruct (session_state A peek out gone H5 H6 H7 c0 k d Hint Hd) as (_ & _ & Hkn & _).
      destruct (session_state A peek out gone H5 H6 H7 c0 k' d' Hint Hd') as (_ & _ & Hkn' & _).
      pose proof (session_new A peek out gone H5 H6 H7 c0 k d op Hd Hop) as Hnew.
      assert (is_known A d (opid_of U op) = true) as Hkk by (apply Hkn; right; by exists op).
      rewrite Hkd in Hkk. apply Hkn' in Hkk as [Hkk|(op' & Hop' & Hid)]; [congruence|].
      destruct (Hfrom M k d op) as (b & Hb & <-); [naive_solver|done|].
      destruct (Hfrom M' k' d' op') as (b' & Hb' & <-); [naive_solver|done|].
      assert (operation b' = operation b) as Hbb by (by apply Hcol). by rewrite <-Hbb. }
    intros op. split; [apply (Hgo L l c L' l' c'); naive_solver|apply (Hgo L' l' c' L l c); naive_solver].
  - intros x L c HL Hall.
    assert (forall y, y ∈ x :: L -> exists d t, accepted c0 y d t) as Ha' by (intros y Hy; by apply (Hsound y (HL y Hy))).
    assert (forall y, y ∈ x :: L -> starts_with (U:=U) (contract_id A c0) g y) as Hs' by (intros y Hy; by apply (Hsound y (HL y Hy))).
    destruct (C74_all A (E:=E) peek out gone ops defs wits on_chain g c0 c x L H1 H2 H3 H4 H5 H6 H7 H8 Hint Hf Ha' Hs' (HLch _ HL) Hall)
      as (l & d & t & Hnd & Hl & Hac & Hst). exists l, d, t. split; [|done].
    apply (circulating_passed_on c0 g issued x L c l HL Hall). split; [done|]. split; [by intros op Hop; apply Hl|].
    apply (C74_export A (E:=E) peek out gone ops defs wits on_chain g c0 c x L H1 H2 H3 H4 H5 H6 H7 H8 Hint Hf Ha' Hs' (HLch _ HL) Hall l Hnd).
    + by intros op Hop; apply Hl.
    + by exists d, t.
  - intros x e Hx He. destruct (Hsound x Hx) as (_ & _ & Hm). destruct (Hm e He) as [(e' & He' & Ho & _) _]. by exists e'.
Qed.
End relay.

Section ledgers.
Context (P : SealProtocol) (S : Sonic).
Notation A := (test_ledger P S).

(** For the contract of the repository's test suite. *)
Corollary C76_test_ledger {E : Type} (on_chain : SealWitness P -> Prop) g (c0 : TestContract P S) issued :
  sonic_local S -> sonic_needs S -> ledger_intact P S c0 ->
  only_genesis A (tc_known_ops P S) (tc_seal_definitions P S) (tc_witnesses P S) g c0 ->
  (forall x, x ∈ issued -> exists d t, evaluate A (E:=E) c0 x None = (d, t, Some (Ok tt))) ->
  (forall x, x ∈ issued -> starts_with (U:=sonic S) (tc_contract_id P S c0) g x) ->
  on_one_chain (U:=sonic S) on_chain (all_entries (tc_contract_id P S c0) issued) ->
  let passed := circulating A (E:=E) (tc_known_ops P S) (tc_seal_definitions P S) (tc_witnesses P S) c0 g issued in
  (forall x, passed x -> exists d t, evaluate A (E:=E) c0 x None = (d, t, Some (Ok tt))) /\
  (forall L, (forall x, x ∈ L -> passed x) -> exists c, evaluates_all A E c0 L c) /\
  (forall L L' c c', (forall x, x ∈ L ++ L' -> passed x) -> evaluates_all A E c0 L c -> evaluates_all A E c0 L' c' ->
     (forall o, is_Some (tc_known_ops P S c !! o) <-> is_Some (tc_known_ops P S c' !! o)) ->
     tc_owned P S c = tc_owned P S c' /\ tc_global P S c = tc_global P S c').
Proof.
  intros Hloc Hneeds Hint Hf Ha Hs Hch passed.
  destruct (C76_circulation A (ledger_peek P S) outputs nothing_gone (tc_known_ops P S) (tc_seal_definitions P S) (tc_witnesses P S)
    on_chain g c0 issued (ledger_keeps_stock P S) (ledger_inert P S) (ledger_sufficient P S) (ledger_identity P S)
    (ledger_keeps_cells P S Hloc) (ledger_remembers P S) (sonic_faithful S) (ledger_needs_inputs P S Hneeds)
    (proj1 (ledger_intact_iff P S c0) Hint) Hf Ha Hs Hch) as (H1 & H2 & H3 & _ & _).
  split; [exact H1|]. split; [exact H2|]. intros L L' c c' HL Hc Hc' Hk.
  destruct (H3 L L' c c' HL Hc Hc') as (_ & _ & H4).
  { intros o. specialize (Hk o). cbn [is_known test_ledger].
    destruct (bool_decide_reflect (is_Some (tc_known_ops P S c !! o))) as [Hx|Hx],
      (bool_decide_reflect (is_Some (tc_known_ops P S c' !! o))) as [Hy|Hy]; tauto. }
  split; apply map_eq; intros a; [specialize (H4 (Owned a))|specialize (H4 (Global a))];
    cbn in H4; revert H4; [destruct (tc_owned P S c !! a), (tc_owned P S c' !! a)|destruct (tc_global P S c !! a), (tc_global P S c' !! a)];
    cbn; congruence.
Qed.
End ledgers.

(** ** Cases *)
Notation toy_circulating := (circulating spend_api (E:=Empty_set)
  (tc_known_ops TP toy_sonic) (tc_seal_definitions TP toy_sonic) (tc_witnesses TP toy_sonic)).

(** Two consignments are issued.  One party evaluates both, and passes on three of the four operations;
    a second party evaluates that and passes on two; a third receives what the second sent and the first
    of those issued, and passes on all it knows. *)
Definition relay_1 : list ToyBlock := toy_export holder op_g [op_3; op_1; op_5].
Definition second : ToyContract := spend_after ledger relay_1.
Definition relay_2 : list ToyBlock := toy_export second op_g [op_3; op_5].
Definition third : ToyContract := spend_after (spend_after ledger relay_2) to_a.
Definition relay_3 : list ToyBlock := toy_export third op_g [op_1; op_3; op_4; op_5].


(** A check for [sendable] which computes. *)
Fixpoint sends (known : gmap Opid Operation) (g : Operation) (before l : list Operation) : bool :=
  match l with
  | [] => true
  | op :: r =>
      forallb (fun s => match known !! slot_opid s with
                        | Some op' => bool_decide (op' = g \/ op' ∈ before)
                        | None => true
                        end) (reads op) && sends known g (before ++ [op]) r
  end.
Lemma sends_order known g before l :
  sends known g before l = true -> forall op op' s, op ∈ l -> known !! slot_opid s = Some op' -> s ∈ reads op ->
    op' = g \/ precedes (before ++ l) op' op.
Proof.
  revert before. induction l as [|x r IH]; intros before H op op' s Hop Hk Hs; [by apply elem_of_nil in Hop|].
  cbn [sends] in H. apply andb_prop in H as [H1 H2]. apply elem_of_cons in Hop as [->|Hop].
  - rewrite forallb_forall in H1. specialize (H1 s (proj1 (elem_of_list_In _ _) Hs)). rewrite Hk in H1.
    apply bool_decide_eq_true in H1 as [->|H1]; [by left|right]. apply elem_of_list_lookup in H1 as [i Hi].
    exists i, (length before). split; [by apply lookup_lt_Some in Hi|]. split; [by apply lookup_app_l_Some|].
    rewrite lookup_app_r, Nat.sub_diag; [done|lia].
  - destruct (IH _ H2 op op' s Hop Hk Hs) as [->|Hp]; [by left|right]. by rewrite <-app_assoc in Hp.
Qed.
Lemma toy_sendable (c : ToyContract) g l :
  bool_decide (NoDup l) = true ->
  bool_decide (Forall (fun op => tc_known_ops TP toy_sonic c !! toy_opid op = Some op /\ op <> g) l) = true ->
  sends (tc_known_ops TP toy_sonic c) g [] l = true -> sendable spend_api (tc_known_ops TP toy_sonic) c g l.
Proof.
  intros H1%bool_decide_eq_true H2%bool_decide_eq_true H3. rewrite list.Forall_forall in H2.
  split; [done|]. split; [done|]. intros op op' s Hop Hk Hs Hid. rewrite <-Hid in Hk.
  exact (sends_order _ _ _ _ H3 op op' s Hop Hk Hs).
Qed.

Lemma relay_1_circulates : toy_circulating ledger op_g [to_a; to_b] relay_1.
Proof.
  unfold relay_1. apply (circulating_passed_on spend_api (tc_known_ops TP toy_sonic) (tc_seal_definitions TP toy_sonic) (tc_witnesses TP toy_sonic)
    ledger op_g _ to_a [to_b] holder [op_3; op_1; op_5]); [|exact holder_reached|].
  - intros y Hy. by apply circulating_issued.
  - apply toy_sendable; vm_refl.
Qed.
Lemma reached_2 c0 x y :
  spend_run c0 x = Some (Ok tt) -> spend_run (spend_after c0 x) y = Some (Ok tt) ->
  evaluates_all spend_api Empty_set c0 [x; y] (spend_after (spend_after c0 x) y).
Proof.
  intros Hx%spend_evaluate Hy%spend_evaluate. eapply evaluates_next; [exact Hx|]. eapply evaluates_next; [exact Hy|]. constructor.
Qed.
Lemma reached_1 c0 x : spend_run c0 x = Some (Ok tt) -> evaluates_all spend_api Empty_set c0 [x] (spend_after c0 x).
Proof. intros Hx%spend_evaluate. eapply evaluates_next; [exact Hx|]. constructor. Qed.
Lemma second_reached : evaluates_all spend_api Empty_set ledger [relay_1] second.
Proof. apply reached_1. vm_refl. Qed.
Lemma relay_2_circulates : toy_circulating ledger op_g [to_a; to_b] relay_2.
Proof.
  unfold relay_2. apply (circulating_passed_on spend_api (tc_known_ops TP toy_sonic) (tc_seal_definitions TP toy_sonic) (tc_witnesses TP toy_sonic)
    ledger op_g _ relay_1 [] second [op_3; op_5]); [|exact second_reached|].
  - intros y Hy. apply elem_of_list_singleton in Hy as ->. exact relay_1_circulates.
  - apply toy_sendable; vm_refl.
Qed.
Lemma third_reached : evaluates_all spend_api Empty_set ledger [relay_2; to_a] third.
Proof. apply reached_2; vm_refl. Qed.
Lemma relay_3_circulates : toy_circulating ledger op_g [to_a; to_b] relay_3.
Proof.
  unfold relay_3. apply (circulating_passed_on spend_api (tc_known_ops TP toy_sonic) (tc_seal_definitions TP toy_sonic) (tc_witnesses TP toy_sonic)
    ledger op_g _ relay_2 [to_a] third [op_1; op_3; op_4; op_5]); [|exact third_reached|].
  - intros y Hy. apply elem_of_cons in Hy as [->|Hy]; [exact relay_2_circulates|].
    apply elem_of_list_singleton in Hy as ->. apply circulating_issued. left.
  - apply toy_sendable; vm_refl.
Qed.

(** The third party, which received things by another way, has the state of the first. *)
Example C76_case :
  toy_circulating ledger op_g [to_a; to_b] relay_3 /\
  (exists d t, spend_accepts ledger relay_3 d t) /\
  relay_3 <> to_a /\ relay_3 <> to_b /\
  same_state spend_api (ledger_peek TP toy_sonic) holder third /\
  exists c, evaluates_all spend_api Empty_set ledger [relay_3; to_b; relay_1; relay_2] c.
Proof.
  destruct (C76_circulation spend_api (E:=Empty_set) (ledger_peek TP toy_sonic) outputs inputs_gone
      (tc_known_ops TP toy_sonic) (tc_seal_definitions TP toy_sonic) (tc_witnesses TP toy_sonic) (toy_on_chain one_chain) op_g
      ledger [to_a; to_b] (spending_keeps_stock _ _) (spending_inert _ _) (spending_sufficient _ _) (spending_identity _ _)
      spend_keeps_cells (spending_remembers _ _) (sonic_faithful _) spend_needs_inputs spend_intact ledger_only_genesis
      holder_accepted holder_starts holder_chain) as (H1 & H2 & H3 & _).
  assert (forall y, y ∈ [to_a; to_b] -> toy_circulating ledger op_g [to_a; to_b] y) as Hi by (intros y Hy; by apply circulating_issued).
  split; [exact relay_3_circulates|]. split; [exact (H1 _ relay_3_circulates)|].
  split; [intros H%(f_equal length); vm_compute in H; congruence|].
  split; [intros H%(f_equal length); vm_compute in H; congruence|]. split.
  - apply (H3 [to_a; to_b] [relay_2; to_a] holder third).
    + intros y Hy. apply elem_of_app in Hy as [Hy|Hy]; [by apply Hi|].
      apply elem_of_cons in Hy as [->|Hy]; [exact relay_2_circulates|].
      apply elem_of_list_singleton in Hy as ->. apply Hi. left.
    + exact holder_reached.
    + exact third_reached.
    + assert (dom (tc_known_ops TP toy_sonic holder) = dom (tc_known_ops TP toy_sonic third)) as Hd
        by (apply (bool_decide_unpack _); by vm_compute).
      intros o. apply bool_decide_ext. rewrite <-!elem_of_dom. by rewrite Hd.
  - apply H2. intros y Hy. repeat (apply elem_of_cons in Hy as [->|Hy]); [exact relay_3_circulates| |exact relay_1_circulates|exact relay_2_circulates|by apply elem_of_nil in Hy].
    apply Hi. right. left.
Qed.

(** Were consignments issued whose definitions disagree (C28), what circulates is no longer accepted. *)
Example C76_chain_needed :
  toy_circulating ledger op_g [to_a; [entry_g_w2]] (toy_export misled op_g [op_1]) /\
  exists r, spend_run ledger (toy_export misled op_g [op_1]) = Some (Err r).
Proof.
  destruct C74_chain_needed as (H1 & _ & _ & H4). split; [|exact H4].
  apply (circulating_passed_on spend_api (tc_known_ops TP toy_sonic) (tc_seal_definitions TP toy_sonic) (tc_witnesses TP toy_sonic)
    ledger op_g _ to_a [[entry_g_w2]] misled [op_1]); [|exact H1|].
  - intros y Hy. by apply circulating_issued.
  - apply toy_sendable; vm_refl.
Qed.

Print Assumptions C76_circulation.
Print Assumptions C76_test_ledger.
Print Assumptions C76_case.
Print Assumptions C76_chain_needed.
