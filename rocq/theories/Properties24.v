(** * Properties, part 24: passing on what was received

    C74: consignments made of what a contract has recorded. *)
From Verif Require Import Stock CellFacts LedgerCells Refine Effects Scenario Counterexamples
  Properties1 Properties2 Properties3 Properties7.
From Coq Require Import Lia.
Notation block := Verif.Concrete.block.

Section same.
Context {P : SealProtocol} {U : Ultrasonic} (A : ContractApi P U) {E X : Type}.
Context (peek : Contract A -> Slot -> option X) (out : Operation -> Slot -> option X).
Context (gone : Operation -> Slot -> bool).
Notation accepted c0 bs c t := (evaluate A (E:=E) c0 bs None = (c, t, Some (Ok tt))).
Notation id_of := (id_of (P:=P) (U:=U)).

(** Two sessions which applied the same operations lead to the same state. *)
Lemma same_session_state c0 l l' c c' :
  keeps_cells A peek out gone -> remembers A -> faithful U -> intact A peek c0 ->
  session A E c0 l c -> session A E c0 l' c' ->
  (forall op, op ∈ applied_operations l <-> op ∈ applied_operations l') ->
  same_state A peek c c'.
Proof.
  intros H1 H2 H3 Hint Hse Hse' Happ.
  destruct (session_state A peek out gone H1 H2 H3 c0 l c Hint Hse) as (Hset & Hi & _).
  destruct (session_state A peek out gone H1 H2 H3 c0 l' c' Hint Hse') as (Hset' & Hi' & _).
  destruct (C49_cells_are_outputs A peek out gone c0 l c H1 H2 H3 Hint Hse) as (G1 & G2 & G3 & _ & G5).
  destruct (C49_cells_are_outputs A peek out gone c0 l' c' H1 H2 H3 Hint Hse') as (G1' & G2' & G3' & _ & G5').
  assert (forall o, is_known A c o = is_known A c' o) as Hk.
  { intros o. apply eq_true_iff_eq. rewrite G5, G5'. split; (intros [?|(op & Hop & ->)]; [by left|right; exists op; split; [by apply Happ|done]]). }
  split; [|split; [exact Hk|]].
  { destruct Hset as (? & ? & ?), Hset' as (? & ? & ?). repeat split; congruence. }
  intros s.
  destruct (existsb (fun op => gone op s) (applied_operations l)) eqn:Hg.
  { apply existsb_exists in Hg as (op & Hop%elem_of_list_In & Hgo). rewrite (G1 op s Hop Hgo), (G1' op s); [done| |done]. by apply Happ. }
  assert (forall op, op ∈ applied_operations l -> gone op s = false) as Hng.
  { intros op Hop. destruct (gone op s) eqn:Hgo; [|done]. rewrite <-Hg. symmetry. apply existsb_exists. exists op.
    split; [by apply elem_of_list_In|done]. }
  assert (forall op, op ∈ applied_operations l' -> gone op s = false) as Hng'.
  { intros op Hop. apply Hng. by apply Happ. }
  destruct (is_known A c (slot_opid s)) eqn:Hks.
  - apply G5 in Hks as [Hks|(op & Hop & Ho)].
    + by rewrite (G2 s Hng Hks), (G2' s Hng' Hks).
    + rewrite (G3 op s Hng Hop Ho), (G3' op s Hng'); [done| |done]. by apply Happ.
  - rewrite (Hi s Hks). rewrite Hk in Hks. by rewrite (Hi' s Hks).
Qed.
Lemma same_applied_state c0 bs bs' c c' t t' :
  keeps_cells A peek out gone -> remembers A -> faithful U -> intact A peek c0 ->
  accepted c0 bs c t -> accepted c0 bs' c' t' ->
  (forall op, op ∈ applied_operations t <-> op ∈ applied_operations t') ->
  same_state A peek c c'.
Proof.
  intros H1 H2 H3 Hint Hacc Hacc'.
  assert (forall bs c t, accepted c0 bs c t -> session A E c0 t c) as Hs.
  { intros bs1 c1 t1 Ha. pose proof (evaluate_log _ _ _ _ _ _ _ Ha) as ->. rewrite <-(app_nil_r t1) in Ha.
    exact (session_step A E c0 [] c0 bs1 None _ _ _ _ (session_start _ _ _) Ha). }
  by apply (same_session_state c0 t t' c c' H1 H2 H3 Hint (Hs _ _ _ Hacc) (Hs _ _ _ Hacc')).
Qed.
End same.

Section export.
Context {P : SealProtocol} {U : Ultrasonic} (A : ContractApi P U) {E X : Type}.
Context (peek : Contract A -> Slot -> option X) (out : Operation -> Slot -> option X).
Context (gone : Operation -> Slot -> bool).
Context (ops : Contract A -> gmap Opid Operation).
Context (defs : Contract A -> gmap Opid (gmap N (SealDef P))) (wits : Contract A -> gmap Opid (list (SealWitness P))).
Notation Block := (OperationSeals P).
Notation accepted c0 bs c t := (evaluate A (E:=E) c0 bs None = (c, t, Some (Ok tt))).
Notation id_of := (id_of (P:=P) (U:=U)).
Notation stocked := (stocked A defs wits).
Notation export := (export A defs wits).
Notation precedes := Verif.Cells.precedes.
Implicit Types (b e : Block) (op : Operation).

(** The operation is among those the contract keeps. *)
Definition kept (c : Contract A) (op : Operation) : Prop := ops c !! opid_of U op = Some op.

Lemma kept_ops c0 L c o op :
  faithful U -> keeps_stock A ops defs wits -> records_inert A -> keeps_identity A ->
  evaluates_all A E c0 L c -> ops c !! o = Some op ->
  ops c0 !! o = Some op \/ exists b, b ∈ all_entries (contract_id A c0) L /\ operation b = op /\ opid_of U op = o.
Proof.
  intros Hf Hst Hinert Hident Hall. induction Hall as [c|c bs c1 t L c2 H1 Hall IH]; [by left|]. intros [H|(b & Hb & Ho & Hid)]%IH.
  - rewrite (evaluate_log _ _ _ _ _ _ _ H1) in H. apply (ops_calls A ops defs wits Hst) in H as [H|[H Ho]]; [by left|].
    right. destruct (applied_in_accepted A Hf c bs None c1 t _ op H1 H) as (pre & b & d & u & Hp & _ & Hb & Hop).
    exists b. split; [|done]. apply (all_entries_elem _ _ bs); [left|]. by apply (history_prefix _ pre).
  - right. exists b. split; [|done]. unfold all_entries in *. cbn [fmap list_fmap mjoin list_join]. apply elem_of_app. right.
    rewrite (evaluate_log _ _ _ _ _ _ _ H1) in Hb. by rewrite (proj1 (apply_calls_identity A Hinert Hident c t)) in Hb.
Qed.

Section proof.
Hypothesis Hstock : keeps_stock A ops defs wits.
Hypothesis Hinert : records_inert A.
Hypothesis Hview : view_sufficient A.
Hypothesis Hident : keeps_identity A.
Hypothesis Hcells : keeps_cells A peek out gone.
Hypothesis Hrem : remembers A.
Hypothesis Hfaith : faithful U.
Hypothesis Hneeds : needs_inputs A peek.
Context (on_chain : SealWitness P -> Prop) (g : Operation) (c0 c : Contract A) (bs : list Block) (L : list (list Block)).
Hypothesis Hint : intact A peek c0.
Hypothesis Hfresh : only_genesis A ops defs wits g c0.
Notation cid := (contract_id A c0).
Notation h := (all_entries cid (bs :: L)).
Hypothesis Hacc : forall x, x ∈ bs :: L -> exists d t, accepted c0 x d t.
Hypothesis Hstart : forall x, x ∈ bs :: L -> starts_with (U:=U) cid g x.
Hypothesis Hchain : on_one_chain (U:=U) on_chain h.
Hypothesis Hall : evaluates_all A E c0 (bs :: L) c.

Lemma same_op (a b : Block) : a ∈ h -> b ∈ h -> id_of a = id_of b -> operation a = operation b.
Proof. intros Ha Hb. destruct (chain_collisions _ _ Hchain) as [Hops _]. by apply Hops. Qed.

Lemma genesis_entry : exists b, b ∈ h /\ operation b = g.
Proof.
  destruct (Hstart bs ltac:(left)) as [(b & r & Hbs & Hg) _]. exists (seen_first cid b). split; [|exact Hg].
  apply (all_entries_elem _ _ bs); [left|]. rewrite Hbs. left.
Qed.
Lemma genesis_cid : with_contract_id cid g = g.
Proof. destruct (Hstart bs ltac:(left)) as [(b & r & _ & <-) _]. done. Qed.

(** The consignment which is the merge of all, and its copy made of what was recorded. *)
Lemma rebuilt :
  exists rest d t, accepted c0 (export c g rest) d t /\ same_state A peek d c /\ NoDup (opid_of U <$> g :: rest) /\
    (forall op, op ∈ rest <-> kept c op /\ op <> g).
Proof.
  assert (forall x, x ∈ bs :: L -> proper (U:=U) cid (opid_of U g) x) as Hprop.
  { intros x Hx. destruct (Hstart x Hx) as [(b & r & Hbx & Hg) Hnd]. split; [|done]. exists b, r. split; [done|].
    unfold Spec.id_of. cbn [seen_first operation]. by rewrite Hg. }
  destruct (merge_collects (U:=U) on_chain cid (opid_of U g) bs L Hprop Hchain) as (Hpm & Hcm & K1 & K2 & K3).
  destruct (C54_merge_all A peek out gone (E:=E) on_chain c0 (opid_of U g) bs L Hcells Hrem Hfaith Hneeds Hint Hacc Hprop Hchain)
    as (d & t & d' & Hm & Hev & Hst & _).
  assert (d' = c) as -> by (by eapply (Sharing.evaluates_all_functional A (E:=E))).
  set (m := merged_all (U:=U) cid bs L) in *.
  pose proof Hpm as [(b0 & rest & Hm0 & Hg) Hnd].
  pose proof (composed_chain (U:=U) on_chain h (history cid m) Hchain Hcm) as Hchm.
  assert (operation (seen_first cid b0) = g) as Hg0.
  { destruct genesis_entry as (e & He & Heg). destruct (Hcm (seen_first cid b0)) as [(e' & He' & Ho & _) _]; [rewrite Hm0; left|].
    rewrite Ho, <-Heg. apply same_op; [done|done|]. unfold Spec.id_of in *. rewrite Heg, <-Ho. exact Hg. }
  (* the entries of the merge are those recorded *)
  assert (forall e, e ∈ history cid m -> defined_seals e = default ∅ (defs c !! id_of e)) as HD.
  { intros e He. destruct (Hcm e He) as [(e1 & He1 & Ho1 & _) Hcd]. apply map_eq. intros k.
    pose proof (fun d => kept_defs A ops defs wits Hstock Hinert Hident (E:=E) c0 (bs :: L) c (id_of e) k d Hall
      (proj1 (proj2 Hfresh)) (chain_agreeing on_chain _ Hchain)) as Hkd.
    destruct (defined_seals e !! k) as [x|] eqn:Hx.
    - symmetry. apply Hkd. destruct (Hcd k x Hx) as (e2 & He2 & Ho2 & Hx2). exists e2. split; [done|]. split; [|done].
      unfold Spec.id_of. by rewrite Ho2.
    - destruct (default ∅ (defs c !! id_of e) !! k) as [x|] eqn:Hx'; [|done].
      destruct (proj1 (Hkd x) eq_refl) as (b & Hb & Hid & Hd). destruct (K2 e b He Hb Hid k x Hd) as [y Hy]. congruence. }
  assert (forall i e, m !! i = Some e -> op_destructible_in (operation e) <> [] -> exists w, witness e = Some w) as HC9.
  { intros i e Hi Hne. exact (proj1 (C09_witness_mandatory A c0) m d t i e Hm Hi Hne). }
  assert (forall e, e ∈ rest -> op_destructible_in (operation e) <> [] ->
    witness e = head (default [] (wits c !! id_of e))) as HW.
  { intros e He Hne. assert (e ∈ history cid m) as Hem by (rewrite Hm0; by right).
    rewrite (kept_wits A ops defs wits Hstock Hinert Hident (E:=E) c0 (bs :: L) c (id_of e) Hall (proj2 (proj2 Hfresh))).
    destruct (K3 e Hem) as (b & tl & -> & Hw).
    apply elem_of_list_lookup in He as [i Hi]. destruct (HC9 (S i) e) as [w Hew]; [by rewrite Hm0|done|].
    cbn [omap list_omap]. by rewrite Hw, Hew. }
  assert (codex A c = codex A c0) as Hcodex.
  { destruct Hst as ((_ & Hc & _) & _). apply evaluate_ok_iff in Hm as (u & Hu & _).
    destruct (run_state A peek out gone Hcells Hrem Hfaith c0 _ _ _ Hint Hu) as ((_ & Hc' & _) & _). congruence. }
  assert (op_destructible_in (operation b0) = []) as Hin0.
  { rewrite Hm0 in Hm. exact (proj2 (C03_first_consumes_nothing A c0) b0 rest d t Hm). }
  assert (with_contract_id (MkContractId (codex_id_bytes (codex_id U (codex A c)))) g = operation b0) as Hfirst.
  { rewrite Hm0 in Hm. pose proof (proj1 (proj2 (proj2 (C01_codex_commitment A (E:=E) c0))) b0 rest d t Hm) as Hc.
    rewrite <-Hg0, Hcodex, <-Hc. cbn [seen_first operation]. by destruct (operation b0) as [? [] ? ? ? ? ? ? ?]. }
  set (sm := export c g (operation <$> rest)).
  assert (reduces m sm) as Hred.
  { rewrite Hm0. unfold sm, Stock.export. constructor.
    - cbn. split; [done|]. split; [|by right]. rewrite (HD (seen_first cid b0)) at 1; [|rewrite Hm0; left].
      (* the ids agree *) unfold Spec.id_of. by rewrite Hg0.
    - rewrite <-list_fmap_compose. apply Forall2_fmap_r. apply Forall_Forall2_diag. apply list.Forall_forall. intros e He.
      cbn [compose Stock.stocked operation defined_seals witness]. split; [done|]. split.
      + rewrite (HD e); [done|]. rewrite Hm0. by right.
      + destruct (decide _) as [Hi|Hi]; [by right|]. left. symmetry. by apply HW. }
  assert (forall e cells o, e ∈ history cid m -> inputs_of e = [] -> witness (trim cells o e) = None) as Htrim.
  { intros e cells o He Hi. unfold trim. cbn [witness]. destruct (decide _) as [Hd|Hd]; [done|].
    destruct (witness e) as [w|] eqn:Hw; [|done]. exfalso. apply Hd. split; [done|]. intros k x Hx.
    unfold trim_defs in Hx. apply map_filter_lookup_Some in Hx as [Hx _].
    destruct (to_src P x) eqn:Hs; [by eexists|]. exfalso.
    pose proof (chain_roots _ _ Hchm e e k x He He eq_refl Hi Hx Hs). congruence. }
  assert (reduces sm (least (U:=U) cid m)) as Hred'.
  { rewrite Hm0. unfold sm, Stock.export, least. constructor.
    - cbn [trim operation defined_seals]. split; [by symmetry|]. split.
      + assert (defined_seals (stocked_first A defs c g) = defined_seals b0) as ->; [|apply map_filter_subseteq].
        pose proof (HD (seen_first cid b0) ltac:(rewrite Hm0; left)) as Hd0. unfold Spec.id_of in Hd0. rewrite Hg0 in Hd0. symmetry. exact Hd0.
      + right. change (witness (trim (spent (b0 :: rest)) (id_of (seen_first cid b0)) (seen_first cid b0)) = None).
        apply Htrim; [rewrite Hm0; left|]. unfold inputs_of. cbn. by rewrite Hin0.
    - rewrite <-list_fmap_compose. apply Forall2_fmap. apply Forall_Forall2_diag. apply list.Forall_forall. intros e He.
      assert (e ∈ history cid m) as Hem by (rewrite Hm0; by right).
      cbn [compose Stock.stocked trim operation defined_seals]. split; [done|]. split.
      + change (opid_of U (operation e)) with (id_of e). rewrite <-(HD e Hem). apply map_filter_subseteq.
      + cbn [Stock.stocked witness]. destruct (decide (op_destructible_in (operation e) = [])) as [Hi|Hi].
        * left. apply (Htrim e _ _ Hem). unfold inputs_of. by rewrite Hi.
        * change (opid_of U (operation e)) with (id_of e). rewrite <-(HW e He Hi).
          cbn [trim witness]. destruct (decide _); [by right|by left]. }
  destruct (C71_exact A (E:=E) c0 m d t Hinert Hview Hm Hnd sm Hred) as [Hiff Hsame].
  destruct (proj2 Hiff Hred') as (d1 & t1 & Hacc1). destruct (Hsame d1 t1 Hacc1) as [_ Happ].
  assert (same_state A peek d1 c) as Hst1.
  { eapply same_state_trans; [|exact Hst]. apply (same_applied_state A (E:=E) peek out gone c0 sm m d1 d t1 t); try done.
    intros op. assert (forall u : list (call P U), applied_operations u = applied_operations (applied u)) as Hao.
    { intros u. unfold applied_operations, applied. induction u as [|[] u IH]; cbn; try done. by f_equal. }
    by rewrite (Hao t1), Happ, <-Hao. }
  assert (id_of <$> history cid m = opid_of U <$> g :: (operation <$> rest)) as Hids.
  { rewrite Hm0. cbn [history]. rewrite !fmap_cons. f_equal.
    - unfold Spec.id_of. by rewrite Hg0.
    - rewrite <-list_fmap_compose. done. }
  exists (operation <$> rest), d1, t1. split; [exact Hacc1|]. split; [exact Hst1|]. split; [by rewrite <-Hids|].
  (* which operations are kept *)
  assert (forall e, e ∈ rest -> kept c (operation e) /\ operation e <> g) as Hkept.
  { intros e He. assert (operation e <> g) as Hne.
    { intros Heq. rewrite Hids, fmap_cons in Hnd. apply list.NoDup_cons in Hnd as [Hn _]. apply Hn.
      apply elem_of_list_fmap. exists (operation e). split; [by rewrite Heq|]. apply elem_of_list_fmap. by exists e. }
    split; [|done]. assert (is_known A c (id_of e) = true) as Hk.
    { destruct Hst as (_ & Hk & _). rewrite <-Hk. apply evaluate_ok_iff in Hm as (u & Hu & _).
      destruct (run_state A peek out gone Hcells Hrem Hfaith c0 _ _ _ Hint Hu) as (_ & _ & Hkn & _).
      apply Hkn. right. exists e. split; [|done]. rewrite Hm0. done. }
    apply (stock_known _ _ _ _ Hstock) in Hk as [op Hop]. unfold kept. change (opid_of U (operation e)) with (id_of e).
    rewrite Hop. f_equal. destruct (Hcm e) as [(e' & He' & Ho & _) _]; [rewrite Hm0; by right|].
    apply (kept_ops c0 (bs :: L) c) in Hop as [Hop|(b & Hb & Hbo & Hid)]; try done.
    - destruct Hfresh as (Hf & _). rewrite Hf in Hop. apply lookup_singleton_Some in Hop as [Hid <-].
      exfalso. rewrite Hids, fmap_cons in Hnd. apply list.NoDup_cons in Hnd as [Hn _]. apply Hn. rewrite Hid.
      apply elem_of_list_fmap. exists (operation e). split; [done|]. apply elem_of_list_fmap. by exists e.
    - rewrite Ho, <-Hbo. apply same_op; [done|done|]. unfold Spec.id_of in *. by rewrite Hbo, Hid, <-Ho. }
  intros op. rewrite elem_of_list_fmap. split.
  - intros (e & -> & He). by apply Hkept.
  - intros [Hk Hne]. unfold kept in Hk. apply (kept_ops c0 (bs :: L) c) in Hk as [Hk|(b & Hb & Hbo & _)]; try done.
    + destruct Hfresh as (Hf & _). rewrite Hf in Hk. apply lookup_singleton_Some in Hk as [_ Hk]. by symmetry in Hk.
    + pose proof (K1 b Hb) as Hin. apply elem_of_list_fmap in Hin as (e & Hid & He).
      destruct (Hcm e He) as [(e' & He' & Ho & _) _].
      assert (operation e = op) as Heo.
      { rewrite Ho, <-Hbo. symmetry. apply same_op; [done|done|]. rewrite Hid. unfold Spec.id_of. by rewrite Ho. }
      rewrite Hm0 in He. cbn [history] in He. apply elem_of_cons in He as [->|He]; [|by exists e].
      exfalso. apply Hne. rewrite <-Heo. exact Hg0.
Qed.

Lemma applied_exactly l d t :
  NoDup (opid_of U <$> g :: l) -> accepted c0 (export c g l) d t -> forall op, op ∈ applied_operations t <-> op ∈ l.
Proof.
  intros Hnd Ha op. apply evaluate_ok_iff in Ha as (u & Hu & ->).
  destruct (run_state A peek out gone Hcells Hrem Hfaith c0 _ _ _ Hint Hu) as (_ & _ & _ & Ha & Hb & _).
  rewrite fmap_cons in Hnd. apply list.NoDup_cons in Hnd as [Hg Hnd].
  assert (applied_operations ([CallContractId; CallCodex] ++ u ++ [CallRead]) = applied_operations u) as ->.
  { rewrite !applied_operations_app. cbn. by rewrite app_nil_r. }
  assert (forall op, op ∈ applied_operations u -> op ∈ l) as Hin.
  { intros x Hx. apply Ha in Hx as (b & Hb' & <- & _). unfold Stock.export in Hb'. cbn [history tail] in Hb'.
    apply elem_of_list_fmap in Hb' as (y & -> & Hy). exact Hy. }
  split; [apply Hin|]. intros Hop. destruct (Hb (stocked c op)) as (op' & Hop' & Hid).
  - unfold Stock.export. cbn [history tail]. apply elem_of_list_fmap. by exists op.
  - destruct (is_known A c0 _) eqn:Hk; [|done]. apply (stock_known _ _ _ _ Hstock) in Hk as [x Hx].
    destruct Hfresh as (Hf & _). rewrite Hf in Hx. apply lookup_singleton_Some in Hx as [Hx _].
    exfalso. apply Hg. rewrite Hx. apply elem_of_list_fmap. by exists op.
  - assert (op' = op) as ->; [|done]. apply Hin in Hop'. revert Hop Hop' Hid. clear -Hnd. induction l as [|y l IH].
    { by intros []%elem_of_nil. }
    rewrite fmap_cons in Hnd. apply list.NoDup_cons in Hnd as [Hn Hnd]. change (id_of (stocked c op)) with (opid_of U op).
    intros [->|H1]%elem_of_cons [->|H2]%elem_of_cons Hid; [done| | |by apply IH].
    + exfalso. apply Hn. rewrite <-Hid. apply elem_of_list_fmap. by exists op'.
    + exfalso. apply Hn. rewrite Hid. apply elem_of_list_fmap. by exists op.
Qed.

Lemma precedes_map (l : list Operation) x op op' :
  operation x <> op' -> precedes (x :: (stocked c <$> l)) (stocked c op') (stocked c op) <-> precedes l op' op.
Proof.
  intros Hne. unfold Cells.precedes. split.
  - intros (i & j & Hij & Hi & Hj). destruct i as [|i]; [cbn in Hi; exfalso; apply Hne; by injection Hi as ->|].
    destruct j as [|j]; [lia|]. cbn in Hi, Hj. apply list_lookup_fmap_Some in Hi as (y & Hi & Hy).
    apply list_lookup_fmap_Some in Hj as (z & Hj & Hz).
    assert (op' = y) as <- by (by apply (f_equal operation) in Hy). assert (op = z) as <- by (by apply (f_equal operation) in Hz).
    exists i, j. split; [lia|done].
  - intros (i & j & Hij & Hi & Hj). exists (S i), (S j). split; [lia|].
    change ((stocked c <$> l) !! i = Some (stocked c op') /\ (stocked c <$> l) !! j = Some (stocked c op)).
    by rewrite !list_lookup_fmap, Hi, Hj.
Qed.

Lemma export_exact l :
  NoDup l -> (forall op, op ∈ l -> kept c op /\ op <> g) ->
  ((exists d t, accepted c0 (export c g l) d t) <->
   forall op op' s, op ∈ l -> kept c op' -> s ∈ reads op -> slot_opid s = opid_of U op' -> op' = g \/ precedes l op' op) /\
  ((forall op, kept c op -> op = g \/ op ∈ l) ->
   forall d t, accepted c0 (export c g l) d t -> same_state A peek d c).
Proof.
  intros Hndl Hl. destruct rebuilt as (rest & d & t & Hr & Hst & Hnd & Hrest).
  assert (forall k, operation (seen_first cid (stocked_first A defs k g)) = g) as Hfg.
  { intros k. rewrite <-genesis_cid at 2. done. }
  assert (history cid (export c g rest) = seen_first cid (stocked_first A defs c g) :: (stocked c <$> rest)) as Hh by done.
  assert (id_of <$> history cid (export c g rest) = opid_of U <$> g :: rest) as Hids.
  { rewrite Hh, !fmap_cons. f_equal; [unfold Spec.id_of; by rewrite Hfg|]. by rewrite <-list_fmap_compose. }
  assert (forall op, op ∈ l -> op ∈ rest) as Hsub by (intros op Hop; apply Hrest; by apply Hl).
  assert (opid_of U g ∉ opid_of U <$> rest) as Hgr by (rewrite fmap_cons in Hnd; by apply list.NoDup_cons in Hnd as [? _]).
  pose proof (C73_exact A (E:=E) peek out gone c0 (stocked_first A defs c g) (stocked c <$> rest) d t Hcells Hrem Hfaith Hneeds Hint Hr)
    as Hex. cbv zeta in Hex. specialize (Hex ltac:(change (NoDup (id_of <$> history cid (export c g rest))); by rewrite Hids)).
  assert (forall b, b ∈ stocked c <$> rest -> is_known A c0 (id_of b) = false) as Hnew.
  { intros b (op & -> & Hop)%elem_of_list_fmap. destruct (is_known A c0 _) eqn:Hk; [|done].
    apply (stock_known _ _ _ _ Hstock) in Hk as [x Hx]. destruct Hfresh as (Hf & _). rewrite Hf in Hx.
    apply lookup_singleton_Some in Hx as [Hx _]. exfalso. apply Hgr. rewrite Hx. apply elem_of_list_fmap. by exists op. }
  specialize (Hex Hnew (stocked c <$> l)).
  assert (NoDup (stocked c <$> l)) as Hndm.
  { apply (NoDup_fmap_1 operation). rewrite <-list_fmap_compose. change (NoDup (id <$> l)). by rewrite list_fmap_id. }
  specialize (Hex Hndm ltac:(intros b (op & -> & Hop)%elem_of_list_fmap; apply elem_of_list_fmap; exists op; auto)).
  split.
  - etransitivity; [exact Hex|]. change (history cid (stocked_first A defs c g :: (stocked c <$> l))) with
      (seen_first cid (stocked_first A defs c g) :: (stocked c <$> l)). split.
    + intros H op op' s Hop Hk Hs Hid. destruct (decide (op' = g)) as [->|Hne]; [by left|right].
      apply (precedes_map l (seen_first cid (stocked_first A defs c g))); [rewrite Hfg; congruence|].
      apply (H _ _ s); try done; [apply elem_of_list_fmap; by exists op|].
      apply elem_of_cons. right. apply elem_of_list_fmap. exists op'. split; [done|]. by apply Hrest.
    + intros H b e s (op & -> & Hop)%elem_of_list_fmap He Hs Hid.
      apply elem_of_cons in He as [->|(op' & -> & Hop')%elem_of_list_fmap].
      * apply elem_of_list_lookup in Hop as [j Hj]. exists 0, (S j). split; [lia|]. split; [done|].
        change ((stocked c <$> l) !! j = Some (stocked c op)). by rewrite list_lookup_fmap, Hj.
      * apply Hrest in Hop' as [Hk Hne]. apply precedes_map; [rewrite Hfg; congruence|].
        destruct (H op op' s Hop Hk Hs Hid) as [->|?]; done.
  - intros Hfull d1 t1 Ha1. eapply same_state_trans; [|exact Hst].
    apply (same_applied_state A (E:=E) peek out gone c0 _ _ d1 d t1 t Hcells Hrem Hfaith Hint Ha1 Hr).
    assert (NoDup (opid_of U <$> g :: l)) as Hndi.
    { rewrite fmap_cons in Hnd |- *. apply list.NoDup_cons in Hnd as [H1 H2]. apply list.NoDup_cons. split.
      - intros (op & Hid & Hop)%elem_of_list_fmap. apply H1. apply elem_of_list_fmap. exists op. split; [done|by apply Hsub].
      - apply NoDup_fmap_2_strong; [|done]. intros x y Hx Hy Hxy. destruct (Hl x Hx) as [Kx _], (Hl y Hy) as [Ky _].
        unfold kept in *. rewrite Hxy in Kx. congruence. }
    intros op. rewrite (applied_exactly l d1 t1 Hndi Ha1), (applied_exactly rest d t Hnd Hr). split; [apply Hsub|].
    intros [Hk Hne]%Hrest. destruct (Hfull op Hk); done.
Qed.
End proof.

(** ** C74 What was received can be passed on

    A party starts from the genesis and evaluates some consignments.  Each of them is accepted by
    who knows the genesis only, and their witnesses are on one chain.  A consignment of operations which
    the party keeps, with the definitions and the first witness it has recorded for each, is
    accepted by who knows the genesis only iff what the operations name comes before them. *)
Theorem C74_export (on_chain : SealWitness P -> Prop) g c0 c bs L :
  keeps_stock A ops defs wits -> records_inert A -> view_sufficient A -> keeps_identity A ->
  keeps_cells A peek out gone -> remembers A -> faithful U -> needs_inputs A peek -> intact A peek c0 ->
  only_genesis A ops defs wits g c0 ->
  (forall x, x ∈ bs :: L -> exists d t, accepted c0 x d t) ->
  (forall x, x ∈ bs :: L -> starts_with (U:=U) (contract_id A c0) g x) ->
  on_one_chain (U:=U) on_chain (all_entries (contract_id A c0) (bs :: L)) ->
  evaluates_all A E c0 (bs :: L) c ->
  forall l, NoDup l -> (forall op, op ∈ l -> ops c !! opid_of U op = Some op /\ op <> g) ->
    ((exists d t, accepted c0 (export c g l) d t) <->
     forall op op' s, op ∈ l -> ops c !! opid_of U op' = Some op' -> s ∈ reads op -> slot_opid s = opid_of U op' ->
       op' = g \/ precedes l op' op) /\
    (* with all operations it leads to the state of the party *)
    ((forall op, ops c !! opid_of U op = Some op -> op = g \/ op ∈ l) ->
     forall d t, accepted c0 (export c g l) d t -> same_state A peek d c).
Proof.
  intros H1 H2 H3 H4 H5 H6 H7 H8 Hint Hf Ha Hs Hch Hall l.
  exact (export_exact H1 H2 H3 H4 H5 H6 H7 H8 on_chain g c0 c bs L Hint Hf Ha Hs Hch Hall l).
Qed.

(** There is such a consignment of all operations. *)
Theorem C74_all (on_chain : SealWitness P -> Prop) g c0 c bs L :
  keeps_stock A ops defs wits -> records_inert A -> view_sufficient A -> keeps_identity A ->
  keeps_cells A peek out gone -> remembers A -> faithful U -> needs_inputs A peek -> intact A peek c0 ->
  only_genesis A ops defs wits g c0 ->
  (forall x, x ∈ bs :: L -> exists d t, accepted c0 x d t) ->
  (forall x, x ∈ bs :: L -> starts_with (U:=U) (contract_id A c0) g x) ->
  on_one_chain (U:=U) on_chain (all_entries (contract_id A c0) (bs :: L)) ->
  evaluates_all A E c0 (bs :: L) c ->
  exists l d t, NoDup l /\ (forall op, op ∈ l <-> ops c !! opid_of U op = Some op /\ op <> g) /\
    accepted c0 (export c g l) d t /\ same_state A peek d c.
Proof.
  intros H1 H2 H3 H4 H5 H6 H7 H8 Hint Hf Ha Hs Hch Hall.
  destruct (rebuilt H1 H2 H3 H4 H5 H6 H7 H8 on_chain g c0 c bs L Hint Hf Ha Hs Hch Hall) as (l & d & t & Hl & Hst & Hnd & Hm).
  exists l, d, t. split; [|done]. rewrite fmap_cons in Hnd. apply list.NoDup_cons in Hnd as [_ Hnd]. by apply NoDup_fmap_1 in Hnd.
Qed.
End export.

(** ** The ledgers keep what they are told *)
Section ledgers.
Context (P : SealProtocol) (S : Sonic).
Notation A := (test_ledger P S).
Notation stock A := (keeps_stock (U:=sonic S) A (tc_known_ops P S) (tc_seal_definitions P S) (tc_witnesses P S)).
Lemma ledger_keeps_stock : stock A.
Proof. split; [|done..]. intros c o. apply bool_decide_eq_true. Qed.
Lemma spending_keeps_stock : stock (spending_ledger P S).
Proof. split; [|done..]. intros c o. apply bool_decide_eq_true. Qed.
Lemma spending_inert : records_inert (spending_ledger P S).
Proof. split; intros; by repeat split. Qed.
Lemma spending_identity : keeps_identity (spending_ledger P S).
Proof. done. Qed.
Lemma spending_sufficient : view_sufficient (spending_ledger P S).
Proof.
  intros c c' v H. apply (ledger_sufficient P S (tc_spend P S c v) (tc_spend P S c' v) v).
  destruct H as (H1 & H2 & H3 & H4 & H5). cbn in *. injection H3 as H3 H3'. unfold same_view. cbn. by rewrite H3, H3'.
Qed.

(** For the contract of the test-suite no law is left to assume, but for the virtual machine. *)
Corollary C74_test_ledger {E : Type} (on_chain : SealWitness P -> Prop) g (c0 c : TestContract P S) bs L :
  sonic_local S -> sonic_needs S -> ledger_intact P S c0 ->
  only_genesis A (tc_known_ops P S) (tc_seal_definitions P S) (tc_witnesses P S) g c0 ->
  (forall x, x ∈ bs :: L -> exists d t, evaluate A (E:=E) c0 x None = (d, t, Some (Ok tt))) ->
  (forall x, x ∈ bs :: L -> starts_with (U:=sonic S) (tc_contract_id P S c0) g x) ->
  on_one_chain (U:=sonic S) on_chain (all_entries (tc_contract_id P S c0) (bs :: L)) ->
  evaluates_all A E c0 (bs :: L) c ->
  exists l d t, NoDup l /\ (forall op, op ∈ l <-> tc_known_ops P S c !! sonic_opid S op = Some op /\ op <> g) /\
    evaluate A (E:=E) c0 (export A (tc_seal_definitions P S) (tc_witnesses P S) c g l) None = (d, t, Some (Ok tt)) /\
    tc_owned P S d = tc_owned P S c /\ tc_global P S d = tc_global P S c.
Proof.
  intros Hloc Hneeds Hint Hf Ha Hs Hch Hall.
  destruct (C74_all A (ledger_peek P S) outputs nothing_gone (tc_known_ops P S) (tc_seal_definitions P S) (tc_witnesses P S)
    on_chain g c0 c bs L ledger_keeps_stock (ledger_inert P S) (ledger_sufficient P S) (ledger_identity P S)
    (ledger_keeps_cells P S Hloc) (ledger_remembers P S) (sonic_faithful S) (ledger_needs_inputs P S Hneeds)
    (proj1 (ledger_intact_iff P S c0) Hint) Hf Ha Hs Hch Hall) as (l & d & t & H1 & H2 & H3 & H4).
  exists l, d, t. split; [done|]. split; [done|]. split; [done|].
  destruct H4 as (_ & _ & H4). split; apply map_eq; intros a; [specialize (H4 (Owned a))|specialize (H4 (Global a))];
    cbn in H4; revert H4; [destruct (tc_owned P S d !! a), (tc_owned P S c !! a)|destruct (tc_global P S d !! a), (tc_global P S c !! a)];
    cbn; congruence.
Qed.
End ledgers.

(** ** Cases *)

(** A party has received two branches, with the definitions of the genesis spread over both. *)
Definition holder : ToyContract := spend_after (spend_after ledger to_a) to_b.
Notation toy_export := (export spend_api (tc_seal_definitions TP toy_sonic) (tc_witnesses TP toy_sonic)).
Lemma ledger_only_genesis :
  only_genesis spend_api (tc_known_ops TP toy_sonic) (tc_seal_definitions TP toy_sonic) (tc_witnesses TP toy_sonic) op_g ledger.
Proof.
  split; [reflexivity|]. split; intros o; unfold ledger, toy_contract; cbn [tc_seal_definitions tc_witnesses].
  - destruct (decide (o = toy_opid op_g)) as [->|Hne]; [by rewrite lookup_singleton|by rewrite lookup_singleton_ne].
  - destruct (decide (o = toy_opid op_g)) as [->|Hne]; [by rewrite lookup_singleton|by rewrite lookup_singleton_ne].
Qed.
Lemma toy_starts (bs : list ToyBlock) b r :
  bs = b :: r -> bool_decide (with_contract_id toy_cid (operation b) = op_g) = true ->
  bool_decide (NoDup (id_of (U:=TU) <$> history toy_cid bs)) = true -> starts_with (U:=TU) toy_cid op_g bs.
Proof. intros -> H1%bool_decide_eq_true H2%bool_decide_eq_true. split; [by exists b, r|done]. Qed.
Lemma holder_reached : evaluates_all spend_api Empty_set ledger [to_a; to_b] holder.
Proof.
  eapply evaluates_next; [exact to_a_accepted|]. eapply evaluates_next; [apply spend_evaluate; vm_refl|]. constructor.
Qed.
Lemma holder_accepted x : x ∈ [to_a; to_b] -> exists d t, spend_accepts ledger x d t.
Proof.
  intros [->|[->|[]%elem_of_nil]%elem_of_cons]%elem_of_cons; eexists _, _; [exact to_a_accepted|exact to_b_accepted].
Qed.
Lemma holder_starts x : x ∈ [to_a; to_b] -> starts_with (U:=TU) toy_cid op_g x.
Proof.
  intros [->|[->|[]%elem_of_nil]%elem_of_cons]%elem_of_cons.
  - apply (toy_starts _ entry_ga [entry_1; entry_4]); vm_refl.
  - apply (toy_starts _ entry_gb [entry_3; entry_5]); vm_refl.
Qed.
Lemma holder_chain : on_one_chain (U:=TU) (toy_on_chain one_chain) (all_entries toy_cid [to_a; to_b]).
Proof. apply toy_on_one_chain. vm_refl. Qed.

(** The branches can be passed on interleaved; no received consignment had them so. *)
Example C74_case :
  (exists d t, spend_accepts ledger (toy_export holder op_g [op_3; op_1; op_5; op_4]) d t /\
     same_state spend_api (ledger_peek TP toy_sonic) d holder) /\
  (exists l d t, NoDup l /\ spend_accepts ledger (toy_export holder op_g l) d t /\ op_5 ∈ l /\ op_4 ∈ l /\
     same_state spend_api (ledger_peek TP toy_sonic) d holder).
Proof.
  split.
  - pose proof (C74_export spend_api (E:=Empty_set) (ledger_peek TP toy_sonic) outputs inputs_gone
      (tc_known_ops TP toy_sonic) (tc_seal_definitions TP toy_sonic) (tc_witnesses TP toy_sonic) (toy_on_chain one_chain) op_g
      ledger holder to_a [to_b] (spending_keeps_stock _ _) (spending_inert _ _) (spending_sufficient _ _) (spending_identity _ _)
      spend_keeps_cells (spending_remembers _ _) (sonic_faithful _) spend_needs_inputs spend_intact ledger_only_genesis
      holder_accepted holder_starts holder_chain holder_reached [op_3; op_1; op_5; op_4]) as H.
    destruct H as [_ H].
    + apply (bool_decide_unpack _). by vm_compute.
    + apply list.Forall_forall. apply (bool_decide_unpack _). by vm_compute.
    + eexists _, _. split; [apply spend_evaluate; vm_refl|]. eapply H; [|apply spend_evaluate; vm_refl].
      assert (map_Forall (fun _ op => op = op_g \/ op ∈ [op_3; op_1; op_5; op_4]) (tc_known_ops TP toy_sonic holder)) as Hf.
      { apply (bool_decide_unpack _). by vm_compute. }
      intros op Hop. exact (Hf _ _ Hop).
  - destruct (C74_all spend_api (E:=Empty_set) (ledger_peek TP toy_sonic) outputs inputs_gone
      (tc_known_ops TP toy_sonic) (tc_seal_definitions TP toy_sonic) (tc_witnesses TP toy_sonic) (toy_on_chain one_chain) op_g
      ledger holder to_a [to_b] (spending_keeps_stock _ _) (spending_inert _ _) (spending_sufficient _ _) (spending_identity _ _)
      spend_keeps_cells (spending_remembers _ _) (sonic_faithful _) spend_needs_inputs spend_intact ledger_only_genesis
      holder_accepted holder_starts holder_chain holder_reached) as (l & d & t & H1 & H2 & H3 & H4).
    exists l, d, t. split; [exact H1|]. split; [exact H3|]. split; [|split; [|exact H4]]; apply H2;
      (split; apply (bool_decide_unpack _); by vm_compute).
Qed.

(** An operation cannot be passed on without the one whose output it consumes, nor before it. *)
Example C74_case_refused :
  spend_run ledger (toy_export holder op_g [op_4]) = Some (Err (SealUnknown (MkCellAddr id_1 0))) /\
  spend_run ledger (toy_export holder op_g [op_4; op_1]) = Some (Err (SealUnknown (MkCellAddr id_1 0))) /\
  spend_run ledger (toy_export holder op_g [op_1; op_4]) = Some (Ok tt).
Proof. split; [vm_refl|split; vm_refl]. Qed.

(** Without agreement on the definitions (C28) what was received cannot be passed on: the second
    consignment reports another definition for output 0. *)
Definition misled : ToyContract := spend_after (spend_after ledger to_a) [entry_g_w2].
Example C74_chain_needed :
  evaluates_all spend_api Empty_set ledger [to_a; [entry_g_w2]] misled /\
  (exists d t, spend_accepts ledger [entry_g_w2] d t) /\
  tc_known_ops TP toy_sonic misled !! id_1 = Some op_1 /\
  exists r, spend_run ledger (toy_export misled op_g [op_1]) = Some (Err r).
Proof.
  split; [|split; [|split]].
  - eapply evaluates_next; [exact to_a_accepted|]. eapply evaluates_next; [apply spend_evaluate; vm_refl|]. constructor.
  - eexists _, _. apply spend_evaluate. vm_refl.
  - apply (bool_decide_unpack _). by vm_compute.
  - eexists. vm_compute. reflexivity.
Qed.

Print Assumptions C74_export.
Print Assumptions C74_all.
Print Assumptions C74_test_ledger.
Print Assumptions C74_case.
Print Assumptions C74_case_refused.
Print Assumptions C74_chain_needed.
