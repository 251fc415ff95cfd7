(** * Merging consignments *)
From Verif Require Export Consensus.
From Coq Require Import Lia.

(** ** Specification: the merge of two consignments of one contract

    All entries of the first one, then those of the second whose operation is not in the
    first.  An entry of the first reports in addition the definitions which the second one
    reports for the same operation.  The genesis is taken from the first one. *)
Section merge.
Context {P : SealProtocol} {U : Ultrasonic}.
Notation Block := (OperationSeals P).
Notation id_of := (id_of (U:=U)).

(** The definitions reported for the operation [o] in [h]. *)
Definition seals_for (o : Opid) (h : list Block) : gmap N (SealDef P) :=
  foldr (fun e m => if decide (id_of e = o) then defined_seals e ∪ m else m) ∅ h.
Definition with_seals (h : list Block) (o : Opid) (b : Block) : Block :=
  {| operation := operation b; defined_seals := defined_seals b ∪ seals_for o h; witness := witness b |}.
Definition joined (h : list Block) (b : Block) : Block := with_seals h (id_of b) b.
Definition enriched (cid : ContractId) (h bs : list Block) : list Block :=
  match bs with
  | [] => []
  | b :: r => with_seals h (id_of (seen_first cid b)) b :: (joined h <$> r)
  end.
Definition merged (cid : ContractId) (bs1 bs2 : list Block) : list Block :=
  enriched cid (history cid bs2) bs1 ++
  filter (fun b => id_of b ∉ id_of <$> history cid bs1) (tail bs2).
Definition merged_all (cid : ContractId) (bs : list Block) (L : list (list Block)) : list Block :=
  foldl (merged cid) bs L.

(** *** Facts *)
Lemma seals_for_inv o (h : list Block) pos d :
  seals_for o h !! pos = Some d ->
  exists e, e ∈ h /\ id_of e = o /\ defined_seals e !! pos = Some d.
Proof.
  induction h as [|e h IH]; cbn; [by rewrite lookup_empty|]. case_decide as Hid.
  - rewrite lookup_union_Some_raw. intros [H|[_ H]].
    + exists e. split; [left|done].
    + destruct (IH H) as (x & Hx & ?). exists x. split; [by right|done].
  - intros H. destruct (IH H) as (x & Hx & ?). exists x. split; [by right|done].
Qed.
Lemma seals_for_some o (h : list Block) e pos d :
  e ∈ h -> id_of e = o -> defined_seals e !! pos = Some d -> is_Some (seals_for o h !! pos).
Proof.
  induction h as [|x h IH]; [by intros []%elem_of_nil|]. intros [->|He]%elem_of_cons Hid Hd; cbn.
  - rewrite decide_True by done. exists d. by rewrite lookup_union_Some_raw; left.
  - destruct (IH He Hid Hd) as [d' Hd']. case_decide; [|by eauto].
    rewrite lookup_union_is_Some. right. by eauto.
Qed.

Lemma id_joined (h : list Block) b : id_of (joined h b) = id_of b.
Proof. done. Qed.
Lemma ids_joined (h l : list Block) : id_of <$> (joined h <$> l) = id_of <$> l.
Proof. rewrite <-list_fmap_compose. by apply list_fmap_ext. Qed.

Lemma history_enriched cid (h bs : list Block) : history cid (enriched cid h bs) = joined h <$> history cid bs.
Proof. by destruct bs. Qed.
Lemma enriched_snoc cid (h bs : list Block) b :
  exists b', enriched cid h (bs ++ [b]) = enriched cid h bs ++ [b'] /\
    operation b' = operation b /\ witness b' = witness b /\
    seen cid (enriched cid h bs) b' = joined h (seen cid bs b).
Proof.
  destruct bs as [|b0 bs].
  - eexists. done.
  - exists (joined h b). cbn. rewrite fmap_app. done.
Qed.
Lemma first_enriched cid (h bs : list Block) : is_first (enriched cid h bs) = is_first bs.
Proof. by destruct bs. Qed.
End merge.

Section merging.
Context {P : SealProtocol} {U : Ultrasonic} (A : ContractApi P U) {E X : Type}.
Context (peek : Contract A -> Slot -> option X) (out : Operation -> Slot -> option X).
Context (gone : Operation -> Slot -> bool).
Hypothesis Hcells : keeps_cells A peek out gone.
Hypothesis Hrem : remembers A.
Hypothesis Hfaith : faithful U.

Notation Block := (OperationSeals P).
Notation Calls := (list (call P U)).
Notation id_of := (id_of (U:=U)).
Notation live := (live (U:=U)).
Notation reveals := (reveals (U:=U)).
Notation intact := (intact A peek).
Notation same_state := (same_state A peek).
Notation on_one_chain := (on_one_chain (U:=U)).
Notation accepted c0 bs c t := (evaluate A (E:=E) c0 bs None = (c, t, Some (Ok tt))).
Implicit Types (c : Contract A) (b e : Block) (t : Calls).

(** *** States *)
Lemma same_state_refl c : same_state c c.
Proof. done. Qed.
Lemma same_state_sym c c' : same_state c c' -> same_state c' c.
Proof. intros (H1 & H2 & H3). split; [by apply same_setting_sym|]. split; intros; symmetry; auto. Qed.
Lemma same_state_trans c c' c'' : same_state c c' -> same_state c' c'' -> same_state c c''.
Proof.
  intros (H1 & H2 & H3) (H1' & H2' & H3'). split; [by eapply same_setting_trans|].
  split; intros; [rewrite H2; auto|rewrite H3; auto].
Qed.

Lemma same_state_witness d b : same_state (apply_calls A d (witness_calls b)) d.
Proof.
  unfold witness_calls. destruct (witness b) as [w|]; [|done]. cbn. split; [apply Hcells|].
  destruct Hrem as (_ & _ & Hw). split; [intros o; apply Hw|]. intros s. apply Hcells.
Qed.
Lemma same_state_seals d b : same_state (apply_calls A d (seals_calls b)) d.
Proof.
  unfold seals_calls. destruct (decide _); [done|]. cbn. split; [apply Hcells|].
  destruct Hrem as (_ & Hs & _). split; [intros o; apply Hs|]. intros s. apply Hcells.
Qed.
Lemma same_state_intact d d' : same_state d d' -> intact d' -> intact d.
Proof. intros (_ & H2 & H3) H s Hs. rewrite H3. apply H. by rewrite <-H2. Qed.
Lemma same_state_apply d d' v :
  same_state d d' -> intact d' -> is_known A d' (opid_of U (into_operation U v)) = false ->
  same_state (apply_operation A d v) (apply_operation A d' v).
Proof.
  intros Hs Hint Hk. pose proof (same_state_intact _ _ Hs Hint) as Hint'. destruct Hs as (H1 & H2 & H3).
  split. { eapply same_setting_trans; [apply Hcells|]. eapply same_setting_trans; [exact H1|].
    apply same_setting_sym, Hcells. }
  split.
  - intros o. apply eq_true_iff_eq. destruct Hrem as (Hr & _). by rewrite !Hr, H2.
  - intros s. rewrite !(cells_operation _ _ _ _ Hcells).
    + by rewrite H3.
    + intros s' Hs'. apply Hint. by rewrite Hs'.
    + intros s' Hs'. apply Hint'. by rewrite H2, Hs'.
Qed.
Lemma same_state_verdict cid d d' b b' :
  same_state d d' -> operation b = operation b' -> vm_verdict A cid d b = vm_verdict A cid d' b'.
Proof.
  intros (H1 & _ & H3) Ho. unfold vm_verdict. rewrite Ho.
  apply (cells_local _ _ _ _ Hcells); [apply H1|apply H1|]. auto.
Qed.
Lemma same_state_vm cid d d' b b' :
  same_state d d' -> operation b = operation b' -> vm_accepts A cid d' b' -> vm_accepts A cid d b.
Proof.
  intros Hs Ho H Hk. destruct H as [v Hv].
  - rewrite <-Hk. unfold Spec.id_of. rewrite Ho. destruct Hs as (_ & H2 & _). by rewrite H2.
  - exists v. rewrite <-Hv. by apply same_state_verdict.
Qed.

(** The same operation, with possibly different seals and witness. *)
Lemma same_state_step c0 c0' (bs bs' : list Block) d d' b b' :
  contract_id A c0 = contract_id A c0' -> is_first bs = is_first bs' ->
  operation (seen (contract_id A c0) bs b) = operation (seen (contract_id A c0') bs' b') ->
  same_state d d' -> intact d' ->
  same_state (apply_calls A d (block_effects A c0 bs d b)) (apply_calls A d' (block_effects A c0' bs' d' b')).
Proof.
  intros Hc Hf Ho Hs Hint. unfold block_effects. rewrite !apply_calls_app.
  eapply same_state_trans; [apply same_state_seals|].
  eapply same_state_trans; [|apply same_state_sym, same_state_seals].
  set (x := seen _ bs b) in *. set (y := seen _ bs' b') in *.
  assert (same_state (apply_calls A d (witness_calls x)) (apply_calls A d' (witness_calls y))) as Hsw.
  { eapply same_state_trans; [apply same_state_witness|].
    eapply same_state_trans; [exact Hs|]. apply same_state_sym, same_state_witness. }
  unfold operation_calls. rewrite Hf. destruct (is_first bs'); [done|].
  assert (id_of x = id_of y) as Hid by (unfold Spec.id_of; by rewrite Ho).
  rewrite Hid. pose proof Hs as (_ & H2 & _). rewrite H2.
  destruct (is_known A d' (id_of y)) eqn:Hk; [done|].
  rewrite Hc, (same_state_verdict _ d d' x y) by done. destruct (vm_verdict _ _ d' y) as [v|] eqn:Hv; [|done].
  cbn. apply same_state_apply; [done| |].
  - eapply same_state_intact; [apply same_state_witness|done].
  - rewrite (Hfaith _ _ _ _ _ _ Hv). fold (id_of y).
    destruct (same_state_witness d' y) as (_ & Hw & _). by rewrite Hw.
Qed.
(** An operation already known. *)
Lemma same_state_known c0 (bs : list Block) d b :
  is_known A d (id_of (seen (contract_id A c0) bs b)) = true ->
  same_state (apply_calls A d (block_effects A c0 bs d b)) d.
Proof.
  intros Hk. unfold block_effects. rewrite !apply_calls_app. unfold operation_calls. rewrite Hk.
  eapply same_state_trans; [apply same_state_seals|]. destruct (is_first bs); apply same_state_witness.
Qed.

(** The first operation is not applied. *)
Lemma first_run c b t d : valid_run A c [b] t d -> same_state d c.
Proof.
  intros (t' & c' & H & _ & _ & ->)%(valid_run_snoc_inv A c [] b t d).
  destruct (valid_run_functional A c [] t' c' [] c H) as [_ ->]; [constructor|].
  unfold block_effects. rewrite !apply_calls_app. cbn.
  eapply same_state_trans; [apply same_state_seals|]. apply same_state_witness.
Qed.

(** A run from a state which is the same. *)
Lemma same_state_run c c' (bs : list Block) t d :
  same_state c c' -> intact c' -> valid_run A c' bs t d ->
  exists t' d', valid_run A c bs t' d' /\ same_state d' d.
Proof.
  intros Hs Hint H. induction H as [|bs t d b H IH Hv].
  { exists [], c. split; [constructor|done]. }
  destruct IH as (t' & d' & Hrun & Hsd).
  destruct (run_state A peek out gone Hcells Hrem Hfaith c' _ _ _ Hint H) as (_ & Hintd & _).
  assert (contract_id A c = contract_id A c') as Hcid by (by apply Hs).
  eexists _, _. split.
  - apply (valid_run_snoc A c bs t' d' b Hrun). destruct Hv as (V1 & V2 & V3 & V4).
    unfold block_valid. rewrite Hcid. split; [|split; [done|split; [done|]]].
    + unfold codex_committed in *. destruct Hs as ((_ & Hs & _) & _). by rewrite Hs.
    + by eapply same_state_vm.
  - apply same_state_step; try done. by rewrite Hcid.
Qed.

Lemma evaluates_two c (bs1 bs2 : list Block) c2 :
  evaluates_all A E c [bs1; bs2] c2 ->
  exists c1 t1 t2, accepted c bs1 c1 t1 /\ accepted c1 bs2 c2 t2.
Proof.
  intros Hall. inversion Hall as [|? ? c1' t1' ? ? Hev1 Hall1]; subst.
  inversion Hall1 as [|? ? ? t2' ? ? Hev2 Hall2]; subst. inversion Hall2; subst. by eauto 6.
Qed.

(** *** Two consignments on one chain *)
Section pair.
Context (on_chain : SealWitness P -> Prop) (c c1 c2 : Contract A) (bs1 bs2 : list Block) (t1 t2 : Calls).
Hypothesis Hacc1 : accepted c bs1 c1 t1.
Hypothesis Hacc2 : accepted c bs2 c2 t2.
Notation cid := (contract_id A c).
Notation h1 := (history cid bs1).
Notation h2 := (history cid bs2).
Hypothesis Hchain : on_one_chain on_chain (h1 ++ h2).
Hypothesis Hnd1 : NoDup (id_of <$> h1).
Hypothesis Hnd2 : NoDup (id_of <$> h2).

Lemma anchored_of (bs : list Block) : anchored P on_chain (history cid bs) -> anchored P on_chain bs.
Proof.
  intros H b w Hb Hw. destruct bs as [|b0 bs]; [by apply elem_of_nil in Hb|].
  apply elem_of_cons in Hb as [->|Hb].
  - apply (H (seen_first cid b0)); [by left|done].
  - apply (H b); [by right|done].
Qed.

Lemma chain_1 : on_one_chain on_chain h1.
Proof. eapply on_one_chain_sub; [|exact Hchain]. intros x Hx. apply elem_of_app. by left. Qed.
Lemma chain_2 : on_one_chain on_chain h2.
Proof. eapply on_one_chain_sub; [|exact Hchain]. intros x Hx. apply elem_of_app. by right. Qed.
Lemma collisions_12 : no_collisions (U:=U) h1 h2.
Proof.
  destruct (chain_collisions _ _ Hchain) as [H H']. split.
  - intros b b' Hb Hb'. apply H; apply elem_of_app; auto.
  - intros b b' p p' x x' Hb Hb'. apply (H' b b'); apply elem_of_app; auto.
Qed.

Lemma no_spend_twice i j b b' a :
  h1 !! i = Some b -> consumes b a -> h2 !! j = Some b' -> consumes b' a -> id_of b = id_of b'.
Proof.
  intros Hi Ha Hj Ha'. pose proof chain_1 as C1. pose proof chain_2 as C2.
  refine (proj1 (no_double_spend A A on_chain c c bs1 bs2 c1 c2 t1 t2 Hacc1 Hacc2 _ _ _ collisions_12 _ _ _
    i j b b' a _ _ Hi Ha Hj Ha')).
  - apply anchored_of, C1.
  - apply anchored_of, C2.
  - apply C1.
  - apply C1.
  - apply C2.
  - apply settled_each, C1.
  - apply C1.
  - apply C1.
Qed.

(** The witnesses of an operation in both are the same. *)
Lemma same_witness i j b b' a :
  h1 !! i = Some b -> h2 !! j = Some b' -> id_of b = id_of b' -> consumes b a ->
  exists w w', witness b = Some w /\ witness b' = Some w' /\ pub_id P (published w) = pub_id P (published w').
Proof.
  intros Hi Hj Hid Ha. pose proof chain_1 as C1. pose proof chain_2 as C2.
  assert (operation b = operation b') as Ho.
  { apply collisions_12; [by eapply elem_of_list_lookup_2|by eapply elem_of_list_lookup_2|done]. }
  assert (consumes b' a) as Ha' by (unfold consumes, inputs_of in *; by rewrite <-Ho).
  destruct (consumption A c _ _ _ _ _ _ Hacc1 Hi Ha) as (w & k & s & Hw & _ & Hl & Hin & Hcl).
  destruct (consumption A c _ _ _ _ _ _ Hacc2 Hj Ha') as (w' & k' & s' & Hw' & _ & Hl' & Hin' & Hcl').
  exists w, w'. split; [done|]. split; [done|].
  assert (s = s') as <-.
  { apply live_revealed in Hl as (x & bx & _ & Hbx & Hrx), Hl' as (y & by' & _ & Hby & Hry).
    refine (seals_agree A A on_chain c c bs1 bs2 c1 c2 t1 t2 Hacc1 Hacc2 _ _ _ collisions_12 _ _ _
      x y bx by' a s s' Hbx Hrx Hby Hry).
    - apply anchored_of, C1.
    - apply anchored_of, C2.
    - apply C1.
    - apply C1.
    - apply C2.
    - apply settled_each, C1. }
  assert (denoted P h1 s) as Hden.
  { apply live_revealed in Hl as (x & bx & _ & Hbx & Hrx). eapply revealed_denoted; [by eapply elem_of_list_lookup_2|done]. }
  eapply (chain_closed_by_one _ _ C1 s Hden w w'); [| |exact Hcl|exact Hcl'|done|done].
  - apply (chain_anchored _ _ C1 b); [by eapply elem_of_list_lookup_2|done].
  - apply (chain_anchored _ _ C2 b'); [by eapply elem_of_list_lookup_2|done].
Qed.

(** Definitions reported at one position for one operation are the same. *)
Lemma same_definition b b' pos d d' :
  b ∈ h1 ++ h2 -> b' ∈ h1 ++ h2 -> operation b = operation b' ->
  defined_seals b !! pos = Some d -> defined_seals b' !! pos = Some d' -> d = d'.
Proof.
  intros Hb Hb' Ho Hd Hd'. destruct Hchain as [_ _ _ _ [_ Hdefs] Hpos _].
  rewrite list.Forall_forall in Hpos.
  destruct (Hpos _ Hb _ _ Hd) as (cell & Hc & Ht). destruct (Hpos _ Hb' _ _ Hd') as (cell' & Hc' & Ht').
  eapply (Hdefs b b'); [done|done|done|done|]. rewrite Ho in Hc. congruence.
Qed.

Lemma joined_lookup b pos d :
  b ∈ h1 -> defined_seals (joined (U:=U) h2 b) !! pos = Some d ->
  exists e, e ∈ h1 ++ h2 /\ operation e = operation b /\ defined_seals e !! pos = Some d.
Proof.
  intros Hb. cbn. rewrite lookup_union_Some_raw. intros [H|[_ H]].
  - exists b. split; [apply elem_of_app; by left|done].
  - apply seals_for_inv in H as (e & He & Hid & Hd). exists e. split; [apply elem_of_app; by right|].
    split; [|done]. symmetry. by apply collisions_12.
Qed.

Lemma joined_reveals_1 b a s : reveals b a s -> reveals (joined (U:=U) h2 b) a s.
Proof.
  intros (Hid & d & Hd & Hs). split; [done|]. exists d. split; [|done].
  cbn. rewrite lookup_union_Some_raw. by left.
Qed.

Lemma joined_reveals_2 i j b b' a s :
  h1 !! i = Some b -> h2 !! j = Some b' -> id_of b = id_of b' -> reveals b' a s -> reveals (joined (U:=U) h2 b) a s.
Proof.
  intros Hi Hj Hid (Hid' & d & Hd & Hs). split; [by rewrite Hid'|].
  pose proof (elem_of_list_lookup_2 _ _ _ Hi) as Hb. pose proof (elem_of_list_lookup_2 _ _ _ Hj) as Hb'.
  assert (operation b = operation b') as Ho by (by apply collisions_12).
  exists d. split.
  - destruct (seals_for_some (id_of b) h2 b' (cell_pos a) d Hb' (eq_sym Hid) Hd) as [d1 Hd1].
    assert (is_Some (defined_seals (joined (U:=U) h2 b) !! cell_pos a)) as [d0 Hd0].
    { cbn. rewrite lookup_union_is_Some. right. by eauto. }
    rewrite Hd0. f_equal. destruct (joined_lookup _ _ _ Hb Hd0) as (e & He & Hoe & Hde).
    apply (same_definition e b' (cell_pos a)); try done; [apply elem_of_app; by right|congruence].
  - destruct Hs as [Hs|(Hn & w & Hw & ->)]; [by left|right]. split; [done|].
    destruct (inputs_of b') as [|a0 ins] eqn:Hins.
    { pose proof chain_2 as C2. destruct C2 as [_ _ _ _ _ _ Hr]. specialize (Hr _ _ _ _ Hb' Hb' eq_refl Hins Hd Hn). congruence. }
    destruct (same_witness i j b b' a0 Hi Hj Hid) as (w1 & w2 & Hw1 & Hw2 & Hp).
    { unfold consumes, inputs_of in *. rewrite Ho, Hins. left. }
    exists w1. split; [done|]. rewrite Hw in Hw2. injection Hw2 as <-. by rewrite Hp.
Qed.

(** *** The first part of the merge *)
Lemma NoDup_prefix (pre bs : list Block) : NoDup (id_of <$> history cid bs) -> pre `prefix_of` bs -> NoDup (id_of <$> history cid pre).
Proof.
  intros Hnd [k ->]. destruct pre as [|b pre]; [constructor|]. cbn in *.
  rewrite fmap_app in Hnd. change (?x :: ?l ++ ?r) with ((x :: l) ++ r) in Hnd. by apply NoDup_app in Hnd as [? _].
Qed.

Lemma live_joined (h : list Block) a s : NoDup (id_of <$> h) -> live h a s -> live (joined (U:=U) h2 <$> h) a s.
Proof.
  intros Hnd (i & b & Hi & Hr & Hlater). exists i, (joined (U:=U) h2 b). split; [by rewrite list_lookup_fmap, Hi|].
  split; [by apply joined_reveals_1|]. intros j b' Hij Hj. rewrite list_lookup_fmap in Hj.
  destruct (h !! j) as [x|] eqn:Hx; [|done]. cbn in Hj. injection Hj as <-. split.
  - apply (Hlater j x Hij Hx).
  - intros s' [Hid _]. rewrite id_joined in Hid. destruct Hr as [Hr _].
    assert (i = j); [|lia]. eapply NoDup_ids_inj; [exact Hnd|done|done|congruence].
Qed.

Hypothesis Hint : intact c.

Lemma enriched_run (pre : list Block) : pre `prefix_of` bs1 ->
  exists t d t' d', valid_run A c (enriched (U:=U) cid h2 pre) t d /\ valid_run A c pre t' d' /\ same_state d d'.
Proof.
  induction pre as [|b pre IH] using rev_ind; intros Hp.
  { exists [], c, [], c. split; [constructor|]. split; [constructor|done]. }
  assert (pre `prefix_of` bs1) as Hp'. { etrans; [|exact Hp]. by apply prefix_app_r. }
  destruct (IH Hp') as (t & d & t' & d' & Hr & Hr' & Hs).
  destruct Hp as [post Hp]. rewrite <-app_assoc in Hp. cbn in Hp.
  assert (block_valid A c pre d' b) as Hv.
  { apply evaluate_ok_iff in Hacc1 as (u & Hrun & _). rewrite Hp in Hrun.
    apply valid_run_at in Hrun as (t'' & d'' & Hr'' & Hv & _).
    destruct (valid_run_functional A c pre t' d' t'' d'' Hr' Hr'') as [_ ->]. done. }
  destruct (run_state A peek out gone Hcells Hrem Hfaith c _ _ _ Hint Hr') as (_ & Hintd & _).
  destruct (enriched_snoc (U:=U) cid h2 pre b) as (b' & He & Ho & Hw & Hseen).
  rewrite He. eexists _, _, _, _. split; [|split; [exact (valid_run_snoc A c pre t' d' b Hr' Hv)|]].
  - apply (valid_run_snoc A c _ t d b' Hr). destruct Hv as (V1 & V2 & (closed & (V3 & V3') & V4) & V5).
    assert (seen cid pre b ∈ h1) as Hin.
    { rewrite Hp, history_middle. apply elem_of_app. right. left. }
    unfold block_valid. rewrite Hseen. split; [|split; [|split]].
    + unfold codex_committed in *. intros Hn. rewrite Ho. apply V1. by destruct pre.
    + intros pos x Hx. destruct (joined_lookup _ _ _ Hin Hx) as (e & He' & Hoe & Hx').
      pose proof (chain_positions _ _ Hchain) as Hpos. rewrite list.Forall_forall in Hpos.
      destruct (Hpos _ He' _ _ Hx') as (cell & Hc & Ht). exists cell. split; [|done].
      cbn. rewrite <-Hoe. by eapply elem_of_list_lookup_2.
    + exists closed. split; [|done]. split; [done|].
      rewrite history_enriched. eapply Forall2_impl; [exact V3'|]. intros a s Hl.
      apply live_joined; [exact (NoDup_prefix pre bs1 Hnd1 Hp')|done].
    + eapply same_state_vm; [exact Hs|done|exact V5].
  - apply same_state_step; [done|apply first_enriched| |done|done]. by rewrite Hseen.
Qed.

(** *** The second part *)
Hypothesis Hneeds : needs_inputs A peek.
Context (b0 e0 : Block) (r1 r2 : list Block).
Hypothesis Hbs1 : bs1 = b0 :: r1.
Hypothesis Hbs2 : bs2 = e0 :: r2.
Hypothesis Hfirst : id_of (seen_first cid b0) = id_of (seen_first cid e0).

Notation new := (filter (fun b => id_of b ∉ id_of <$> h1)).

Lemma live_new (h : list Block) e a s :
  NoDup (id_of <$> h) -> e ∈ h -> reveals e a s -> (forall x, x ∈ h -> ~ consumes x a) -> live h a s.
Proof.
  intros Hnd He Hr Hno. apply elem_of_list_lookup in He as [i Hi]. exists i, e. split; [done|]. split; [done|].
  intros j x Hij Hj. split; [apply Hno; by eapply elem_of_list_lookup_2|].
  intros s' [Hid _]. destruct Hr as [Hr _]. assert (i = j); [|lia].
  eapply NoDup_ids_inj; [exact Hnd|done|done|congruence].
Qed.

Lemma NoDup_ids_filter (Q : Block -> Prop) `{!forall x, Decision (Q x)} (l : list Block) :
  NoDup (id_of <$> l) -> NoDup (id_of <$> filter Q l).
Proof.
  induction l as [|x l IH]; [done|]. cbn [fmap list_fmap]. intros [Hn Hnd]%list.NoDup_cons.
  rewrite filter_cons. destruct (decide (Q x)); [|by apply IH]. cbn. apply list.NoDup_cons.
  split; [|by apply IH]. intros Hx. apply Hn. apply elem_of_list_fmap in Hx as (y & -> & Hy).
  apply elem_of_list_filter in Hy as [_ Hy]. by apply elem_of_list_fmap_1.
Qed.

Lemma NoDup_merged (pre : list Block) :
  pre `prefix_of` r2 -> NoDup (id_of <$> (joined (U:=U) h2 <$> h1) ++ new pre).
Proof.
  intros [k Hk]. rewrite fmap_app, ids_joined. apply NoDup_app. split; [exact Hnd1|]. split.
  - intros o Ho Hx. apply elem_of_list_fmap in Hx as (x & -> & Hx).
    apply elem_of_list_filter in Hx as [Hx _]. by apply Hx.
  - assert (NoDup (id_of <$> r2)) as Hnd. { rewrite Hbs2 in Hnd2. by apply list.NoDup_cons in Hnd2 as [_ ?]. }
    rewrite Hk, fmap_app in Hnd. apply NoDup_app in Hnd as [Hnd _]. by apply NoDup_ids_filter.
Qed.

Lemma new_run c1' (pre : list Block) : pre `prefix_of` r2 ->
  (exists t', valid_run A c bs1 t' c1') -> (exists t' d', valid_run A c1' bs2 t' d') ->
  exists t d t' d', valid_run A c (enriched (U:=U) cid h2 bs1 ++ new pre) t d /\
    valid_run A c1' (e0 :: pre) t' d' /\ same_state d d'.
Proof.
  intros Hp (u1 & Hu1) (u2 & d2 & Hu2).
  destruct (run_state A peek out gone Hcells Hrem Hfaith c _ _ _ Hint Hu1) as (S1 & Hint1 & K1 & _).
  assert (contract_id A c1' = cid) as Hcid by apply S1.
  rewrite Hbs2 in Hu2.
  assert (forall (l post : list Block), e0 :: r2 = l ++ post -> exists t' d', valid_run A c1' l t' d' /\
    forall b post', post = b :: post' -> block_valid A c1' l d' b) as Hat.
  { intros l post Hl. rewrite Hl in Hu2. destruct post as [|b post].
    - rewrite app_nil_r in Hu2. exists u2, d2. done.
    - apply valid_run_at in Hu2 as (t' & d' & H & Hv & _). exists t', d'. split; [done|].
      by intros ? ? [= <- <-]. }
  induction pre as [|b pre IH] using rev_ind.
  { destruct (enriched_run bs1) as (t & d & t' & d' & Hr & Hr' & Hs); [done|].
    destruct (valid_run_functional A c bs1 t' d' u1 c1' Hr' Hu1) as [_ ->].
    destruct (Hat [e0] r2 eq_refl) as (t2' & d2' & Hr2 & _).
    exists t, d, t2', d2'. rewrite app_nil_r. split; [done|]. split; [done|].
    eapply same_state_trans; [exact Hs|]. apply same_state_sym.
    by eapply first_run. }
  assert (pre `prefix_of` r2) as Hp'. { etrans; [|exact Hp]. by apply prefix_app_r. }
  destruct (IH Hp') as (t & d & t' & d' & Hr & Hr' & Hs).
  destruct Hp as [post Hpost]. rewrite <-app_assoc in Hpost. cbn in Hpost.
  destruct (Hat (e0 :: pre) (b :: post)) as (t'' & d'' & Hr'' & Hv); [by rewrite Hpost|].
  destruct (valid_run_functional A c1' _ t' d' t'' d'' Hr' Hr'') as [_ <-]. clear Hr''.
  specialize (Hv b post eq_refl).
  destruct (run_state A peek out gone Hcells Hrem Hfaith c1' _ _ _ Hint1 Hr') as (_ & Hintd & K2 & _).
  pose proof (valid_run_snoc A c1' _ t' d' b Hr' Hv) as Hnext.
  assert (b ∈ r2) as Hbr by (rewrite Hpost; apply elem_of_app; right; left).
  assert (h2 !! S (length pre) = Some b) as Hj.
  { rewrite Hbs2. cbn. rewrite Hpost. by apply list_lookup_middle. }
  rewrite list.filter_app. destruct (decide (id_of b ∉ id_of <$> h1)) as [Hb|Hb].
  - (* a new operation *)
    rewrite (filter_cons_True _ b), filter_nil by done. rewrite app_assoc.
    eexists _, _, _, _. split; [|split; [exact Hnext|]].
    + apply (valid_run_snoc A c _ t d b Hr). destruct Hv as (V1 & V2 & (closed & (V3 & V3') & V4) & V5).
      cbn [seen] in V2, V3, V3', V4, V5. unfold block_valid.
      assert (seen cid (enriched (U:=U) cid h2 bs1 ++ new pre) b = b) as Hseen by (by rewrite Hbs1).
      rewrite Hseen. split; [by rewrite Hbs1|]. split; [done|]. split.
      * exists closed. split; [|done]. split; [done|].
        assert (history cid (enriched (U:=U) cid h2 bs1 ++ new pre) = (joined (U:=U) h2 <$> h1) ++ new pre) as Hh.
        { by rewrite Hbs1. }
        rewrite Hh. pose proof (NoDup_merged pre Hp') as Hnd.
        assert (forall a x, consumes b a -> x ∈ (joined (U:=U) h2 <$> h1) ++ new pre -> ~ consumes x a) as Hno.
        { intros a x Ha Hx Hxa. apply elem_of_app in Hx as [Hx|Hx].
          - apply elem_of_list_fmap in Hx as (y & -> & Hy). pose proof Hy as [i Hi]%elem_of_list_lookup.
            apply Hb. rewrite <-(no_spend_twice i _ y b a Hi Hxa Hj Ha). by apply elem_of_list_fmap_1.
          - apply elem_of_list_filter in Hx as [_ Hx]. apply elem_of_list_lookup in Hx as [i Hi].
            assert (h2 !! S i = Some x) as Hxi.
            { rewrite Hbs2. change (r2 !! i = Some x). rewrite Hpost, lookup_app_l; [done|]. by eapply lookup_lt_Some. }
            apply elem_of_list_lookup in Ha as [m Hm], Hxa as [n Hn].
            destruct (consumed_once A c bs2 c2 t2 _ _ m n b x a Hacc2 Hnd2 Hj Hm Hxi Hn) as [Heq _].
            apply lookup_lt_Some in Hi. lia. }
        rewrite Hcid in V3'.
        assert (forall a, a ∈ inputs_of b -> consumes b a) as Hall by done. clear V4. revert V3' Hall.
        generalize (inputs_of b). intros ins V3'. induction V3' as [|a s ins closed' Hl _ IH3]; [by constructor|].
        intros Hall. constructor; [|apply IH3; intros; apply Hall; by right].
        assert (consumes b a) as Ha by (apply Hall; left).
        destruct Hl as (k & e & Hk & Hre & _).
        assert (h2 !! k = Some e) as Hk2.
        { rewrite Hbs2, Hpost. change (((seen_first cid e0 :: pre) ++ b :: post) !! k = Some e).
          rewrite lookup_app_l; [done|]. by eapply lookup_lt_Some. }
        destruct (decide (id_of e ∈ id_of <$> h1)) as [He|He].
        -- apply elem_of_list_fmap in He as (y & Hy & Hyin). pose proof Hyin as [i Hi]%elem_of_list_lookup.
           apply (live_new _ (joined (U:=U) h2 y)); [done| | |by intros; apply Hno].
           ++ apply elem_of_app. left. by apply elem_of_list_fmap_1.
           ++ by eapply joined_reveals_2.
        -- apply (live_new _ e); [done| |done|by intros; apply Hno].
           apply elem_of_app. right. apply elem_of_list_filter. split; [done|].
           destruct k as [|k]; [|cbn in Hk; by eapply elem_of_list_lookup_2].
           cbn in Hk. injection Hk as <-. destruct He. rewrite <-Hfirst, Hbs1. left.
      * rewrite Hcid in V5. by eapply same_state_vm.
    + apply same_state_step; try done. { by rewrite Hbs1. } { by rewrite Hbs1. }
  - (* an operation of the first consignment *)
    rewrite (filter_cons_False _ b), filter_nil, app_nil_r by done.
    eexists _, _, _, _. split; [exact Hr|]. split; [exact Hnext|].
    eapply same_state_trans; [exact Hs|]. apply same_state_sym, same_state_known.
    cbn [seen]. apply K2. left. apply K1. right.
    destruct (decide (id_of b ∈ id_of <$> h1)) as [Hin|Hin]; [|done].
    rewrite Hbs1 in Hin. cbn in Hin. apply elem_of_cons in Hin as [Hin|Hin].
    { exfalso. rewrite Hfirst in Hin. rewrite Hbs2 in Hnd2. cbn in Hnd2.
      apply list.NoDup_cons in Hnd2 as [Hn _]. apply Hn. rewrite <-Hin. by apply elem_of_list_fmap_1. }
    apply elem_of_list_fmap in Hin as (y & Hy & Hyin). exists y. rewrite Hbs1. done.
Qed.

Lemma merge_accepted c2' : evaluates_all A E c [bs1; bs2] c2' ->
  exists d t, accepted c (merged (U:=U) cid bs1 bs2) d t /\ same_state d c2'.
Proof.
  intros (c1' & t1' & t2' & Hev1 & Hev2)%evaluates_two.
  apply evaluate_ok_iff in Hev1 as (u1 & Hu1 & _). apply evaluate_ok_iff in Hev2 as (u2 & Hu2 & _).
  destruct (new_run c1' r2) as (t & d & t' & d' & Hr & Hr' & Hs); [done|by eauto|by eauto|].
  rewrite Hbs2 in Hu2. destruct (valid_run_functional A c1' _ t' d' u2 c2' Hr' Hu2) as [_ ->].
  eexists d, _. split; [|exact Hs]. apply valid_run_accepted. unfold merged. rewrite Hbs2 in Hr |- *. exact Hr.
Qed.

Lemma history_merge : history cid (merged (U:=U) cid bs1 bs2) = (joined (U:=U) h2 <$> h1) ++ new r2.
Proof. unfold merged. rewrite Hbs1, Hbs2. done. Qed.
End pair.

(** *** Any number of consignments *)

(** The entry has the operation and witness of one in [h], and definitions reported in [h]
    for its operation. *)
Definition composed (h : list Block) (b : Block) : Prop :=
  (exists e, e ∈ h /\ operation b = operation e /\ witness b = witness e) /\
  (forall pos x, defined_seals b !! pos = Some x ->
     exists e, e ∈ h /\ operation e = operation b /\ defined_seals e !! pos = Some x).

Lemma composed_elem (h : list Block) b : b ∈ h -> composed h b.
Proof. intros Hb. split; [by exists b|]. intros pos x Hx. by exists b. Qed.
Lemma composed_trans (h h' : list Block) b :
  (forall e, e ∈ h -> composed h' e) -> composed h b -> composed h' b.
Proof.
  intros Hh [(e & He & Ho & Hw) Hd]. split.
  - destruct (Hh e He) as [(e' & He' & Ho' & Hw') _]. exists e'. split; [done|]. split; congruence.
  - intros pos x Hx. destruct (Hd pos x Hx) as (y & Hy & Hoy & Hxy).
    destruct (Hh y Hy) as [_ Hdy]. destruct (Hdy pos x Hxy) as (z & Hz & Hoz & Hxz).
    exists z. split; [done|]. split; [congruence|done].
Qed.
Lemma composed_denoted (h h' : list Block) s :
  (forall b, b ∈ h' -> composed h b) -> denoted P h' s -> denoted P h s.
Proof.
  intros Hc (b & pos & d & Hb & Hd & Hs). destruct (Hc b Hb) as [_ Hdef].
  destruct (Hdef pos d Hd) as (e & He & _ & Hde). exists e, pos, d. split; [done|]. split; [done|].
  destruct Hs as [Hs|(Hn & b' & w & Hb' & Hw & ->)]; [by left|]. right. split; [done|].
  destruct (Hc b' Hb') as [(e' & He' & _ & Hw') _]. exists e', w. split; [done|]. split; [congruence|done].
Qed.
Lemma composed_chain on_chain (h h' : list Block) :
  on_one_chain on_chain h -> (forall b, b ∈ h' -> composed h b) -> on_one_chain on_chain h'.
Proof.
  intros [H1 H2 H3 H4 [H5 H5'] H6 H7] Hc. rewrite list.Forall_forall in H6. split; try done.
  - intros s Hs. apply H1. by eapply composed_denoted.
  - intros s Hs. apply H2. by eapply composed_denoted.
  - intros b w Hb Hw. destruct (Hc b Hb) as [(e & He & _ & Hwe) _]. apply (H4 e); [done|congruence].
  - split.
    + intros b b' Hb Hb' Hid. destruct (Hc b Hb) as [(e & He & Ho & _) _], (Hc b' Hb') as [(e' & He' & Ho' & _) _].
      rewrite Ho, Ho'. apply H5; [done|done|]. unfold Spec.id_of in *. by rewrite <-Ho, <-Ho'.
    + intros b b' p p' x x' Hb Hb' Hx Hx' Ht.
      destruct (Hc b Hb) as [_ Hd], (Hc b' Hb') as [_ Hd'].
      destruct (Hd p x Hx) as (e & He & _ & Hxe), (Hd' p' x' Hx') as (e' & He' & _ & Hxe').
      by eapply (H5' e e').
  - apply list.Forall_forall. intros b Hb pos x Hx. destruct (Hc b Hb) as [_ Hd].
    destruct (Hd pos x Hx) as (e & He & Ho & Hxe). rewrite <-Ho. by apply (H6 e He pos x).
  - intros b b' pos x Hb Hb' Hop Hins Hx Hn. destruct (Hc b Hb) as [_ Hd].
    destruct (Hd pos x Hx) as (e & He & Ho & Hxe). destruct (Hc b' Hb') as [(e' & He' & Ho' & ->) _].
    apply (H7 e e' pos x He He'); [congruence| |done|done]. unfold inputs_of in *. by rewrite Ho.
Qed.

Lemma composed_merge on_chain cid (bs1 bs2 : list Block) b0 r1 e0 r2 b :
  on_one_chain on_chain (history cid bs1 ++ history cid bs2) ->
  bs1 = b0 :: r1 -> bs2 = e0 :: r2 ->
  b ∈ history cid (merged (U:=U) cid bs1 bs2) -> composed (history cid bs1 ++ history cid bs2) b.
Proof.
  intros Hch -> -> Hb. cbn [merged enriched app history] in Hb.
  change (b ∈ (joined (U:=U) (history cid (e0 :: r2)) <$> history cid (b0 :: r1)) ++
    filter (fun b => id_of b ∉ id_of <$> history cid (b0 :: r1)) r2) in Hb.
  apply elem_of_app in Hb as [Hb|Hb].
  - apply elem_of_list_fmap in Hb as (y & -> & Hy). split.
    + exists y. split; [apply elem_of_app; by left|done].
    + intros pos x Hx. cbn [joined with_seals defined_seals] in Hx. rewrite lookup_union_Some_raw in Hx.
      destruct Hx as [Hx|[_ Hx]].
      * exists y. split; [apply elem_of_app; by left|done].
      * apply seals_for_inv in Hx as (e & He & Hid & Hd). exists e. split; [apply elem_of_app; by right|].
        split; [|done]. destruct (chain_collisions _ _ Hch) as [Hops _].
        apply (Hops e y); [apply elem_of_app; by right|apply elem_of_app; by left|exact Hid].
  - apply composed_elem. apply elem_of_list_filter in Hb as [_ Hb]. apply elem_of_app. right. by right.
Qed.

Hypothesis Hneeds : needs_inputs A peek.

Lemma all_entries_two cid (bs1 bs2 : list Block) :
  all_entries cid [bs1; bs2] = history cid bs1 ++ history cid bs2.
Proof. unfold all_entries. cbn. by rewrite app_nil_r. Qed.

Lemma merge_two on_chain c c1 c2 b0 r1 e0 r2 t1 t2 :
  intact c -> accepted c (b0 :: r1) c1 t1 -> accepted c (e0 :: r2) c2 t2 ->
  let h1 := history (contract_id A c) (b0 :: r1) in
  let h2 := history (contract_id A c) (e0 :: r2) in
  on_one_chain on_chain (h1 ++ h2) -> NoDup (id_of <$> h1) -> NoDup (id_of <$> h2) ->
  id_of (seen_first (contract_id A c) b0) = id_of (seen_first (contract_id A c) e0) ->
  exists d t c12, accepted c (merged (U:=U) (contract_id A c) (b0 :: r1) (e0 :: r2)) d t /\
    evaluates_all A E c [b0 :: r1; e0 :: r2] c12 /\ same_state d c12.
Proof.
  intros Hint H1 H2 h1 h2 Hch Hnd1 Hnd2 Hfirst.
  destruct (chain_any_order A peek out gone Hcells Hrem Hfaith Hneeds (E:=E) on_chain c [b0 :: r1; e0 :: r2] Hint)
    with (L1 := [b0 :: r1; e0 :: r2]) (L2 := [b0 :: r1; e0 :: r2]) as (c12 & _ & Hall & _); [| |done|done|].
  - intros bs [->|[->|[]%elem_of_nil]%elem_of_cons]%elem_of_cons; by eauto.
  - by rewrite all_entries_two.
  - destruct (merge_accepted on_chain c c1 c2 (b0 :: r1) (e0 :: r2) t1 t2 H1 H2 Hch Hnd1 Hnd2 Hint b0 e0 r1 r2
      eq_refl eq_refl Hfirst c12 Hall) as (d & t & Hd & Hs). by exists d, t, c12.
Qed.

Lemma evaluates_all_app c (L L' : list (list Block)) c1 c2 :
  evaluates_all A E c L c1 -> evaluates_all A E c1 L' c2 -> evaluates_all A E c (L ++ L') c2.
Proof. induction 1 as [|c bs c' t L c1 Hev _ IH]; [done|]. intros H. cbn. econstructor; [done|by apply IH]. Qed.

(** The consignment starts with the operation [g] and has no operation twice. *)
Definition proper (cid : ContractId) (g : Opid) (bs : list Block) : Prop :=
  (exists b r, bs = b :: r /\ id_of (seen_first cid b) = g) /\ NoDup (id_of <$> history cid bs).

Lemma merge_proper on_chain cid g (bs1 bs2 : list Block) :
  proper cid g bs1 -> proper cid g bs2 -> on_one_chain on_chain (history cid bs1 ++ history cid bs2) ->
  proper cid g (merged (U:=U) cid bs1 bs2).
Proof.
  intros [(b0 & r1 & -> & Hg) Hnd1] [(e0 & r2 & -> & Hg2) Hnd2] Hch. split.
  - eexists _, _. split; [reflexivity|]. exact Hg.
  - change (NoDup (id_of <$> (joined (U:=U) (history cid (e0 :: r2)) <$> history cid (b0 :: r1)) ++
      filter (fun b => id_of b ∉ id_of <$> history cid (b0 :: r1)) r2)).
    rewrite fmap_app, ids_joined. apply NoDup_app. split; [exact Hnd1|]. split.
    + intros o Ho Hx. apply elem_of_list_fmap in Hx as (x & -> & Hx).
      apply elem_of_list_filter in Hx as [Hx _]. by apply Hx.
    + apply NoDup_ids_filter. by apply list.NoDup_cons in Hnd2 as [_ ?].
Qed.

Lemma all_entries_snoc cid (L : list (list Block)) bs :
  all_entries cid (L ++ [bs]) = all_entries cid L ++ history cid bs.
Proof.
  induction L as [|x L IH]; [unfold all_entries; cbn; by rewrite app_nil_r|].
  change (history cid x ++ all_entries cid (L ++ [bs]) = (history cid x ++ all_entries cid L) ++ history cid bs).
  by rewrite IH, app_assoc.
Qed.

Lemma merge_many on_chain c g bs (L : list (list Block)) :
  intact c -> (forall x, x ∈ bs :: L -> exists c1 t, accepted c x c1 t) ->
  (forall x, x ∈ bs :: L -> proper (contract_id A c) g x) ->
  on_one_chain on_chain (all_entries (contract_id A c) (bs :: L)) ->
  exists d t d', accepted c (merged_all (U:=U) (contract_id A c) bs L) d t /\
    evaluates_all A E c (bs :: L) d' /\ same_state d d'.
Proof.
  intros Hint Hall Hprop Hch. set (cid := contract_id A c) in *.
  enough (proper cid g (merged_all (U:=U) cid bs L) /\
    (forall b, b ∈ history cid (merged_all (U:=U) cid bs L) -> composed (all_entries cid (bs :: L)) b) /\
    exists d t d', accepted c (merged_all (U:=U) cid bs L) d t /\
    evaluates_all A E c (bs :: L) d' /\ same_state d d') by tauto.
  induction L as [|x L IH] using rev_ind.
  { cbn. split; [apply Hprop; left|]. split.
    - intros b Hb. apply composed_elem. unfold all_entries. cbn. by rewrite app_nil_r.
    - destruct (Hall bs) as (c1 & t & H); [left|]. exists c1, t, c1. split; [done|]. split; [|done].
      econstructor; [done|constructor]. }
  rewrite app_comm_cons, all_entries_snoc in Hch.
  destruct IH as (Hpm & Hcm & d & t & d' & Hm & Hev & Hs).
  { intros y Hy. apply Hall. rewrite app_comm_cons. apply elem_of_app. by left. }
  { intros y Hy. apply Hprop. rewrite app_comm_cons. apply elem_of_app. by left. }
  { eapply on_one_chain_sub; [|exact Hch]. intros y Hy. apply elem_of_app. by left. }
  unfold merged_all in *. rewrite foldl_app. cbn [foldl]. set (m := foldl _ bs L) in *.
  assert (x ∈ bs :: L ++ [x]) as Hx. { right. apply elem_of_app. right. left. }
  destruct (Hall x Hx) as (cx & tx & Haccx). pose proof (Hprop x Hx) as Hpx.
  assert (forall b, b ∈ history cid m ++ history cid x -> composed (all_entries cid (bs :: L) ++ history cid x) b) as Hcomp.
  { intros b [Hb|Hb]%elem_of_app.
    - eapply composed_trans; [|by apply Hcm]. intros e He. apply composed_elem, elem_of_app. by left.
    - apply composed_elem, elem_of_app. by right. }
  assert (on_one_chain on_chain (history cid m ++ history cid x)) as Hch'.
  { by eapply composed_chain. }
  split; [by eapply merge_proper|].
  pose proof Hpm as [(b0 & r1 & Hm0 & Hg) Hndm]. pose proof Hpx as [(e0 & r2 & Hx0 & Hg') Hndx].
  split.
  { intros b Hb. rewrite app_comm_cons, all_entries_snoc. eapply composed_trans; [exact Hcomp|].
    by eapply composed_merge. }
  rewrite Hm0 in Hm, Hch', Hndm |- *. rewrite Hx0 in Haccx, Hch', Hndx.
  destruct (merge_two on_chain c d cx b0 r1 e0 r2 t tx Hint Hm Haccx Hch' Hndm Hndx) as (f & tf & c12 & Hacc & Htwo & Hsf).
  { exact (eq_trans Hg (eq_sym Hg')). }
  apply evaluates_two in Htwo as (d1 & u1 & u2 & Hm' & Hx2). rewrite Hm in Hm'.
  assert (d1 = d) as -> by congruence.
  apply evaluate_ok_iff in Hx2 as (v & Hv & _).
  assert (intact d) as Hintd.
  { apply evaluate_ok_iff in Hm as (u & Hu & _).
    by destruct (run_state A peek out gone Hcells Hrem Hfaith c _ _ _ Hint Hu) as (_ & ? & _). }
  destruct (same_state_run d' d _ _ _ (same_state_sym _ _ Hs) Hintd Hv) as (v' & f' & Hv' & Hsf').
  exists f, tf, f'. rewrite Hx0. split; [done|]. split.
  - rewrite app_comm_cons. eapply evaluates_all_app; [exact Hev|].
    econstructor; [apply valid_run_accepted; exact Hv'|constructor].
  - eapply same_state_trans; [exact Hsf|]. by apply same_state_sym.
Qed.
End merging.
