(** * What a consignment has to disclose (proofs for C71)

    [reduces bs bs']: [bs'] has the operations of [bs], but reports less - fewer definitions of seals,
    fewer witnesses.  [least] is what is left if everything is dropped that no entry needs. *)
From Verif Require Export Split.

Section spec.
Context {P : SealProtocol} {U : Ultrasonic}.
Notation Block := (OperationSeals P).

Definition reduces (bs bs' : list Block) : Prop :=
  Forall2 (fun b b' => operation b' = operation b /\ defined_seals b' ⊆ defined_seals b /\
    (witness b' = witness b \/ witness b' = None)) bs bs'.

(** All cells that are consumed in the consignment. *)
Definition spent (bs : list Block) : list CellAddr := mjoin (inputs_of <$> bs).

(** Definitions are kept for consumed cells; the witness is kept if cells are consumed, or if one of
    the definitions kept needs it. *)
Definition trim_defs (cells : list CellAddr) (o : Opid) (b : Block) : gmap N (SealDef P) :=
  filter (fun p => MkCellAddr o p.1 ∈ cells) (defined_seals b).
Definition trim (cells : list CellAddr) (o : Opid) (b : Block) : Block :=
  {| operation := operation b;
     defined_seals := trim_defs cells o b;
     witness := if decide (inputs_of b = [] /\ map_Forall (fun _ d => is_Some (to_src P d)) (trim_defs cells o b))
       then None else witness b |}.
Definition least (cid : ContractId) (bs : list Block) : list Block :=
  match bs with
  | [] => []
  | b :: rest => trim (spent bs) (id_of (U:=U) (seen_first cid b)) b ::
      ((fun b' => trim (spent bs) (id_of (U:=U) b') b') <$> rest)
  end.
End spec.

Section facts.
Context {P : SealProtocol} {U : Ultrasonic}.
Notation Block := (OperationSeals P).
Notation id_of := (id_of (P:=P) (U:=U)).
Notation live := (live (P:=P) (U:=U)).
Notation reveals := (reveals (P:=P) (U:=U)).
Implicit Types (bs h : list Block) (b : Block).

(** ** Histories *)
Lemma history_take cid bs i : history cid (take i bs) = take i (history cid bs).
Proof. destruct bs as [|b bs], i; done. Qed.
Lemma seen_take cid bs i b : bs !! i = Some b -> history cid bs !! i = Some (seen cid (take i bs) b).
Proof. destruct bs as [|x bs], i as [|i]; cbn; try done. intros [= ->]. done. Qed.
Lemma history_reduces cid bs bs' : reduces bs bs' -> reduces (history cid bs) (history cid bs').
Proof.
  intros H. destruct H as [|b b' bs bs' (H1 & H2 & H3) H]; [constructor|].
  constructor; [|exact H]. cbn. by rewrite H1.
Qed.
Definition trimmed h : list Block := (fun b => trim (spent h) (id_of b) b) <$> h.
Lemma history_least cid bs : history cid (least (U:=U) cid bs) = trimmed (history cid bs).
Proof. destruct bs as [|b bs]; [done|]. reflexivity. Qed.
Lemma least_reduces cid bs bs' :
  reduces bs bs' -> (reduces bs' (least (U:=U) cid bs) <-> reduces (history cid bs') (trimmed (history cid bs))).
Proof.
  intros Hr. rewrite <-history_least. split; [apply history_reduces|].
  destruct Hr as [|b b' bs bs' (H1 & H2 & H3) Hr]; [done|]. intros H. inversion H as [|? ? ? ? (A1 & A2 & A3) A4]; subst.
  constructor; [|exact A4]. split; [cbn; by rewrite H1|]. split; [exact A2|exact A3].
Qed.

(** ** Sealed histories, entry by entry *)
Definition entry_ok h b : Prop :=
  tokens_committed b /\ exists closed, spends (U:=U) h b closed /\ properly_closed (U:=U) b closed.
Lemma sealed_index cid k bs :
  sealed (U:=U) cid k bs <->
  (forall b, bs !! 0 = Some b -> contract_id_bytes (op_contract_id (operation b)) = codex_id_bytes k) /\
  forall i b, history cid bs !! i = Some b -> entry_ok (take i (history cid bs)) b.
Proof.
  induction bs as [|b bs IH] using rev_ind.
  - split; [|constructor]. intros _. split; [done|]. intros [|i] b H; discriminate H.
  - split.
    + intros [Hs (H1 & H2 & H3)]%sealed_snoc_inv. apply IH in Hs as [Hs1 Hs2]. split.
      * intros b0. destruct bs as [|x bs]; [|exact (Hs1 b0)]. intros [= <-]. by apply H1.
      * intros i bi Hi. rewrite history_snoc in Hi |- *.
        destruct (decide (i < length (history cid bs))) as [Hlt|Hge].
        { rewrite lookup_app_l in Hi by done. rewrite take_app_le by lia. by apply Hs2. }
        assert (i = length (history cid bs)) as ->.
        { apply lookup_lt_Some in Hi. rewrite app_length in Hi. cbn in Hi. lia. }
        rewrite list_lookup_middle in Hi by done. injection Hi as <-. rewrite take_app. by split.
    + intros [H1 H2]. constructor.
      * apply IH. split.
        { intros b0 Hb0. apply H1. by apply lookup_app_l_Some. }
        intros i bi Hi. specialize (H2 i bi). rewrite history_snoc in H2.
        rewrite take_app_le in H2 by (apply lookup_lt_Some in Hi; lia). apply H2. by apply lookup_app_l_Some.
      * split.
        { intros ->. by apply H1. }
        specialize (H2 (length (history cid bs)) (seen cid bs b)). rewrite history_snoc, take_app in H2.
        apply H2. by apply list_lookup_middle.
Qed.

(** ** Reduced histories *)
Section reduced.
Context (h h' : list Block).
Hypothesis Hred : reduces h h'.
Hypothesis Hids : NoDup (id_of <$> h).

Lemma reduced_at i b' : h' !! i = Some b' -> exists b, h !! i = Some b /\
  operation b' = operation b /\ defined_seals b' ⊆ defined_seals b /\ (witness b' = witness b \/ witness b' = None).
Proof. intros Hi. destruct (Forall2_lookup_r _ _ _ _ _ Hred Hi) as (b & Hb & H). eauto. Qed.
Lemma reduced_at' i b : h !! i = Some b -> exists b', h' !! i = Some b' /\
  operation b' = operation b /\ defined_seals b' ⊆ defined_seals b /\ (witness b' = witness b \/ witness b' = None).
Proof. intros Hi. destruct (Forall2_lookup_l _ _ _ _ _ Hred Hi) as (b' & Hb & H). eauto. Qed.
Lemma id_index i j b b' : h !! i = Some b -> h !! j = Some b' -> id_of b = id_of b' -> i = j.
Proof.
  intros Hi Hj Heq. eapply (NoDup_lookup _ i j (id_of b) Hids); rewrite list_lookup_fmap; [by rewrite Hi|].
  rewrite Hj. cbn. by rewrite Heq.
Qed.

(** A definition is kept, with the witness if it needs one. *)
Definition kept (i : nat) (a : CellAddr) : Prop :=
  exists b b' d, h !! i = Some b /\ h' !! i = Some b' /\ id_of b = cell_opid a /\
    defined_seals b !! cell_pos a = Some d /\ defined_seals b' !! cell_pos a = Some d /\
    (to_src P d = None -> witness b' = witness b).

Lemma lookup_take_Some {X} (l : list X) n i x : take n l !! i = Some x <-> i < n /\ l !! i = Some x.
Proof.
  split.
  - intros H. assert (i < n) as Hlt. { apply lookup_lt_Some in H. rewrite take_length in H. lia. }
    by rewrite lookup_take in H.
  - intros [H1 H2]. by rewrite lookup_take.
Qed.

Lemma live_reduced n a s : live (take n h') a s -> live (take n h) a s /\ exists i, i < n /\ kept i a.
Proof.
  intros (i & b' & [Hin Hi]%lookup_take_Some & (Hid & d & Hd & Hs) & Hlater).
  destruct (reduced_at i b' Hi) as (b & Hb & Hop & Hdef & Hwit).
  assert (id_of b' = id_of b) as Hids' by (unfold Spec.id_of; by rewrite Hop).
  assert (defined_seals b !! cell_pos a = Some d) as Hd' by (by eapply lookup_weaken).
  assert (to_src P d = None -> witness b' = witness b) as Hw.
  { intros Hsrc. destruct Hs as [Hs|(_ & w & Hw & _)]; [congruence|]. destruct Hwit; [done|congruence]. }
  split.
  - exists i, b. split; [by apply lookup_take_Some|]. split.
    + split; [by rewrite Hid|]. exists d. split; [done|]. destruct Hs as [Hs|(Hsrc & w & Hww & Hs)]; [by left|].
      right. split; [done|]. exists w. by rewrite <-Hw.
    + intros j bj Hij [Hjn Hj]%lookup_take_Some. destruct (reduced_at' j bj Hj) as (bj' & Hj' & Hop' & _).
      split.
      * destruct (Hlater j bj' Hij) as [Hc _]; [by apply lookup_take_Some|]. unfold consumes, inputs_of in *. by rewrite <-Hop'.
      * intros s' [Hid' _]. assert (i = j); [|lia]. apply (id_index i j b bj Hb Hj). congruence.
  - exists i. split; [done|]. exists b, b', d. split; [done|]. split; [done|]. split; [congruence|]. done.
Qed.
Lemma kept_live n i a s : i < n -> kept i a -> live (take n h) a s -> live (take n h') a s.
Proof.
  intros Hin (b & b' & d & Hb & Hb' & Hid & Hd & Hd' & Hw) (i2 & b2 & [Hin2 Hi2]%lookup_take_Some & (Hid2 & d2 & Hd2 & Hs) & Hlater).
  assert (i2 = i) as -> by (apply (id_index i2 i b2 b Hi2 Hb); congruence).
  rewrite Hb in Hi2. injection Hi2 as <-. rewrite Hd in Hd2. injection Hd2 as <-.
  destruct (reduced_at i b' Hb') as (b0 & Hb0 & Hop & _). rewrite Hb in Hb0. injection Hb0 as <-.
  exists i, b'. split; [by apply lookup_take_Some|]. split.
  - split; [unfold Spec.id_of in *; by rewrite Hop|]. exists d. split; [done|].
    destruct Hs as [Hs|(Hsrc & w & Hww & Hs)]; [by left|]. right. split; [done|]. exists w. by rewrite Hw.
  - intros j bj' Hij [Hjn Hj']%lookup_take_Some. destruct (reduced_at j bj' Hj') as (bj & Hj & Hop' & Hdef' & _).
    destruct (Hlater j bj Hij) as [Hc _]; [by apply lookup_take_Some|]. split.
    + unfold consumes, inputs_of in *. by rewrite Hop'.
    + intros s' [Hid' _]. assert (i = j); [|lia]. apply (id_index i j b bj Hb Hj).
      unfold Spec.id_of in *. rewrite Hop' in Hid'. congruence.
Qed.

(** An entry that was fine stays so iff the definitions of its inputs, and its witness, are kept. *)
Lemma entry_reduced n b b' :
  h !! n = Some b -> h' !! n = Some b' -> entry_ok (take n h) b ->
  entry_ok (take n h') b' <->
  (forall a, consumes b a -> exists i, i < n /\ kept i a) /\ (inputs_of b <> [] -> witness b' = witness b).
Proof.
  intros Hb Hb' (Htok & closed & [Hnd Hsp] & Hcl).
  destruct (reduced_at n b' Hb') as (b0 & Hb0 & Hop & Hdef & Hwit). rewrite Hb in Hb0. injection Hb0 as <-.
  assert (inputs_of b' = inputs_of b) as Hin by (unfold inputs_of; by rewrite Hop).
  split.
  - intros (_ & closed' & [Hnd' Hsp'] & Hcl'). rewrite Hin in Hsp'. split.
    + intros a [j Hj]%elem_of_list_lookup. destruct (Forall2_lookup_l _ _ _ _ _ Hsp' Hj) as (s & _ & Hs).
      by apply live_reduced in Hs as [_ Hk].
    + intros Hne. destruct Hwit as [Hw|Hw]; [done|]. unfold properly_closed in Hcl'. rewrite Hw in Hcl'. subst closed'.
      inversion Hsp' as [Hnil|]. by rewrite <-Hnil in Hne.
  - intros [Hk Hw]. split.
    { intros pos d Hd. rewrite Hop. apply (Htok pos). by eapply lookup_weaken. }
    exists closed. split.
    + split; [by rewrite Hin|]. rewrite Hin. apply Forall2_same_length_lookup in Hsp as [Hl Hsp].
      apply Forall2_same_length_lookup. split; [done|]. intros j a s Ha Hs.
      destruct (Hk a) as (i & Hi & Hki); [by eapply elem_of_list_lookup_2|]. apply (kept_live n i a s Hi Hki). by eapply Hsp.
    + destruct (decide (inputs_of b = [])) as [Hnil|Hne].
      * rewrite Hnil in Hsp. inversion Hsp; subst closed. unfold properly_closed, message_of, Spec.id_of in *.
        destruct Hwit as [Hw2|Hw2]; rewrite Hw2; [by rewrite Hop|done].
      * unfold properly_closed, message_of, Spec.id_of in *. by rewrite Hw, Hop.
Qed.

(** All entries: the history is between the full one and the least one. *)
Lemma history_reduced :
  (forall n b, h !! n = Some b -> entry_ok (take n h) b) ->
  (forall n b, h' !! n = Some b -> entry_ok (take n h') b) <-> reduces h' (trimmed h).
Proof.
  intros Hok. split.
  - intros Hok'. apply Forall2_same_length_lookup.
    split; [unfold trimmed; rewrite fmap_length; symmetry; exact (Forall2_length _ _ _ Hred)|]. intros i b' x Hb' Hx.
    unfold trimmed in Hx. rewrite list_lookup_fmap in Hx. destruct (reduced_at i b' Hb') as (b & Hb & Hop & Hdef & Hwit).
    rewrite Hb in Hx. cbn in Hx. injection Hx as <-.
    assert (forall k d, trim_defs (spent h) (id_of b) b !! k = Some d ->
      defined_seals b' !! k = Some d /\ (to_src P d = None -> witness b' = witness b)) as Hkeep.
    { intros k d Hd. apply map_filter_lookup_Some in Hd as [Hd Hin].
      apply elem_of_list_join in Hin as (l & Hin & Hl). apply elem_of_list_fmap in Hl as (bj & -> & Hj).
      apply elem_of_list_lookup in Hj as [j Hj]. destruct (reduced_at' j bj Hj) as (bj' & Hj' & Hred').
      destruct (proj1 (proj1 (entry_reduced j bj bj' Hj Hj' (Hok j bj Hj)) (Hok' j bj' Hj')) _ Hin) as (i2 & _ & Hk).
      destruct Hk as (b2 & b2' & d2 & H1 & H2 & H3 & H4 & H5 & H6). cbn in H3, H4, H5.
      assert (i2 = i) as -> by (by apply (id_index i2 i b2 b)). rewrite Hb in H1. injection H1 as <-.
      rewrite Hb' in H2. injection H2 as <-. rewrite Hd in H4. by injection H4 as <-. }
    split; [cbn; by rewrite Hop|]. split.
    + apply map_subseteq_spec. intros k d Hd. by apply Hkeep.
    + cbn. destruct (decide _) as [|Hn]; [by right|]. left. symmetry.
      destruct (decide (inputs_of b = [])) as [Hnil|Hne].
      * destruct Hwit as [Hw|Hw]; [done|]. destruct (witness b) as [w|] eqn:Ew; [|done]. exfalso.
        apply Hn. split; [done|]. intros k d Hd. destruct (to_src P d) eqn:Hs; [by eexists|].
        destruct (Hkeep k d Hd) as [_ Hd2]. specialize (Hd2 Hs). congruence.
      * destruct (entry_reduced i b b' Hb Hb' (Hok i b Hb)) as [He _]. by apply He; [apply Hok'|].
  - intros Hl n b' Hb'. destruct (reduced_at n b' Hb') as (b & Hb & Hop & Hdef & Hwit).
    assert (forall i x x', h !! i = Some x -> h' !! i = Some x' ->
      trim_defs (spent h) (id_of x) x ⊆ defined_seals x' /\
      (inputs_of x = [] /\ map_Forall (fun _ d => is_Some (to_src P d)) (trim_defs (spent h) (id_of x) x) \/
       witness x = witness x' \/ witness x = None)) as Hat.
    { intros i x x' Hx Hx'. destruct (Forall2_lookup_l _ _ _ _ _ Hl Hx') as (y & Hy & (_ & H2 & H3)).
      unfold trimmed in Hy. rewrite list_lookup_fmap, Hx in Hy. cbn in Hy. injection Hy as <-. split; [exact H2|].
      cbn in H3. destruct (decide _); [by left|by right]. }
    pose proof (Hok n b Hb) as (Htok & closed & [Hnd Hsp] & Hcl).
    apply (entry_reduced n b b' Hb Hb' (Hok n b Hb)). split.
    + intros a Ha. pose proof Ha as [k Hk]%elem_of_list_lookup.
      destruct (Forall2_lookup_l _ _ _ _ _ Hsp Hk) as (s & _ & (i & bi & [Hin Hi]%lookup_take_Some & (Hid & d & Hd & Hs) & _)).
      destruct (reduced_at' i bi Hi) as (bi' & Hi' & _ & _ & Hwi). exists i. split; [done|].
      destruct (Hat i bi bi' Hi Hi') as [H1 H2].
      assert (trim_defs (spent h) (id_of bi) bi !! cell_pos a = Some d) as Ht.
      { apply map_filter_lookup_Some. split; [done|]. cbn. rewrite <-Hid.
        replace (MkCellAddr (cell_opid a) (cell_pos a)) with a by (by destruct a).
        apply elem_of_list_join. exists (inputs_of b). split; [done|]. apply elem_of_list_fmap. exists b. split; [done|].
        by eapply elem_of_list_lookup_2. }
      exists bi, bi', d. split; [done|]. split; [done|]. split; [done|]. split; [done|].
      split; [by eapply lookup_weaken|]. intros Hsrc.
      destruct Hs as [Hs|(_ & w & Hw & _)]; [congruence|].
      destruct H2 as [[_ H2]|[H2|H2]]; [|done|congruence].
      destruct (H2 _ _ Ht) as [x Hx]. congruence.
    + intros Hne. destruct (Hat n b b' Hb Hb') as [_ [[H1 _]|[H1|H1]]]; [done|done|].
      destruct Hwit; congruence.
Qed.
End reduced.
End facts.
