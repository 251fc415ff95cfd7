(** * Re-organisations of the chain (proofs) *)
From Verif Require Export Consensus Split.
From Verif Require Import Refine CellFacts Sharing.

(** The operation [op] is in a consignment among [L] whose seals are valid for the contract with
    id [cid] and codex id [k]. *)
Definition certified {P : SealProtocol} {U : Ultrasonic} (cid : ContractId) (k : CodexId)
    (L : list (list (OperationSeals P))) (op : Operation) : Prop :=
  exists bs b, bs ∈ L /\ sealed (U:=U) cid k bs /\ b ∈ history cid bs /\ operation b = op.

Section reorg.
Context {P : SealProtocol} {U : Ultrasonic} (A : ContractApi P U) {E X : Type}.
Context (peek : Contract A -> Slot -> option X) (out : Operation -> Slot -> option X).
Context (gone : Operation -> Slot -> bool).
Hypothesis Hcells : keeps_cells A peek out gone.
Hypothesis Hrem : remembers A.
Hypothesis Hfaith : faithful U.
Hypothesis Hneeds : needs_inputs A peek.
Notation Block := (OperationSeals P).
Notation intact := (intact A peek).
Notation no_conflict := (no_conflict gone).
Notation on_one_chain := (on_one_chain (U:=U)).
Notation certified := (certified (U:=U)).
Notation id_of := (id_of (U:=U)).
Notation accepted c0 bs c t := (evaluate A (E:=E) c0 bs None = (c, t, Some (Ok tt))).
Implicit Types (bs : list Block) (L : list (list Block)).

Lemma sealed_accepted cid (k : Codex U) m r bs :
  sealed (U:=U) cid (codex_id U k) bs ->
  exists t, evaluate (seals_only P U cid k m r) (E:=E) tt bs None = (tt, t, Some (Ok tt)).
Proof.
  intros Hs. set (Z := seals_only P U cid k m r).
  assert (forall ops, state_run Z tt ops [] tt) as Hall.
  { intros ops. induction ops as [|op ops IH] using rev_ind; [constructor|]. by apply state_run_known. }
  destruct (split_runs Z (seals_only_inert _ _ _ _ _ _) (seals_only_sufficient _ _ _ _ _ _) tt bs [] tt Hs (Hall _))
    as (t & [] & Hrun & _).
  eexists. apply evaluate_ok_iff. eauto.
Qed.

Lemma certified_in cid (k : Codex U) m r L op :
  certified cid (codex_id U k) L op -> accepted_in (seals_only P U cid k m r) (E:=E) cid L op.
Proof.
  intros (bs & b & Hbs & Hs & Hb & Ho). destruct (sealed_accepted cid k m r bs Hs) as [t Ht].
  exists bs, bs, tt, tt, t, b. done.
Qed.

Lemma certified_sub cid k L L' op : L ⊆ L' -> certified cid k L op -> certified cid k L' op.
Proof. intros HL (bs & b & Hbs & H). exists bs, b. split; [by apply HL|done]. Qed.

(** Two different operations with valid seals on one chain do not consume the same cell. *)
Lemma certified_no_double_spend on_chain cid (k : Codex U) (m : MemoryView U) (r : LibRepo U) L op op' a :
  on_one_chain on_chain (all_entries cid L) ->
  certified cid (codex_id U k) L op -> certified cid (codex_id U k) L op' ->
  a ∈ input_addr <$> op_destructible_in op -> a ∈ input_addr <$> op_destructible_in op' -> op = op'.
Proof.
  intros Hch H H'.
  by apply (accepted_no_double_spend (seals_only P U cid k m r) (E:=E) on_chain cid L); [done|apply certified_in|apply certified_in].
Qed.

Lemma certified_ids_apart on_chain cid k L ops :
  on_one_chain on_chain (all_entries cid L) ->
  (forall op, op ∈ ops -> certified cid k L op) -> ids_apart (U:=U) ops ops.
Proof.
  intros Hch Hin op op' Hop Hop' Hid.
  destruct (Hin _ Hop) as (bs & b & Hbs & _ & Hb & <-), (Hin _ Hop') as (bs' & b' & Hbs' & _ & Hb' & <-).
  apply (proj1 (chain_collisions _ _ Hch)); [exact (all_entries_elem _ _ _ Hbs _ Hb)|exact (all_entries_elem _ _ _ Hbs' _ Hb')|done].
Qed.

Lemma conflict_input op op' s :
  gone op s = true -> s ∈ reads op' ->
  exists a, a ∈ input_addr <$> op_destructible_in op /\ a ∈ input_addr <$> op_destructible_in op'.
Proof.
  intros Hg Hr. destruct (gone_input _ _ _ _ Hcells op s Hg) as (a & -> & Ha). exists a. split; [done|].
  apply elem_of_app in Hr as [Hr|Hr]; apply elem_of_list_fmap in Hr as (x & Hx & Hr); [|done].
  by injection Hx as ->.
Qed.

Lemma run_sealed c bs t d :
  valid_run A c bs t d -> sealed (U:=U) (contract_id A c) (codex_id U (codex A c)) bs.
Proof.
  induction 1 as [|bs t d b H IH Hv]; [constructor|]. constructor; [done|].
  destruct Hv as (H1 & H2 & H3 & _). by split.
Qed.
Lemma accepted_sealed c bs d t :
  accepted c bs d t -> sealed (U:=U) (contract_id A c) (codex_id U (codex A c)) bs.
Proof. intros H. apply evaluate_ok_iff in H as (t' & Hrun & _). by eapply run_sealed. Qed.

Lemma session_app c0 l c l' c' :
  session A E c0 l c -> session A E c l' c' -> session A E c0 (l ++ l') c'.
Proof.
  intros Hs H. induction H as [|l' c1 bs fin c' t1 t2 r H IH Hev]; [by rewrite app_nil_r|].
  rewrite app_assoc. by eapply session_step.
Qed.

(** Exactly the operations that need a cell which is gone are in the way. *)
Lemma session_accepts_iff c0 l c bs d t :
  intact c0 -> session A E c0 l c ->
  let ops := applied_operations l ++ (operation <$> history (contract_id A c0) bs) in
  ids_apart (U:=U) ops ops -> accepted c0 bs d t ->
  (exists d' t', accepted c bs d' t') <->
  forall op b s, op ∈ applied_operations l -> b ∈ history (contract_id A c0) bs ->
    gone op s = true -> s ∈ reads (operation b) -> is_known A c (id_of b) = true.
Proof.
  intros Hint Hs ops Hap Hacc.
  assert (ids_apart (U:=U) (applied_operations l) (operation <$> history (contract_id A c0) bs)) as Hap1.
  { intros op op' Hop Hop'. apply Hap; apply elem_of_app; auto. }
  assert (ids_apart (U:=U) (operation <$> history (contract_id A c0) bs) (operation <$> history (contract_id A c0) bs)) as Hap2.
  { intros op op' Hop Hop'. apply Hap; apply elem_of_app; auto. }
  destruct (session_state A peek out gone Hcells Hrem Hfaith c0 l c Hint Hs) as ((Hid & _) & Hintc & Hkn & _).
  split.
  - intros (d' & t' & Hacc') op b s Hop Hb Hg Hr.
    destruct (is_known A c (id_of b)) eqn:Hk; [done|]. exfalso.
    apply evaluate_ok_iff in Hacc' as (u & Hrun & _).
    rewrite <-Hid in Hb. apply elem_of_list_lookup in Hb as [i Hi].
    assert (exists pre b0 post, bs = pre ++ b0 :: post /\ seen (contract_id A c) pre b0 = b) as (pre & b0 & post & -> & Hseen).
    { destruct bs as [|x rest]; [done|]. destruct i as [|i].
      - exists [], x, rest. split; [done|]. cbn in Hi. by injection Hi.
      - cbn in Hi. apply elem_of_list_split_length in Hi as (k1 & k2 & -> & _). exists (x :: k1), b, k2. done. }
    destruct (valid_run_at A c pre b0 post u d' Hrun) as (t0 & c1 & Hpre & (_ & _ & _ & Hvm) & _).
    rewrite Hseen in Hvm.
    assert (exists l1 c2 cid v, session A E c0 (l ++ l1) c2 /\
      codex_verify U (codex A c2) cid (operation b) (memory A c2) (repo A c2) = Ok v) as (l1 & c2 & cid & v & Hs2 & Hv).
    { pose proof (run_session A (E:=E) c [] c pre t0 c1 (session_start _ _ _) Hpre) as Hs1. cbn [app] in Hs1.
      destruct (is_known A c1 (id_of b)) eqn:Hk1.
      - destruct (session_state A peek out gone Hcells Hrem Hfaith c _ c1 Hintc Hs1) as (_ & _ & Hkn1 & _).
        apply Hkn1 in Hk1 as [Hk1|(op1 & Hop1 & Hid1)]; [congruence|].
        assert (op1 = operation b) as ->.
        { apply Hap2; [|rewrite <-Hid; apply elem_of_list_fmap_1; by eapply elem_of_list_lookup_2|done].
          assert (op1 ∈ operation <$> history (contract_id A c) pre) as Hin.
          { apply (run_operations A peek Hfaith c pre t0 c1 op1 Hintc Hpre).
            by apply elem_of_list_omap in Hop1 as (e & [->|[->|He]%elem_of_cons]%elem_of_cons & Heop);
              [| |apply elem_of_list_omap; eauto]. }
          rewrite <-Hid. apply elem_of_list_fmap in Hin as (x & -> & Hx). apply elem_of_list_fmap_1.
          eapply history_prefix; [|exact Hx]. by exists (b0 :: post). }
        destruct (session_verified A peek out gone Hcells Hrem Hfaith c _ c1 (operation b) Hintc Hs1 Hop1)
          as (l0 & c2 & v & Hs2 & _ & _ & Hv).
        exists l0, c2, (contract_id A c), v. split; [by eapply session_app|done].
      - destruct (Hvm Hk1) as [v Hv]. eexists _, c1, (contract_id A c), v. split; [eapply session_app; eassumption|exact Hv]. }
    destruct (Hneeds _ _ _ _ Hv s Hr) as [x Hx].
    destruct (session_state A peek out gone Hcells Hrem Hfaith c0 (l ++ l1) c2 Hint Hs2) as (_ & _ & _ & D & _).
    destruct (D op s) as [Hnone _]; [|done|congruence].
    unfold applied_operations in *. rewrite omap_app. apply elem_of_app. by left.
  - intros Hno.
    destruct (session_more_cross A peek out gone Hcells Hrem Hfaith c0 l c bs Hint Hs Hap1 Hno) as (M1 & M2 & M3).
    destruct (knowing_more A (E:=E) peek out gone Hcells Hrem Hfaith Hneeds c0 c bs d t) as (d' & t' & H & _); eauto.
Qed.

(** Two parties whose operations are all certified on the new chain. *)
Lemma reorg_agree on_chain c0 l c l' c' L bs d t :
  intact c0 -> session A E c0 l c -> session A E c0 l' c' ->
  let cid := contract_id A c0 in let k := codex_id U (codex A c0) in
  on_one_chain on_chain (all_entries cid (L ++ [bs])) ->
  (forall op, op ∈ applied_operations l ++ applied_operations l' -> certified cid k (L ++ [bs]) op) ->
  self_contained A c0 (history cid bs) ->
  accepted c bs d t ->
  exists d' t', accepted c' bs d' t' /\
    List.filter (fun e => negb (is_apply e)) (mutations t') =
    List.filter (fun e => negb (is_apply e)) (mutations t).
Proof.
  intros Hint Hs Hs' cid k Hch Hin0 Hself Hacc.
  destruct (session_state A peek out gone Hcells Hrem Hfaith c0 l c Hint Hs) as ((Hid & Hk & _) & _).
  assert (forall op, op ∈ applied_operations l ++ applied_operations l' ++ (operation <$> history cid bs) ->
    certified cid k (L ++ [bs]) op) as Hin.
  { intros op. rewrite app_assoc, elem_of_app. intros [Hop|Hop]; [by apply Hin0|].
    apply elem_of_list_fmap in Hop as (b & -> & Hb). exists bs, b. split; [apply elem_of_app; right; by left|].
    split; [|done]. unfold cid, k. rewrite <-Hid, <-Hk. by eapply accepted_sealed. }
  apply (consensus A peek out gone Hcells Hrem Hfaith Hneeds c0 l c l' c' bs None d t (Ok tt)); try done.
  - by eapply certified_ids_apart.
  - intros op op' s Hop Hop' Hg Hr. destruct (conflict_input op op' s Hg Hr) as (a & Ha & Ha').
    apply (certified_no_double_spend on_chain cid (codex A c0) (memory A c0) (repo A c0) (L ++ [bs]) op op' a); auto.
Qed.
End reorg.
