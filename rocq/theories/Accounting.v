(** * Counting seals and calls

    How many cells a consignment can consume, how many seals `evaluate` keeps in memory
    (`seals` in src/verify.rs:156, 196-202, 245), and how many calls it makes. *)
From Verif Require Export Runs.
From Coq Require Import Lia.

(** ** Specification *)
Section spec.
Context {P : SealProtocol}.
Notation Block := (OperationSeals P).
(** A definition reported in the entry denotes a seal, if it is complete or there is a
    witness to resolve it with. *)
Definition denotes (b : Block) (d : SealDef P) : bool :=
  match to_src P d, witness b with
  | None, None => false
  | _, _ => true
  end.
(** Numbers of definitions reported, of definitions which denote a seal, of inputs. *)
Definition reported_in (b : Block) : nat := size (defined_seals b).
Definition revealed_in (b : Block) : nat :=
  length (List.filter (fun e : N * SealDef P => denotes b e.2) (map_to_list (defined_seals b))).
Definition consumed_in (b : Block) : nat := length (op_destructible_in (operation b)).
(** The live seals after the history [h], each once. *)
Definition lists_live {U : Ultrasonic} (h : list Block) (l : list (CellAddr * Seal P)) : Prop :=
  NoDup l.*1 /\ forall a s, (a, s) ∈ l <-> live (U:=U) h a s.
End spec.

(** ** Facts *)
Section facts.
Context {P : SealProtocol} {U : Ultrasonic} (A : ContractApi P U) {E : Type}.
Notation Block := (OperationSeals P).
Notation Calls := (list (call P U)).
Notation id_of := (id_of (U:=U)).
Notation live := (live (U:=U)).
Notation tracks := (tracks (U:=U)).
Notation total f h := (sum_list_with f h).

Lemma revealed_reported (b : Block) : revealed_in b <= reported_in b.
Proof.
  unfold revealed_in, reported_in, size, map_size. generalize (map_to_list (defined_seals b)). intros l.
  induction l as [|e l IH]; cbn; [lia|]. destruct (denotes b e.2); cbn; lia.
Qed.
Lemma length_sources (b : Block) : length (sources_of (U:=U) b) = revealed_in b.
Proof.
  unfold sources_of, revealed_in, complete_sources, resolved_sources, denotes. rewrite app_length.
  generalize (map_to_list (defined_seals b)). intros l.
  destruct (witness b) as [w|]; induction l as [|e l IH]; cbn; try done;
    destruct (to_src P e.2); cbn; cbn in IH; lia.
Qed.

Lemma size_delete_all (l : list CellAddr) (m : gmap CellAddr (Seal P)) :
  NoDup l -> Forall (fun a => is_Some (m !! a)) l -> size (delete_all l m) + length l = size m.
Proof.
  revert m. induction l as [|a l IH]; intros m Hnd Hf; [cbn; lia|].
  apply list.NoDup_cons in Hnd as [Ha Hnd]. apply list.Forall_cons in Hf as [Hsome Hf].
  change (delete_all (a :: l) m) with (delete_all l (delete a m)).
  assert (size (delete a m) = pred (size m)) as Hd by (by apply map_size_delete_Some).
  assert (size m <> 0) as Hn.
  { intros H0. apply map_size_empty_inv in H0. rewrite H0, lookup_empty in Hsome. by destruct Hsome. }
  cbn [length]. rewrite <-Nat.add_succ_comm. cbn. rewrite IH; [lia|done|].
  apply list.Forall_forall. intros x Hx. rewrite lookup_delete_ne; [|by intros ->].
  rewrite list.Forall_forall in Hf. by apply Hf.
Qed.
Lemma size_extend_le (l : list (CellAddr * Seal P)) (m : gmap CellAddr (Seal P)) :
  size (extend_seals m l) <= size m + length l.
Proof.
  revert m. induction l as [|e l IH]; intros m; [cbn; lia|].
  change (extend_seals m (e :: l)) with (extend_seals (<[e.1 := e.2]> m) l).
  etrans; [apply IH|]. rewrite map_size_insert. cbn [length]. destruct (m !! e.1); unfold id; lia.
Qed.
Lemma size_extend_fresh (l : list (CellAddr * Seal P)) (m : gmap CellAddr (Seal P)) :
  NoDup l.*1 -> Forall (fun a => m !! a = None) l.*1 -> size (extend_seals m l) = size m + length l.
Proof.
  revert m. induction l as [|e l IH]; intros m Hnd Hf; [cbn; lia|].
  rewrite fmap_cons in Hnd, Hf. apply list.NoDup_cons in Hnd as [He Hnd]. apply list.Forall_cons in Hf as [Hn Hf].
  change (extend_seals m (e :: l)) with (extend_seals (<[e.1 := e.2]> m) l).
  rewrite IH; [|done|].
  - rewrite map_size_insert_None by done. cbn [length]. lia.
  - apply list.Forall_forall. intros x Hx. rewrite lookup_insert_ne; [|by intros <-].
    rewrite list.Forall_forall in Hf. by apply Hf.
Qed.

(** ** C58: the seals *)
Lemma run_accounting (c0 : Contract A) bs t c :
  valid_run A c0 bs t c ->
  let h := history (contract_id A c0) bs in
  exists m, tracks m h /\ size m + total consumed_in h <= total revealed_in h /\
    (NoDup (id_of <$> h) -> size m + total consumed_in h = total revealed_in h).
Proof.
  intros Hrun. induction Hrun as [|bs t c b Hrun IH Hv]; cbn zeta.
  - exists ∅. split; [apply tracks_nil|]. rewrite map_size_empty. cbn. done.
  - cbn zeta in IH. destruct IH as (m & Hm & Hle & Heq).
    rewrite history_middle. set (h := history (contract_id A c0) bs) in *. set (b' := seen (contract_id A c0) bs b) in *.
    destruct Hv as (_ & _ & (closed & [Hnd Hlive] & _) & _). fold b' h in Hnd, Hlive.
    exists (extend_seals (delete_all (inputs_of b') m) (sources_of (U:=U) b')). split; [by apply tracks_snoc|].
    assert (size (delete_all (inputs_of b') m) + consumed_in b' = size m) as Hdel.
    { unfold consumed_in. rewrite <-(fmap_length input_addr). apply size_delete_all; [done|].
      apply list.Forall_forall. intros a Ha. apply elem_of_list_lookup in Ha as [i Hi].
      destruct (Forall2_lookup_l _ _ _ _ _ Hlive Hi) as (s & _ & Hs). exists s. by apply Hm. }
    rewrite !sum_list_with_app. cbn [sum_list_with]. split.
    + pose proof (size_extend_le (sources_of (U:=U) b') (delete_all (inputs_of b') m)) as Hs.
      rewrite length_sources in Hs. lia.
    + intros Hids. rewrite fmap_app in Hids. apply NoDup_app in Hids as (Hids & Hnew & _). specialize (Heq Hids).
      rewrite size_extend_fresh, length_sources; [lia|apply sources_of_NoDup|].
      apply list.Forall_forall. intros a ([a' s] & -> & Hin)%elem_of_list_fmap. cbn.
      apply elem_of_sources_of in Hin as [Hid _].
      destruct (delete_all (inputs_of b') m !! a') as [s'|] eqn:Hd; [|done]. exfalso.
      apply delete_all_lookup in Hd as [_ Hd]. apply Hm in Hd as (i & bi & Hi & [Hid' _] & _).
      apply (Hnew (id_of bi)).
      * apply elem_of_list_fmap_1. by eapply elem_of_list_lookup_2.
      * rewrite <-Hid', Hid. left.
Qed.
Lemma tracks_lists_live m (h : list Block) : tracks m h -> lists_live (U:=U) h (map_to_list m).
Proof.
  intros Hm. split; [apply NoDup_fst_map_to_list|]. intros a s. rewrite elem_of_map_to_list. apply Hm.
Qed.

(** ** C58: the calls *)
Lemma block_calls_length c0 bs c b : length (block_calls A c0 bs c b) <= 8.
Proof.
  unfold block_calls, query_calls, block_effects, witness_calls, operation_calls, seals_calls.
  cbn. rewrite !app_length.
  assert (forall o : bool, length (if o then [] else [CallCodex; CallMemory; CallRepo] : Calls) <= 3) as H1 by (intros []; cbn; lia).
  specialize (H1 (is_known A c (id_of (seen (contract_id A c0) bs b)))).
  destruct (witness _); cbn; destruct (is_first bs); cbn; [destruct (decide _); cbn; lia| | |];
    try (destruct (decide _); cbn; lia);
    destruct (is_known A c _); cbn in *; [destruct (decide _); cbn; lia| |destruct (decide _); cbn; lia|];
    destruct (vm_verdict A _ _ _); cbn; destruct (decide _); cbn; lia.
Qed.
Lemma run_calls_length c0 bs t c : valid_run A c0 bs t c -> length t <= 8 * length bs.
Proof.
  induction 1 as [|bs t c b _ IH _]; [done|]. rewrite !app_length. pose proof (block_calls_length c0 bs c b). cbn [length]. lia.
Qed.
Lemma failing_calls_length c0 bs c b (e : VerificationError P U E) : length (failing_calls A c0 bs c b e) <= 5.
Proof.
  unfold failing_calls, query_calls. destruct e; cbn; try lia; destruct (is_known A c _); cbn; lia.
Qed.
End facts.
