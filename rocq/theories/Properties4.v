(** * Properties C36-C42, C44: bitcoin seals, serialization, the test ledger, determinism *)
From Verif Require Import ByteReader Scenario Properties1 Properties2.
From stdpp Require Import sorting.
From Coq Require Import Lia.

(** ** C36 Bitcoin: complete definitions resolve to themselves *)
Theorem C36_bitcoin_complete (B : BpCore) (d : WTxoSeal) :
  (forall s w, to_src (bitcoin B) d = Some s -> resolve (bitcoin B) d w = s) /\
  (forall s, to_src (bitcoin B) d = Some s <->
     wseal_primary d = Extern (seal_primary s) /\ wseal_secondary d = seal_secondary s) /\
  (to_src (bitcoin B) d = None <-> exists v, wseal_primary d = Wout v).
Proof.
  split; [|split].
  - intros s w. apply bitcoin_resolve_complete.
  - intros s. cbn. rewrite bitcoin_complete. naive_solver.
  - apply bitcoin_needs_witness.
Qed.

(** ** C37 Bitcoin: witness-output definitions resolve into the witness transaction *)
Theorem C37_bitcoin_witness_output (B : BpCore) v x w :
  (* the output [v] of the transaction [w] *)
  resolve (bitcoin B) (MkWTxoSeal (Wout v) x) w = MkTxoSeal (MkOutpoint w v) x /\
  forall v' x' w',
    resolve (bitcoin B) (MkWTxoSeal (Wout v) x) w = resolve (bitcoin B) (MkWTxoSeal (Wout v') x') w' ->
    v = v' /\ x = x' /\ w = w'.
Proof. split; [done|]. intros v' x' w' H. cbn in H. unfold wtxo_resolve in H. cbn in H. naive_solver. Qed.

(** ** C38 Bitcoin: when two definitions denote the same seal *)
Theorem C38_bitcoin_same_seal (B : BpCore) (d d' : WTxoSeal) w :
  resolve (bitcoin B) d w = resolve (bitcoin B) d' w <->
  wseal_secondary d = wseal_secondary d' /\
  (wseal_primary d = wseal_primary d' \/
   exists v, (wseal_primary d = Wout v /\ wseal_primary d' = Extern (MkOutpoint w v)) \/
             (wseal_primary d' = Wout v /\ wseal_primary d = Extern (MkOutpoint w v))).
Proof. apply bitcoin_same_seal. Qed.

(** ** C39 Auth tokens are 240-bit truncations of the seal commitment *)
Theorem C39_auth_token (B : BpCore) :
  (* commitment ids are arrays of 32 bytes *)
  (forall d, byte_range (commit_id B d) /\ length (commit_id B d) = 32) ->
  (forall d d', auth_token (bitcoin B) d = auth_token (bitcoin B) d' <->
     forall i, i < 30 -> commit_id B d !! i = commit_id B d' !! i) /\
  (forall d, (auth_token_value (auth_token (bitcoin B) d) < 2 ^ 240)%N /\
             (auth_token_value (auth_token (bitcoin B) d) < field_order_secp)%N).
Proof.
  intros H. split.
  - intros d d'. destruct (H d), (H d'). by apply bitcoin_token_eq.
  - intros d. destruct (H d). split; [by apply bitcoin_token_bound|by apply bitcoin_token_in_field].
Qed.

(** ** C40 Consignment entries survive serialization *)
Theorem C40_serialization {P : SealProtocol} (COp : codec Operation) (CDef : codec (SealDef P))
    (CPub : codec (Published P)) (CCli : codec (Client P)) wfOp wfDef wfPub wfCli :
  lawful COp wfOp -> lawful CDef wfDef -> lawful CPub wfPub -> lawful CCli wfCli ->
  let C := c_operation_seals COp CDef CPub CCli in
  let wf := entry_wf wfOp wfDef wfPub wfCli in
  (* read back, the rest untouched *)
  (forall b r, wf b -> dec C (enc C b ++ r) = Some (b, r)) /\
  (* only encodings can be read *)
  (forall l b r, dec C l = Some (b, r) -> wf b /\ l = enc C b ++ r) /\
  (* prefix-free *)
  (forall b b' r r', wf b -> wf b' -> enc C b ++ r = enc C b' ++ r' -> b = b' /\ r = r') /\
  (* the layout *)
  (forall b, exists es : list (N * SealDef P),
     (forall k d, (k, d) ∈ es <-> defined_seals b !! k = Some d) /\
     StronglySorted (fun e e' => (e.1 < e'.1)%N) es /\
     let u16 (n : N) := [n mod 256; n / 256]%N in
     enc C b = enc COp (operation b) ++
       (u16 (N.of_nat (length es)) ++ concat ((fun e => u16 e.1 ++ enc CDef e.2) <$> es)) ++
       match witness b with
       | None => [0%N]
       | Some w => 1%N :: enc CPub (published w) ++ enc CCli (client w)
       end).
Proof.
  intros HO HD HP HC C wf.
  pose proof (lawful_operation_seals COp CDef CPub CCli wfOp wfDef wfPub wfCli HO HD HP HC) as H.
  split; [exact (proj1 H)|]. split; [exact (proj2 H)|]. split.
  - intros b b' r r' Hb Hb' Heq. exact (lawful_prefix_free C wf b b' r r' H Hb Hb' Heq).
  - intros b. exists (sorted_entries (defined_seals b)). split; [|split].
    + intros k d. rewrite <-elem_of_map_to_list. by rewrite sorted_entries_perm.
    + exact (sorted_entries_sorted (defined_seals b)).
    + reflexivity.
Qed.

(** ** C41 Test ledger: state after evaluation *)
Section ledger.
Context (P : SealProtocol) (S : Sonic) {E : Type}.
Notation A := (test_ledger P S).
Notation id_of := (id_of (P:=P) (U:=sonic S)).

Theorem C41_test_ledger (c0 c : TestContract P S) bs t :
  evaluate A (E:=E) c0 bs None = (c, t, Some (Ok tt)) ->
  let h := history (tc_contract_id P S c0) bs in
  (* the operations known before are kept *)
  (forall o op, tc_known_ops P S c0 !! o = Some op -> tc_known_ops P S c !! o = Some op) /\
  (* known is what was known, and all operations but the first *)
  (forall o, is_Some (tc_known_ops P S c !! o) <->
     is_Some (tc_known_ops P S c0 !! o) \/ exists i b, 0 < i /\ h !! i = Some b /\ id_of b = o) /\
  (* under an id not known before: the first operation delivered with it, after entry 0 *)
  (forall i b, 0 < i -> h !! i = Some b -> tc_known_ops P S c0 !! id_of b = None ->
     (forall j b', 0 < j < i -> h !! j = Some b' -> id_of b' <> id_of b) ->
     tc_known_ops P S c !! id_of b = Some (operation b) /\
     (* and its outputs are in memory *)
     (forall pos x, op_destructible_out (operation b) !! pos = Some x ->
        tc_owned P S c !! MkCellAddr (id_of b) (N.of_nat pos) = Some x) /\
     (forall pos x, op_immutable_out (operation b) !! pos = Some x ->
        tc_global P S c !! MkCellAddr (id_of b) (N.of_nat pos) = Some (data_value x))) /\
  (* all other cells are as before *)
  (forall a, (is_Some (tc_known_ops P S c0 !! cell_opid a) \/
              forall i b, 0 < i -> h !! i = Some b -> id_of b <> cell_opid a) ->
     tc_owned P S c !! a = tc_owned P S c0 !! a /\ tc_global P S c !! a = tc_global P S c0 !! a) /\
  (* all cells *)
  (forall a x, tc_owned P S c !! a = Some x -> tc_owned P S c0 !! a = Some x \/
     exists i b, 0 < i /\ h !! i = Some b /\ id_of b = cell_opid a /\
       op_destructible_out (operation b) !! N.to_nat (cell_pos a) = Some x) /\
  (forall a x, tc_global P S c !! a = Some x -> tc_global P S c0 !! a = Some x \/
     exists i b y, 0 < i /\ h !! i = Some b /\ id_of b = cell_opid a /\
       op_immutable_out (operation b) !! N.to_nat (cell_pos a) = Some y /\ data_value y = x) /\
  (* the seal recorded for a cell: the one reported last, or recorded initially if none *)
  (forall o pos d, (exists m, tc_seal_definitions P S c !! o = Some m /\ m !! pos = Some d) <->
     (exists i b, h !! i = Some b /\ id_of b = o /\ defined_seals b !! pos = Some d /\
        forall j b', i < j -> h !! j = Some b' -> id_of b' = o -> defined_seals b' !! pos = None) \/
     (exists m, tc_seal_definitions P S c0 !! o = Some m /\ m !! pos = Some d) /\
     (forall b, b ∈ h -> id_of b = o -> defined_seals b !! pos = None)) /\
  (* the witnesses recorded: the initial ones, then those of the entries, in order *)
  (forall o, default [] (tc_witnesses P S c !! o) =
     default [] (tc_witnesses P S c0 !! o) ++
       omap (fun b => if decide (id_of b = o) then witness b else None) h) /\
  tc_codex P S c = tc_codex P S c0 /\ tc_contract_id P S c = tc_contract_id P S c0 /\
  tc_libs P S c = tc_libs P S c0.
Proof.
  intros (t' & Hrun & _)%evaluate_ok_iff h.
  destruct (ledger_after P S c0 bs t' c Hrun) as (HK & HO & HG & HS & HW & Hrest).
  fold h in HK, HO, HG, HS, HW.
  assert (forall i b, 0 < i -> h !! i = Some b -> b ∈ tail h) as Htail.
  { intros i b Hi Hb. destruct h as [|b0 h']; [done|]. destruct i as [|i]; [lia|].
    cbn in Hb. by eapply elem_of_list_lookup_2. }
  assert (forall b, b ∈ tail h -> exists i, 0 < i /\ h !! i = Some b) as Htail'.
  { intros b Hb. destruct h as [|b0 h']; [by apply elem_of_nil in Hb|].
    cbn in Hb. apply elem_of_list_lookup in Hb as [i Hi]. exists (Datatypes.S i). split; [lia|done]. }
  assert (forall o op, first_op P S o (tail h) = Some op ->
    exists i b, 0 < i /\ h !! i = Some b /\ id_of b = o /\ operation b = op) as Hfirst.
  { intros o op (b & Hb & Hid & Hop)%first_op_elem. apply Htail' in Hb as (i & Hi & Hb). eauto 10. }
  split; [|split; [|split; [|split; [|split; [|split; [|split; [|split]]]]]]].
  - intros o op Ho. by rewrite HK, Ho.
  - intros o. rewrite HK. unfold applied_op. destruct (tc_known_ops P S c0 !! o) as [op|].
    { split; [by left|done]. }
    split.
    + intros [op Hop]. right. apply Hfirst in Hop as (i & b & ? & ? & ? & _). eauto.
    + intros [[? H]|(i & b & Hi & Hb & Hid)]; [done|].
      destruct (first_op P S o (tail h)) as [op|] eqn:Hf; [done|].
      pose proof (proj1 (first_op_None P S o (tail h)) Hf b) as Hn. exfalso. apply Hn; [|done]. by eapply Htail.
  - intros i b Hi Hb Hn Hmin.
    assert (applied_op P S c0 h (id_of b) = Some (operation b)) as Happ.
    { unfold applied_op. rewrite Hn. clear -Hi Hb Hmin. destruct h as [|b0 h']; [done|].
      destruct i as [|i]; [lia|]. cbn in Hb |- *.
      assert (forall j b', j < i -> h' !! j = Some b' -> id_of b' <> id_of b) as Hm.
      { intros j b' Hj Hb'. apply (Hmin (Datatypes.S j)); [lia|done]. }
      clear Hmin. revert i Hi Hb Hm. induction h' as [|b1 h' IH]; intros i Hi Hb Hm; [done|].
      cbn. destruct i as [|i].
      - injection Hb as ->. by rewrite decide_True.
      - rewrite decide_False by (apply (Hm 0 b1); [lia|done]).
        apply (IH i); [lia|done|]. intros j b' Hj Hb'. apply (Hm (Datatypes.S j)); [lia|done]. }
    split; [by rewrite HK, Hn|]. split.
    + intros pos x Hx. rewrite HO. cbn [cell_opid cell_pos]. by rewrite Happ, Nat2N.id, Hx.
    + intros pos x Hx. rewrite HG. cbn [cell_opid cell_pos]. by rewrite Happ, Nat2N.id, Hx.
  - intros a Ha. rewrite HO, HG.
    assert (applied_op P S c0 h (cell_opid a) = None) as ->; [|done].
    unfold applied_op. destruct (tc_known_ops P S c0 !! cell_opid a); [done|].
    destruct Ha as [[? Ha]|Ha]; [done|]. apply first_op_None. intros b Hb.
    apply Htail' in Hb as (i & Hi & Hb). by eapply Ha.
  - intros a x. rewrite HO. unfold applied_op. destruct (tc_known_ops P S c0 !! cell_opid a); [by left|].
    destruct (first_op P S (cell_opid a) (tail h)) as [op|] eqn:Hf; [|by left].
    apply Hfirst in Hf as (i & b & Hi & Hb & Hid & <-).
    destruct (op_destructible_out (operation b) !! N.to_nat (cell_pos a)) as [y|] eqn:Hy; [|by left].
    intros [= <-]. right. by exists i, b.
  - intros a x. rewrite HG. unfold applied_op. destruct (tc_known_ops P S c0 !! cell_opid a); [by left|].
    destruct (first_op P S (cell_opid a) (tail h)) as [op|] eqn:Hf; [|by left].
    apply Hfirst in Hf as (i & b & Hi & Hb & Hid & <-).
    destruct (op_immutable_out (operation b) !! N.to_nat (cell_pos a)) as [y|] eqn:Hy; cbn; [|by left].
    intros [= <-]. right. by exists i, b, y.
  - exact HS.
  - exact HW.
  - exact Hrest.
Qed.
End ledger.

(** ** C42 Determinism of verdicts between verifiers *)
Theorem C42_determinism {P : SealProtocol} {U : Ultrasonic} (A A' : ContractApi P U) {E : Type}
    (same : Contract A -> Contract A' -> Prop) :
  (* [same] contracts agree on all that can be asked *)
  (forall c c', same c c' ->
     contract_id A' c' = contract_id A c /\ codex A' c' = codex A c /\ memory A' c' = memory A c /\
     repo A' c' = repo A c /\ forall o, is_known A' c' o = is_known A c o) ->
  (* and remain so when the same is done to both *)
  (forall c c' o w, same c c' -> same (apply_witness A c o w) (apply_witness A' c' o w)) ->
  (forall c c' o m, same c c' -> same (apply_seals A c o m) (apply_seals A' c' o m)) ->
  (forall c c' v, same c c' -> same (apply_operation A c v) (apply_operation A' c' v)) ->
  forall c0 c0' bs fin c t (r : result (VerificationError P U E) unit),
  same c0 c0' ->
  evaluate A c0 bs fin = (c, t, Some r) ->
  exists c', evaluate A' c0' bs fin = (c', t, Some r) /\ same c c'.
Proof. apply determinism. Qed.

(** ** C44 Consignments as bytes *)
Section bytes.
Context {P : SealProtocol} {U : Ultrasonic} (A : ContractApi P U)
  (COp : codec Operation) (CDef : codec (SealDef P)) (CPub : codec (Published P)) (CCli : codec (Client P))
  (wfOp : Operation -> Prop) (wfDef : SealDef P -> Prop) (wfPub : Published P -> Prop) (wfCli : Client P -> Prop).
Notation C := (c_operation_seals COp CDef CPub CCli).
Notation wf := (entry_wf wfOp wfDef wfPub wfCli).

Theorem C44_byte_stream c0 :
  lawful COp wfOp -> lawful CDef wfDef -> lawful CPub wfPub -> lawful CCli wfCli ->
  (* evaluating the encoding of entries is evaluating the entries *)
  (forall bs c t r fuel, Forall wf bs -> length bs < fuel ->
     evaluate A c0 bs None = (c, t, r) ->
     exists rest, evaluate_reader A (byte_reader C) fuel c0 (concat (enc C <$> bs)) = ((c, t), rest, r)) /\
  (* cutting the encoding in the middle of an entry is evaluating the whole entries before
     it, then a stream error *)
  (forall pre b post p q c t r fuel, Forall wf (pre ++ b :: post) -> length pre < fuel ->
     enc C b = p ++ q -> p <> [] -> q <> [] ->
     evaluate A c0 pre (Some Malformed) = (c, t, r) ->
     exists rest, evaluate_reader A (byte_reader C) fuel c0 (concat (enc C <$> pre) ++ p) = ((c, t), rest, r)) /\
  (* whatever the bytes, the evaluation comes to an end, and is that of some entries followed
     by the end or by a stream error *)
  (forall l, exists bs tail, Forall wf bs /\ l = concat (enc C <$> bs) ++ tail /\
     forall c t r fuel, length l < fuel ->
     evaluate A c0 bs (if decide (tail = []) then None else Some Malformed) = (c, t, r) ->
     exists rest, evaluate_reader A (byte_reader C) fuel c0 l = ((c, t), rest, r)).
Proof.
  intros HO HD HP HC.
  pose proof (lawful_operation_seals COp CDef CPub CCli wfOp wfDef wfPub wfCli HO HD HP HC) as H.
  pose proof (entry_nonempty COp CDef CPub CCli) as Hne.
  split; [|split].
  - intros bs c t r fuel Hbs Hf Hev.
    pose proof (bytes_delivers C wf H Hne bs [] Hbs) as Hd. rewrite app_nil_r in Hd.
    refine (reader_same A (byte_reader C) c0 _ bs [] None [] fuel c t r Hd _ Hf Hev). reflexivity.
  - intros pre b post p q c t r fuel Hbs Hf Heq Hp Hq Hev.
    apply Forall_app in Hbs as [Hpre Hb]. apply Forall_cons_1 in Hb as [Hb _].
    pose proof (bytes_delivers C wf H Hne pre p Hpre) as Hd.
    pose proof (cut_ends C p (cut_malformed C wf H b p q Hb Heq Hq)) as He.
    rewrite decide_False in He by done.
    exact (reader_same A (byte_reader C) c0 _ pre p (Some Malformed) p fuel c t r Hd He Hf Hev).
  - intros l. destruct (bytes_split C wf H Hne l) as (bs & tl & Hbs & Hl & Hlen & Htl).
    exists bs, tl. split; [exact Hbs|]. split; [exact Hl|]. intros c t r fuel Hf Hev.
    pose proof (bytes_delivers C wf H Hne bs tl Hbs) as Hd. rewrite <-Hl in Hd.
    pose proof (bytes_ends C tl Htl) as He.
    refine (reader_same A (byte_reader C) c0 _ bs tl _ tl fuel c t r Hd He _ Hev). lia.
Qed.
End bytes.

(** * Concrete cases *)
Definition toy_txid : Txid := MkTxid (replicate 32 7%N).
Example C36_case :
  to_src TP def_a = Some (MkTxoSeal out_a (Noise [1%N]) : Seal TP) /\ to_src TP def_w = None /\
  resolve TP def_a toy_txid = (MkTxoSeal out_a (Noise [1%N]) : Seal TP).
Proof. split; [done|]. split; [done|]. by apply (C36_bitcoin_complete toy_bp def_a). Qed.

Example C37_case :
  resolve TP def_w toy_txid = (MkTxoSeal (MkOutpoint toy_txid 0) (Noise [5%N]) : Seal TP) /\
  resolve TP def_w toy_txid <> resolve TP def_w (MkTxid []).
Proof.
  split; [apply (C37_bitcoin_witness_output toy_bp 0 (Noise [5%N]) toy_txid)|].
  intros H. by apply (proj2 (C37_bitcoin_witness_output toy_bp 0 (Noise [5%N]) toy_txid)) in H as (_ & _ & H).
Qed.

Example C38_case :
  let d := MkWTxoSeal (Extern (MkOutpoint toy_txid 0)) (Noise [5%N]) in
  d <> def_w /\ resolve TP d toy_txid = resolve TP def_w toy_txid /\
  resolve TP d (MkTxid []) <> resolve TP def_w (MkTxid []).
Proof.
  split; [done|]. split.
  - apply (C38_bitcoin_same_seal toy_bp). split; [done|]. right. exists 0%N. by right.
  - intros H. apply (C38_bitcoin_same_seal toy_bp) in H as [_ [H|(v & [[H _]|[H H']])]]; done.
Qed.

(** Commitments of 32 bytes which are all different in the first 30 for different noise, and
    the same if only the last two bytes differ. *)
Definition bp_39 : BpCore := {|
  Tx := ToyTx; Anchor := gmap N bytes; MmbMessage := bytes; BpSealError := ToySealError;
  txid_of := tx_id;
  commit_id := fun d => match wseal_secondary d with
                        | Noise (n :: m :: _) => replicate 29 5%N ++ [(n mod 256)%N; (m mod 256)%N; 9%N]
                        | _ => replicate 32 255%N
                        end;
  bp_message := fun m => m; wtxo_to_string := fun _ => ""%string; bp_verify := toy_verify_from |}.
Example C39_case :
  (forall d, byte_range (commit_id bp_39 d) /\ length (commit_id bp_39 d) = 32) /\
  auth_token (bitcoin bp_39) (MkWTxoSeal (Wout 0) (Noise [1%N; 2%N])) =
    auth_token (bitcoin bp_39) (MkWTxoSeal (Wout 0) (Noise [1%N; 3%N])) /\
  auth_token (bitcoin bp_39) (MkWTxoSeal (Wout 0) (Noise [1%N; 2%N])) <>
    auth_token (bitcoin bp_39) (MkWTxoSeal (Wout 0) (Noise [2%N; 2%N])).
Proof.
  assert (forall d, byte_range (commit_id bp_39 d) /\ length (commit_id bp_39 d) = 32) as H.
  { intros [p [[|n [|m l]]|o]].
    1,2,4: split; [apply (Forall_replicate _ 32); lia|done].
    split; [|done]. apply Forall_app. split; [apply (Forall_replicate _ 29); lia|].
    constructor; [by apply N.mod_lt|]. constructor; [by apply N.mod_lt|]. constructor; [lia|constructor]. }
  split; [exact H|]. destruct (C39_auth_token bp_39 H) as [Heq _]. split.
  - apply Heq. intros i Hi. do 30 (destruct i as [|i]; [reflexivity|]). lia.
  - intros Ht. apply (proj1 (Heq _ _)) with (i := 29) in Ht; [|lia]. discriminate Ht.
Qed.

(** Codecs for the types of Concrete.v *)
Definition c_sum {X Y Z} (inl' : X -> Z) (inr' : Y -> Z) (f : Z -> X + Y) (C : codec X) (D : codec Y) : codec Z := {|
  enc := fun z => match f z with inl x => 0%N :: enc C x | inr y => 1%N :: enc D y end;
  dec := fun l => match l with
                  | 0%N :: r => match dec C r with None => None | Some (x, r') => Some (inl' x, r') end
                  | 1%N :: r => match dec D r with None => None | Some (y, r') => Some (inr' y, r') end
                  | _ => None
                  end |}.
Lemma lawful_sum {X Y Z} inl' inr' f (C : codec X) (D : codec Y) (wfX : X -> Prop) (wfY : Y -> Prop) :
  (forall z : Z, match f z with inl x => inl' x = z | inr y => inr' y = z end) ->
  (forall x, f (inl' x) = inl x) -> (forall y, f (inr' y) = inr y) ->
  lawful C wfX -> lawful D wfY ->
  lawful (c_sum inl' inr' f C D) (fun z => match f z with inl x => wfX x | inr y => wfY y end).
Proof.
  intros Hz Hx Hy [C1 C2] [D1 D2]. split.
  - intros z r H. cbn. specialize (Hz z). destruct (f z) as [x|y]; cbn; [rewrite C1|rewrite D1]; congruence.
  - intros [|[|[n|n|]] l] z r; cbn; try done.
    + destruct (dec C l) as [[x r']|] eqn:E; [|done]. intros [= <- ->]. apply C2 in E as [Hw ->]. by rewrite Hx.
    + destruct (dec D l) as [[y r']|] eqn:E; [|done]. intros [= <- ->]. apply D2 in E as [Hw ->]. by rewrite Hy.
Qed.

Lemma lawful_iff {X} (C : codec X) (wf wf' : X -> Prop) :
  (forall x, wf x <-> wf' x) -> lawful C wf -> lawful C wf'.
Proof.
  intros H [H1 H2]. split.
  - intros x r Hx. apply H1, H, Hx.
  - intros l x r Hd. apply H2 in Hd as [Hx ->]. split; [by apply H|done].
Qed.

Notation anything := (fun _ => True).
Lemma lawful_any : lawful c_any anything.
Proof. split; [done|]. intros [|n l] x r; cbn; [done|]. by intros [= -> ->]. Qed.
Lemma lawful_vec {X} (C : codec X) : lawful C anything -> lawful (c_vec C) anything.
Proof.
  intros H. eapply lawful_iff; [|exact (lawful_list c_any C anything anything lawful_any H)].
  intros x. split; [done|]. intros _. split; [done|]. by apply list.Forall_forall.
Qed.
Lemma lawful_pair' {X Y} (C : codec X) (D : codec Y) :
  lawful C anything -> lawful D anything -> lawful (c_pair C D) anything.
Proof. intros H H'. eapply lawful_iff; [|exact (lawful_pair _ _ _ _ H H')]. done. Qed.
Lemma lawful_iso' {X Y} (f : Y -> X) (g : X -> Y) (C : codec X) :
  (forall y, g (f y) = y) -> (forall x, f (g x) = x) -> lawful C anything -> lawful (c_iso f g C) anything.
Proof. intros H1 H2 H. by refine (lawful_iso f g C anything _ _ _). Qed.
Lemma lawful_option' {X} (C : codec X) : lawful C anything -> lawful (c_option C) anything.
Proof. intros H. eapply lawful_iff; [|exact (lawful_option _ _ H)]. by intros []. Qed.

Lemma lawful_operation : lawful c_operation anything.
Proof.
  pose proof lawful_any as Ha. pose proof (lawful_vec _ Ha) as Hv.
  assert (lawful c_addr anything) as Haddr.
  { apply lawful_iso'; [by intros [[] ?]|by intros []|]. by apply lawful_pair'. }
  apply lawful_iso'; [by intros [? [] ? ? ? ? ? ? ?]|by intros (?&?&?&?&?&?&?&?&?)|].
  repeat apply lawful_pair'; try done.
  - apply lawful_vec, lawful_iso'; [by intros []|by intros []|]. by apply lawful_pair'.
  - by apply lawful_vec.
  - apply lawful_vec, lawful_iso'; [by intros [? [] ?]|by intros (?&?&?)|].
    apply lawful_pair'; [done|]. apply lawful_pair'; [done|]. by apply lawful_option'.
  - apply lawful_vec, lawful_iso'; [by intros []|by intros []|]. apply lawful_pair'; [done|]. by apply lawful_option'.
Qed.

Definition c_outpoint : codec Outpoint :=
  c_iso (fun o => (txid_bytes (outpoint_txid o), outpoint_vout o)) (fun p => MkOutpoint (MkTxid p.1) p.2)
    (c_pair (c_vec c_any) c_any).
Lemma lawful_outpoint : lawful c_outpoint anything.
Proof.
  apply lawful_iso'; [by intros [[] ?]|by intros []|]. apply lawful_pair'; [|apply lawful_any].
  apply lawful_vec, lawful_any.
Qed.
Definition c_def : codec WTxoSeal :=
  c_iso (fun d => (wseal_primary d, wseal_secondary d)) (fun p => MkWTxoSeal p.1 p.2)
    (c_pair (c_sum Wout Extern (fun z => match z with Wout v => inl v | Extern o => inr o end) c_any c_outpoint)
            (c_sum Noise Fallback (fun z => match z with Noise v => inl v | Fallback o => inr o end) (c_vec c_any) c_outpoint)).
Lemma lawful_def : lawful c_def anything.
Proof.
  apply lawful_iso'; [by intros []|by intros []|]. apply lawful_pair'.
  - eapply lawful_iff; [|apply lawful_sum]; [| | | |exact lawful_any|exact lawful_outpoint]; cbn; try done; by intros [].
  - eapply lawful_iff; [|apply lawful_sum]; [| | | |apply lawful_vec, lawful_any|exact lawful_outpoint]; cbn; try done; by intros [].
Qed.
Definition c_bundle : codec (gmap N bytes) := c_ordmap (c_vec c_any).
Definition c_tx : codec ToyTx :=
  c_iso (fun t => ((txid_bytes (tx_id t), tx_inputs t), tx_commitment t))
    (fun p => MkToyTx (MkTxid p.1.1) p.1.2 p.2)
    (c_pair (c_pair (c_vec c_any) (c_vec c_outpoint)) c_bundle).
Definition wf_bundle : gmap N bytes -> Prop := small_map anything.
Lemma lawful_bundle : lawful c_bundle wf_bundle.
Proof. apply lawful_ordmap, lawful_vec, lawful_any. Qed.
Lemma lawful_tx : lawful c_tx (fun t => wf_bundle (tx_commitment t)).
Proof.
  eapply lawful_iff.
  2:{ refine (lawful_iso (fun t : ToyTx => ((txid_bytes (tx_id t), tx_inputs t), tx_commitment t))
        (fun p => MkToyTx (MkTxid p.1.1) p.1.2 p.2) _ _ _ _ (lawful_pair _ _ _ _
        (lawful_pair' (c_vec c_any) (c_vec c_outpoint) (lawful_vec _ lawful_any) (lawful_vec _ lawful_outpoint)) lawful_bundle)).
      - by intros [[] ? ?].
      - by intros [[] ?]. }
  intros t. cbn. naive_solver.
Qed.

Definition toy_codec : codec ToyBlock :=
  c_operation_seals (P:=TP) c_operation (c_def : codec (SealDef TP)) (c_tx : codec (Published TP)) (c_bundle : codec (Client TP)).
Definition toy_wf : ToyBlock -> Prop :=
  entry_wf (P:=TP) anything anything (fun t : Published TP => wf_bundle (tx_commitment t)) wf_bundle.

Definition small_b {X} (m : gmap N X) : bool :=
  bool_decide (N.of_nat (length (map_to_list m)) < 65536)%N &&
  forallb (fun e => bool_decide (e.1 < 65536)%N) (map_to_list m).
Lemma small_dec {X} (m : gmap N X) : small_b m = true -> small_map anything m.
Proof.
  intros [H1 H2]%andb_true_iff. apply bool_decide_eq_true in H1. split; [exact H1|].
  intros k x Hk. split; [|done]. rewrite forallb_forall in H2. specialize (H2 (k, x)).
  apply bool_decide_eq_true in H2; [exact H2|]. by apply elem_of_list_In, elem_of_map_to_list.
Qed.
Definition toy_wf_b (b : ToyBlock) : bool :=
  small_b (defined_seals b) &&
  match witness b with
  | None => true
  | Some w => small_b (tx_commitment (published w : ToyTx)) && small_b (client w : gmap N bytes)
  end.
Lemma toy_wf_dec (bs : list ToyBlock) : forallb toy_wf_b bs = true -> Forall toy_wf bs.
Proof.
  intros H. rewrite forallb_forall in H. apply list.Forall_forall. intros b Hb%elem_of_list_In.
  specialize (H b Hb). apply andb_true_iff in H as [H1 H2]. split; [done|]. split; [by apply small_dec|].
  destruct (witness b); [|done]. apply andb_true_iff in H2 as [H2 H3]. split; by apply small_dec.
Qed.

(** The entries of [scenario] with all their parts are read back. *)
Example C40_case :
  lawful c_operation anything /\ lawful c_def anything /\
  lawful c_tx (fun t => wf_bundle (tx_commitment t)) /\ lawful c_bundle wf_bundle /\
  Forall toy_wf scenario /\
  (forall b r, b ∈ scenario -> dec toy_codec (enc toy_codec b ++ r) = Some (b, r)).
Proof.
  assert (Forall toy_wf scenario) as Hwf by (apply toy_wf_dec; by vm_compute).
  split; [exact lawful_operation|]. split; [exact lawful_def|]. split; [exact lawful_tx|].
  split; [exact lawful_bundle|]. split; [exact Hwf|]. intros b r Hb.
  rewrite list.Forall_forall in Hwf.
  exact (proj1 (C40_serialization (P:=TP) _ _ _ _ _ _ _ _ lawful_operation lawful_def lawful_tx lawful_bundle)
    b r (Hwf b Hb)).
Qed.

(** ** C41: the scenario.  Operation 2 is known, its output is in memory. *)
Example C41_case :
  tc_known_ops TP toy_sonic (toy_after ledger scenario) !! id_2 = Some op_2 /\
  tc_owned TP toy_sonic (toy_after ledger scenario) !! MkCellAddr id_2 0 =
    Some (MkStateCell [] (wtxo_auth_token toy_bp def_d) None) /\
  default [] (tc_witnesses TP toy_sonic (toy_after ledger scenario) !! id_1) = [wit tx_1].
Proof.
  destruct (C41_test_ledger TP toy_sonic (E:=Empty_set) ledger (toy_after ledger scenario) scenario
    (toy_log ledger scenario) scenario_accepted) as (_ & _ & H & _ & _ & _ & _ & HW & _).
  assert (0 < 2) as H2 by lia.
  destruct (H 2 entry_2 H2 eq_refl) as (H3 & H4 & _).
  - vm_refl.
  - intros j b' Hj Hb'. assert (j = 1) as -> by lia. injection Hb' as <-.
    apply (bool_decide_unpack _). by vm_compute.
  - split; [exact H3|]. split; [exact (H4 0 _ eq_refl)|]. rewrite HW. vm_refl.
Qed.

(** ** C42: two ledgers which differ in what they recorded *)
Definition ledger' : ToyContract := tc_apply_witness TP toy_sonic ledger id_2 (wit tx_2).
Example C42_case :
  tc_witnesses TP toy_sonic ledger' !! id_2 <> tc_witnesses TP toy_sonic ledger !! id_2 /\
  exists c', toy_accepts ledger' scenario c' (toy_log ledger scenario) /\
    same_view toy_api (toy_after ledger scenario) c'.
Proof.
  split; [apply (bool_decide_unpack _); by vm_compute|].
  apply (C42_determinism toy_api toy_api (same_view toy_api)) with (c0 := ledger).
  - intros c c' (H1 & H2 & H3 & H4 & H5). split; [done|]. split; [done|]. split; [done|]. split; [done|].
    intros o. by rewrite H5.
  - intros c c' o w H. exact H.
  - intros c c' o w H. exact H.
  - exact (ledger_sufficient TP toy_sonic).
  - by repeat split.
  - exact scenario_accepted.
Qed.

(** ** C44: the bytes of the scenario; cut after 100 bytes of the second entry *)
Example C44_case :
  (exists rest, evaluate_reader toy_api (byte_reader toy_codec) 4 ledger (concat (enc toy_codec <$> scenario)) =
     ((toy_after ledger scenario, toy_log ledger scenario), rest, Some (Ok tt))) /\
  100 < length (enc toy_codec entry_1) /\
  exists c t rest, evaluate_reader toy_api (byte_reader toy_codec) 2 ledger
       (enc toy_codec entry_g ++ take 100 (enc toy_codec entry_1)) =
     ((c, t), rest, Some (Err (Stream Malformed))).
Proof.
  assert (Forall toy_wf scenario) as Hwf by (apply toy_wf_dec; by vm_compute).
  assert (100 < length (enc toy_codec entry_1)) as Hlen.
  { apply (Nat.ltb_lt 100). vm_refl. }
  destruct (C44_byte_stream toy_api _ _ _ _ _ _ _ _ ledger lawful_operation lawful_def lawful_tx lawful_bundle)
    as (H1 & H2 & _).
  split; [|split; [exact Hlen|]].
  - apply (H1 scenario (toy_after ledger scenario) (toy_log ledger scenario) (Some (Ok tt)) 4 Hwf); [cbn; lia|].
    apply (accepted_stream_type _ Empty_set), scenario_accepted.
  - exists (toy_after ledger [entry_g]), (toy_log ledger [entry_g]).
    rewrite <-(app_nil_r (enc toy_codec entry_g)).
    apply (H2 [entry_g] entry_1 [entry_2] (take 100 (enc toy_codec entry_1)) (drop 100 (enc toy_codec entry_1))
      (toy_after ledger [entry_g]) (toy_log ledger [entry_g]) (Some (Err (Stream Malformed))) 2 Hwf).
    + cbn; lia.
    + by rewrite take_drop.
    + intros Heq. apply (f_equal length) in Heq. rewrite take_length in Heq. cbn [length] in Heq. lia.
    + intros Heq. apply (f_equal length) in Heq. rewrite drop_length in Heq. cbn [length] in Heq. lia.
    + apply evaluate_iff_outcome. pose proof prefix_1_accepted as Hacc.
      apply evaluate_ok_iff in Hacc as (u & Hr & ->). exact (outcome_stream toy_api ledger [entry_g] (Some Malformed) u _ Malformed Hr eq_refl).
Qed.

Print Assumptions C36_bitcoin_complete.
Print Assumptions C37_bitcoin_witness_output.
Print Assumptions C38_bitcoin_same_seal.
Print Assumptions C39_auth_token.
Print Assumptions C40_serialization.
Print Assumptions C41_test_ledger.
Print Assumptions C42_determinism.
Print Assumptions C44_byte_stream.
