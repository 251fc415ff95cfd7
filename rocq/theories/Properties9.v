(** * Property C55: the texts of errors *)
From Verif Require Import Messages Refine Runs Derived Concrete Scenario Counterexamples.
From stdpp Require Import pretty.
From Coq Require Import Ascii Lia.
Notation block := Verif.Concrete.block.
Local Open Scope string_scope.
Local Arguments String.append !_ _ : simpl nomatch.

Section properties.
Context {P : SealProtocol} {U : Ultrasonic} {E : Type}.
Notation VError := (VerificationError P U E).

(** The variant of an error. *)
Definition same_variant (e e' : VError) : Prop :=
  match e, e' with
  | Stream _, Stream _ | NoCodexCommitment, NoCodexCommitment | NoWitness _, NoWitness _
  | SealsNotClosed _ _ _, SealsNotClosed _ _ _ | SealUnknown _, SealUnknown _
  | SealsDefinitionMismatch _ _ _ _, SealsDefinitionMismatch _ _ _ _ | Vm _, Vm _ => True
  | _, _ => False
  end.

(** ** C55 The text of an error determines the error

    Errors of the virtual machine are printed by the machine, so nothing is said of them.
    For all others, the variant can be told from the text, whatever the texts of ids and
    nested errors are; if ids and nested errors can be told from their texts, and ids have no
    blanks and punctuation, then so can be the error, with the sets and the map in it.  The
    debug format is the same text. *)
Theorem C55_text_determines_error (T : Texts P U E) (e e' : VError) :
  ~ from_vm e -> ~ from_vm e' -> display T e = display T e' ->
  same_variant e e' /\ (readable T -> fits e -> fits e' -> e = e') /\ debug T e = display T e.
Proof.
  intros Hv Hv' H. split; [|split; [|done]].
  - destruct e, e'; try done; try (by destruct (Hv I)); try (by destruct (Hv' I));
      cbn [same_variant]; clear - H; by discriminate H.
  - intros HT Hf Hf'. by eapply display_inj.
Qed.
End properties.

Section explains.
Context {P : SealProtocol} {U : Ultrasonic} (A : ContractApi P U) {E : Type}.
Notation VError := (VerificationError P U E).
Notation id_of := (id_of (U:=U)).

(** What the user of [evaluate] learns from a text. *)
Theorem C55_text_explains (T : Texts P U E) c0 bs fin c t (e : VError) :
  readable T -> evaluate A c0 bs fin = (c, t, Some (Err e)) -> ~ from_vm e ->
  let h := history (contract_id A c0) bs in
  (forall o, display T e = "no witness known for the operation " +:+ show_opid T o +:+ "." ->
     exists b, b ∈ h /\ id_of b = o /\ witness b = None /\ inputs_of b <> []) /\
  (forall w o x, display T e = "single-use seals are not closed properly with witness " +:+ show_witness T w +:+
       " for operation " +:+ show_opid T o +:+ "." +:+ x ->
     exists b sw, b ∈ h /\ id_of b = o /\ witness b = Some sw /\ pub_id P (published sw) = w /\
       exists closed err, witness_closes sw closed (message_of (U:=U) b) = Err err) /\
  (forall o n, display T e = "unknown seal definition for cell address " +:+
       (show_opid T o +:+ ":" +:+ pretty (n : N)) +:+ "." ->
     exists i b, h !! i = Some b /\ consumes b (MkCellAddr o n) /\
       ((forall s, ~ live (U:=U) (take i h) (MkCellAddr o n) s) \/ ~ NoDup (inputs_of b))) /\
  (forall o x, display T e = "seals, reported to be defined by the operation " +:+ show_opid T o +:+
       ", do match the assignments in the operation." +:+ x ->
     exists b, b ∈ h /\ id_of b = o /\
       exists pos d, defined_seals b !! pos = Some d /\
         forall cell, cell ∈ op_destructible_out (operation b) -> cell_auth cell <> auth_token P d) /\
  (forall x, display T e = "genesis does not commit to the codex id" +:+ x ->
     exists b bs', bs = b :: bs' /\
       contract_id_bytes (op_contract_id (operation b)) <> codex_id_bytes (codex_id U (codex A c0))) /\
  (forall x, display T e = "error reading the consignment stream." +:+ x ->
     exists y, fin = Some y /\ x = newline +:+ "Details: " +:+ show_stream T y).
Proof.
  intros [R1 R2 R3 R4 R5 R6] Hev Hv h.
  apply evaluate_iff_outcome in Hev. inversion Hev as [| |pre b post t0 c1 e1 Hbs Hrun Hf]; subst.
  { split; [|split; [|split; [|split; [|split]]]]; try (intros; discriminate). intros x Hx. eexists. split; [done|].
    unfold display, paragraphs, String.concat in Hx. apply append_inj_l in Hx. by symmetry. }
  assert (h !! length pre = Some (seen (contract_id A c0) pre b)) as Hi.
  { unfold h. rewrite history_middle, lookup_app_r, history_length by (by rewrite history_length).
    by rewrite Nat.sub_diag. }
  assert (take (length pre) h = history (contract_id A c0) pre) as Htake.
  { unfold h. rewrite history_middle, take_app_le by (by rewrite history_length).
    by rewrite firstn_all2 by (by rewrite history_length). }
  pose proof (elem_of_list_lookup_2 _ _ _ Hi) as Hin.
  split; [|split; [|split; [|split; [|split]]]].
  - intros o H. destruct Hf; try (exfalso; discriminate H); try (by destruct (Hv I)).
    unfold display in H. apply append_inj_l, append_inj_r, R2 in H.
    eexists. split; [exact Hin|]. split; [done|]. destruct pre; done.
  - intros w o x H. destruct Hf as [| | | |closed w0 err H1 H2 H3 H4 H5 H6|];
      try (exfalso; discriminate H); try (by destruct (Hv I)).
    unfold display, paragraphs, String.concat in H. rewrite !append_assoc in H. apply append_inj_l in H.
    change (" for operation " +:+ ?t) with (String " "%char ("for operation " +:+ t)) in H.
    apply append_delimited in H as [Hw H]; [|by apply R6..]. apply R3 in Hw as <-.
    apply append_inj_l in H. change ("." +:+ ?t) with (String "."%char t) in H.
    apply append_delimited in H as [Ho H]; [|by apply R5..]. apply R2 in Ho as <-.
    eexists _, w0. split; [exact Hin|]. split; [done|]. split; [by destruct pre|]. split; [done|]. by eauto.
  - intros o n H. destruct Hf as [| |a H1 H2 H3| | |]; try (exfalso; discriminate H); try (by destruct (Hv I)).
    unfold display, show_cell in H. rewrite !append_assoc in H. apply append_inj_l in H.
    change (":" +:+ ?t) with (String ":"%char t) in H.
    apply append_delimited in H as [Ho H]; [|by apply R5..]. apply append_inj_r in H.
    apply (inj pretty) in H. apply R2 in Ho. destruct a as [o' n']. cbn in *. subst.
    exists (length pre). eexists. split; [exact Hi|]. rewrite Htake. destruct H3 as (k & Hk & Hns & _).
    split; [by eapply elem_of_list_lookup_2|].
    destruct (decide (MkCellAddr o n ∈ take k (inputs_of (seen (contract_id A c0) pre b)))) as [Hd|Hd].
    + right. intros Hnd. apply elem_of_take in Hd as (j & Hj & Hlt).
      assert (j = k) by (eapply NoDup_lookup; eassumption). lia.
    + left. intros s Hs. apply Hns. split; [done|]. by exists s.
  - intros o x H. destruct Hf as [|rep def H1 H2 H3| | | |]; try (exfalso; discriminate H); try (by destruct (Hv I)).
    unfold display, paragraphs, lines, String.concat in H. rewrite !append_assoc in H. apply append_inj_l in H.
    change (", do match the assignments in the" +:+ ?t) with (String ","%char (" do match the assignments in the" +:+ t)) in H.
    change (", do match the assignments in the operation." +:+ ?t) with (String ","%char (" do match the assignments in the operation." +:+ t)) in H.
    apply append_delimited in H as [Ho H]; [|by apply R5..]. apply R2 in Ho as <-.
    eexists. split; [exact Hin|]. split; [done|].
    set (b' := seen _ _ _) in *.
    destruct (map_not_Forall (fun (_ : N) d => Exists (fun cell => cell_auth cell = auth_token P d)
      (op_destructible_out (operation b'))) (defined_seals b')) as [Hn _].
    destruct Hn as (pos & d & Hd & Hex).
    + intros Hall. apply H2. intros pos d Hd. specialize (Hall pos d Hd).
      apply list.Exists_exists in Hall as (cell & ? & ?). by exists cell.
    + exists pos, d. split; [done|]. intros cell Hcell Heq. apply Hex, list.Exists_exists. by exists cell.
  - intros x H. destruct Hf as [Hc| | | | |]; try (exfalso; discriminate H); try (by destruct (Hv I)).
    destruct pre as [|b1 pre]; [|by destruct Hc]. exists b, post. split; [done|]. intros Heq. apply Hc. intros _. exact Heq.
  - intros x H. destruct Hf; try (exfalso; discriminate H); by destruct (Hv I).
Qed.
End explains.

(** *** Concrete cases *)
(** The texts which the tests expect, with the ids, tokens and nested texts of the tests
    (src/verify.rs:519, 531-553, 567, 599, 616-624). *)
Definition genesis_text : string := "k7fHvPyBlnM8m1n0QUaqNhB0I8kTwWXmi7nB_ZjTGVc".
Definition operation_text : string := "KAPb7ikgqk_ofCp1fZWm_T6XfKjuCwNf9BlZfPpoR0E".
Definition witness_text : string := "4ebd325a4b394cff8c57e8317ccf5a8d0e2bdf1b8526f8aad6c8e43d8240621a".
Definition not_included_text : string :=
  "seal 0000000000000000000000000000000000000000000000000000000000000000:0/0000000000000000000000000000000000000000000000000000000000000000:0 is not included in the public witness 4ebd325a4b394cff8c57e8317ccf5a8d0e2bdf1b8526f8aad6c8e43d8240621a".
Definition test_texts : Texts TP TU Empty_set := {|
  show_stream := fun e : Empty_set => match e with end;
  show_opid := fun o => if decide (o = genesis_id) then genesis_text else operation_text;
  show_witness := fun _ => witness_text;
  show_seal_error := fun _ => not_included_text;
  show_call_error := fun _ => ""
|}.
Definition text_of (r : option (result (VerificationError TP TU Empty_set) unit)) : string :=
  match r with Some (Err e) => display test_texts e | _ => "" end.

Example test_text_invalid_genesis :
  text_of (toy_run contract [block (with_contract_id (MkContractId [173%N]) genesis) [] None]) =
  "genesis does not commit to the codex id; a wrong contract genesis is used.".
Proof. vm_refl. Qed.
Example test_text_seal_unknown :
  text_of (toy_run contract [block (as_genesis genesis) [] None; block operation_1 [] None]) =
  "unknown seal definition for cell address k7fHvPyBlnM8m1n0QUaqNhB0I8kTwWXmi7nB_ZjTGVc:0.".
Proof. vm_refl. Qed.
Example test_text_no_witness :
  text_of (toy_run contract [block (as_genesis genesis) [(0%N, seal_1)] None; block operation_1 [] None]) =
  "no witness known for the operation KAPb7ikgqk_ofCp1fZWm_T6XfKjuCwNf9BlZfPpoR0E.".
Proof. vm_refl. Qed.
Example test_text_seals_unclosed :
  text_of (toy_run contract [block (as_genesis genesis) [(0%N, seal_1)] None;
    block operation_1 [] (Some (wit (MkToyTx (MkTxid [9%N]) [] ∅)))]) =
"single-use seals are not closed properly with witness 4ebd325a4b394cff8c57e8317ccf5a8d0e2bdf1b8526f8aad6c8e43d8240621a for operation KAPb7ikgqk_ofCp1fZWm_T6XfKjuCwNf9BlZfPpoR0E.
Details: seal 0000000000000000000000000000000000000000000000000000000000000000:0/0000000000000000000000000000000000000000000000000000000000000000:0 is not included in the public witness 4ebd325a4b394cff8c57e8317ccf5a8d0e2bdf1b8526f8aad6c8e43d8240621a".
Proof. vm_refl. Qed.
Example test_text_invalid_seals :
  display test_texts (SealsDefinitionMismatch genesis_id
    {[ MkAuthToken 0x000046c31ad97975e90e4ab2ee247f0e2f39ec8461823023e977cc14bcda14f5 ]}
    {[ MkAuthToken 0x0000141b74832b85ca7bc7e2899cc3e5617a29ac4340f09b105524a6f62bd597 ]}
    {[ 0%N := "~:0/00000000000000000000000000000000000000000000000000000000000000000000000000000000" ]}) =
"seals, reported to be defined by the operation k7fHvPyBlnM8m1n0QUaqNhB0I8kTwWXmi7nB_ZjTGVc, do match the assignments in the operation.
Actual operation seals from the assignments: {
    AuthToken(
        fe256(
            0x0000141b74832b85ca7bc7e2899cc3e5617a29ac4340f09b105524a6f62bd597,
        ),
    ),
}
Reported seals: {
    AuthToken(
        fe256(
            0x000046c31ad97975e90e4ab2ee247f0e2f39ec8461823023e977cc14bcda14f5,
        ),
    ),
}
Sources for the reported seals: {
    0: ""~:0/00000000000000000000000000000000000000000000000000000000000000000000000000000000"",
}".
Proof. vm_refl. Qed.
(** Empty and larger collections, and characters which have to be escaped. *)
Example test_text_empty : debug_tokens ∅ = "{}" /\ debug_sources ∅ = "{}".
Proof. split; vm_refl. Qed.
Example test_text_sources :
  debug_sources {[ 12%N := "a\b"; 3%N := "say ""x"""; 0%N := String "009" (String "007" newline) ]} =
"{
    0: ""\t\u{7}\n"",
    3: ""say \""x\"""",
    12: ""a\\b"",
}".
Proof. vm_refl. Qed.

(** Texts which can be read exist: print the number of anything countable. *)
Definition number_text {X} `{Countable X} (x : X) : string := pretty (N.pos (encode x)).
Lemma number_text_inj {X} `{Countable X} (x y : X) : number_text x = number_text y -> x = y.
Proof.
  intros H1. unfold number_text in H1. apply (inj (pretty (A:=N))) in H1.
  assert (encode x = encode y) as H2 by congruence. by apply (inj encode).
Qed.
Lemma number_text_plain {X} `{Countable X} c (x : X) :
  forallb (fun n => negb (bool_decide (pretty_N_char n = c))) (N.of_nat <$> seq 0 10) = true -> lacks c (number_text x).
Proof.
  intros Hc. apply lacks_pretty. intros y. apply digit_not. intros z Hz. rewrite forallb_forall in Hc.
  specialize (Hc z). apply negb_true_iff, bool_decide_eq_false in Hc; [done|].
  apply elem_of_list_In, elem_of_list_fmap. exists (N.to_nat z). split; [by rewrite N2Nat.id|].
  apply elem_of_seq. lia.
Qed.
Definition txid_number (i : Txid) : list N := txid_bytes i.
Definition outpoint_number (o : Outpoint) : list N * N := (txid_number (outpoint_txid o), outpoint_vout o).
Definition ext_number (x : TxoSealExt) : list N + (list N * N) :=
  match x with Noise n => inl n | Fallback o => inr (outpoint_number o) end.
Definition seal_error_number (e : ToySealError) : (list N * N) * (list N + (list N * N)) * list N + list N :=
  match e with
  | NotIncluded s w => inl (outpoint_number (seal_primary s), ext_number (seal_secondary s), txid_number w)
  | NotCommitted w => inr (txid_number w)
  end.
Definition number_texts : Texts TP TU nat :=
  Build_Texts (P:=TP) (U:=TU) (E:=nat) number_text number_text (fun w : Txid => number_text (txid_number w))
    (fun e : ToySealError => number_text (seal_error_number e)) (fun _ => "no").
Lemma number_texts_readable : readable number_texts.
Proof.
  assert (forall i j : Txid, txid_number i = txid_number j -> i = j) as H1.
  { intros [i] [j]. cbn. by intros ->. }
  assert (forall i j, outpoint_number i = outpoint_number j -> i = j) as H2.
  { intros [i x] [j y] [= H ->]. cbn in H. by apply H1 in H as ->. }
  split.
  - intros e e'. apply number_text_inj.
  - intros o o'. apply number_text_inj.
  - intros w w' H%number_text_inj. by apply H1.
  - intros e e' H%number_text_inj.
    destruct e as [[p x] w|w], e' as [[p' x'] w'|w']; try done; cbn in H; injection H.
    + intros Hw Hx Hp1 Hp2. apply H1 in Hw as ->. 
      assert (p = p') as -> by (apply H2; unfold outpoint_number; by f_equal).
      assert (x = x') as ->; [|done].
      destruct x, x'; try done; cbn in Hx; injection Hx; [by intros ->|]. intros Hv Ht. f_equal. apply H2.
      unfold outpoint_number. by f_equal.
    + intros Hw. by apply H1 in Hw as ->.
  - intros o. repeat split; apply number_text_plain; by vm_compute.
  - intros w. apply number_text_plain. by vm_compute.
Qed.

Example C55_case : forall o o' a,
  (display number_texts (NoWitness o) = display number_texts (NoWitness o') -> o = o') /\
  display number_texts (NoWitness o) <> display number_texts (SealUnknown a).
Proof.
  intros o o' a. split; intros H.
  - destruct (C55_text_determines_error number_texts (NoWitness o) (NoWitness o') (fun f => f) (fun f => f) H)
      as (_ & H1 & _).
    specialize (H1 number_texts_readable I I). by injection H1.
  - destruct (C55_text_determines_error number_texts (NoWitness o) (SealUnknown a) (fun f => f) (fun f => f) H)
      as [[] _].
Qed.

(** The run of the test `invalid_seals`: the text says "do match", the seals do not. *)
Example C55_says_match :
  exists c t rep def src, evaluate toy_api (E:=nat) contract [block (as_genesis genesis) [(0%N, seal_dumb)] None] None =
    (c, t, Some (Err (SealsDefinitionMismatch genesis_id rep def src))) /\
  exists b pos d, id_of (U:=TU) b = genesis_id /\ defined_seals b !! pos = Some d /\
    forall cell, cell ∈ op_destructible_out (operation b) -> cell_auth cell <> auth_token TP d.
Proof.
  set (r := evaluate _ _ _ _).
  assert (match r with (_, _, Some (Err (SealsDefinitionMismatch o _ _ _))) => bool_decide (o = genesis_id) | _ => false end = true)
    as Hr by vm_refl.
  destruct r as [[c t] [[|e]|]] eqn:He; try done. destruct e as [| | | | |o rep def src|]; try done.
  apply bool_decide_eq_true in Hr as ->.
  exists c, t, rep, def, src. split; [done|].
  destruct (C55_text_explains toy_api number_texts contract _ None c t _ number_texts_readable He) as (_ & _ & _ & H & _).
  { intros []. }
  destruct (H genesis_id _ eq_refl) as (b & _ & Hid & pos & d & Hd & Hn). by exists b, pos, d.
Qed.

(** Errors of the machine are printed by the machine: their texts may be any. *)
Example C55_vm_excluded :
  let T := Build_Texts (P:=TP) (U:=TU) (E:=Empty_set) (fun e : Empty_set => match e with end) number_text
    (fun w : Txid => number_text (txid_number w)) (fun e : ToySealError => number_text (seal_error_number e))
    (fun _ => "genesis does not commit to the codex id; a wrong contract genesis is used.") in
  display T (Vm (WrongContract : CallError TU)) = display T NoCodexCommitment.
Proof. done. Qed.

Print Assumptions C55_text_determines_error.
Print Assumptions C55_text_explains.
