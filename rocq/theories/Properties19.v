(** * Properties, part 19: the serde form of entries (C68) *)
From Verif Require Import Serde Scenario Properties1 Properties2 Properties4.
From Coq Require Import Lia.
Notation block := Verif.Concrete.block.

(** ** C68 The serde form of consignment entries *)
Section serde.
Context {P : SealProtocol} (FOp : form Operation) (FDefs : form (gmap N (SealDef P))) (FWit : form (SealWitness P)).
Notation F := (f_operation_seals FOp FDefs FWit).
(* the values of the key [k] *)
Notation at_key k m := (snd <$> List.filter (fun e : string * value => String.eqb (fst e) k) m).

(** How an entry is written; exactly which values are read, and as which entry. *)
Theorem C68_serde :
  reads_back FOp -> reads_back FDefs -> reads_back FWit ->
  (* the layout *)
  (forall b, ser F b = VMap [("operation", ser FOp (operation b));
                             ("definedSeals", ser FDefs (defined_seals b));
                             ("witness", match witness b with None => VNull | Some w => ser FWit w end)]%string) /\
  (* an entry is read back, unless its witness is written as null *)
  (forall b, de F (ser F b) = Some b <-> forall w, witness b = Some w -> ser FWit w <> VNull) /\
  (* what is read: maps with each field, a witness being optional; or the fields in order *)
  let is_witness v o := (v = VNull /\ o = None) \/ (v <> VNull /\ exists w, de FWit v = Some w /\ o = Some w) in
  (forall v b, de F v = Some b <->
     (exists m, v = VMap m /\
        (exists v1, at_key "operation"%string m = [v1] /\ de FOp v1 = Some (operation b)) /\
        (exists v2, at_key "definedSeals"%string m = [v2] /\ de FDefs v2 = Some (defined_seals b)) /\
        ((at_key "witness"%string m = [] /\ witness b = None) \/
         (exists v3, at_key "witness"%string m = [v3] /\ is_witness v3 (witness b)))) \/
     (exists v1 v2 v3, v = VSeq [v1; v2; v3] /\
        de FOp v1 = Some (operation b) /\ de FDefs v2 = Some (defined_seals b) /\ is_witness v3 (witness b))).
Proof.
  intros HO HD HW.
  assert (forall v o, de (f_option FWit) v = Some o <->
    (v = VNull /\ o = None) \/ (v <> VNull /\ exists w, de FWit v = Some w /\ o = Some w)) as Hopt.
  { intros v o. cbn. destruct v; [|destruct (de FWit _) as [w|]; cbn; naive_solver..]. naive_solver. }
  split; [|split].
  - intros [op ds [w|]]; done.
  - intros b. rewrite <-(de_option_ser FWit (witness b) HW). split.
    + intros H. apply de_map_spec in H as (_ & _ & [[H _]|(v & H & E)]); [discriminate H|].
      injection H as <-. exact E.
    + intros H. apply de_map_spec. split; [eexists; split; [done|]; exact (HO _)|].
      split; [eexists; split; [done|]; exact (HD _)|]. right. eexists. split; [done|]. exact H.
  - intros is_witness v b. split.
    + intros H. destruct v as [| | |l|m]; [done..| |].
      * right. destruct l as [|v1 [|v2 [|v3 [|]]]]; [done..| |done]. cbn [de f_operation_seals de_entry] in H.
        destruct (de FOp v1) as [op|] eqn:E1; [|done]. destruct (de FDefs v2) as [ds|] eqn:E2; [|done].
        destruct (de (f_option FWit) v3) as [w|] eqn:E3; [|done]. injection H as <-.
        exists v1, v2, v3. split; [done|]. split; [done|]. split; [done|]. by apply Hopt.
      * left. exists m. split; [done|]. apply de_map_spec in H as (H1 & H2 & H3).
        split; [exact H1|]. split; [exact H2|].
        destruct H3 as [H3|(v3 & H3 & E3)]; [by left|]. right. exists v3. split; [exact H3|]. by apply Hopt.
    + intros [(m & -> & H1 & H2 & H3)|(v1 & v2 & v3 & -> & E1 & E2 & E3)].
      * apply de_map_spec. split; [exact H1|]. split; [exact H2|].
        destruct H3 as [H3|(v3 & H3 & E3)]; [by left|]. right. exists v3. split; [exact H3|]. by apply Hopt.
      * apply Hopt in E3. cbn [de f_operation_seals de_entry]. rewrite E1, E2, E3. by destruct b.
Qed.

(** The form is not canonical: each entry has many forms.  (Bytes are: C40.) *)
Theorem C68_not_canonical :
  (* the order of keys does not matter *)
  (forall m m', m ≡ₚ m' -> de F (VMap m) = de F (VMap m')) /\
  (* nor do other keys *)
  (forall k v m, k <> "operation"%string -> k <> "definedSeals"%string -> k <> "witness"%string ->
     de F (VMap ((k, v) :: m)) = de F (VMap m)) /\
  (* nor the key of a missing witness *)
  (forall m, at_key "witness"%string m = [] -> de F (VMap (("witness"%string, VNull) :: m)) = de F (VMap m)) /\
  (* keys can be left out *)
  (forall v1 v2 v3, de F (VSeq [v1; v2; v3]) =
     de F (VMap [("operation", v1); ("definedSeals", v2); ("witness", v3)]%string)) /\
  (* so whatever is read can be written differently *)
  (forall v b, de F v = Some b -> exists v', v' <> v /\ de F v' = Some b).
Proof.
  split; [exact (de_map_perm FOp FDefs FWit)|]. split; [exact (de_map_other FOp FDefs FWit)|].
  split; [exact (de_map_null FOp FDefs FWit)|].
  assert (forall v1 v2 v3, de F (VSeq [v1; v2; v3]) =
     de F (VMap [("operation", v1); ("definedSeals", v2); ("witness", v3)]%string)) as Hseq.
  { intros v1 v2 v3. apply option_eq. intros b. cbn [de f_operation_seals]. rewrite de_map_spec.
    replace (values_of key_operation _) with [v1] by done.
    replace (values_of key_defined_seals _) with [v2] by done.
    replace (values_of key_witness _) with [v3] by done. cbn [de_entry].
    split.
    - destruct (de FOp v1) eqn:E1; [|done]. destruct (de FDefs v2) eqn:E2; [|done].
      destruct (de (f_option FWit) v3) eqn:E3; [|done]. intros [= <-].
      split; [by exists v1|]. split; [by exists v2|]. right. by exists v3.
    - intros ((x1 & [= <-] & ->) & (x2 & [= <-] & ->) & [[[=] _]|(x3 & [= <-] & ->)]). by destruct b. }
  split; [exact Hseq|].
  intros v b H. destruct v as [| | |l|m]; [done..| |].
  - destruct l as [|v1 [|v2 [|v3 [|]]]]; [done..| |done]. rewrite Hseq in H. eexists. split; [|exact H]. done.
  - exists (VMap (("comment"%string, VNull) :: m)). split.
    + intros [= Hm]. apply (f_equal length) in Hm. cbn in Hm. lia.
    + rewrite <-H. by apply (de_map_other FOp FDefs FWit).
Qed.

(** Evaluating values one after the other is evaluating the entries read, up to the first value
    that is no entry. *)
Theorem C68_verdict {U : Ultrasonic} (A : ContractApi P U) c0 :
  (* entries in the form they are written in *)
  (reads_back FOp -> reads_back FDefs -> reads_back FWit -> (forall w, ser FWit w <> VNull) ->
   forall bs c t r fuel, length bs < fuel -> evaluate A c0 bs None = (c, t, r) ->
   exists rest, evaluate_reader A (value_reader F) fuel c0 (ser F <$> bs) = ((c, t), rest, r)) /\
  (* any values *)
  (forall pre bs rest c t r fuel,
   Forall2 (fun v b => de F v = Some b) pre bs -> (forall v, head rest = Some v -> de F v = None) ->
   length bs < fuel ->
   evaluate A c0 bs (match rest with [] => None | _ => Some Malformed end) = (c, t, r) ->
   exists rest', evaluate_reader A (value_reader F) fuel c0 (pre ++ rest) = ((c, t), rest', r)) /\
  (* all values are of this kind *)
  (forall vs, exists pre bs rest, vs = pre ++ rest /\ Forall2 (fun v b => de F v = Some b) pre bs /\
     forall v, head rest = Some v -> de F v = None).
Proof.
  assert (forall pre bs rest c t r fuel,
   Forall2 (fun v b => de F v = Some b) pre bs -> (forall v, head rest = Some v -> de F v = None) ->
   length bs < fuel ->
   evaluate A c0 bs (match rest with [] => None | _ => Some Malformed end) = (c, t, r) ->
   exists rest', evaluate_reader A (value_reader F) fuel c0 (pre ++ rest) = ((c, t), rest', r)) as Hany.
  { intros pre bs rest c t r fuel Hp Hr Hf Hev.
    refine (reader_same A (value_reader F) c0 (pre ++ rest) bs rest _ rest fuel c t r _ _ Hf Hev).
    - by apply values_deliver.
    - red. destruct rest as [|v rest]; [done|]. cbn [read_operation value_reader]. by rewrite (Hr v eq_refl). }
  split; [|split; [exact Hany|]].
  - intros HO HD HW Hn bs c t r fuel Hf Hev. rewrite <-(app_nil_r (ser F <$> bs)).
    apply (Hany (ser F <$> bs) bs [] c t r fuel); [|done|done|done].
    clear Hf Hev. induction bs as [|b bs IH]; cbn [fmap list_fmap]; constructor; [|exact IH].
    destruct (C68_serde HO HD HW) as (_ & Hb & _). apply Hb. intros w _. apply Hn.
  - intros vs. destruct (values_split F vs) as (bs & rest & _ & _ & (pre & Hvs & Hp) & Hr).
    exists pre, bs, rest. split; [done|]. split; [done|]. intros v Hv. destruct rest as [|v' rest]; [done|].
    injection Hv as ->. by apply (Hr v rest).
Qed.

End serde.

(** ** A concrete form: an object with two members for a witness; the rest as numbers *)
Definition numbers (v : value) : option (list N) :=
  match v with VSeq l => mapM (fun x => match x with VNum n => Some n | _ => None end) l | _ => None end.
Definition f_codec {X} (C : codec X) : form X := {|
  ser := fun x => VSeq (VNum <$> enc C x);
  de := fun v => match numbers v with
                 | Some l => match dec C l with Some (x, []) => Some x | _ => None end
                 | None => None
                 end
|}.
Lemma f_codec_reads {X} (C : codec X) : total C -> reads_back (f_codec C).
Proof.
  intros H x. cbn. replace (mapM _ (VNum <$> enc C x)) with (Some (enc C x)).
  - specialize (H x []). rewrite app_nil_r in H. by rewrite H.
  - symmetry. induction (enc C x) as [|n l IH]; [done|]. cbn. by rewrite IH.
Qed.
Definition c_gmap {X} (C : codec X) : codec (gmap N X) :=
  c_iso map_to_list list_to_map (c_vec (c_pair c_any C)).
Lemma total_gmap {X} (C : codec X) : total C -> total (c_gmap C).
Proof.
  intros H. apply total_iso; [intros m; apply list_to_map_to_list|].
  apply total_vec, total_pair; [apply total_any|done].
Qed.
Lemma lawful_total {X} (C : codec X) : lawful C (fun _ => True) -> total C.
Proof. intros [H _] x r. by apply H. Qed.

Definition c_toy_tx : codec ToyTx :=
  c_iso (fun t => ((txid_bytes (tx_id t), tx_inputs t), tx_commitment t))
    (fun p => MkToyTx (MkTxid p.1.1) p.1.2 p.2)
    (c_pair (c_pair (c_vec c_any) (c_vec c_outpoint)) (c_gmap (c_vec c_any))).
Lemma total_toy_tx : total c_toy_tx.
Proof.
  apply total_iso; [by intros [[] ? ?]|]. apply total_pair; [apply total_pair|].
  - apply total_vec, total_any.
  - apply total_vec, lawful_total, lawful_outpoint.
  - apply total_gmap, total_vec, total_any.
Qed.

Definition f_toy_witness : form (SealWitness TP) := {|
  ser := fun w : SealWitness TP => VMap [("published", ser (f_codec c_toy_tx) (published w : ToyTx));
                        ("client", ser (f_codec (c_gmap (c_vec c_any))) (client w : gmap N bytes))]%string;
  de := fun v => match v with
                 | VMap [(_, v1); (_, v2)] =>
                     match de (f_codec c_toy_tx) v1, de (f_codec (c_gmap (c_vec c_any))) v2 with
                     | Some x, Some y => Some (MkSealWitness (P:=TP) x y)
                     | _, _ => None
                     end
                 | _ => None
                 end
|}.
Lemma toy_witness_reads : reads_back f_toy_witness.
Proof.
  intros [x y]. unfold f_toy_witness. cbn [ser de published client].
  rewrite (f_codec_reads c_toy_tx total_toy_tx x).
  by rewrite (f_codec_reads _ (total_gmap _ (total_vec _ total_any)) y).
Qed.
Definition f_toy : form ToyBlock :=
  f_operation_seals (P:=TP) (f_codec c_operation) (f_codec (c_gmap c_def)) f_toy_witness.

Section case.
Notation FO := (f_codec c_operation).
Notation FD := (f_codec (c_gmap c_def)).
Lemma toy_reads : reads_back FO /\ reads_back FD /\ reads_back f_toy_witness.
Proof.
  split; [exact (f_codec_reads c_operation total_operation)|].
  split; [exact (f_codec_reads _ (total_gmap c_def (lawful_total _ lawful_def)))|exact toy_witness_reads].
Qed.

Definition C68_forms (o d w : string * value) : Prop :=
  snd w = VNull /\
  (exists rest, evaluate_reader toy_api (value_reader f_toy) 2 ledger
    [VMap [d; ("height", VNum 7); o]%string] =
    ((toy_after ledger [entry_g], toy_log ledger [entry_g]), rest, Some (Ok tt))) /\
  de f_toy (VMap [o; o; d; w]) = None /\ de f_toy (VMap [o; w]) = None /\
  de f_toy (VMap [o; d]) = Some entry_g /\ de f_toy (VSeq [snd o; snd d]) = None.

Lemma toy_forms v1 v2 :
  de FO v1 = Some (operation entry_g) -> de FD v2 = Some (defined_seals entry_g) ->
  C68_forms ("operation", v1)%string ("definedSeals", v2)%string ("witness", VNull)%string.
Proof.
  intros E1 E2. destruct toy_reads as (HO & HD & HW).
  destruct (C68_verdict (P:=TP) FO FD f_toy_witness toy_api ledger) as (_ & H2 & _).
  destruct (C68_serde (P:=TP) FO FD f_toy_witness HO HD HW) as (_ & _ & Hex).
  split; [done|]. split; [|split; [|split; [|split]]].
  - apply (H2 [VMap [("definedSeals", v2); ("height", VNum 7); ("operation", v1)]%string] [entry_g] []);
      [|done|cbn; lia|].
    + constructor; [|constructor]. apply Hex. left. eexists. split; [reflexivity|].
      split; [by exists v1|]. split; [by exists v2|]. by left.
    + apply (accepted_stream_type _ Empty_set). apply toy_evaluate. vm_refl.
  - destruct (de f_toy _) as [b|] eqn:E; [|done].
    apply Hex in E as [(m & [= <-] & (v & H & _) & _)|(?&?&?&[=]&_)]. discriminate H.
  - destruct (de f_toy _) as [b|] eqn:E; [|done].
    apply Hex in E as [(m & [= <-] & _ & (v & H & _) & _)|(?&?&?&[=]&_)]. discriminate H.
  - apply Hex. left. eexists. split; [reflexivity|]. split; [by exists v1|]. split; [by exists v2|]. by left.
  - done.
Qed.

(** The scenario in its serde form; a form with other keys and another order; a form with a
    repeated key, and one without definitions. *)
Example C68_case :
  (exists rest, evaluate_reader toy_api (value_reader f_toy) 4 ledger (ser f_toy <$> scenario) =
     ((toy_after ledger scenario, toy_log ledger scenario), rest, Some (Ok tt))) /\
  exists o d w, ser f_toy entry_g = VMap [o; d; w] /\ C68_forms o d w.
Proof.
  destruct toy_reads as (HO & HD & HW). split.
  - destruct (C68_verdict (P:=TP) FO FD f_toy_witness toy_api ledger) as (H1 & _).
    apply (H1 HO HD HW); [done|cbn; lia|]. apply (accepted_stream_type _ Empty_set), scenario_accepted.
  - destruct (C68_serde (P:=TP) FO FD f_toy_witness HO HD HW) as (Hl & _).
    eexists _, _, _. split; [exact (Hl entry_g)|]. exact (toy_forms _ _ (HO _) (HD _)).
Qed.
End case.

(** A witness that is written as null is lost. *)
Example C68_null_case :
  let F := f_operation_seals (P:=TP) (f_codec c_operation) (f_codec (c_gmap c_def))
             (MkForm (fun _ => VNull) (fun v => match v with VNull => Some (wit tx_1) | _ => None end)) in
  witness entry_1 = Some (wit tx_1) /\
  de F (ser F entry_1) = Some (MkOperationSeals (P:=TP) (operation entry_1) (defined_seals entry_1) None).
Proof.
  split; [done|]. apply de_map_spec.
  split; [eexists; split; [done|]; exact (f_codec_reads c_operation total_operation _)|].
  split; [eexists; split; [done|]; exact (f_codec_reads _ (total_gmap c_def (lawful_total _ lawful_def)) _)|].
  right. eexists. split; [done|]. done.
Qed.

Print Assumptions C68_serde.
Print Assumptions C68_not_canonical.
Print Assumptions C68_verdict.
Print Assumptions C68_case.
