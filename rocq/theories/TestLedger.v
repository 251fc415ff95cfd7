(** * Model of the reference ledger of the test-suite: `TestContract`,
    src/verify.rs:342-383 *)
From Verif Require Export Transform.
From Coq Require Import Lia.

(** ** The part of `ultrasonic` the ledger is used with: memory gives access to two maps
    of cells, the repository to a map of libraries, and a verified operation is the
    operation itself (`VerifiedOperation::{opid, into_operation}`, src/verify.rs:366-367). *)
Record Sonic := {
  sonic_codex : Type;
  sonic_lib : Type;
  sonic_error : Type;
  sonic_codex_id : sonic_codex -> CodexId;
  sonic_opid : Operation -> Opid;
  (** [None] is success *)
  sonic_verify : sonic_codex -> ContractId -> Operation ->
    (CellAddr -> option StateCell) -> (CellAddr -> option StateValue) ->
    (N -> option sonic_lib) -> option sonic_error
}.

Record LedgerMemory := MkLedgerMemory
  { mem_owned : gmap CellAddr StateCell; mem_global : gmap CellAddr StateValue }.

Definition sonic (S : Sonic) : Ultrasonic := {|
  Codex := sonic_codex S;
  MemoryView := LedgerMemory;
  LibRepo := gmap N (sonic_lib S);
  CallError := sonic_error S;
  VerifiedOperation := Operation;
  into_operation := fun op => op;
  codex_id := sonic_codex_id S;
  opid_of := sonic_opid S;
  codex_verify := fun k cid op m r =>
    match sonic_verify S k cid op
            (* src/verify.rs:353 *) (fun a => mem_owned m !! a)
            (* src/verify.rs:354 *) (fun a => mem_global m !! a)
            (* src/verify.rs:357 *) (fun l => r !! l) with
    | None => Ok op
    | Some e => Err e
    end
|}.

Section ledger.
(** The code fixes the protocol to bitcoin seals, the model has any. *)
Context (P : SealProtocol) (S : Sonic).

(** ** src/verify.rs:342-351.  `HashMap`s are finite maps. *)
Record TestContract := MkTestContract {
  tc_codex : sonic_codex S;
  tc_contract_id : ContractId;
  tc_libs : gmap N (sonic_lib S);
  tc_global : gmap CellAddr StateValue;
  tc_owned : gmap CellAddr StateCell;
  tc_known_ops : gmap Opid Operation;
  tc_seal_definitions : gmap Opid (gmap N (SealDef P));
  tc_witnesses : gmap Opid (list (SealWitness P))
}.

(** The loops at src/verify.rs:368-374: insert the elements of [l], numbered, as cells
    of [opid].  Simplification: `no as u16` does not wrap.  Ledger16.v has the wrapping, and
    C59 proves that up to 65536 elements it makes no difference. *)
Fixpoint insert_outputs {X} (opid : Opid) (no : N) (l : list X) (m : gmap CellAddr X)
    : gmap CellAddr X :=
  match l with
  | [] => m
  | x :: l' => insert_outputs opid (no + 1) l' (<[MkCellAddr opid no := x]> m)
  end.

(** ** src/verify.rs:365-376 *)
Definition tc_apply_operation (c : TestContract) (op : Operation) : TestContract :=
  let opid := sonic_opid S op in
  {| tc_codex := tc_codex c;
     tc_contract_id := tc_contract_id c;
     tc_libs := tc_libs c;
     tc_global := insert_outputs opid 0 (data_value <$> op_immutable_out op) (tc_global c);
     tc_owned := insert_outputs opid 0 (op_destructible_out op) (tc_owned c);
     tc_known_ops := <[opid := op]> (tc_known_ops c);
     tc_seal_definitions := tc_seal_definitions c;
     tc_witnesses := tc_witnesses c |}.

(** ** src/verify.rs:377-379; [∪] on maps prefers the left operand *)
Definition tc_apply_seals (c : TestContract) (opid : Opid) (seals : gmap N (SealDef P))
    : TestContract :=
  {| tc_codex := tc_codex c;
     tc_contract_id := tc_contract_id c;
     tc_libs := tc_libs c;
     tc_global := tc_global c;
     tc_owned := tc_owned c;
     tc_known_ops := tc_known_ops c;
     tc_seal_definitions :=
       <[opid := seals ∪ default ∅ (tc_seal_definitions c !! opid)]> (tc_seal_definitions c);
     tc_witnesses := tc_witnesses c |}.

(** ** src/verify.rs:380-382 *)
Definition tc_apply_witness (c : TestContract) (opid : Opid) (w : SealWitness P) : TestContract :=
  {| tc_codex := tc_codex c;
     tc_contract_id := tc_contract_id c;
     tc_libs := tc_libs c;
     tc_global := tc_global c;
     tc_owned := tc_owned c;
     tc_known_ops := tc_known_ops c;
     tc_seal_definitions := tc_seal_definitions c;
     tc_witnesses := <[opid := default [] (tc_witnesses c !! opid) ++ [w]]> (tc_witnesses c) |}.

(** ** src/verify.rs:359-383 *)
Definition test_ledger : ContractApi P (sonic S) := {|
  Contract := TestContract;
  contract_id := tc_contract_id;
  codex := tc_codex : TestContract -> Codex (sonic S);
  repo := tc_libs : TestContract -> LibRepo (sonic S);
  memory := (fun c => MkLedgerMemory (tc_owned c) (tc_global c)) : TestContract -> MemoryView (sonic S);
  is_known := fun c opid => bool_decide (is_Some (tc_known_ops c !! opid));
  apply_operation := tc_apply_operation : TestContract -> VerifiedOperation (sonic S) -> TestContract;
  apply_seals := tc_apply_seals;
  apply_witness := tc_apply_witness
|}.

Notation Block := (OperationSeals P).
Notation A := test_ledger.
Notation id_of := (id_of (P:=P) (U:=sonic S)).
Implicit Types (c : TestContract) (bs : list Block) (b : Block) (t : list (call P (sonic S))).

(** ** The ledger satisfies all laws of Spec.v *)
Lemma ledger_inert : records_inert A.
Proof. split; intros; by repeat split. Qed.

Lemma ledger_sufficient : view_sufficient A.
Proof.
  intros c c' v (H1 & H2 & H3 & H4 & H5). cbn in *. injection H3 as H3 H3'.
  unfold same_view; cbn. rewrite H3, H3'. split; [done|]. split; [done|]. split; [done|]. split; [done|].
  intros o. specialize (H5 o). apply bool_decide_ext.
  destruct (decide (o = sonic_opid S v)) as [->|Hne].
  - rewrite !lookup_insert. done.
  - rewrite !lookup_insert_ne by done. revert H5; repeat case_bool_decide; naive_solver.
Qed.

Lemma ledger_identity : keeps_identity A.
Proof. done. Qed.

Lemma ledger_remembers : remembers A.
Proof.
  split; [|done]. intros c v o. cbn. rewrite !bool_decide_eq_true.
  destruct (decide (o = sonic_opid S v)) as [->|Hne].
  - rewrite lookup_insert. naive_solver.
  - rewrite lookup_insert_ne by done. naive_solver.
Qed.

Lemma ledger_stays : known_stay_known A.
Proof. by split. Qed.

Lemma sonic_faithful : faithful (sonic S).
Proof. intros k cid op m r v. cbn. case_match; [done|]. by intros [= ->]. Qed.

(** ** C41: the state after an accepted evaluation *)
Lemma insert_outputs_lookup {X} opid no (l : list X) m a :
  insert_outputs opid no l m !! a =
    if decide (cell_opid a = opid /\ (no <= cell_pos a)%N /\ (cell_pos a < no + N.of_nat (length l))%N)
    then l !! N.to_nat (cell_pos a - no) else m !! a.
Proof.
  revert no m. induction l as [|x l IH]; intros no m; cbn [insert_outputs length].
  { rewrite decide_False by lia. done. }
  rewrite IH. destruct (decide (cell_opid a = opid)) as [Ho|Ho].
  2:{ rewrite !decide_False by naive_solver. rewrite lookup_insert_ne; [done|]. intros <-. done. }
  destruct (decide (cell_pos a = no)) as [Hp|Hp].
  { rewrite decide_False by lia. rewrite decide_True by (split; [tauto|lia]).
    replace a with (MkCellAddr opid no) by (destruct a; cbn in *; congruence).
    rewrite lookup_insert. cbn. by rewrite N.sub_diag. }
  rewrite lookup_insert_ne by (intros <-; done).
  destruct (decide (cell_opid a = opid /\ (no + 1 <= cell_pos a)%N /\ (cell_pos a < no + 1 + N.of_nat (length l))%N)) as [?|n].
  - rewrite decide_True by (split; [tauto|lia]).
    replace (N.to_nat (cell_pos a - no)) with (Datatypes.S (N.to_nat (cell_pos a - (no + 1)))) by lia. done.
  - rewrite decide_False; [done|]. intros (? & ? & ?). apply n. split; [done|lia].
Qed.

Lemma insert_outputs_zero {X} opid (l : list X) m a :
  insert_outputs opid 0 l m !! a =
    match (if decide (cell_opid a = opid) then l !! N.to_nat (cell_pos a) else None) with
    | Some x => Some x
    | None => m !! a
    end.
Proof.
  rewrite insert_outputs_lookup, N.sub_0_r. destruct (decide (cell_opid a = opid)) as [Ho|Ho].
  - destruct (decide (N.to_nat (cell_pos a) < length l)) as [Hlt|Hge].
    + rewrite decide_True by (split; [tauto|lia]). by apply lookup_lt_is_Some in Hlt as [x ->].
    + rewrite decide_False by lia. rewrite lookup_ge_None_2 by lia. done.
  - by rewrite decide_False by naive_solver.
Qed.


(** The operation of the first entry with id [o]. *)
Fixpoint first_op (o : Opid) (h : list Block) : option Operation :=
  match h with
  | [] => None
  | b :: h' => if decide (id_of b = o) then Some (operation b) else first_op o h'
  end.

(** The operation applied under id [o] when starting from [c0] with history [h]. *)
Definition applied_op (c0 : TestContract) (h : list Block) (o : Opid) : option Operation :=
  match tc_known_ops c0 !! o with
  | Some _ => None
  | None => first_op o (tail h)
  end.

(** Definition [d] of the cell [o]:[pos] is recorded: it is the last one reported, or was
    recorded initially and none is reported. *)
Definition recorded (c0 : TestContract) (h : list Block) (o : Opid) (pos : N) (d : SealDef P) : Prop :=
  (exists i b, h !! i = Some b /\ id_of b = o /\ defined_seals b !! pos = Some d /\
     forall j b', i < j -> h !! j = Some b' -> id_of b' = o -> defined_seals b' !! pos = None) \/
  (exists m, tc_seal_definitions c0 !! o = Some m /\ m !! pos = Some d) /\
  (forall b, b ∈ h -> id_of b = o -> defined_seals b !! pos = None).

(** The witnesses of the entries with id [o], in order. *)
Definition witnesses_of (h : list Block) (o : Opid) : list (SealWitness P) :=
  omap (fun b => if decide (id_of b = o) then witness b else None) h.

Lemma first_op_app o h h' :
  first_op o (h ++ h') = match first_op o h with Some op => Some op | None => first_op o h' end.
Proof. induction h as [|b h IH]; cbn; [done|]. by case_decide. Qed.

Lemma first_op_elem o h op :
  first_op o h = Some op -> exists b, b ∈ h /\ id_of b = o /\ operation b = op.
Proof.
  induction h as [|b h IH]; cbn; [done|]. case_decide.
  - intros [= <-]. exists b. set_solver.
  - intros (b' & ? & ?)%IH. exists b'. set_solver.
Qed.

Lemma first_op_None o h : first_op o h = None <-> forall b, b ∈ h -> id_of b <> o.
Proof.
  induction h as [|b h IH]; cbn; [set_solver|]. case_decide; [set_solver|].
  rewrite IH. set_solver.
Qed.

Lemma recorded_snoc c0 h b o pos d :
  recorded c0 (h ++ [b]) o pos d <->
  (id_of b = o /\ defined_seals b !! pos = Some d) \/
  ((id_of b = o -> defined_seals b !! pos = None) /\ recorded c0 h o pos d).
Proof.
  split.
  - intros [(i & bi & Hi & Hid & Hd & Hl)|[Hm Hall]].
    + apply lookup_app_Some in Hi as [Hi|[Hge Hi]].
      * right. split.
        { intros Ho. apply (Hl (length h)); [by eapply lookup_lt_Some| |done].
          by rewrite list_lookup_middle. }
        left. exists i, bi. split; [done|]. split; [done|]. split; [done|].
        intros j b' Hij Hj. apply (Hl j); [done|]. by apply lookup_app_l_Some.
      * apply list_lookup_singleton_Some in Hi as [_ <-]. by left.
    + right. split; [apply Hall; set_solver|]. right. split; [done|]. intros b' Hb'. apply Hall. set_solver.
  - intros [[Hid Hd]|[Hn [(i & bi & Hi & Hid & Hd & Hl)|[Hm Hall]]]].
    + left. exists (length h), b. split; [by rewrite list_lookup_middle|]. split; [done|]. split; [done|].
      intros j b' Hj Hb'. apply lookup_lt_Some in Hb'. rewrite app_length in Hb'. cbn in Hb'. lia.
    + left. exists i, bi. split; [by apply lookup_app_l_Some|]. split; [done|]. split; [done|].
      intros j b' Hij [Hj|[_ Hj]]%lookup_app_Some; [by eapply Hl|].
      by apply list_lookup_singleton_Some in Hj as [_ <-].
    + right. split; [done|]. intros b' [Hb'| ->%elem_of_list_singleton]%elem_of_app; auto.
Qed.

Lemma ledger_step c0 bs c b :
  block_valid A c0 bs c b ->
  let b' := seen (tc_contract_id c0) bs b in
  let c' := apply_calls A c (block_effects A c0 bs c b) : TestContract in
  (forall o, tc_known_ops c' !! o =
     match tc_known_ops c !! o with
     | Some op => Some op
     | None => if is_first bs then None else first_op o [b']
     end) /\
  (forall a, tc_owned c' !! a =
     match tc_known_ops c !! cell_opid a, (if is_first bs then None else first_op (cell_opid a) [b']) with
     | None, Some op =>
         match op_destructible_out op !! N.to_nat (cell_pos a) with Some x => Some x | None => tc_owned c !! a end
     | _, _ => tc_owned c !! a
     end) /\
  (forall a, tc_global c' !! a =
     match tc_known_ops c !! cell_opid a, (if is_first bs then None else first_op (cell_opid a) [b']) with
     | None, Some op =>
         match data_value <$> op_immutable_out op !! N.to_nat (cell_pos a) with
         | Some x => Some x | None => tc_global c !! a end
     | _, _ => tc_global c !! a
     end) /\
  (forall o, default ∅ (tc_seal_definitions c' !! o) =
     if decide (id_of b' = o) then defined_seals b' ∪ default ∅ (tc_seal_definitions c !! o)
     else default ∅ (tc_seal_definitions c !! o)) /\
  (forall o, default [] (tc_witnesses c' !! o) =
     default [] (tc_witnesses c !! o) ++ witnesses_of [b'] o) /\
  tc_codex c' = tc_codex c /\ tc_contract_id c' = tc_contract_id c /\ tc_libs c' = tc_libs c.
Proof.
  intros (_ & _ & _ & Hvm) b' c'.
  change (seen (contract_id A c0) bs b) with b' in Hvm.
  set (c1 := apply_calls A c (witness_calls b') : TestContract).
  set (c2 := apply_calls A c1 (operation_calls A (contract_id A c0) c (is_first bs) b') : TestContract).
  assert (c' = apply_calls A c2 (seals_calls b')) as Hc'.
  { unfold c', block_effects. by rewrite !apply_calls_app. }
  assert (tc_known_ops c1 = tc_known_ops c /\ tc_owned c1 = tc_owned c /\ tc_global c1 = tc_global c /\
    tc_seal_definitions c1 = tc_seal_definitions c /\ tc_codex c1 = tc_codex c /\
    tc_contract_id c1 = tc_contract_id c /\ tc_libs c1 = tc_libs c) as (K1 & O1 & G1 & S1 & X1 & I1 & L1).
  { unfold c1, witness_calls. by case_match. }
  assert (forall o, default [] (tc_witnesses c1 !! o) =
     default [] (tc_witnesses c !! o) ++ witnesses_of [b'] o) as W1.
  { intros o. unfold c1, witness_calls, witnesses_of. cbn. destruct (witness b') as [w|] eqn:Hw; cbn.
    - destruct (decide (sonic_opid S (operation b') = o)) as [<-|Hne]; cbn.
      + by rewrite lookup_insert.
      + by rewrite lookup_insert_ne, app_nil_r by done.
    - case_decide; cbn; by rewrite app_nil_r. }
  assert (tc_seal_definitions c2 = tc_seal_definitions c1 /\ tc_witnesses c2 = tc_witnesses c1 /\
    tc_codex c2 = tc_codex c /\ tc_contract_id c2 = tc_contract_id c /\ tc_libs c2 = tc_libs c)
    as (S2 & W2 & X2 & I2 & L2).
  { unfold c2, operation_calls. repeat case_match; done. }
  assert ((c2 = c1 /\ (is_first bs = true \/ is_Some (tc_known_ops c !! sonic_opid S (operation b')))) \/
    (is_first bs = false /\ tc_known_ops c !! sonic_opid S (operation b') = None /\ c2 = tc_apply_operation c1 (operation b')))
    as Hop.
  { unfold c2, operation_calls. destruct (is_first bs); [by left; auto|].
    destruct (is_known A c (id_of b')) eqn:Hk.
    - left. split; [done|]. right. by apply bool_decide_eq_true in Hk.
    - right. split; [done|]. pose proof Hk as Hk'. apply bool_decide_eq_false in Hk'.
      split; [by apply eq_None_not_Some|]. destruct (Hvm Hk) as [v Hv]. rewrite Hv. cbn.
      by rewrite <-(sonic_faithful _ _ _ _ _ _ Hv). }
  assert (tc_known_ops c' = tc_known_ops c2 /\ tc_owned c' = tc_owned c2 /\ tc_global c' = tc_global c2 /\
    tc_witnesses c' = tc_witnesses c2 /\ tc_codex c' = tc_codex c2 /\
    tc_contract_id c' = tc_contract_id c2 /\ tc_libs c' = tc_libs c2) as (-> & -> & -> & -> & -> & -> & ->).
  { rewrite Hc'. unfold seals_calls. by case_match. }
  split; [|split; [|split; [|split; [|split; [|done]]]]].
  - intros o. cbn. destruct Hop as [[-> Hk]|(-> & Hn & ->)].
    + rewrite K1. destruct (tc_known_ops c !! o) eqn:Ho; [done|].
      destruct (is_first bs); [done|]. destruct Hk as [|[x Hk]]; [done|].
      rewrite decide_False; [done|]. intros <-. congruence.
    + cbn. rewrite K1.
      destruct (decide (sonic_opid S (operation b') = o)) as [<-|Hne].
      * by rewrite lookup_insert, Hn.
      * rewrite lookup_insert_ne by done. by destruct (tc_known_ops c !! o).
  - intros a. cbn. destruct Hop as [[-> Hk]|(-> & Hn & ->)].
    + rewrite O1. destruct (tc_known_ops c !! cell_opid a) eqn:Ho; [done|].
      destruct (is_first bs); [done|]. destruct Hk as [|[x Hk]]; [done|].
      rewrite decide_False; [done|]. intros Heq. rewrite Heq in Hk. congruence.
    + cbn. rewrite O1, insert_outputs_zero.
      destruct (decide (sonic_opid S (operation b') = cell_opid a)) as [Heq|Hne].
      * rewrite decide_True by done. by rewrite <-Heq, Hn.
      * rewrite decide_False by done. by destruct (tc_known_ops c !! cell_opid a).
  - intros a. cbn. destruct Hop as [[-> Hk]|(-> & Hn & ->)].
    + rewrite G1. destruct (tc_known_ops c !! cell_opid a) eqn:Ho; [done|].
      destruct (is_first bs); [done|]. destruct Hk as [|[x Hk]]; [done|].
      rewrite decide_False; [done|]. intros Heq. rewrite Heq in Hk. congruence.
    + cbn. rewrite G1, insert_outputs_zero.
      destruct (decide (sonic_opid S (operation b') = cell_opid a)) as [Heq|Hne].
      * rewrite decide_True by done. by rewrite <-Heq, Hn, list_lookup_fmap.
      * rewrite decide_False by done. by destruct (tc_known_ops c !! cell_opid a).
  - intros o. rewrite Hc'. unfold seals_calls. case_decide as He.
    + rewrite He. cbn. rewrite S2, S1. case_decide; [|done]. by rewrite map_empty_union.
    + cbn. rewrite S2, S1. unfold Spec.id_of; cbn.
      destruct (decide (sonic_opid S (operation b') = o)) as [<-|Hne].
      * by rewrite lookup_insert.
      * by rewrite lookup_insert_ne.
  - intros o. by rewrite W2.
Qed.

Lemma ledger_after c0 bs t c :
  valid_run A c0 bs t c ->
  let h := history (tc_contract_id c0) bs in
  (forall o, tc_known_ops c !! o =
     match tc_known_ops c0 !! o with Some op => Some op | None => applied_op c0 h o end) /\
  (forall a, tc_owned c !! a =
     match applied_op c0 h (cell_opid a) with
     | Some op => match op_destructible_out op !! N.to_nat (cell_pos a) with
                  | Some x => Some x | None => tc_owned c0 !! a end
     | None => tc_owned c0 !! a
     end) /\
  (forall a, tc_global c !! a =
     match applied_op c0 h (cell_opid a) with
     | Some op => match data_value <$> op_immutable_out op !! N.to_nat (cell_pos a) with
                  | Some x => Some x | None => tc_global c0 !! a end
     | None => tc_global c0 !! a
     end) /\
  (forall o pos d, (exists m, tc_seal_definitions c !! o = Some m /\ m !! pos = Some d) <->
     recorded c0 h o pos d) /\
  (forall o, default [] (tc_witnesses c !! o) = default [] (tc_witnesses c0 !! o) ++ witnesses_of h o) /\
  tc_codex c = tc_codex c0 /\ tc_contract_id c = tc_contract_id c0 /\ tc_libs c = tc_libs c0.
Proof.
  intros H. cbn. induction H as [|bs t c b H IH Hv].
  { cbn. unfold applied_op; cbn. split; [|split; [|split; [|split; [|split; [|done]]]]].
    - intros o. by destruct (tc_known_ops c0 !! o).
    - intros a. by destruct (tc_known_ops c0 !! _).
    - intros a. by destruct (tc_known_ops c0 !! _).
    - intros o pos d. split.
      + intros Hm. right. split; [done|]. set_solver.
      + by intros [(i & b & ? & _)|[? _]].
    - intros o. by rewrite app_nil_r. }
  destruct IH as (IK & IO & IG & IS & IW & IX & II & IL).
  destruct (ledger_step _ _ _ _ Hv) as (K & O & G & Sd & W & X & I & L).
  rewrite history_snoc. set (b' := seen (tc_contract_id c0) bs b) in *.
  set (h := history (tc_contract_id c0) bs) in *.
  set (c' := apply_calls A c (block_effects A c0 bs c b) : TestContract) in *.
  assert (forall o, first_op o (tail (h ++ [b'])) =
    match first_op o (tail h) with
    | Some op => Some op
    | None => if is_first bs then None else first_op o [b']
    end) as Htail.
  { intros o. unfold h. destruct bs as [|b0 bs']; [done|]. cbn [history tail app is_first].
    by rewrite first_op_app. }
  split; [|split; [|split; [|split; [|split; [|split; [|split]]]]]]; try congruence.
  - intros o. rewrite K, IK. unfold applied_op. rewrite Htail. by destruct (tc_known_ops c0 !! o).
  - intros a. rewrite O, IK, IO. unfold applied_op. rewrite Htail.
    destruct (tc_known_ops c0 !! cell_opid a); [done|].
    by destruct (first_op (cell_opid a) (tail h)).
  - intros a. rewrite G, IK, IG. unfold applied_op. rewrite Htail.
    destruct (tc_known_ops c0 !! cell_opid a); [done|].
    by destruct (first_op (cell_opid a) (tail h)).
  - intros o pos d. rewrite recorded_snoc, <-IS.
    assert (forall (c : TestContract), (exists m, tc_seal_definitions c !! o = Some m /\ m !! pos = Some d) <->
      default ∅ (tc_seal_definitions c !! o) !! pos = Some d) as Hdef.
    { intros cc. destruct (tc_seal_definitions cc !! o) as [m|]; cbn; [naive_solver|].
      rewrite lookup_empty. naive_solver. }
    rewrite !Hdef, Sd. case_decide as Hid.
    + rewrite lookup_union_Some_raw. naive_solver.
    + naive_solver.
  - intros o. rewrite W, IW, <-app_assoc. f_equal. unfold witnesses_of. by rewrite omap_app.
Qed.

End ledger.
