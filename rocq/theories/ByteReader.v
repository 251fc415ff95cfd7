(** * A consignment as a stream of bytes

    /repo leaves reading the stream to the implementor of [ReadOperation]
    (src/verify.rs:78-86).  The reader here is the plain one: it decodes entries with the
    derived strict decoding of [OperationSeals] (src/verify.rs:43), one after the other,
    until the end of the bytes; bytes that are no entry are an error. *)
From Verif Require Export Readers StrictCodec.
From Coq Require Import Lia.

Inductive DecodeError := Malformed.

Definition byte_reader {P : SealProtocol} (C : codec (OperationSeals P)) : ReadOperation P DecodeError := {|
  Reader := bytes;
  read_operation := fun l =>
    match l with
    | [] => ([], Ok None)
    | _ :: _ => match dec C l with
                | Some (b, r) => (r, Ok (Some b))
                | None => (l, Err Malformed)
                end
    end
|}.

Section same.
Context {P : SealProtocol} {U : Ultrasonic} (A : ContractApi P U) {E : Type}.

(** [evaluate] depends on a reader only through what it delivers. *)
Lemma loop_same (R : ReadOperation P E) r bs r1 fin r2 :
  delivers R r bs r1 -> ends R r1 fin r2 ->
  forall fuel cid kid g seals s, length bs < fuel ->
  exists r3, evaluate_loop A R fuel cid kid g seals r s =
    (let '(s', _, res) := evaluate_loop A (script_reader (P:=P) (E:=E)) (S (length bs)) cid kid g seals (bs, fin) s
     in (s', r3, res)).
Proof.
  intros Hd He. induction Hd as [r|r b r1 bs r' Hr Hd IH]; intros fuel cid kid g seals [c t] Hlt.
  - destruct fuel as [|fuel]; [lia|]. cbn [evaluate_loop]. rewrite He. exists r2. by destruct fin.
  - destruct fuel as [|fuel]; [lia|]. cbn [evaluate_loop length]. rewrite Hr.
    cbn [read_operation script_reader].
    destruct (process_block A cid kid g seals b (c, t ++ [CallRead])) as [s' [seals'|e]].
    + cbn [length] in Hlt. destruct (IH He fuel cid kid false seals' s') as [r3 H]; [lia|]. exists r3. exact H.
    + exists r1. done.
Qed.

Lemma reader_same (R : ReadOperation P E) c0 r bs r1 fin r2 fuel c t res :
  delivers R r bs r1 -> ends R r1 fin r2 -> length bs < fuel ->
  evaluate A c0 bs fin = (c, t, res) ->
  exists r3, evaluate_reader A R fuel c0 r = ((c, t), r3, res).
Proof.
  intros Hd He Hlt H. unfold evaluate, evaluate_reader in *.
  destruct (loop_same R r bs r1 fin r2 Hd He fuel (contract_id A c0) (codex_id U (codex A c0)) true ∅
    (c0, [CallContractId; CallCodex]) Hlt) as [r3 H3].
  exists r3. rewrite H3. destruct (evaluate_loop _ _ _ _ _ _ _ _ _) as [[s' ?] res']. by injection H as -> ->.
Qed.
End same.

Section bytes.
Context {P : SealProtocol} (C : codec (OperationSeals P)) (wf : OperationSeals P -> Prop).
Hypothesis HC : lawful C wf.
Hypothesis Hne : forall b, enc C b <> [].

Definition encode_entries (bs : list (OperationSeals P)) : bytes := concat (enc C <$> bs).

Lemma bytes_read b r : wf b -> read_operation (byte_reader C) (enc C b ++ r) = (r, Ok (Some b)).
Proof.
  intros Hb. pose proof (proj1 HC b r Hb) as Hd. cbn.
  destruct (enc C b ++ r) as [|x l] eqn:Heq.
  - apply app_eq_nil in Heq as [Heq _]. by apply Hne in Heq.
  - by rewrite Hd.
Qed.

Lemma bytes_delivers bs r :
  Forall wf bs -> delivers (byte_reader C) (encode_entries bs ++ r) bs r.
Proof.
  induction 1 as [|b bs Hb _ IH]; [constructor|]. cbn. unfold encode_entries in *. cbn.
  rewrite <-app_assoc. eapply delivers_cons; [by apply bytes_read|done].
Qed.

(** Every string of bytes is a sequence of entries, followed by nothing or by bytes which
    are no entry. *)
Lemma bytes_split l :
  exists bs r, Forall wf bs /\ l = encode_entries bs ++ r /\ length bs <= length l /\
    (r = [] \/ r <> [] /\ dec C r = None).
Proof.
  assert (forall n l, length l <= n -> exists bs r, Forall wf bs /\ l = encode_entries bs ++ r /\
    length bs <= length l /\ (r = [] \/ r <> [] /\ dec C r = None)) as H; [|by apply (H (length l))].
  clear l. induction n as [|n IH]; intros l Hlen.
  { exists [], []. destruct l; [|cbn in Hlen; lia]. split; [constructor|]. eauto. }
  destruct (dec C l) as [[b r]|] eqn:Hd.
  - apply (proj2 HC) in Hd as [Hb ->].
    assert (length (enc C b) <> 0) as Hb0.
    { intros H0%length_zero_iff_nil. by apply Hne in H0. }
    rewrite app_length in Hlen. destruct (IH r) as (bs & r' & Hbs & -> & Hl & Hr); [lia|].
    exists (b :: bs), r'. split; [by constructor|]. split; [|split].
    + unfold encode_entries. cbn. by rewrite app_assoc.
    + cbn [length]. rewrite app_length. lia.
    + done.
  - exists [], l. split; [constructor|]. split; [done|]. split; [cbn; lia|].
    destruct l; [by left|]. by right.
Qed.

Lemma bytes_ends r : r = [] \/ r <> [] /\ dec C r = None ->
  ends (byte_reader C) r (if decide (r = []) then None else Some Malformed) r.
Proof.
  unfold ends. intros [-> |[Hr Hd]]; cbn.
  - done.
  - rewrite decide_False by done. destruct r; [done|]. by rewrite Hd.
Qed.

(** An entry cut off in the middle is no entry. *)
Lemma cut_malformed b p q : wf b -> enc C b = p ++ q -> q <> [] -> dec C p = None.
Proof.
  intros Hb Heq Hq. destruct (dec C p) as [[b' r]|] eqn:Hd; [|done].
  apply (proj2 HC) in Hd as [Hb' ->]. exfalso.
  rewrite <-app_assoc in Heq. rewrite <-(app_nil_r (enc C b)) in Heq.
  apply (lawful_prefix_free C wf b b' [] (r ++ q) HC Hb Hb') in Heq as [-> Heq].
  symmetry in Heq. apply app_eq_nil in Heq as [_ Heq]. done.
Qed.

Lemma cut_ends p : dec C p = None ->
  ends (byte_reader C) p (if decide (p = []) then None else Some Malformed) p.
Proof. intros H. apply bytes_ends. destruct p; [by left|by right]. Qed.
End bytes.

(** The encoding of an entry is never empty. *)
Lemma entry_nonempty {P : SealProtocol} (COp : codec Operation) (CDef : codec (SealDef P))
    (CPub : codec (Published P)) (CCli : codec (Client P)) b :
  enc (c_operation_seals COp CDef CPub CCli) b <> [].
Proof. cbn. intros [_ H]%app_eq_nil. done. Qed.
