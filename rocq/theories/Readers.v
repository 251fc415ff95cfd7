(** * [evaluate] on arbitrary readers *)
From Verif Require Export Effects.
From Coq Require Import Lia.

Section readers.
Context {P : SealProtocol} {U : Ultrasonic} (A : ContractApi P U) {E : Type}.

Notation Block := (OperationSeals P).
Notation VError := (VerificationError P U E).
Notation Calls := (list (call P U)).
Notation id_of := (id_of (U:=U)).
Notation reveals := (reveals (U:=U)).
Notation live := (live (U:=U)).
Notation spends := (spends (U:=U)).
Notation message_of := (message_of (U:=U)).
Notation properly_closed := (properly_closed (U:=U)).
Notation tracks := (tracks (U:=U)).
Notation header := ([CallContractId; CallCodex] : Calls).

Implicit Types (c : Contract A) (bs pre post rest : list Block) (b : Block) (t : Calls)
  (fin : option E).

Notation accepted c0 bs c t := (evaluate A (E:=E) c0 bs None = (c, t, Some (Ok tt))).

Lemma delivers_snoc (R : ReadOperation P E) r bs r1 b r2 :
  delivers R r bs r1 -> read_operation R r1 = (r2, Ok (Some b)) -> delivers R r (bs ++ [b]) r2.
Proof.
  induction 1 as [|r b' r1 bs r' Hr _ IH]; intros Hb; cbn.
  - econstructor; [done|constructor].
  - econstructor; [done|]. by apply IH.
Qed.

Lemma delivers_app_inv (R : ReadOperation P E) r bs bs' r2 :
  delivers R r (bs ++ bs') r2 -> exists r1, delivers R r bs r1 /\ delivers R r1 bs' r2.
Proof.
  revert r. induction bs as [|b bs IH]; intros r H; cbn in H.
  - exists r. split; [constructor|done].
  - inversion H as [|? ? r1 ? ? Hr Hd]; subst. destruct (IH _ Hd) as (r1' & H1 & H2).
    exists r1'. split; [|done]. by econstructor.
Qed.

Lemma delivers_snoc_inv (R : ReadOperation P E) r bs b r2 :
  delivers R r (bs ++ [b]) r2 -> exists r1, delivers R r bs r1 /\ read_operation R r1 = (r2, Ok (Some b)).
Proof.
  intros (r1 & H1 & H2)%delivers_app_inv. exists r1. split; [done|].
  inversion H2 as [|? ? r1' ? ? Hr Hd]; subst. by inversion Hd; subst.
Qed.

(** The loop after the entries [rest] were delivered and accepted. *)
Lemma loop_delivers (R : ReadOperation P E) c0 rest r r1 n :
  delivers R r rest r1 ->
  forall bs seals c t t1 c1,
  valid_run A c0 bs t c -> tracks seals (history (contract_id A c0) bs) ->
  valid_run A c0 (bs ++ rest) t1 c1 ->
  exists seals1, tracks seals1 (history (contract_id A c0) (bs ++ rest)) /\
  evaluate_loop A (E:=E) R (length rest + n) (contract_id A c0)
      (codex_id U (codex A c0)) (is_first bs) seals r (c, header ++ t) =
  evaluate_loop A (E:=E) R n (contract_id A c0)
      (codex_id U (codex A c0)) (is_first (bs ++ rest)) seals1 r1 (c1, header ++ t1).
Proof.
  induction 1 as [r|r b r1 rest r' Hr Hd IH]; intros bs seals c t t1 c1 Hrun Ht Hrun1.
  - exists seals. rewrite app_nil_r in *.
    by destruct (valid_run_functional _ _ _ _ _ _ _ Hrun Hrun1) as [-> ->].
  - cbn [length Nat.add evaluate_loop]. rewrite Hr.
    pose proof Hrun1 as Hat. apply valid_run_at in Hat as (t2 & c2 & Hrun2 & Hv & _).
    destruct (valid_run_functional _ _ _ _ _ _ _ Hrun Hrun2) as [<- <-].
    destruct (process_block A (contract_id A c0) (codex_id U (codex A c0)) (is_first bs) seals b
                (c, (header ++ t) ++ [CallRead])) as [st [seals'|e]] eqn:Hp.
    + apply process_block_ok in Hp as (_ & -> & Ht'); [|done].
      replace false with (is_first (bs ++ [b])) by (by destruct bs).
      rewrite <-app_assoc.
      destruct (IH (bs ++ [b]) seals' (apply_calls A c (block_effects A c0 bs c b))
                  (t ++ block_calls A c0 bs c b) t1 c1) as (seals1 & Ht1 & ->).
      { by constructor. }
      { done. }
      { by rewrite <-app_assoc. }
      exists seals1. by rewrite <-app_assoc in Ht1 |- *.
    + apply process_block_err in Hp as (Hf & ->); [|done].
      exfalso. by eapply valid_not_fails.
Qed.

Lemma reader_at (R : ReadOperation P E) c0 bs r r1 n t1 c1 :
  delivers R r bs r1 ->
  valid_run A c0 bs t1 c1 ->
  exists seals1, tracks seals1 (history (contract_id A c0) bs) /\
  evaluate_reader A (E:=E) R (length bs + n) c0 r =
  evaluate_loop A (E:=E) R n (contract_id A c0)
      (codex_id U (codex A c0)) (is_first bs) seals1 r1 (c1, header ++ t1).
Proof.
  intros Hd Hrun. unfold evaluate_reader.
  apply (loop_delivers R c0 bs r r1 n Hd [] ∅ c0 [] t1 c1); [constructor|apply tracks_nil|done].
Qed.

(** All entries accepted, then the stream ends. *)
Lemma reader_end (R : ReadOperation P E) c0 bs r r1 r2 fin c t fuel :
  delivers R r bs r1 -> ends R r1 fin r2 -> accepted c0 bs c t -> length bs < fuel ->
  evaluate_reader A R fuel c0 r =
    ((c, t), r2, Some (match fin with None => Ok tt | Some e => Err (Stream e) end)).
Proof.
  intros Hd He (t' & Hrun & ->)%evaluate_ok_iff Hlt.
  replace fuel with (length bs + S (fuel - length bs - 1)) by lia.
  destruct (reader_at R c0 bs r r1 (S (fuel - length bs - 1)) t' c Hd Hrun) as (seals & _ & ->).
  cbn [evaluate_loop]. rewrite He, <-app_assoc. by destruct fin.
Qed.

(** All entries but the last are accepted, and the last one is not. *)
Lemma reader_bad (R : ReadOperation P E) c0 bs b r r1 c t c' t' (e : VError) fuel :
  delivers R r (bs ++ [b]) r1 -> accepted c0 bs c t ->
  evaluate A c0 (bs ++ [b]) None = (c', t', Some (Err e)) -> length bs < fuel ->
  evaluate_reader A R fuel c0 r = ((c', t'), r1, Some (Err e)).
Proof.
  intros Hd (t1 & Hrun & ->)%evaluate_ok_iff Hbad Hlt.
  apply delivers_snoc_inv in Hd as (r0 & Hd & Hr).
  replace fuel with (length bs + S (fuel - length bs - 1)) by lia.
  destruct (reader_at R c0 bs r r0 (S (fuel - length bs - 1)) t1 c Hd Hrun) as (seals & Ht & ->).
  cbn [evaluate_loop]. rewrite Hr.
  destruct (process_block A (contract_id A c0) (codex_id U (codex A c0)) (is_first bs) seals b
                (c, (header ++ t1) ++ [CallRead])) as [st [seals'|e']] eqn:Hp.
  - apply process_block_ok in Hp as (Hv & _ & _); [|done]. exfalso.
    pose proof (valid_run_accepted A (E:=E) c0 (bs ++ [b]) _ _ (valid_run_snoc A c0 _ _ _ _ Hrun Hv)) as H.
    rewrite Hbad in H. done.
  - apply process_block_err in Hp as (Hf & ->); [|done].
    pose proof (evaluate_fail_at A c0 bs b [] None c _ e' (valid_run_accepted A (E:=E) _ _ _ _ Hrun) Hf) as H.
    rewrite Hbad in H. injection H as -> -> ->. cbn. by rewrite <-!app_assoc.
Qed.

(** Every entry read so far is accepted: the evaluation goes on. *)
Lemma reader_goes_on (R : ReadOperation P E) c0 bs r r1 c t :
  delivers R r bs r1 -> accepted c0 bs c t ->
  exists t', t = t' ++ [CallRead] /\
  evaluate_reader A R (length bs) c0 r = ((c, t'), r1, None).
Proof.
  intros Hd (t' & Hrun & ->)%evaluate_ok_iff. exists (header ++ t'). split; [by rewrite app_assoc|].
  destruct (reader_at R c0 bs r r1 0 t' c Hd Hrun) as (seals & Ht & Heq).
  rewrite Nat.add_0_r in Heq. by rewrite Heq.
Qed.

(** These are the only cases. *)
Lemma reader_cases (R : ReadOperation P E) c0 r fuel :
  (exists bs r1 c t, length bs = fuel /\ delivers R r bs r1 /\ accepted c0 bs c t) \/
  (exists bs r1 r2 fin c t, length bs < fuel /\ delivers R r bs r1 /\ ends R r1 fin r2 /\ accepted c0 bs c t) \/
  (exists bs b r1 c t c' t' (e : VError), length bs < fuel /\ delivers R r (bs ++ [b]) r1 /\
     accepted c0 bs c t /\ evaluate A c0 (bs ++ [b]) None = (c', t', Some (Err e))).
Proof.
  induction fuel as [|fuel IH].
  - left. exists [], r, c0, [CallContractId; CallCodex; CallRead].
    split; [done|]. split; [constructor|]. apply accepted_nil.
  - destruct IH as [(bs & r1 & c & t & Hlen & Hd & Hacc)|[IH|IH]].
    + destruct (read_operation R r1) as [r2 [[b|]|e]] eqn:Hr.
      * destruct (evaluate_returns A c0 (bs ++ [b]) (None : option E)) as (c' & t' & [[]|e] & Heq).
        -- left. exists (bs ++ [b]), r2, c', t'. rewrite app_length; cbn. split; [lia|].
           split; [by eapply delivers_snoc|done].
        -- right; right. exists bs, b, r2, c, t, c', t', e. split; [lia|].
           split; [by eapply delivers_snoc|done].
      * right; left. exists bs, r1, r2, None, c, t. split; [lia|]. done.
      * right; left. exists bs, r1, r2, (Some e), c, t. split; [lia|]. done.
    + right; left. destruct IH as (bs & r1 & r2 & fin & c & t & ? & ?).
      exists bs, r1, r2, fin, c, t. split; [lia|done].
    + right; right. destruct IH as (bs & b & r1 & c & t & c' & t' & e & ? & ?).
      exists bs, b, r1, c, t, c', t', e. split; [lia|done].
Qed.

(** [script_reader] delivers its script. *)
Lemma script_delivers bs bs' fin :
  delivers (script_reader (P:=P) (E:=E)) (bs ++ bs', fin) bs (bs', fin).
Proof. induction bs as [|b bs IH]; cbn; [constructor|]. by econstructor. Qed.

Lemma script_ends fin : ends (script_reader (P:=P) (E:=E)) ([], fin) fin ([], fin).
Proof. by destruct fin. Qed.

End readers.
