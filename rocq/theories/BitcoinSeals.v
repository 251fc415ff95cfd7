(** * Model of src/seals.rs:83-128: the bitcoin implementation of [RgbSeal], [RgbSealDef] *)
From Verif Require Export Deps.
From Coq Require Import Lia.

(** ** Types of `bp-core` used by /repo (src/seals.rs:84-85, tests at 141-177) *)

(** `bp::Txid`: a newtype over 32 bytes, opaque to /repo. *)
Record Txid := MkTxid { txid_bytes : bytes }.
(** `bp::Outpoint`, built by `Outpoint::new(txid, vout)` at src/seals.rs:115. *)
Record Outpoint := MkOutpoint { outpoint_txid : Txid; outpoint_vout : N }.
(** `bp::seals::WOutpoint`, the two variants matched at src/seals.rs:114-117, 122-125. *)
Inductive WOutpoint := Wout (vout : N) | Extern (o : Outpoint).
(** `bp::seals::TxoSealExt`: the second part of a seal; only copied by /repo. *)
Inductive TxoSealExt := Noise (noise : bytes) | Fallback (o : Outpoint).
(** `bp::seals::WTxoSeal`, fields at src/seals.rs:114, 118. *)
Record WTxoSeal := MkWTxoSeal { wseal_primary : WOutpoint; wseal_secondary : TxoSealExt }.
(** `bp::seals::TxoSeal`, built at src/seals.rs:118, 126. *)
Record TxoSeal := MkTxoSeal { seal_primary : Outpoint; seal_secondary : TxoSealExt }.

Global Instance Txid_eq_dec : EqDecision Txid.
Proof. solve_decision. Defined.
Global Instance Outpoint_eq_dec : EqDecision Outpoint.
Proof. solve_decision. Defined.
Global Instance WOutpoint_eq_dec : EqDecision WOutpoint.
Proof. solve_decision. Defined.
Global Instance TxoSealExt_eq_dec : EqDecision TxoSealExt.
Proof. solve_decision. Defined.
Global Instance WTxoSeal_eq_dec : EqDecision WTxoSeal.
Proof. solve_decision. Defined.
Global Instance TxoSeal_eq_dec : EqDecision TxoSeal.
Proof. solve_decision. Defined.

(** ** Functions of the dependencies: universally quantified, no laws *)
Record BpCore := {
  (** `bp::Tx` and `bp::seals::Anchor`, src/seals.rs:92-93 *)
  Tx : Type;
  Anchor : Type;
  (** `mmb::Message` and the error of seal verification *)
  MmbMessage : Type;
  BpSealError : Type;
  (** `Tx::txid`, the `PubId` of a published witness, src/seals.rs:94 *)
  txid_of : Tx -> Txid;
  (** `CommitId::commit_id` of a seal definition, as bytes, src/seals.rs:104 *)
  commit_id : WTxoSeal -> bytes;
  bp_message : bytes -> MmbMessage;
  wtxo_to_string : WTxoSeal -> string;
  bp_verify : Tx -> Anchor -> list TxoSeal -> MmbMessage -> result BpSealError unit
}.

(** `AuthToken::from_byte_array` of `ultrasonic`: the bytes as a number, least
    significant byte first.  (None of the theorems depends on the order of bytes.) *)
Fixpoint le_number (l : bytes) : N :=
  match l with
  | [] => 0
  | b :: l' => b + 256 * le_number l'
  end%N.

(** ** src/seals.rs:103-108.  `copy_from_slice(&id[0..30])` *)
Definition wtxo_auth_token (B : BpCore) (d : WTxoSeal) : AuthToken :=
  let id := commit_id B d in
  let shortened_id := take 30 id in
  MkAuthToken (le_number shortened_id).

(** ** src/seals.rs:110-119 *)
Definition wtxo_resolve (d : WTxoSeal) (witness_id : Txid) : TxoSeal :=
  let primary := match wseal_primary d with
                 | Wout wout => MkOutpoint witness_id wout
                 | Extern outpoint => outpoint
                 end in
  MkTxoSeal primary (wseal_secondary d).

(** ** src/seals.rs:121-127 *)
Definition wtxo_to_src (d : WTxoSeal) : option TxoSeal :=
  match wseal_primary d with
  | Wout _ => None
  | Extern outpoint => Some (MkTxoSeal outpoint (wseal_secondary d))
  end.

(** ** src/seals.rs:90-98 *)
Definition bitcoin (B : BpCore) : SealProtocol := {|
  Seal := TxoSeal;
  SealDef := WTxoSeal;
  Published := Tx B;
  Client := Anchor B;
  WitnessId := Txid;
  Message := MmbMessage B;
  SealError := BpSealError B;
  auth_token := wtxo_auth_token B;
  resolve := wtxo_resolve;
  to_src := wtxo_to_src;
  def_to_string := wtxo_to_string B;
  message_from := bp_message B;
  pub_id := txid_of B;
  verify_seals_closing := bp_verify B
|}.

(** ** C36 *)
Lemma bitcoin_complete d s :
  wtxo_to_src d = Some s <->
  exists o, wseal_primary d = Extern o /\ seal_primary s = o /\ seal_secondary s = wseal_secondary d.
Proof.
  unfold wtxo_to_src. destruct (wseal_primary d) as [v|o]; split.
  - done.
  - by intros (o & ? & _).
  - intros [= <-]. eauto.
  - intros (o' & [= ->] & <- & <-). by destruct s.
Qed.

Lemma bitcoin_resolve_complete d s w : wtxo_to_src d = Some s -> wtxo_resolve d w = s.
Proof.
  unfold wtxo_to_src, wtxo_resolve. destruct (wseal_primary d); [done|]. by intros [= <-].
Qed.

Lemma bitcoin_needs_witness d :
  wtxo_to_src d = None <-> exists v, wseal_primary d = Wout v.
Proof. unfold wtxo_to_src. destruct (wseal_primary d); naive_solver. Qed.

(** ** C37 *)
Lemma bitcoin_resolve_wout d v w :
  wseal_primary d = Wout v ->
  outpoint_txid (seal_primary (wtxo_resolve d w)) = w /\
  outpoint_vout (seal_primary (wtxo_resolve d w)) = v /\
  seal_secondary (wtxo_resolve d w) = wseal_secondary d.
Proof. intros H. unfold wtxo_resolve. by rewrite H. Qed.

Lemma bitcoin_resolve_wout_inj d d' v v' w w' :
  wseal_primary d = Wout v -> wseal_primary d' = Wout v' ->
  wtxo_resolve d w = wtxo_resolve d' w' ->
  w = w' /\ d = d'.
Proof.
  intros H H'. unfold wtxo_resolve. rewrite H, H'. destruct d, d'; cbn in *.
  intros [= -> -> ->]. by subst.
Qed.

(** ** C38 *)
Lemma bitcoin_same_seal d d' w :
  wtxo_resolve d w = wtxo_resolve d' w <->
  wseal_secondary d = wseal_secondary d' /\
  (wseal_primary d = wseal_primary d' \/
   exists v, (wseal_primary d = Wout v /\ wseal_primary d' = Extern (MkOutpoint w v)) \/
             (wseal_primary d' = Wout v /\ wseal_primary d = Extern (MkOutpoint w v))).
Proof.
  unfold wtxo_resolve. destruct d as [[v|o] s], d' as [[v'|o'] s']; cbn; split.
  all: try (intros [= H1 H2]; subst; by eauto 8).
  all: naive_solver.
Qed.

(** ** C39 *)
Definition byte_range (l : bytes) : Prop := Forall (fun b => (b < 256)%N) l.

Lemma le_number_bound l : byte_range l -> (le_number l < 256 ^ N.of_nat (length l))%N.
Proof.
  induction 1 as [|b l Hb _ IH]; cbn [le_number length]; [done|].
  rewrite Nat2N.inj_succ, N.pow_succ_r'. lia.
Qed.

Lemma le_number_inj l l' :
  byte_range l -> byte_range l' -> length l = length l' -> le_number l = le_number l' -> l = l'.
Proof.
  intros H. revert l'. induction H as [|b l Hb _ IH]; intros [|b' l'] H' Hlen Heq; try done.
  apply Forall_cons_1 in H' as [Hb' H']. cbn [le_number length] in *.
  assert (b = b' /\ le_number l = le_number l') as [-> Hl].
  { assert (b = ((b + 256 * le_number l) mod 256))%N as H1.
    { rewrite N.mul_comm, N.mod_add, N.mod_small; lia. }
    assert (b' = ((b' + 256 * le_number l') mod 256))%N as H2.
    { rewrite N.mul_comm, N.mod_add, N.mod_small; lia. }
    rewrite Heq in H1. split; [congruence|]. assert (b = b') by congruence. lia. }
  f_equal. apply (IH l'); [done|lia|done].
Qed.

Lemma bitcoin_token_eq B d d' :
  byte_range (commit_id B d) -> byte_range (commit_id B d') ->
  length (commit_id B d) = 32 -> length (commit_id B d') = 32 ->
  wtxo_auth_token B d = wtxo_auth_token B d' <->
  forall i, i < 30 -> commit_id B d !! i = commit_id B d' !! i.
Proof.
  intros H H' Hlen Hlen'. unfold wtxo_auth_token. split.
  - intros [= Heq]. apply le_number_inj in Heq.
    + intros i Hi. by rewrite <-(lookup_take (commit_id B d) 30), Heq, lookup_take.
    + by apply Forall_take.
    + by apply Forall_take.
    + rewrite !take_length. lia.
  - intros Hall. do 2 f_equal. apply list_eq. intros i.
    destruct (decide (i < 30)).
    + rewrite !lookup_take; auto.
    + rewrite !lookup_take_ge; auto; lia.
Qed.

Lemma bitcoin_token_bound B d :
  byte_range (commit_id B d) ->
  (auth_token_value (wtxo_auth_token B d) < 2 ^ 240)%N.
Proof.
  intros H. unfold wtxo_auth_token. cbn [auth_token_value].
  eapply N.lt_le_trans; [apply le_number_bound; by apply Forall_take|].
  replace (2 ^ 240)%N with (256 ^ 30)%N by reflexivity.
  apply N.pow_le_mono_r; [done|]. rewrite take_length. lia.
Qed.

(** The order of the field of the VM, `FIELD_ORDER_SECP` (src/verify.rs:325, 400). *)
Definition field_order_secp : N := (2 ^ 256 - 2 ^ 32 - 977)%N.

Lemma bitcoin_token_in_field B d :
  byte_range (commit_id B d) ->
  (auth_token_value (wtxo_auth_token B d) < field_order_secp)%N.
Proof.
  intros H. eapply N.lt_trans; [by apply bitcoin_token_bound|]. done.
Qed.
