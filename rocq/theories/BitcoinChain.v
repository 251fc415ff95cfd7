(** * Bitcoin seals on a chain of transactions

    src/seals.rs:83-128 with the world outside: transactions spend outpoints, and an input
    commits to a message.  That is a law about `bp-core` (`TxoSeal`, `Tx`, `Anchor`), whose
    source is not in /repo; it is a premise of the theorems.  It is meant for seals closed
    with the primary outpoint; Fallback.v has a weaker law for closings of the fallback. *)
From Verif Require Export BitcoinSeals DoubleSpend.
From Coq Require Import Lia.

Section chain.
Context (B : BpCore).
(** Input number [i] of the transaction spends the outpoint; commits to the message. *)
Context (spends : Tx B -> nat -> Outpoint -> Prop) (commits : Tx B -> nat -> MmbMessage B -> Prop).

(** What a successful verification of the closing means: for each seal there is an input
    which spends its primary outpoint and commits to the message. *)
Definition closing_spends : Prop :=
  forall tx anchor seals m s, bp_verify B tx anchor seals m = Ok tt -> s ∈ seals ->
    exists i, spends tx i (seal_primary s) /\ commits tx i m.

(** An input commits to one message. *)
Definition one_message : Prop := forall tx i m m', commits tx i m -> commits tx i m' -> m = m'.

(** No outpoint is spent by two inputs of published transactions. *)
Definition spent_once (on_chain : Tx B -> Prop) : Prop :=
  forall tx tx' i i' o, on_chain tx -> on_chain tx' -> spends tx i o -> spends tx' i' o ->
    tx = tx' /\ i = i'.

(** A witness whose transaction is on the chain. *)
Definition mined (on_chain : Tx B -> Prop) (w : SealWitness (bitcoin B)) : Prop := on_chain (published w).

(** A published transaction spends outputs only of those before it. *)
Definition ordered_chain (on_chain : Tx B -> Prop) (before : Tx B -> Tx B -> Prop) : Prop :=
  forall tx tx' i o, on_chain tx -> on_chain tx' -> spends tx' i o ->
    outpoint_txid o = txid_of B tx -> before tx tx'.

(** The entry assigns the cell at the position to the outpoint: the definition reported
    there names it, or names an output of the transaction delivered in the same entry. *)
Definition assigns (b : OperationSeals (bitcoin B)) (pos : N) (o : Outpoint) : Prop :=
  exists d : WTxoSeal, defined_seals b !! pos = Some d /\
    (wseal_primary d = Extern o \/
     exists v w, wseal_primary d = Wout v /\ witness b = Some w /\
       o = MkOutpoint (txid_of B (published w)) v).

Lemma reveals_assigns {U : Ultrasonic} (b : OperationSeals (bitcoin B)) a s :
  reveals (U:=U) b a s -> cell_opid a = id_of (U:=U) b /\ assigns b (cell_pos a) (seal_primary (s : TxoSeal)).
Proof.
  intros (Hid & d & Hd & Hs). split; [done|]. exists d. split; [done|].
  cbn in Hs. unfold wtxo_to_src, wtxo_resolve in Hs.
  destruct (wseal_primary d) as [v|o] eqn:Hp.
  - destruct Hs as [Hs|(_ & w & Hw & ->)]; [done|]. right. exists v, w. done.
  - destruct Hs as [[= <-]|[Hs _]]; [by left|done].
Qed.

Lemma assigns_functional (b : OperationSeals (bitcoin B)) pos o o' :
  assigns b pos o -> assigns b pos o' -> o = o'.
Proof.
  intros (d & Hd & H) (d' & Hd' & H'). rewrite Hd in Hd'. apply (inj Some) in Hd' as <-.
  destruct H as [H|(v & w & H & Hw & ->)], H' as [H'|(v' & w' & H' & Hw' & ->)]; congruence.
Qed.

(** ** The laws of DoubleSpend.v *)
Lemma bitcoin_single_use on_chain s :
  closing_spends -> one_message -> spent_once on_chain -> single_use (bitcoin B) (mined on_chain) s.
Proof.
  intros Hcl Hone Hso w w' l l' m m' Hp Hp' Hv Hv' Hs Hs'.
  destruct (Hcl _ _ _ _ _ Hv Hs) as (i & Hi & Hm). destruct (Hcl _ _ _ _ _ Hv' Hs') as (i' & Hi' & Hm').
  destruct (Hso _ _ _ _ _ Hp Hp' Hi Hi') as [Heq <-]. rewrite <-Heq in Hm'. by eapply Hone.
Qed.
Lemma bitcoin_closed_by_one on_chain s :
  closing_spends -> spent_once on_chain -> closed_by_one (bitcoin B) (mined on_chain) s.
Proof.
  intros Hcl Hso w w' l l' m m' Hp Hp' Hv Hv' Hs Hs'.
  destruct (Hcl _ _ _ _ _ Hv Hs) as (i & Hi & Hm). destruct (Hcl _ _ _ _ _ Hv' Hs') as (i' & Hi' & Hm').
  by destruct (Hso _ _ _ _ _ Hp Hp' Hi Hi') as [<- _].
Qed.

Context {U : Ultrasonic} (A A' : ContractApi (bitcoin B) U) {E E' : Type}.
Notation Block := (OperationSeals (bitcoin B)).

(** ** C51 *)
Lemma consumption_spends (C : ContractApi (bitcoin B) U) {F} (c0 : Contract C) bs c t i b a :
  closing_spends ->
  evaluate C (E:=F) c0 bs None = (c, t, Some (Ok tt)) ->
  let h := history (contract_id C c0) bs in
  h !! i = Some b -> consumes b a ->
  exists w n k bk o, witness b = Some w /\ spends (published w) n o /\
    commits (published w) n (message_of (U:=U) b) /\
    k < i /\ h !! k = Some bk /\ id_of (U:=U) bk = cell_opid a /\ assigns bk (cell_pos a) o /\
    forall j bj, k < j -> j < i -> h !! j = Some bj ->
      ~ consumes bj a /\ (id_of (U:=U) bj = cell_opid a -> forall o', ~ assigns bj (cell_pos a) o').
Proof.
  intros Hcl Hacc h Hi Ha.
  destruct (consumption C c0 _ _ _ _ _ _ Hacc Hi Ha) as (w & closed & s & Hw & _ & Hl & Hin & Hv).
  destruct (Hcl _ _ _ _ _ Hv Hin) as (n & Hn & Hm).
  destruct Hl as (k & bk & [Hk Hlt]%lookup_take_Some & Hr & Hlast).
  destruct (reveals_assigns _ _ _ Hr) as [Hid Has].
  exists w, n, k, bk, (seal_primary (s : TxoSeal)). split; [done|]. split; [done|]. split; [done|].
  split; [done|]. split; [done|]. split; [done|]. split; [done|].
  intros j bj Hkj Hji Hj. destruct (Hlast j bj Hkj) as [Hnc Hnr].
  { apply lookup_take_Some. done. }
  split; [done|]. intros Hidj o' (d & Hd & Ho).
  destruct Ho as [Ho|(v & w' & Ho & Hw' & _)].
  - apply (Hnr (MkTxoSeal o' (wseal_secondary d) : Seal (bitcoin B))). split; [done|]. exists d. split; [done|].
    left. cbn. unfold wtxo_to_src. by rewrite Ho.
  - apply (Hnr (wtxo_resolve d (txid_of B (published w')) : Seal (bitcoin B))). split; [done|].
    exists d. split; [done|]. right. split; [|by eauto]. cbn. unfold wtxo_to_src. by rewrite Ho.
Qed.

(** ** C52 *)
Lemma one_outpoint_one_operation (on_chain : Tx B -> Prop) (c0 : Contract A) (c0' : Contract A')
    bs bs' c (c' : Contract A') t t' i i' b b' a a' s s' :
  closing_spends -> one_message -> spent_once on_chain -> messages_differ (bitcoin B) ->
  evaluate A (E:=E) c0 bs None = (c, t, Some (Ok tt)) ->
  evaluate A' (E:=E') c0' bs' None = (c', t', Some (Ok tt)) ->
  anchored (bitcoin B) (mined on_chain) bs -> anchored (bitcoin B) (mined on_chain) bs' ->
  let h := history (contract_id A c0) bs in
  let h' := history (contract_id A' c0') bs' in
  h !! i = Some b -> consumes b a -> live (U:=U) (take i h) a s ->
  h' !! i' = Some b' -> consumes b' a' -> live (U:=U) (take i' h') a' s' ->
  seal_primary (s : TxoSeal) = seal_primary (s' : TxoSeal) ->
  id_of (U:=U) b = id_of (U:=U) b' /\
  exists w w', witness b = Some w /\ witness b' = Some w' /\ published w = published w'.
Proof.
  intros Hcl Hone Hso Hmsg Hacc Hacc' Hch Hch' h h' Hi Ha Hs Hi' Ha' Hs' Ho.
  destruct (consumption A c0 _ _ _ _ _ _ Hacc Hi Ha) as (w & closed & s1 & Hw & _ & Hl & Hin & Hv).
  destruct (consumption A' c0' _ _ _ _ _ _ Hacc' Hi' Ha') as (w' & closed' & s1' & Hw' & _ & Hl' & Hin' & Hv').
  rewrite (live_functional _ _ _ _ Hl Hs) in Hin. rewrite (live_functional _ _ _ _ Hl' Hs') in Hin'.
  destruct (Hcl _ _ _ _ _ Hv Hin) as (n & Hn & Hm). destruct (Hcl _ _ _ _ _ Hv' Hin') as (n' & Hn' & Hm').
  assert (on_chain (published w)) as Hon.
  { eapply (history_anchored (mined on_chain) (contract_id A c0) _ Hch); [|exact Hw]. by eapply elem_of_list_lookup_2. }
  assert (on_chain (published w')) as Hon'.
  { eapply (history_anchored (mined on_chain) (contract_id A' c0') _ Hch'); [|exact Hw']. by eapply elem_of_list_lookup_2. }
  rewrite <-Ho in Hn'.
  destruct (Hso _ _ _ _ _ Hon Hon' Hn Hn') as [Heq <-]. split; [|eauto].
  rewrite <-Heq in Hm'. by apply Hmsg, (Hone _ _ _ _ Hm Hm').
Qed.
End chain.
