(** * Bitcoin seals: transactions which commit to messages of several protocols

    `evaluate` hands the seals and the id of the operation over to the seal protocol
    (src/verify.rs:225-229), and nothing about the contract.  BitcoinChain.v has the law
    that an input of a transaction commits to one message.  Here the law is weaker: an
    input commits to one message for each protocol, and the client-side witness (the anchor)
    tells the protocol, as with the multi-protocol commitments named in
    doc/Commitments.md:168-177.  What a protocol is, and how the anchor tells it, is outside
    of /repo: any type and any function. *)
From Verif Require Export BitcoinChain.
From Coq Require Import Lia.

Section protocols.
Context (B : BpCore) {Protocol : Type} (protocol_of : Anchor B -> Protocol).
Context (spends : Tx B -> nat -> Outpoint -> Prop).
(** Input number [i] of the transaction commits to the message for the protocol. *)
Context (commits : Tx B -> nat -> Protocol -> MmbMessage B -> Prop).

(** What a successful verification means. *)
Definition closing_spends_for : Prop :=
  forall tx anchor seals m s, bp_verify B tx anchor seals m = Ok tt -> s ∈ seals ->
    exists i, spends tx i (seal_primary s) /\ commits tx i (protocol_of anchor) m.
(** An input commits to one message for a protocol. *)
Definition one_message_each : Prop :=
  forall tx i p m m', commits tx i p m -> commits tx i p m' -> m = m'.

(** A witness on the chain whose anchor tells the protocol [p]. *)
Definition mined_for (on_chain : Tx B -> Prop) (p : Protocol) (w : SealWitness (bitcoin B)) : Prop :=
  on_chain (published w) /\ protocol_of (client w) = p.

Lemma protocol_single_use on_chain p s :
  closing_spends_for -> one_message_each -> spent_once B spends on_chain ->
  single_use (bitcoin B) (mined_for on_chain p) s.
Proof.
  intros Hcl Hone Hso w w' l l' m m' [Hp Hx] [Hp' Hx'] Hv Hv' Hs Hs'.
  destruct (Hcl _ _ _ _ _ Hv Hs) as (i & Hi & Hm). destruct (Hcl _ _ _ _ _ Hv' Hs') as (i' & Hi' & Hm').
  destruct (Hso _ _ _ _ _ Hp Hp' Hi Hi') as [Heq <-]. rewrite <-Heq, Hx' in Hm'. rewrite Hx in Hm.
  by eapply Hone.
Qed.
Lemma protocol_closed_by_one on_chain p s :
  closing_spends_for -> spent_once B spends on_chain ->
  closed_by_one (bitcoin B) (mined_for on_chain p) s.
Proof.
  intros Hcl Hso w w' l l' m m' [Hp Hx] [Hp' Hx'] Hv Hv' Hs Hs'.
  destruct (Hcl _ _ _ _ _ Hv Hs) as (i & Hi & Hm). destruct (Hcl _ _ _ _ _ Hv' Hs') as (i' & Hi' & Hm').
  by destruct (Hso _ _ _ _ _ Hp Hp' Hi Hi') as [<- _].
Qed.

Context {U : Ultrasonic} (A A' : ContractApi (bitcoin B) U) {E E' : Type}.

(** ** C56 *)
Lemma outpoint_protocol (on_chain : Tx B -> Prop) (c0 : Contract A) (c0' : Contract A')
    bs bs' c (c' : Contract A') t t' i i' b b' a a' s s' :
  closing_spends_for -> one_message_each -> spent_once B spends on_chain -> messages_differ (bitcoin B) ->
  evaluate A (E:=E) c0 bs None = (c, t, Some (Ok tt)) ->
  evaluate A' (E:=E') c0' bs' None = (c', t', Some (Ok tt)) ->
  anchored (bitcoin B) (mined B on_chain) bs -> anchored (bitcoin B) (mined B on_chain) bs' ->
  let h := history (contract_id A c0) bs in
  let h' := history (contract_id A' c0') bs' in
  h !! i = Some b -> consumes b a -> live (U:=U) (take i h) a s ->
  h' !! i' = Some b' -> consumes b' a' -> live (U:=U) (take i' h') a' s' ->
  seal_primary (s : TxoSeal) = seal_primary (s' : TxoSeal) ->
  exists w w', witness b = Some w /\ witness b' = Some w' /\ published w = published w' /\
    (protocol_of (client w) = protocol_of (client w') -> id_of (U:=U) b = id_of (U:=U) b').
Proof.
  intros Hcl Hone Hso Hmsg Hacc Hacc' Hch Hch' h h' Hi Ha Hs Hi' Ha' Hs' Ho.
  destruct (consumption A c0 _ _ _ _ _ _ Hacc Hi Ha) as (w & closed & s1 & Hw & _ & Hl & Hin & Hv).
  destruct (consumption A' c0' _ _ _ _ _ _ Hacc' Hi' Ha') as (w' & closed' & s1' & Hw' & _ & Hl' & Hin' & Hv').
  rewrite (live_functional _ _ _ _ Hl Hs) in Hin. rewrite (live_functional _ _ _ _ Hl' Hs') in Hin'.
  destruct (Hcl _ _ _ _ _ Hv Hin) as (n & Hn & Hm). destruct (Hcl _ _ _ _ _ Hv' Hin') as (n' & Hn' & Hm').
  assert (on_chain (published w)) as Hon.
  { eapply (history_anchored (mined B on_chain) (contract_id A c0) _ Hch); [|exact Hw]. by eapply elem_of_list_lookup_2. }
  assert (on_chain (published w')) as Hon'.
  { eapply (history_anchored (mined B on_chain) (contract_id A' c0') _ Hch'); [|exact Hw']. by eapply elem_of_list_lookup_2. }
  rewrite <-Ho in Hn'.
  destruct (Hso _ _ _ _ _ Hon Hon' Hn Hn') as [Heq <-].
  exists w, w'. split; [done|]. split; [done|]. split; [done|].
  intros Hp. rewrite <-Heq, <-Hp in Hm'. by apply Hmsg, (Hone _ _ _ _ _ Hm Hm').
Qed.
End protocols.
