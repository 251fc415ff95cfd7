(** * Bitcoin seals with a fallback outpoint on a chain of transactions

    A seal has a primary outpoint and either noise or a fallback outpoint
    (field `secondary`, copied unchanged by `resolve` and `to_src`, src/seals.rs:118, 126;
    `TxoSealExt::Fallback` in the tests, lines 145-172).  What closing the fallback means is decided in `bp-core`, whose source is not
    in /repo.  BitcoinChain.v has the law that a closing spends the primary outpoint.  Here
    the law is weaker: a closing spends the primary outpoint or the fallback. *)
From Verif Require Export BitcoinChain.
From Coq Require Import Lia.

(** The outpoints of a seal. *)
Definition closes_at (s : TxoSeal) (o : Outpoint) : Prop :=
  seal_primary s = o \/ seal_secondary s = Fallback o.

Section fallback.
Context (B : BpCore).
Context (spends : Tx B -> nat -> Outpoint -> Prop) (commits : Tx B -> nat -> MmbMessage B -> Prop).

(** What a successful verification means: for each seal there is an input which spends one of
    its outpoints and commits to the message. *)
Definition closing_spends_either : Prop :=
  forall tx anchor seals m s, bp_verify B tx anchor seals m = Ok tt -> s ∈ seals ->
    exists i o, closes_at s o /\ spends tx i o /\ commits tx i m.

(** On the chain at most one outpoint of the seal is spent. *)
Definition exclusive (on_chain : Tx B -> Prop) (s : TxoSeal) : Prop :=
  forall tx tx' i i' o o', on_chain tx -> on_chain tx' -> closes_at s o -> closes_at s o' ->
    spends tx i o -> spends tx' i' o' -> o = o'.

Lemma noise_exclusive on_chain s n : seal_secondary s = Noise n -> exclusive on_chain s.
Proof. intros Hn tx tx' i i' o o' _ _ [<-|H] [<-|H'] _ _; congruence. Qed.
Lemma same_exclusive on_chain s : seal_secondary s = Fallback (seal_primary s) -> exclusive on_chain s.
Proof. intros Hn tx tx' i i' o o' _ _ [<-|H] [<-|H'] _ _; congruence. Qed.

Lemma fallback_single_use on_chain (s : TxoSeal) :
  closing_spends_either -> one_message B commits -> spent_once B spends on_chain -> exclusive on_chain s ->
  single_use (bitcoin B) (mined B on_chain) s.
Proof.
  intros Hcl Hone Hso Hex w w' l l' m m' Hp Hp' Hv Hv' Hs Hs'.
  destruct (Hcl _ _ _ _ _ Hv Hs) as (i & o & Ho & Hi & Hm).
  destruct (Hcl _ _ _ _ _ Hv' Hs') as (i' & o' & Ho' & Hi' & Hm').
  rewrite (Hex _ _ _ _ _ _ Hp Hp' Ho Ho' Hi Hi') in Hi.
  destruct (Hso _ _ _ _ _ Hp Hp' Hi Hi') as [Heq <-]. rewrite <-Heq in Hm'. by eapply Hone.
Qed.
Lemma fallback_closed_by_one on_chain (s : TxoSeal) :
  closing_spends_either -> spent_once B spends on_chain -> exclusive on_chain s ->
  closed_by_one (bitcoin B) (mined B on_chain) s.
Proof.
  intros Hcl Hso Hex w w' l l' m m' Hp Hp' Hv Hv' Hs Hs'.
  destruct (Hcl _ _ _ _ _ Hv Hs) as (i & o & Ho & Hi & Hm).
  destruct (Hcl _ _ _ _ _ Hv' Hs') as (i' & o' & Ho' & Hi' & Hm').
  rewrite (Hex _ _ _ _ _ _ Hp Hp' Ho Ho' Hi Hi') in Hi.
  by destruct (Hso _ _ _ _ _ Hp Hp' Hi Hi') as [<- _].
Qed.

(** The entry assigns the cell at the position to the outpoint, or names it as fallback. *)
Definition names (b : OperationSeals (bitcoin B)) (pos : N) (o : Outpoint) : Prop :=
  assigns B b pos o \/
  exists d : WTxoSeal, defined_seals b !! pos = Some d /\ wseal_secondary d = Fallback o.

Lemma reveals_secondary {U : Ultrasonic} (b : OperationSeals (bitcoin B)) a (s : TxoSeal) :
  reveals (P:=bitcoin B) (U:=U) b a s ->
  exists d : WTxoSeal, defined_seals b !! cell_pos a = Some d /\ wseal_secondary d = seal_secondary s.
Proof.
  intros (Hid & d & Hd & Hs). exists d. split; [done|].
  cbn in Hs. unfold wtxo_to_src, wtxo_resolve in Hs.
  destruct (wseal_primary d) as [v|o].
  - by destruct Hs as [Hs|(_ & w & Hw & ->)].
  - by destruct Hs as [[= <-]|[Hs _]].
Qed.
Lemma reveals_names {U : Ultrasonic} (b : OperationSeals (bitcoin B)) a (s : TxoSeal) o :
  reveals (P:=bitcoin B) (U:=U) b a s -> closes_at s o -> names b (cell_pos a) o.
Proof.
  intros Hr [<-|Ho].
  - left. by apply (reveals_assigns B b a s Hr).
  - right. destruct (reveals_secondary _ _ _ Hr) as (d & Hd & Hs). exists d. split; [done|congruence].
Qed.

Context {U : Ultrasonic} (A A' : ContractApi (bitcoin B) U) {E E' : Type}.

Lemma consumption_spends_either (c0 : Contract A) bs c t i b a :
  closing_spends_either ->
  evaluate A (E:=E) c0 bs None = (c, t, Some (Ok tt)) ->
  let h := history (contract_id A c0) bs in
  h !! i = Some b -> consumes b a ->
  exists w n o k bk s, witness b = Some w /\ spends (published w) n o /\
    commits (published w) n (message_of (U:=U) b) /\
    live (U:=U) (take i h) a (s : Seal (bitcoin B)) /\ closes_at s o /\
    k < i /\ h !! k = Some bk /\ id_of (U:=U) bk = cell_opid a /\ names bk (cell_pos a) o.
Proof.
  intros Hcl Hacc h Hi Ha.
  destruct (consumption A c0 _ _ _ _ _ _ Hacc Hi Ha) as (w & closed & s & Hw & _ & Hl & Hin & Hv).
  destruct (Hcl _ _ _ _ _ Hv Hin) as (n & o & Ho & Hn & Hm).
  pose proof Hl as (k & bk & Hk & Hbk & Hr)%live_revealed.
  exists w, n, o, k, bk, s. split; [done|]. split; [done|]. split; [done|]. split; [done|]. split; [done|].
  split; [done|]. split; [done|]. split; [|by eapply reveals_names]. symmetry. apply Hr.
Qed.

Lemma one_seal_either (on_chain : Tx B -> Prop) (c0 : Contract A) (c0' : Contract A')
    bs bs' c (c' : Contract A') t t' i i' b b' a a' (s : TxoSeal) :
  closing_spends_either -> one_message B commits -> spent_once B spends on_chain -> messages_differ (bitcoin B) ->
  evaluate A (E:=E) c0 bs None = (c, t, Some (Ok tt)) ->
  evaluate A' (E:=E') c0' bs' None = (c', t', Some (Ok tt)) ->
  anchored (bitcoin B) (mined B on_chain) bs -> anchored (bitcoin B) (mined B on_chain) bs' ->
  let h := history (contract_id A c0) bs in
  let h' := history (contract_id A' c0') bs' in
  h !! i = Some b -> consumes b a -> live (P:=bitcoin B) (U:=U) (take i h) a s ->
  h' !! i' = Some b' -> consumes b' a' -> live (P:=bitcoin B) (U:=U) (take i' h') a' s ->
  id_of (U:=U) b = id_of (U:=U) b' \/
  exists w w' n n' o o', witness b = Some w /\ witness b' = Some w' /\
    closes_at s o /\ closes_at s o' /\ o <> o' /\
    spends (published w) n o /\ commits (published w) n (message_of (U:=U) b) /\
    spends (published w') n' o' /\ commits (published w') n' (message_of (U:=U) b').
Proof.
  intros Hcl Hone Hso Hmsg Hacc Hacc' Hch Hch' h h' Hi Ha Hs Hi' Ha' Hs'.
  destruct (consumption A c0 _ _ _ _ _ _ Hacc Hi Ha) as (w & closed & s1 & Hw & _ & Hl & Hin & Hv).
  destruct (consumption A' c0' _ _ _ _ _ _ Hacc' Hi' Ha') as (w' & closed' & s1' & Hw' & _ & Hl' & Hin' & Hv').
  rewrite (live_functional _ _ _ _ Hl Hs) in Hin. rewrite (live_functional _ _ _ _ Hl' Hs') in Hin'.
  destruct (Hcl _ _ _ _ _ Hv Hin) as (n & o & Ho & Hn & Hm).
  destruct (Hcl _ _ _ _ _ Hv' Hin') as (n' & o' & Ho' & Hn' & Hm').
  destruct (decide (o = o')) as [<-|Hne].
  - left.
    assert (on_chain (published w)) as Hon.
    { eapply (history_anchored (mined B on_chain) (contract_id A c0) _ Hch); [|exact Hw]. by eapply elem_of_list_lookup_2. }
    assert (on_chain (published w')) as Hon'.
    { eapply (history_anchored (mined B on_chain) (contract_id A' c0') _ Hch'); [|exact Hw']. by eapply elem_of_list_lookup_2. }
    destruct (Hso _ _ _ _ _ Hon Hon' Hn Hn') as [Heq <-].
    rewrite <-Heq in Hm'. by apply Hmsg, (Hone _ _ _ _ Hm Hm').
  - right. exists w, w', n, n', o, o'. done.
Qed.
End fallback.
