(** * Two evaluations: one seal, one operation; no double spends *)
From Verif Require Export Transform.
From Coq Require Import Lia.

Lemma settled_each {P} (h : list (OperationSeals P)) : all_settled h -> Forall roots_settled h.
Proof. intros H. apply list.Forall_forall. intros b Hb Hin pos d. by apply (H b b pos d). Qed.

Section two.
Context {P : SealProtocol} {U : Ultrasonic} (A A' : ContractApi P U) {E E' : Type}.

Notation Block := (OperationSeals P).
Notation Calls := (list (call P U)).
Notation id_of := (id_of (U:=U)).
Notation reveals := (reveals (U:=U)).
Notation live := (live (U:=U)).
Notation message_of := (message_of (U:=U)).
Notation no_collisions := (no_collisions (U:=U)).

Notation accepted c0 bs c t := (evaluate A (E:=E) c0 bs None = (c, t, Some (Ok tt))).
Notation accepted' c0 bs c t := (evaluate A' (E:=E') c0 bs None = (c, t, Some (Ok tt))).

(** What an accepted consumption of a cell means. *)
Lemma consumption (B : ContractApi P U) {F : Type} (c0 : Contract B) bs c t i b a :
  evaluate B (E:=F) c0 bs None = (c, t, Some (Ok tt)) ->
  history (contract_id B c0) bs !! i = Some b -> consumes b a ->
  exists w closed s, witness b = Some w /\
    Forall2 (live (take i (history (contract_id B c0) bs))) (inputs_of b) closed /\
    live (take i (history (contract_id B c0) bs)) a s /\ s ∈ closed /\
    witness_closes w closed (message_of b) = Ok tt.
Proof.
  intros Hacc Hi Ha.
  destruct (accepted_history _ _ _ _ _ _ _ Hacc Hi) as (b0 & c1 & t1 & Hb0 & -> & _ & Hv & Hh).
  destruct Hv as (_ & _ & (closed & [_ Hl] & Hp) & _). rewrite Hh in Hl.
  apply elem_of_list_lookup in Ha as [k Hk].
  pose proof Hl as Hl'. eapply Forall2_lookup_l in Hl' as (s & Hs & Hlive); [|exact Hk].
  apply elem_of_list_lookup_2 in Hs.
  unfold properly_closed in Hp. destruct (witness (seen _ _ b0)) as [w|] eqn:Hw.
  - exists w, closed, s. done.
  - subst closed. by apply elem_of_nil in Hs.
Qed.

(** A live seal of a prefix of the history was revealed there. *)
Lemma live_revealed (h : list Block) i a s :
  live (take i h) a s -> exists k b, k < i /\ h !! k = Some b /\ reveals b a s.
Proof. intros (k & b & [Hk Hlt]%lookup_take_Some & Hr & _). eauto. Qed.

Lemma revealed_denoted (h : list Block) b a s : b ∈ h -> reveals b a s -> denoted P h s.
Proof.
  intros Hb (_ & d & Hd & Hs). exists b, (cell_pos a), d. split; [done|]. split; [done|].
  destruct Hs as [Hs|(Hs & w & Hw & ->)]; [by left|]. right. split; [done|]. by exists b, w.
Qed.

Context (on_chain : SealWitness P -> Prop).
Context (c0 : Contract A) (c0' : Contract A') (bs bs' : list Block)
  (c : Contract A) (c' : Contract A') (t t' : Calls).
Hypothesis Hacc : accepted c0 bs c t.
Hypothesis Hacc' : accepted' c0' bs' c' t'.
Notation h := (history (contract_id A c0) bs).
Notation h' := (history (contract_id A' c0') bs').

Lemma history_anchored cid (l : list Block) : anchored P on_chain l -> anchored P on_chain (history cid l).
Proof.
  intros H b w Hb Hw. destruct l as [|b0 l]; [by apply elem_of_nil in Hb|].
  cbn in Hb. apply elem_of_cons in Hb as [->|Hb].
  - apply (H b0); [by left|done].
  - apply (H b); [by right|done].
Qed.

Hypothesis Hchain : anchored P on_chain bs.
Hypothesis Hchain' : anchored P on_chain bs'.

(** ** C31 *)
Lemma one_seal_one_operation i i' b b' a a' s :
  single_use P on_chain s -> messages_differ P ->
  h !! i = Some b -> consumes b a -> live (take i h) a s ->
  h' !! i' = Some b' -> consumes b' a' -> live (take i' h') a' s ->
  id_of b = id_of b'.
Proof.
  intros Hsu Hmsg Hi Ha Hs Hi' Ha' Hs'.
  destruct (consumption A c0 _ _ _ _ _ _ Hacc Hi Ha) as (w & closed & s1 & Hw & _ & Hl & Hin & Hcl).
  destruct (consumption A' c0' _ _ _ _ _ _ Hacc' Hi' Ha') as (w' & closed' & s1' & Hw' & _ & Hl' & Hin' & Hcl').
  rewrite (live_functional _ _ _ _ Hl Hs) in Hin. rewrite (live_functional _ _ _ _ Hl' Hs') in Hin'.
  apply Hmsg. apply (Hsu w w' closed closed'); try done.
  - eapply (history_anchored _ _ Hchain); [|done]. by eapply elem_of_list_lookup_2.
  - eapply (history_anchored _ _ Hchain'); [|done]. by eapply elem_of_list_lookup_2.
Qed.

Hypothesis Hone : forall s, denoted P h s -> closed_by_one P on_chain s.
Hypothesis Hcol : no_collisions h h'.
Hypothesis Hbound : Forall positions_bound h.
Hypothesis Hbound' : Forall positions_bound h'.
Hypothesis Hroots : Forall roots_settled h.

(** ** C35 *)
Lemma seals_agree i i' b b' a s s' :
  h !! i = Some b -> reveals b a s ->
  h' !! i' = Some b' -> reveals b' a s' -> s = s'.
Proof.
  revert i' b b' a s s'. induction (lt_wf i) as [i _ IH]. intros i' b b' a s s' Hi Hr Hi' Hr'.
  destruct Hcol as [Hops Hdefs].
  pose proof (elem_of_list_lookup_2 _ _ _ Hi) as Hin. pose proof (elem_of_list_lookup_2 _ _ _ Hi') as Hin'.
  destruct Hr as (Hid & d & Hd & Hs). destruct Hr' as (Hid' & d' & Hd' & Hs').
  assert (operation b = operation b') as Hop by (apply Hops; congruence).
  assert (d = d') as <-.
  { rewrite list.Forall_forall in Hbound, Hbound'.
    destruct (Hbound _ Hin _ _ Hd) as (cell & Hc & Ht).
    destruct (Hbound' _ Hin' _ _ Hd') as (cell' & Hc' & Ht').
    eapply Hdefs; [exact Hin|exact Hin'|done|done|]. rewrite Hop in Hc. congruence. }
  destruct Hs as [Hs|(Hn & w & Hw & ->)], Hs' as [Hs'|(Hn' & w' & Hw' & ->)]; try congruence.
  f_equal.
  destruct (inputs_of b) as [|a0 ins] eqn:Hins.
  { rewrite list.Forall_forall in Hroots. specialize (Hroots _ Hin Hins _ _ Hd Hn). congruence. }
  assert (consumes b a0) as Ha0 by (unfold consumes; rewrite Hins; by left).
  assert (consumes b' a0) as Ha0' by (unfold consumes, inputs_of in *; by rewrite <-Hop).
  destruct (consumption A c0 _ _ _ _ _ _ Hacc Hi Ha0) as (w1 & closed & s1 & Hw1 & _ & Hl & Hs1 & Hcl).
  destruct (consumption A' c0' _ _ _ _ _ _ Hacc' Hi' Ha0') as (w1' & closed' & s1' & Hw1' & _ & Hl' & Hs1' & Hcl').
  simplify_eq.
  apply live_revealed in Hl as (k & bk & Hk & Hbk & Hrk).
  apply live_revealed in Hl' as (k' & bk' & Hk' & Hbk' & Hrk').
  assert (s1 = s1') as <- by (by eapply (IH k)).
  assert (denoted P h s1) as Hden by (eapply revealed_denoted; [by eapply elem_of_list_lookup_2|done]).
  eapply (Hone s1 Hden w w'); [| |exact Hcl|exact Hcl'|done|done].
  - eapply (history_anchored _ _ Hchain); done.
  - eapply (history_anchored _ _ Hchain'); done.
Qed.

(** ** C32 *)
Lemma no_double_spend i i' b b' a :
  (forall s, denoted P h s -> single_use P on_chain s) -> messages_differ P ->
  h !! i = Some b -> consumes b a -> h' !! i' = Some b' -> consumes b' a ->
  id_of b = id_of b' /\ operation b = operation b'.
Proof.
  intros Hsu Hmsg Hi Ha Hi' Ha'.
  destruct (consumption A c0 _ _ _ _ _ _ Hacc Hi Ha) as (w & closed & s & Hw & _ & Hl & Hin & Hcl).
  destruct (consumption A' c0' _ _ _ _ _ _ Hacc' Hi' Ha') as (w' & closed' & s' & Hw' & _ & Hl' & Hin' & Hcl').
  pose proof Hl as (k & bk & Hk & Hbk & Hrk)%live_revealed.
  pose proof Hl' as (k' & bk' & Hk' & Hbk' & Hrk')%live_revealed.
  assert (s = s') as <- by (by eapply seals_agree).
  assert (denoted P h s) as Hden by (eapply revealed_denoted; [by eapply elem_of_list_lookup_2|done]).
  assert (id_of b = id_of b') as Hid by (eapply (one_seal_one_operation i i' b b' a a s); eauto).
  split; [done|]. apply Hcol; [by eapply elem_of_list_lookup_2|by eapply elem_of_list_lookup_2|done].
Qed.

End two.
