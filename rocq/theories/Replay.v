(** * Records of seals and witnesses: repeated, and made in another order

    Specification and proofs for C69 and C70.  The records are the calls of `apply_seals` and
    `apply_witness` (src/verify.rs:125-137). *)
From Verif Require Export Laws Sharing.
From Coq Require Import Lia.

Section spec.
Context {P : SealProtocol} {U : Ultrasonic} (A : ContractApi P U).

Definition is_record (e : call P U) : bool :=
  match e with CallApplySeals _ _ | CallApplyWitness _ _ => true | _ => false end.
Definition records (t : list (call P U)) : list (call P U) := List.filter is_record t.

(** Records and operations are kept apart: they can be made in either order. *)
Definition records_commute : Prop :=
  forall c v e, is_record e = true ->
  apply_operation A (apply_call A c e) v = apply_call A (apply_operation A c v) e.

(** A record which is repeated later makes no difference. *)
Definition last_record_counts : Prop :=
  forall c e l, is_record e = true -> Forall (fun e => is_record e = true) l ->
  apply_calls A c (e :: l ++ [e]) = apply_calls A c (l ++ [e]).

(** The records made for entries as the contract sees them *)
Definition entry_records (b : OperationSeals P) : list (call P U) :=
  witness_calls b ++ seals_calls b.
End spec.

Section proofs.
Context {P : SealProtocol} {U : Ultrasonic} (A : ContractApi P U) {E : Type}.
Notation Calls := (list (call P U)).
Notation id_of := (id_of (U:=U)).
Notation accepted c0 bs c t := (evaluate A (E:=E) c0 bs None = (c, t, Some (Ok tt))).

Lemma records_app (t1 t2 : Calls) : records (t1 ++ t2) = records t1 ++ records t2.
Proof. apply List.filter_app. Qed.
Lemma records_of_mutations (t : Calls) :
  List.filter (fun e => negb (is_apply e)) (mutations t) = records t.
Proof. induction t as [|[] t IH]; cbn; try done; by f_equal. Qed.
Lemma records_all (t : Calls) : Forall (fun e => is_record e = true) (records t).
Proof. apply list.Forall_forall. intros e He%elem_of_list_In. by apply filter_In in He as [_ He]. Qed.
Lemma records_records (t : Calls) : records (records t) = records t.
Proof. induction t as [|[] t IH]; cbn; try done; by f_equal. Qed.

Lemma mjoin_app {X} (l l' : list (list X)) : mjoin (l ++ l') = mjoin l ++ mjoin l'.
Proof. induction l as [|x l IH]; [done|]. cbn [app mjoin list_join]. rewrite <-app_assoc. f_equal. exact IH. Qed.

(** ** Replaying *)
Lemma operations_first c t :
  records_commute A ->
  apply_calls A c t = apply_calls A (apply_calls A c (applied t)) (records t).
Proof.
  intros Hcomm. revert c. induction t as [|e t IH]; intros c; [done|].
  assert (forall e c l, is_record e = true -> Forall (fun e => is_apply e = true) l ->
    apply_calls A (apply_call A c e) l = apply_call A (apply_calls A c l) e) as Hc.
  { clear -Hcomm. intros e c l He Hl. revert c. induction Hl as [|x l Hx _ IH]; intros c; [done|].
    change (apply_calls A ?c (x :: l)) with (apply_calls A (apply_call A c x) l).
    rewrite <-IH. destruct x; try done. cbn [apply_call]. by rewrite (Hcomm c v e He). }
  assert (Forall (fun e => is_apply e = true) (applied t)) as Hall.
  { apply list.Forall_forall. intros x Hx%elem_of_list_In. by apply filter_In in Hx as [_ Hx]. }
  change (apply_calls A c (e :: t)) with (apply_calls A (apply_call A c e) t). rewrite IH.
  destruct (is_record e) eqn:He.
  - rewrite (Hc e c (applied t) He Hall). destruct e; try done.
  - by destruct e.
Qed.

Lemma replay_part c l1 l :
  last_record_counts A -> Forall (fun e => is_record e = true) l -> l1 ⊆ l ->
  apply_calls A c (l1 ++ l) = apply_calls A c l.
Proof.
  intros Hlast Hl. revert c. induction l1 as [|e l1 IH]; intros c Hsub; [done|].
  assert (l1 ⊆ l) as Hsub' by (intros x Hx; apply Hsub; by right).
  assert (e ∈ l) as He by (apply Hsub; left).
  apply elem_of_list_split in He as (a & b & Hab). rewrite <-(IH c Hsub'), Hab.
  replace ((e :: l1) ++ a ++ e :: b) with ((e :: (l1 ++ a) ++ [e]) ++ b) by (cbn; by rewrite <-!app_assoc).
  replace (l1 ++ a ++ e :: b) with (((l1 ++ a) ++ [e]) ++ b) by (cbn; by rewrite <-!app_assoc).
  rewrite (apply_calls_app A c (e :: (l1 ++ a) ++ [e]) b), (apply_calls_app A c ((l1 ++ a) ++ [e]) b).
  f_equal. apply Hlast.
  - rewrite list.Forall_forall in Hl. apply Hl. rewrite Hab. apply elem_of_app. right. left.
  - apply list.Forall_forall. intros x Hx. rewrite list.Forall_forall in Hl. apply Hl.
    apply elem_of_app in Hx as [Hx|Hx]; [by apply Hsub'|]. rewrite Hab. apply elem_of_app. by left.
Qed.

Hypothesis Hinert : records_inert A.
Hypothesis Hview : view_sufficient A.
Hypothesis Hid : keeps_identity A.
Hypothesis Hrem : remembers A.
Hypothesis Hfaith : faithful U.

Lemma replay_exact c0 bs c t :
  (forall b, bs !! 0 = Some b -> is_known A c0 (id_of (seen_first (contract_id A c0) b)) = true) ->
  accepted c0 bs c t ->
  (exists t', accepted c bs c t') <-> apply_calls A c (records t) = c.
Proof.
  intros Hfirst Hacc.
  destruct (idempotence A Hinert Hview Hid Hrem Hfaith c0 bs c t Hfirst Hacc) as (c' & t' & H1 & H2 & _ & H4).
  rewrite !records_of_mutations in H4.
  assert (c' = apply_calls A c (records t)) as Hc'.
  { rewrite (evaluate_log _ _ _ _ _ _ _ H1), <-H4.
    rewrite <-(apply_calls_mutations A c t'). f_equal.
    clear -H2. induction t' as [|[] t' IH]; cbn in H2 |- *; try done; try (by apply IH); f_equal; by apply IH. }
  split.
  - intros [t2 H]. rewrite H1 in H. injection H as Hc _. by rewrite <-Hc'.
  - intros Heq. exists t'. by rewrite Hc', Heq in H1.
Qed.

Lemma replay_whole c0 bs c t t1 t2 :
  records_commute A -> last_record_counts A ->
  (forall b, bs !! 0 = Some b -> is_known A c0 (id_of (seen_first (contract_id A c0) b)) = true) ->
  accepted c0 bs c t -> t = t1 ++ t2 ->
  exists t', accepted (apply_calls A c0 t1) bs c t'.
Proof.
  intros Hcomm Hlast Hfirst Hacc Heq.
  destruct (crash_recovery A Hinert Hview Hid Hrem Hfaith c0 bs c t t1 t2 Hfirst Hacc Heq)
    as (c' & t' & H1 & H2 & _ & H4).
  rewrite !records_of_mutations in H4. exists t'.
  replace c with c'; [done|].
  rewrite (evaluate_log _ _ _ _ _ _ _ H1), (evaluate_log _ _ _ _ _ _ _ Hacc).
  rewrite <-(apply_calls_app A), (operations_first c0 (t1 ++ t') Hcomm), (operations_first c0 t Hcomm).
  rewrite applied_app, <-H2, records_app, H4. apply replay_part; [done|apply records_all|].
  rewrite Heq, records_app. intros x Hx. apply elem_of_app. by left.
Qed.

(** ** The records of an accepted consignment do not depend on the contract *)
Lemma run_records c0 bs t c :
  valid_run A c0 bs t c ->
  records t = mjoin ((fun b => entry_records (U:=U) b) <$> history (contract_id A c0) bs).
Proof.
  induction 1 as [|bs t c b Hr IH _]; [done|].
  rewrite records_app, IH, history_snoc, fmap_app, mjoin_app. f_equal. cbn [fmap list_fmap mjoin list_join].
  rewrite app_nil_r. unfold block_calls, query_calls, block_effects, entry_records.
  set (b' := seen _ bs b). change (CallRead :: ?x) with ([CallRead] ++ x).
  change (CallIsKnown ?o :: ?x) with ([CallIsKnown o] ++ x).
  rewrite !records_app. change (records [CallRead]) with ([] : Calls). change (records [CallIsKnown (id_of b')]) with ([] : Calls).
  assert (records (if is_known A c (id_of b') then [] else [CallCodex; CallMemory; CallRepo]) = ([] : Calls)) as ->
    by (by destruct (is_known _ _ _)).
  assert (records (operation_calls A (contract_id A c0) c (is_first bs) b') = ([] : Calls)) as ->.
  { unfold operation_calls. destruct (is_first bs); [done|]. destruct (is_known _ _ _); [done|].
    by destruct (vm_verdict _ _ _ _). }
  cbn [app]. f_equal.
  - unfold witness_calls. by destruct (witness b').
  - unfold seals_calls. by destruct (decide _).
Qed.
Lemma accepted_records c0 bs c t :
  accepted c0 bs c t ->
  records t = mjoin ((fun b => entry_records (U:=U) b) <$> history (contract_id A c0) bs).
Proof.
  intros (u & Hr & ->)%evaluate_ok_iff. rewrite !records_app, (run_records _ _ _ _ Hr). cbn. by rewrite app_nil_r.
Qed.
End proofs.

(** ** Folding commuting steps *)
Section fold.
Context {R X : Type} (step : R -> X -> R) (ok : X -> Prop).
Hypothesis Hcomm : forall r e e', ok e -> ok e' -> step (step r e) e' = step (step r e') e.
Hypothesis Hidem : forall r e, ok e -> step (step r e) e = step r e.

Lemma fold_move r e l : ok e -> Forall ok l -> foldl step (step r e) l = step (foldl step r l) e.
Proof.
  intros He Hl. revert r. induction Hl as [|x l Hx _ IH]; intros r; [done|]. cbn. by rewrite Hcomm, IH.
Qed.
Lemma fold_absorb r e l : Forall ok l -> e ∈ l -> foldl step (step r e) l = foldl step r l.
Proof.
  intros Hl He. revert r. induction He as [e l|e x l He IH]; intros r; inversion Hl as [|? ? Hx Hl']; subst; cbn.
  - by rewrite Hidem.
  - rewrite Hcomm; [by apply IH| |done]. rewrite list.Forall_forall in Hl'. by apply Hl'.
Qed.
Lemma fold_sub r l l' : Forall ok l' -> l ⊆ l' -> foldl step r (l ++ l') = foldl step r l'.
Proof.
  intros Hl'. revert r. induction l as [|e l IH]; intros r Hsub; [done|]. cbn. rewrite IH.
  - apply fold_absorb; [done|]. apply Hsub. left.
  - intros x Hx. apply Hsub. by right.
Qed.
Lemma fold_swap r l l' : Forall ok l -> Forall ok l' -> foldl step r (l ++ l') = foldl step r (l' ++ l).
Proof.
  intros Hl Hl'. revert r. induction Hl as [|e l He Hl IH]; intros r; cbn; [by rewrite app_nil_r|].
  rewrite IH, !foldl_app. cbn. by rewrite fold_move.
Qed.
Lemma fold_same r l l' : Forall ok l -> l ⊆ l' -> l' ⊆ l -> foldl step r l = foldl step r l'.
Proof.
  intros Hl H1 H2. assert (Forall ok l') as Hl'.
  { apply list.Forall_forall. intros x Hx. rewrite list.Forall_forall in Hl. by apply Hl, H2. }
  rewrite <-(fold_sub r l' l Hl H2), <-(fold_sub r l l' Hl' H1). by apply fold_swap.
Qed.
End fold.

Section convergence.
Context {P : SealProtocol} {U : Ultrasonic} (A : ContractApi P U) {E : Type}.
Context {R : Type} (recs : Contract A -> R) (record : R -> call P U -> R).

(** [recs] is a part of the contract that is changed by records only. *)
Definition keeps_records : Prop :=
  (forall c v, recs (apply_operation A c v) = recs c) /\
  (forall c e, is_record e = true -> recs (apply_call A c e) = record (recs c) e).

Lemma recs_calls c t : keeps_records -> recs (apply_calls A c t) = foldl record (recs c) (records t).
Proof.
  intros [Hop Hrec]. revert c. induction t as [|e t IH]; intros c; [done|].
  change (apply_calls A c (e :: t)) with (apply_calls A (apply_call A c e) t). rewrite IH.
  destruct e; try done; cbn [records List.filter is_record foldl].
  - by rewrite Hrec.
  - cbn [apply_call]. by rewrite Hop.
  - by rewrite Hrec.
Qed.

Lemma evaluates_all_recs c L c' :
  keeps_records -> records_inert A -> keeps_identity A ->
  evaluates_all A E c L c' ->
  recs c' = foldl record (recs c) (mjoin ((fun b => entry_records (U:=U) b) <$> all_entries (contract_id A c) L)).
Proof.
  intros Hk Hinert Hid H. induction H as [c|c bs c1 t L c2 H1 H IH]; [done|].
  pose proof (evaluate_log _ _ _ _ _ _ _ H1) as Hc1.
  rewrite IH. unfold all_entries. cbn [fmap list_fmap mjoin list_join].
  rewrite fmap_app, mjoin_app, foldl_app. f_equal.
  - rewrite <-(accepted_records A c bs c1 t H1), Hc1. by apply recs_calls.
  - rewrite Hc1. by rewrite (proj1 (apply_calls_identity A Hinert Hid c t)).
Qed.
End convergence.
