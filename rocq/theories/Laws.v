(** * Consequences for contracts satisfying laws; several evaluations *)
From Verif Require Export Simulate Readers.
From Coq Require Import Lia.

(** A session: any number of evaluations of one contract, one after the other, each
    possibly interrupted (a crash) after any of its calls; the log of all calls. *)
Inductive session {P U} (A : ContractApi P U) (E : Type) (c0 : Contract A)
    : list (call P U) -> Contract A -> Prop :=
| session_start : session A E c0 [] c0
| session_step l c bs (fin : option E) c' t1 t2 r :
    session A E c0 l c ->
    evaluate A c bs fin = (c', t1 ++ t2, Some r) ->
    session A E c0 (l ++ t1) (apply_calls A c t1).

Section laws.
Context {P : SealProtocol} {U : Ultrasonic} (A : ContractApi P U) {E : Type}.

Notation Block := (OperationSeals P).
Notation VError := (VerificationError P U E).
Notation Calls := (list (call P U)).
Notation id_of := (id_of (U:=U)).
Notation reveals := (reveals (U:=U)).
Notation live := (live (U:=U)).
Notation spends := (spends (U:=U)).
Notation message_of := (message_of (U:=U)).
Notation properly_closed := (properly_closed (U:=U)).
Notation same_live := (same_live (U:=U)).

Implicit Types (c : Contract A) (bs pre post : list Block) (b : Block) (t : Calls)
  (fin : option E).

Notation accepted c0 bs c t := (evaluate A (E:=E) c0 bs None = (c, t, Some (Ok tt))).

(** ** C12 *)
Lemma known_entry c0 pre b c t :
  accepted c0 pre c t ->
  let cid := contract_id A c0 in
  let b' := seen cid pre b in
  is_known A c (id_of b') = true ->
  (forall c' t', accepted c0 (pre ++ [b]) c' t' ->
     t' = t ++ [CallIsKnown (id_of b')] ++ witness_calls b' ++ seals_calls b' ++ [CallRead]) /\
  ((exists c' t', accepted c0 (pre ++ [b]) c' t') <->
   codex_committed A c0 pre b /\ tokens_committed b' /\
   exists closed, spends (history cid pre) b' closed /\ properly_closed b' closed).
Proof.
  intros Hacc cid b' Hk. split.
  - intros c' t' H. pose proof Hacc as (u & Hr & ->)%evaluate_ok_iff.
    pose proof H as (u' & Hr' & _)%evaluate_ok_iff.
    apply valid_run_snoc_inv in Hr' as (u2 & c2 & Hr2 & Hv & _ & _).
    destruct (valid_run_functional _ _ _ _ _ _ _ Hr Hr2) as [<- <-].
    rewrite (accepted_snoc _ _ _ _ _ _ Hacc Hv) in H. injection H as _ <-.
    unfold query_calls, block_effects, operation_calls. fold cid b'. rewrite Hk.
    rewrite <-!app_assoc. by destruct (is_first pre).
  - split.
    + intros (c' & t' & H). apply accepted_at in H as (c1 & t1 & Hr & H1 & H2 & H3 & _). done.
    + intros (H1 & H2 & H3). eexists _, _. eapply accepted_snoc; [done|].
      split; [done|]. split; [done|]. split; [done|]. intros Hn. fold cid b' in Hn. congruence.
Qed.

Lemma known_consignment (A' : ContractApi P U) c0 (c0' : Contract A') bs fin c t r :
  known_stay_known A -> known_stay_known A' ->
  contract_id A' c0' = contract_id A c0 ->
  codex_id U (codex A' c0') = codex_id U (codex A c0) ->
  (forall b, b ∈ history (contract_id A c0) bs ->
     is_known A c0 (id_of b) = true /\ is_known A' c0' (id_of b) = true) ->
  evaluate A c0 bs fin = (c, t, Some (r : result VError unit)) ->
  exists c' : Contract A', evaluate A' c0' bs fin = (c', t, Some r).
Proof.
  intros HA HA' Hcid Hkid Hall H.
  set (h := history (contract_id A c0) bs) in *.
  destruct (sim_evaluate_all A A' (E:=E) c0 c0'
    (fun (c : Contract A) (c' : Contract A') => forall b, b ∈ h -> is_known A c (id_of b) = true /\ is_known A' c' (id_of b) = true)
    (fun b => b ∈ h) Hcid) with (bs := bs) (fin := fin) (c1 := c) (t1 := t) (r := r) as (c' & H' & _); try done.
  - intros c1 c1' b HS Hb. destruct (HS b Hb) as [-> ->]. done.
  - intros c1 c1' o w HS b Hb. destruct (HS b Hb). split; [by apply HA|by apply HA'].
  - intros c1 c1' o w HS b Hb. destruct (HS b Hb). split; [by apply HA|by apply HA'].
  - intros c1 c1' b v c2 c2' HS Hb Hk. destruct (HS b Hb). congruence.
  - by apply list.Forall_forall.
  - eauto.
Qed.

(** ** C42 *)
Lemma determinism (A' : ContractApi P U) (S : Contract A -> Contract A' -> Prop) :
  (forall (c : Contract A) (c' : Contract A'), S c c' ->
     contract_id A' c' = contract_id A c /\ codex A' c' = codex A c /\ memory A' c' = memory A c /\
     repo A' c' = repo A c /\ forall o, is_known A' c' o = is_known A c o) ->
  (forall (c : Contract A) (c' : Contract A') o w, S c c' -> S (apply_witness A c o w) (apply_witness A' c' o w)) ->
  (forall (c : Contract A) (c' : Contract A') o m, S c c' -> S (apply_seals A c o m) (apply_seals A' c' o m)) ->
  (forall (c : Contract A) (c' : Contract A') v, S c c' -> S (apply_operation A c v) (apply_operation A' c' v)) ->
  forall (c0 : Contract A) (c0' : Contract A') bs fin c t r,
  S c0 c0' ->
  evaluate A c0 bs fin = (c, t, Some (r : result VError unit)) ->
  exists c' : Contract A', evaluate A' c0' bs fin = (c', t, Some r) /\ S c c'.
Proof.
  intros Hview Hw Hs Ho c0 c0' bs fin c t r HS H.
  eapply (sim_evaluate_all A A' c0 c0' S (fun _ => True)); try done.
  - by apply Hview.
  - intros c1 c1' b HS1 _. destruct (Hview _ _ HS1) as (_ & H1 & H2 & H3 & H4).
    split; [done|]. intros _. unfold vm_verdict. by rewrite H1, H2, H3.
  - intros. by apply Ho.
  - by destruct (Hview _ _ HS) as (_ & -> & _).
  - by apply list.Forall_forall.
Qed.

(** ** C20 *)
Lemma same_future c0 c0' pre pre' c t t' post fin c1 t1 (r : result VError unit) :
  contract_id A c0 = contract_id A c0' ->
  pre <> [] -> pre' <> [] ->
  accepted c0 pre c t -> accepted c0' pre' c t' ->
  (forall a s, live (history (contract_id A c0) pre) a s <-> live (history (contract_id A c0') pre') a s) ->
  evaluate A c0 (pre ++ post) fin = (c1, t1, Some r) ->
  exists s, t1 = t ++ s /\ evaluate A c0' (pre' ++ post) fin = (c1, t' ++ s, Some r).
Proof.
  intros Hcid Hne Hne' Hacc Hacc' Hl H.
  destruct (sim_evaluate A A (E:=E) c0 c0' eq (fun _ => True)) with (pre := pre) (pre' := pre')
    (t := t) (t' := t') (c := c) (c' := c) (post := post) (fin := fin) (c1 := c1) (t1 := t1) (r := r)
    as (s & c1' & -> & H' & <-); try done.
  - by intros ? ? ? -> _.
  - by intros ? ? ? ? ->.
  - by intros ? ? ? ? ->.
  - by intros ? ? ? ? ? ? _ _ _ _ ->.
  - split; [by destruct pre, pre'|]. split; [by destruct pre|]. intros a s. rewrite (Hl a s), Hcid. done.
  - by apply list.Forall_forall.
  - eauto.
Qed.

(** ** Views *)
Lemma same_view_refl c : same_view A c c.
Proof. by repeat split. Qed.
Lemma same_view_sym c c' : same_view A c c' -> same_view A c' c.
Proof. intros (? & ? & ? & ? & ?). by repeat split. Qed.
Lemma same_view_trans c c' c'' : same_view A c c' -> same_view A c' c'' -> same_view A c c''.
Proof. intros (? & ? & ? & ? & H) (? & ? & ? & ? & H'). repeat split; congruence. Qed.

(** The applied operations determine the view. *)
Lemma applied_app t1 t2 : applied (t1 ++ t2) = applied t1 ++ applied t2.
Proof. apply List.filter_app. Qed.

Section view.
Hypothesis Hinert : records_inert A.
Hypothesis Hsuff : view_sufficient A.

Lemma apply_call_view c c' e : same_view A c c' -> same_view A (apply_call A c e) (apply_call A c' e).
Proof.
  intros H. destruct e; cbn; try done.
  - eapply same_view_trans; [apply Hinert|]. eapply same_view_trans; [exact H|].
    apply same_view_sym, Hinert.
  - by apply Hsuff.
  - eapply same_view_trans; [apply Hinert|]. eapply same_view_trans; [exact H|].
    apply same_view_sym, Hinert.
Qed.

Lemma apply_calls_view c c' l : same_view A c c' -> same_view A (apply_calls A c l) (apply_calls A c' l).
Proof.
  revert c c'. induction l as [|e l IH]; intros c c' H; [done|]. cbn. by apply IH, apply_call_view.
Qed.

Lemma apply_calls_applied c l : same_view A (apply_calls A c l) (apply_calls A c (applied l)).
Proof.
  revert c. induction l as [|e l IH]; intros c; [apply same_view_refl|].
  destruct e; cbn; try apply IH.
  - eapply same_view_trans; [apply (apply_calls_view _ c); apply Hinert|]. apply IH.
  - eapply same_view_trans; [apply (apply_calls_view _ c); apply Hinert|]. apply IH.
Qed.

Lemma view_verdict cid c c' b : same_view A c c' -> vm_verdict A cid c' b = vm_verdict A cid c b.
Proof. intros (_ & H1 & H2 & H3 & _). unfold vm_verdict. by rewrite H1, H2, H3. Qed.

(** Evaluations from contracts with the same view. *)
Lemma view_evaluate c0 c0' bs fin c t (r : result VError unit) :
  same_view A c0 c0' ->
  evaluate A c0 bs fin = (c, t, Some r) ->
  exists c', evaluate A c0' bs fin = (c', t, Some r) /\ same_view A c c'.
Proof.
  intros H. apply (determinism A (fun c c' => same_view A c c')); try done.
  - intros c1 c1' (H1 & H2 & H3 & H4 & H5). by repeat split.
  - intros c1 c1' o w H1. by apply (apply_call_view _ _ (CallApplyWitness o w)).
  - intros c1 c1' o w H1. by apply (apply_call_view _ _ (CallApplySeals o w)).
Qed.
End view.

(** ** Evolution of the known operations *)
Section known.
Hypothesis Hrem : remembers A.

Lemma apply_call_known c e o :
  is_known A (apply_call A c e) o = true <-> applied_id e = Some o \/ is_known A c o = true.
Proof.
  destruct Hrem as (H1 & H2 & H3). destruct e; cbn; rewrite ?H1, ?H2, ?H3; naive_solver.
Qed.

Lemma apply_calls_known c l o :
  is_known A (apply_calls A c l) o = true <-> o ∈ applied_ids l \/ is_known A c o = true.
Proof.
  revert c. induction l as [|e l IH]; intros c.
  - unfold applied_ids; cbn. set_solver.
  - change (apply_calls A c (e :: l)) with (apply_calls A (apply_call A c e) l).
    rewrite IH, apply_call_known. unfold applied_ids; cbn.
    destruct (applied_id e); [rewrite elem_of_cons|]; naive_solver.
Qed.

Hypothesis Hfaith : faithful U.

(** ** C14 *)
Lemma evaluation_applies_once c0 bs fin c t (r : result VError unit) :
  evaluate A c0 bs fin = (c, t, Some r) ->
  NoDup (applied_ids t) /\ forall o, o ∈ applied_ids t -> is_known A c0 o = false.
Proof.
  intros H.
  assert (forall t1 v t2, t = t1 ++ CallApplyOperation v :: t2 ->
    let o := opid_of U (into_operation U v) in o ∉ applied_ids t1 /\ is_known A c0 o = false) as Hat.
  { intros t1 v t2 Heq. cbn.
    destruct (applied_is_verified _ _ _ _ _ _ _ _ _ _ H Heq) as (i & b & t0 & c1 & _ & _ & -> & -> & Hk & Hv).
    apply Hfaith in Hv. rewrite Hv.
    assert (applied_ids (t0 ++ [CallIsKnown (id_of b); CallCodex; CallMemory; CallRepo] ++ witness_calls b)
      = applied_ids t0) as ->.
    { unfold applied_ids. rewrite !omap_app. unfold witness_calls. case_match; cbn; by rewrite app_nil_r. }
    assert (~ (id_of b ∈ applied_ids t0 \/ is_known A c0 (id_of b) = true)) as Hn.
    { rewrite <-apply_calls_known. by rewrite Hk. }
    split; [naive_solver|]. unfold id_of in *. destruct (is_known A c0 _); naive_solver. }
  clear H. split.
  - induction t as [|e t IH] using rev_ind; [constructor|].
    unfold applied_ids. rewrite omap_app. apply NoDup_app. split; [|split].
    + apply IH. intros t1 v t2 ->. eapply Hat. by rewrite <-app_assoc.
    + intros o Ho (e' & ->%elem_of_list_singleton & He)%elem_of_list_omap. destruct e; try done.
      cbn in He. injection He as <-.
      destruct (Hat t v [] eq_refl) as [Hn _]. by apply Hn.
    + destruct e; cbn; try apply NoDup_nil_2. apply NoDup_singleton.
  - intros o (e & He & Ho)%elem_of_list_omap. destruct e; try done. cbn in Ho. simplify_eq.
    apply elem_of_list_split in He as (t1 & t2 & ->). by eapply Hat.
Qed.

Lemma session_known c0 l c :
  session A E c0 l c -> c = apply_calls A c0 l.
Proof.
  induction 1 as [|l c bs fin c' t1 t2 r _ IH _]; [done|].
  rewrite apply_calls_app, <-IH. done.
Qed.

Lemma session_applies_once c0 l c :
  session A E c0 l c ->
  NoDup (applied_ids l) /\ forall o, o ∈ applied_ids l -> is_known A c0 o = false.
Proof.
  induction 1 as [|l c bs fin c' t1 t2 r Hs [IH1 IH2] Hev]; [split; [constructor|set_solver]|].
  apply session_known in Hs as ->.
  destruct (evaluation_applies_once _ _ _ _ _ _ Hev) as [H1 H2].
  unfold applied_ids in *. rewrite omap_app in *. apply NoDup_app in H1 as (H1 & _ & _).
  split.
  - apply NoDup_app. split; [done|]. split; [|done].
    intros o Ho Ho'. assert (is_known A (apply_calls A c0 l) o = true) as Hk.
    { apply apply_calls_known. by left. }
    rewrite H2 in Hk; [done|]. set_solver.
  - intros o [Ho|Ho]%elem_of_app; [by apply IH2|].
    assert (is_known A (apply_calls A c0 l) o = false) as Hk by (apply H2; set_solver).
    destruct (is_known A c0 o) eqn:Hk0; [|done]. rewrite <-Hk. symmetry.
    apply apply_calls_known. by right.
Qed.

End known.

(** ** C30 *)
Lemma memory_after (has : MemoryView U -> CellAddr -> Prop) :
  (forall c v a, has (memory A (apply_operation A c v)) a ->
     has (memory A c) a \/ cell_opid a = opid_of U (into_operation U v)) ->
  (forall c o m a, has (memory A (apply_seals A c o m)) a -> has (memory A c) a) ->
  (forall c o w a, has (memory A (apply_witness A c o w)) a -> has (memory A c) a) ->
  forall l c a, has (memory A (apply_calls A c l)) a ->
    has (memory A c) a \/ cell_opid a ∈ applied_ids l.
Proof.
  intros Hop Hs Hw l. induction l as [|e l IH]; intros c a H; [by left|].
  change (apply_calls A c (e :: l)) with (apply_calls A (apply_call A c e) l) in H.
  apply IH in H as [H|H].
  - destruct e; cbn in H; try (by left); eauto.
    apply Hop in H as [H|H]; [by left|]. right. unfold applied_ids; cbn. rewrite H. by left.
  - right. unfold applied_ids in *; cbn. destruct (applied_id e); [by right|done].
Qed.

Lemma applied_inputs_known (has : MemoryView U -> CellAddr -> Prop) :
  faithful U ->
  (forall k cid op m r v, codex_verify U k cid op m r = Ok v ->
     forall i, i ∈ op_destructible_in op -> has m (input_addr i)) ->
  (forall c v a, has (memory A (apply_operation A c v)) a ->
     has (memory A c) a \/ cell_opid a = opid_of U (into_operation U v)) ->
  (forall c o m a, has (memory A (apply_seals A c o m)) a -> has (memory A c) a) ->
  (forall c o w a, has (memory A (apply_witness A c o w)) a -> has (memory A c) a) ->
  forall c0 bs fin c t (r : result VError unit) t1 v t2 i,
  (forall a, has (memory A c0) a -> is_known A c0 (cell_opid a) = true) ->
  evaluate A c0 bs fin = (c, t, Some r) ->
  t = t1 ++ CallApplyOperation v :: t2 ->
  i ∈ op_destructible_in (into_operation U v) ->
  is_known A c0 (cell_opid (input_addr i)) = true \/ cell_opid (input_addr i) ∈ applied_ids t1.
Proof.
  intros Hfaith Hmem Hop Hs Hw c0 bs fin c t r t1 v t2 i Hinit H Heq Hi.
  destruct (applied_is_verified _ _ _ _ _ _ _ _ _ _ H Heq) as (n & b & t0 & c1 & _ & _ & -> & -> & Hk & Hv).
  pose proof (Hfaith _ _ _ _ _ _ Hv) as Heq'. rewrite Heq' in Hi.
  pose proof (Hmem _ _ _ _ _ _ Hv i Hi) as Hc.
  apply (memory_after has Hop Hs Hw) in Hc as [Hc|Hc]; [left; by apply Hinit|]. right.
  unfold applied_ids in *. rewrite omap_app. set_solver.
Qed.

(** ** C26, C25 *)
Section recovery.
Hypothesis Hinert : records_inert A.
Hypothesis Hsuff : view_sufficient A.
Hypothesis Hident : keeps_identity A.
Hypothesis Hrem : remembers A.
Hypothesis Hfaith : faithful U.

Lemma apply_calls_identity c l :
  contract_id A (apply_calls A c l) = contract_id A c /\ codex A (apply_calls A c l) = codex A c.
Proof.
  revert c. induction l as [|e l IH]; intros c; [done|].
  change (apply_calls A c (e :: l)) with (apply_calls A (apply_call A c e) l).
  destruct (IH (apply_call A c e)) as [-> ->].
  destruct e; cbn; try done.
  - destruct (proj2 Hinert c opid w) as (? & ? & _). done.
  - destruct (proj1 Hinert c opid seals) as (? & ? & _). done.
Qed.

(** All entries of an accepted prefix are known afterwards. *)
Lemma prefix_known c0 bs c t :
  valid_run A c0 bs t c ->
  (forall b, bs !! 0 = Some b -> is_known A c0 (id_of (seen_first (contract_id A c0) b)) = true) ->
  forall b, b ∈ history (contract_id A c0) bs -> is_known A c (id_of b) = true.
Proof.
  intros H. induction H as [|bs t c b H IH Hv]; intros Hfirst b' Hb'; [by apply elem_of_nil in Hb'|].
  rewrite history_snoc in Hb'. apply apply_calls_known; [done|].
  apply elem_of_app in Hb' as [Hb'|Hb'%elem_of_list_singleton].
  - right. apply IH; [|done]. intros b1 Hb1. apply Hfirst. by apply lookup_app_l_Some.
  - subst b'. destruct (is_known A c (id_of (seen (contract_id A c0) bs b))) eqn:Hk; [by right|].
    left. unfold applied_ids. apply elem_of_list_omap.
    destruct bs as [|b0 bs].
    { apply valid_run_nil_inv in H as [-> ->]. exfalso. cbn in Hk.
      rewrite Hfirst in Hk by done. done. }
    destruct Hv as (_ & _ & _ & Hvm). destruct (Hvm Hk) as [v Hv].
    exists (CallApplyOperation v). cbn. split.
    + unfold block_effects, operation_calls. cbn in Hk, Hv |- *. rewrite Hk, Hv. set_solver.
    + by rewrite (Hfaith _ _ _ _ _ _ Hv).
Qed.

(** Entries all of which are known are accepted again from any contract of the same
    identity, and nothing is applied. *)
Lemma known_run c0 c0' bs t c :
  valid_run A c0 bs t c ->
  contract_id A c0' = contract_id A c0 -> codex A c0' = codex A c0 ->
  (forall b, b ∈ history (contract_id A c0) bs -> is_known A c0' (id_of b) = true) ->
  exists t' c', valid_run A c0' bs t' c' /\ same_view A c0' c' /\ applied t' = [] /\
    List.filter (fun e => negb (is_apply e)) (mutations t') =
    List.filter (fun e => negb (is_apply e)) (mutations t).
Proof.
  intros H Hcid Hcodex. induction H as [|bs t c b H IH Hv]; intros Hall.
  { exists [], c0'. split; [constructor|]. split; [apply same_view_refl|done]. }
  rewrite history_snoc in Hall.
  destruct IH as (t' & c' & Hr' & Hview & Happ & Hmut). { intros b' Hb'. apply Hall. set_solver. }
  assert (is_known A c' (id_of (seen (contract_id A c0) bs b)) = true) as Hk.
  { destruct Hview as (_ & _ & _ & _ & <-). apply Hall. set_solver. }
  exists (t' ++ block_calls A c0' bs c' b), (apply_calls A c' (block_effects A c0' bs c' b)).
  assert (applied (block_effects A c0' bs c' b) = []) as Hnone.
  { unfold block_effects, operation_calls, witness_calls, seals_calls. rewrite Hcid, Hk.
    rewrite !applied_app. repeat case_match; done. }
  split.
  { constructor; [done|]. destruct Hv as (H1 & H2 & H3 & H4). unfold block_valid. rewrite Hcid.
    split; [|split; [done|split; [done|]]].
    - unfold codex_committed in *. by rewrite Hcodex.
    - intros Hk'. congruence. }
  split.
  { eapply same_view_trans; [exact Hview|]. apply same_view_sym.
    eapply same_view_trans; [by apply apply_calls_applied|]. rewrite Hnone. apply same_view_refl. }
  split.
  { unfold block_calls, query_calls. rewrite Hcid, Hk, applied_app, Happ. cbn. exact Hnone. }
  rewrite !mutations_app, !mutations_block_calls, !List.filter_app, Hmut. f_equal.
  unfold block_effects, operation_calls, witness_calls, seals_calls. rewrite Hcid, Hk.
  rewrite !List.filter_app. repeat case_match; done.
Qed.

(** Evaluating an accepted consignment again from a contract that looks like the one
    reached after some prefix of it. *)
Lemma resume c0 pre post c t u d c0' :
  valid_run A c0 pre u d -> valid_run A c0 (pre ++ post) t c ->
  (forall b, (pre ++ post) !! 0 = Some b -> is_known A c0 (id_of (seen_first (contract_id A c0) b)) = true) ->
  same_view A d c0' ->
  exists t' c', valid_run A c0' (pre ++ post) t' c' /\ applied t = applied u ++ applied t' /\
    same_view A c c' /\
    List.filter (fun e => negb (is_apply e)) (mutations t') =
    List.filter (fun e => negb (is_apply e)) (mutations t).
Proof.
  intros Hpre Hrun Hfirst Hview.
  assert (contract_id A c0' = contract_id A c0 /\ codex A c0' = codex A c0) as [Hcid Hcodex].
  { destruct (apply_calls_identity c0 u) as [H1 H2]. rewrite <-(valid_run_contract _ _ _ _ _ Hpre) in *.
    destruct Hview as (? & ? & _). split; congruence. }
  destruct (known_run c0 c0' pre u d Hpre Hcid Hcodex) as (u' & d' & Hpre' & Hview' & Happ & Hmut).
  { intros b Hb. destruct Hview as (_ & _ & _ & _ & <-).
    eapply prefix_known; [done| |done]. intros b' Hb'. apply Hfirst. by apply lookup_app_l_Some. }
  destruct (sim_run A A c0 c0' (same_view A) (fun _ => True)) with (pre := pre) (pre' := pre)
    (t := u) (t' := u') (c := d) (c' := d') (post := post) (t1 := t) (c1 := c)
    as (s & c' & -> & Hrun' & Hview'' & _); try done.
  - intros c1 c1' b H1 _. split; [destruct H1 as (_ & _ & _ & _ & H1); by rewrite H1|].
    intros _. by apply view_verdict.
  - intros c1 c1' o w H1. by apply (apply_call_view Hinert Hsuff _ _ (CallApplyWitness o w)).
  - intros c1 c1' o w H1. by apply (apply_call_view Hinert Hsuff _ _ (CallApplySeals o w)).
  - intros c1 c1' b v c2 c2' _ _ _ _ H1. by apply Hsuff.
  - split; [done|]. split; [by rewrite Hcodex|]. done.
  - by eapply same_view_trans.
  - by apply list.Forall_forall.
  - exists (u' ++ s), c'. split; [done|]. rewrite !applied_app, Happ, !mutations_app, !List.filter_app, Hmut. done.
Qed.

(** The view of a contract interrupted at any point is that of the contract after some
    prefix of the consignment. *)
Lemma interrupted_view c0 bs t c t1 t2 :
  valid_run A c0 bs t c -> t = t1 ++ t2 ->
  exists pre post u d, bs = pre ++ post /\ valid_run A c0 pre u d /\
    same_view A d (apply_calls A c0 t1) /\ applied t1 = applied u.
Proof.
  intros H. revert t1 t2. induction H as [|bs t c b H IH Hv]; intros t1 t2 Heq.
  { symmetry in Heq. apply app_nil in Heq as [-> ->].
    exists [], [], [], c0. split; [done|]. split; [constructor|]. split; [apply same_view_refl|done]. }
  apply app_eq_inv in Heq as [(k & -> & ->)|(k & -> & Hk)].
  { destruct (IH _ _ eq_refl) as (pre & post & u & d & -> & Hd & Hview & Happ).
    exists pre, (post ++ [b]), u, d. by rewrite app_assoc. }
  (* inside the calls for [b] *)
  pose proof (valid_run_contract _ _ _ _ _ H) as Hc.
  assert (applied k = [] \/ applied k = applied (block_calls A c0 bs c b)) as [Hno|Hyes].
  { rewrite Hk, applied_app.
    assert (length (applied (block_calls A c0 bs c b)) <= 1) as Hlen.
    { unfold block_calls, query_calls, block_effects, operation_calls, witness_calls, seals_calls.
      change (CallRead :: ?x) with ([CallRead] ++ x). change (CallIsKnown ?o :: ?x) with ([CallIsKnown o] ++ x).
      rewrite !applied_app, !app_length. repeat case_match; cbn; lia. }
    rewrite Hk, applied_app, app_length in Hlen.
    destruct (applied k) as [|x l]; [by left|]. right.
    destruct (applied t2); [by rewrite app_nil_r|]. cbn in Hlen. lia. }
  - exists bs, [b], t, c. split; [done|]. split; [done|]. split.
    + rewrite apply_calls_app, <-Hc. apply same_view_sym.
      eapply same_view_trans; [by apply apply_calls_applied|]. rewrite Hno. apply same_view_refl.
    + by rewrite applied_app, Hno, app_nil_r.
  - exists (bs ++ [b]), [], (t ++ block_calls A c0 bs c b), (apply_calls A c (block_effects A c0 bs c b)).
    split; [by rewrite app_nil_r|]. split; [by constructor|]. split.
    + rewrite apply_calls_app, <-Hc.
      eapply same_view_trans; [by apply apply_calls_applied|]. apply same_view_sym.
      eapply same_view_trans; [by apply apply_calls_applied|]. rewrite Hyes.
      replace (applied (block_calls A c0 bs c b)) with (applied (block_effects A c0 bs c b));
        [apply same_view_refl|].
      unfold block_calls, query_calls.
      change (CallRead :: ?x) with ([CallRead] ++ x). change (CallIsKnown ?o :: ?x) with ([CallIsKnown o] ++ x).
      rewrite !applied_app. by destruct (is_known A c _).
    + by rewrite !applied_app, Hyes.
Qed.

Lemma crash_recovery c0 bs c t t1 t2 :
  (forall b, bs !! 0 = Some b -> is_known A c0 (id_of (seen_first (contract_id A c0) b)) = true) ->
  accepted c0 bs c t -> t = t1 ++ t2 ->
  exists c' t', accepted (apply_calls A c0 t1) bs c' t' /\
    applied t = applied t1 ++ applied t' /\ same_view A c c' /\
    List.filter (fun e => negb (is_apply e)) (mutations t') =
    List.filter (fun e => negb (is_apply e)) (mutations t).
Proof.
  intros Hfirst (u & Hr & ->)%evaluate_ok_iff Heq.
  assert (exists k1 k2, u = k1 ++ k2 /\ applied k1 = applied t1 /\
    apply_calls A c0 k1 = apply_calls A c0 t1) as (k1 & k2 & -> & Happ & Hst).
  { destruct t1 as [|e1 [|e2 t1]].
    - by exists [], u.
    - exists [], u. cbn in Heq. by simplify_eq.
    - cbn in Heq. injection Heq as <- <- Heq.
      apply app_eq_inv in Heq as [(k & -> & ->)|(k & -> & Hk)].
      + exists t1, k. done.
      + exists u, []. rewrite app_nil_r. split; [done|].
        destruct k as [|x k]; [by rewrite app_nil_r|]. cbn in Hk. injection Hk as <- Hk.
        symmetry in Hk. apply app_nil in Hk as [-> ->].
        change (applied (CallContractId :: CallCodex :: ?l)) with (applied l).
        change (apply_calls A c0 (CallContractId :: CallCodex :: ?l)) with (apply_calls A c0 l).
        rewrite applied_app, apply_calls_app. by rewrite app_nil_r. }
  destruct (interrupted_view _ _ _ _ _ _ Hr eq_refl) as (pre & post & v & d & -> & Hpre & Hview & Hk1).
  rewrite Hst in Hview.
  destruct (resume c0 pre post c (k1 ++ k2) v d (apply_calls A c0 t1) Hpre Hr Hfirst Hview)
    as (t' & c' & Hr' & Ha & Hv' & Hm).
  exists c', ([CallContractId; CallCodex] ++ t' ++ [CallRead]). split; [by apply valid_run_accepted|].
  assert (forall l : Calls, applied ([CallContractId; CallCodex] ++ l ++ [CallRead]) = applied l) as Happl.
  { intros l. rewrite !applied_app. cbn. by rewrite app_nil_r. }
  assert (forall l : Calls, mutations ([CallContractId; CallCodex] ++ l ++ [CallRead]) = mutations l) as Hmutl.
  { intros l. rewrite !mutations_app. change (mutations [CallRead]) with ([] : Calls). by rewrite app_nil_r. }
  rewrite !Happl, !Hmutl, Ha, <-Hk1, Happ. done.
Qed.

Lemma idempotence c0 bs c t :
  (forall b, bs !! 0 = Some b -> is_known A c0 (id_of (seen_first (contract_id A c0) b)) = true) ->
  accepted c0 bs c t ->
  exists c' t', accepted c bs c' t' /\ applied t' = [] /\ same_view A c c' /\
    List.filter (fun e => negb (is_apply e)) (mutations t') =
    List.filter (fun e => negb (is_apply e)) (mutations t).
Proof.
  intros Hfirst Hacc.
  destruct (crash_recovery c0 bs c t t [] Hfirst Hacc) as (c' & t' & H1 & H2 & H3 & H4).
  { by rewrite app_nil_r. }
  rewrite <-(evaluate_log _ _ _ _ _ _ _ Hacc) in H1.
  exists c', t'. split; [done|]. split; [|done].
  apply (app_inv_head (applied t)). by rewrite <-H2, app_nil_r.
Qed.
End recovery.

End laws.
