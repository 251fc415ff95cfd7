(** * [evaluate] refines the declarative [outcome] of Spec.v, and conversely *)
From Verif Require Export EvalFacts.
From Coq Require Import Lia.

Section refine.
Context {P : SealProtocol} {U : Ultrasonic} (A : ContractApi P U) {E : Type}.

Notation Block := (OperationSeals P).
Notation VError := (VerificationError P U E).
Notation Calls := (list (call P U)).
Notation id_of := (id_of (U:=U)).
Notation reveals := (reveals (U:=U)).
Notation live := (live (U:=U)).
Notation spends := (spends (U:=U)).
Notation message_of := (message_of (U:=U)).
Notation properly_closed := (properly_closed (U:=U)).
Notation tracks := (tracks (U:=U)).

Lemma loop_outcome (c0 : Contract A) (fin : option E) (rest : list Block) :
  forall bs seals c t,
  valid_run A c0 bs t c ->
  tracks seals (history (contract_id A c0) bs) ->
  exists c' t' r rd,
    evaluate_loop A (E:=E) script_reader (S (length rest)) (contract_id A c0)
      (codex_id U (codex A c0)) (is_first bs) seals (rest, fin)
      (c, [CallContractId; CallCodex] ++ t) = ((c', t'), rd, Some r) /\
    outcome A c0 (bs ++ rest) fin c' t' r.
Proof.
  induction rest as [|b rest IH]; intros bs seals c t Hrun Ht.
  - cbn [length evaluate_loop]. cbn [read_operation script_reader].
    destruct fin as [e|].
    + eexists _, _, _, _. split; [reflexivity|]. rewrite app_nil_r, <-app_assoc.
      by apply outcome_stream.
    + eexists _, _, _, _. split; [reflexivity|]. rewrite app_nil_r, <-app_assoc.
      by apply outcome_end.
  - cbn [length]. remember (S (length rest)) as n eqn:Hn. cbn [evaluate_loop].
    cbn [read_operation script_reader].
    destruct (process_block A (contract_id A c0) (codex_id U (codex A c0)) (is_first bs) seals b
                (c, ([CallContractId; CallCodex] ++ t) ++ [CallRead])) as [st [seals'|e]] eqn:Hp.
    + apply process_block_ok in Hp as (Hv & -> & Ht'); [|done].
      replace false with (is_first (bs ++ [b])) by (by destruct bs).
      rewrite <-app_assoc.
      destruct (IH (bs ++ [b]) seals' (apply_calls A c (block_effects A c0 bs c b))
                  (t ++ block_calls A c0 bs c b)) as (c' & t' & r & rd & Heq & Hout).
      { by constructor. }
      { done. }
      eexists _, _, _, _. split; [exact Heq|]. by rewrite <-app_assoc in Hout.
    + apply process_block_err in Hp as (Hf & ->); [|done].
      eexists _, _, _, _. split; [reflexivity|]. rewrite <-app_assoc.
      by eapply outcome_bad.
Qed.

Theorem evaluate_outcome (c0 : Contract A) bs (fin : option E) :
  exists c t r, evaluate A c0 bs fin = (c, t, Some r) /\ outcome A c0 bs fin c t r.
Proof.
  destruct (loop_outcome c0 fin bs [] ∅ c0 []) as (c & t & r & rd & Heq & Hout);
    [constructor|apply tracks_nil|].
  exists c, t, r. split; [|done]. unfold evaluate, evaluate_reader.
  cbn [app is_first] in Heq. by rewrite Heq.
Qed.

(** ** Determinism of the specification *)
Lemma valid_run_nil_inv (c0 : Contract A) t c : valid_run A c0 [] t c -> t = [] /\ c = c0.
Proof.
  intros H. inversion H as [|bs t' c' b _ _ Hbs]; [done|]. by destruct bs.
Qed.

Lemma valid_run_snoc_inv (c0 : Contract A) bs b t c :
  valid_run A c0 (bs ++ [b]) t c ->
  exists t' c', valid_run A c0 bs t' c' /\ block_valid A c0 bs c' b /\
    t = t' ++ block_calls A c0 bs c' b /\
    c = apply_calls A c' (block_effects A c0 bs c' b).
Proof.
  intros H. inversion H as [Hbs|bs' t' c' b' H' Hv Hbs]; [by destruct bs|].
  apply app_inj_tail in Hbs as [-> ->]. eauto 10.
Qed.

Lemma valid_run_functional (c0 : Contract A) bs t c t' c' :
  valid_run A c0 bs t c -> valid_run A c0 bs t' c' -> t = t' /\ c = c'.
Proof.
  revert t c t' c'. induction bs as [|b bs IH] using rev_ind; intros t c t' c' H1 H2.
  - apply valid_run_nil_inv in H1, H2. naive_solver.
  - apply valid_run_snoc_inv in H1 as (t1 & c1 & H1 & _ & -> & ->).
    apply valid_run_snoc_inv in H2 as (t2 & c2 & H2 & _ & -> & ->).
    by destruct (IH _ _ _ _ H1 H2) as [-> ->].
Qed.

Lemma valid_run_app_inv (c0 : Contract A) bs bs' t c :
  valid_run A c0 (bs ++ bs') t c ->
  exists t' c', valid_run A c0 bs t' c' /\ t' `prefix_of` t.
Proof.
  revert t c. induction bs' as [|b bs' IH] using rev_ind; intros t c.
  - rewrite app_nil_r. eauto.
  - rewrite app_assoc. intros (t1 & c1 & H1 & _ & -> & _)%valid_run_snoc_inv.
    destruct (IH _ _ H1) as (t2 & c2 & H2 & Hpre). exists t2, c2. split; [done|].
    by apply prefix_app_r.
Qed.

Lemma valid_run_at (c0 : Contract A) bs b post t c :
  valid_run A c0 (bs ++ b :: post) t c ->
  exists t' c', valid_run A c0 bs t' c' /\ block_valid A c0 bs c' b /\
    t' ++ block_calls A c0 bs c' b `prefix_of` t.
Proof.
  rewrite (cons_middle b bs post), app_assoc. intros (t1 & c1 & H1 & Hpre)%valid_run_app_inv.
  apply valid_run_snoc_inv in H1 as (t2 & c2 & H2 & Hv & -> & ->). eauto 10.
Qed.

Lemma spends_spendable h (b : Block) closed k a :
  spends h b closed -> inputs_of b !! k = Some a -> spendable (U:=U) h (take k (inputs_of b)) a.
Proof.
  intros [Hnd Hl] Hk. split.
  - intros Hin. apply elem_of_take in Hin as (j & Hj & Hlt).
    rewrite NoDup_alt in Hnd. specialize (Hnd _ _ _ Hk Hj). lia.
  - eapply Forall2_lookup_l in Hl as (s & _ & Hs); [|exact Hk]. eauto.
Qed.

Lemma spends_not_unspendable h (b : Block) closed a :
  spends h b closed -> ~ first_unspendable (U:=U) h b a.
Proof. intros Hs (k & Hk & Hn & _). by eapply Hn, spends_spendable. Qed.

Lemma first_unspendable_unique h (b : Block) a a' :
  first_unspendable (U:=U) h b a -> first_unspendable (U:=U) h b a' -> a = a'.
Proof.
  intros (k & Hk & Hn & Hb) (k' & Hk' & Hn' & Hb').
  destruct (decide (k = k')) as [->|]; [congruence|].
  destruct (decide (k < k')).
  - destruct Hn. by eapply Hb'.
  - destruct Hn'. eapply Hb; [lia|done].
Qed.

Lemma valid_not_fails (c0 : Contract A) bs c b (e : VError) :
  block_valid A c0 bs c b -> ~ block_fails A c0 bs c b e.
Proof.
  intros (H1 & H2 & (closed & H3 & H4) & H5) Hf.
  unfold properly_closed in H4. rewrite seen_witness in H4.
  destruct Hf as [| | |closed' e ? ? Hs Hk Hv|closed' w e ? ? Hs _ Hw Hc|closed' ? ? Hs _ Hw Hin]; try done.
  - by eapply spends_not_unspendable.
  - destruct (H5 Hk). congruence.
  - pose proof (spends_functional _ _ _ _ H3 Hs) as ->. rewrite Hw in H4. congruence.
  - rewrite Hw in H4. subst closed. destruct H3 as [_ H3]. inversion H3 as [Hnil|].
    rewrite seen_inputs in Hnil. done.
Qed.

Lemma fails_functional (c0 : Contract A) bs c b (e e' : VError) :
  block_fails A c0 bs c b e -> block_fails A c0 bs c b e' -> e = e'.
Proof.
  intros H1 H2.
  destruct H1 as [|rep def ? ? Ht|a ? ? Hu|closed e ? ? Hs Hk Hv|closed w e ? ? Hs Ha Hw Hc|closed ? ? Hs Ha Hw Hin];
  destruct H2 as [|rep' def' ? ? Ht'|a' ? ? Hu'|closed' e' ? ? Hs' Hk' Hv'|closed' w' e' ? ? Hs' Ha' Hw' Hc'|closed' ? ? Hs' Ha' Hw' Hin'];
  try done; try congruence;
  try (by exfalso; eapply spends_not_unspendable);
  try (by exfalso; destruct (Ha Hk'); congruence);
  try (by exfalso; destruct (Ha' Hk); congruence).
  - by destruct (token_sets_unique _ _ _ _ _ Ht Ht') as [-> ->].
  - by rewrite (first_unspendable_unique _ _ _ _ Hu Hu').
  - pose proof (spends_functional _ _ _ _ Hs Hs') as ->. congruence.
Qed.

Lemma app_cons_cases {X} (l1 l2 l1' l2' : list X) x x' :
  l1 ++ x :: l2 = l1' ++ x' :: l2' ->
  (l1 = l1' /\ x = x' /\ l2 = l2') \/
  (exists m, l1' = l1 ++ x :: m) \/ (exists m, l1 = l1' ++ x' :: m).
Proof.
  intros H. apply app_eq_inv in H as [(m & -> & Hm)|(m & -> & Hm)];
  destruct m as [|y m]; cbn in Hm; simplify_eq; rewrite ?app_nil_r; eauto.
Qed.

Lemma outcome_functional (c0 : Contract A) bs (fin : option E) c t r c' t' r' :
  outcome A c0 bs fin c t r -> outcome A c0 bs fin c' t' r' -> c = c' /\ t = t' /\ r = r'.
Proof.
  intros H1 H2.
  destruct H1 as [t c H Hf|t c e H Hf|pre b post t c e Hbs H Hf];
  destruct H2 as [t' c' H' Hf'|t' c' e' H' Hf'|pre' b' post' t' c' e' Hbs' H' Hf'];
  try congruence;
  try (by destruct (valid_run_functional _ _ _ _ _ _ H H') as [-> ->]; simplify_eq);
  try (by exfalso; subst bs; apply valid_run_at in H as (t2 & c2 & H2 & Hv & _);
       destruct (valid_run_functional _ _ _ _ _ _ H2 H') as [-> ->]; eapply valid_not_fails);
  try (by exfalso; subst bs; apply valid_run_at in H' as (t2 & c2 & H2 & Hv & _);
       destruct (valid_run_functional _ _ _ _ _ _ H2 H) as [-> ->]; eapply valid_not_fails).
  subst bs. apply app_cons_cases in Hbs' as [(-> & -> & ->)|[[m ->]|[m ->]]].
  - destruct (valid_run_functional _ _ _ _ _ _ H H') as [-> ->].
    by pose proof (fails_functional _ _ _ _ _ _ Hf Hf') as ->.
  - exfalso. apply valid_run_at in H' as (t2 & c2 & H2 & Hv & _).
    destruct (valid_run_functional _ _ _ _ _ _ H2 H) as [-> ->]. by eapply valid_not_fails.
  - exfalso. apply valid_run_at in H as (t2 & c2 & H2 & Hv & _).
    destruct (valid_run_functional _ _ _ _ _ _ H2 H') as [-> ->]. by eapply valid_not_fails.
Qed.

(** ** The refinement *)
Theorem evaluate_iff_outcome (c0 : Contract A) bs (fin : option E) c t r :
  evaluate A c0 bs fin = (c, t, Some r) <-> outcome A c0 bs fin c t r.
Proof.
  destruct (evaluate_outcome c0 bs fin) as (c' & t' & r' & Heq & Hout). rewrite Heq. split.
  - by intros [= <- <- <-].
  - intros H. by destruct (outcome_functional _ _ _ _ _ _ _ _ _ H Hout) as (-> & -> & ->).
Qed.

Theorem evaluate_ok_iff (c0 : Contract A) bs c t :
  evaluate A c0 bs (None : option E) = (c, t, Some (Ok tt)) <->
  exists t', valid_run A c0 bs t' c /\ t = [CallContractId; CallCodex] ++ t' ++ [CallRead].
Proof.
  rewrite evaluate_iff_outcome. split.
  - intros H. inversion H; subst. eauto.
  - intros (t' & H & ->). by constructor.
Qed.

(** The evaluation always returns. *)
Corollary evaluate_returns (c0 : Contract A) bs (fin : option E) :
  exists c t r, evaluate A c0 bs fin = (c, t, Some r).
Proof. destruct (evaluate_outcome c0 bs fin) as (c & t & r & H & _). eauto. Qed.

End refine.
