(** * Facts about the model of [evaluate]: one pass of the loop against [Spec.v] *)
From Verif Require Export Spec Evaluate.
From stdpp Require Import fin_maps fin_map_dom.
From Coq Require Import Lia.

Section facts.
Context {P : SealProtocol} {U : Ultrasonic} (A : ContractApi P U) {E : Type}.

Notation Block := (OperationSeals P).
Notation VError := (VerificationError P U E).
Notation Calls := (list (call P U)).
Notation id_of := (id_of (U:=U)).
Notation reveals := (reveals (U:=U)).
Notation live := (live (U:=U)).
Notation spends := (spends (U:=U)).
Notation message_of := (message_of (U:=U)).
Notation properly_closed := (properly_closed (U:=U)).

(** ** Sets of tokens *)
Lemma elem_of_defined_tokens (op : Operation) t :
  t ∈ defined_tokens op <-> exists cell, cell ∈ op_destructible_out op /\ t = cell_auth cell.
Proof.
  unfold defined_tokens. rewrite elem_of_list_to_set, elem_of_list_fmap. naive_solver.
Qed.

Lemma elem_of_reported_tokens (defs : gmap N (SealDef P)) t :
  t ∈ reported_tokens defs <-> exists pos d, defs !! pos = Some d /\ t = auth_token P d.
Proof.
  unfold reported_tokens. rewrite elem_of_list_to_set, elem_of_list_fmap. split.
  - intros ([pos d] & -> & H%elem_of_map_to_list). eauto.
  - intros (pos & d & H & ->). exists (pos, d). by rewrite elem_of_map_to_list.
Qed.

Lemma tokens_committed_subset (b : Block) :
  tokens_committed b <-> reported_tokens (defined_seals b) ⊆ defined_tokens (operation b).
Proof.
  unfold tokens_committed. split.
  - intros H t (pos & d & Hd & ->)%elem_of_reported_tokens.
    apply elem_of_defined_tokens. destruct (H _ _ Hd) as (cell & ? & ?). eauto.
  - intros H pos d Hd.
    assert (auth_token P d ∈ defined_tokens (operation b)) as Ht.
    { apply H, elem_of_reported_tokens. eauto. }
    apply elem_of_defined_tokens in Ht as (cell & ? & ?). eauto.
Qed.

Lemma token_sets_spec (b : Block) :
  token_sets b (reported_tokens (defined_seals b)) (defined_tokens (operation b)).
Proof. split; intros t; [apply elem_of_reported_tokens | apply elem_of_defined_tokens]. Qed.

Lemma token_sets_unique (b : Block) r d r' d' :
  token_sets b r d -> token_sets b r' d' -> r = r' /\ d = d'.
Proof. intros [H1 H2] [H3 H4]. split; apply set_eq; intros t; naive_solver. Qed.

(** ** [extend_seals] *)
Lemma extend_seals_snoc (m : gmap CellAddr (Seal P)) l e :
  extend_seals m (l ++ [e]) = <[e.1 := e.2]> (extend_seals m l).
Proof. unfold extend_seals. by rewrite foldl_app. Qed.

Lemma extend_seals_lookup (m : gmap CellAddr (Seal P)) l a s :
  NoDup l.*1 ->
  extend_seals m l !! a = Some s <->
  (a, s) ∈ l \/ (a ∉ l.*1 /\ m !! a = Some s).
Proof.
  revert s. induction l as [|[a' s'] l IH] using rev_ind; intros s Hnd.
  - unfold extend_seals; cbn. set_solver.
  - rewrite extend_seals_snoc.
    rewrite fmap_app in Hnd. cbn in Hnd. apply NoDup_app in Hnd as (Hnd & Hn & _).
    rewrite lookup_insert_Some, (IH _ Hnd), fmap_app. cbn.
    assert (a' ∉ l.*1) as Hn' by (intros H; apply (Hn a' H); set_solver).
    rewrite not_elem_of_app, elem_of_app, !elem_of_list_singleton.
    assert ((a, s) ∈ l -> a <> a') as Hl.
    { intros Hin ->. apply Hn', elem_of_list_fmap. by exists (a', s). }
    naive_solver.
Qed.

(** The order in which the seal sources are inserted does not matter. *)
Lemma extend_seals_perm (m : gmap CellAddr (Seal P)) l1 l2 :
  NoDup l1.*1 -> l1 ≡ₚ l2 -> extend_seals m l1 = extend_seals m l2.
Proof.
  intros Hnd Hp. apply map_eq. intros a.
  assert (NoDup l2.*1) as Hnd2 by (by rewrite <- Hp).
  apply option_eq. intros s. rewrite !extend_seals_lookup by done. by rewrite Hp.
Qed.

(** ** Seal sources *)
Lemma elem_of_complete_sources opid (defs : gmap N (SealDef P)) a s :
  (a, s) ∈ complete_sources opid defs <->
  cell_opid a = opid /\ exists d, defs !! cell_pos a = Some d /\ to_src P d = Some s.
Proof.
  unfold complete_sources. rewrite elem_of_list_omap. split.
  - intros ([pos d] & H%elem_of_map_to_list & Hs); cbn in *.
    destruct (to_src P d) eqn:Hd; simplify_eq; cbn. eauto.
  - intros (<- & d & Hd & Hs). exists (cell_pos a, d). rewrite elem_of_map_to_list. cbn.
    split; [done|]. rewrite Hs. by destruct a.
Qed.

Lemma elem_of_resolved_sources opid (defs : gmap N (SealDef P)) wid a s :
  (a, s) ∈ resolved_sources opid defs wid <->
  cell_opid a = opid /\
  exists d, defs !! cell_pos a = Some d /\ to_src P d = None /\ s = resolve P d wid.
Proof.
  unfold resolved_sources. rewrite elem_of_list_omap. split.
  - intros ([pos d] & H%elem_of_map_to_list & Hs); cbn in *.
    destruct (to_src P d) eqn:Hd; simplify_eq; cbn. eauto 10.
  - intros (<- & d & Hd & Hn & ->). exists (cell_pos a, d). rewrite elem_of_map_to_list. cbn.
    split; [done|]. rewrite Hn. by destruct a.
Qed.

Lemma NoDup_fst_omap {K V W} (f : K * V -> option (CellAddr * W)) (l : list (K * V)) :
  (forall e e' x x', f e = Some x -> f e' = Some x' -> x.1 = x'.1 -> e.1 = e'.1) ->
  NoDup l.*1 -> NoDup (omap f l).*1.
Proof.
  intros Hf. induction l as [|e l IH]; intros Hnd; [constructor|]. cbn in *.
  apply NoDup_cons in Hnd as [Hn Hnd].
  destruct (f e) as [x|] eqn:He; [|by apply IH]. cbn. constructor; [|by apply IH].
  intros (x' & Hx & ([e' He' ] & Hin & Hfe)%elem_of_list_omap)%elem_of_list_fmap.
  apply Hn. apply elem_of_list_fmap. exists (e', He'). split; [|done]. by eapply Hf.
Qed.

Lemma complete_sources_NoDup opid (defs : gmap N (SealDef P)) :
  NoDup (complete_sources opid defs).*1.
Proof.
  apply NoDup_fst_omap; [|apply NoDup_fst_map_to_list].
  intros [p d] [p' d'] x x' H1 H2 Heq; cbn in *.
  destruct (to_src P d), (to_src P d'); simplify_eq; cbn in *. by simplify_eq.
Qed.

Lemma resolved_sources_NoDup opid (defs : gmap N (SealDef P)) wid :
  NoDup (resolved_sources opid defs wid).*1.
Proof.
  apply NoDup_fst_omap; [|apply NoDup_fst_map_to_list].
  intros [p d] [p' d'] x x' H1 H2 Heq; cbn in *.
  destruct (to_src P d), (to_src P d'); simplify_eq; cbn in *. by simplify_eq.
Qed.

Lemma all_sources_NoDup opid (defs : gmap N (SealDef P)) wid :
  NoDup (complete_sources opid defs ++ resolved_sources opid defs wid).*1.
Proof.
  rewrite fmap_app. apply NoDup_app. split; [apply complete_sources_NoDup|].
  split; [|apply resolved_sources_NoDup].
  intros a ([a1 s1] & -> & H1)%elem_of_list_fmap ([a2 s2] & Ha & H2)%elem_of_list_fmap.
  cbn in *. subst a2.
  apply elem_of_complete_sources in H1 as (_ & d & Hd & Hs).
  apply elem_of_resolved_sources in H2 as (_ & d' & Hd' & Hn & _). congruence.
Qed.

(** The sources computed by the code, without the monad. *)
Definition sources_of (b : Block) : list (CellAddr * Seal P) :=
  complete_sources (opid_of U (operation b)) (defined_seals b) ++
  match witness b with
  | Some w => resolved_sources (opid_of U (operation b)) (defined_seals b) (pub_id P (published w))
  | None => []
  end.

Lemma elem_of_sources_of (b : Block) a s :
  (a, s) ∈ sources_of b <-> reveals b a s.
Proof.
  unfold sources_of, reveals, id_of. rewrite elem_of_app, elem_of_complete_sources.
  destruct (witness b) as [w|].
  - rewrite elem_of_resolved_sources. naive_solver.
  - rewrite elem_of_nil. naive_solver.
Qed.

Lemma sources_of_NoDup (b : Block) : NoDup (sources_of b).*1.
Proof.
  unfold sources_of. destruct (witness b); [apply all_sources_NoDup|].
  rewrite app_nil_r. apply complete_sources_NoDup.
Qed.

Lemma reveals_functional (b : Block) a s s' :
  reveals b a s -> reveals b a s' -> s = s'.
Proof.
  intros (_ & d & Hd & H1) (_ & d' & Hd' & H2). naive_solver.
Qed.

Lemma reveals_dec (b : Block) a :
  (exists s, reveals b a s) \/ (forall s, ~ reveals b a s).
Proof.
  destruct (decide (a ∈ (sources_of b).*1)) as [Hin|Hn].
  - left. apply elem_of_list_fmap in Hin as ([a' s] & -> & Hin). exists s.
    by apply elem_of_sources_of.
  - right. intros s Hs. apply Hn, elem_of_list_fmap. exists (a, s).
    split; [done|]. by apply elem_of_sources_of.
Qed.

(** ** Liveness *)
Lemma live_nil a s : ~ live ([] : list Block) a s.
Proof. intros (i & b & H & _). done. Qed.

Lemma live_snoc (h : list Block) b a s :
  live (h ++ [b]) a s <->
  reveals b a s \/
  (live h a s /\ ~ consumes b a /\ forall s', ~ reveals b a s').
Proof.
  split.
  - intros (i & b0 & Hi & Hr & Hlater).
    apply lookup_app_Some in Hi as [Hi|[Hge Hi]].
    + right.
      assert (i < length h) as Hlt by (by eapply lookup_lt_Some).
      destruct (Hlater (length h) b) as [Hc Hn]; [lia|by rewrite list_lookup_middle|].
      split; [|done]. exists i, b0. split; [done|]. split; [done|].
      intros j b' Hj Hb'. apply (Hlater j b' Hj). by apply lookup_app_l_Some.
    + apply list_lookup_singleton_Some in Hi as [? <-]. by left.
  - intros [Hr|((i & b0 & Hi & Hr & Hlater) & Hc & Hn)].
    + exists (length h), b. split; [by rewrite list_lookup_middle|]. split; [done|].
      intros j b' Hj Hb'. apply lookup_lt_Some in Hb'. rewrite app_length in Hb'. cbn in Hb'. lia.
    + exists i, b0. split; [by apply lookup_app_l_Some|]. split; [done|].
      intros j b' Hj [Hb'|[Hge Hb']]%lookup_app_Some; [by eapply Hlater|].
      apply list_lookup_singleton_Some in Hb' as [_ <-]. done.
Qed.

Lemma live_functional (h : list Block) a s s' :
  live h a s -> live h a s' -> s = s'.
Proof.
  induction h as [|b h IH] using rev_ind; intros H1 H2; [by apply live_nil in H1|].
  apply live_snoc in H1 as [H1|(H1 & _ & Hn1)], H2 as [H2|(H2 & _ & Hn2)].
  - by eapply reveals_functional.
  - by destruct (Hn2 s).
  - by destruct (Hn1 s').
  - by apply IH.
Qed.

(** The invariant of the loop: the map of seals is exactly the live seals. *)
Definition tracks (seals : gmap CellAddr (Seal P)) (h : list Block) : Prop :=
  forall a s, seals !! a = Some s <-> live h a s.

Lemma tracks_nil : tracks ∅ [].
Proof. intros a s. rewrite lookup_empty. split; [done|]. by intros ?%live_nil. Qed.

Lemma tracks_unique seals seals' h :
  tracks seals h -> tracks seals' h -> seals = seals'.
Proof.
  intros H1 H2. apply map_eq. intros a. apply option_eq. intros s. by rewrite (H1 a s), (H2 a s).
Qed.

Definition delete_all (l : list CellAddr) (m : gmap CellAddr (Seal P)) : gmap CellAddr (Seal P) :=
  foldl (fun m a => delete a m) m l.

Lemma delete_all_lookup l m a s :
  delete_all l m !! a = Some s <-> a ∉ l /\ m !! a = Some s.
Proof.
  revert m. induction l as [|x l IH]; intros m; [cbn; set_solver|].
  change (delete_all (x :: l) m) with (delete_all l (delete x m)).
  rewrite IH, lookup_delete_Some, not_elem_of_cons. naive_solver.
Qed.

Lemma tracks_snoc seals h (b : Block) :
  tracks seals h ->
  tracks (extend_seals (delete_all (inputs_of b) seals) (sources_of b)) (h ++ [b]).
Proof.
  intros Ht a s. rewrite extend_seals_lookup by apply sources_of_NoDup.
  rewrite elem_of_sources_of, delete_all_lookup, live_snoc, (Ht a s).
  assert (a ∉ (sources_of b).*1 <-> forall s', ~ reveals b a s') as ->.
  { rewrite elem_of_list_fmap. split.
    - intros Hn s' Hs'. apply Hn. exists (a, s'). split; [done|]. by apply elem_of_sources_of.
    - intros Hn ([a' s'] & -> & Hin). eapply Hn. by apply elem_of_sources_of. }
  unfold consumes. naive_solver.
Qed.

(** ** [collect_closed] *)
Lemma collect_closed_state (ins : list Input) seals acc (st st' : Contract A * Calls) r :
  collect_closed A (E:=E) ins seals acc st = (st', r) -> st' = st.
Proof.
  revert seals acc. induction ins as [|i ins IH]; intros seals acc; cbn; [by intros [= <- _]|].
  destruct (seals !! input_addr i); [apply IH|]. by intros [= <- _].
Qed.

Lemma collect_closed_ok (ins : list Input) seals acc (st st' : Contract A * Calls) closed seals' :
  collect_closed A (E:=E) ins seals acc st = (st', Ok (closed, seals')) ->
  NoDup (input_addr <$> ins) /\
  seals' = delete_all (input_addr <$> ins) seals /\
  exists new, closed = acc ++ new /\
    Forall2 (fun a s => seals !! a = Some s) (input_addr <$> ins) new.
Proof.
  revert seals acc. induction ins as [|i ins IH]; intros seals acc; cbn.
  - intros [= <- <- <-]. split; [constructor|]. split; [done|].
    exists []. by rewrite app_nil_r.
  - destruct (seals !! input_addr i) as [s|] eqn:Hs; [|done].
    intros (Hnd & -> & new & -> & Hnew)%IH.
    split.
    + constructor; [|done]. intros Hin.
      apply elem_of_list_lookup in Hin as [k Hk].
      eapply Forall2_lookup_l in Hnew as (s' & _ & H'); [|exact Hk].
      by rewrite lookup_delete in H'.
    + split; [done|]. exists (s :: new). rewrite <-app_assoc. split; [done|].
      constructor; [done|]. eapply Forall2_impl; [exact Hnew|]. cbn.
      intros a s' H'. by apply lookup_delete_Some in H' as [_ H'].
Qed.

Lemma collect_closed_err (ins : list Input) seals acc (st st' : Contract A * Calls) e :
  collect_closed A (E:=E) ins seals acc st = (st', Err e) ->
  exists k a, e = SealUnknown a /\ (input_addr <$> ins) !! k = Some a /\
    (a ∈ take k (input_addr <$> ins) \/ seals !! a = None) /\
    (forall j a', j < k -> (input_addr <$> ins) !! j = Some a' ->
       a' ∉ take j (input_addr <$> ins) /\ is_Some (seals !! a')).
Proof.
  revert seals acc. induction ins as [|i ins IH]; intros seals acc; cbn; [done|].
  destruct (seals !! input_addr i) as [s|] eqn:Hs.
  - intros (k & a & -> & Hk & Ha & Hbefore)%IH. exists (S k), a. cbn.
    split; [done|]. split; [done|]. split.
    + rewrite lookup_delete_None in Ha. rewrite elem_of_cons. naive_solver.
    + intros [|j] a' Hj Ha'; cbn in *.
      * simplify_eq. split; [set_solver|]. by rewrite Hs.
      * destruct (Hbefore j a') as [H1 [s' H2]]; [lia|done|].
        apply lookup_delete_Some in H2 as [Hne H2]. split; [|by eexists].
        rewrite not_elem_of_cons. naive_solver.
  - intros [= _ <-]. exists 0, (input_addr i). cbn. split; [done|]. split; [done|].
    split; [by right|]. intros j a' Hj. lia.
Qed.

Lemma Forall2_tracks seals h l closed :
  tracks seals h ->
  Forall2 (fun a s => seals !! a = Some s) l closed <-> Forall2 (live h) l closed.
Proof. intros Ht. split; intros H; (eapply Forall2_impl; [exact H|]); intros a s; apply Ht. Qed.

Lemma spends_functional h (b : Block) l l' :
  spends h b l -> spends h b l' -> l = l'.
Proof.
  unfold spends. generalize (inputs_of b). intros ins [_ H1] [_ H2].
  revert l' H2. induction H1 as [|a s ins l Ha _ IH]; intros l' H2; inversion H2; subst; [done|].
  f_equal; [by eapply live_functional|by apply IH].
Qed.

(** ** One pass of the loop *)
Lemma history_snoc cid (bs : list Block) b :
  history cid (bs ++ [b]) = history cid bs ++ [seen cid bs b].
Proof. by destruct bs. Qed.

Lemma close_and_resolve_ok (b : Block) closed (c : Contract A) (t : Calls) st l :
  close_and_resolve A (E:=E) (id_of b) b closed (c, t) = (st, Ok l) ->
  properly_closed b closed /\
  st = (apply_calls A c (witness_calls b), t ++ witness_calls b) /\
  l = sources_of b.
Proof.
  unfold close_and_resolve, properly_closed, message_of, witness_calls, sources_of, id_of.
  destruct (witness b) as [w|].
  - destruct (witness_closes w closed _) as [[]|e] eqn:Hc; [|done].
    cbn. intros [= <- <-]. done.
  - rewrite !app_nil_r. destruct closed; [|done]. by intros [= <- <-].
Qed.

Lemma close_and_resolve_err (b : Block) closed (c : Contract A) (t : Calls) st e :
  close_and_resolve A (E:=E) (id_of b) b closed (c, t) = (st, Err e) ->
  st = (c, t) /\
  ((exists w x, witness b = Some w /\ witness_closes w closed (message_of b) = Err x /\
      e = SealsNotClosed (pub_id P (published w)) (id_of b) x) \/
   (witness b = None /\ closed <> [] /\ e = NoWitness (id_of b))).
Proof.
  unfold close_and_resolve, message_of.
  destruct (witness b) as [w|].
  - destruct (witness_closes w closed _) as [[]|x] eqn:Hc; [done|].
    intros [= <- <-]. split; [done|]. left. eauto.
  - destruct closed; [done|]. intros [= <- <-]. split; [done|]. right. done.
Qed.

Lemma verify_unless_known_ok cid (b : Block) (c : Contract A) (t : Calls) st v :
  verify_unless_known A (E:=E) cid (operation b) (id_of b) (c, t) = (st, Ok v) ->
  vm_accepts A cid c b /\
  st = (c, t ++ query_calls A c b) /\
  v = if is_known A c (id_of b) then None
      else match vm_verdict A cid c b with Ok v => Some v | Err _ => None end.
Proof.
  unfold verify_unless_known, vm_accepts, vm_verdict, query_calls, query, bind.
  destruct (is_known A c (id_of b)) eqn:Hk.
  - intros [= <- <-]. by split_and!.
  - destruct (codex_verify U _ _ _ _ _) as [v'|e] eqn:Hv; [|done].
    intros [= <- <-]. split_and!; [by eauto| |done].
    by rewrite <-!app_assoc.
Qed.

Lemma verify_unless_known_err cid (b : Block) (c : Contract A) (t : Calls) st e :
  verify_unless_known A (E:=E) cid (operation b) (id_of b) (c, t) = (st, Err e) ->
  is_known A c (id_of b) = false /\
  st = (c, t ++ query_calls A c b) /\
  exists x, e = Vm x /\ vm_verdict A cid c b = Err x.
Proof.
  unfold verify_unless_known, vm_accepts, vm_verdict, query_calls, query, bind.
  destruct (is_known A c (id_of b)) eqn:Hk; [done|].
  destruct (codex_verify U _ _ _ _ _) as [v'|x] eqn:Hv; [done|].
  intros [= <- <-]. split_and!; [done| |by eauto]. by rewrite <-!app_assoc.
Qed.

Lemma codex_committed_first (c0 : Contract A) (bs : list Block) b :
  codex_committed A c0 bs b <->
  (is_first bs = true ->
   contract_id_bytes (op_contract_id (operation b)) = codex_id_bytes (codex_id U (codex A c0))).
Proof. unfold codex_committed. destruct bs; naive_solver. Qed.

Lemma seen_operation cid (bs : list Block) b :
  operation (seen cid bs b) = if is_first bs then with_contract_id cid (operation b) else operation b.
Proof. by destruct bs. Qed.
Lemma seen_defined_seals cid (bs : list Block) b : defined_seals (seen cid bs b) = defined_seals b.
Proof. by destruct bs. Qed.
Lemma seen_witness cid (bs : list Block) b : witness (seen cid bs b) = witness b.
Proof. by destruct bs. Qed.
Lemma seen_inputs cid (bs : list Block) b : inputs_of (seen cid bs b) = inputs_of b.
Proof. by destruct bs. Qed.

(** The body of the loop with the entry as seen by the contract. *)
Definition process_seen (cid : ContractId) (first : bool) (seals : gmap CellAddr (Seal P)) (b : Block)
    : M A (E:=E) (gmap CellAddr (Seal P)) :=
  bind A (if decide (reported_tokens (defined_seals b) ⊆ defined_tokens (operation b)) then ret A tt
          else throw A (SealsDefinitionMismatch (id_of b) (reported_tokens (defined_seals b))
                          (defined_tokens (operation b)) (seal_texts (defined_seals b)))) (fun _ =>
  bind A (collect_closed A (op_destructible_in (operation b)) seals []) (fun '(closed, seals) =>
  bind A (verify_unless_known A cid (operation b) (id_of b)) (fun verified =>
  bind A (close_and_resolve A (id_of b) b closed) (fun sources =>
  bind A (if first then ret A tt
          else match verified with
               | Some v => mutate A (CallApplyOperation v) (fun c => apply_operation A c v)
               | None => ret A tt
               end) (fun _ =>
  bind A (if decide (defined_seals b = ∅) then ret A tt
          else mutate A (CallApplySeals (id_of b) (defined_seals b))
                 (fun c => apply_seals A c (id_of b) (defined_seals b))) (fun _ =>
  ret A (extend_seals seals sources))))))).

Lemma process_block_seen (c0 : Contract A) (bs : list Block) seals b st :
  process_block A (E:=E) (contract_id A c0) (codex_id U (codex A c0)) (is_first bs) seals b st =
  if decide (is_first bs = true ->
     contract_id_bytes (op_contract_id (operation b)) = codex_id_bytes (codex_id U (codex A c0)))
  then process_seen (contract_id A c0) (is_first bs) seals (seen (contract_id A c0) bs b) st
  else (st, Err NoCodexCommitment).
Proof.
  destruct bs as [|b0 bs]; cbn [is_first].
  - match goal with |- _ = if ?D then _ else _ => destruct D as [H|H] end;
      unfold process_block; unfold bind at 1.
    + rewrite decide_True by (by apply H). done.
    + rewrite decide_False by (intros Heq; apply H; intros _; exact Heq). done.
  - rewrite decide_True by done. done.
Qed.

Lemma process_block_ok (c0 : Contract A) (bs : list Block) seals b c t st seals' :
  tracks seals (history (contract_id A c0) bs) ->
  process_block A (E:=E) (contract_id A c0) (codex_id U (codex A c0)) (is_first bs) seals b
    (c, t ++ [CallRead]) = (st, Ok seals') ->
  block_valid A c0 bs c b /\
  st = (apply_calls A c (block_effects A c0 bs c b), t ++ block_calls A c0 bs c b) /\
  tracks seals' (history (contract_id A c0) (bs ++ [b])).
Proof.
  intros Ht. rewrite process_block_seen.
  destruct (decide _) as [Hcodex|]; [|done].
  rewrite history_snoc. unfold block_valid, block_effects, block_calls, process_seen.
  cbn zeta. unfold block_effects. cbn zeta.
  generalize (seen (contract_id A c0) bs b). intros b'. unfold bind at 1.
  destruct (decide (reported_tokens _ ⊆ _)) as [Htok|]; [|done]. cbn [ret]. unfold bind at 1.
  destruct (collect_closed A _ seals [] _) as [st1 [[closed seals1]|]] eqn:Hcc; [|done].
  pose proof (collect_closed_state _ _ _ _ _ _ Hcc) as ->.
  apply collect_closed_ok in Hcc as (Hnd & -> & new & -> & Hnew). cbn in Hnew |- *.
  unfold bind at 1.
  destruct (verify_unless_known A _ _ _ _) as [st2 [v|]] eqn:Hv; [|done].
  apply verify_unless_known_ok in Hv as (Hacc & -> & ->). unfold bind at 1.
  destruct (close_and_resolve A _ _ _ _) as [st3 [l|]] eqn:Hcl; [|done].
  apply close_and_resolve_ok in Hcl as (Hclosed & -> & ->).
  intros Hrest. split.
  { split; [by apply codex_committed_first|]. split; [by apply tokens_committed_subset|].
    split; [|done]. exists new. split; [split; [done|by eapply Forall2_tracks]|done]. }
  assert (st = (apply_calls A c (witness_calls b' ++ operation_calls A (contract_id A c0) c (is_first bs) b' ++
       seals_calls b'), t ++ CallRead :: query_calls A c b' ++
        (witness_calls b' ++ operation_calls A (contract_id A c0) c (is_first bs) b' ++ seals_calls b')) /\
    seals' = extend_seals (delete_all (inputs_of b') seals) (sources_of b')) as [-> ->].
  { revert Hrest. unfold operation_calls, seals_calls, bind, mutate, ret, apply_calls, inputs_of.
    destruct (is_first bs); [|destruct (is_known A c (id_of b')) eqn:Hk;
      [|destruct (Hacc Hk) as [v Hv]; rewrite Hv]];
      (destruct (decide (defined_seals b' = ∅)); intros [= <- <-];
       rewrite ?app_nil_r, ?foldl_app; cbn; rewrite <-?app_assoc; cbn; by rewrite <-?app_assoc). }
  split; [done|]. by apply tracks_snoc.
Qed.

Lemma process_block_err (c0 : Contract A) (bs : list Block) seals b c t st e :
  tracks seals (history (contract_id A c0) bs) ->
  process_block A (E:=E) (contract_id A c0) (codex_id U (codex A c0)) (is_first bs) seals b
    (c, t ++ [CallRead]) = (st, Err e) ->
  block_fails A c0 bs c b e /\
  st = (c, t ++ failing_calls A c0 bs c b e).
Proof.
  intros Ht. rewrite process_block_seen.
  destruct (decide _) as [Hcodex|Hn].
  2:{ intros [= <- <-]. split; [|done]. constructor. by rewrite codex_committed_first. }
  apply codex_committed_first in Hcodex.
  pose proof (seen_defined_seals (contract_id A c0) bs b) as Hds.
  pose proof (seen_witness (contract_id A c0) bs b) as Hw.
  pose proof (seen_inputs (contract_id A c0) bs b) as Hin.
  unfold failing_calls, process_seen.
  set (b' := seen (contract_id A c0) bs b) in *. unfold bind at 1.
  destruct (decide (reported_tokens _ ⊆ _)) as [Htok|Htok].
  2:{ intros [= <- <-]. split; [|done]. unfold seal_texts. rewrite Hds at 2.
      apply fails_tokens; [done| |].
      - by rewrite tokens_committed_subset.
      - apply token_sets_spec. }
  apply tokens_committed_subset in Htok. cbn [ret]. unfold bind at 1.
  destruct (collect_closed A _ seals [] _) as [st1 [[closed seals1]|x]] eqn:Hcc.
  2:{ pose proof (collect_closed_state _ _ _ _ _ _ Hcc) as ->.
      apply collect_closed_err in Hcc as (k & a & -> & Hk & Ha & Hbefore).
      intros [= <- <-]. split; [|done].
      apply fails_unknown; [done..|]. exists k. split; [done|]. split.
      - intros [H1 [s H2]]. apply Ht in H2. unfold inputs_of in H1. destruct Ha as [|Ha]; [done|]. congruence.
      - intros j a' Hj Ha'. destruct (Hbefore j a' Hj Ha') as [H1 [s H2]].
        split; [done|]. exists s. by apply Ht. }
  pose proof (collect_closed_state _ _ _ _ _ _ Hcc) as ->.
  apply collect_closed_ok in Hcc as (Hnd & -> & new & -> & Hnew). cbn in Hnew |- *.
  assert (spends (history (contract_id A c0) bs) b' new) as Hsp.
  { split; [done|by eapply Forall2_tracks]. }
  unfold bind at 1.
  destruct (verify_unless_known A _ _ _ _) as [st2 [v|x]] eqn:Hv.
  2:{ apply verify_unless_known_err in Hv as (Hk & -> & x' & -> & Hv').
      intros [= <- <-]. split; [by eapply fails_vm|]. by rewrite <-app_assoc. }
  apply verify_unless_known_ok in Hv as (Hacc & -> & ->). unfold bind at 1.
  destruct (close_and_resolve A _ _ _ _) as [st3 [l|x]] eqn:Hcl.
  2:{ apply close_and_resolve_err in Hcl as (-> & [(w & x' & Hw' & Hc & ->)|(Hw' & Hne & ->)]);
      intros [= <- <-]; rewrite <-app_assoc; (split; [|done]).
      - rewrite Hw in Hw'. by eapply fails_closing.
      - rewrite Hw in Hw'. eapply fails_no_witness; try done.
        intros Hnil. destruct Hsp as [_ Hsp]. rewrite Hin, Hnil in Hsp. inversion Hsp. by subst. }
  clear. intros Hx. exfalso. revert Hx. destruct st3. unfold bind, mutate, ret.
  destruct (is_first bs); [|destruct (is_known A c (id_of b')); [|destruct (vm_verdict A _ _ _)]];
    destruct (decide (defined_seals b' = ∅)); discriminate.
Qed.

End facts.
