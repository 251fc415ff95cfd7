(** * Consensus on a chain: conflicts are excluded by seals being single-use *)
From Verif Require Export Sharing DoubleSpend.
From Coq Require Import Lia.

(** A session ([session] of Laws.v), with the consignments evaluated in it. *)
Inductive session_of {P U} (A : ContractApi P U) (E : Type) (c0 : Contract A)
    : list (list (OperationSeals P)) -> list (call P U) -> Contract A -> Prop :=
| session_of_start : session_of A E c0 [] [] c0
| session_of_step L l c bs (fin : option E) c' t1 t2 r :
    session_of A E c0 L l c ->
    evaluate A c bs fin = (c', t1 ++ t2, Some r) ->
    session_of A E c0 (L ++ [bs]) (l ++ t1) (apply_calls A c t1).

(** The premises of C32, for all entries there are: seals denoted by them are single-use,
    witnesses are on chain, ids and tokens do not collide, definitions are reported at the positions of the
    cells with their tokens, and operations without inputs define complete seals
    or come without a witness. *)
Record on_one_chain {P U} (on_chain : SealWitness P -> Prop) (h : list (OperationSeals P)) : Prop := {
  chain_single_use : forall s, denoted P h s -> single_use P on_chain s;
  chain_closed_by_one : forall s, denoted P h s -> closed_by_one P on_chain s;
  chain_messages : messages_differ P;
  chain_anchored : anchored P on_chain h;
  chain_collisions : no_collisions (U:=U) h h;
  chain_positions : Forall positions_bound h;
  chain_roots : all_settled h
}.

Section consensus.
Context {P : SealProtocol} {U : Ultrasonic} (A : ContractApi P U) {E X : Type}.
Context (peek : Contract A -> Slot -> option X) (out : Operation -> Slot -> option X).
Context (gone : Operation -> Slot -> bool).
Hypothesis Hcells : keeps_cells A peek out gone.
Hypothesis Hrem : remembers A.
Hypothesis Hfaith : faithful U.
Hypothesis Hneeds : needs_inputs A peek.

Notation Block := (OperationSeals P).
Notation id_of := (id_of (U:=U)).
Notation intact := (intact A peek).
Notation on_one_chain := (on_one_chain (U:=U)).
Notation accepted c0 bs c t := (evaluate A (E:=E) c0 bs None = (c, t, Some (Ok tt))).

Lemma session_of_session c0 L l c : session_of A E c0 L l c -> session A E c0 l c.
Proof. induction 1; [constructor|]. by eapply session_step. Qed.
Lemma session_session_of c0 l c : session A E c0 l c -> exists L, session_of A E c0 L l c.
Proof.
  induction 1 as [|l c bs fin c' t1 t2 r Hs [L IH] Hev]; [exists []; constructor|].
  exists (L ++ [bs]). by eapply session_of_step.
Qed.

(** An applied operation is in an accepted part of the consignment. *)
Lemma applied_in_accepted c bs (fin : option E) d t r op :
  evaluate A c bs fin = (d, t, Some r) -> op ∈ applied_operations t ->
  exists pre b c' t', pre `prefix_of` bs /\ accepted c pre c' t' /\
    b ∈ history (contract_id A c) pre /\ operation b = op.
Proof.
  intros H%evaluate_iff_outcome Hop.
  assert (exists bs' t' c' k, bs' `prefix_of` bs /\ valid_run A c bs' t' c' /\
    t = [CallContractId; CallCodex] ++ t' ++ k /\ applied_operations k = [])
    as (bs' & t' & c' & k & Hpre & Hrun & -> & Hk).
  { inversion H; subst.
    - exists bs, t0, d, [CallRead]. done.
    - exists bs, t0, d, [CallRead]. done.
    - eexists pre, t0, d, _. split; [by exists (b :: post)|]. split; [done|]. split; [done|].
      unfold failing_calls, query_calls. destruct e; try case_match; done. }
  assert (op ∈ applied_operations t') as Hop'.
  { unfold applied_operations in *. rewrite !omap_app, Hk, app_nil_r in Hop. done. }
  apply elem_of_list_omap in Hop' as (e & He & Heop).
  destruct e as [ | | | | | | |v|]; try done. cbn in Heop. injection Heop as <-.
  apply elem_of_list_split in He as (k1 & k2 & ->).
  destruct (run_call_inv A _ _ _ _ _ _ _ Hrun eq_refl)
    as (pre & b & post & t0 & c1 & s1 & s2 & s3 & -> & _ & _ & _ & Hb & _).
  apply (block_calls_apply A) in Hb as (Hne & _ & Hv & _).
  eexists _, b, c', _. split; [exact Hpre|]. split; [apply evaluate_ok_iff; eexists; split; [exact Hrun|done]|].
  split; [|by rewrite (Hfaith _ _ _ _ _ _ Hv)].
  destruct pre as [|b0 pre]; [done|]. cbn. apply elem_of_cons. right. apply elem_of_app. right. by left.
Qed.

Lemma history_prefix cid (pre bs : list Block) : pre `prefix_of` bs -> history cid pre ⊆ history cid bs.
Proof.
  intros [k ->]. destruct pre as [|b pre]; cbn; intros x Hx; [by apply elem_of_nil in Hx|].
  apply elem_of_cons. apply elem_of_cons in Hx as [Hx|Hx]; [by left|right]. apply elem_of_app. by left.
Qed.
Lemma all_entries_elem cid (L : list (list Block)) bs : bs ∈ L -> history cid bs ⊆ all_entries cid L.
Proof.
  intros Hbs b Hb. unfold all_entries. apply elem_of_list_join. exists (history cid bs). split; [done|].
  apply elem_of_list_fmap. by exists bs.
Qed.

(** The operation [op] is in an accepted part of a consignment among [L]. *)
Definition accepted_in (cid : ContractId) (L : list (list Block)) (op : Operation) : Prop :=
  exists bs pre c c' t' b, bs ∈ L /\ pre `prefix_of` bs /\ contract_id A c = cid /\
    accepted c pre c' t' /\ b ∈ history cid pre /\ operation b = op.

Lemma accepted_in_sub cid L L' op : L ⊆ L' -> accepted_in cid L op -> accepted_in cid L' op.
Proof. intros HL (bs & pre & c & c' & t' & b & H & ?). exists bs, pre, c, c', t', b. split; [by apply HL|done]. Qed.

Lemma session_accepted_in c0 L l c op :
  intact c0 -> session_of A E c0 L l c -> op ∈ applied_operations l ->
  accepted_in (contract_id A c0) L op.
Proof.
  intros Hint H. induction H as [|L l c bs fin c' t1 t2 r Hs IH Hev]; intros Hop.
  { by apply elem_of_nil in Hop. }
  unfold applied_operations in Hop. rewrite omap_app, elem_of_app in Hop. destruct Hop as [Hop|Hop].
  - eapply accepted_in_sub; [|by apply IH]. intros x Hx. apply elem_of_app. by left.
  - destruct (applied_in_accepted _ _ _ _ _ _ op Hev) as (pre & b & d & t' & Hp & Hacc & Hb & Hbo).
    { unfold applied_operations. rewrite omap_app, elem_of_app. by left. }
    assert (contract_id A c = contract_id A c0) as Hc.
    { apply (session_state A (E:=E) peek out gone Hcells Hrem Hfaith c0 l c Hint). by eapply session_of_session. }
    rewrite Hc in Hb.
    exists bs, pre, c, d, t', b. split; [|done]. apply elem_of_app. right. by left.
Qed.

Lemma accepted_in_sound on_chain cid L op :
  on_one_chain on_chain (all_entries cid L) -> accepted_in cid L op ->
  exists pre c c' t' b, contract_id A c = cid /\ accepted c pre c' t' /\
    b ∈ history cid pre /\ operation b = op /\ history cid pre ⊆ all_entries cid L /\ anchored P on_chain pre.
Proof.
  intros Hch (bs & pre & c & c' & t' & b & Hbs & Hp & Hc & Hacc & Hb & Ho).
  assert (history cid pre ⊆ all_entries cid L) as Hsub.
  { intros x Hx. eapply all_entries_elem; [done|]. by eapply history_prefix. }
  exists pre, c, c', t', b. split; [done|]. split; [done|]. split; [done|]. split; [done|]. split; [done|].
  intros b1 w Hb1 Hw. pose proof (chain_anchored _ _ Hch) as Han.
  destruct pre as [|b0 pre]; [by apply elem_of_nil in Hb1|]. apply elem_of_cons in Hb1 as [->|Hb1].
  - apply (Han (seen_first cid b0)); [|done]. apply Hsub. by left.
  - apply (Han b1); [|done]. apply Hsub. cbn. by right.
Qed.

Lemma denoted_sub (h h' : list Block) s : h ⊆ h' -> denoted P h s -> denoted P h' s.
Proof.
  intros Hsub (b & pos & d & Hb & Hd & Hs). exists b, pos, d. split; [auto|]. split; [done|].
  destruct Hs as [Hs|(Hn & b' & w & Hb' & Hs)]; [by left|]. right. split; [done|]. exists b', w. auto.
Qed.

(** No two different operations in accepted parts consume the same cell. *)
Lemma accepted_no_double_spend on_chain cid L op op' a :
  on_one_chain on_chain (all_entries cid L) ->
  accepted_in cid L op -> accepted_in cid L op' ->
  a ∈ input_addr <$> op_destructible_in op -> a ∈ input_addr <$> op_destructible_in op' -> op = op'.
Proof.
  intros Hch H H' Ha Ha'.
  destruct (accepted_in_sound _ _ _ _ Hch H) as (pre & c & c' & t & b & Hc & Hacc & Hb & <- & Hsub & Han).
  destruct (accepted_in_sound _ _ _ _ Hch H') as (pre' & c1 & c1' & t' & b' & Hc' & Hacc' & Hb' & <- & Hsub' & Han').
  destruct Hch as [Hsu Hone Hmsg _ [Hops Hdefs] Hpos Hroots].
  apply elem_of_list_lookup in Hb as [i Hi], Hb' as [i' Hi'].
  rewrite list.Forall_forall in Hpos.
  subst cid. rewrite <-Hc' in Hi'.
  refine (proj2 (no_double_spend A A on_chain c c1 pre pre' c' c1' t t' Hacc Hacc' Han Han' _ _ _ _ _
    i i' b b' a _ Hmsg Hi Ha Hi' Ha')).
  - intros s Hs. apply Hone. exact (denoted_sub _ _ s Hsub Hs).
  - rewrite Hc'. split.
    + intros x x' Hx Hx'. apply Hops; auto.
    + intros x x' p p' d d' Hx Hx'. apply (Hdefs x x'); auto.
  - apply list.Forall_forall. auto.
  - rewrite Hc'. apply list.Forall_forall. auto.
  - apply list.Forall_forall. intros x Hx Hin p d Hd Hn. apply (Hroots x x p d); auto.
  - intros s Hs. apply Hsu. exact (denoted_sub _ _ s Hsub Hs).
Qed.

Lemma accepted_no_conflict on_chain cid L ops :
  on_one_chain on_chain (all_entries cid L) ->
  (forall op, op ∈ ops -> accepted_in cid L op) -> no_conflict gone ops.
Proof.
  intros Hch Hin op op' s Hop Hop' Hg Hr.
  destruct (gone_input _ _ _ _ Hcells op s Hg) as (a & -> & Ha).
  eapply (accepted_no_double_spend on_chain cid L op op' a); auto.
  apply elem_of_app in Hr as [Hr|Hr]; apply elem_of_list_fmap in Hr as (x & Hx & Hr); [|done].
  by injection Hx as ->.
Qed.

Lemma accepted_ids_apart on_chain cid L ops :
  on_one_chain on_chain (all_entries cid L) ->
  (forall op, op ∈ ops -> accepted_in cid L op) -> ids_apart (U:=U) ops ops.
Proof.
  intros Hch Hin op op' Hop Hop' Hid.
  destruct (accepted_in_sound _ _ _ _ Hch (Hin _ Hop)) as (pre & c & c' & t & b & Hc & Hacc & Hb & <- & Hsub & _).
  destruct (accepted_in_sound _ _ _ _ Hch (Hin _ Hop')) as (pre' & c1 & c1' & t' & b' & Hc' & Hacc' & Hb' & <- & Hsub' & _).
  apply (chain_collisions _ _ Hch); auto.
Qed.

(** ** C53 *)
Lemma chain_consensus on_chain c0 L l c L' l' c' bs d t :
  intact c0 -> session_of A E c0 L l c -> session_of A E c0 L' l' c' ->
  on_one_chain on_chain (all_entries (contract_id A c0) (L ++ L' ++ [bs])) ->
  self_contained A c0 (history (contract_id A c0) bs) ->
  accepted c bs d t ->
  exists d' t', accepted c' bs d' t' /\
    List.filter (fun e => negb (is_apply e)) (mutations t') =
    List.filter (fun e => negb (is_apply e)) (mutations t).
Proof.
  intros Hint Hs Hs' Hch Hself Hacc.
  assert (contract_id A c = contract_id A c0) as Hc.
  { apply (session_state A (E:=E) peek out gone Hcells Hrem Hfaith c0 l c Hint). by eapply session_of_session. }
  assert (forall op, op ∈ applied_operations l ++ applied_operations l' ++
    (operation <$> history (contract_id A c0) bs) ->
    accepted_in (contract_id A c0) (L ++ L' ++ [bs]) op) as Hin.
  { intros op. rewrite !elem_of_app. intros [Hop|[Hop|Hop]].
    - eapply accepted_in_sub; [|exact (session_accepted_in c0 L l c op Hint Hs Hop)]. intros x Hx. apply elem_of_app. by left.
    - eapply accepted_in_sub; [|exact (session_accepted_in c0 L' l' c' op Hint Hs' Hop)]. intros x Hx.
      rewrite !elem_of_app. right. by left.
    - apply elem_of_list_fmap in Hop as (b & -> & Hb).
      exists bs, bs, c, d, t, b. split; [rewrite !elem_of_app; right; right; by left|]. done. }
  apply (consensus A peek out gone Hcells Hrem Hfaith Hneeds c0 l c l' c' bs None d t (Ok tt)); try done.
  - by eapply session_of_session.
  - by eapply session_of_session.
  - by eapply accepted_ids_apart.
  - by eapply accepted_no_conflict.
Qed.

Lemma on_one_chain_sub (on_chain : SealWitness P -> Prop) (h h' : list Block) : h ⊆ h' -> on_one_chain on_chain h' -> on_one_chain on_chain h.
Proof.
  intros Hsub [H1 H2 H3 H4 [H5 H5'] H6 H7]. rewrite list.Forall_forall in H6. split; try done.
  - intros s Hs. apply H1. by eapply denoted_sub.
  - intros s Hs. apply H2. by eapply denoted_sub.
  - intros b w Hb. apply H4. auto.
  - split; [intros b b' Hb Hb'; apply H5; auto|]. intros b b' p p' x x' Hb Hb'. apply (H5' b b'); auto.
  - apply list.Forall_forall. auto.
  - intros b b' pos x Hb Hb'. apply H7; auto.
Qed.

Lemma all_entries_sub cid (L L' : list (list Block)) :
  (forall bs, bs ∈ L -> exists bs', bs' ∈ L' /\ bs `prefix_of` bs') -> all_entries cid L ⊆ all_entries cid L'.
Proof.
  intros H b Hb. unfold all_entries in Hb. apply elem_of_list_join in Hb as (h & Hb & Hh).
  apply elem_of_list_fmap in Hh as (bs & -> & Hbs). destruct (H bs Hbs) as (bs' & Hbs' & Hp).
  eapply all_entries_elem; [done|]. by eapply history_prefix.
Qed.

Lemma chain_consensus_iff on_chain c0 L l c L' l' c' bs :
  intact c0 -> session_of A E c0 L l c -> session_of A E c0 L' l' c' ->
  on_one_chain on_chain (all_entries (contract_id A c0) (L ++ L' ++ [bs])) ->
  self_contained A c0 (history (contract_id A c0) bs) ->
  forall pre, pre `prefix_of` bs ->
  (exists d t, accepted c pre d t) <-> (exists d' t', accepted c' pre d' t').
Proof.
  intros Hint Hs Hs' Hch Hself pre Hp.
  assert (self_contained A c0 (history (contract_id A c0) pre)) as Hself'.
  { destruct Hp as [k ->]. destruct pre as [|b pre].
    - intros i b s Hi. done.
    - eapply self_contained_prefix. exact Hself. }
  split; intros (d & t & Hacc).
  - destruct (chain_consensus on_chain c0 L l c L' l' c' pre d t) as (d' & t' & H & _); try done; [|eauto].
    eapply on_one_chain_sub; [|done]. apply all_entries_sub. intros x Hx. rewrite !elem_of_app in Hx.
    destruct Hx as [Hx|[Hx|Hx]]; [| |apply elem_of_list_singleton in Hx as ->].
    + exists x. rewrite !elem_of_app. auto.
    + exists x. rewrite !elem_of_app. auto.
    + exists bs. rewrite !elem_of_app. split; [right; right; by left|done].
  - destruct (chain_consensus on_chain c0 L' l' c' L l c pre d t) as (d' & t' & H & _); try done; [|eauto].
    eapply on_one_chain_sub; [|done]. apply all_entries_sub. intros x Hx. rewrite !elem_of_app in Hx.
    destruct Hx as [Hx|[Hx|Hx]]; [| |apply elem_of_list_singleton in Hx as ->].
    + exists x. rewrite !elem_of_app. auto.
    + exists x. rewrite !elem_of_app. auto.
    + exists bs. rewrite !elem_of_app. split; [right; right; by left|done].
Qed.

Lemma chain_any_order on_chain (c : Contract A) (L : list (list Block)) :
  intact c ->
  (forall bs, bs ∈ L -> exists c1 t, accepted c bs c1 t) ->
  on_one_chain on_chain (all_entries (contract_id A c) L) ->
  forall L1 L2, Permutation L L1 -> Permutation L L2 ->
  exists c1 c2, evaluates_all A E c L1 c1 /\ evaluates_all A E c L2 c2 /\ same_state A peek c1 c2 /\
    forall o, is_known A c1 o = true <-> is_known A c o = true \/
      exists bs b, bs ∈ L /\ b ∈ tail (history (contract_id A c) bs) /\ id_of b = o.
Proof.
  intros Hint Hall Hch.
  assert (forall op, op ∈ operation <$> all_entries (contract_id A c) L ->
    accepted_in (contract_id A c) L op) as Hin.
  { intros op Hop. apply elem_of_list_fmap in Hop as (b & -> & Hb). unfold all_entries in Hb.
    apply elem_of_list_join in Hb as (h & Hb & Hh). apply elem_of_list_fmap in Hh as (bs & -> & Hbs).
    destruct (Hall bs Hbs) as (c1 & t & Hacc). exists bs, bs, c, c1, t, b. done. }
  apply (any_order A peek out gone Hcells Hrem Hfaith Hneeds); try done.
  - by eapply accepted_ids_apart.
  - by eapply accepted_no_conflict.
Qed.
End consensus.
