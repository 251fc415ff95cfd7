(** * Consignments shared between verifiers: selecting and reordering entries, contracts
    with different knowledge, several consignments in any order *)
From Verif Require Export CellFacts.
From Coq Require Import Lia.

(** Evaluating several consignments one after the other, all successfully. *)
Inductive evaluates_all {P U} (A : ContractApi P U) (E : Type)
    : Contract A -> list (list (OperationSeals P)) -> Contract A -> Prop :=
| evaluates_none c : evaluates_all A E c [] c
| evaluates_next c bs c1 t L c2 :
    evaluate A (E:=E) c bs None = (c1, t, Some (Ok tt)) ->
    evaluates_all A E c1 L c2 ->
    evaluates_all A E c (bs :: L) c2.

Section sharing.
Context {P : SealProtocol} {U : Ultrasonic} (A : ContractApi P U) {E : Type}.
Context {X : Type} (peek : Contract A -> Slot -> option X) (out : Operation -> Slot -> option X).
Context (gone : Operation -> Slot -> bool).

Notation Block := (OperationSeals P).
Notation VError := (VerificationError P U E).
Notation Calls := (list (call P U)).
Notation id_of := (id_of (U:=U)).
Notation live := (live (U:=U)).
Notation intact := (intact A peek).
Notation knows_more := (knows_more A peek).
Notation holds_as := (holds_as A peek out gone).
Notation undisturbed := (undisturbed A peek out).
Notation no_conflict := (no_conflict gone).
Notation same_state := (same_state A peek).

Implicit Types (c : Contract A) (bs pre post h : list Block) (b : Block) (t l : Calls) (s : Slot).

Notation accepted c0 bs c t := (evaluate A (E:=E) c0 bs None = (c, t, Some (Ok tt))).

Hypothesis Hcells : keeps_cells A peek out gone.
Hypothesis Hrem : remembers A.
Hypothesis Hfaith : faithful U.

Lemma no_gone (ops : list Operation) s :
  (exists op, op ∈ ops /\ gone op s = true) \/ (forall op, op ∈ ops -> gone op s = false).
Proof.
  destruct (decide (Exists (fun op => gone op s = true) ops)) as [H|H].
  - left. by apply list.Exists_exists.
  - right. intros op Hop. apply not_true_iff_false. intros Hg. apply H, list.Exists_exists. by exists op.
Qed.

(** ** C45 *)
Lemma selection c0 b0 rest rest' c t :
  intact c0 ->
  accepted c0 (b0 :: rest) c t ->
  let h := history (contract_id A c0) (b0 :: rest) in
  let h' := history (contract_id A c0) (b0 :: rest') in
  NoDup (id_of <$> h) -> NoDup rest' -> rest' ⊆ rest ->
  (forall b e s, b ∈ rest' -> e ∈ h -> s ∈ reads (operation b) -> slot_opid s = id_of e ->
     precedes h e b <-> precedes h' e b) ->
  exists c' t', accepted c0 (b0 :: rest') c' t' /\
    (forall b, b ∈ h' -> calls_for (id_of b) t' = calls_for (id_of b) t) /\
    (forall o, is_known A c' o = true <-> is_known A c0 o = true \/ exists b, b ∈ rest' /\ id_of b = o) /\
    (forall s, is_known A c' (slot_opid s) = true ->
       (forall b, b ∈ rest -> b ∉ rest' -> is_known A c0 (id_of b) = false -> gone (operation b) s = false) ->
       peek c' s = peek c s).
Proof.
  intros Hint Hacc h h' Hnd Hnd1 Hsub Hord.
  assert (NoDup (id_of <$> h')) as Hnd'.
  { cbn in Hnd |- *. apply list.NoDup_cons in Hnd as [Hn Hnd]. apply list.NoDup_cons. split.
    - intros Hin. apply Hn. apply elem_of_list_fmap in Hin as (x & Hx & Hin). rewrite Hx.
      apply elem_of_list_fmap_1. by apply Hsub.
    - apply NoDup_alt. intros i j o Hi Hj. rewrite list_lookup_fmap in Hi, Hj.
      destruct (rest' !! i) as [x|] eqn:Hx; [|done]. destruct (rest' !! j) as [y|] eqn:Hy; [|done].
      cbn in Hi, Hj. assert (x = y) as ->; [|by eapply NoDup_lookup].
      assert (x ∈ rest) as Hxr by (apply Hsub; by eapply elem_of_list_lookup_2).
      assert (y ∈ rest) as Hyr by (apply Hsub; by eapply elem_of_list_lookup_2).
      apply elem_of_list_lookup in Hxr as [i' Hi'], Hyr as [j' Hj'].
      assert (i' = j') as ->; [|congruence].
      eapply (NoDup_ids_inj rest); [exact Hnd|done..|congruence]. }
  pose proof Hacc as (u & Hrun & Ht)%evaluate_ok_iff.
  destruct (selection_run A peek out gone Hcells Hrem Hfaith c0 b0 rest rest' u c Hint Hrun Hnd Hnd' Hsub Hord
    (b0 :: rest') []) as (u' & c' & Hrun' & Hcalls). { by rewrite app_nil_r. }
  exists c', ([CallContractId; CallCodex] ++ u' ++ [CallRead]).
  assert (forall o k, calls_for o ([CallContractId; CallCodex] ++ k ++ [CallRead]) = calls_for (P:=P) (U:=U) o k) as Hpad.
  { intros o k. rewrite !calls_for_app. cbn. by rewrite app_nil_r. }
  destruct (run_state A peek out gone Hcells Hrem Hfaith c0 _ _ _ Hint Hrun) as (R1 & R2 & R3 & R4 & R5 & D).
  destruct (run_state A peek out gone Hcells Hrem Hfaith c0 _ _ _ Hint Hrun') as (R1' & R2' & R3' & R4' & R5' & D').
  split; [by apply valid_run_accepted|]. split.
  { intros b Hb. rewrite Ht, !Hpad. by apply Hcalls. }
  split; [exact R3'|]. intros s Hs Hdrop.
  cbn in R3, R3', R4, R4', R5, R5'. cbn in Hnd, Hnd'.
  apply list.NoDup_cons in Hnd as [_ Hnd]. 
  (* the operations applied *)
  assert (applied_operations u' ⊆ applied_operations u) as Hsubop.
  { intros op Hop. destruct (R4' op Hop) as (b & Hb & <- & Hk). apply Hsub in Hb.
    destruct (R5 b Hb Hk) as (op & Hop1 & Hid). destruct (R4 op Hop1) as (e & He & <- & _).
    assert (e = b) as ->; [|done]. apply elem_of_list_lookup in He as [i Hi], Hb as [j Hj].
    assert (i = j) as -> by (by eapply NoDup_ids_inj). congruence. }
  assert (forall op, op ∈ applied_operations u -> gone op s = true -> op ∈ applied_operations u') as Hback.
  { intros op Hop Hg. destruct (R4 op Hop) as (b & Hb & <- & Hk).
    destruct (decide (id_of b ∈ id_of <$> rest')) as [Hin|Hin].
    - apply elem_of_list_fmap in Hin as (b1 & Hid1 & Hb').
      assert (b1 = b) as ->.
      { pose proof (Hsub _ Hb') as Hb1. apply elem_of_list_lookup in Hb1 as [i Hi], Hb as [j Hj].
        assert (i = j) as -> by (by eapply NoDup_ids_inj). congruence. }
      destruct (R5' b Hb' Hk) as (op & Hop1 & Hid). destruct (R4' op Hop1) as (e & He & <- & _).
      assert (e = b) as <-; [|done]. apply Hsub in He. apply elem_of_list_lookup in He as [i Hi], Hb as [j Hj].
      assert (i = j) as -> by (by eapply NoDup_ids_inj). congruence.
    - rewrite (Hdrop b Hb) in Hg; [done| |done]. intros Hb'. apply Hin. by apply elem_of_list_fmap_1. }
  destruct D as (D1 & D2 & D3), D' as (D1' & D2' & D3').
  destruct (no_gone (applied_operations u') s) as [(op & Hop & Hg)|Hn'].
  { destruct (D1' op s Hop Hg) as [-> _]. by destruct (D1 op s (Hsubop _ Hop) Hg) as [-> _]. }
  assert (forall op, op ∈ applied_operations u -> gone op s = false) as Hn.
  { intros op Hop. destruct (gone op s) eqn:Hg; [|done]. rewrite <-(Hn' op); [done|]. by apply Hback. }
  destruct (is_known A c0 (slot_opid s)) eqn:Hk; [by rewrite D2, D2'|].
  apply R3' in Hs as [Hs|(b & Hb & Hid)]; [congruence|]. rewrite <-Hid in Hk.
  destruct (R5' b Hb Hk) as (op & Hop & Hido).
  rewrite (D3' op s), (D3 op s); try done; [by apply Hsubop|congruence..].
Qed.

(** ** C46 *)
Hypothesis Hneeds : needs_inputs A peek.

Lemma needs_known c cid b v :
  intact c -> vm_verdict A cid c b = Ok v ->
  forall s, s ∈ reads (operation b) -> is_known A c (slot_opid s) = true.
Proof.
  intros Hint Hv s Hs. destruct (Hneeds _ _ _ _ Hv s Hs) as [x Hx].
  destruct (is_known A c (slot_opid s)) eqn:Hk; [done|]. by rewrite Hint in Hx.
Qed.

Lemma more_run c0 c0' bs t c :
  intact c0 -> intact c0' -> knows_more c0 c0' ->
  undisturbed c0 c0' (history (contract_id A c0) bs) ->
  valid_run A c0 bs t c ->
  exists t' c', valid_run A c0' bs t' c' /\
    applied_operations t' ⊆ applied_operations t /\
    (forall op, op ∈ applied_operations t -> is_known A c0' (opid_of U op) = true \/ op ∈ applied_operations t') /\
    List.filter (fun e => negb (is_apply e)) (mutations t') =
    List.filter (fun e => negb (is_apply e)) (mutations t).
Proof.
  intros Hint Hint' Hmore Hfree H. induction H as [|bs t c b H IH Hv].
  { exists [], c0'. split; [constructor|]. split; [done|]. split; [|done]. intros op Hop. by apply elem_of_nil in Hop. }
  destruct IH as (t' & c' & H' & Hsub & Hback & Hmut).
  { intros x s Hx Hk Hs. destruct (Hfree x s) as [F1 F2]; [|done..|].
    - rewrite history_snoc. apply elem_of_app. by left.
    - split; [done|]. intros e He. apply F2. rewrite history_snoc. apply elem_of_app. by left. }
  destruct Hmore as [(Hcid & Hcodex & Hrepo) Hmore].
  destruct (run_state A peek out gone Hcells Hrem Hfaith c0 _ _ _ Hint H) as (R1 & R2 & R3 & R4 & R5 & D1 & D2 & D3).
  destruct (run_state A peek out gone Hcells Hrem Hfaith c0' _ _ _ Hint' H') as (R1' & R2' & R3' & R4' & R5' & D1' & D2' & D3').
  rewrite <-Hcid in R3', R4', R5'.
  set (b' := seen (contract_id A c0) bs b).
  assert (seen (contract_id A c0') bs b = b') as Hseen by (by rewrite <-Hcid).
  assert (forall o, is_known A c' o = false -> is_known A c o = false) as Hunk.
  { intros o Ho. apply not_known. intros Hk. apply not_known in Ho. apply Ho. apply R3'.
    apply R3 in Hk as [Hk|Hk]; [left; by apply Hmore|by right]. }
  assert (block_valid A c0' bs c' b) as Hv'.
  { destruct Hv as (V1 & V2 & V3 & V4). unfold block_valid. rewrite Hseen, <-Hcid.
    split. { unfold codex_committed in *. by rewrite <-Hcodex. }
    split; [done|]. split; [done|]. intros Hk'.
    destruct (V4 (Hunk _ Hk')) as [v V4v]. exists v. rewrite <-V4v. symmetry.
    apply (verdict_local A peek out gone Hcells).
    { eapply same_setting_trans; [exact R1|]. eapply same_setting_trans; [|apply same_setting_sym; exact R1']. done. }
    intros s Hs. pose proof (needs_known _ _ _ _ R2 V4v s Hs) as Hks.
    destruct (Hneeds _ _ _ _ V4v s Hs) as [x Hx].
    assert (forall op, op ∈ applied_operations t -> gone op s = false) as Hno.
    { intros op Hop. apply not_true_iff_false. intros Hg. destruct (D1 op s Hop Hg) as [Hn _]. congruence. }
    assert (forall op, op ∈ applied_operations t' -> gone op s = false) as Hno' by auto.
    destruct (Hfree b' s) as [F1 F2]; [|
      apply not_known; intros Hk0; apply not_known in Hk'; apply Hk', R3'; by left|done|].
    { rewrite history_snoc. apply elem_of_app. right. left. }
    destruct (is_known A c0 (slot_opid s)) eqn:Hk0.
    { rewrite (D2 s Hno Hk0), (D2' s Hno'); [by rewrite F1|]. by apply Hmore. }
    apply R3 in Hks as [Hks|(e & He & Hid)]; [congruence|]. rewrite <-Hid in Hk0.
    destruct (R5 e He Hk0) as (op & Hop & Hido).
    rewrite (D3 op s Hno Hop) by congruence. destruct (R4 op Hop) as (e' & He' & <- & Hke').
    destruct (Hback _ Hop) as [Hkn|Hop'].
    - rewrite (D2' s Hno') by (rewrite <-Hid, <-Hido; exact Hkn). symmetry. apply F2; [|done|done|].
      + rewrite history_snoc. apply elem_of_app. left. destruct bs; [done|]. by right.
      + change (opid_of U (operation e')) with (id_of e') in Hido. congruence.
    - rewrite (D3' _ s Hno' Hop'); [done|congruence]. }
  exists (t' ++ block_calls A c0' bs c' b), (apply_calls A c' (block_effects A c0' bs c' b)).
  split; [by constructor|].
  rewrite !applied_operations_app, !block_calls_applied, !(effects_applied A Hfaith) by done.
  rewrite Hseen. fold b'. split; [|split].
  - intros op [Hop|Hop]%elem_of_app; apply elem_of_app; [left; by apply Hsub|right].
    destruct (is_first bs); [done|]. destruct (is_known A c' (id_of b')) eqn:Hk'; [by apply elem_of_nil in Hop|].
    by rewrite (Hunk _ Hk').
  - intros op [Hop|Hop]%elem_of_app.
    + destruct (Hback op Hop) as [?|?]; [by left|right]. apply elem_of_app. by left.
    + destruct (is_first bs); [by apply elem_of_nil in Hop|].
      destruct (is_known A c (id_of b')) eqn:Hk; [by apply elem_of_nil in Hop|].
      pose proof Hop as Hop1. apply elem_of_list_singleton in Hop1 as ->.
      destruct (is_known A c' (id_of b')) eqn:Hk'; [left|right; apply elem_of_app; by right].
      apply R3' in Hk' as [Hk'|Hk']; [done|]. exfalso. apply not_known in Hk. apply Hk, R3. by right.
  - rewrite !mutations_app, !mutations_block_calls, !List.filter_app, Hmut. f_equal.
    unfold block_effects. rewrite Hseen. fold b'. rewrite !List.filter_app. f_equal. f_equal.
    unfold operation_calls. repeat case_match; done.
Qed.

Lemma more_state c0 c0' bs t c t' c' :
  intact c0 -> intact c0' -> knows_more c0 c0' ->
  holds_as c0 c0' (history (contract_id A c0) bs) ->
  valid_run A c0 bs t c -> valid_run A c0' bs t' c' ->
  applied_operations t' ⊆ applied_operations t ->
  (forall op, op ∈ applied_operations t -> is_known A c0' (opid_of U op) = true \/ op ∈ applied_operations t') ->
  knows_more c c'.
Proof.
  intros Hint Hint' [(Hcid & Hcodex & Hrepo) Hmore] Hholds H H' Hsub Hback.
  destruct (run_state A peek out gone Hcells Hrem Hfaith c0 _ _ _ Hint H) as (R1 & R2 & R3 & R4 & R5 & D1 & D2 & D3).
  destruct (run_state A peek out gone Hcells Hrem Hfaith c0' _ _ _ Hint' H') as (R1' & R2' & R3' & R4' & R5' & D1' & D2' & D3').
  rewrite <-Hcid in R3', R4', R5'.
  assert (forall e, e ∈ tail (history (contract_id A c0) bs) -> e ∈ history (contract_id A c0) bs) as Htl.
  { intros e He. destruct bs; [done|]. by right. }
  split. { eapply same_setting_trans; [exact R1|]. eapply same_setting_trans; [|apply same_setting_sym; exact R1']. done. }
  intros o Ho. split.
  { apply R3'. apply R3 in Ho as [Ho|Ho]; [left; by apply Hmore|by right]. }
  intros s Hs. subst o.
  assert (is_known A c0' (slot_opid s) = true -> peek c0' s = None -> peek c' s = None) as Hnone.
  { intros Hk Hp. destruct (no_gone (applied_operations t') s) as [(op & Hop & Hg)|Hno'].
    - by apply (D1' op).
    - by rewrite (D2' s Hno' Hk). }
  destruct (no_gone (applied_operations t) s) as [(op & Hop & Hg)|Hno].
  - right. destruct (Hback op Hop) as [Hkn|Hop']; [|by apply (D1' op)].
    destruct (R4 op Hop) as (e & He & <- & Hke). destruct (Hholds e s) as [_ Hgone]; [by auto|done|done|].
    by apply Hnone; apply Hgone.
  - assert (forall op, op ∈ applied_operations t' -> gone op s = false) as Hno' by auto.
    destruct (is_known A c0 (slot_opid s)) eqn:Hk0.
    + rewrite (D2 s Hno Hk0), (D2' s Hno'); [|by apply Hmore]. by apply Hmore with (slot_opid s).
    + apply R3 in Ho as [Ho|(e & He & Hid)]; [congruence|]. rewrite <-Hid in Hk0.
      destruct (R5 e He Hk0) as (op & Hop & Hido).
      rewrite (D3 op s Hno Hop) by congruence. destruct (R4 op Hop) as (e' & He' & <- & Hke').
      destruct (Hback _ Hop) as [Hkn|Hop'].
      * rewrite (D2' s Hno') by (rewrite <-Hid, <-Hido; exact Hkn).
        apply (Hholds e' s); [by auto|done|done|]. change (opid_of U (operation e')) with (id_of e') in Hido. congruence.
      * left. rewrite (D3' _ s Hno' Hop'); [done|congruence].
Qed.

Lemma knowing_more c0 c0' bs c t :
  intact c0 -> intact c0' -> knows_more c0 c0' ->
  holds_as c0 c0' (history (contract_id A c0) bs) ->
  undisturbed c0 c0' (history (contract_id A c0) bs) ->
  accepted c0 bs c t ->
  exists c' t', accepted c0' bs c' t' /\ knows_more c c' /\
    List.filter (fun e => negb (is_apply e)) (mutations t') =
    List.filter (fun e => negb (is_apply e)) (mutations t).
Proof.
  intros Hint Hint' Hmore Hholds Hfree (u & Hrun & ->)%evaluate_ok_iff.
  destruct (more_run c0 c0' bs u c Hint Hint' Hmore Hfree Hrun) as (u' & c' & Hrun' & Hsub & Hback & Hmut).
  exists c', ([CallContractId; CallCodex] ++ u' ++ [CallRead]). split; [by apply valid_run_accepted|].
  split; [by apply (more_state c0 c0' bs u c u' c')|].
  assert (forall k : Calls, mutations ([CallContractId; CallCodex] ++ k ++ [CallRead]) = mutations k) as Hpad.
  { intros k. rewrite !mutations_app. change (mutations [CallRead]) with ([] : Calls). by rewrite app_nil_r. }
  by rewrite !Hpad.
Qed.

(** What is known after a session. *)
Lemma session_more_cross c l c' bs :
  intact c -> session A E c l c' ->
  ids_apart (U:=U) (applied_operations l) (operation <$> history (contract_id A c) bs) ->
  (forall op b s, op ∈ applied_operations l -> b ∈ history (contract_id A c) bs -> gone op s = true ->
     s ∈ reads (operation b) -> is_known A c' (id_of b) = true) ->
  knows_more c c' /\ holds_as c c' (history (contract_id A c) bs) /\
  undisturbed c c' (history (contract_id A c) bs).
Proof.
  intros Hint Hs Hapart Hnc.
  destruct (session_state A peek out gone Hcells Hrem Hfaith c l c' Hint Hs) as (T1 & T2 & T3 & D1 & D2 & D3).
  assert (forall b, b ∈ history (contract_id A c) bs -> is_known A c (id_of b) = false ->
    is_known A c' (id_of b) = true -> operation b ∈ applied_operations l) as Happ.
  { intros b Hb Hk Hk'. apply T3 in Hk' as [Hk'|(op & Hop & Hid)]; [congruence|].
    assert (operation b = op) as ->; [|done]. symmetry. apply Hapart; [done|by apply elem_of_list_fmap_1|done]. }
  split; [|split].
  - split; [by apply same_setting_sym|]. intros o Ho. split; [apply T3; by left|].
    intros s <-. destruct (no_gone (applied_operations l) s) as [(op & Hop & Hg)|Hno].
    + right. by apply (D1 op).
    + left. by apply D2.
  - intros b s Hb Hk Hk'. specialize (Happ b Hb Hk Hk'). split.
    + intros Hsl. destruct (no_gone (applied_operations l) s) as [(op & Hop & Hg)|Hno].
      * right. by apply (D1 op).
      * left. by apply D3.
    + intros Hg. destruct (D1 _ _ Happ Hg) as [? ?]. done.
  - intros b s Hb Hk' Hsl.
    assert (forall op, op ∈ applied_operations l -> gone op s = false) as Hno.
    { intros op Hop. apply not_true_iff_false. intros Hg.
      pose proof (Hnc op b s Hop Hb Hg Hsl). congruence. }
    split; [by apply D2|]. intros e He Hke Hke' Hid. apply D3; [done|by apply Happ|done].
Qed.

Lemma session_more c l c' bs ops :
  intact c -> session A E c l c' ->
  ids_apart (U:=U) ops ops -> no_conflict ops ->
  applied_operations l ⊆ ops -> operation <$> history (contract_id A c) bs ⊆ ops ->
  knows_more c c' /\ holds_as c c' (history (contract_id A c) bs) /\
  undisturbed c c' (history (contract_id A c) bs).
Proof.
  intros Hint Hs Hapart Hnc Hl Hh. apply (session_more_cross c l c' bs Hint Hs).
  - intros op op' Hop Hop'. apply Hapart; auto.
  - intros op b s Hop Hb Hg Hr.
    assert (op = operation b) as ->.
    { eapply Hnc; [by apply Hl|apply Hh; by apply elem_of_list_fmap_1|done|done]. }
    apply (session_state A peek out gone Hcells Hrem Hfaith c l c' Hint Hs). right. by exists (operation b).
Qed.

(** ** C47 *)
Lemma run_session c0 l c bs t d :
  session A E c0 l c -> valid_run A c bs t d ->
  session A E c0 (l ++ [CallContractId; CallCodex] ++ t) d.
Proof.
  intros Hs Hr. pose proof (valid_run_contract _ _ _ _ _ Hr) as Hd.
  pose proof (valid_run_accepted A (E:=E) _ _ _ _ Hr) as Hacc.
  rewrite app_assoc in Hacc. apply (session_step A E c0 l c bs None d _ _ _ Hs) in Hacc.
  rewrite apply_calls_app in Hacc. change (apply_calls A c [CallContractId; CallCodex]) with c in Hacc.
  by rewrite <-Hd in Hacc.
Qed.

(** The state after evaluating [L] from [c]. *)
Definition sum_state c (L : list (list Block)) c' : Prop :=
  exists l, session A E c l c' /\
    (forall op, op ∈ applied_operations l ->
       exists bs b, bs ∈ L /\ b ∈ tail (history (contract_id A c) bs) /\ operation b = op) /\
    (forall bs b, bs ∈ L -> b ∈ tail (history (contract_id A c) bs) -> is_known A c' (id_of b) = true).

Lemma tail_elem {Y} (x : Y) k : x ∈ tail k -> x ∈ k.
Proof. destruct k; [done|]. by right. Qed.

Lemma sum_state_next c L c' bs c1 t :
  intact c -> sum_state c L c' -> accepted c' bs c1 t -> sum_state c (L ++ [bs]) c1.
Proof.
  intros Hint (l & Hs & S1 & S2) (u & Hrun & ->)%evaluate_ok_iff.
  destruct (session_state A peek out gone Hcells Hrem Hfaith c l c' Hint Hs) as ((Hid & _) & Hint' & _).
  destruct (run_state A peek out gone Hcells Hrem Hfaith c' _ _ _ Hint' Hrun) as (_ & _ & R3 & R4 & _).
  rewrite Hid in R3, R4. exists (l ++ [CallContractId; CallCodex] ++ u).
  split; [by eapply run_session|]. rewrite !applied_operations_app. split.
  - intros op. rewrite !elem_of_app. intros [Hop|[Hop|Hop]].
    + destruct (S1 op Hop) as (x & b & Hx & Hb & Ho). exists x, b. split; [|done]. apply elem_of_app. by left.
    + by apply elem_of_nil in Hop.
    + destruct (R4 op Hop) as (b & Hb & Ho & _). exists bs, b. split; [|done]. apply elem_of_app. right. left.
  - intros x b Hx Hb. apply R3. apply elem_of_app in Hx as [Hx| ->%elem_of_list_singleton].
    + left. by eapply S2.
    + right. by exists b.
Qed.

Lemma elem_of_entries c L bs b :
  bs ∈ L -> b ∈ history (contract_id A c) bs ->
  operation b ∈ operation <$> all_entries (contract_id A c) L.
Proof.
  intros Hbs Hb. apply elem_of_list_fmap_1. apply elem_of_list_join. exists (history (contract_id A c) bs).
  split; [done|]. by apply elem_of_list_fmap_1.
Qed.

Lemma any_order_from c L c' M :
  intact c ->
  (forall bs, bs ∈ L ++ M -> exists c1 t, accepted c bs c1 t) ->
  ids_apart (U:=U) (operation <$> all_entries (contract_id A c) (L ++ M))
                   (operation <$> all_entries (contract_id A c) (L ++ M)) ->
  no_conflict (operation <$> all_entries (contract_id A c) (L ++ M)) ->
  sum_state c L c' ->
  exists c2, evaluates_all A E c' M c2 /\ sum_state c (L ++ M) c2.
Proof.
  revert L c'. induction M as [|bs M IH]; intros L c' Hint Hall Hapart Hnc Hsum.
  { exists c'. rewrite app_nil_r. split; [constructor|done]. }
  assert (bs ∈ L ++ bs :: M) as HbsM. { apply elem_of_app. right. left. }
  destruct (Hall bs HbsM) as (c1 & t & Hacc).
  pose proof Hsum as (l & Hs & S1 & S2).
  destruct (session_state A peek out gone Hcells Hrem Hfaith c l c' Hint Hs) as (_ & T2 & _).
  assert (forall op, op ∈ applied_operations l -> op ∈ operation <$> all_entries (contract_id A c) (L ++ bs :: M)) as Hin.
  { intros op Hop. destruct (S1 op Hop) as (x & b & Hx & Hb & <-). apply (elem_of_entries c _ x).
    - apply elem_of_app. by left.
    - by apply tail_elem. }
  assert (operation <$> history (contract_id A c) bs ⊆ operation <$> all_entries (contract_id A c) (L ++ bs :: M)) as Hh.
  { intros op Hop. apply elem_of_list_fmap in Hop as (b & -> & Hb). by apply (elem_of_entries c _ bs). }
  destruct (session_more c l c' bs _ Hint Hs Hapart Hnc Hin Hh) as (M1 & M2 & M3).
  destruct (knowing_more c c' bs c1 t Hint T2 M1 M2 M3 Hacc) as (c1' & t' & Hacc' & _).
  rewrite cons_middle, app_assoc in Hall, Hapart, Hnc |- *.
  destruct (IH (L ++ [bs]) c1' Hint Hall Hapart Hnc) as (c2 & Hev & Hsum2).
  { by eapply sum_state_next. }
  exists c2. split; [|done]. by econstructor.
Qed.

Lemma evaluates_all_functional c L c1 c2 :
  evaluates_all A E c L c1 -> evaluates_all A E c L c2 -> c1 = c2.
Proof.
  intros H. revert c2. induction H as [c|c bs c1 t L c2 H1 H IH]; intros c3 H3.
  - by inversion H3.
  - inversion H3 as [|? ? c1' t' ? ? H1' H']; subst. rewrite H1 in H1'. simplify_eq. by apply IH.
Qed.

Lemma any_order c L :
  intact c ->
  (forall bs, bs ∈ L -> exists c1 t, accepted c bs c1 t) ->
  ids_apart (U:=U) (operation <$> all_entries (contract_id A c) L)
                   (operation <$> all_entries (contract_id A c) L) ->
  no_conflict (operation <$> all_entries (contract_id A c) L) ->
  forall L1 L2, Permutation L L1 -> Permutation L L2 ->
  exists c1 c2, evaluates_all A E c L1 c1 /\ evaluates_all A E c L2 c2 /\ same_state c1 c2 /\
    forall o, is_known A c1 o = true <-> is_known A c o = true \/
      exists bs b, bs ∈ L /\ b ∈ tail (history (contract_id A c) bs) /\ id_of b = o.
Proof.
  intros Hint Hall Hapart Hnc.
  assert (forall L', Permutation L L' -> exists c', evaluates_all A E c L' c' /\ sum_state c L' c') as Hone.
  { intros L' HL. apply (any_order_from c [] c L'); [done| | | |].
    - intros bs Hbs. apply Hall. by rewrite HL.
    - unfold all_entries in *. cbn. intros op op'. rewrite <-HL. apply Hapart.
    - unfold all_entries in *. cbn. intros op op' s. rewrite <-HL. apply Hnc.
    - exists []. split; [constructor|]. split.
      + intros op Hop. by apply elem_of_nil in Hop.
      + intros bs b Hbs. by apply elem_of_nil in Hbs. }
  intros L1 L2 H1 H2. destruct (Hone L1 H1) as (c1 & E1 & S1), (Hone L2 H2) as (c2 & E2 & S2).
  assert (forall L' c', Permutation L L' -> sum_state c L' c' -> exists ops : list Operation,
    same_setting A c' c /\ intact c' /\
    (forall o, is_known A c' o = true <-> is_known A c o = true \/ exists op, op ∈ ops /\ opid_of U op = o) /\
    cells_after A peek out gone c ops c' /\
    (forall op, op ∈ ops -> exists bs b, bs ∈ L /\ b ∈ tail (history (contract_id A c) bs) /\ operation b = op) /\
    (forall op, op ∈ ops -> op ∈ operation <$> all_entries (contract_id A c) L) /\
    (forall bs b, bs ∈ L -> b ∈ tail (history (contract_id A c) bs) -> is_known A c' (id_of b) = true) /\
    (forall op, op ∈ ops -> is_known A c (opid_of U op) = false)) as Hdesc.
  { intros L' c' HL (l & Hs & X1 & X2). exists (applied_operations l).
    destruct (session_state A peek out gone Hcells Hrem Hfaith c l c' Hint Hs) as (T1 & T2 & T3 & T4).
    do 4 (split; [done|]). split; [|split; [|split]].
    - intros op Hop. destruct (X1 op Hop) as (bs & b & Hbs & Hb). exists bs, b. by rewrite HL.
    - intros op Hop. destruct (X1 op Hop) as (bs & b & Hbs & Hb & <-). apply (elem_of_entries c _ bs); [by rewrite HL|].
      by apply tail_elem.
    - intros bs b. rewrite HL. apply X2.
    - intros op. by apply (session_new (E:=E) A peek out gone Hcells Hrem Hfaith c l c'). }
  destruct (Hdesc L1 c1 H1 S1) as (o1 & A1 & B1 & C1 & (D1 & D1' & D1'') & F1 & G1 & K1 & N1).
  destruct (Hdesc L2 c2 H2 S2) as (o2 & A2 & B2 & C2 & (D2 & D2' & D2'') & F2 & G2 & K2 & N2). clear Hdesc Hone.
  assert (forall o, is_known A c1 o = true <-> is_known A c o = true \/
      exists bs b, bs ∈ L /\ b ∈ tail (history (contract_id A c) bs) /\ id_of b = o) as Hk1.
  { intros o. split.
    - intros [Ho|(op & Hop & <-)]%C1; [by left|]. destruct (F1 op Hop) as (bs & b & Hbs & Hb & <-).
      right. by exists bs, b.
    - intros [Ho|(bs & b & Hbs & Hb & <-)]; [apply C1; by left|by eapply K1]. }
  assert (forall o, is_known A c2 o = true <-> is_known A c o = true \/
      exists bs b, bs ∈ L /\ b ∈ tail (history (contract_id A c) bs) /\ id_of b = o) as Hk2.
  { intros o. split.
    - intros [Ho|(op & Hop & <-)]%C2; [by left|]. destruct (F2 op Hop) as (bs & b & Hbs & Hb & <-).
      right. by exists bs, b.
    - intros [Ho|(bs & b & Hbs & Hb & <-)]; [apply C2; by left|by eapply K2]. }
  assert (forall o, is_known A c1 o = is_known A c2 o) as Hk.
  { intros o. apply eq_true_iff_eq. by rewrite Hk1, Hk2. }
  (* both have applied the same operations *)
  assert (forall op, op ∈ o1 <-> op ∈ o2) as Ho.
  { intros op. split; intros Hop.
    - assert (is_known A c2 (opid_of U op) = true) as Hx. { rewrite <-Hk. apply C1. right. by exists op. }
      apply C2 in Hx as [Hx|(op' & Hop' & Hid)]; [rewrite N1 in Hx; done|].
      by rewrite (Hapart op op') by auto.
    - assert (is_known A c1 (opid_of U op) = true) as Hx. { rewrite Hk. apply C2. right. by exists op. }
      apply C1 in Hx as [Hx|(op' & Hop' & Hid)]; [rewrite N2 in Hx; done|].
      by rewrite (Hapart op op') by auto. }
  exists c1, c2. split; [done|]. split; [done|]. split; [|done].
  split; [eapply same_setting_trans; [exact A1|by apply same_setting_sym]|]. split; [done|].
  intros s. destruct (no_gone o1 s) as [(op & Hop & Hg)|Hno1].
  { destruct (D1 op s Hop Hg) as [-> _]. by destruct (D2 op s (proj1 (Ho op) Hop) Hg) as [-> _]. }
  assert (forall op, op ∈ o2 -> gone op s = false) as Hno2. { intros op Hop. by apply Hno1, Ho. }
  destruct (is_known A c (slot_opid s)) eqn:Hs; [by rewrite D1', D2'|].
  destruct (is_known A c1 (slot_opid s)) eqn:Hs1.
  - apply C1 in Hs1 as [Hs1|(op & Hop & Hid)]; [congruence|].
    rewrite (D1'' op s), (D2'' op s); try done. by apply Ho.
  - rewrite B1, B2; [done| |done]. by rewrite <-Hk.
Qed.

(** ** C48 *)

(** An operation applied in a session was verified in a state reached by a session. *)
Lemma session_verified c0 l c op :
  intact c0 -> session A E c0 l c -> op ∈ applied_operations l ->
  exists l0 c' v, session A E c0 l0 c' /\ applied_operations l0 ⊆ applied_operations l /\
    is_known A c' (opid_of U op) = false /\
    codex_verify U (codex A c') (contract_id A c0) op (memory A c') (repo A c') = Ok v.
Proof.
  intros Hint H. induction H as [|l c bs fin c' t1 t2 r Hs IH Hev]; intros Hop.
  { by apply elem_of_nil in Hop. }
  unfold applied_operations in Hop. rewrite omap_app, elem_of_app in Hop. destruct Hop as [Hop|Hop].
  - destruct (IH Hop) as (l0 & c1 & v & H1 & H2 & H3 & H4). exists l0, c1, v. split; [done|]. split; [|done].
    unfold applied_operations. rewrite omap_app. intros x Hx. apply elem_of_app. left. by apply H2.
  - apply elem_of_list_omap in Hop as (e & He & Heop).
    destruct e as [ | | | | | | |v|]; try done. cbn in Heop. injection Heop as <-.
    apply elem_of_list_split in He as (k1 & k2 & ->).
    assert ((k1 ++ CallApplyOperation v :: k2) ++ t2 = k1 ++ CallApplyOperation v :: (k2 ++ t2)) as Heq.
    { by rewrite <-app_assoc. }
    destruct (applied_is_verified _ _ _ _ _ _ _ _ _ _ Hev Heq) as (i & b & t0 & c1 & _ & _ & -> & -> & Hk & Hv).
    rewrite Heq in Hev.
    exists (l ++ t0), (apply_calls A c t0), v. split; [|split; [|split]].
    + rewrite <-!app_assoc in Hev. by eapply session_step.
    + unfold applied_operations. rewrite !omap_app. intros x Hx.
      apply elem_of_app in Hx as [Hx|Hx]; apply elem_of_app; [by left|right].
      apply elem_of_app. left. apply elem_of_app. by left.
    + by rewrite (Hfaith _ _ _ _ _ _ Hv).
    + rewrite (Hfaith _ _ _ _ _ _ Hv).
      assert (contract_id A c = contract_id A c0) as <-; [|done].
      apply (session_state A peek out gone Hcells Hrem Hfaith c0 l c Hint Hs).
Qed.

(** Two sessions from one contract: the cells of an operation known in both, and not
    destroyed, are the same. *)
Lemma sessions_agree c0 l c l' c' ops s :
  intact c0 -> session A E c0 l c -> session A E c0 l' c' ->
  ids_apart (U:=U) ops ops -> applied_operations l ⊆ ops -> applied_operations l' ⊆ ops ->
  (forall op, op ∈ applied_operations l -> gone op s = false) ->
  (forall op, op ∈ applied_operations l' -> gone op s = false) ->
  is_known A c (slot_opid s) = true -> is_known A c' (slot_opid s) = true ->
  peek c s = peek c' s.
Proof.
  intros Hint Hs Hs' Hapart Hl Hl' Hno Hno' Hk Hk'.
  destruct (session_state A peek out gone Hcells Hrem Hfaith c0 l c Hint Hs) as (A1 & B1 & C1 & _ & D1 & F1).
  destruct (session_state A peek out gone Hcells Hrem Hfaith c0 l' c' Hint Hs') as (A2 & B2 & C2 & _ & D2 & F2).
  destruct (is_known A c0 (slot_opid s)) eqn:H0; [by rewrite D1, D2|].
  apply C1 in Hk as [Hk|(op & Hop & Hid)]; [congruence|]. apply C2 in Hk' as [Hk'|(op' & Hop' & Hid')]; [congruence|].
  rewrite (F1 op s), (F2 op' s) by done. f_equal. apply Hapart; [by apply Hl|by apply Hl'|congruence].
Qed.

Lemma unknown_undisturbed c0 l c ops b s :
  intact c0 -> session A E c0 l c -> no_conflict ops -> applied_operations l ⊆ ops ->
  operation b ∈ ops -> is_known A c (id_of b) = false -> s ∈ reads (operation b) ->
  forall op, op ∈ applied_operations l -> gone op s = false.
Proof.
  intros Hint Hs Hnc Hl Hb Hk Hin op Hop. apply not_true_iff_false. intros Hg.
  assert (op = operation b) as ->. { eapply Hnc; [by apply Hl|done|done|done]. }
  apply not_known in Hk. apply Hk.
  apply (session_state A peek out gone Hcells Hrem Hfaith c0 l c Hint Hs). right. by exists (operation b).
Qed.

Lemma sessions_verdict c0 l c l' c' ops b :
  intact c0 -> session A E c0 l c -> session A E c0 l' c' ->
  ids_apart (U:=U) ops ops -> no_conflict ops -> applied_operations l ⊆ ops -> applied_operations l' ⊆ ops ->
  operation b ∈ ops -> is_known A c (id_of b) = false -> is_known A c' (id_of b) = false ->
  (forall s, s ∈ reads (operation b) -> is_known A c (slot_opid s) = true /\ is_known A c' (slot_opid s) = true) ->
  vm_verdict A (contract_id A c0) c b = vm_verdict A (contract_id A c0) c' b.
Proof.
  intros Hint Hs Hs' Hapart Hnc Hl Hl' Hb Hk Hk' Hr. apply (verdict_local A peek out gone Hcells).
  - eapply same_setting_trans; [apply (session_state A peek out gone Hcells Hrem Hfaith c0 l c Hint Hs)|].
    apply same_setting_sym. apply (session_state A peek out gone Hcells Hrem Hfaith c0 l' c' Hint Hs').
  - intros s Hin. destruct (Hr s Hin). apply (sessions_agree c0 l c l' c' ops); try done.
    + by apply (unknown_undisturbed c0 l c ops b).
    + by apply (unknown_undisturbed c0 l' c' ops b).
Qed.

(** An operation known in one of them, but not in the other, verifies in the other. *)
Lemma known_verifies c0 l c l' c' ops b :
  intact c0 -> session A E c0 l c -> session A E c0 l' c' ->
  ids_apart (U:=U) ops ops -> no_conflict ops -> applied_operations l ⊆ ops -> applied_operations l' ⊆ ops ->
  operation b ∈ ops ->
  is_known A c (id_of b) = true -> is_known A c' (id_of b) = false ->
  (forall s, s ∈ reads (operation b) -> is_known A c' (slot_opid s) = true) ->
  exists v, vm_verdict A (contract_id A c0) c' b = Ok v.
Proof.
  intros Hint Hs Hs' Hapart Hnc Hl Hl' Hb Hk Hk' Hr.
  destruct (session_state A peek out gone Hcells Hrem Hfaith c0 l c Hint Hs) as (_ & _ & C1 & _).
  destruct (session_state A peek out gone Hcells Hrem Hfaith c0 l' c' Hint Hs') as (_ & _ & C2 & _).
  apply C1 in Hk as [Hk|(op & Hop & Hid)].
  { apply not_known in Hk'. destruct Hk'. apply C2. by left. }
  assert (op = operation b) as -> by (apply Hapart; [by apply Hl|done|done]).
  destruct (session_verified c0 l c (operation b) Hint Hs Hop) as (l0 & c1 & v & Hs0 & Hl0 & Hk0 & Hv).
  exists v. rewrite <-Hv. symmetry.
  destruct (session_state A peek out gone Hcells Hrem Hfaith c0 l0 c1 Hint Hs0) as (_ & B0 & _).
  apply (sessions_verdict c0 l0 c1 l' c' ops b); try done.
  - by rewrite Hl0.
  - intros s Hin. split; [|by apply Hr]. by eapply needs_known.
Qed.

(** The contracts after the same prefix. *)
Lemma agree_valid c0 l c l' c' ops bs b :
  intact c0 -> session A E c0 l c -> session A E c0 l' c' ->
  ids_apart (U:=U) ops ops -> no_conflict ops -> applied_operations l ⊆ ops -> applied_operations l' ⊆ ops ->
  let b' := seen (contract_id A c0) bs b in
  operation b' ∈ ops ->
  (forall s, s ∈ reads (operation b') -> is_known A c (slot_opid s) = true /\ is_known A c' (slot_opid s) = true) ->
  vm_accepts A (contract_id A c0) c b' -> vm_accepts A (contract_id A c0) c' b'.
Proof.
  intros Hint Hs Hs' Hapart Hnc Hl Hl' b' Hb Hr Hv Hk'.
  destruct (is_known A c (id_of b')) eqn:Hk.
  - apply (known_verifies c0 l c l' c' ops b'); try done. intros s Hin. by apply Hr.
  - destruct (Hv Hk) as [v Hvv]. exists v. rewrite <-Hvv. symmetry.
    by apply (sessions_verdict c0 l c l' c' ops b').
Qed.

Lemma run_operations c bs t d op :
  intact c -> valid_run A c bs t d -> op ∈ applied_operations t ->
  op ∈ operation <$> history (contract_id A c) bs.
Proof.
  intros Hint H Hop. induction H as [|bs t d b H IH Hv]; [by apply elem_of_nil in Hop|].
  rewrite history_snoc, fmap_app, elem_of_app. unfold applied_operations in Hop.
  rewrite omap_app, elem_of_app in Hop. destruct Hop as [Hop|Hop]; [left; by apply IH|right].
  apply elem_of_list_omap in Hop as (e & He & Heop).
  destruct e as [ | | | | | | |v|]; try done. cbn in Heop. injection Heop as <-.
  apply elem_of_list_split in He as (k1 & k2 & Heq). apply block_calls_apply in Heq as (Hne & _ & Hvm & _).
  rewrite (Hfaith _ _ _ _ _ _ Hvm). destruct bs; [done|]. cbn. left.
Qed.

(** The operations named in a history, and where the slots they read come from. *)
Lemma agree_setup c0 l c l' c' ops bs b t d t' d' :
  intact c0 -> session A E c0 l c -> session A E c0 l' c' ->
  applied_operations l ⊆ ops -> applied_operations l' ⊆ ops ->
  operation <$> history (contract_id A c0) (bs ++ [b]) ⊆ ops ->
  self_contained A c0 (history (contract_id A c0) (bs ++ [b])) ->
  valid_run A c bs t d -> valid_run A c' bs t' d' ->
  let b' := seen (contract_id A c0) bs b in
  exists ls ls', session A E c0 ls d /\ session A E c0 ls' d' /\
    applied_operations ls ⊆ ops /\ applied_operations ls' ⊆ ops /\ operation b' ∈ ops /\
    forall s, s ∈ reads (operation b') ->
      is_known A d (slot_opid s) = true /\ is_known A d' (slot_opid s) = true.
Proof.
  intros Hint Hs Hs' Hl Hl' Hh Hself H H' b'.
  destruct (session_state A peek out gone Hcells Hrem Hfaith c0 l c Hint Hs) as ((Hid & _) & Hintc & Hkc & _).
  destruct (session_state A peek out gone Hcells Hrem Hfaith c0 l' c' Hint Hs') as ((Hid' & _) & Hintc' & Hkc' & _).
  destruct (run_state A peek out gone Hcells Hrem Hfaith c _ _ _ Hintc H) as (_ & _ & R3 & _).
  destruct (run_state A peek out gone Hcells Hrem Hfaith c' _ _ _ Hintc' H') as (_ & _ & R3' & _).
  rewrite Hid in R3. rewrite Hid' in R3'.
  assert (forall lx (tx : Calls), applied_operations (lx ++ [CallContractId; CallCodex] ++ tx) =
    applied_operations lx ++ applied_operations tx) as Hpad.
  { intros lx tx. unfold applied_operations. by rewrite !omap_app. }
  assert (forall x, x ∈ operation <$> history (contract_id A c0) bs -> x ∈ ops) as Hold.
  { intros x Hx. apply Hh. rewrite history_snoc, fmap_app, elem_of_app. by left. }
  exists (l ++ [CallContractId; CallCodex] ++ t), (l' ++ [CallContractId; CallCodex] ++ t').
  split; [by eapply run_session|]. split; [by eapply run_session|].
  split; [|split; [|split]].
  - rewrite Hpad. intros x [Hx|Hx]%elem_of_app; [by apply Hl|]. apply Hold.
    rewrite <-Hid. by eapply run_operations.
  - rewrite Hpad. intros x [Hx|Hx]%elem_of_app; [by apply Hl'|]. apply Hold.
    rewrite <-Hid'. by eapply run_operations.
  - apply Hh. rewrite history_snoc, fmap_app, elem_of_app. right. left.
  - intros s Hin. destruct (Hself (length bs) b' s) as [Hy|(k & y & Hk & Hy & Hy')]; [|done|..].
    + rewrite history_snoc. apply list_lookup_middle. by rewrite history_length.
    + rewrite R3, R3'. split; left; [apply Hkc|apply Hkc']; by left.
    + rewrite history_snoc, lookup_app_l in Hy by (rewrite history_length; lia).
      rewrite R3, R3'. assert (y ∈ tail (history (contract_id A c0) bs)).
      { destruct bs as [|x0 bs]; [done|]. destruct k as [|k]; [lia|]. cbn in Hy |- *.
        by eapply elem_of_list_lookup_2. }
      split; right; by exists y.
Qed.

Lemma self_contained_prefix c h h' : self_contained A c (h ++ h') -> self_contained A c h.
Proof.
  intros Hself i x s Hi Hx. destruct (Hself i x s) as [Hy|(k & y & Hk & Hy & Hy')]; [|done|by left|].
  - by apply lookup_app_l_Some.
  - right. exists k, y. split; [done|]. split; [|done].
    rewrite lookup_app_l in Hy; [done|]. apply lookup_lt_Some in Hi. lia.
Qed.

Lemma agree_run c0 l c l' c' ops bs t d :
  intact c0 -> session A E c0 l c -> session A E c0 l' c' ->
  ids_apart (U:=U) ops ops -> no_conflict ops -> applied_operations l ⊆ ops -> applied_operations l' ⊆ ops ->
  operation <$> history (contract_id A c0) bs ⊆ ops ->
  self_contained A c0 (history (contract_id A c0) bs) ->
  valid_run A c bs t d ->
  exists t' d', valid_run A c' bs t' d' /\
    List.filter (fun e => negb (is_apply e)) (mutations t') =
    List.filter (fun e => negb (is_apply e)) (mutations t).
Proof.
  intros Hint Hs Hs' Hapart Hnc Hl Hl' Hh Hself H.
  destruct (session_state A peek out gone Hcells Hrem Hfaith c0 l c Hint Hs) as ((Hid & Hco & _) & _).
  destruct (session_state A peek out gone Hcells Hrem Hfaith c0 l' c' Hint Hs') as ((Hid' & Hco' & _) & _).
  induction H as [|bs t d b H IH Hv].
  { exists [], c'. split; [constructor|done]. }
  destruct IH as (t' & d' & H' & Hmut).
  { intros x Hx. apply Hh. rewrite history_snoc, fmap_app, elem_of_app. by left. }
  { rewrite history_snoc in Hself. by eapply self_contained_prefix. }
  set (b' := seen (contract_id A c0) bs b).
  destruct (agree_setup c0 l c l' c' ops bs b t d t' d') as (ls & ls' & Hsd & Hsd' & Hls & Hls' & Hb & Hr); try done.
  assert (block_valid A c' bs d' b) as Hv'.
  { destruct Hv as (V1 & V2 & V3 & V4). unfold block_valid. rewrite Hid' in *. rewrite Hid in *.
    split. { unfold codex_committed in *. rewrite Hco'. by rewrite <-Hco. }
    split; [done|]. split; [done|].
    by apply (agree_valid c0 _ d _ d' ops bs b Hint Hsd Hsd' Hapart Hnc Hls Hls' Hb Hr). }
  exists (t' ++ block_calls A c' bs d' b), (apply_calls A d' (block_effects A c' bs d' b)).
  split; [by constructor|].
  rewrite !mutations_app, !mutations_block_calls, !List.filter_app, Hmut. f_equal.
  unfold block_effects. rewrite Hid, Hid'. fold b'. rewrite !List.filter_app. f_equal. f_equal.
  unfold operation_calls. repeat case_match; done.
Qed.

Lemma agree_fails c0 l c l' c' ops bs b t d t' d' (e : VerificationError P U E) :
  intact c0 -> session A E c0 l c -> session A E c0 l' c' ->
  ids_apart (U:=U) ops ops -> no_conflict ops -> applied_operations l ⊆ ops -> applied_operations l' ⊆ ops ->
  operation <$> history (contract_id A c0) (bs ++ [b]) ⊆ ops ->
  self_contained A c0 (history (contract_id A c0) (bs ++ [b])) ->
  valid_run A c bs t d -> valid_run A c' bs t' d' ->
  block_fails A c bs d b e -> block_fails A c' bs d' b e.
Proof.
  intros Hint Hs Hs' Hapart Hnc Hl Hl' Hh Hself H H' Hf.
  destruct (session_state A peek out gone Hcells Hrem Hfaith c0 l c Hint Hs) as ((Hid & Hco & _) & _).
  destruct (session_state A peek out gone Hcells Hrem Hfaith c0 l' c' Hint Hs') as ((Hid' & Hco' & _) & _).
  destruct (agree_setup c0 l c l' c' ops bs b t d t' d') as (ls & ls' & Hsd & Hsd' & Hls & Hls' & Hb & Hr); try done.
  assert (codex_committed A c bs b <-> codex_committed A c' bs b) as Hcc.
  { unfold codex_committed. by rewrite Hco, Hco'. }
  assert (contract_id A c = contract_id A c') as Hcid by congruence.
  assert (vm_accepts A (contract_id A c0) d (seen (contract_id A c0) bs b) ->
          vm_accepts A (contract_id A c0) d' (seen (contract_id A c0) bs b)) as Hvm.
  { by apply (agree_valid c0 ls d ls' d' ops bs b). }
  rewrite <-Hid in Hvm, Hb, Hr.
  destruct Hf as [Hc|rep def Hc Ht Hts|a Hc Ht Hu|closed x Hc Ht Hsp Hk Hx|closed w x Hc Ht Hsp Ha Hw Hx|closed Hc Ht Hsp Ha Hw Hi];
    rewrite Hcc in Hc; rewrite Hcid in *.
  - by constructor.
  - by apply fails_tokens.
  - by apply fails_unknown.
  - assert (is_known A d' (id_of (seen (contract_id A c') bs b)) = false) as Hk'.
    { apply not_known. intros Hk'.
      destruct (known_verifies c0 ls' d' ls d ops (seen (contract_id A c') bs b)) as [v Hv]; try done.
      - intros s Hin. by apply Hr.
      - rewrite <-Hid' in Hv. congruence. }
    apply fails_vm with closed; [done..|].
    assert (vm_verdict A (contract_id A c0) d (seen (contract_id A c') bs b) =
      vm_verdict A (contract_id A c0) d' (seen (contract_id A c') bs b)) as Hsv.
    { by apply (sessions_verdict c0 ls d ls' d' ops). }
    rewrite <-Hid' in Hsv. congruence.
  - apply fails_closing with closed; auto.
  - apply fails_no_witness with closed; auto.
Qed.

Lemma consensus c0 l c l' c' bs fin d t (r : result (VerificationError P U E) unit) :
  let ops := applied_operations l ++ applied_operations l' ++
             (operation <$> history (contract_id A c0) bs) in
  intact c0 -> session A E c0 l c -> session A E c0 l' c' ->
  ids_apart (U:=U) ops ops -> no_conflict ops ->
  self_contained A c0 (history (contract_id A c0) bs) ->
  evaluate A c bs fin = (d, t, Some r) ->
  exists d' t', evaluate A c' bs fin = (d', t', Some r) /\
    List.filter (fun e => negb (is_apply e)) (mutations t') =
    List.filter (fun e => negb (is_apply e)) (mutations t).
Proof.
  cbv zeta. set (ops := _ ++ _). intros Hint Hs Hs' Hapart Hnc Hself Hev.
  assert (applied_operations l ⊆ ops) as Hl.
  { intros x Hx. unfold ops. rewrite !elem_of_app. by left. }
  assert (applied_operations l' ⊆ ops) as Hl'.
  { intros x Hx. unfold ops. rewrite !elem_of_app. right. by left. }
  assert (operation <$> history (contract_id A c0) bs ⊆ ops) as Hh.
  { intros x Hx. unfold ops. rewrite !elem_of_app. right. by right. }
  clearbody ops. apply evaluate_iff_outcome in Hev.
  destruct Hev as [t d H Hf|t d e H Hf|pre b post t d e -> H Hfl].
  - destruct (agree_run c0 l c l' c' ops bs t d) as (t' & d' & H' & Hm); try done.
    exists d', ([CallContractId; CallCodex] ++ t' ++ [CallRead]). split.
    + apply evaluate_iff_outcome. by constructor.
    + by rewrite !mutations_app, !List.filter_app, Hm.
  - destruct (agree_run c0 l c l' c' ops bs t d) as (t' & d' & H' & Hm); try done.
    exists d', ([CallContractId; CallCodex] ++ t' ++ [CallRead]). split.
    + apply evaluate_iff_outcome. by eapply outcome_stream.
    + by rewrite !mutations_app, !List.filter_app, Hm.
  - assert (history (contract_id A c0) (pre ++ b :: post) =
      history (contract_id A c0) (pre ++ [b]) ++ post) as Heq.
    { destruct pre; cbn; [done|]. by rewrite <-app_assoc. }
    rewrite Heq in Hh, Hself. apply self_contained_prefix in Hself.
    assert (operation <$> history (contract_id A c0) (pre ++ [b]) ⊆ ops) as Hh1.
    { intros x Hx. apply Hh. rewrite fmap_app, elem_of_app. by left. }
    destruct (agree_run c0 l c l' c' ops pre t d) as (t' & d' & H' & Hm); try done.
    { intros x Hx. apply Hh1. rewrite history_snoc, fmap_app, elem_of_app. by left. }
    { rewrite history_snoc in Hself. by eapply self_contained_prefix. }
    exists d', ([CallContractId; CallCodex] ++ t' ++ failing_calls A c' pre d' b e). split.
    + apply evaluate_iff_outcome. apply outcome_bad with post; [done..|].
      by apply (agree_fails c0 l c l' c' ops pre b t d t' d').
    + rewrite !mutations_app, !List.filter_app, Hm. f_equal. f_equal.
      unfold failing_calls, query_calls. repeat case_match; done.
Qed.

End sharing.
