(** * Properties C60-C62: bytes bound the work and the seals; owners can spend; parties which
    read bytes agree *)
From Verif Require Import Accounting ByteReader Consensus Merge LedgerCells BitcoinChain Derived Scenario Counterexamples
  Properties2 Properties3 Properties4 Properties5 Properties6 Properties7 Properties8 Properties12.
From Coq Require Import Lia.
Notation block := Verif.Concrete.block.

(** ** C60 The length of the stream bounds the work and the seals *)
(** Each value takes at least [n] bytes. *)
Definition at_least {X} (n : nat) (C : codec X) : Prop := forall x, n <= length (enc C x).

Section bytes.
Context {P : SealProtocol} {U : Ultrasonic} (A : ContractApi P U)
  (COp : codec Operation) (CDef : codec (SealDef P)) (CPub : codec (Published P)) (CCli : codec (Client P))
  (wfOp : Operation -> Prop) (wfDef : SealDef P -> Prop) (wfPub : Published P -> Prop) (wfCli : Client P -> Prop).
Notation C := (c_operation_seals COp CDef CPub CCli).
Notation wf := (entry_wf wfOp wfDef wfPub wfCli).
Notation total f h := (sum_list_with f h).

Lemma concat_at_least {X} n (D : codec X) (l : list X) :
  at_least n D -> n * length l <= length (concat (enc D <$> l)).
Proof. intros H. induction l as [|x l IH]; cbn; [lia|]. rewrite app_length. specialize (H x). lia. Qed.
Lemma entry_at_least m d b :
  at_least m COp -> at_least d CDef -> m + 3 + (d + 2) * reported_in b <= length (enc C b).
Proof.
  intros Hm Hd. cbn -[c_ordmap c_option]. rewrite !app_length.
  assert (2 + (d + 2) * reported_in b <= length (enc (c_ordmap CDef) (defined_seals b))) as H1.
  { unfold c_ordmap, c_list. cbn [enc]. rewrite app_length.
    pose proof (concat_at_least (d + 2) (c_pair c_u16 CDef) (sorted_entries (defined_seals b))) as H.
    rewrite (Permutation_length (sorted_entries_perm (defined_seals b))) in H at 1.
    unfold reported_in. change (size (defined_seals b)) with (length (map_to_list (defined_seals b))).
    cbn [enc c_u16 length]. assert (at_least (d + 2) (c_pair c_u16 CDef)) as Hp.
    { intros [k x]. cbn. specialize (Hd x). lia. }
    specialize (H Hp). lia. }
  assert (1 <= length (enc (c_option (c_witness CPub CCli)) (witness b))) as H2 by (destruct (witness b); cbn; lia).
  specialize (Hm (operation b)). lia.
Qed.
Lemma entries_at_least m d bs :
  at_least m COp -> at_least d CDef -> (m + 3) * length bs + (d + 2) * total reported_in bs <= length (concat (enc C <$> bs)).
Proof.
  intros Hm Hd. induction bs as [|b bs IH]; [cbn; lia|]. cbn [length sum_list_with fmap list_fmap concat]. rewrite app_length.
  pose proof (entry_at_least m d b Hm Hd). lia.
Qed.

(** Whatever the bytes: fewer than eight calls for each read, and each read but the last takes
    the bytes of an operation and three more. *)
Theorem C60_work m d c0 l fuel :
  lawful COp wfOp -> lawful CDef wfDef -> lawful CPub wfPub -> lawful CCli wfCli ->
  at_least m COp -> at_least d CDef -> length l < fuel ->
  exists c t rest r, evaluate_reader A (byte_reader C) fuel c0 l = ((c, t), rest, Some r) /\
    length t < 8 * count is_read t /\ (m + 3) * pred (count is_read t) <= length l.
Proof.
  intros HO HD HP HC Hm Hd Hf.
  destruct (C44_byte_stream A COp CDef CPub CCli wfOp wfDef wfPub wfCli c0 HO HD HP HC) as (_ & _ & H).
  destruct (H l) as (bs & tl & Hbs & Hl & Hev).
  destruct (evaluate_outcome A c0 bs (if decide (tl = []) then None else Some Malformed)) as (c & t & r & Hr & _).
  destruct (Hev c t (Some r) fuel Hf Hr) as [rest Hrest]. exists c, t, rest, r. split; [exact Hrest|].
  pose proof (C58_work A c0 bs _ c t r Hr) as Hw. pose proof (entries_at_least m d bs Hm Hd) as Hlen.
  apply (f_equal length) in Hl. rewrite app_length in Hl.
  assert (length t < 8 * count is_read t /\ pred (count is_read t) <= length bs) as [H1 H2].
  { destruct r as [u|e]; [|destruct e]; destruct Hw as [Hw1 Hw2]; lia. }
  split; [exact H1|]. assert ((m + 3) * pred (count is_read t) <= (m + 3) * length bs) by (apply Nat.mul_le_mono_l; exact H2). lia.
Qed.

(** Accepted bytes pay for each entry, for each cell consumed and for each seal still live. *)
Theorem C60_seals m d c0 l fuel c t rest :
  lawful COp wfOp -> lawful CDef wfDef -> lawful CPub wfPub -> lawful CCli wfCli ->
  at_least m COp -> at_least d CDef -> length l < fuel ->
  evaluate_reader A (byte_reader C) fuel c0 l = ((c, t), rest, Some (Ok tt)) ->
  exists bs live_seals, Forall wf bs /\ l = concat (enc C <$> bs) /\
    let h := history (contract_id A c0) bs in
    lists_live (U:=U) h live_seals /\
    (m + 3) * length bs + (d + 2) * (length live_seals + total consumed_in h) <= length l.
Proof.
  intros HO HD HP HC Hm Hd Hf Hacc.
  destruct (C44_byte_stream A COp CDef CPub CCli wfOp wfDef wfPub wfCli c0 HO HD HP HC) as (_ & _ & H).
  destruct (H l) as (bs & tl & Hbs & Hl & Hev).
  destruct (evaluate_outcome A c0 bs (if decide (tl = []) then None else Some Malformed)) as (c1 & t1 & r & Hr & Ho).
  destruct (Hev c1 t1 (Some r) fuel Hf Hr) as [rest1 Hrest]. rewrite Hacc in Hrest.
  assert (c1 = c /\ t1 = t /\ r = Ok tt) as (-> & -> & ->) by (split; [congruence|]; split; congruence).
  assert (tl = []) as -> by (inversion Ho as [t' c' Hrun Hfin| |]; subst; by destruct (decide (tl = [])); [|]).
  rewrite decide_True in Hr by done. rewrite app_nil_r in Hl.
  destruct (C58_accounting A c0 bs c t Hr) as (lv & Hlv & H1 & H2). exists bs, lv. split; [exact Hbs|]. split; [exact Hl|]. split; [exact Hlv|].
  pose proof (entries_at_least m d bs Hm Hd) as Hlen. rewrite <-Hl in Hlen.
  assert (total reported_in (history (contract_id A c0) bs) = total reported_in bs) as Heq by (by destruct bs).
  assert ((d + 2) * (length lv + total consumed_in (history (contract_id A c0) bs)) <= (d + 2) * total reported_in bs)
    by (apply Nat.mul_le_mono_l; lia). lia.
Qed.
End bytes.

(** ** C61 A transfer cannot be blocked

    [post] is a continuation of [pre], for example the transfer of a cell to its new owner;
    [mid] is whatever else has been accepted after [pre] in the meantime.  On a chain, if [mid]
    does not contain operations of [post], the transfer is accepted after it. *)
Section unblocked.
Context {P : SealProtocol} {U : Ultrasonic} (A : ContractApi P U) {E X : Type}.
Context (peek : Contract A -> Slot -> option X) (out : Operation -> Slot -> option X).
Context (gone : Operation -> Slot -> bool).
Notation Block := (OperationSeals P).
Notation accepts c0 bs c t := (evaluate A (E:=E) c0 bs None = (c, t, Some (Ok tt))).
Notation id_of := (id_of (U:=U)).
Notation on_one_chain := (on_one_chain (U:=U)).

Lemma seals_for_cons o e (h : list Block) :
  seals_for (U:=U) o (e :: h) = if decide (id_of e = o) then defined_seals e ∪ seals_for (U:=U) o h else seals_for (U:=U) o h.
Proof. done. Qed.
Lemma seals_for_none o (h : list Block) : o ∉ id_of <$> h -> seals_for (U:=U) o h = ∅.
Proof.
  induction h as [|e h IH]; [done|]. rewrite seals_for_cons. intros Ho%not_elem_of_cons. rewrite decide_False by naive_solver. apply IH, Ho.
Qed.
Lemma seals_for_self (h : list Block) b :
  NoDup (id_of <$> h) -> b ∈ h -> seals_for (U:=U) (id_of b) h = defined_seals b.
Proof.
  induction h as [|e h IH]; [by intros _ ?%elem_of_nil|]. rewrite seals_for_cons. intros [He Hnd]%list.NoDup_cons [<-|Hb]%elem_of_cons.
  - rewrite decide_True by done. rewrite seals_for_none by done. by rewrite (right_id_L ∅ (∪)).
  - rewrite decide_False; [by apply IH|]. intros Heq. apply He. rewrite Heq. by apply elem_of_list_fmap_1.
Qed.
Lemma joined_self (h : list Block) b : NoDup (id_of <$> h) -> b ∈ h -> joined (U:=U) h b = b.
Proof.
  intros Hnd Hb. unfold joined, with_seals. rewrite seals_for_self by done. rewrite (idemp_L (∪)). by destruct b.
Qed.
Lemma joined_none (h : list Block) b : id_of b ∉ id_of <$> h -> joined (U:=U) h b = b.
Proof.
  intros Hb. unfold joined, with_seals. rewrite seals_for_none by done. rewrite (right_id_L ∅ (∪)). by destruct b.
Qed.
Lemma filter_none {Y} (Q : Y -> Prop) `{!forall y, Decision (Q y)} (l : list Y) : (forall y, y ∈ l -> ~ Q y) -> filter Q l = [].
Proof.
  induction l as [|y l IH]; [done|]. intros Hq. rewrite filter_cons_False by (apply Hq; left). apply IH. intros z Hz. apply Hq. by right.
Qed.
Lemma filter_every {Y} (Q : Y -> Prop) `{!forall y, Decision (Q y)} (l : list Y) : (forall y, y ∈ l -> Q y) -> filter Q l = l.
Proof.
  induction l as [|y l IH]; [done|]. intros Hq. rewrite filter_cons_True by (apply Hq; left). f_equal. apply IH. intros z Hz. apply Hq. by right.
Qed.
Lemma NoDup_app_head (b : Block) (l l' : list Block) :
  NoDup (id_of <$> b :: l ++ l') ->
  (forall e, e ∈ l ++ l' -> id_of e <> id_of b) /\ (forall e, e ∈ l' -> id_of e ∉ id_of <$> l).
Proof.
  rewrite fmap_cons, fmap_app. intros [Hb Hnd]%list.NoDup_cons. split.
  - intros e He Heq. apply Hb. rewrite <-Heq, <-fmap_app. by apply elem_of_list_fmap_1.
  - intros e He Hin. apply NoDup_app in Hnd as (_ & Hnd & _). by apply (Hnd _ Hin), elem_of_list_fmap_1.
Qed.
Lemma merged_branches cid b0 (pre mid post : list Block) :
  NoDup (id_of <$> history cid (b0 :: pre ++ mid)) -> NoDup (id_of <$> history cid (b0 :: pre ++ post)) ->
  (forall b e, b ∈ mid -> e ∈ post -> id_of b <> id_of e) ->
  merged (U:=U) cid (b0 :: pre ++ mid) (b0 :: pre ++ post) = b0 :: pre ++ mid ++ post.
Proof.
  intros Hnd1 Hnd2 Hdis. unfold merged.
  set (h := history cid (b0 :: pre ++ post)). change (history cid (b0 :: pre ++ mid)) with (seen_first cid b0 :: (pre ++ mid)) in *.
  cbn [enriched tail]. fold h in Hnd2. pose proof Hnd1 as [N1 N1']%NoDup_app_head. pose proof Hnd2 as [N2 N2']%NoDup_app_head.
  assert (with_seals (U:=U) h (id_of (seen_first cid b0)) b0 = b0) as ->.
  { pose proof (joined_self h (seen_first cid b0) Hnd2 ltac:(left)) as Hj. unfold joined, with_seals in Hj.
    unfold with_seals. apply (f_equal defined_seals) in Hj. cbn [defined_seals] in Hj.
    change (defined_seals (seen_first cid b0)) with (defined_seals b0) in Hj. rewrite Hj. by destruct b0. }
  assert (joined (U:=U) h <$> (pre ++ mid) = pre ++ mid) as ->.
  { rewrite <-(list_fmap_id (pre ++ mid)) at 2. apply Forall_fmap_ext, list.Forall_forall. intros b Hb. cbn.
    apply elem_of_app in Hb as [Hb|Hb].
    - apply joined_self; [exact Hnd2|]. right. apply elem_of_app. by left.
    - apply joined_none. unfold h. cbn. rewrite fmap_app. intros [Heq|[Hp|Hp]%elem_of_app]%elem_of_cons.
      + apply (N1 b); [apply elem_of_app; by right|exact Heq].
      + by apply (N1' b).
      + apply elem_of_list_fmap in Hp as (e & He & Hin). by apply (Hdis b e). }
  rewrite list.filter_app, filter_none, filter_every.
  - cbn. by rewrite <-app_assoc.
  - intros e He. rewrite fmap_cons, fmap_app. intros [Heq|[Hin|Hin]%elem_of_app]%elem_of_cons.
    + apply (N2 e); [apply elem_of_app; by right|exact Heq].
    + by apply (N2' e).
    + apply elem_of_list_fmap in Hin as (b & Hb & Hin). by apply (Hdis b e).
  - intros e He Hne. apply Hne. cbn. rewrite fmap_app. apply elem_of_cons. right. apply elem_of_app. left. by apply elem_of_list_fmap_1.
Qed.

Theorem C61_not_blocked (on_chain : SealWitness P -> Prop) (c : Contract A) pre mid post c1 t1 c2 t2 :
  keeps_cells A peek out gone -> remembers A -> faithful U -> needs_inputs A peek -> intact A peek c ->
  pre <> [] ->
  accepts c (pre ++ mid) c1 t1 -> accepts c (pre ++ post) c2 t2 ->
  let h1 := history (contract_id A c) (pre ++ mid) in
  let h2 := history (contract_id A c) (pre ++ post) in
  NoDup (id_of <$> h1) -> NoDup (id_of <$> h2) -> on_one_chain on_chain (h1 ++ h2) ->
  (forall b e, b ∈ mid -> e ∈ post -> id_of b <> id_of e) ->
  exists d t d' t',
    accepts c (pre ++ mid ++ post) d t /\ accepts c (pre ++ post ++ mid) d' t' /\ same_state A peek d d' /\
    forall o, is_known A d o = true <-> is_known A c1 o = true \/ is_known A c2 o = true.
Proof.
  intros K1 K2 K3 K4 Hint Hpre H1 H2 h1 h2 Hnd1 Hnd2 Hch Hdis. destruct pre as [|b0 pre]; [done|].
  set (g := id_of (seen_first (contract_id A c) b0)). cbn [app] in *.
  assert (proper (U:=U) (contract_id A c) g (b0 :: pre ++ mid)) as P1 by (split; [by eexists _, _|exact Hnd1]).
  assert (proper (U:=U) (contract_id A c) g (b0 :: pre ++ post)) as P2 by (split; [by eexists _, _|exact Hnd2]).
  destruct (C54_merge_all A (E:=E) peek out gone on_chain c g (b0 :: pre ++ mid) [b0 :: pre ++ post] K1 K2 K3 K4 Hint)
    as (d & t & _ & Hd & _ & _ & Hsw).
  - intros x [->|[->|[]%elem_of_nil]%elem_of_cons]%elem_of_cons; eauto.
  - intros x [->|[->|[]%elem_of_nil]%elem_of_cons]%elem_of_cons; done.
  - unfold all_entries. cbn. by rewrite app_nil_r.
  - destruct (Hsw (b0 :: pre ++ post) [b0 :: pre ++ mid] ltac:(constructor)) as (d' & t' & Hd' & Hs).
    cbn [merged_all foldl] in Hd, Hd'.
    rewrite (merged_branches _ b0 pre mid post Hnd1 Hnd2 Hdis) in Hd.
    rewrite (merged_branches _ b0 pre post mid Hnd2 Hnd1) in Hd' by (intros b e Hb He Heq; by apply (Hdis e b)).
    exists d, t, d', t'. split; [exact Hd|]. split; [exact Hd'|]. split; [exact Hs|].
    intros o. apply evaluate_ok_iff in H1 as (u1 & Hu1 & _). apply evaluate_ok_iff in H2 as (u2 & Hu2 & _).
    apply evaluate_ok_iff in Hd as (u & Hu & _).
    destruct (run_state A peek out gone K1 K2 K3 c _ _ _ Hint Hu1) as (_ & _ & Hk1 & _).
    destruct (run_state A peek out gone K1 K2 K3 c _ _ _ Hint Hu2) as (_ & _ & Hk2 & _).
    destruct (run_state A peek out gone K1 K2 K3 c _ _ _ Hint Hu) as (_ & _ & Hk & _).
    rewrite Hk, Hk1, Hk2. clear. cbn [history tail]. split.
    + intros [Ho|(b & Hb & Hid)]; [left; by left|]. apply elem_of_app in Hb as [Hb|[Hb|Hb]%elem_of_app].
      * left. right. exists b. split; [apply elem_of_app; by left|done].
      * left. right. exists b. split; [apply elem_of_app; by right|done].
      * right. right. exists b. split; [apply elem_of_app; by right|done].
    + intros [[Ho|(b & Hb & Hid)]|[Ho|(b & Hb & Hid)]]; try (left; exact Ho); right; exists b; (split; [|exact Hid]);
        apply elem_of_app in Hb as [Hb|Hb]; apply elem_of_app; first [by left|right]; apply elem_of_app; first [by left|by right].
Qed.
End unblocked.

(** ** C62 Parties which read bytes agree *)
Section agree.
Context {P : SealProtocol} {U : Ultrasonic} (A : ContractApi P U) {X : Type}.
Context (peek : Contract A -> Slot -> option X) (out : Operation -> Slot -> option X).
Context (gone : Operation -> Slot -> bool).
Context (COp : codec Operation) (CDef : codec (SealDef P)) (CPub : codec (Published P)) (CCli : codec (Client P))
  (wfOp : Operation -> Prop) (wfDef : SealDef P -> Prop) (wfPub : Published P -> Prop) (wfCli : Client P -> Prop).
Notation Block := (OperationSeals P).
Notation C := (c_operation_seals COp CDef CPub CCli).
Notation wf := (entry_wf wfOp wfDef wfPub wfCli).
Notation on_one_chain := (on_one_chain (U:=U)).

(** [bs] are the entries at the front of the bytes [l], and the bytes after them do not start
    with an entry. *)
Definition entries_of (l : bytes) (bs : list Block) : Prop :=
  exists tail, Forall wf bs /\ l = concat (enc C <$> bs) ++ tail /\ forall b r, wf b -> tail <> enc C b ++ r.

(** The contract [c] accepts the bytes [l]. *)
Definition accepts_bytes (c : Contract A) (l : bytes) : Prop :=
  exists d t rest, evaluate_reader A (byte_reader C) (S (length l)) c l = ((d, t), rest, Some (Ok tt)).

(** The states a party can reach from [c0] by reading one string of bytes after the other,
    each of them to the end of its evaluation or to a crash in the middle of it. *)
Inductive byte_session (c0 : Contract A) : list bytes -> Contract A -> Prop :=
| byte_session_start : byte_session c0 [] c0
| byte_session_step L c l c' t1 t2 rest r :
    byte_session c0 L c ->
    evaluate_reader A (byte_reader C) (S (length l)) c l = ((c', t1 ++ t2), rest, Some r) ->
    byte_session c0 (L ++ [l]) (apply_calls A c t1).

Hypothesis HO : lawful COp wfOp.
Hypothesis HD : lawful CDef wfDef.
Hypothesis HP : lawful CPub wfPub.
Hypothesis HC : lawful CCli wfCli.

Lemma C_lawful : lawful C wf.
Proof. exact (lawful_operation_seals COp CDef CPub CCli wfOp wfDef wfPub wfCli HO HD HP HC). Qed.
Lemma tail_undecodable tl : (forall b r, wf b -> tl <> enc C b ++ r) <-> tl = [] \/ tl <> [] /\ dec C tl = None.
Proof.
  split.
  - intros H. destruct tl as [|x tl]; [by left|right]. split; [done|].
    destruct (dec C (x :: tl)) as [[b r]|] eqn:Hd; [|done].
    apply (proj2 C_lawful) in Hd as [Hb Heq]. by apply H in Heq.
  - intros [->|[Hne Hd]] b r Hb Heq.
    + symmetry in Heq. apply app_eq_nil in Heq as [Heq _]. by apply entry_nonempty in Heq.
    + rewrite Heq, (proj1 C_lawful b r Hb) in Hd. done.
Qed.
Lemma entries_of_total l : exists bs, entries_of l bs.
Proof.
  destruct (bytes_split C wf C_lawful (entry_nonempty COp CDef CPub CCli) l) as (bs & tl & Hbs & Hl & _ & Htl).
  exists bs, tl. split; [done|]. split; [done|]. by apply tail_undecodable.
Qed.
Lemma entries_of_unique l bs bs' : entries_of l bs -> entries_of l bs' -> bs = bs'.
Proof.
  intros (tl & Hbs & Hl & Htl) (tl' & Hbs' & Hl' & Htl'). rewrite Hl in Hl'. clear l Hl. revert bs' Hbs' Hl'.
  induction bs as [|b bs IH]; intros [|b' bs'] Hbs' Heq; cbn -[c_operation_seals] in Heq.
  - done.
  - rewrite <-app_assoc in Heq. apply Forall_cons_1 in Hbs' as [Hb' _]. by apply Htl in Heq.
  - rewrite <-app_assoc in Heq. apply Forall_cons_1 in Hbs as [Hb _]. symmetry in Heq. by apply Htl' in Heq.
  - rewrite <-!app_assoc in Heq. apply Forall_cons_1 in Hbs as [Hb Hbs]. apply Forall_cons_1 in Hbs' as [Hb' Hbs'].
    apply (lawful_prefix_free C wf b b' _ _ C_lawful Hb Hb') in Heq as [-> Heq]. f_equal. by apply IH.
Qed.
Lemma bytes_evaluate c l bs fuel : entries_of l bs -> length l < fuel ->
  exists fin, forall d t r, evaluate A (E:=DecodeError) c bs fin = (d, t, r) ->
    (exists rest, evaluate_reader A (byte_reader C) fuel c l = ((d, t), rest, r)) /\
    (fin = None <-> l = concat (enc C <$> bs)).
Proof.
  intros (tl & Hbs & Hl & Htl) Hf. apply tail_undecodable in Htl.
  exists (if decide (tl = []) then None else Some Malformed). intros d t r Hev. split.
  - pose proof (entry_nonempty COp CDef CPub CCli) as Hne.
    pose proof (bytes_delivers C wf C_lawful Hne bs tl Hbs) as Hdl. unfold encode_entries in Hdl. rewrite <-Hl in Hdl.
    refine (reader_same A (byte_reader C) c _ bs tl _ tl fuel d t r Hdl (bytes_ends C tl Htl) _ Hev).
    assert (length bs <= length l); [|lia].
    pose proof (entries_at_least COp CDef CPub CCli 0 0 bs) as Hlen. rewrite Hl, app_length.
    assert (3 * length bs <= length (concat (enc C <$> bs))); [|lia].
    etransitivity; [|apply Hlen]; [lia|intros ?; lia|intros ?; lia].
  - destruct (decide (tl = [])) as [->|Ht]; (split; [intros H|intros H]); try done.
    + by rewrite app_nil_r in Hl.
    + rewrite H in Hl. rewrite <-(app_nil_r (concat _)) in Hl at 1. by apply app_inv_head in Hl.
Qed.
Lemma accepts_bytes_iff c l bs : entries_of l bs ->
  accepts_bytes c l <-> l = concat (enc C <$> bs) /\ exists d t, evaluate A (E:=DecodeError) c bs None = (d, t, Some (Ok tt)).
Proof.
  intros Hl. destruct (bytes_evaluate c l bs (S (length l)) Hl ltac:(lia)) as [fin Hfin].
  destruct (evaluate_outcome A c bs fin) as (d & t & r & Hr & Ho).
  destruct (Hfin d t (Some r) Hr) as [[rest Hrest] Hn]. split.
  - intros (d' & t' & rest' & Hacc). rewrite Hrest in Hacc. assert (r = Ok tt) as -> by congruence.
    assert (fin = None) as -> by (by inversion Ho). split; [by apply Hn|by exists d, t].
  - intros [Heq (d' & t' & Hacc)]. apply Hn in Heq as ->. rewrite Hr in Hacc.
    exists d, t, rest. rewrite Hrest. by injection Hacc as -> -> ->.
Qed.
Lemma byte_session_of c0 Ls L c : byte_session c0 Ls c -> Forall2 entries_of Ls L ->
  exists l, session_of A DecodeError c0 L l c.
Proof.
  intros H. revert L. induction H as [|Ls c l c' t1 t2 rest r Hs IH Hev]; intros L HL.
  - apply Forall2_nil_inv_l in HL as ->. exists []. constructor.
  - apply Forall2_app_inv_l in HL as (L1 & L2 & HL1 & HL2 & ->).
    apply Forall2_cons_inv_l in HL2 as (bs & L3 & Hbs & HL3 & ->). apply Forall2_nil_inv_l in HL3 as ->.
    destruct (IH L1 HL1) as [k Hk]. destruct (bytes_evaluate c l bs (S (length l)) Hbs ltac:(lia)) as [fin Hfin].
    destruct (evaluate_outcome A c bs fin) as (d & t & r' & Hr & _). destruct (Hfin d t (Some r') Hr) as [[rest' Hrest] _].
    rewrite Hev in Hrest. assert (t = t1 ++ t2) as -> by congruence.
    exists (k ++ t1). by eapply session_of_step.
Qed.

(** Every string of bytes has exactly one list of entries.  Parties which start from the same
    contract and read what they were sent agree on every string of bytes which is all entries
    and brings the operations it needs; no one accepts a string of bytes which is not. *)
Theorem C62_bytes_agree (on_chain : SealWitness P -> Prop) (c0 : Contract A) Ls c Ls' c' l :
  keeps_cells A peek out gone -> remembers A -> faithful U -> needs_inputs A peek -> intact A peek c0 ->
  byte_session c0 Ls c -> byte_session c0 Ls' c' ->
  exists L L' bs,
    (Forall2 entries_of Ls L /\ Forall2 entries_of Ls' L' /\ entries_of l bs /\
     forall bs', entries_of l bs' -> bs' = bs) /\
    (on_one_chain on_chain (all_entries (contract_id A c0) (L ++ L' ++ [bs])) ->
     self_contained A c0 (history (contract_id A c0) bs) ->
     accepts_bytes c l <-> accepts_bytes c' l) /\
    (accepts_bytes c l -> l = concat (enc C <$> bs)).
Proof.
  intros K1 K2 K3 K4 Hint Hs Hs'.
  assert (forall Ls, exists L, Forall2 entries_of Ls L) as Htot.
  { clear -HO HD HP HC. induction Ls as [|x Ls [L IH]]; [by exists []|]. destruct (entries_of_total x) as [bs Hbs].
    exists (bs :: L). by constructor. }
  destruct (Htot Ls) as [L HL]. destruct (Htot Ls') as [L' HL']. destruct (entries_of_total l) as [bs Hbs].
  exists L, L', bs. split; [|split].
  - split; [done|]. split; [done|]. split; [done|]. intros bs' Hbs'. by eapply entries_of_unique.
  - intros Hch Hself. destruct (byte_session_of c0 Ls L c Hs HL) as [k Hk].
    destruct (byte_session_of c0 Ls' L' c' Hs' HL') as [k' Hk'].
    rewrite !(accepts_bytes_iff _ _ _ Hbs).
    destruct (C53_chain_consensus A (E:=DecodeError) peek out gone on_chain c0 L k c L' k' c' bs K1 K2 K3 K4 Hint Hk Hk' Hch Hself)
      as [_ Hiff]. by rewrite (Hiff bs (reflexivity bs)).
  - rewrite (accepts_bytes_iff _ _ _ Hbs). by intros [? _].
Qed.
End agree.

(** From the facts about the chain, for the ledger which drops consumed cells. *)
Corollary C61_bitcoin (B : BpCore) (spends : Tx B -> nat -> Outpoint -> Prop)
    (commits : Tx B -> nat -> MmbMessage B -> Prop) (on_chain : Tx B -> Prop)
    (S : Sonic) (E : Type) (c : TestContract (bitcoin B) S) pre mid post c1 t1 c2 t2 :
  let A := spending_ledger (bitcoin B) S in
  let h1 := history (tc_contract_id _ _ c) (pre ++ mid) in
  let h2 := history (tc_contract_id _ _ c) (pre ++ post) in
  sonic_local S -> sonic_needs S -> ledger_intact _ S c -> pre <> [] ->
  evaluate A (E:=E) c (pre ++ mid) None = (c1, t1, Some (Ok tt)) ->
  evaluate A (E:=E) c (pre ++ post) None = (c2, t2, Some (Ok tt)) ->
  NoDup (id_of (U:=sonic S) <$> h1) -> NoDup (id_of (U:=sonic S) <$> h2) ->
  (forall b e, b ∈ mid -> e ∈ post -> id_of (U:=sonic S) b <> id_of (U:=sonic S) e) ->
  closing_spends B spends commits -> one_message B commits -> spent_once B spends on_chain ->
  messages_differ (bitcoin B) ->
  anchored (bitcoin B) (mined B on_chain) (h1 ++ h2) -> no_collisions (U:=sonic S) (h1 ++ h2) (h1 ++ h2) ->
  Forall positions_bound (h1 ++ h2) -> all_settled (h1 ++ h2) ->
  exists d t d' t',
    evaluate A (E:=E) c (pre ++ mid ++ post) None = (d, t, Some (Ok tt)) /\
    evaluate A (E:=E) c (pre ++ post ++ mid) None = (d', t', Some (Ok tt)) /\
    tc_owned _ _ d = tc_owned _ _ d' /\ tc_global _ _ d = tc_global _ _ d'.
Proof.
  intros A h1 h2 Hloc Hneed Hint Hpre H1 H2 Hn1 Hn2 Hdis Hsp Hone Honce Hm Ha Hc Hpos Hroot.
  destruct (C61_not_blocked A (E:=E) (ledger_peek _ S) outputs inputs_gone (mined B on_chain) c pre mid post c1 t1 c2 t2)
    as (d & t & d' & t' & Hd & Hd' & (_ & _ & Hpk) & _); try done.
  - by apply spending_keeps_cells.
  - apply spending_remembers.
  - apply sonic_faithful.
  - by apply spending_needs_inputs.
  - by apply ledger_intact_iff.
  - split; try done; intros s _; [by eapply bitcoin_single_use|by eapply bitcoin_closed_by_one].
  - exists d, t, d', t'. split; [done|]. split; [done|]. split; apply map_eq; intros a.
    + specialize (Hpk (Owned a)). cbn in Hpk.
      destruct (tc_owned _ _ d !! a), (tc_owned _ _ d' !! a); cbn in Hpk; congruence.
    + specialize (Hpk (Global a)). cbn in Hpk.
      destruct (tc_global _ _ d !! a), (tc_global _ _ d' !! a); cbn in Hpk; congruence.
Qed.

(** * Concrete cases *)
Lemma toy_operation_at_least : at_least 9 c_operation.
Proof.
  intros o. cbn -[c_cell c_data c_input c_addr]. repeat (rewrite ?app_length; cbn -[c_cell c_data c_input c_addr]).
  lia.
Qed.
Lemma toy_def_at_least : at_least 4 c_def.
Proof. intros [[v|o] [n|o']]; cbn; repeat rewrite ?app_length; cbn; repeat rewrite ?app_length; cbn; lia. Qed.
Notation of_entries bs := (concat (enc toy_codec <$> bs)).
Definition toy_read (A : ContractApi TP TU) (c : Contract A) (l : bytes) :=
  evaluate_reader A (byte_reader toy_codec) (S (length l)) c l.

(** *** C60: any bytes at all, the bytes of the scenario, and an accepted entry of 12 bytes *)
Example C60_case : forall l : bytes, exists c t rest r,
  toy_read toy_api ledger l = ((c, t), rest, Some r) /\
  length t < 8 * count is_read t /\ 12 * pred (count is_read t) <= length l.
Proof.
  intros l. exact (C60_work toy_api _ _ _ _ _ _ _ _ 9 4 ledger l (S (length l)) lawful_operation lawful_def lawful_tx lawful_bundle
    toy_operation_at_least toy_def_at_least (Nat.lt_succ_diag_r _)).
Qed.
Lemma toy_read_ok (A : ContractApi TP TU) c (l : bytes) r : (toy_read A c l).2 = r ->
  exists d t rest, toy_read A c l = ((d, t), rest, r).
Proof. destruct (toy_read A c l) as [[[d t] rest] r']. cbn. intros ->. by exists d, t, rest. Qed.
Example C60_case_seals :
  length (of_entries scenario) = 583 /\
  exists bs lv, Forall toy_wf bs /\ of_entries scenario = of_entries bs /\ lists_live (U:=TU) (history toy_cid bs) lv /\
    12 * length bs + 6 * (length lv + sum_list_with consumed_in (history toy_cid bs)) <= 583.
Proof.
  assert (length (of_entries scenario) = 583) as Hlen by vm_refl. split; [exact Hlen|].
  assert ((toy_read toy_api ledger (of_entries scenario)).2 = Some (Ok tt)) as Hok by vm_refl.
  destruct (toy_read_ok toy_api ledger (of_entries scenario) (Some (Ok tt)) Hok) as (d & t & rest & Hacc).
  destruct (C60_seals toy_api _ _ _ _ _ _ _ _ 9 4 ledger _ _ d t rest lawful_operation lawful_def lawful_tx lawful_bundle
    toy_operation_at_least toy_def_at_least (Nat.lt_succ_diag_r _) Hacc) as (bs & lv & H0 & H1 & H2 & H3).
  exists bs, lv. split; [exact H0|]. split; [exact H1|]. split; [exact H2|]. rewrite Hlen in H3. exact H3.
Qed.
Definition codex_e : ToyCodex := MkToyCodex [] {[0%N]}.
Definition op_e : Operation := toy_op (MkContractId []) 0 [] [].
Definition ledger_e : ToyContract := {|
  tc_codex := codex_e : sonic_codex toy_sonic; tc_contract_id := toy_cid; tc_libs := ∅; tc_global := ∅; tc_owned := ∅;
  tc_known_ops := ∅; tc_seal_definitions := ∅; tc_witnesses := ∅ |}.
Definition entry_e : ToyBlock := block op_e [] None.
Example C60_sharp :
  length (of_entries [entry_e]) = 12 /\
  (toy_read toy_api ledger_e (of_entries [entry_e])).2 = Some (Ok tt) /\
  count is_read (toy_read toy_api ledger_e (of_entries [entry_e])).1.1.2 = 2.
Proof. split; [vm_refl|]. split; vm_refl. Qed.

(** The bound on seals is attained: with an encoding of one byte for the operation and for each
    of its two definitions, the genesis of the scenario takes 10 bytes. *)
Definition c_short {X} (x0 x1 : X) (is0 is1 : X -> bool) (C : codec X) : codec X := {|
  enc := fun x => if is0 x then [0%N] else if is1 x then [1%N] else 2%N :: enc C x;
  dec := fun l => match l with
                  | 0%N :: r => Some (x0, r)
                  | 1%N :: r => Some (x1, r)
                  | 2%N :: r => match dec C r with
                                | Some (x, r') => if is0 x || is1 x then None else Some (x, r')
                                | None => None
                                end
                  | _ => None
                  end |}.
Lemma lawful_short {X} (x0 x1 : X) is0 is1 (C : codec X) :
  (forall x, is0 x = true <-> x = x0) -> (forall x, is1 x = true <-> x = x1) -> x0 <> x1 ->
  lawful C (fun _ => True) -> lawful (c_short x0 x1 is0 is1 C) (fun _ => True).
Proof.
  intros H0 H1 Hne [C1 C2]. split.
  - intros x r _. cbn. destruct (is0 x) eqn:E0; [apply H0 in E0 as ->; done|].
    destruct (is1 x) eqn:E1; [apply H1 in E1 as ->; done|]. cbn. rewrite C1 by done. by rewrite E0, E1.
  - intros l x r Hd. split; [done|]. destruct l as [|[|[[]|[]|]] l]; cbn in Hd; try done.
    + injection Hd as <- <-. cbn. by rewrite (proj2 (H0 x0)).
    + destruct (dec C l) as [[y r']|] eqn:Hy; [|done]. destruct (is0 y || is1 y) eqn:Hor; [done|].
      injection Hd as -> ->. apply orb_false_iff in Hor as [E0 E1]. cbn. rewrite E0, E1.
      apply C2 in Hy as [_ ->]. done.
    + injection Hd as <- <-. cbn. rewrite (proj2 (H1 x1)) by done. destruct (is0 x1) eqn:E0; [|done]. by apply H0 in E0.
Qed.
Lemma short_at_least {X} (x0 x1 : X) is0 is1 (C : codec X) : at_least 1 (c_short x0 x1 is0 is1 C).
Proof. intros x. cbn. destruct (is0 x), (is1 x); cbn; lia. Qed.
Definition c_op_short : codec Operation :=
  c_short (as_genesis op_g) op_1 (fun o => bool_decide (o = as_genesis op_g)) (fun o => bool_decide (o = op_1)) c_operation.
Definition c_def_short : codec WTxoSeal :=
  c_short def_a def_b (fun d => bool_decide (d = def_a)) (fun d => bool_decide (d = def_b)) c_def.
Definition short_codec : codec ToyBlock :=
  c_operation_seals (P:=TP) c_op_short (c_def_short : codec (SealDef TP)) (c_tx : codec (Published TP)) (c_bundle : codec (Client TP)).
Example C60_seals_sharp :
  lawful c_op_short (fun _ => True) /\ lawful c_def_short (fun _ => True) /\
  at_least 1 c_op_short /\ at_least 1 c_def_short /\
  (evaluate_reader toy_api (byte_reader short_codec) 11 ledger (enc short_codec entry_g)).2 = Some (Ok tt) /\
  (exists lv, lists_live (U:=TU) (history toy_cid [entry_g]) lv /\ length lv = 2) /\
  length (enc short_codec entry_g) = (1 + 3) * 1 + (1 + 2) * (2 + 0).
Proof.
  split; [|split; [|split; [|split; [|split; [|split]]]]].
  - apply lawful_short; [intros x; apply bool_decide_eq_true|intros x; apply bool_decide_eq_true| |exact lawful_operation].
    apply (bool_decide_unpack _). by vm_compute.
  - apply lawful_short; [intros x; apply bool_decide_eq_true|intros x; apply bool_decide_eq_true| |exact lawful_def].
    apply (bool_decide_unpack _). by vm_compute.
  - apply short_at_least.
  - apply short_at_least.
  - vm_refl.
  - set (m := extend_seals (delete_all (inputs_of (seen_first toy_cid entry_g)) ∅) (sources_of (U:=TU) (seen_first toy_cid entry_g))).
    exists (map_to_list m). split; [|vm_refl]. apply tracks_lists_live. apply (tracks_snoc _ []), tracks_nil.
  - vm_refl.
Qed.

(** *** C61: the two branches after the genesis *)
Example C61_case :
  exists d t d' t',
    spend_accepts ledger [entry_g; entry_1; entry_4; entry_3; entry_5] d t /\
    spend_accepts ledger [entry_g; entry_3; entry_5; entry_1; entry_4] d' t' /\
    same_state spend_api (ledger_peek TP toy_sonic) d d' /\
    is_known spend_api d id_4 = true /\ is_known spend_api d id_5 = true.
Proof.
  assert (spend_run ledger [entry_g; entry_1; entry_4] = Some (Ok tt)) as H1%spend_evaluate by vm_refl.
  assert (spend_run ledger [entry_g; entry_3; entry_5] = Some (Ok tt)) as H2%spend_evaluate by vm_refl.
  destruct (C61_not_blocked spend_api (E:=Empty_set) (ledger_peek TP toy_sonic) outputs inputs_gone
    (toy_on_chain one_chain) ledger [entry_g] [entry_1; entry_4] [entry_3; entry_5] _ _ _ _
    spend_keeps_cells (spending_remembers _ _) (sonic_faithful _) spend_needs_inputs spend_intact ltac:(discriminate) H1 H2)
    as (d & t & d' & t' & H3 & H4 & H5 & H6).
  - apply (bool_decide_unpack _). by vm_compute.
  - apply (bool_decide_unpack _). by vm_compute.
  - apply toy_on_one_chain. vm_refl.
  - intros b e Hb He.
    assert (forallb (fun b => forallb (fun e => bool_decide (id_of (U:=TU) b <> id_of (U:=TU) e)) [entry_3; entry_5]) [entry_1; entry_4] = true)
      as Hf by vm_refl.
    rewrite forallb_forall in Hf. specialize (Hf b (proj1 (elem_of_list_In _ _) Hb)). rewrite forallb_forall in Hf.
    specialize (Hf e (proj1 (elem_of_list_In _ _) He)). by apply bool_decide_eq_true in Hf.
  - exists d, t, d', t'. split; [exact H3|]. split; [exact H4|]. split; [exact H5|].
    split; apply H6; [left|right]; vm_refl.
Qed.
(** From the facts about the chain. *)
Example C61_case_bitcoin : exists d t d' t',
  spend_accepts ledger [entry_g; entry_1; entry_4; entry_3; entry_5] d t /\
  spend_accepts ledger [entry_g; entry_3; entry_5; entry_1; entry_4] d' t' /\
  tc_owned _ _ d = tc_owned _ _ d' /\ tc_global _ _ d = tc_global _ _ d'.
Proof.
  assert (spend_run ledger [entry_g; entry_1; entry_4] = Some (Ok tt)) as H1%spend_evaluate by vm_refl.
  assert (spend_run ledger [entry_g; entry_3; entry_5] = Some (Ok tt)) as H2%spend_evaluate by vm_refl.
  assert (on_one_chain (U:=TU) (toy_on_chain one_chain)
    (history toy_cid ([entry_g] ++ [entry_1; entry_4]) ++ history toy_cid ([entry_g] ++ [entry_3; entry_5])))
    as [_ _ H3 H4 H5 H6 H7].
  { apply toy_on_one_chain. vm_refl. }
  refine (C61_bitcoin toy_bp toy_spends toy_commits (fun tx : ToyTx => tx ∈ one_chain) toy_sonic Empty_set ledger
    [entry_g] [entry_1; entry_4] [entry_3; entry_5] _ _ _ _ toy_local toy_needs (toy_intact op_g) ltac:(discriminate) H1 H2
    _ _ _ toy_closing_spends toy_one_message (toy_spent_once _ one_chain_valid) H3 H4 H5 H6 H7).
  - apply (bool_decide_unpack _). by vm_compute.
  - apply (bool_decide_unpack _). by vm_compute.
  - intros b e Hb He.
    assert (forallb (fun b => forallb (fun e => bool_decide (id_of (U:=TU) b <> id_of (U:=TU) e)) [entry_3; entry_5]) [entry_1; entry_4] = true)
      as Hf by vm_refl.
    rewrite forallb_forall in Hf. specialize (Hf b (proj1 (elem_of_list_In _ _) Hb)). rewrite forallb_forall in Hf.
    specialize (Hf e (proj1 (elem_of_list_In _ _) He)). by apply bool_decide_eq_true in Hf.
Qed.
(** The premise on the chain is needed: a double spend blocks the transfer.  So is the premise
    that the operations differ. *)
Example C61_chain_needed :
  spend_run ledger ([entry_g] ++ [entry_1; entry_4]) = Some (Ok tt) /\
  spend_run ledger ([entry_g] ++ [entry_v]) = Some (Ok tt) /\
  spend_run ledger ([entry_g] ++ [entry_1; entry_4] ++ [entry_v]) = Some (Err (SealUnknown (MkCellAddr id_g 0))).
Proof. split; [vm_refl|]. split; vm_refl. Qed.
Example C61_differ_needed :
  spend_run ledger ([entry_g] ++ [entry_1]) = Some (Ok tt) /\
  spend_run ledger ([entry_g] ++ [entry_1] ++ [entry_1]) = Some (Err (SealUnknown (MkCellAddr id_g 0))).
Proof. split; vm_refl. Qed.

(** *** C62: one party reads a double spend which it rejects, then one branch followed by a
    part of an entry; the other one reads the other branch.  They agree on the bytes of both
    branches, and on the bytes of an entry too few. *)
Notation toy_session L c :=
  (byte_session spend_api c_operation (c_def : codec (SealDef TP)) (c_tx : codec (Published TP))
    (c_bundle : codec (Client TP)) ledger L c).
Notation toy_entries_of l bs :=
  (entries_of (P:=TP) c_operation (c_def : codec (SealDef TP)) (c_tx : codec (Published TP))
    (c_bundle : codec (Client TP)) (fun _ => True) (fun _ => True)
    (fun t : Published TP => wf_bundle (tx_commitment t)) wf_bundle l bs).
Notation toy_accepts_bytes c l :=
  (accepts_bytes spend_api c_operation (c_def : codec (SealDef TP)) (c_tx : codec (Published TP))
    (c_bundle : codec (Client TP)) c l).
Definition after_read (c : ToyContract) (l : bytes) : ToyContract :=
  apply_calls spend_api c (toy_read spend_api c l).1.1.2.
Lemma toy_session_step L c (l : bytes) : toy_session L c -> toy_session (L ++ [l]) (after_read c l).
Proof.
  intros Hs. unfold after_read.
  destruct (C60_work spend_api _ _ _ _ _ _ _ _ 9 4 c l (S (length l)) lawful_operation lawful_def lawful_tx lawful_bundle
    toy_operation_at_least toy_def_at_least (Nat.lt_succ_diag_r _)) as (d & t & rest & r & H & _).
  unfold toy_read, toy_codec. rewrite H. cbn [fst snd]. rewrite <-(app_nil_r t) in H.
  exact (byte_session_step spend_api _ _ _ _ ledger L c l d t [] rest r Hs H).
Qed.
Lemma toy_entries (bs : list ToyBlock) (tl : bytes) :
  forallb toy_wf_b bs = true -> bool_decide (dec toy_codec tl = None) = true -> toy_entries_of (of_entries bs ++ tl) bs.
Proof.
  intros Hbs%toy_wf_dec Htl%bool_decide_eq_true. exists tl. split; [exact Hbs|]. split; [reflexivity|].
  intros b r Hb Heq.
  pose proof (C_lawful (P:=TP) _ _ _ _ _ _ _ _ lawful_operation lawful_def lawful_tx lawful_bundle) as HC.
  unfold toy_codec in Htl. rewrite Heq, (proj1 HC b r Hb) in Htl. discriminate Htl.
Qed.
Definition read_1 : list bytes :=
  [of_entries [entry_g; entry_vn]; of_entries [entry_g; entry_1; entry_4] ++ take 20 (enc toy_codec entry_2)].
Definition read_2 : list bytes := [of_entries [entry_g; entry_3; entry_5]].
Definition party_1 : ToyContract := foldl after_read ledger read_1.
Definition party_2 : ToyContract := foldl after_read ledger read_2.
Lemma session_1 : toy_session read_1 party_1.
Proof. exact (toy_session_step _ _ _ (toy_session_step _ _ _ (byte_session_start spend_api _ _ _ _ ledger))). Qed.
Lemma session_2 : toy_session read_2 party_2.
Proof. exact (toy_session_step _ _ _ (byte_session_start spend_api _ _ _ _ ledger)). Qed.
Lemma read_accepts c (l : bytes) : (toy_read spend_api c l).2 = Some (Ok tt) -> toy_accepts_bytes c l.
Proof. intros H%toy_read_ok. exact H. Qed.

Lemma toy_agree (l : bytes) bs tl :
  l = of_entries bs ++ tl ->
  forallb toy_wf_b bs = true -> bool_decide (dec toy_codec tl = None) = true ->
  forallb (fun b => witness_in one_chain b && defs_in all_defs b && bound_b b && complete_b b)
    (all_entries toy_cid ([[entry_g; entry_vn]; [entry_g; entry_1; entry_4]] ++ [[entry_g; entry_3; entry_5]] ++ [bs])) = true ->
  self_contained spend_api ledger (history toy_cid bs) ->
  toy_accepts_bytes party_1 l <-> toy_accepts_bytes party_2 l.
Proof.
  intros -> Hwf Htl Hch Hself.
  destruct (C62_bytes_agree spend_api (ledger_peek TP toy_sonic) outputs inputs_gone _ _ _ _ _ _ _ _
    lawful_operation lawful_def lawful_tx lawful_bundle (toy_on_chain one_chain) ledger read_1 party_1 read_2 party_2
    (of_entries bs ++ tl) spend_keeps_cells (spending_remembers _ _) (sonic_faithful _) spend_needs_inputs spend_intact
    session_1 session_2) as (L & L' & bs' & (HL & HL' & Hbs & Huniq) & Hiff & _).
  assert (forall (x : bytes) y z, toy_entries_of x y -> toy_entries_of x z -> y = z) as Hun.
  { intros x y z. exact (entries_of_unique (P:=TP) _ _ _ _ _ _ _ _ lawful_operation lawful_def lawful_tx lawful_bundle x y z). }
  rewrite <-(Huniq bs (toy_entries bs tl Hwf Htl)) in Hiff.
  apply Forall2_cons_inv_l in HL as (x1 & L1 & E1 & HL & ->).
  apply Forall2_cons_inv_l in HL as (x2 & L2 & E2 & HL & ->). apply Forall2_nil_inv_l in HL as ->.
  apply Forall2_cons_inv_l in HL' as (x3 & L3 & E3 & HL' & ->). apply Forall2_nil_inv_l in HL' as ->.
  pose proof (toy_entries [entry_g; entry_vn] [] ltac:(vm_refl) ltac:(vm_refl)) as F1. rewrite app_nil_r in F1.
  pose proof (toy_entries [entry_g; entry_1; entry_4] (take 20 (enc toy_codec entry_2)) ltac:(vm_refl) ltac:(vm_refl)) as F2.
  pose proof (toy_entries [entry_g; entry_3; entry_5] [] ltac:(vm_refl) ltac:(vm_refl)) as F3. rewrite app_nil_r in F3.
  rewrite (Hun _ _ _ E1 F1), (Hun _ _ _ E2 F2), (Hun _ _ _ E3 F3) in Hiff.
  apply Hiff; [|exact Hself]. apply toy_on_one_chain. exact Hch.
Qed.
Example C62_case :
  toy_accepts_bytes party_1 (of_entries branches) /\ toy_accepts_bytes party_2 (of_entries branches).
Proof.
  assert (toy_accepts_bytes party_1 (of_entries branches)) as H1 by (apply read_accepts; vm_refl).
  split; [exact H1|].
  refine (proj1 (toy_agree (of_entries branches) branches [] (eq_sym (app_nil_r _)) _ _ _ _) H1); [vm_refl|vm_refl|vm_refl|].
  apply toy_self_contained. vm_refl.
Qed.
(** One more byte is accepted by no one. *)
Example C62_case_extra :
  ~ toy_accepts_bytes party_1 (of_entries branches ++ [0%N]) /\ ~ toy_accepts_bytes party_2 (of_entries branches ++ [0%N]).
Proof.
  assert (~ toy_accepts_bytes party_1 (of_entries branches ++ [0%N])) as H1.
  { intros (d & t & rest & H).
    assert ((toy_read spend_api party_1 (of_entries branches ++ [0%N])).2 = Some (Err (Stream Malformed))) as H2 by vm_refl.
    pose proof (f_equal snd H : (toy_read spend_api party_1 (of_entries branches ++ [0%N])).2 = Some (Ok tt)) as H3.
    rewrite H2 in H3. discriminate H3. }
  split; [exact H1|]. intros H2. apply H1.
  refine (proj2 (toy_agree (of_entries branches ++ [0%N]) branches [0%N] eq_refl _ _ _ _) H2); [vm_refl|vm_refl|vm_refl|].
  apply toy_self_contained. vm_refl.
Qed.

Print Assumptions C60_work.
Print Assumptions C60_seals.
Print Assumptions C61_not_blocked.
Print Assumptions C61_bitcoin.
Print Assumptions C62_bytes_agree.
