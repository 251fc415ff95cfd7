(** * Model of src/verify.rs:470-500: `run`, the common part of the tests *)
From Verif Require Export TestLedger Ordered.

(** ** `BTreeMap::first_key_value`, `BTreeMap::pop_first`: the least key.  The order of ids
    is the derived one, of their bytes (Ordered.v). *)
Fixpoint least {V} (l : list (Opid * V)) : option (Opid * V) :=
  match l with
  | [] => None
  | e :: l' =>
      match least l' with
      | None => Some e
      | Some e' => match opid_cmp e.1 e'.1 with Lt => Some e | _ => Some e' end
      end
  end.
Definition first_key_value {V} (m : gmap Opid V) : option (Opid * V) := least (map_to_list m).
Definition pop_first {V} (m : gmap Opid V) : gmap Opid V :=
  match first_key_value m with Some (o, _) => delete o m | None => m end.

Section run.
Context (P : SealProtocol) (S : Sonic) {E : Type}.
Notation Block := (OperationSeals P).
Notation A := (test_ledger P S).

(** ** src/verify.rs:476-484: for each entry, the id of its operation - as delivered - is
    mapped to [f] of the entry; a later entry replaces an earlier one *)
Definition collected {V} (f : Block -> V) (bs : list Block) : gmap Opid V :=
  foldl (fun m b => <[sonic_opid S (operation b) := f b]> m) ∅ bs.

(** ** src/verify.rs:486-488 and 495; 489-491 and 496; 492-494 and 497: the first key is
    dropped from the collected map, the first pair of the map [m] of the contract is added
    (`unwrap` panics if there is none), and the result is compared with [m] *)
Definition compared {V} (collected m : gmap Opid V) : Prop :=
  match first_key_value m with
  | None => False
  | Some (o, v) => <[o := v]> (pop_first collected) = m
  end.

(** ** src/verify.rs:475-497: none of the assertions panics *)
Definition assertions (bs : list Block) (c : TestContract P S) : Prop :=
  (* 481, 486-488, 495 *)
  compared (collected operation bs) (tc_known_ops P S c) /\
  (* 482, 489-491, 496 *)
  compared (collected defined_seals bs) (tc_seal_definitions P S c) /\
  (* 483, 492-494, 497 *)
  compared (collected (fun b => match witness b with Some w => [w] | None => [] end) bs)
           (tc_witnesses P S c).

(** ** src/verify.rs:471-499: `run` returns `Ok`.  In the code the contract is the one at
    431-447, here it is any. *)
Definition test_run (c0 : TestContract P S) (bs : list Block) : Prop :=
  exists c t, evaluate A (E:=E) c0 bs None = (c, t, Some (Ok tt)) /\ assertions bs c.
End run.

(** ** Facts about first keys *)
Lemma opid_cmp_lawful : lawful_order opid_cmp.
Proof.
  pose proof bytes_cmp_lawful as [B1 B2 B3]. split.
  - intros [l] [l']. unfold opid_cmp; cbn. rewrite B1. naive_solver.
  - intros [l] [l']. apply B2.
  - intros [l] [l'] [l'']. apply B3.
Qed.

Lemma opid_lt_irrefl o : opid_cmp o o <> Lt.
Proof. by rewrite (cmp_refl _ opid_cmp_lawful). Qed.
Lemma opid_not_lt o o' : opid_cmp o o' <> Lt -> o' = o \/ opid_cmp o' o = Lt.
Proof.
  intros H. destruct (opid_cmp o o') eqn:Hc; [|done|].
  - left. by apply (cmp_eq _ opid_cmp_lawful) in Hc.
  - right. by apply (cmp_gt _ opid_cmp_lawful).
Qed.

Lemma least_spec {V} (l : list (Opid * V)) :
  match least l with
  | None => l = []
  | Some e => e ∈ l /\ forall e', e' ∈ l -> e'.1 = e.1 \/ opid_cmp e.1 e'.1 = Lt
  end.
Proof.
  induction l as [|e l IH]; [done|]. cbn [least]. destruct (least l) as [e1|].
  2:{ subst l. split; [set_solver|]. intros e' ->%elem_of_list_singleton. by left. }
  destruct IH as [Hin Hl]. destruct (decide (opid_cmp e.1 e1.1 = Lt)) as [Hc|Hc].
  - rewrite Hc. split; [set_solver|]. intros e' [->|He']%elem_of_cons; [by left|]. right.
    destruct (Hl e' He') as [->|H]; [done|]. by eapply (cmp_trans _ opid_cmp_lawful).
  - assert ((match opid_cmp e.1 e1.1 with Lt => Some e | _ => Some e1 end) = Some e1) as ->.
    { by destruct (opid_cmp e.1 e1.1). }
    split; [set_solver|]. intros e' [->|He']%elem_of_cons; [|auto].
    apply opid_not_lt in Hc as [Hc|Hc]; auto.
Qed.

Lemma first_key_value_spec {V} (m : gmap Opid V) o v :
  first_key_value m = Some (o, v) <->
  m !! o = Some v /\ forall o', is_Some (m !! o') -> o' = o \/ opid_cmp o o' = Lt.
Proof.
  unfold first_key_value. pose proof (least_spec (map_to_list m)) as H. split.
  - intros Heq. rewrite Heq in H. destruct H as [Hin Hl]. split; [by apply elem_of_map_to_list|].
    intros o' [v' Hv']. apply (Hl (o', v')). by apply elem_of_map_to_list.
  - intros [Hv Hl]. apply elem_of_map_to_list in Hv as Hin. destruct (least (map_to_list m)) as [[o1 v1]|].
    2:{ rewrite H in Hin. by apply elem_of_nil in Hin. }
    destruct H as [Hin1 Hl1]. apply elem_of_map_to_list in Hin1.
    assert (o1 = o) as ->; [|congruence].
    destruct (Hl o1 ltac:(eauto)) as [->|H1]; [done|].
    destruct (Hl1 _ Hin) as [H2|H2]; [done|]. cbn in *.
    pose proof (cmp_trans _ opid_cmp_lawful _ _ _ H1 H2) as H3. by apply opid_lt_irrefl in H3.
Qed.

Lemma first_key_value_none {V} (m : gmap Opid V) : first_key_value m = None <-> m = ∅.
Proof.
  unfold first_key_value. pose proof (least_spec (map_to_list m)) as H. split.
  - intros Heq. rewrite Heq in H. by apply map_to_list_empty_iff.
  - intros ->. by rewrite map_to_list_empty.
Qed.

Lemma pop_first_least {V} (m : gmap Opid V) o :
  is_Some (m !! o) -> (forall o', is_Some (m !! o') -> o' = o \/ opid_cmp o o' = Lt) ->
  pop_first m = delete o m.
Proof.
  intros [v Hv] Hl. unfold pop_first. assert (first_key_value m = Some (o, v)) as ->; [|done].
  by apply first_key_value_spec.
Qed.

Section facts.
Context {P : SealProtocol} {S : Sonic} {E : Type}.
Notation Block := (OperationSeals P).
Notation A := (test_ledger P S).
Notation id_of := (id_of (P:=P) (U:=sonic S)).
Implicit Types (c : TestContract P S) (bs : list Block) (b : Block).

Lemma collected_snoc {V} (f : Block -> V) bs b :
  collected P S f (bs ++ [b]) = <[id_of b := f b]> (collected P S f bs).
Proof. unfold collected. by rewrite foldl_app. Qed.

Lemma collected_lookup {V} (f : Block -> V) bs o x :
  NoDup (id_of <$> bs) ->
  collected P S f bs !! o = Some x <-> exists b, b ∈ bs /\ id_of b = o /\ f b = x.
Proof.
  induction bs as [|b bs IH] using rev_ind; intros Hnd.
  { split; [unfold collected; cbn; by rewrite lookup_empty|]. intros (b & Hb & _). by apply elem_of_nil in Hb. }
  rewrite collected_snoc. rewrite fmap_app in Hnd. apply NoDup_app in Hnd as (Hnd & Hd & _).
  destruct (decide (id_of b = o)) as [<-|Hne].
  - rewrite lookup_insert. split.
    + intros [= <-]. exists b. set_solver.
    + intros (b' & [Hb'| ->%elem_of_list_singleton]%elem_of_app & Hid & <-); [|done].
      exfalso. apply (Hd (id_of b')); [by apply elem_of_list_fmap_1|]. rewrite Hid. set_solver.
  - rewrite lookup_insert_ne by done. rewrite IH by done. split.
    + intros (b' & ? & ?). exists b'. set_solver.
    + intros (b' & [Hb'| ->%elem_of_list_singleton]%elem_of_app & Hid & Hf); [eauto|done].
Qed.

(** One comparison, if the map of the contract has the key [g] and otherwise those entries
    after the first which satisfy [ok]. *)
Lemma compared_spec {V} (f : Block -> V) (ok : Block -> Prop) (m : gmap Opid V) g b0 bs :
  NoDup (id_of <$> bs) -> id_of b0 ∉ id_of <$> bs -> g ∉ id_of <$> bs -> id_of b0 <> g ->
  is_Some (m !! g) ->
  (forall o x, o <> g -> m !! o = Some x <-> exists b, b ∈ bs /\ id_of b = o /\ f b = x /\ ok b) ->
  compared (collected P S f (b0 :: bs)) m <->
  (forall b, b ∈ bs -> opid_cmp (id_of b0) (id_of b) = Lt /\ opid_cmp g (id_of b) = Lt /\ ok b).
Proof.
  intros Hnd H0 Hg H0g [vg Hvg] Hm.
  assert (NoDup (id_of <$> b0 :: bs)) as Hnd' by (cbn; by apply list.NoDup_cons).
  set (M := collected P S f (b0 :: bs)).
  assert (forall o x, M !! o = Some x <-> exists b, b ∈ b0 :: bs /\ id_of b = o /\ f b = x) as HM
    by (intros; by apply collected_lookup).
  assert (m !! id_of b0 = None) as Hm0.
  { apply eq_None_not_Some. intros [x (b & Hb & Hid & _)%(Hm _ _ H0g)]. apply H0. rewrite <-Hid.
    by apply elem_of_list_fmap_1. }
  split.
  - unfold compared. destruct (first_key_value m) as [[o v]|] eqn:Hf; [|done]. intros Heq.
    apply first_key_value_spec in Hf as [Hov Hl].
    assert (forall b, b ∈ bs -> opid_cmp (id_of b0) (id_of b) = Lt) as Hlt.
    { intros b Hb. destruct (decide (opid_cmp (id_of b0) (id_of b) = Lt)) as [|Hn]; [done|exfalso].
      apply opid_not_lt in Hn as [Hn|Hn]. { apply H0. rewrite <-Hn. by apply elem_of_list_fmap_1. }
      unfold pop_first in Heq. destruct (first_key_value M) as [[o1 v1]|] eqn:Hf1.
      2:{ apply first_key_value_none in Hf1. assert (M !! id_of b0 = Some (f b0)) as H by (apply HM; set_solver).
          by rewrite Hf1, lookup_empty in H. }
      apply first_key_value_spec in Hf1 as [_ Hl1].
      assert (o1 <> id_of b0) as Hne.
      { intros ->. destruct (Hl1 (id_of b)) as [H|H].
        - exists (f b). apply HM. set_solver.
        - rewrite H in Hn. by apply opid_lt_irrefl in Hn.
        - pose proof (cmp_trans _ opid_cmp_lawful _ _ _ H Hn) as H'. by apply opid_lt_irrefl in H'. }
      assert (M !! id_of b0 = Some (f b0)) as H by (apply HM; set_solver).
      rewrite <-Heq in Hm0. destruct (decide (o = id_of b0)) as [->|Hno]; [by rewrite lookup_insert in Hm0|].
      rewrite lookup_insert_ne, lookup_delete_ne in Hm0 by done. congruence. }
    assert (pop_first M = delete (id_of b0) M) as Hpop.
    { apply pop_first_least; [exists (f b0); apply HM; set_solver|].
      intros o' [x (b & [->|Hb]%elem_of_cons & <- & _)%HM]; [by left|right; auto]. }
    rewrite Hpop in Heq.
    assert (o = g) as ->.
    { destruct (decide (o = g)) as [|Hno]; [done|]. rewrite <-Heq in Hvg.
      rewrite lookup_insert_ne in Hvg by done. apply lookup_delete_Some in Hvg as [_ Hvg].
      apply HM in Hvg as (b & [->|Hb]%elem_of_cons & Hid & _); [done|].
      exfalso. apply Hg. rewrite <-Hid. by apply elem_of_list_fmap_1. }
    intros b Hb. split; [auto|].
    assert (g <> id_of b) as Hgb by (intros ->; apply Hg; by apply elem_of_list_fmap_1).
    assert (id_of b0 <> id_of b) as H0b by (intros H; apply H0; rewrite H; by apply elem_of_list_fmap_1).
    assert (m !! id_of b = Some (f b)) as Hmb.
    { rewrite <-Heq, lookup_insert_ne, lookup_delete_ne by done. apply HM. set_solver. }
    split.
    + destruct (Hl (id_of b) ltac:(eauto)) as [H|H]; [by rewrite H in Hgb|done].
    + apply Hm in Hmb as (b' & Hb' & Hid & _ & Hok); [|done].
      assert (b' = b) as ->; [|done].
      apply elem_of_list_lookup in Hb' as [i Hi]. apply elem_of_list_lookup in Hb as [j Hj].
      assert (i = j) as ->; [|congruence].
      eapply (NoDup_lookup _ _ _ (id_of b) Hnd); rewrite list_lookup_fmap; [rewrite Hi; exact (f_equal Some Hid)|by rewrite Hj].
  - intros H. unfold compared.
    assert (first_key_value m = Some (g, vg)) as ->.
    { apply first_key_value_spec. split; [done|]. intros o' [x Hx].
      destruct (decide (o' = g)) as [|Hne]; [by left|right].
      apply Hm in Hx as (b & Hb & <- & _); [|done]. by apply H. }
    assert (pop_first M = delete (id_of b0) M) as ->.
    { apply pop_first_least; [exists (f b0); apply HM; set_solver|].
      intros o' [x (b & [->|Hb]%elem_of_cons & <- & _)%HM]; [by left|right; by apply H]. }
    apply map_eq. intros o. destruct (decide (o = g)) as [->|Hne]; [by rewrite lookup_insert|].
    rewrite lookup_insert_ne by done.
    destruct (decide (o = id_of b0)) as [->|Hno]; [by rewrite lookup_delete, Hm0|].
    rewrite lookup_delete_ne by done. apply option_eq. intros x. rewrite HM, Hm by done. split.
    + intros (b & [->|Hb]%elem_of_cons & Hid & Hf); [done|]. exists b. naive_solver.
    + intros (b & Hb & Hid & Hf & _). exists b. set_solver.
Qed.

(** With at most one entry, all a comparison says is that the contract has one key. *)
Lemma compared_short {V} (f : Block -> V) (m : gmap Opid V) bs :
  length bs <= 1 -> compared (collected P S f bs) m <-> exists o v, m = {[ o := v ]}.
Proof.
  intros Hlen. assert (pop_first (collected P S f bs) = ∅) as Hpop.
  { destruct bs as [|b [|]]; cbn in Hlen; [|clear Hlen|lia].
    - unfold collected, pop_first; cbn. assert (first_key_value (∅ : gmap Opid V) = None) as ->; [|done].
      by apply first_key_value_none.
    - unfold collected; cbn. rewrite (pop_first_least _ (sonic_opid S (operation b))).
      + by rewrite delete_insert.
      + rewrite lookup_insert. eauto.
      + intros o' [x Hx]. apply lookup_insert_Some in Hx as [[<- _]|[_ Hx]]; [by left|by rewrite lookup_empty in Hx]. }
  unfold compared. rewrite Hpop. split.
  - destruct (first_key_value m) as [[o v]|]; [|done]. intros <-. by exists o, v.
  - intros (o & v & ->). assert (first_key_value {[o := v]} = Some (o, v)) as ->; [|done].
    apply first_key_value_spec. rewrite lookup_singleton. split; [done|].
    intros o' [x [-> _]%lookup_singleton_Some]. by left.
Qed.

Lemma records_step c0 bs c b :
  let b' := seen (tc_contract_id P S c0) bs b in
  let c' := apply_calls A c (block_effects A c0 bs c b) : TestContract P S in
  tc_seal_definitions P S c' =
    (if decide (defined_seals b' = ∅) then tc_seal_definitions P S c
     else <[id_of b' := defined_seals b' ∪ default ∅ (tc_seal_definitions P S c !! id_of b')]>
            (tc_seal_definitions P S c)) /\
  tc_witnesses P S c' =
    match witness b' with
    | Some w => <[id_of b' := default [] (tc_witnesses P S c !! id_of b') ++ [w]]> (tc_witnesses P S c)
    | None => tc_witnesses P S c
    end.
Proof.
  intros b' c'.
  set (c1 := apply_calls A c (witness_calls b') : TestContract P S).
  set (c2 := apply_calls A c1 (operation_calls A (contract_id A c0) c (is_first bs) b') : TestContract P S).
  assert (c' = apply_calls A c2 (seals_calls b')) as Hc'.
  { unfold c', block_effects. by rewrite !apply_calls_app. }
  assert (tc_seal_definitions P S c2 = tc_seal_definitions P S c1 /\ tc_witnesses P S c2 = tc_witnesses P S c1) as [S2 W2].
  { unfold c2, operation_calls. repeat case_match; done. }
  assert (tc_seal_definitions P S c1 = tc_seal_definitions P S c) as S1.
  { unfold c1, witness_calls. by case_match. }
  split.
  - rewrite Hc'. unfold seals_calls. case_decide; cbn; by rewrite S2, S1.
  - assert (tc_witnesses P S c' = tc_witnesses P S c2) as ->.
    { rewrite Hc'. unfold seals_calls. by case_match. }
    rewrite W2. unfold c1, witness_calls. by case_match.
Qed.

(** ** What the ledger has recorded after a run in which no id repeats, if it started with
    records of the first operation only *)
Lemma run_records c0 bs t c g :
  valid_run A c0 bs t c ->
  let h := history (tc_contract_id P S c0) bs in
  NoDup (id_of <$> h) -> (forall b, head h = Some b -> id_of b = g) ->
  (forall o, is_Some (tc_known_ops P S c0 !! o) <-> o = g) ->
  (forall o, is_Some (tc_seal_definitions P S c0 !! o) <-> o = g) ->
  (forall o, is_Some (tc_witnesses P S c0 !! o) <-> o = g) ->
  (is_Some (tc_known_ops P S c !! g) /\ is_Some (tc_seal_definitions P S c !! g) /\
   is_Some (tc_witnesses P S c !! g)) /\
  (forall o x, o <> g -> tc_known_ops P S c !! o = Some x <->
     exists b, b ∈ tail h /\ id_of b = o /\ operation b = x) /\
  (forall o x, o <> g -> tc_seal_definitions P S c !! o = Some x <->
     exists b, b ∈ tail h /\ id_of b = o /\ defined_seals b = x /\ defined_seals b <> ∅) /\
  (forall o x, o <> g -> tc_witnesses P S c !! o = Some x <->
     exists b, b ∈ tail h /\ id_of b = o /\
       match witness b with Some w => [w] | None => [] end = x /\ is_Some (witness b)).
Proof.
  intros H. cbv zeta. induction H as [|bs t c b H IH Hv]; intros Hnd Hg K0 S0 W0.
  { split; [by split; [apply K0|split; [apply S0|apply W0]]|].
    split; [|split]; intros o x Hne; (split; [|by intros (b & Hb & _); apply elem_of_nil in Hb]); intros Hx.
    - by destruct Hne; apply K0; eauto.
    - by destruct Hne; apply S0; eauto.
    - by destruct Hne; apply W0; eauto. }
  destruct (ledger_step P S _ _ _ _ Hv) as (K & _). destruct (records_step c0 bs c b) as [Sd W].
  cbv zeta in K, Sd, W. rewrite history_snoc in *. set (b' := seen (tc_contract_id P S c0) bs b) in *.
  set (h := history (tc_contract_id P S c0) bs) in *.
  set (c' := apply_calls A c (block_effects A c0 bs c b) : TestContract P S) in *.
  rewrite fmap_app in Hnd. apply NoDup_app in Hnd as (Hnd & Hd & _).
  destruct IH as ((Kg & Sg & Wg) & IK & IS & IW); [done| |done|done|done|].
  { intros b1 Hb1. apply Hg. destruct h; [done|]. exact Hb1. }
  destruct bs as [|b0 bs].
  { (* the first entry *)
    subst h. specialize (Hg b' eq_refl). cbn [history tail app is_first] in *.
    split; [|split; [|split]].
    - split; [|split].
      + rewrite K. destruct Kg as [x ->]. eauto.
      + rewrite Sd. case_decide; [done|]. rewrite Hg, lookup_insert. eauto.
      + rewrite W. case_match; [|done]. rewrite Hg, lookup_insert. eauto.
    - intros o x Hne. rewrite K, <-(IK o x Hne). by destruct (tc_known_ops P S c !! o).
    - intros o x Hne. rewrite Sd, <-(IS o x Hne). case_decide; [done|]. by rewrite lookup_insert_ne by congruence.
    - intros o x Hne. rewrite W, <-(IW o x Hne). case_match; [|done]. by rewrite lookup_insert_ne by congruence. }
  (* a later entry *)
  assert (tail (h ++ [b']) = tail h ++ [b']) as Ht by (by subst h).
  assert (id_of b' ∉ id_of <$> h) as Hnew.
  { intros Hin. apply (Hd _ Hin). apply elem_of_list_here. }
  assert (id_of b' <> g) as Hne.
  { intros Heq. apply Hnew. rewrite Heq, <-(Hg (seen_first (tc_contract_id P S c0) b0) eq_refl). subst h. apply elem_of_list_here. }
  assert (forall b1, b1 ∈ tail h -> id_of b1 <> id_of b') as Hold.
  { intros b1 Hb1 Heq. apply Hnew. rewrite <-Heq. apply elem_of_list_fmap_1. subst h. by apply elem_of_list_further. }
  assert (tc_known_ops P S c !! id_of b' = None) as Kn.
  { apply eq_None_not_Some. intros [x (b1 & Hb1 & Hid & _)%(IK _ _ Hne)]. by apply (Hold b1). }
  assert (tc_seal_definitions P S c !! id_of b' = None) as Sn.
  { apply eq_None_not_Some. intros [x (b1 & Hb1 & Hid & _)%(IS _ _ Hne)]. by apply (Hold b1). }
  assert (tc_witnesses P S c !! id_of b' = None) as Wn.
  { apply eq_None_not_Some. intros [x (b1 & Hb1 & Hid & _)%(IW _ _ Hne)]. by apply (Hold b1). }
  cbn [is_first] in K. rewrite Ht. split; [|split; [|split]].
  - split; [|split].
    + rewrite K. destruct Kg as [x ->]. eauto.
    + rewrite Sd. case_decide; [done|]. by rewrite lookup_insert_ne.
    + rewrite W. case_match; [|done]. by rewrite lookup_insert_ne.
  - intros o x Hno. rewrite K. cbn [first_op]. destruct (decide (id_of b' = o)) as [<-|Hno'].
    + rewrite Kn. split.
      * intros [= <-]. exists b'. split; [apply elem_of_app; right; by apply elem_of_list_singleton|done].
      * intros (b1 & [Hb1| ->%elem_of_list_singleton]%elem_of_app & Hid & <-); [by destruct (Hold b1)|done].
    + assert (match tc_known_ops P S c !! o with Some op => Some op | None => None end = tc_known_ops P S c !! o) as ->
        by (by destruct (tc_known_ops P S c !! o)).
      rewrite (IK o x Hno). split.
      * intros (b1 & ? & ?). exists b1. split; [apply elem_of_app; by left|done].
      * intros (b1 & [Hb1| ->%elem_of_list_singleton]%elem_of_app & Hid & Hx); [eauto|done].
  - intros o x Hno. rewrite Sd. destruct (decide (id_of b' = o)) as [<-|Hno'].
    + case_decide as He.
      * rewrite Sn. split; [done|].
        intros (b1 & [Hb1| ->%elem_of_list_singleton]%elem_of_app & Hid & ? & ?); [by destruct (Hold b1)|done].
      * rewrite lookup_insert, Sn. cbn. rewrite map_union_empty. split.
        -- intros [= <-]. exists b'. split; [apply elem_of_app; right; by apply elem_of_list_singleton|done].
        -- intros (b1 & [Hb1| ->%elem_of_list_singleton]%elem_of_app & Hid & <- & _); [by destruct (Hold b1)|done].
    + assert ((if decide (defined_seals b' = ∅) then tc_seal_definitions P S c
        else <[id_of b' := defined_seals b' ∪ default ∅ (tc_seal_definitions P S c !! id_of b')]>
               (tc_seal_definitions P S c)) !! o = tc_seal_definitions P S c !! o) as ->.
      { case_decide; [done|]. by rewrite lookup_insert_ne. }
      rewrite (IS o x Hno). split.
      * intros (b1 & ? & ?). exists b1. split; [apply elem_of_app; by left|done].
      * intros (b1 & [Hb1| ->%elem_of_list_singleton]%elem_of_app & Hid & Hx); [eauto|done].
  - intros o x Hno. rewrite W. destruct (decide (id_of b' = o)) as [<-|Hno'].
    + destruct (witness b') as [w|] eqn:Hw.
      * rewrite lookup_insert, Wn. cbn. split.
        -- intros [= <-]. exists b'. rewrite Hw. split; [apply elem_of_app; right; by apply elem_of_list_singleton|]. repeat split; eauto.
        -- intros (b1 & [Hb1| ->%elem_of_list_singleton]%elem_of_app & Hid & <- & _); [by destruct (Hold b1)|change (witness b) with (witness b'); by rewrite Hw].
      * rewrite Wn. split; [done|].
        intros (b1 & [Hb1| ->%elem_of_list_singleton]%elem_of_app & Hid & ? & Hs); [by destruct (Hold b1)|].
        change (witness b) with (witness b') in Hs. rewrite Hw in Hs. by destruct Hs.
    + assert (match witness b' with
        | Some w => <[id_of b' := default [] (tc_witnesses P S c !! id_of b') ++ [w]]> (tc_witnesses P S c)
        | None => tc_witnesses P S c end !! o = tc_witnesses P S c !! o) as ->.
      { case_match; [|done]. by rewrite lookup_insert_ne. }
      rewrite (IW o x Hno). split.
      * intros (b1 & ? & ?). exists b1. split; [apply elem_of_app; by left|done].
      * intros (b1 & [Hb1| ->%elem_of_list_singleton]%elem_of_app & Hid & Hx); [eauto|done].
Qed.
End facts.
