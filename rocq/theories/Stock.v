(** * What a party has recorded, and consignments made of it (specification and proofs for C74)

    `evaluate` tells the contract the operations it applies, the definitions of seals and the
    witnesses (src/verify.rs:121-137).  A contract that keeps all this can make consignments of it. *)
From Verif Require Export Merge Replay Disclosure Properties5 Properties8 Properties20 Properties21 Properties23.
From Coq Require Import Lia.

(** ** Specification *)
Section spec.
Context {P : SealProtocol} {U : Ultrasonic} (A : ContractApi P U).
Context (ops : Contract A -> gmap Opid Operation).
Context (defs : Contract A -> gmap Opid (gmap N (SealDef P))) (wits : Contract A -> gmap Opid (list (SealWitness P))).
Notation Block := (OperationSeals P).

(** The contract keeps what it is told: operations, definitions (later ones first), witnesses in
    the order in which they came.  It knows the operations it keeps. *)
Record keeps_stock : Prop := {
  stock_known : forall c o, is_known A c o = true <-> is_Some (ops c !! o);
  stock_operation : forall c v, ops (apply_operation A c v) = <[opid_of U (into_operation U v) := into_operation U v]> (ops c) /\
    defs (apply_operation A c v) = defs c /\ wits (apply_operation A c v) = wits c;
  stock_seals : forall c o m, ops (apply_seals A c o m) = ops c /\
    defs (apply_seals A c o m) = <[o := m ∪ default ∅ (defs c !! o)]> (defs c) /\ wits (apply_seals A c o m) = wits c;
  stock_witness : forall c o w, ops (apply_witness A c o w) = ops c /\
    defs (apply_witness A c o w) = defs c /\ wits (apply_witness A c o w) = <[o := default [] (wits c !! o) ++ [w]]> (wits c)
}.

(** A contract which knows its genesis only, and has recorded nothing. *)
Definition only_genesis (g : Operation) (c : Contract A) : Prop :=
  ops c = {[ opid_of U g := g ]} /\ (forall o, default ∅ (defs c !! o) = ∅) /\ (forall o, default [] (wits c !! o) = []).

(** The entry for an operation: all definitions recorded, and the first witness recorded - if the
    operation consumes state, else it needs none. *)
Definition stocked (c : Contract A) (op : Operation) : Block :=
  {| operation := op;
     defined_seals := default ∅ (defs c !! opid_of U op);
     witness := if decide (op_destructible_in op = []) then None
                else head (default [] (wits c !! opid_of U op)) |}.
(** The first entry names the codex instead of the contract. *)
Definition stocked_first (c : Contract A) (g : Operation) : Block :=
  {| operation := with_contract_id (MkContractId (codex_id_bytes (codex_id U (codex A c)))) g;
     defined_seals := default ∅ (defs c !! opid_of U g);
     witness := None |}.
(** The consignment of the given operations. *)
Definition export (c : Contract A) (g : Operation) (l : list Operation) : list Block :=
  stocked_first c g :: (stocked c <$> l).

(** The consignment starts with the genesis, and has no operation twice. *)
Definition starts_with (cid : ContractId) (g : Operation) (bs : list Block) : Prop :=
  (exists b r, bs = b :: r /\ with_contract_id cid (operation b) = g) /\
  NoDup (id_of (U:=U) <$> history cid bs).
End spec.

(** ** What merging does with each entry *)
Section merged.
Context {P : SealProtocol} {U : Ultrasonic}.
Notation Block := (OperationSeals P).
Notation id_of := (id_of (P:=P) (U:=U)).
Implicit Types (b e : Block).
Notation for_id o := (filter (fun b : Block => id_of b = o)).

Lemma for_id_nil o (h : list Block) : o ∉ id_of <$> h -> for_id o h = [].
Proof.
  induction h as [|b h IH]; [done|]. rewrite fmap_cons, not_elem_of_cons. intros [Hne Hn].
  rewrite filter_cons, decide_False by done. by apply IH.
Qed.
Lemma for_id_one e (h : list Block) : NoDup (id_of <$> h) -> e ∈ h -> for_id (id_of e) h = [e].
Proof.
  induction h as [|b h IH]; [by intros _ []%elem_of_nil|]. rewrite fmap_cons, list.NoDup_cons. intros [Hn Hnd].
  intros [->|He]%elem_of_cons.
  - rewrite filter_cons, decide_True by done. f_equal. by apply for_id_nil.
  - rewrite filter_cons, decide_False; [by apply IH|]. intros Heq. apply Hn. rewrite Heq. apply elem_of_list_fmap. by exists e.
Qed.
Lemma history_merged cid b0 r1 e0 r2 :
  history cid (merged (U:=U) cid (b0 :: r1) (e0 :: r2)) =
  (joined (U:=U) (history cid (e0 :: r2)) <$> history cid (b0 :: r1)) ++
    filter (fun b => id_of b ∉ id_of <$> history cid (b0 :: r1)) r2.
Proof. done. Qed.

(** What the merge of [h] is made of *)
Definition collected (h m : list Block) : Prop :=
  (forall b, b ∈ h -> id_of b ∈ id_of <$> m) /\
  (forall e b, e ∈ m -> b ∈ h -> id_of b = id_of e -> forall k d, defined_seals b !! k = Some d -> is_Some (defined_seals e !! k)) /\
  (forall e, e ∈ m -> exists b tl, for_id (id_of e) h = b :: tl /\ witness b = witness e).

Lemma merge_collects on_chain cid (g : Opid) bs L :
  (forall x, x ∈ bs :: L -> proper (U:=U) cid g x) ->
  on_one_chain (U:=U) on_chain (all_entries cid (bs :: L)) ->
  let m := merged_all (U:=U) cid bs L in
  proper (U:=U) cid g m /\ (forall b, b ∈ history cid m -> composed (all_entries cid (bs :: L)) b) /\
  collected (all_entries cid (bs :: L)) (history cid m).
Proof.
  intros Hprop Hch. cbv zeta. induction L as [|x L IH] using rev_ind.
  { cbn [merged_all foldl]. assert (all_entries cid [bs] = history cid bs) as -> by (unfold all_entries; cbn; by rewrite app_nil_r).
    pose proof (Hprop bs ltac:(left)) as Hp. split; [done|]. split; [intros b Hb; by apply composed_elem|].
    destruct Hp as [_ Hnd]. split; [|split].
    - intros b Hb. apply elem_of_list_fmap. by exists b.
    - intros e b He Hb Hid k d Hd. rewrite <-(nodup_ids (U:=U) _ b e Hnd Hb He Hid). by exists d.
    - intros e He. exists e, []. split; [by apply for_id_one|done]. }
  rewrite app_comm_cons, all_entries_snoc in Hch |- *.
  destruct IH as (Hpm & Hcm & H1 & H2 & H3).
  { intros y Hy. apply Hprop. rewrite app_comm_cons. apply elem_of_app. by left. }
  { eapply on_one_chain_sub; [|exact Hch]. intros y Hy. apply elem_of_app. by left. }
  assert (merged_all (U:=U) cid bs (L ++ [x]) = merged (U:=U) cid (merged_all (U:=U) cid bs L) x) as ->
    by (unfold merged_all; by rewrite foldl_app).
  set (m := merged_all (U:=U) cid bs L) in *. set (h := all_entries cid (bs :: L)) in *.
  assert (proper (U:=U) cid g x) as Hpx. { apply Hprop. right. apply elem_of_app. right. left. }
  assert (forall b, b ∈ history cid m ++ history cid x -> composed (h ++ history cid x) b) as Hcomp.
  { intros b [Hb|Hb]%elem_of_app.
    - eapply composed_trans; [|by apply Hcm]. intros e He. apply composed_elem, elem_of_app. by left.
    - apply composed_elem, elem_of_app. by right. }
  assert (on_one_chain (U:=U) on_chain (history cid m ++ history cid x)) as Hch' by (by eapply composed_chain).
  pose proof Hpm as [(b0 & r1 & Hm0 & Hg) Hndm]. pose proof Hpx as [(e0 & r2 & Hx0 & Hg') Hndx].
  split; [by eapply Verif.Merge.merge_proper|]. split.
  { intros b Hb. eapply composed_trans; [exact Hcomp|]. by eapply composed_merge. }
  rewrite Hm0, Hx0 in *. rewrite history_merged. set (hm := history cid (b0 :: r1)) in *. set (hx := history cid (e0 :: r2)) in *.
  assert (id_of (seen_first cid e0) ∈ id_of <$> hm) as Hfirst.
  { rewrite (eq_trans Hg' (eq_sym Hg)). unfold hm. cbn [history]. rewrite fmap_cons. left. }
  assert (forall b, b ∈ hx -> id_of b ∉ id_of <$> hm -> b ∈ filter (fun b => id_of b ∉ id_of <$> hm) r2) as Hnew.
  { intros b Hb Hn. apply elem_of_list_filter. split; [done|]. unfold hx in Hb. cbn [history] in Hb.
    apply elem_of_cons in Hb as [->|Hb]; [|done]. exfalso. by apply Hn. }
  split; [|split].
  - intros b Hb. rewrite fmap_app, ids_joined. apply elem_of_app. apply elem_of_app in Hb as [Hb|Hb]; [left; by apply H1|].
    destruct (decide (id_of b ∈ id_of <$> hm)) as [Hin|Hn]; [by left|]. right. apply elem_of_list_fmap. exists b. split; [done|by apply Hnew].
  - intros e b He Hb Hid k d Hd. apply elem_of_app in He as [He|He].
    + apply elem_of_list_fmap in He as (y & -> & Hy). cbn [joined with_seals defined_seals]. rewrite id_joined in Hid.
      apply lookup_union_is_Some. apply elem_of_app in Hb as [Hb|Hb]; [left; by apply (H2 y b Hy Hb Hid k d)|].
      right. by eapply seals_for_some.
    + apply elem_of_list_filter in He as [Hn He]. apply elem_of_app in Hb as [Hb|Hb].
      { exfalso. apply Hn. rewrite <-Hid. by apply H1. }
      rewrite <-(nodup_ids (U:=U) hx b e Hndx Hb ltac:(unfold hx; cbn; by right) Hid). by exists d.
  - intros e He. apply elem_of_app in He as [He|He].
    + apply elem_of_list_fmap in He as (y & -> & Hy). rewrite id_joined. destruct (H3 y Hy) as (b & tl & Hf & Hw).
      exists b, (tl ++ for_id (id_of y) hx). split; [|done]. rewrite list.filter_app, Hf. done.
    + apply elem_of_list_filter in He as [Hn He]. exists e, []. split; [|done]. rewrite list.filter_app.
      rewrite (for_id_nil (id_of e) h).
      * cbn [app]. apply for_id_one; [exact Hndx|]. unfold hx. cbn. by right.
      * intros Hin. apply elem_of_list_fmap in Hin as (b & Hid & Hb). apply Hn. rewrite Hid. by apply H1.
Qed.
End merged.

(** ** What the contract has kept after the consignments *)
Section kept.
Context {P : SealProtocol} {U : Ultrasonic} (A : ContractApi P U) {E X : Type}.
Context (ops : Contract A -> gmap Opid Operation).
Context (defs : Contract A -> gmap Opid (gmap N (SealDef P))) (wits : Contract A -> gmap Opid (list (SealWitness P))).
Notation Block := (OperationSeals P).
Notation id_of := (id_of (P:=P) (U:=U)).
Hypothesis Hstock : keeps_stock A ops defs wits.
Hypothesis Hinert : records_inert A.
Hypothesis Hident : keeps_identity A.

Lemma stock_defs : keeps_records A defs (record_defs (U:=U)).
Proof.
  split; [intros; apply Hstock|]. intros c e He. destruct e; try discriminate He; cbn [apply_call record_defs]; apply Hstock.
Qed.
Lemma stock_wits : keeps_records A wits (record_wits (U:=U)).
Proof.
  split; [intros; apply Hstock|]. intros c e He. destruct e; try discriminate He; cbn [apply_call record_wits]; apply Hstock.
Qed.

Lemma fold_defs_inv (r : gmap Opid (gmap N (SealDef P))) (l : list (call P U)) o k d :
  default ∅ (foldl (record_defs (U:=U)) r l !! o) !! k = Some d ->
  default ∅ (r !! o) !! k = Some d \/ exists m, CallApplySeals o m ∈ l /\ m !! k = Some d.
Proof.
  revert r. induction l as [|e l IH]; intros r; [by left|]. cbn [foldl]. intros [H|(m & Hm & Hk)]%IH.
  2:{ right. exists m. split; [by right|done]. }
  destruct e as [| | | | | | | |o' m']; cbn [record_defs] in H; try (by left).
  destruct (decide (o' = o)) as [Ho|Hne]; [subst o'|rewrite lookup_insert_ne in H by done; by left].
  rewrite lookup_insert in H. cbn [default] in H. unfold default, id in H. apply lookup_union_Some_raw in H as [H|[_ H]].
  - right. exists m'. split; [left|done].
  - by left.
Qed.
Lemma fold_defs_some (r : gmap Opid (gmap N (SealDef P))) (l : list (call P U)) o k :
  is_Some (default ∅ (r !! o) !! k) \/ (exists m d, CallApplySeals o m ∈ l /\ m !! k = Some d) ->
  is_Some (default ∅ (foldl (record_defs (U:=U)) r l !! o) !! k).
Proof.
  revert r. induction l as [|e l IH]; intros r H.
  { destruct H as [H|(m & d & Hm & _)]; [done|by apply elem_of_nil in Hm]. }
  cbn [foldl]. apply IH. destruct H as [H|(m & d & Hm & Hk)].
  - left. destruct e as [| | | | | | | |o' m']; cbn [record_defs]; try done.
    destruct (decide (o' = o)) as [Ho|Hne]; [subst o'|by rewrite lookup_insert_ne].
    rewrite lookup_insert. unfold default at 1, id. apply lookup_union_is_Some. by right.
  - apply elem_of_cons in Hm as [<-|Hm]; [|right; eauto]. left. cbn [record_defs]. rewrite lookup_insert.
    unfold default at 1, id. apply lookup_union_is_Some. left. by exists d.
Qed.
Lemma seals_record (h : list Block) o m :
  CallApplySeals o m ∈ mjoin ((fun b => entry_records (U:=U) b) <$> h) <->
  exists b, b ∈ h /\ id_of b = o /\ defined_seals b = m /\ m <> ∅.
Proof.
  rewrite elem_of_list_join. split.
  - intros (l & He & Hl). apply elem_of_list_fmap in Hl as (b & -> & Hb). exists b. split; [done|].
    unfold entry_records, witness_calls, seals_calls in He. apply elem_of_app in He as [He|He].
    + destruct (witness b); [|by apply elem_of_nil in He]. apply elem_of_list_singleton in He. discriminate He.
    + destruct (decide (defined_seals b = ∅)) as [Hd|Hd]; [by apply elem_of_nil in He|]. apply elem_of_list_singleton in He.
      injection He as -> ->. done.
  - intros (b & Hb & <- & <- & Hne). exists (entry_records (U:=U) b). split; [|apply elem_of_list_fmap; by exists b].
    unfold entry_records, seals_calls. apply elem_of_app. right. rewrite decide_False by done. left.
Qed.

Lemma kept_defs c0 L c o k d :
  evaluates_all A E c0 L c -> (forall o, default ∅ (defs c0 !! o) = ∅) ->
  let h := all_entries (contract_id A c0) L in
  agreeing (U:=U) h ->
  default ∅ (defs c !! o) !! k = Some d <-> exists b, b ∈ h /\ id_of b = o /\ defined_seals b !! k = Some d.
Proof.
  intros Hall H0 h Hag. rewrite (evaluates_all_recs A defs (record_defs (U:=U)) c0 L c stock_defs Hinert Hident Hall). fold h.
  set (l := mjoin _).
  assert (forall x, default ∅ (foldl (record_defs (U:=U)) (defs c0) l !! o) !! k = Some x ->
    exists b, b ∈ h /\ id_of b = o /\ defined_seals b !! k = Some x) as Hinv.
  { intros x [Hx|(m & Hm & Hx)]%fold_defs_inv.
    - by rewrite H0, lookup_empty in Hx.
    - apply seals_record in Hm as (b & Hb & Hid & <- & _). by exists b. }
  split; [apply Hinv|]. intros (b & Hb & Hid & Hd).
  destruct (fold_defs_some (defs c0) l o k) as [x Hx].
  - right. exists (defined_seals b), d. split; [|done]. apply seals_record. exists b. split; [done|]. split; [done|].
    split; [done|]. intros Hn. by rewrite Hn, lookup_empty in Hd.
  - rewrite Hx. destruct (Hinv x Hx) as (b' & Hb' & Hid' & Hd'). f_equal.
    apply (Hag b' b k x d Hb' Hb); [congruence|done|done].
Qed.

Lemma fold_wits_list (r : gmap Opid (list (SealWitness P))) (h : list Block) o :
  default [] (foldl (record_wits (U:=U)) r (mjoin ((fun b => entry_records (U:=U) b) <$> h)) !! o) =
  default [] (r !! o) ++ omap witness (filter (fun b => id_of b = o) h).
Proof.
  revert r. induction h as [|b h IH]; intros r; [cbn; by rewrite app_nil_r|].
  rewrite fmap_cons. cbn [mjoin list_join]. rewrite foldl_app, IH. rewrite filter_cons.
  assert (forall r : gmap Opid (list (SealWitness P)), foldl (record_wits (U:=U)) r (seals_calls (U:=U) b) = r) as Hs.
  { intros r'. unfold seals_calls. by destruct (decide _). }
  unfold entry_records. rewrite foldl_app, Hs. unfold witness_calls.
  destruct (witness b) as [w|] eqn:Hw; cbn [foldl record_wits].
  - destruct (decide (id_of b = o)) as [Ho|Hne].
    + rewrite <-Ho, lookup_insert. cbn [omap list_omap]. rewrite Hw. unfold default at 1, id. by rewrite <-app_assoc.
    + by rewrite lookup_insert_ne.
  - destruct (decide (id_of b = o)); [|done]. cbn [omap list_omap]. by rewrite Hw.
Qed.
Lemma kept_wits c0 L c o :
  evaluates_all A E c0 L c -> (forall o, default [] (wits c0 !! o) = []) ->
  default [] (wits c !! o) = omap witness (filter (fun b => id_of b = o) (all_entries (contract_id A c0) L)).
Proof.
  intros Hall H0. rewrite (evaluates_all_recs A wits (record_wits (U:=U)) c0 L c stock_wits Hinert Hident Hall).
  by rewrite fold_wits_list, H0.
Qed.

(** The operations *)
Lemma ops_calls c t o op :
  ops (apply_calls A c t) !! o = Some op ->
  ops c !! o = Some op \/ (op ∈ applied_operations t /\ opid_of U op = o).
Proof.
  revert c. induction t as [|e t IH]; intros c; [by left|].
  change (apply_calls A c (e :: t)) with (apply_calls A (apply_call A c e) t). intros [H|[H Ho]]%IH.
  2:{ right. split; [|done]. unfold applied_operations in *. cbn [omap list_omap]. destruct (applied_operation e); [by right|done]. }
  destruct e; try (by left); cbn [apply_call] in H.
  - rewrite (proj1 (stock_witness _ _ _ _ Hstock _ _ _)) in H. by left.
  - rewrite (proj1 (stock_operation _ _ _ _ Hstock _ _)) in H. apply lookup_insert_Some in H as [[Ho <-]|[_ H]]; [|by left].
    right. split; [|done]. left.
  - rewrite (proj1 (stock_seals _ _ _ _ Hstock _ _ _)) in H. by left.
Qed.
End kept.
