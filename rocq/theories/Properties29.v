(** * Properties, part 29: a token has one owner

    C79: what is unique at the start stays unique, among all parties. *)
From Verif Require Import CellFacts LedgerCells Refine Effects Consensus Sharing Scenario Counterexamples
  Properties1 Properties3 Properties5 Properties7 Properties27 Properties28.
From Coq Require Import Lia.
Notation block := Verif.Concrete.block.
Notation total := Verif.Properties27.total.

(** One for a cell which carries the token. *)
Definition one_for (carries : StateCell -> bool) (x : StateCell) : N := if carries x then 1%N else 0%N.

Section tokens.
Context (carries : StateCell -> bool).

Lemma count_amounts l :
  amounts (one_for carries) l = N.of_nat (length (filter (fun x => carries x = true) l)).
Proof.
  induction l as [|x l IH]; [done|].
  change (amounts (one_for carries) (x :: l)) with (one_for carries x + amounts (one_for carries) l)%N.
  rewrite IH, filter_cons. unfold one_for. destruct (carries x) eqn:Hx.
  - rewrite decide_True by done. cbn [length]. lia.
  - rewrite decide_False by done. lia.
Qed.
Lemma total_none m :
  (forall a x, m !! a = Some x -> carries x = false) -> total (one_for carries) m = 0%N.
Proof.
  induction m as [|a x m Ha IH] using map_ind; intros H; [done|]. rewrite total_insert by done.
  rewrite IH.
  - unfold one_for. by rewrite (H a x) by apply lookup_insert.
  - intros b y Hb. apply (H b). rewrite lookup_insert_ne; [done|]. congruence.
Qed.
Lemma total_unique m :
  (forall a a' x x', m !! a = Some x -> m !! a' = Some x' -> carries x = true -> carries x' = true -> a = a') ->
  (total (one_for carries) m <= 1)%N.
Proof.
  intros H. destruct (decide (map_Forall (fun _ x => carries x = false) m)) as [Hn|Hn].
  { rewrite total_none; [lia|]. intros a x Hx. exact (Hn a x Hx). }
  apply map_not_Forall in Hn as (a & x & Hx & Hc); [|apply _]. apply not_false_is_true in Hc.
  rewrite (total_delete _ m a x Hx), total_none; [unfold one_for; destruct (carries x); lia|].
  intros b y [Hne Hy]%lookup_delete_Some. apply not_true_is_false. intros Hcy. apply Hne. by eapply H.
Qed.
End tokens.

Section owner.
Context {P : SealProtocol} {U : Ultrasonic} (A : ContractApi P U) {E : Type}.
Context (cells : Contract A -> gmap CellAddr StateCell) (carries : StateCell -> bool).
Notation Block := (OperationSeals P).
Notation ins op := (input_addr <$> op_destructible_in op).

(** The codex lets no operation pass on the token more often than it gets it (an input named twice counts
    twice). *)
Definition passes_on : Prop := forall c cid op v,
  codex_verify U (codex A c) cid op (memory A c) (repo A c) = Ok v ->
  length (filter (fun x => carries x = true) (op_destructible_out op)) <=
  length (filter (fun x => carries x = true) (omap (fun a => cells c !! a) (ins op))).

Lemma passes_on_covered : passes_on -> covered A cells (one_for carries).
Proof.
  intros H c cid op v Hv. unfold found. rewrite !count_amounts. specialize (H c cid op v Hv). lia.
Qed.

(** ** C79 A token has one owner

    Parties as in C78.  A cell is open if it was held at the start or is an output of an operation applied by one of
    the parties, and is not consumed by an operation that one of the parties has applied.  If at most one cell carries the
    token at the start, there is never more than one open cell which carries it. *)
Theorem C79_one_owner (on_chain : SealWitness P -> Prop) (c0 : Contract A)
    (parties : list (list (list Block) * list (call P U) * Contract A)) a a' x x' :
  creates_outputs A cells -> faithful U -> passes_on ->
  (forall L l c, (L, l, c) ∈ parties -> session_of A E c0 L l c) ->
  on_one_chain (U:=U) on_chain (all_entries (contract_id A c0) (parties ≫= fun p => p.1.1)) ->
  (forall b b' y y', cells c0 !! b = Some y -> cells c0 !! b' = Some y' ->
     carries y = true -> carries y' = true -> b = b') ->
  let is_open (b : CellAddr) (y : StateCell) :=
    (cells c0 !! b = Some y \/
     exists p op, p ∈ parties /\ op ∈ applied_operations p.1.2 /\ output_of (U:=U) op b y) /\
    forall p op, p ∈ parties -> op ∈ applied_operations p.1.2 -> b ∉ ins op in
  is_open a x -> is_open a' x' -> carries x = true -> carries x' = true -> a = a'.
Proof.
  intros H1 H2 H3 H4 H5 Huniq is_open Ha Ha' Hx Hx'. destruct (decide (a = a')) as [|Hne]; [done|]. exfalso.
  set (u := <[a := x]> (<[a' := x']> (∅ : gmap CellAddr StateCell))).
  assert (total (one_for carries) u <= total (one_for carries) (cells c0))%N as Hle.
  { apply (C78_no_inflation A (E:=E) cells (one_for carries) H1 H2 on_chain c0 parties u); try done.
    - by apply passes_on_covered.
    - intros b y [[<- <-]|[_ [[<- <-]|[_ Hy]]%lookup_insert_Some]]%lookup_insert_Some; [exact Ha|exact Ha'|].
      by rewrite lookup_empty in Hy. }
  pose proof (total_unique carries (cells c0) Huniq).
  assert (total (one_for carries) u = 2)%N; [|lia]. unfold u. rewrite !total_insert.
  - unfold one_for. by rewrite Hx, Hx'.
  - apply lookup_empty.
  - rewrite lookup_insert_ne by done. apply lookup_empty.
Qed.
End owner.

(** ** Cases

    A codex for tokens, each with a number: no number is among the outputs more often than among the inputs. *)
Definition token (k : N) (x : StateCell) : bool := bool_decide (cell_data x = [k]).
Definition nft_sonic : Sonic := {|
  sonic_codex := ToyCodex;
  sonic_lib := N;
  sonic_error := option ToyCallError;
  sonic_codex_id := fun k => MkCodexId (toy_codex_bytes k);
  sonic_opid := toy_opid;
  sonic_verify := fun k cid op owned global libs =>
    match sonic_verify toy_sonic k cid op owned global libs with
    | Some e => Some (Some e)
    | None =>
        if forallb (fun x => bool_decide
             (length (filter (fun y => cell_data y = cell_data x) (op_destructible_out op)) <=
              length (filter (fun y => cell_data y = cell_data x)
                        (omap owned (input_addr <$> op_destructible_in op)))))
           (op_destructible_out op)
        then None else Some None
    end
|}.
Notation nft_api := (test_ledger TP nft_sonic).

Lemma count_token k l :
  length (filter (fun x => token k x = true) l) = length (filter (fun x => cell_data x = [k]) l).
Proof.
  f_equal. apply list_filter_iff. intros x. unfold token. by rewrite bool_decide_eq_true.
Qed.
Lemma nft_counts k q cid op owned global libs :
  sonic_verify nft_sonic q cid op owned global libs = None ->
  length (filter (fun x => cell_data x = [k]) (op_destructible_out op)) <=
  length (filter (fun x => cell_data x = [k]) (omap owned (input_addr <$> op_destructible_in op))).
Proof.
  unfold nft_sonic. cbn [sonic_verify].
  destruct (sonic_verify toy_sonic _ _ _ _ _ _); [done|]. destruct (forallb _ _) eqn:Hall; [|done]. intros _.
  destruct (filter (fun x => cell_data x = [k]) (op_destructible_out op)) as [|x l] eqn:Hf; [cbn; lia|].
  assert (x ∈ filter (fun y => cell_data y = [k]) (op_destructible_out op)) as Hx by (rewrite Hf; left).
  apply elem_of_list_filter in Hx as [Hk Hx]. rewrite forallb_forall in Hall.
  apply elem_of_list_In, Hall, bool_decide_eq_true in Hx. rewrite Hk, Hf in Hx. exact Hx.
Qed.
Lemma nft_passes_on k : passes_on nft_api (tc_owned TP nft_sonic) (token k).
Proof.
  intros c cid op v.
  change (codex_verify (sonic nft_sonic) ?q _ _ ?m ?r) with
    (match sonic_verify nft_sonic q cid op (fun a => tc_owned _ _ c !! a) (fun a => tc_global _ _ c !! a)
       (fun n => tc_libs _ _ c !! n) with None => Ok (op : VerifiedOperation (sonic nft_sonic)) | Some e => Err e end).
  destruct (sonic_verify nft_sonic _ _ _ _ _ _) eqn:Hv; [done|]. intros _.
  rewrite !count_token. exact (nft_counts k _ _ _ _ _ _ Hv).
Qed.

(** The genesis issues the tokens 5 and 3; the first move passes on 5, the second one both. *)
Definition move_1 : Operation := pay_op 2 [MkCellAddr id_m 0] [(def_w, 5%N)].
Definition id_n1 : Opid := toy_opid move_1.
Definition move_2 : Operation := pay_op 3 [MkCellAddr id_n1 0; MkCellAddr id_m 1] [(def_c, 3%N); (def_d, 5%N)].
Definition id_n2 : Opid := toy_opid move_2.
(** The 5 to someone else; the 5 to two; the 5 named twice and passed on to two. *)
Definition move_again : Operation := pay_op 5 [MkCellAddr id_m 0] [(def_d, 5%N)].
Definition move_both : Operation := pay_op 6 [MkCellAddr id_m 0] [(def_d, 5%N); (def_c, 5%N)].
Definition move_twice : Operation :=
  pay_op 7 [MkCellAddr id_m 0; MkCellAddr id_m 0] [(def_d, 5%N); (def_c, 5%N)].

Definition tx_n2 : ToyTx := MkToyTx (MkTxid [2%N]) [MkOutpoint (MkTxid [1%N]) 0; out_b]
  (<[ 0%N := opid_bytes id_n2 ]> {[ 1%N := opid_bytes id_n2 ]}).
Definition entry_n1 : ToyBlock := block move_1 [(0%N, def_w)] (Some (wit (tx_of 1 out_a id_n1))).
Definition entry_n2 : ToyBlock := block move_2 [(1%N, def_d)] (Some (wit tx_n2)).
Definition entry_else : ToyBlock :=
  block move_again [(0%N, def_d)] (Some (wit (tx_of 4 out_a (toy_opid move_again)))).
Definition entry_both : ToyBlock :=
  block move_both [(0%N, def_d)] (Some (wit (tx_of 5 out_a (toy_opid move_both)))).
Definition entry_named : ToyBlock :=
  block move_twice [(0%N, def_d)] (Some (wit (tx_of 6 out_a (toy_opid move_twice)))).

Definition wallet : TestContract TP nft_sonic := {|
  tc_codex := toy_codex : sonic_codex nft_sonic;
  tc_contract_id := toy_cid;
  tc_libs := ∅; tc_global := ∅;
  tc_owned := insert_outputs id_m 0 (op_destructible_out mint) ∅;
  tc_known_ops := {[ id_m := mint ]};
  tc_seal_definitions := {[ id_m := ∅ ]};
  tc_witnesses := {[ id_m := [] ]} |}.
Definition nft_eval (c : TestContract TP nft_sonic) (bs : list ToyBlock) :=
  evaluate nft_api (E:=Empty_set) c bs None.
Definition nft_log c bs : list (call TP (sonic nft_sonic)) := (nft_eval c bs).1.2.
Definition nft_after c bs : TestContract TP nft_sonic := (nft_eval c bs).1.1.
Lemma nft_step c0 L l c bs r :
  session_of nft_api Empty_set c0 L l c -> (nft_eval c bs).2 = Some r ->
  session_of nft_api Empty_set c0 (L ++ [bs]) (l ++ nft_log c bs) (nft_after c bs).
Proof.
  unfold nft_after, nft_log, nft_eval. intros Hs. destruct (evaluate _ _ _ _) as [[d t] r'] eqn:H. cbn. intros ->.
  pose proof (evaluate_log nft_api _ _ _ _ _ _ H) as ->. rewrite <-(app_nil_r t) in H.
  exact (session_of_step nft_api Empty_set c0 L l c bs None _ _ _ _ Hs H).
Qed.
Definition nft_party (bs : list ToyBlock) := ([bs], nft_log wallet bs, nft_after wallet bs).
Lemma nft_party_session bs r :
  (nft_eval wallet bs).2 = Some r ->
  session_of nft_api Empty_set wallet (nft_party bs).1.1 (nft_party bs).1.2 (nft_party bs).2.
Proof. exact (nft_step wallet [] [] wallet bs r (session_of_start _ _ _)). Qed.

Definition nft_chain : list ToyTx := [tx_of 1 out_a id_n1; tx_n2].
Lemma nft_on_chain (h : list ToyBlock) :
  forallb (fun b => witness_in nft_chain b && defs_in all_defs b && bound_b b && complete_b b) h = true ->
  on_one_chain (U:=sonic nft_sonic) (toy_on_chain nft_chain) h.
Proof.
  intros H. rewrite forallb_forall in H.
  assert (toy_chain nft_chain) as Hchain. { unfold toy_chain. apply (bool_decide_unpack _). by vm_compute. }
  destruct (toy_sound_world every_seal nft_chain all_defs h h Hchain ltac:(vm_refl)) as (H1 & H2 & H3 & H4 & _ & H5).
  { apply forallb_forall. intros b Hb. apply andb_true_iff.
    apply elem_of_list_In, elem_of_app in Hb.
    assert (In b h) as Hb' by (destruct Hb; by apply elem_of_list_In).
    specialize (H b Hb'). apply andb_true_iff in H as [[[? ?]%andb_true_iff ?]%andb_true_iff ?]. done. }
  split; try assumption.
  - intros s _. by apply H1.
  - intros s _. by apply H2.
  - apply toy_positions_bound, forallb_forall. intros b Hb. specialize (H b Hb).
    by apply andb_true_iff in H as [[_ ?]%andb_true_iff _].
  - apply toy_all_settled, forallb_forall. intros b Hb. specialize (H b Hb).
    by apply andb_true_iff in H as [_ ?].
Qed.
Lemma wallet_unique k b b' y y' :
  tc_owned _ _ wallet !! b = Some y -> tc_owned _ _ wallet !! b' = Some y' ->
  token k y = true -> token k y' = true -> b = b'.
Proof.
  assert (forall a x, tc_owned _ _ wallet !! a = Some x ->
    (a = MkCellAddr id_m 0 /\ cell_data x = [5%N]) \/ (a = MkCellAddr id_m 1 /\ cell_data x = [3%N])) as Hw.
  { intros a x Hx. apply elem_of_map_to_list in Hx.
    assert (forallb (fun e =>
      bool_decide (e.1 = MkCellAddr id_m 0) && bool_decide (cell_data e.2 = [5%N]) ||
      bool_decide (e.1 = MkCellAddr id_m 1) && bool_decide (cell_data e.2 = [3%N]))
      (map_to_list (tc_owned _ _ wallet)) = true) as H by vm_refl.
    rewrite forallb_forall in H. apply elem_of_list_In, H in Hx. cbn [fst snd] in Hx.
    apply orb_true_iff in Hx as [Hx|Hx]; apply andb_true_iff in Hx as [H1%bool_decide_eq_true H2%bool_decide_eq_true];
      [by left|by right]. }
  unfold token. rewrite !bool_decide_eq_true. intros H1%Hw H2%Hw Hy Hy'.
  rewrite Hy in H1. rewrite Hy' in H2.
  destruct H1 as [[-> H1]|[-> H1]], H2 as [[-> H2]|[-> H2]]; try reflexivity; exfalso; congruence.
Qed.

(** Open cells, decided: [ops] are the operations applied by all parties. *)
Definition open_for (parties : list (list (list ToyBlock) * list (call TP (sonic nft_sonic)) * TestContract TP nft_sonic))
    (b : CellAddr) (y : StateCell) : Prop :=
  (tc_owned _ _ wallet !! b = Some y \/
   exists p op, p ∈ parties /\ op ∈ applied_operations p.1.2 /\ output_of (U:=sonic nft_sonic) op b y) /\
  forall p op, p ∈ parties -> op ∈ applied_operations p.1.2 -> b ∉ input_addr <$> op_destructible_in op.
Definition open_b (ops : list Operation) (a : CellAddr) (x : StateCell) : bool :=
  (bool_decide (tc_owned _ _ wallet !! a = Some x) ||
   existsb (fun op => bool_decide (cell_opid a = toy_opid op) &&
     bool_decide (op_destructible_out op !! N.to_nat (cell_pos a) = Some x)) ops) &&
  forallb (fun op => bool_decide (a ∉ input_addr <$> op_destructible_in op)) ops.
Lemma open_ok parties ops a x :
  (forall op, op ∈ ops <-> exists p, p ∈ parties /\ op ∈ applied_operations p.1.2) ->
  open_b ops a x = true -> open_for parties a x.
Proof.
  unfold open_b. intros Hops [Hx Hn]%andb_true_iff. split.
  - apply orb_true_iff in Hx as [Hx|Hx]; [left; by apply bool_decide_eq_true in Hx|]. right.
    apply existsb_exists in Hx as (op & Hop%elem_of_list_In & Hx).
    apply andb_true_iff in Hx as [H1%bool_decide_eq_true H2%bool_decide_eq_true].
    apply Hops in Hop as (p & Hp & Hop). exists p, op. split; [done|]. split; [done|]. split; [exact H1|exact H2].
  - intros p op Hp Hop. rewrite forallb_forall in Hn. assert (In op ops) as Hin.
    { apply elem_of_list_In, Hops. by exists p. }
    by apply Hn, bool_decide_eq_true in Hin.
Qed.

(** One party has seen both moves, another one the first alone.  The second one holds the 5 at the first move's
    output, but among all parties only the output of the second move is open: whatever open cell has the 5, it is this. *)
Definition nft_all : list ToyBlock := [entry_m; entry_n1; entry_n2].
Definition nft_some : list ToyBlock := [entry_m; entry_n1].
Definition nft_parties := [nft_party nft_all; nft_party nft_some].
Definition five (s : WTxoSeal) : StateCell := MkStateCell [5%N] (wtxo_auth_token toy_bp s) None.
Example C79_case :
  open_for nft_parties (MkCellAddr id_n2 1) (five def_d) /\
  tc_owned _ _ (nft_after wallet nft_some) !! MkCellAddr id_n1 0 = Some (five def_w) /\
  forall a x, open_for nft_parties a x -> token 5 x = true -> a = MkCellAddr id_n2 1.
Proof.
  assert (applied_operations (nft_party nft_all).1.2 = [move_1; move_2]) as H1 by vm_refl.
  assert (applied_operations (nft_party nft_some).1.2 = [move_1]) as H2 by vm_refl.
  assert (forall op, op ∈ [move_1; move_2] <-> exists p, p ∈ nft_parties /\ op ∈ applied_operations p.1.2) as Hops.
  { intros op. split.
    - intros Hop. exists (nft_party nft_all). split; [left|]. by rewrite H1.
    - intros (p & [->| ->%elem_of_list_singleton]%elem_of_cons & Hop); [by rewrite H1 in Hop|].
      rewrite H2 in Hop. apply elem_of_list_singleton in Hop as ->. left. }
  assert (open_for nft_parties (MkCellAddr id_n2 1) (five def_d)) as Hopen.
  { apply (open_ok nft_parties [move_1; move_2] _ _ Hops). vm_refl. }
  split; [exact Hopen|]. split; [vm_refl|]. intros a x Ha Hx.
  refine (C79_one_owner nft_api (E:=Empty_set) (tc_owned _ _) (token 5) (toy_on_chain nft_chain) wallet nft_parties
    a (MkCellAddr id_n2 1) x (five def_d) (ledger_creates_outputs _ _) (sonic_faithful _)
    (nft_passes_on 5) _ _ (wallet_unique 5) Ha Hopen Hx ltac:(vm_refl)).
  - assert ((nft_eval wallet nft_all).2 = Some (Ok tt)) as E1 by vm_refl.
    assert ((nft_eval wallet nft_some).2 = Some (Ok tt)) as E2 by vm_refl.
    apply nft_party_session in E1, E2. intros L l c Hp.
    cut (forall p, p ∈ nft_parties -> session_of nft_api Empty_set wallet p.1.1 p.1.2 p.2).
    { intros H. exact (H _ Hp). }
    clear -E1 E2. intros p [->| ->%elem_of_list_singleton]%elem_of_cons; [exact E1|exact E2].
  - apply nft_on_chain. vm_refl.
Qed.

(** What would double a token is refused: by the codex if the 5 goes to two, and by `evaluate`
    (src/verify.rs:195-202) if it is named twice, which the codex alone lets pass. *)
Definition refused_by_codex (r : option (result (VerificationError TP (sonic nft_sonic) Empty_set) unit)) : bool :=
  match r with Some (Err (Vm _)) => true | _ => false end.
Example C79_refused :
  refused_by_codex (nft_eval wallet [entry_m; entry_both]).2 = true /\
  codex_verify (sonic nft_sonic) toy_codex toy_cid move_twice (memory nft_api wallet) (repo nft_api wallet)
    = Ok (move_twice : VerifiedOperation (sonic nft_sonic)) /\
  (nft_eval wallet [entry_m; entry_named]).2 = Some (Err (SealUnknown (MkCellAddr id_m 0))).
Proof. split; [vm_refl|]. split; vm_refl. Qed.

(** Witnesses on two chains: the 5 has two owners. *)
Definition two_parties := [nft_party nft_some; nft_party [entry_m; entry_else]].
Example C79_chain_needed :
  (forall p, p ∈ two_parties -> session_of nft_api Empty_set wallet p.1.1 p.1.2 p.2) /\
  open_for two_parties (MkCellAddr id_n1 0) (five def_w) /\
  open_for two_parties (MkCellAddr (toy_opid move_again) 0) (five def_d) /\
  MkCellAddr id_n1 0 <> MkCellAddr (toy_opid move_again) 0.
Proof.
  assert ((nft_eval wallet nft_some).2 = Some (Ok tt)) as E1 by vm_refl.
  assert ((nft_eval wallet [entry_m; entry_else]).2 = Some (Ok tt)) as E2 by vm_refl.
  apply nft_party_session in E1, E2.
  assert (applied_operations (nft_party nft_some).1.2 = [move_1]) as H1 by vm_refl.
  assert (applied_operations (nft_party [entry_m; entry_else]).1.2 = [move_again]) as H2 by vm_refl.
  assert (forall op, op ∈ [move_1; move_again] <-> exists p, p ∈ two_parties /\ op ∈ applied_operations p.1.2) as Hops.
  { intros op. split.
    - intros [->| ->%elem_of_list_singleton]%elem_of_cons.
      + exists (nft_party nft_some). split; [left|]. rewrite H1. left.
      + exists (nft_party [entry_m; entry_else]). split; [right; left|]. rewrite H2. left.
    - intros (p & [->| ->%elem_of_list_singleton]%elem_of_cons & Hop).
      + rewrite H1 in Hop. apply elem_of_list_singleton in Hop as ->. left.
      + rewrite H2 in Hop. apply elem_of_list_singleton in Hop as ->. right. left. }
  split; [|split; [|split]].
  - clear -E1 E2. intros p [->| ->%elem_of_list_singleton]%elem_of_cons; [exact E1|exact E2].
  - apply (open_ok two_parties _ _ _ Hops). vm_refl.
  - apply (open_ok two_parties _ _ _ Hops). vm_refl.
  - apply (bool_decide_unpack _). by vm_compute.
Qed.

Print Assumptions C79_one_owner.
Print Assumptions C79_case.
Print Assumptions C79_refused.
Print Assumptions C79_chain_needed.
