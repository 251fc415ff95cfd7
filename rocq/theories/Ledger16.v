(** * The reference ledger with the conversion of positions to 16 bits

    `no as u16` in src/verify.rs:370, 373.  TestLedger.v has no wrapping; here it is. *)
From Verif Require Export TestLedger.
From Coq Require Import Lia.

(** `as u16` of a `usize`. *)
Definition as_u16 (n : N) : N := (n mod 65536)%N.

(** ** src/verify.rs:368-374 *)
Fixpoint insert_outputs16 {X} (opid : Opid) (no : N) (l : list X) (m : gmap CellAddr X) : gmap CellAddr X :=
  match l with
  | [] => m
  | x :: l' => insert_outputs16 opid (no + 1) l' (<[MkCellAddr opid (as_u16 no) := x]> m)
  end.

Section ledger.
Context (P : SealProtocol) (S : Sonic).

(** ** src/verify.rs:365-376 *)
Definition tc_apply_operation16 (c : TestContract P S) (op : Operation) : TestContract P S :=
  let opid := sonic_opid S op in
  {| tc_codex := tc_codex _ _ c;
     tc_contract_id := tc_contract_id _ _ c;
     tc_libs := tc_libs _ _ c;
     tc_global := insert_outputs16 opid 0 (data_value <$> op_immutable_out op) (tc_global _ _ c);
     tc_owned := insert_outputs16 opid 0 (op_destructible_out op) (tc_owned _ _ c);
     tc_known_ops := <[opid := op]> (tc_known_ops _ _ c);
     tc_seal_definitions := tc_seal_definitions _ _ c;
     tc_witnesses := tc_witnesses _ _ c |}.

(** ** src/verify.rs:359-383; the rest as in TestLedger.v *)
Definition ledger16 : ContractApi P (sonic S) := {|
  Contract := TestContract P S;
  contract_id := tc_contract_id P S;
  codex := codex (test_ledger P S);
  repo := repo (test_ledger P S);
  memory := memory (test_ledger P S);
  is_known := is_known (test_ledger P S);
  apply_operation := tc_apply_operation16 : TestContract P S -> VerifiedOperation (sonic S) -> TestContract P S;
  apply_seals := apply_seals (test_ledger P S);
  apply_witness := apply_witness (test_ledger P S)
|}.

(** An operation whose vectors of outputs can be numbered with 16 bits.  The vectors are made
    by `small_vec!` (src/verify.rs:422-423); the bound of its type, 65535, is in a dependency
    and not in /repo. *)
Definition small_outputs (op : Operation) : Prop :=
  (N.of_nat (length (op_immutable_out op)) <= 65536)%N /\ (N.of_nat (length (op_destructible_out op)) <= 65536)%N.

Lemma insert_outputs16_small {X} opid no (l : list X) m :
  (no + N.of_nat (length l) <= 65536)%N -> insert_outputs16 opid no l m = insert_outputs opid no l m.
Proof.
  revert no m. induction l as [|x l IH]; intros no m H; [done|]. cbn [length] in H. cbn.
  unfold as_u16. rewrite N.mod_small by lia. apply IH. lia.
Qed.
Lemma insert_outputs16_snoc {X} opid no (l : list X) x m :
  insert_outputs16 opid no (l ++ [x]) m =
  <[MkCellAddr opid (as_u16 (no + N.of_nat (length l))) := x]> (insert_outputs16 opid no l m).
Proof.
  revert no m. induction l as [|y l IH]; intros no m; cbn [app insert_outputs16 length].
  - by rewrite N.add_0_r.
  - rewrite IH. do 3 f_equal. lia.
Qed.
Lemma insert_outputs16_high {X} opid no (l : list X) m pos :
  (65536 <= pos)%N -> insert_outputs16 opid no l m !! MkCellAddr opid pos = m !! MkCellAddr opid pos.
Proof.
  intros Hpos. revert no m. induction l as [|x l IH]; intros no m; [done|]. cbn. rewrite IH, lookup_insert_ne; [done|].
  intros [= Heq]. pose proof (N.mod_lt no 65536). unfold as_u16 in Heq. lia.
Qed.
Lemma apply16_small c op : small_outputs op -> tc_apply_operation16 c op = tc_apply_operation P S c op.
Proof.
  intros [Hi Hd]. unfold tc_apply_operation16, tc_apply_operation.
  by rewrite !insert_outputs16_small by (rewrite ?fmap_length; lia).
Qed.

(** ** C59 *)
Lemma evaluate16 {E : Type} (c0 : TestContract P S) bs (fin : option E) :
  Forall (fun b => small_outputs (operation b)) bs ->
  evaluate ledger16 c0 bs fin = evaluate (test_ledger P S) c0 bs fin.
Proof.
  intros Hsmall. destruct (evaluate_outcome (test_ledger P S) c0 bs fin) as (c & t & r & Heq & _). rewrite Heq.
  destruct (sim_evaluate_all (test_ledger P S) ledger16 (E:=E) c0 c0 eq (fun b => small_outputs (operation b)))
    with (bs := bs) (fin := fin) (c1 := c) (t1 := t) (r := r) as (c' & Heq' & <-); try done.
  - by intros c1 c1' b <- _.
  - by intros c1 c1' o w <-.
  - by intros c1 c1' o w <-.
  - intros c1 c1' b v c2 c2' _ Hb _ Hv <-. cbn in Hv |- *. unfold vm_verdict in Hv. cbn in Hv.
    destruct (sonic_verify _ _ _ _ _ _ _); [done|]. injection Hv as <-. symmetry. by apply apply16_small.
  - destruct bs as [|b bs]; [done|]. inversion Hsmall; subst. by constructor.
Qed.
End ledger.
