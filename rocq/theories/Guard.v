(** * Readers which check the entries they deliver

    `ReadOperation` (src/verify.rs:78-87) is implemented by the users of the library, and
    `evaluate` is generic over it (src/verify.rs:148-150).  The readers of this file are not in
    /repo: they wrap any reader, deliver what it delivers as long as a check is passed, and
    end the stream with an error otherwise.  `evaluate` itself is unchanged. *)
From Verif Require Export Consensus.
From Coq Require Import Lia.

Section checks.
Context {P : SealProtocol} {U : Ultrasonic} {E : Type}.
Notation Block := (OperationSeals P).

(** [passes first b]: the check of the entry [b]; [first] tells whether it is the first. *)
Definition guarded_reader (passes : bool -> Block -> bool) (R : ReadOperation P E)
    : ReadOperation P (E + Block) := {|
  Reader := Reader R * bool;
  read_operation := fun '(r, first) =>
    match read_operation R r with
    | (r', Ok (Some b)) =>
        if passes first b then ((r', false), Ok (Some b)) else ((r', false), Err (inr b))
    | (r', Ok None) => ((r', first), Ok None)
    | (r', Err e) => ((r', first), Err (inl e))
    end |}.

(** ** The three checks *)

(** Each definition is reported for the output which stores its token. *)
Definition well_placed (b : Block) : bool :=
  forallb (fun e => bool_decide (cell_auth <$> op_destructible_out (operation b) !! N.to_nat e.1
                                 = Some (auth_token P e.2))) (map_to_list (defined_seals b)).

(** A witness comes only with an operation which has inputs; the documentation of
    `apply_witness` (src/verify.rs:132-136) takes it for granted. *)
Definition witness_in_place (b : Block) : bool :=
  match op_destructible_in (operation b), witness b with [], Some _ => false | _, _ => true end.

(** The first operation is the genesis: its id - with the contract id [cid] - is [genesis]. *)
Definition is_genesis (cid : ContractId) (genesis : Opid) (first : bool) (b : Block) : bool :=
  if first then bool_decide (opid_of U (with_contract_id cid (operation b)) = genesis) else true.

Definition all_checks (cid : ContractId) (genesis : Opid) (first : bool) (b : Block) : bool :=
  well_placed b && witness_in_place b && is_genesis cid genesis first b.

(** ** The same in words *)
Definition placed (b : Block) : Prop :=
  positions_bound b /\ (op_destructible_in (operation b) = [] -> witness b = None).
Definition starts_with (cid : ContractId) (genesis : Opid) (bs : list Block) : Prop :=
  forall b, head bs = Some b -> opid_of U (with_contract_id cid (operation b)) = genesis.
Definition in_order (cid : ContractId) (genesis : Opid) (bs : list Block) : Prop :=
  Forall placed bs /\ starts_with cid genesis bs.

Fixpoint all_pass (passes : bool -> Block -> bool) (first : bool) (bs : list Block) : bool :=
  match bs with [] => true | b :: bs' => if passes first b then all_pass passes false bs' else false end.

(** The entries before the first refused one, and how the stream ends. *)
Fixpoint cut (passes : bool -> Block -> bool) (first : bool) (bs : list Block) : list Block :=
  match bs with [] => [] | b :: bs' => if passes first b then b :: cut passes false bs' else [] end.
Fixpoint cut_end (passes : bool -> Block -> bool) (first : bool) (bs : list Block) (fin : option E)
    : option (E + Block) :=
  match bs with
  | [] => inl <$> fin
  | b :: bs' => if passes first b then cut_end passes false bs' fin else Some (inr b)
  end.

Lemma well_placed_spec b : well_placed b = true <-> positions_bound b.
Proof.
  unfold well_placed, positions_bound. rewrite forallb_forall. split.
  - intros H pos d Hd. specialize (H (pos, d)). cbn in H.
    assert (In (pos, d) (map_to_list (defined_seals b))) as Hin by (by apply elem_of_list_In, elem_of_map_to_list).
    apply H, bool_decide_eq_true in Hin. apply fmap_Some in Hin as (cell & Hc & Ha). by exists cell.
  - intros H [pos d] Hin%elem_of_list_In%elem_of_map_to_list. apply bool_decide_eq_true. cbn.
    destruct (H _ _ Hin) as (cell & -> & Ha). cbn. by rewrite Ha.
Qed.
Lemma witness_in_place_spec b :
  witness_in_place b = true <-> (op_destructible_in (operation b) = [] -> witness b = None).
Proof.
  unfold witness_in_place. destruct (op_destructible_in (operation b)), (witness b); try done.
  all: split; [done|intros H; by specialize (H eq_refl)].
Qed.
Lemma all_pass_spec cid g bs : all_pass (all_checks cid g) true bs = true <-> in_order cid g bs.
Proof.
  assert (forall l, all_pass (all_checks cid g) false l = true <-> Forall placed l) as Hrest.
  { induction l as [|b l IH]; [split; [constructor|done]|]. cbn. rewrite list.Forall_cons, <-IH.
    unfold placed. rewrite <-well_placed_spec, <-witness_in_place_spec. unfold all_checks.
    destruct (well_placed b), (witness_in_place b); cbn; intuition congruence. }
  unfold in_order, starts_with. destruct bs as [|b l].
  { split; [|done]. intros _. split; [constructor|by intros]. }
  cbn. rewrite list.Forall_cons, <-Hrest. unfold placed.
  rewrite <-well_placed_spec, <-witness_in_place_spec. unfold all_checks, is_genesis.
  destruct (well_placed b), (witness_in_place b); cbn; try (split; [done|intuition congruence]).
  case_bool_decide as Hg.
  - split; [intros H; split; [done|]; by intros b' [= <-]|intuition].
  - split; [done|]. intros [_ H]. by destruct (Hg (H b eq_refl)).
Qed.

Lemma cut_prefix passes first bs : cut passes first bs `prefix_of` bs.
Proof.
  revert first. induction bs as [|b bs IH]; intros first; [done|]. cbn.
  destruct (passes first b); [by apply prefix_cons|apply prefix_nil].
Qed.
Lemma cut_passes passes first bs : all_pass passes first (cut passes first bs) = true.
Proof.
  revert first. induction bs as [|b bs IH]; intros first; [done|]. cbn.
  destruct (passes first b) eqn:Hp; [|done]. cbn. by rewrite Hp.
Qed.
Lemma cut_all passes first bs : all_pass passes first bs = true -> cut passes first bs = bs.
Proof.
  revert first. induction bs as [|b bs IH]; intros first; [done|]. cbn.
  destruct (passes first b); [|done]. intros H. by rewrite IH.
Qed.
Lemma cut_end_None passes first bs fin :
  cut_end passes first bs fin = None <-> all_pass passes first bs = true /\ fin = None.
Proof.
  revert first. induction bs as [|b bs IH]; intros first; cbn; [by destruct fin; split; intuition|].
  destruct (passes first b); [apply IH|]. split; intuition congruence.
Qed.

(** What the guarded reader delivers. *)
Lemma guarded_delivers passes (R : ReadOperation P E) r first bs rr :
  delivers (guarded_reader passes R) (r, first) bs rr <->
  all_pass passes first bs = true /\
  exists r1, delivers R r bs r1 /\ rr = (r1, match bs with [] => first | _ => false end).
Proof.
  revert r first. induction bs as [|b bs IH]; intros r first.
  - split.
    + intros H. inversion H; subst. split; [done|]. exists r. split; [constructor|done].
    + intros (_ & r1 & H & ->). inversion H; subst. constructor.
  - split.
    + intros H. inversion H as [|? ? rm ? ? Hr Hd]; subst. cbn in Hr.
      destruct (read_operation R r) as [r' [[b'|]|e]] eqn:HR; try done.
      destruct (passes first b') eqn:Hp; [|done].
      assert (rm = (r', false) /\ b' = b) as [-> ->] by (split; congruence).
      apply IH in Hd as (Ha & r1 & Hd & ->). cbn. rewrite Hp. split; [done|].
      exists r1. split; [by econstructor|]. by destruct bs.
    + cbn. intros (Ha & r1 & Hd & ->). destruct (passes first b) eqn:Hp; [|done].
      inversion Hd as [|? ? rm ? ? Hr Hd']; subst.
      apply (delivers_cons (guarded_reader passes R) _ b ((rm, false) : Reader (guarded_reader passes R))).
      * cbn. by rewrite Hr, Hp.
      * apply IH. split; [done|]. exists r1. split; [done|]. by destruct bs.
Qed.
Lemma guarded_ends passes (R : ReadOperation P E) r first rr :
  ends (guarded_reader passes R) (r, first) None rr <-> exists r', ends R r None r' /\ rr = (r', first).
Proof.
  unfold ends. cbn. split.
  - destruct (read_operation R r) as [r' [[b|]|e]]; try done; [by destruct (passes first b)|].
    intros [= <-]. by exists r'.
  - intros (r' & -> & ->). done.
Qed.

(** ** Evaluation with the guard, of a consignment given as a list *)
Section run.
Context (A : ContractApi P U).

Definition evaluate_guarded_by (passes : bool -> Block -> bool) (c : Contract A) (bs : list Block) (fin : option E)
    : Contract A * list (call P U) * option (result (VerificationError P U (E + Block)) unit) :=
  let '(s, _, res) := evaluate_reader A (guarded_reader passes script_reader) (S (length bs)) c ((bs, fin), true) in
  (s, res).
Definition evaluate_guarded (genesis : Opid) (c : Contract A) (bs : list Block) (fin : option E) :=
  evaluate_guarded_by (all_checks (contract_id A c) genesis) c bs fin.

Lemma guarded_loop passes fuel1 fuel2 cid kid isg seals bs fin first s :
  length bs < fuel1 -> length (cut passes first bs) < fuel2 ->
  let x := evaluate_loop A (guarded_reader passes script_reader) fuel1 cid kid isg seals ((bs, fin), first) s in
  let y := evaluate_loop A script_reader fuel2 cid kid isg seals (cut passes first bs, cut_end passes first bs fin) s in
  (x.1.1, x.2) = (y.1.1, y.2).
Proof.
  revert fuel1 fuel2 isg seals first s.
  induction bs as [|b bs IH]; intros fuel1 fuel2 isg seals first [c t] H1 H2 x y; subst x y.
  - destruct fuel1 as [|fuel1]; [lia|]. destruct fuel2 as [|fuel2]; [lia|]. cbn. by destruct fin.
  - destruct fuel1 as [|fuel1]; [lia|]. destruct fuel2 as [|fuel2]; [lia|]. cbn in H1. cbn -[process_block].
    destruct (passes first b) eqn:Hp; [|done].
    cbn in H2. rewrite Hp in H2. cbn in H2. cbn -[process_block].
    destruct (process_block A cid kid isg seals b (c, t ++ [CallRead])) as [s' [seals'|e]]; [|done].
    apply IH; lia.
Qed.

(** The entries from the first refused one on are as if not there. *)
Lemma evaluate_guarded_by_cut passes c bs fin :
  evaluate_guarded_by passes c bs fin = evaluate A c (cut passes true bs) (cut_end passes true bs fin).
Proof.
  unfold evaluate_guarded_by, evaluate, evaluate_reader.
  pose proof (guarded_loop passes (S (length bs)) (S (length (cut passes true bs))) (contract_id A c)
    (codex_id U (codex A c)) true ∅ bs fin true (c, [CallContractId; CallCodex]) ltac:(lia) ltac:(lia)) as H.
  destruct (evaluate_loop A (guarded_reader _ _) _ _ _ _ _ _ _) as [[s r] res].
  destruct (evaluate_loop A script_reader _ _ _ _ _ _ _) as [[s' r'] res']. cbn in H. congruence.
Qed.
Lemma evaluate_guarded_accepts passes c bs fin d t :
  evaluate_guarded_by passes c bs fin = (d, t, Some (Ok tt)) <->
  fin = None /\ all_pass passes true bs = true /\ evaluate A (E:=E) c bs None = (d, t, Some (Ok tt)).
Proof.
  rewrite evaluate_guarded_by_cut. split.
  - intros H. destruct (cut_end passes true bs fin) as [e|] eqn:He.
    + exfalso. apply evaluate_iff_outcome in H. inversion H; subst; done.
    + apply cut_end_None in He as [Hp ->]. rewrite cut_all in H by done. split; [done|]. split; [done|].
      apply evaluate_ok_iff. by apply evaluate_ok_iff in H.
  - intros (-> & Hp & H). rewrite cut_all by done.
    replace (cut_end passes true bs None) with (None : option (E + Block)) by (symmetry; by apply cut_end_None).
    apply evaluate_ok_iff. by apply evaluate_ok_iff in H.
Qed.
End run.
End checks.
