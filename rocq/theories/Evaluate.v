(** * Model of src/verify.rs:148-261: [ContractVerify::evaluate]

    The model threads the contract (`&mut self`) and a log of every call made on the
    contract and on the reader.  The log is a ghost: nothing reads it. *)
From Verif Require Export Api.

Section evaluate.
Context {P : SealProtocol} {U : Ultrasonic} (A : ContractApi P U) {E : Type}.

Notation VError := (VerificationError P U E).
Notation Calls := (list (call P U)).

(** A computation which may change the contract, makes calls and may fail. *)
Definition M (X : Type) : Type := Contract A * Calls -> (Contract A * Calls) * result VError X.
Definition ret {X} (x : X) : M X := fun s => (s, Ok x).
Definition throw {X} (e : VError) : M X := fun s => (s, Err e).
Definition bind {X Y} (m : M X) (f : X -> M Y) : M Y := fun s =>
  match m s with
  | (s', Ok x) => f x s'
  | (s', Err e) => (s', Err e)
  end.
Notation "'let!' x := m 'in' k" := (bind m (fun x => k))
  (at level 200, x pattern, m at level 100, k at level 200, right associativity).

(** A call of a `&self` method; of a `&mut self` method. *)
Definition query {X} (ev : call P U) (f : Contract A -> X) : M X :=
  fun '(c, t) => ((c, t ++ [ev]), Ok (f c)).
Definition mutate (ev : call P U) (f : Contract A -> Contract A) : M unit :=
  fun '(c, t) => ((f c, t ++ [ev]), Ok tt).

(** ** src/verify.rs:173-178: the set of auth tokens of the destructible outputs *)
Definition defined_tokens (op : Operation) : gset AuthToken :=
  list_to_set (cell_auth <$> op_destructible_out op).

(** ** src/verify.rs:179-183: the set of auth tokens of the reported seals *)
Definition reported_tokens (defs : gmap N (SealDef P)) : gset AuthToken :=
  list_to_set ((fun e => auth_token P e.2) <$> map_to_list defs).

(** ** src/verify.rs:187-191: the texts of the reported seals *)
Definition seal_texts (defs : gmap N (SealDef P)) : gmap N string :=
  def_to_string P <$> defs.

(** ** src/verify.rs:195-202: collect and remove the seals of the inputs.  On the
    error path the code drops `seals` together with the whole evaluation. *)
Fixpoint collect_closed (ins : list Input) (seals : gmap CellAddr (Seal P))
    (closed : list (Seal P)) : M (list (Seal P) * gmap CellAddr (Seal P)) :=
  match ins with
  | [] => ret (closed, seals)
  | input :: ins' =>
      match seals !! input_addr input with
      | None => throw (SealUnknown (input_addr input))
      | Some seal =>
          collect_closed ins' (delete (input_addr input) seals) (closed ++ [seal])
      end
  end.

(** ** src/verify.rs:204-214: verify the operation unless it is known *)
Definition verify_unless_known (cid : ContractId) (op : Operation) (opid : Opid)
    : M (option (VerifiedOperation U)) :=
  let! known := query (CallIsKnown opid) (fun c => is_known A c opid) in
  if known : bool then ret None
  else
    let! cdx := query CallCodex (codex A) in
    let! mem := query CallMemory (memory A) in
    let! rep := query CallRepo (repo A) in
    match codex_verify U cdx cid op mem rep with
    | Err e => throw (Vm e)
    | Ok v => ret (Some v)
    end.

(** ** src/verify.rs:219-223: seals which are complete without a witness.
    Simplification: the code collects the pairs in a `BTreeSet` ordered by address and
    seal, here they are a list.  The positions, hence the addresses, are pairwise
    distinct, so neither the order nor the removal of equal pairs matters for
    [extend_seals] (lemma [extend_seals_perm] in EvalFacts.v). *)
Definition complete_sources (opid : Opid) (defs : gmap N (SealDef P))
    : list (CellAddr * Seal P) :=
  omap (fun e => match to_src P e.2 with
                 | Some s => Some (MkCellAddr opid e.1, s)
                 | None => None
                 end) (map_to_list defs).

(** ** src/verify.rs:232-237: seals which have to be resolved with the witness id *)
Definition resolved_sources (opid : Opid) (defs : gmap N (SealDef P)) (wid : WitnessId P)
    : list (CellAddr * Seal P) :=
  omap (fun e => match to_src P e.2 with
                 | Some _ => None
                 | None => Some (MkCellAddr opid e.1, resolve P e.2 wid)
                 end) (map_to_list defs).

(** ** src/verify.rs:245: `seals.extend(seal_sources)`; a later pair replaces an
    earlier one with the same address *)
Definition extend_seals (seals : gmap CellAddr (Seal P)) (l : list (CellAddr * Seal P))
    : gmap CellAddr (Seal P) :=
  foldl (fun m e => <[e.1 := e.2]> m) seals l.

(** ** src/verify.rs:219-243: check the closing, produce the seal sources *)
Definition close_and_resolve (opid : Opid) (b : OperationSeals P) (closed : list (Seal P))
    : M (list (CellAddr * Seal P)) :=
  let sources := complete_sources opid (defined_seals b) in
  match witness b with
  | Some w =>
      let msg := message_from P (opid_bytes opid) in
      match witness_closes w closed msg with
      | Err e => throw (SealsNotClosed (pub_id P (published w)) opid e)
      | Ok _ =>
          let wid := pub_id P (published w) in
          let sources := sources ++ resolved_sources opid (defined_seals b) wid in
          let! _ := mutate (CallApplyWitness opid w) (fun c => apply_witness A c opid w) in
          ret sources
      end
  | None =>
      match closed with
      | [] => ret sources
      | _ :: _ => throw (NoWitness opid)
      end
  end.

(** ** src/verify.rs:162-254: the body of the loop.  Takes and returns the local
    variable `seals`; `is_genesis` becomes false after each pass (246-247). *)
Definition process_block (cid : ContractId) (kid : CodexId) (is_genesis : bool)
    (seals : gmap CellAddr (Seal P)) (b : OperationSeals P)
    : M (gmap CellAddr (Seal P)) :=
  (* 162-169 *)
  let! op :=
    (if is_genesis then
       if decide (contract_id_bytes (op_contract_id (operation b)) = codex_id_bytes kid)
       then ret (with_contract_id cid (operation b))
       else throw NoCodexCommitment
     else ret (operation b)) in
  (* 170 *)
  let opid := opid_of U op in
  (* 172-193 *)
  let defined := defined_tokens op in
  let reported := reported_tokens (defined_seals b) in
  let! _ :=
    (if decide (reported ⊆ defined) then ret tt
     else throw (SealsDefinitionMismatch opid reported defined (seal_texts (defined_seals b)))) in
  (* 195-202 *)
  let! (closed, seals) := collect_closed (op_destructible_in op) seals [] in
  (* 204-214 *)
  let! verified := verify_unless_known cid op opid in
  (* 216-243 *)
  let! sources := close_and_resolve opid b closed in
  (* 245 *)
  let seals := extend_seals seals sources in
  (* 246-250 *)
  let! _ :=
    (if is_genesis then ret tt
     else match verified with
          | Some v => mutate (CallApplyOperation v) (fun c => apply_operation A c v)
          | None => ret tt
          end) in
  (* 252-254 *)
  let! _ :=
    (if decide (defined_seals b = ∅) then ret tt
     else mutate (CallApplySeals opid (defined_seals b))
                 (fun c => apply_seals A c opid (defined_seals b))) in
  ret seals.

(** ** src/verify.rs:158-258: the loop.  The number of passes is not bounded in the
    code (a reader may deliver entries forever); [fuel] bounds it here, and running
    out of it is the separate outcome [None]. *)
Fixpoint evaluate_loop (R : ReadOperation P E) (fuel : nat) (cid : ContractId) (kid : CodexId)
    (is_genesis : bool) (seals : gmap CellAddr (Seal P)) (r : Reader R)
    (s : Contract A * Calls)
    : (Contract A * Calls) * Reader R * option (result VError unit) :=
  match fuel with
  | O => (s, r, None)
  | S fuel =>
      let '(c, t) := s in
      let s := (c, t ++ [CallRead]) in
      match read_operation R r with
      | (r', Err e) => (s, r', Some (Err (Stream e)))
      | (r', Ok None) => (s, r', Some (Ok tt))
      | (r', Ok (Some b)) =>
          match process_block cid kid is_genesis seals b s with
          | (s', Err e) => (s', r', Some (Err e))
          | (s', Ok seals') => evaluate_loop R fuel cid kid false seals' r' s'
          end
      end
  end.

(** ** src/verify.rs:151-156: [evaluate] *)
Definition evaluate_reader (R : ReadOperation P E) (fuel : nat) (c : Contract A) (r : Reader R)
    : (Contract A * Calls) * Reader R * option (result VError unit) :=
  let t := [CallContractId; CallCodex] in
  let cid := contract_id A c in
  let kid := codex_id U (codex A c) in
  evaluate_loop R fuel cid kid true ∅ r (c, t).

(** ** Consignments

    A finite consignment: the entries delivered by the reader and how it ends - with
    the end of the stream ([None]) or with an error.  [script_reader] delivers it;
    with no error it is `TestReader` of src/verify.rs:330-340. *)
Definition script_reader : ReadOperation P E := {|
  Reader := list (OperationSeals P) * option E;
  read_operation := fun '(bs, fin) =>
    match bs with
    | b :: bs' => ((bs', fin), Ok (Some b))
    | [] => (([], fin), match fin with None => Ok None | Some e => Err e end)
    end
|}.

(** The outcome of [evaluate] on a consignment: the contract afterwards, the calls
    made, and the value returned.  The fuel suffices ([evaluate_returns] in
    Refine.v), so the default is never used. *)
Definition evaluate (c : Contract A) (bs : list (OperationSeals P)) (fin : option E)
    : Contract A * Calls * option (result VError unit) :=
  let '(s, _, res) := evaluate_reader script_reader (S (length bs)) c (bs, fin) in
  (s, res).

End evaluate.
