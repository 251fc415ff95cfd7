(** * Specification vocabulary

    Independent of the model of [evaluate]: this file imports only the interfaces.
    It says in terms of the history of a consignment - not in terms of a mutable map
    of seals - what it means for a cell to have a live seal, for an operation to be
    valid, and what effects it has. *)
From Verif Require Export Api.

Section spec.
Context {P : SealProtocol} {U : Ultrasonic} (A : ContractApi P U).

Notation Block := (OperationSeals P).

(** ** The operations of a consignment, as seen by a contract

    The first operation (genesis) cannot commit to the contract id, and commits to
    the codex id instead; it is seen with the contract id filled in. *)
Definition seen_first (cid : ContractId) (b : Block) : Block :=
  {| operation := with_contract_id cid (operation b);
     defined_seals := defined_seals b;
     witness := witness b |}.

Definition history (cid : ContractId) (bs : list Block) : list Block :=
  match bs with
  | [] => []
  | b :: bs' => seen_first cid b :: bs'
  end.

(** Entry [b] coming after the entries [bs], as seen by the contract. *)
Definition seen (cid : ContractId) (bs : list Block) (b : Block) : Block :=
  match bs with
  | [] => seen_first cid b
  | _ => b
  end.

Definition id_of (b : Block) : Opid := opid_of U (operation b).

Definition inputs_of (b : Block) : list CellAddr :=
  input_addr <$> op_destructible_in (operation b).

Definition consumes (b : Block) (a : CellAddr) : Prop := a ∈ inputs_of b.

(** ** Seals

    Entry [b] reveals seal [s] for the cell [a]: the cell belongs to the operation,
    and the definition reported for its position is, or resolves with the witness of
    this same entry into, [s]. *)
Definition reveals (b : Block) (a : CellAddr) (s : Seal P) : Prop :=
  cell_opid a = id_of b /\
  exists d, defined_seals b !! cell_pos a = Some d /\
    (to_src P d = Some s \/
     to_src P d = None /\
       exists w, witness b = Some w /\ s = resolve P d (pub_id P (published w))).

(** In history [h] the cell [a] has the live seal [s]: some entry reveals it, and no
    later entry consumes the cell or reveals a seal for it again. *)
Definition live (h : list Block) (a : CellAddr) (s : Seal P) : Prop :=
  exists i b, h !! i = Some b /\ reveals b a s /\
    forall j b', i < j -> h !! j = Some b' ->
      ~ consumes b' a /\ forall s', ~ reveals b' a s'.

(** Each reported seal definition has a token found among the operation outputs. *)
Definition tokens_committed (b : Block) : Prop :=
  forall pos d, defined_seals b !! pos = Some d ->
    exists cell, cell ∈ op_destructible_out (operation b) /\ cell_auth cell = auth_token P d.

(** The message closed over is the operation id. *)
Definition message_of (b : Block) : Message P := message_from P (opid_bytes (id_of b)).

(** ** Validity of an entry [b] that comes after the entries [bs] of the consignment,
    for a contract which was [c0] before the evaluation and is [c] now. *)
Definition codex_committed (c0 : Contract A) (bs : list Block) (b : Block) : Prop :=
  bs = [] ->
  contract_id_bytes (op_contract_id (operation b)) = codex_id_bytes (codex_id U (codex A c0)).

(** The inputs are pairwise distinct cells, and [closed] lists their live seals. *)
Definition spends (h : list Block) (b : Block) (closed : list (Seal P)) : Prop :=
  NoDup (inputs_of b) /\ Forall2 (live h) (inputs_of b) closed.

Definition properly_closed (b : Block) (closed : list (Seal P)) : Prop :=
  match witness b with
  | Some w => witness_closes w closed (message_of b) = Ok tt
  | None => closed = []
  end.

(** Verification of the operation by the codex of the contract in state [c]. *)
Definition vm_verdict (cid : ContractId) (c : Contract A) (b : Block)
    : result (CallError U) (VerifiedOperation U) :=
  codex_verify U (codex A c) cid (operation b) (memory A c) (repo A c).

Definition vm_accepts (cid : ContractId) (c : Contract A) (b : Block) : Prop :=
  is_known A c (id_of b) = false -> exists v, vm_verdict cid c b = Ok v.

Definition block_valid (c0 : Contract A) (bs : list Block) (c : Contract A) (b : Block) : Prop :=
  let cid := contract_id A c0 in
  let b' := seen cid bs b in
  codex_committed c0 bs b /\
  tokens_committed b' /\
  (exists closed, spends (history cid bs) b' closed /\ properly_closed b' closed) /\
  vm_accepts cid c b'.

(** ** Effects of an accepted entry *)
Definition witness_calls (b : Block) : list (call P U) :=
  match witness b with
  | Some w => [CallApplyWitness (id_of b) w]
  | None => []
  end.

Definition operation_calls (cid : ContractId) (c : Contract A) (first : bool) (b : Block)
    : list (call P U) :=
  if first then []
  else if is_known A c (id_of b) then []
  else match vm_verdict cid c b with
       | Ok v => [CallApplyOperation v]
       | Err _ => []
       end.

Definition seals_calls (b : Block) : list (call P U) :=
  if decide (defined_seals b = ∅) then [] else [CallApplySeals (id_of b) (defined_seals b)].

Definition is_first (bs : list Block) : bool :=
  match bs with [] => true | _ => false end.

(** The calls changing the contract for entry [b] coming after [bs]. *)
Definition block_effects (c0 : Contract A) (bs : list Block) (c : Contract A) (b : Block)
    : list (call P U) :=
  let cid := contract_id A c0 in
  let b' := seen cid bs b in
  witness_calls b' ++ operation_calls cid c (is_first bs) b' ++ seals_calls b'.

(** What a call does to the contract. *)
Definition apply_call (c : Contract A) (e : call P U) : Contract A :=
  match e with
  | CallApplyWitness o w => apply_witness A c o w
  | CallApplyOperation v => apply_operation A c v
  | CallApplySeals o m => apply_seals A c o m
  | _ => c
  end.

Definition apply_calls (c : Contract A) (l : list (call P U)) : Contract A :=
  foldl apply_call c l.

(** Is it one of the calls that change the contract? *)
Definition is_mutation (e : call P U) : bool :=
  match e with
  | CallApplyWitness _ _ | CallApplyOperation _ | CallApplySeals _ _ => true
  | _ => false
  end.

Definition mutations (l : list (call P U)) : list (call P U) :=
  List.filter is_mutation l.

(** ** All calls made for an entry, including those which do not change the contract:
    the entry is read; the contract is asked whether it knows the operation; if not,
    its codex, memory and repository are asked for. *)
Definition query_calls (c : Contract A) (b : Block) : list (call P U) :=
  CallIsKnown (id_of b) ::
  (if is_known A c (id_of b) then [] else [CallCodex; CallMemory; CallRepo]).

Definition block_calls (c0 : Contract A) (bs : list Block) (c : Contract A) (b : Block)
    : list (call P U) :=
  CallRead :: query_calls c (seen (contract_id A c0) bs b) ++ block_effects c0 bs c b.

(** The calls made for an entry that fails with error [e]: nothing is asked if one of
    the checks before codex verification fails. *)
Definition failing_calls {E : Type} (c0 : Contract A) (bs : list Block) (c : Contract A) (b : Block)
    (e : VerificationError P U E) : list (call P U) :=
  CallRead ::
  match e with
  | Vm _ | SealsNotClosed _ _ _ | NoWitness _ => query_calls c (seen (contract_id A c0) bs b)
  | _ => []
  end.

(** ** Valid consignments: starting from contract [c0], all entries [bs] are valid, the
    calls made for them are [t], and the contract afterwards is [c]. *)
Inductive valid_run (c0 : Contract A) : list Block -> list (call P U) -> Contract A -> Prop :=
| valid_run_nil : valid_run c0 [] [] c0
| valid_run_snoc bs t c b :
    valid_run c0 bs t c ->
    block_valid c0 bs c b ->
    valid_run c0 (bs ++ [b])
      (t ++ block_calls c0 bs c b)
      (apply_calls c (block_effects c0 bs c b)).

(** ** Failing entries: the first violated check decides *)
Definition spendable (h : list Block) (before : list CellAddr) (a : CellAddr) : Prop :=
  a ∉ before /\ exists s, live h a s.

(** [a] is the first input which repeats an earlier one or has no live seal. *)
Definition first_unspendable (h : list Block) (b : Block) (a : CellAddr) : Prop :=
  exists k, inputs_of b !! k = Some a /\
    ~ spendable h (take k (inputs_of b)) a /\
    forall j a', j < k -> inputs_of b !! j = Some a' ->
      spendable h (take j (inputs_of b)) a'.

(** [r] and [s] are the exact sets of tokens reported, and committed. *)
Definition token_sets (b : Block) (rep def : gset AuthToken) : Prop :=
  (forall t, t ∈ rep <-> exists pos d, defined_seals b !! pos = Some d /\ t = auth_token P d) /\
  (forall t, t ∈ def <-> exists cell, cell ∈ op_destructible_out (operation b) /\ t = cell_auth cell).

Inductive block_fails {E : Type} (c0 : Contract A) (bs : list Block) (c : Contract A) (b : Block)
    : VerificationError P U E -> Prop :=
| fails_codex :
    ~ codex_committed c0 bs b ->
    block_fails c0 bs c b NoCodexCommitment
| fails_tokens rep def :
    codex_committed c0 bs b ->
    ~ tokens_committed (seen (contract_id A c0) bs b) ->
    token_sets (seen (contract_id A c0) bs b) rep def ->
    block_fails c0 bs c b
      (SealsDefinitionMismatch (id_of (seen (contract_id A c0) bs b)) rep def
         (def_to_string P <$> defined_seals b))
| fails_unknown a :
    codex_committed c0 bs b ->
    tokens_committed (seen (contract_id A c0) bs b) ->
    first_unspendable (history (contract_id A c0) bs) (seen (contract_id A c0) bs b) a ->
    block_fails c0 bs c b (SealUnknown a)
| fails_vm closed e :
    codex_committed c0 bs b ->
    tokens_committed (seen (contract_id A c0) bs b) ->
    spends (history (contract_id A c0) bs) (seen (contract_id A c0) bs b) closed ->
    is_known A c (id_of (seen (contract_id A c0) bs b)) = false ->
    vm_verdict (contract_id A c0) c (seen (contract_id A c0) bs b) = Err e ->
    block_fails c0 bs c b (Vm e)
| fails_closing closed w e :
    codex_committed c0 bs b ->
    tokens_committed (seen (contract_id A c0) bs b) ->
    spends (history (contract_id A c0) bs) (seen (contract_id A c0) bs b) closed ->
    vm_accepts (contract_id A c0) c (seen (contract_id A c0) bs b) ->
    witness b = Some w ->
    witness_closes w closed (message_of (seen (contract_id A c0) bs b)) = Err e ->
    block_fails c0 bs c b
      (SealsNotClosed (pub_id P (published w)) (id_of (seen (contract_id A c0) bs b)) e)
| fails_no_witness closed :
    codex_committed c0 bs b ->
    tokens_committed (seen (contract_id A c0) bs b) ->
    spends (history (contract_id A c0) bs) (seen (contract_id A c0) bs b) closed ->
    vm_accepts (contract_id A c0) c (seen (contract_id A c0) bs b) ->
    witness b = None ->
    inputs_of b <> [] ->
    block_fails c0 bs c b (NoWitness (id_of (seen (contract_id A c0) bs b))).

(** ** The outcome of an evaluation: the final contract, all calls made, and the value
    returned, for the entries [bs] and the end [fin] of the stream. *)
Inductive outcome {E : Type} (c0 : Contract A) (bs : list Block) (fin : option E)
    : Contract A -> list (call P U) -> result (VerificationError P U E) unit -> Prop :=
| outcome_end t c :
    valid_run c0 bs t c -> fin = None ->
    outcome c0 bs fin c ([CallContractId; CallCodex] ++ t ++ [CallRead]) (Ok tt)
| outcome_stream t c e :
    valid_run c0 bs t c -> fin = Some e ->
    outcome c0 bs fin c ([CallContractId; CallCodex] ++ t ++ [CallRead]) (Err (Stream e))
| outcome_bad pre b post t c e :
    bs = pre ++ b :: post ->
    valid_run c0 pre t c ->
    block_fails c0 pre c b e ->
    outcome c0 bs fin c
      ([CallContractId; CallCodex] ++ t ++ failing_calls c0 pre c b e) (Err e).

End spec.

(** ** Readers: what a reader delivers *)
Section readers.
Context {P : SealProtocol} {E : Type} (R : ReadOperation P E).

(** Reading [length bs] times from [r] delivers the entries [bs] and leads to [r']. *)
Inductive delivers : Reader R -> list (OperationSeals P) -> Reader R -> Prop :=
| delivers_nil r : delivers r [] r
| delivers_cons r b r1 bs r' :
    read_operation R r = (r1, Ok (Some b)) ->
    delivers r1 bs r' ->
    delivers r (b :: bs) r'.

(** The next read from [r] leads to [r'] and ends the stream: normally ([None]) or with
    an error. *)
Definition ends (r : Reader R) (fin : option E) (r' : Reader R) : Prop :=
  read_operation R r = (r', match fin with None => Ok None | Some e => Err e end).
End readers.

(** ** Reading a log of calls *)
Section logs.
Context {P : SealProtocol} {U : Ultrasonic} (A : ContractApi P U).

(** The ids asked for, and the records made. *)
Definition known_query (e : call P U) : option Opid :=
  match e with CallIsKnown o => Some o | _ => None end.
Definition witness_record (e : call P U) : option (Opid * SealWitness P) :=
  match e with CallApplyWitness o w => Some (o, w) | _ => None end.
Definition seals_record (e : call P U) : option (Opid * gmap N (SealDef P)) :=
  match e with CallApplySeals o m => Some (o, m) | _ => None end.

(** The applied operations. *)
Definition is_apply (e : call P U) : bool :=
  match e with CallApplyOperation _ => true | _ => false end.
Definition applied (t : list (call P U)) : list (call P U) := List.filter is_apply t.

(** The number of calls of a kind. *)
Definition count (f : call P U -> bool) (t : list (call P U)) : nat := length (List.filter f t).
Definition is_contract_id (e : call P U) : bool := match e with CallContractId => true | _ => false end.
Definition is_codex (e : call P U) : bool := match e with CallCodex => true | _ => false end.
Definition is_memory (e : call P U) : bool := match e with CallMemory => true | _ => false end.
Definition is_repo (e : call P U) : bool := match e with CallRepo => true | _ => false end.
Definition is_read (e : call P U) : bool := match e with CallRead => true | _ => false end.
Definition is_known_query (e : call P U) : bool := match e with CallIsKnown _ => true | _ => false end.

(** The number of questions in the log which were answered with "not known"; [c] is the
    contract at the start of the log. *)
Fixpoint unknown_answers (c : Contract A) (t : list (call P U)) : nat :=
  match t with
  | [] => 0
  | CallIsKnown o :: t' => (if is_known A c o then 0 else 1) + unknown_answers c t'
  | e :: t' => unknown_answers (apply_call A c e) t'
  end.
End logs.

(** ** Laws a contract implementation may satisfy

    They are premises of the theorems that need them.  The ledger of TestLedger.v
    satisfies all of them. *)
Section laws.
Context {P : SealProtocol} {U : Ultrasonic} (A : ContractApi P U).

(** Two contracts cannot be told apart by the `&self` methods. *)
Definition same_view (c c' : Contract A) : Prop :=
  contract_id A c = contract_id A c' /\ codex A c = codex A c' /\
  memory A c = memory A c' /\ repo A c = repo A c' /\
  forall o, is_known A c o = is_known A c' o.

(** Records of seals and witnesses do not influence the `&self` methods. *)
Definition records_inert : Prop :=
  (forall c o m, same_view (apply_seals A c o m) c) /\
  (forall c o w, same_view (apply_witness A c o w) c).

(** What the `&self` methods return after applying an operation depends only on what
    they returned before. *)
Definition view_sufficient : Prop :=
  forall c c' v, same_view c c' -> same_view (apply_operation A c v) (apply_operation A c' v).

(** Applying an operation keeps the identity of the contract. *)
Definition keeps_identity : Prop :=
  forall c v, contract_id A (apply_operation A c v) = contract_id A c /\
              codex A (apply_operation A c v) = codex A c.

(** The known operations grow exactly by the applied ones. *)
Definition remembers : Prop :=
  (forall c v o, is_known A (apply_operation A c v) o = true <->
     o = opid_of U (into_operation U v) \/ is_known A c o = true) /\
  (forall c o m o', is_known A (apply_seals A c o m) o' = is_known A c o') /\
  (forall c o w o', is_known A (apply_witness A c o w) o' = is_known A c o').

(** Operations once known stay known when seals or witnesses are recorded. *)
Definition known_stay_known : Prop :=
  (forall c o m o', is_known A c o' = true -> is_known A (apply_seals A c o m) o' = true) /\
  (forall c o w o', is_known A c o' = true -> is_known A (apply_witness A c o w) o' = true).
End laws.

(** Verification returns the operation it was given. *)
Definition faithful (U : Ultrasonic) : Prop :=
  forall k cid op m r v, codex_verify U k cid op m r = Ok v -> into_operation U v = op.

(** Ids of the applied operations in a log. *)
Definition applied_id {P U} (e : call P U) : option Opid :=
  match e with CallApplyOperation v => Some (opid_of U (into_operation U v)) | _ => None end.
Definition applied_ids {P U} (l : list (call P U)) : list Opid := omap applied_id l.

(** Calls that record seals. *)
Definition records_seals {P U} (e : call P U) : bool :=
  match e with CallApplySeals _ _ => true | _ => false end.

(** ** Concealment: [bs'] is [bs] with some of the reported seal definitions removed, but
    none of a cell that is consumed by a later entry. *)
Definition conceals {P U} (cid : ContractId) (bs bs' : list (OperationSeals P)) : Prop :=
  Forall2 (fun b b' => operation b' = operation b /\ witness b' = witness b /\
             defined_seals b' ⊆ defined_seals b) bs bs' /\
  forall i j bi bi' bj pos d, i < j ->
    history cid bs !! i = Some bi -> history cid bs' !! i = Some bi' ->
    history cid bs !! j = Some bj ->
    consumes bj (MkCellAddr (id_of (U:=U) bi) pos) ->
    defined_seals bi !! pos = Some d -> defined_seals bi' !! pos = Some d.

(** ** Independence: the two entries have different ids, consume no common cell, and
    neither consumes a cell of the other. *)
Definition independent {P U} (b1 b2 : OperationSeals P) : Prop :=
  id_of (U:=U) b1 <> id_of (U:=U) b2 /\
  (forall a, consumes b1 a -> ~ consumes b2 a) /\
  (forall a, consumes b1 a -> cell_opid a <> id_of (U:=U) b2) /\
  (forall a, consumes b2 a -> cell_opid a <> id_of (U:=U) b1).

(** ** The world outside: published witnesses

    [on_chain] tells which witnesses - a published part with a client-side part - are
    genuine: say, the published part is mined. *)
Section world.
Context (P : SealProtocol) (on_chain : SealWitness P -> Prop).

(** The seal is not closed over two different messages. *)
Definition single_use (s : Seal P) : Prop :=
  forall w w' l l' m m',
    on_chain w -> on_chain w' ->
    witness_closes w l m = Ok tt -> witness_closes w' l' m' = Ok tt ->
    s ∈ l -> s ∈ l' -> m = m'.

(** The seal is not closed by two different published witnesses. *)
Definition closed_by_one (s : Seal P) : Prop :=
  forall w w' l l' m m',
    on_chain w -> on_chain w' ->
    witness_closes w l m = Ok tt -> witness_closes w' l' m' = Ok tt ->
    s ∈ l -> s ∈ l' -> pub_id P (published w) = pub_id P (published w').

(** A seal which a definition reported in [h] denotes, resolved if need be with a witness
    of [h]. *)
Definition denoted (h : list (OperationSeals P)) (s : Seal P) : Prop :=
  exists b pos d, b ∈ h /\ defined_seals b !! pos = Some d /\
    (to_src P d = Some s \/
     to_src P d = None /\ exists b' w, b' ∈ h /\ witness b' = Some w /\ s = resolve P d (pub_id P (published w))).

(** All witnesses of a consignment are published. *)
Definition anchored (bs : list (OperationSeals P)) : Prop :=
  forall b w, b ∈ bs -> witness b = Some w -> on_chain w.

(** Different operation ids are different messages. *)
Definition messages_differ : Prop :=
  forall o o', message_from P (opid_bytes o) = message_from P (opid_bytes o') -> o = o'.
End world.

(** Each reported definition has the token of the output at its own position. *)
Definition positions_bound {P} (b : OperationSeals P) : Prop :=
  forall pos d, defined_seals b !! pos = Some d ->
    exists cell, op_destructible_out (operation b) !! N.to_nat pos = Some cell /\
      cell_auth cell = auth_token P d.

(** An operation without inputs comes without a witness, or reports only definitions which are
    complete without one. *)
Definition roots_settled {P} (b : OperationSeals P) : Prop :=
  inputs_of b = [] -> forall pos d, defined_seals b !! pos = Some d -> to_src P d = None -> witness b = None.

(** The same for all entries of [h] with the same operation together: none of them has a
    witness, or all report only complete definitions. *)
Definition all_settled {P} (h : list (OperationSeals P)) : Prop :=
  forall b b' pos d, b ∈ h -> b' ∈ h -> operation b = operation b' -> inputs_of b = [] ->
    defined_seals b !! pos = Some d -> to_src P d = None -> witness b' = None.

(** No two different operations in [h] and [h'] have the same id, no two different
    definitions reported in them have the same token. *)
Definition no_collisions {P U} (h h' : list (OperationSeals P)) : Prop :=
  (forall b b', b ∈ h -> b' ∈ h' -> id_of (U:=U) b = id_of (U:=U) b' -> operation b = operation b') /\
  (forall b b' pos pos' d d', b ∈ h -> b' ∈ h' ->
     defined_seals b !! pos = Some d -> defined_seals b' !! pos' = Some d' ->
     auth_token P d = auth_token P d' -> d = d').
