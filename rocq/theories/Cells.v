(** * Specification vocabulary: contracts that keep cells

    Imports only the interfaces.  A contract is opaque to [evaluate]; the properties in
    Properties5.v are about contracts whose memory consists of cells, written by the
    operations that are applied and read by the operations that are verified. *)
From Verif Require Export Spec.

(** Owned and immutable state cells are addressed independently
    (src/verify.rs:353-354: two lookups by [CellAddr]). *)
Inductive Slot := Owned (a : CellAddr) | Global (a : CellAddr).
Definition slot_addr (s : Slot) : CellAddr := match s with Owned a | Global a => a end.

(** The operation whose output a slot is. *)
Definition slot_opid (s : Slot) : Opid := cell_opid (slot_addr s).

(** The slots an operation names as its inputs. *)
Definition reads (op : Operation) : list Slot :=
  (Owned <$> (input_addr <$> op_destructible_in op)) ++ (Global <$> op_immutable_in op).

Section cells.
Context {P : SealProtocol} {U : Ultrasonic} (A : ContractApi P U).
Notation Block := (OperationSeals P).

(** [peek c s] is what the contract [c] holds in slot [s], [out op s] what the operation
    [op] creates in slot [s], [gone op s] tells whether it destroys the content of [s]: a
    contract may drop the cells an operation consumes (as the comment at
    src/verify.rs:204-205 expects), or keep them (as the test ledger does). *)
Context {X : Type} (peek : Contract A -> Slot -> option X) (out : Operation -> Slot -> option X).
Context (gone : Operation -> Slot -> bool).

(** Same contract id, codex and libraries. *)
Definition same_setting (c c' : Contract A) : Prop :=
  contract_id A c = contract_id A c' /\ codex A c = codex A c' /\ repo A c = repo A c'.

Record keeps_cells : Prop := {
  (** contract id, codex and libraries are fixed *)
  setting_operation : forall c v, same_setting (apply_operation A c v) c;
  setting_seals : forall c o m, same_setting (apply_seals A c o m) c;
  setting_witness : forall c o w, same_setting (apply_witness A c o w) c;
  (** records of seals and witnesses leave the cells alone *)
  cells_seals : forall c o m s, peek (apply_seals A c o m) s = peek c s;
  cells_witness : forall c o w s, peek (apply_witness A c o w) s = peek c s;
  (** applying an operation, none of whose slots are filled, fills its slots and no others,
      and empties those which it destroys *)
  cells_operation : forall c v s,
    (forall s', slot_opid s' = opid_of U (into_operation U v) -> peek c s' = None) ->
    peek (apply_operation A c v) s =
      if decide (slot_opid s = opid_of U (into_operation U v))
      then out (into_operation U v) s
      else if gone (into_operation U v) s then None else peek c s;
  (** only inputs are destroyed, and only after they were verified to be there *)
  gone_input : forall op s, gone op s = true ->
    exists a, s = Owned a /\ a ∈ input_addr <$> op_destructible_in op;
  gone_present : forall c cid op v s,
    codex_verify U (codex A c) cid op (memory A c) (repo A c) = Ok v ->
    gone op s = true -> is_Some (peek c s);
  (** verification of an operation depends only on the slots it names *)
  cells_local : forall c c' cid op,
    codex A c = codex A c' -> repo A c = repo A c' ->
    (forall s, s ∈ reads op -> peek c s = peek c' s) ->
    codex_verify U (codex A c) cid op (memory A c) (repo A c) =
    codex_verify U (codex A c') cid op (memory A c') (repo A c')
}.

(** An operation naming an empty slot does not verify. *)
Definition needs_inputs : Prop := forall c cid op v,
  codex_verify U (codex A c) cid op (memory A c) (repo A c) = Ok v ->
  forall s, s ∈ reads op -> is_Some (peek c s).

(** Only slots of known operations are filled. *)
Definition intact (c : Contract A) : Prop :=
  forall s, is_known A c (slot_opid s) = false -> peek c s = None.

(** The two contracts know the same operations and hold the same cells. *)
Definition same_state (c c' : Contract A) : Prop :=
  same_setting c c' /\
  (forall o, is_known A c o = is_known A c' o) /\ (forall s, peek c s = peek c' s).

(** [c'] knows all that [c] knows; it may have destroyed some of its cells. *)
Definition knows_more (c c' : Contract A) : Prop :=
  same_setting c c' /\
  forall o, is_known A c o = true -> is_known A c' o = true /\
    forall s, slot_opid s = o -> peek c' s = peek c s \/ peek c' s = None.

(** What [c'] knows of the operations in [h], beyond what [c] knows, it holds as in [h], or
    has destroyed already; the cells which these operations destroy are gone. *)
Definition holds_as (c c' : Contract A) (h : list Block) : Prop :=
  forall b s, b ∈ h -> is_known A c (id_of (U:=U) b) = false -> is_known A c' (id_of (U:=U) b) = true ->
    (slot_opid s = id_of (U:=U) b -> peek c' s = out (operation b) s \/ peek c' s = None) /\
    (gone (operation b) s = true -> is_known A c' (slot_opid s) = true /\ peek c' s = None).

(** The cells named by the operations in [h] which [c'] does not know have not been destroyed
    by [c']: it holds them as [c] does, or as they are created in [h]. *)
Definition undisturbed (c c' : Contract A) (h : list Block) : Prop :=
  forall b s, b ∈ h -> is_known A c' (id_of (U:=U) b) = false -> s ∈ reads (operation b) ->
    (is_known A c (slot_opid s) = true -> peek c' s = peek c s) /\
    (forall e, e ∈ h -> is_known A c (id_of (U:=U) e) = false -> is_known A c' (id_of (U:=U) e) = true ->
       slot_opid s = id_of (U:=U) e -> peek c' s = out (operation e) s).

(** No operation in [l] destroys a cell that another one names. *)
Definition no_conflict (l : list Operation) : Prop :=
  forall op op' s, op ∈ l -> op' ∈ l -> gone op s = true -> s ∈ reads op' -> op = op'.

(** Each slot named by an operation in [h] belongs to an operation known to [c], or to an
    operation coming before it in [h], other than the very first. *)
Definition self_contained (c : Contract A) (h : list Block) : Prop :=
  forall i b s, h !! i = Some b -> s ∈ reads (operation b) ->
    is_known A c (slot_opid s) = true \/
    exists k b', 0 < k < i /\ h !! k = Some b' /\ id_of (U:=U) b' = slot_opid s.
End cells.

(** Entry [b] comes before entry [b'] in [l]. *)
Definition precedes {X} (l : list X) (b b' : X) : Prop :=
  exists i j, i < j /\ l !! i = Some b /\ l !! j = Some b'.

(** No two different operations among the two lists have the same id. *)
Definition ids_apart {U : Ultrasonic} (l l' : list Operation) : Prop :=
  forall op op', op ∈ l -> op' ∈ l' -> opid_of U op = opid_of U op' -> op = op'.

(** The operations applied in a log. *)
Definition applied_operation {P U} (e : call P U) : option Operation :=
  match e with CallApplyOperation v => Some (into_operation U v) | _ => None end.
Definition applied_operations {P U} (l : list (call P U)) : list Operation :=
  omap applied_operation l.

(** The calls changing the contract made for the operation [o]. *)
Definition concerns {P U} (o : Opid) (e : call P U) : bool :=
  match e with
  | CallApplyWitness o' _ | CallApplySeals o' _ => bool_decide (o' = o)
  | CallApplyOperation v => bool_decide (opid_of U (into_operation U v) = o)
  | _ => false
  end.
Definition calls_for {P U} (o : Opid) (t : list (call P U)) : list (call P U) :=
  List.filter (concerns o) t.

(** The entries of several consignments, as seen by the contract. *)
Definition all_entries {P} (cid : ContractId) (L : list (list (OperationSeals P))) : list (OperationSeals P) :=
  mjoin (history cid <$> L).
