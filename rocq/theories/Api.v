(** * What a user of [evaluate] sees: its errors, and the calls it makes *)
From Verif Require Export Deps.

(** ** [VerificationError] (src/verify.rs:266-306).  The `Display`/`Debug` texts are in
    Messages.v. *)
Inductive VerificationError (P : SealProtocol) (U : Ultrasonic) (E : Type) : Type :=
| Stream (e : E)
| NoCodexCommitment
| NoWitness (opid : Opid)
| SealsNotClosed (wid : WitnessId P) (opid : Opid) (e : SealError P)
| SealUnknown (addr : CellAddr)
| SealsDefinitionMismatch (opid : Opid) (reported defined : gset AuthToken)
                          (sources : gmap N string)
| Vm (e : CallError U).
Global Arguments Stream {P U E}.
Global Arguments NoCodexCommitment {P U E}.
Global Arguments NoWitness {P U E}.
Global Arguments SealsNotClosed {P U E}.
Global Arguments SealUnknown {P U E}.
Global Arguments SealsDefinitionMismatch {P U E}.
Global Arguments Vm {P U E}.

(** ** Calls observable from outside: the methods of [ContractApi] and of
    [ReadOperation] *)
Inductive call (P : SealProtocol) (U : Ultrasonic) : Type :=
| CallContractId
| CallCodex
| CallMemory
| CallRepo
| CallRead
| CallIsKnown (opid : Opid)
| CallApplyWitness (opid : Opid) (w : SealWitness P)
| CallApplyOperation (v : VerifiedOperation U)
| CallApplySeals (opid : Opid) (seals : gmap N (SealDef P)).
Global Arguments CallContractId {P U}.
Global Arguments CallCodex {P U}.
Global Arguments CallMemory {P U}.
Global Arguments CallRepo {P U}.
Global Arguments CallRead {P U}.
Global Arguments CallIsKnown {P U}.
Global Arguments CallApplyWitness {P U}.
Global Arguments CallApplyOperation {P U}.
Global Arguments CallApplySeals {P U}.
