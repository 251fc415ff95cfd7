(** * Interfaces of the code in /repo to everything outside of it

    /repo is generic over the seal protocol, the contract implementation and the
    consignment reader, and calls the `ultrasonic` crate for operation ids and for
    operation verification.  All of these are universally quantified in the theorems:
    the records below have only types and functions as fields, and NO laws.  Whenever
    a theorem needs a law, the law is a visible premise of that theorem. *)
From Verif Require Export Types.

(** ** Seal protocols: traits [RgbSeal] and [RgbSealDef]
    (src/seals.rs:39-78) with the part of `single_use_seals` which /repo calls. *)
Record SealProtocol := {
  (** `Self: RgbSeal`, src/seals.rs:67 *)
  Seal : Type;
  (** `RgbSeal::Definition`, src/seals.rs:71 *)
  SealDef : Type;
  (** `RgbSeal::Published`, src/seals.rs:73 *)
  Published : Type;
  (** `RgbSeal::Client`, src/seals.rs:75 *)
  Client : Type;
  (** `RgbSeal::WitnessId` = `PublishedWitness::PubId`, src/seals.rs:73-77 *)
  WitnessId : Type;
  (** `SingleUseSeal::Message`, src/seals.rs:68 *)
  Message : Type;
  (** `single_use_seals::SealError<Seal>` *)
  SealError : Type;

  (** `RgbSealDef::auth_token`, src/seals.rs:45 *)
  auth_token : SealDef -> AuthToken;
  (** `RgbSealDef::resolve`, src/seals.rs:54-57 *)
  resolve : SealDef -> WitnessId -> Seal;
  (** `RgbSealDef::to_src`, src/seals.rs:63 *)
  to_src : SealDef -> option Seal;
  (** `Display` for seal definitions, src/seals.rs:39, used at src/verify.rs:190 *)
  def_to_string : SealDef -> string;
  (** `Message: From<[u8; 32]>`, src/seals.rs:68, used at src/verify.rs:228 *)
  message_from : bytes -> Message;
  (** `PublishedWitness::pub_id`, used at src/verify.rs:229, 232 *)
  pub_id : Published -> WitnessId;
  (** `SealWitness::verify_seals_closing`, used at src/verify.rs:228; the two
      components of the witness are passed separately *)
  verify_seals_closing :
    Published -> Client -> list Seal -> Message -> result SealError unit
}.

(** [single_use_seals::SealWitness] (fields `published`, `client`). *)
Record SealWitness (P : SealProtocol) := MkSealWitness
  { published : Published P; client : Client P }.
Global Arguments MkSealWitness {P}.
Global Arguments published {P}.
Global Arguments client {P}.

(** `witness.verify_seals_closing(&closed_seals, msg)`, src/verify.rs:227-228 *)
Definition witness_closes (P : SealProtocol) (w : SealWitness P) (l : list (Seal P))
    (m : Message P) : result (SealError P) unit :=
  verify_seals_closing P (published w) (client w) l m.
Global Arguments witness_closes {P}.

(** ** The part of `ultrasonic` called from /repo *)
Record Ultrasonic := {
  (** `Codex`, `impl Memory`, `impl LibRepo` and `CallError` are opaque to /repo *)
  Codex : Type;
  MemoryView : Type;
  LibRepo : Type;
  CallError : Type;
  (** `VerifiedOperation`, an operation that passed [codex_verify] *)
  VerifiedOperation : Type;
  (** `VerifiedOperation::{opid, into_operation}`, src/verify.rs:366-367 *)
  into_operation : VerifiedOperation -> Operation;
  (** `Codex::codex_id`, src/verify.rs:153 *)
  codex_id : Codex -> CodexId;
  (** `Operation::opid` (a tagged hash), src/verify.rs:170 *)
  opid_of : Operation -> Opid;
  (** `Codex::verify`, src/verify.rs:210-212 *)
  codex_verify : Codex -> ContractId -> Operation -> MemoryView -> LibRepo ->
                 result CallError VerifiedOperation
}.

(** ** [OperationSeals] (src/verify.rs:55-62): an entry of a consignment. The
    `SmallOrdMap<u16, _>` is a finite map without its size bound of 65535. *)
Record OperationSeals (P : SealProtocol) := MkOperationSeals {
  operation : Operation;
  defined_seals : gmap N (SealDef P);
  witness : option (SealWitness P)
}.
Global Arguments MkOperationSeals {P}.
Global Arguments operation {P}.
Global Arguments defined_seals {P}.
Global Arguments witness {P}.

(** ** Trait [ContractApi] (src/verify.rs:92-138).  `&self` methods are functions
    of the contract state, `&mut self` methods return the new state. *)
Record ContractApi (P : SealProtocol) (U : Ultrasonic) := {
  Contract : Type;
  (** src/verify.rs:96 *)
  contract_id : Contract -> ContractId;
  (** src/verify.rs:101 *)
  codex : Contract -> Codex U;
  (** src/verify.rs:106 *)
  repo : Contract -> LibRepo U;
  (** src/verify.rs:110 *)
  memory : Contract -> MemoryView U;
  (** src/verify.rs:116 *)
  is_known : Contract -> Opid -> bool;
  (** src/verify.rs:124 *)
  apply_operation : Contract -> VerifiedOperation U -> Contract;
  (** src/verify.rs:131 *)
  apply_seals : Contract -> Opid -> gmap N (SealDef P) -> Contract;
  (** src/verify.rs:137 *)
  apply_witness : Contract -> Opid -> SealWitness P -> Contract
}.
Global Arguments Contract {P U}.
Global Arguments contract_id {P U}.
Global Arguments codex {P U}.
Global Arguments repo {P U}.
Global Arguments memory {P U}.
Global Arguments is_known {P U}.
Global Arguments apply_operation {P U}.
Global Arguments apply_seals {P U}.
Global Arguments apply_witness {P U}.

(** ** Trait [ReadOperation] (src/verify.rs:79-86): a state machine that at each
    call delivers an entry, the end of the stream, or an error of type [E]. *)
Record ReadOperation (P : SealProtocol) (E : Type) := {
  Reader : Type;
  read_operation : Reader -> Reader * result E (option (OperationSeals P))
}.
Global Arguments Reader {P E}.
Global Arguments read_operation {P E}.
