(** * Data types of the model

    Everything [evaluate] touches is modelled as plain data.  Types defined in
    the dependency crates (`ultrasonic`, `single_use_seals`, `bp-core`), whose
    source is not part of /repo, are given here with exactly the fields the code
    in /repo reads or writes (the full list of the fields of an operation is at
    src/verify.rs:454-467). *)
From stdpp Require Export base list gmap strings.
From stdpp Require Export countable.
From Coq Require Export NArith.

(** A byte array.  Simplification: the length (32 in the code) is not part of the
    type; every theorem holds for arrays of any length, unless it says otherwise. *)
Notation bytes := (list N).

(** [ultrasonic::ContractId], [ultrasonic::CodexId], [ultrasonic::Opid]: newtypes
    over 32 bytes; the code uses only `to_byte_array` (src/verify.rs:165, 226), the
    derived equality/order, and for contract ids assignment (src/verify.rs:168). *)
Record ContractId := MkContractId { contract_id_bytes : bytes }.
Record CodexId := MkCodexId { codex_id_bytes : bytes }.
Record Opid := MkOpid { opid_bytes : bytes }.

(** [ultrasonic::AuthToken]: a newtype over a 256-bit field element, printed as
    `AuthToken(fe256(0x0000...))` at src/verify.rs:535-539. *)
Record AuthToken := MkAuthToken { auth_token_value : N }.

Global Instance ContractId_eq_dec : EqDecision ContractId.
Proof. solve_decision. Defined.
Global Instance CodexId_eq_dec : EqDecision CodexId.
Proof. solve_decision. Defined.
Global Instance Opid_eq_dec : EqDecision Opid.
Proof. solve_decision. Defined.
Global Instance AuthToken_eq_dec : EqDecision AuthToken.
Proof. solve_decision. Defined.
Global Program Instance Opid_countable : Countable Opid :=
  inj_countable' opid_bytes MkOpid _.
Next Obligation. by intros []. Qed.
Global Program Instance AuthToken_countable : Countable AuthToken :=
  inj_countable' auth_token_value MkAuthToken _.
Next Obligation. by intros []. Qed.

(** [ultrasonic::CellAddr], built by `CellAddr::new(opid, pos)` at
    src/verify.rs:222, 237.  The position is a `u16` in the code and unbounded here;
    no arithmetic is done on it in /repo. *)
Record CellAddr := MkCellAddr { cell_opid : Opid; cell_pos : N }.
Global Instance CellAddr_eq_dec : EqDecision CellAddr.
Proof. solve_decision. Defined.
Global Program Instance CellAddr_countable : Countable CellAddr :=
  inj_countable' (fun a => (cell_opid a, cell_pos a))
                 (fun p => MkCellAddr (fst p) (snd p)) _.
Next Obligation. by intros []. Qed.

(** [ultrasonic::StateValue]: state data; the code in /repo never looks inside, so
    it is an opaque sequence of numbers ([[]] for `StateValue::None`). *)
Notation StateValue := (list N).

(** [ultrasonic::Input] (src/verify.rs:460-463). *)
Record Input := MkInput { input_addr : CellAddr; input_witness : StateValue }.

(** [ultrasonic::StateCell] (src/verify.rs:423-427). The lock is opaque. *)
Record StateCell := MkStateCell
  { cell_data : StateValue; cell_auth : AuthToken; cell_lock : option (list N) }.

(** [ultrasonic::StateData] (src/verify.rs:422, 368-371). *)
Record StateData := MkStateData { data_value : StateValue; data_raw : option (list N) }.

(** [ultrasonic::Operation] (src/verify.rs:454-467). *)
Record Operation := MkOperation {
  op_version : N;
  op_contract_id : ContractId;
  op_call_id : N;
  op_nonce : N;
  op_witness : StateValue;
  op_destructible_in : list Input;
  op_immutable_in : list CellAddr;
  op_destructible_out : list StateCell;
  op_immutable_out : list StateData
}.

(** The assignment `block.operation.contract_id = contract_id` of src/verify.rs:168:
    all other fields keep their value. *)
Definition with_contract_id (cid : ContractId) (op : Operation) : Operation :=
  {| op_version := op_version op;
     op_contract_id := cid;
     op_call_id := op_call_id op;
     op_nonce := op_nonce op;
     op_witness := op_witness op;
     op_destructible_in := op_destructible_in op;
     op_immutable_in := op_immutable_in op;
     op_destructible_out := op_destructible_out op;
     op_immutable_out := op_immutable_out op |}.

Global Instance Input_eq_dec : EqDecision Input.
Proof. solve_decision. Defined.
Global Instance StateCell_eq_dec : EqDecision StateCell.
Proof. solve_decision. Defined.
Global Instance StateData_eq_dec : EqDecision StateData.
Proof. solve_decision. Defined.
Global Instance Operation_eq_dec : EqDecision Operation.
Proof. solve_decision. Defined.

(** Rust's `Result`. *)
Inductive result (E A : Type) : Type :=
| Ok (a : A)
| Err (e : E).
Global Arguments Ok {E A} a.
Global Arguments Err {E A} e.
