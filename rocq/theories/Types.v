(** * Types: the data types of the minter.

    Amounts, nonces, block numbers, ... are [CheckedAmountOf<Unit>]
    (/repo/minter/src/checked_amount/mod.rs 60) i.e. [u256]; they are modelled by
    [N], with the bound [is_u256] stated wherever it matters. The phantom unit has
    no runtime content and is dropped. *)

From Verif Require Import Base BMap Bytes.

(** ** Elementary types *)

(** eth_types/mod.rs 22-27 [Address([u8;20])]: the number denoted by the 20 bytes,
    big-endian ([Ord] on byte arrays is the numeric order). *)
Definition Address := N.
Definition is_address (a : Address) : Prop := a < 2 ^ 160.
(** eth_types/mod.rs 29 *)
Definition ADDRESS_ZERO : Address := 0.
(** eth_types/mod.rs 34-36 *)
Definition is_native_token (a : Address) : bool := N.eqb a ADDRESS_ZERO.

(** rpc_declrations.rs [Hash([u8;32])] *)
Definition Hash := N.
(** candid [Principal]: at most 29 bytes. The derived order of the dependency only
    affects iteration order of maps keyed by principals; lexicographic order is used. *)
Definition Principal := list N.
Definition ANONYMOUS : Principal := [4].
(** state/transactions/mod.rs 28-30 [Subaccount([u8;32])] *)
Definition Subaccount := list N.
(** deposit_logs/mod.rs 243-247 [LedgerSubaccount(u256)] *)
Definition LedgerSubaccount := N.
(** Rust [String]: Unicode code points. *)
Definition text := list N.
Definition text_of (s : string) : text := map (fun a => N.of_nat (Ascii.nat_of_ascii a)) (list_ascii_of_string s).

(** evm_config.rs 13-45 [EvmNetwork] *)
Inductive EvmNetwork :=
| Ethereum | Sepolia | ArbitrumOne | BSC | BSCTestnet | Polygon | Optimism | Base_
| Avalanche | Fantom.

(** rpc_declrations.rs [BlockTag] (endpoints.rs [CandidBlockTag]) *)
Inductive BlockTag := TagLatest | TagSafe | TagFinalized.

(** state.rs 741-749 [TaskType] *)
Inductive TaskType :=
| TaskMint | TaskRetrieveEth | TaskScrapLogs | TaskRefreshGasFeeEstimate
| TaskReimbursement | TaskMintErc20.

Definition task_index (t : TaskType) : N :=
  match t with
  | TaskMint => 0 | TaskRetrieveEth => 1 | TaskScrapLogs => 2
  | TaskRefreshGasFeeEstimate => 3 | TaskReimbursement => 4 | TaskMintErc20 => 5
  end.
Lemma task_index_inj a b : task_index a = task_index b -> a = b.
Proof. destruct a, b; cbn; congruence. Qed.
#[global] Instance Ord_TaskType : Ord TaskType := Ord_inj task_index Ord_N task_index_inj.

(** ** Deposits *)

(** deposit_logs/mod.rs 112-117 [EventSource] (transaction hash, log index) *)
Definition EventSource : Type := Hash * N.

(** deposit_logs/mod.rs 26-41 [ReceivedNativeEvent] *)
Record ReceivedNativeEvent := {
  ne_transaction_hash : Hash;
  ne_block_number : N;
  ne_log_index : N;
  ne_from_address : Address;
  ne_value : N;
  ne_principal : Principal;
  ne_subaccount : option LedgerSubaccount
}.

(** deposit_logs/mod.rs 43-60 [ReceivedErc20Event] *)
Record ReceivedErc20Event := {
  ee_transaction_hash : Hash;
  ee_block_number : N;
  ee_log_index : N;
  ee_from_address : Address;
  ee_value : N;
  ee_principal : Principal;
  ee_erc20_contract_address : Address;
  ee_subaccount : option LedgerSubaccount
}.

(** deposit_logs/mod.rs 62-66 [ReceivedDepositEvent] *)
Inductive ReceivedDepositEvent :=
| DepNative (e : ReceivedNativeEvent)
| DepErc20 (e : ReceivedErc20Event).

(** deposit_logs/mod.rs 125-141, 148-153 [source] *)
Definition dep_source (e : ReceivedDepositEvent) : EventSource :=
  match e with
  | DepNative e => (ne_transaction_hash e, ne_log_index e)
  | DepErc20 e => (ee_transaction_hash e, ee_log_index e)
  end.
(** deposit_logs/mod.rs 154-159 [from_address] *)
Definition dep_from_address (e : ReceivedDepositEvent) : Address :=
  match e with DepNative e => ne_from_address e | DepErc20 e => ee_from_address e end.
(** deposit_logs/mod.rs 160-165 [principal] *)
Definition dep_principal (e : ReceivedDepositEvent) : Principal :=
  match e with DepNative e => ne_principal e | DepErc20 e => ee_principal e end.
(** deposit_logs/mod.rs 166-171 [block_number] *)
Definition dep_block_number (e : ReceivedDepositEvent) : N :=
  match e with DepNative e => ne_block_number e | DepErc20 e => ee_block_number e end.
(** deposit_logs/mod.rs 172-177 [log_index] *)
Definition dep_log_index (e : ReceivedDepositEvent) : N :=
  match e with DepNative e => ne_log_index e | DepErc20 e => ee_log_index e end.
(** deposit_logs/mod.rs 178-183 [transaction_hash] *)
Definition dep_transaction_hash (e : ReceivedDepositEvent) : Hash :=
  match e with DepNative e => ne_transaction_hash e | DepErc20 e => ee_transaction_hash e end.
(** deposit_logs/mod.rs 184-189 [value] *)
Definition dep_value (e : ReceivedDepositEvent) : N :=
  match e with DepNative e => ne_value e | DepErc20 e => ee_value e end.
(** deposit_logs/mod.rs 191-202 [subaccount] (32 bytes) *)
Definition dep_subaccount (e : ReceivedDepositEvent) : option Subaccount :=
  option_map (be_bytes 32)
    (match e with DepNative e => ne_subaccount e | DepErc20 e => ee_subaccount e end).

(** state.rs 53-58 [InvalidEventReason] *)
Inductive InvalidEventReason :=
| InvalidDepositReason (reason : text)
| QuarantinedDepositReason.

(** state.rs 86-92 [MintedEvent] *)
Record MintedEvent := {
  me_deposit_event : ReceivedDepositEvent;
  me_mint_block_index : N;
  me_token_symbol : text;
  me_erc20_contract_address : option Address
}.

(** erc20.rs 13-23 [ERC20Token] *)
Record ERC20Token := {
  et_chain_id : EvmNetwork;
  et_contract_address : Address;
  et_symbol : text;
  et_ledger_id : Principal
}.

(** ** Transactions *)

(** tx.rs 30 / 65 [AccessListItem] (address, storage keys), 29 [AccessList] *)
Definition AccessList : Type := list (Address * list N).

(** tx.rs 98-117 [Eip1559TransactionRequest] *)
Record Tx := {
  tx_chain_id : N;
  tx_nonce : N;
  tx_max_priority_fee_per_gas : N;
  tx_max_fee_per_gas : N;
  tx_gas_limit : N;
  tx_destination : Address;
  tx_amount : N;
  tx_data : list N;
  tx_access_list : AccessList
}.

(** tx.rs 247-258 [Eip1559Signature] *)
Record Signature := { sg_y_parity : bool; sg_r : N; sg_s : N }.

(** tx.rs 274-290 [SignedEip1559TransactionRequest] with its memoized hash *)
Record SignedTx := { st_tx : Tx; st_sig : Signature; st_hash : Hash }.

(** rpc_declrations.rs 356-372 [TransactionStatus] *)
Inductive TransactionStatus := TxSuccess | TxFailure.

(** rpc_declrations.rs 318-343 [TransactionReceipt] *)
Record Receipt := {
  rc_block_hash : Hash;
  rc_block_number : N;
  rc_effective_gas_price : N;
  rc_gas_used : N;
  rc_status : TransactionStatus;
  rc_transaction_hash : Hash
}.

(** tx.rs 345-352 [FinalizedEip1559Transaction] *)
Record FinalizedTx := { ft_tx : SignedTx; ft_receipt : Receipt }.

(** tx.rs 160-163 [ResubmissionStrategy] *)
Inductive Resubmission :=
| ReduceEthAmount (withdrawal_amount : N)
| GuaranteeEthAmount (allowed_max_transaction_fee : N).

(** tx.rs 129-132 [Resubmittable<T>] *)
Record Resubmittable (T : Type) := { rs_tx : T; rs_strategy : Resubmission }.
Arguments rs_tx {T} r.
Arguments rs_strategy {T} r.
Arguments Build_Resubmittable {T} rs_tx rs_strategy.

(** tx.rs 609-612 [GasFeeEstimate] *)
Record GasFeeEstimate := { gf_base_fee_per_gas : N; gf_max_priority_fee_per_gas : N }.

(** tx.rs 667-671 [TransactionPrice] *)
Record TransactionPrice := {
  tp_gas_limit : N; tp_max_fee_per_gas : N; tp_max_priority_fee_per_gas : N }.

(** ** Withdrawals *)

(** state/transactions/mod.rs 40-59 [NativeWithdrawalRequest] *)
Record NativeWithdrawalRequest := {
  nw_withdrawal_amount : N;
  nw_destination : Address;
  nw_ledger_burn_index : N;
  nw_from : Principal;
  nw_from_subaccount : option Subaccount;
  nw_created_at : option N
}.

(** state/transactions/mod.rs 63-94 [Erc20WithdrawalRequest] *)
Record Erc20WithdrawalRequest := {
  ew_max_transaction_fee : N;
  ew_withdrawal_amount : N;
  ew_destination : Address;
  ew_native_ledger_burn_index : N;
  ew_erc20_contract_address : Address;
  ew_erc20_ledger_id : Principal;
  ew_erc20_ledger_burn_index : N;
  ew_from : Principal;
  ew_from_subaccount : option Subaccount;
  ew_created_at : N
}.

(** state/transactions/mod.rs 161-165 [WithdrawalRequest] *)
Inductive WithdrawalRequest :=
| WNative (r : NativeWithdrawalRequest)
| WErc20 (r : Erc20WithdrawalRequest).

(** state/transactions/mod.rs 168-173 [native_ledger_burn_index] *)
Definition wr_burn_index (r : WithdrawalRequest) : N :=
  match r with WNative r => nw_ledger_burn_index r | WErc20 r => ew_native_ledger_burn_index r end.
(** state/transactions/mod.rs 175-180 [created_at] *)
Definition wr_created_at (r : WithdrawalRequest) : option N :=
  match r with WNative r => nw_created_at r | WErc20 r => Some (ew_created_at r) end.
(** state/transactions/mod.rs 183-188 [payee] *)
Definition wr_payee (r : WithdrawalRequest) : Address :=
  match r with WNative r => nw_destination r | WErc20 r => ew_destination r end.
(** state/transactions/mod.rs 191-196 [destination] *)
Definition wr_destination (r : WithdrawalRequest) : Address :=
  match r with WNative r => nw_destination r | WErc20 r => ew_erc20_contract_address r end.
(** state/transactions/mod.rs 198-203 [from] *)
Definition wr_from (r : WithdrawalRequest) : Principal :=
  match r with WNative r => nw_from r | WErc20 r => ew_from r end.
(** state/transactions/mod.rs 205-210 [from_subaccount] *)
Definition wr_from_subaccount (r : WithdrawalRequest) : option Subaccount :=
  match r with WNative r => nw_from_subaccount r | WErc20 r => ew_from_subaccount r end.

(** state/transactions/mod.rs 247-264 [ReimbursementIndex] *)
Inductive ReimbursementIndex :=
| RINative (ledger_burn_index : N)
| RIErc20 (native_ledger_burn_index : N) (ledger_id : Principal) (erc20_ledger_burn_index : N).

(** Derived [Ord]: variants in declaration order, then fields in order. *)
Definition ri_key (i : ReimbursementIndex) : N * (N * (list N * N)) :=
  match i with
  | RINative b => (0, (b, ([], 0)))
  | RIErc20 b l e => (1, (b, (l, e)))
  end.
Lemma ri_key_inj a b : ri_key a = ri_key b -> a = b.
Proof. destruct a, b; cbn; congruence. Qed.
#[global] Instance Ord_ReimbursementIndex : Ord ReimbursementIndex :=
  Ord_inj ri_key Ord_pair ri_key_inj.

(** state/transactions/mod.rs 266-279 [From<&WithdrawalRequest>] *)
Definition ri_of_request (r : WithdrawalRequest) : ReimbursementIndex :=
  match r with
  | WNative r => RINative (nw_ledger_burn_index r)
  | WErc20 r => RIErc20 (ew_native_ledger_burn_index r) (ew_erc20_ledger_id r)
                        (ew_erc20_ledger_burn_index r)
  end.
(** state/transactions/mod.rs 282-290 [withdrawal_id] *)
Definition ri_withdrawal_id (i : ReimbursementIndex) : N :=
  match i with RINative b => b | RIErc20 b _ _ => b end.
(** state/transactions/mod.rs 291-300 [burn_in_block] *)
Definition ri_burn_in_block (i : ReimbursementIndex) : N :=
  match i with RINative b => b | RIErc20 _ _ e => e end.

(** state/transactions/mod.rs 304-320 [ReimbursementRequest] *)
Record ReimbursementRequest := {
  rr_ledger_burn_index : N;
  rr_reimbursed_amount : N;
  rr_to : Principal;
  rr_to_subaccount : option Subaccount;
  rr_transaction_hash : option Hash
}.

(** state/transactions/mod.rs 323-333 [Reimbursed] *)
Record Reimbursed := {
  rd_reimbursed_in_block : N;
  rd_burn_in_block : N;
  rd_reimbursed_amount : N;
  rd_transaction_hash : option Hash
}.

(** state/transactions/mod.rs 335-344 [ReimbursedResult] *)
Inductive ReimbursedResult :=
| ReimbursedOk (r : Reimbursed)
| ReimbursedQuarantined.

(** ** Arguments *)

(** lifecycle.rs 20-51 [InitArg]; [Nat] fields are unbounded *)
Record InitArg := {
  ia_evm_network : EvmNetwork;
  ia_ecdsa_key_name : text;
  ia_helper_contract_address : option text;
  ia_native_ledger_id : Principal;
  ia_native_index_id : Principal;
  ia_native_symbol : text;
  ia_block_height : BlockTag;
  ia_native_minimum_withdrawal_amount : N;
  ia_native_ledger_transfer_fee : N;
  ia_next_transaction_nonce : N;
  ia_last_scraped_block_number : N;
  ia_min_max_priority_fee_per_gas : N;
  ia_ledger_suite_manager_id : Principal;
  ia_deposit_native_fee : N;
  ia_withdrawal_native_fee : N
}.

(** lifecycle.rs 170-192 [UpgradeArg] *)
Record UpgradeArg := {
  ua_next_transaction_nonce : option N;
  ua_native_minimum_withdrawal_amount : option N;
  ua_helper_contract_address : option text;
  ua_block_height : option BlockTag;
  ua_last_scraped_block_number : option N;
  ua_evm_rpc_id : option Principal;
  ua_native_ledger_transfer_fee : option N;
  ua_min_max_priority_fee_per_gas : option N;
  ua_deposit_native_fee : option N;
  ua_withdrawal_native_fee : option N
}.

(** ** Audit events: state/event.rs 20-163 [EventType] *)
Inductive EventType :=
| EvInit (a : InitArg)
| EvUpgrade (a : UpgradeArg)
| EvAcceptedDeposit (e : ReceivedNativeEvent)
| EvInvalidDeposit (event_source : EventSource) (reason : text)
| EvMintedNative (event_source : EventSource) (mint_block_index : N)
| EvSyncedToBlock (block_number : N)
| EvAcceptedNativeWithdrawalRequest (r : NativeWithdrawalRequest)
| EvCreatedTransaction (withdrawal_id : N) (transaction : Tx)
| EvSignedTransaction (withdrawal_id : N) (transaction : SignedTx)
| EvReplacedTransaction (withdrawal_id : N) (transaction : Tx)
| EvFinalizedTransaction (withdrawal_id : N) (receipt : Receipt)
| EvReimbursedNativeWithdrawal (r : Reimbursed)
| EvAddedErc20Token (t : ERC20Token)
| EvAcceptedErc20Deposit (e : ReceivedErc20Event)
| EvAcceptedErc20WithdrawalRequest (r : Erc20WithdrawalRequest)
| EvMintedErc20 (event_source : EventSource) (mint_block_index : N)
    (erc20_token_symbol : text) (erc20_contract_address : Address)
| EvReimbursedErc20Withdrawal (native_ledger_burn_index : N) (erc20_ledger_id : Principal)
    (reimbursed : Reimbursed)
| EvFailedErc20WithdrawalRequest (r : ReimbursementRequest)
| EvQuarantinedDeposit (event_source : EventSource)
| EvQuarantinedReimbursement (index : ReimbursementIndex)
| EvSkippedBlock (block_number : N).

(** state/event.rs 165-172 [into_deposit] *)
Definition into_deposit (e : ReceivedDepositEvent) : EventType :=
  match e with
  | DepNative e => EvAcceptedDeposit e
  | DepErc20 e => EvAcceptedErc20Deposit e
  end.

(** state/transactions/mod.rs 212-219 [into_accepted_withdrawal_request_event] *)
Definition into_accepted_withdrawal (r : WithdrawalRequest) : EventType :=
  match r with
  | WNative r => EvAcceptedNativeWithdrawalRequest r
  | WErc20 r => EvAcceptedErc20WithdrawalRequest r
  end.

(** state/event.rs 174-182 [Event] *)
Record Event := { ev_timestamp : N; ev_payload : EventType }.

(** ** Decidable equality (derived [PartialEq]) *)
Definition N_dec : forall a b : N, {a = b} + {a <> b} := N.eq_dec.
Definition bytes_dec : forall a b : list N, {a = b} + {a <> b} := list_eq_dec N.eq_dec.
Definition opt_dec {A} (d : forall a b : A, {a = b} + {a <> b}) :
  forall a b : option A, {a = b} + {a <> b}.
Proof. decide equality. Defined.
Definition access_list_dec : forall a b : AccessList, {a = b} + {a <> b}.
Proof. apply list_eq_dec. decide equality; [apply bytes_dec | apply N.eq_dec]. Defined.
Definition network_dec : forall a b : EvmNetwork, {a = b} + {a <> b}.
Proof. decide equality. Defined.
Definition Tx_dec : forall a b : Tx, {a = b} + {a <> b}.
Proof. decide equality; solve [apply N.eq_dec | apply bytes_dec | apply access_list_dec]. Defined.
Definition price_dec : forall a b : TransactionPrice, {a = b} + {a <> b}.
Proof. decide equality; apply N.eq_dec. Defined.
Definition nwr_dec : forall a b : NativeWithdrawalRequest, {a = b} + {a <> b}.
Proof.
  decide equality; solve [apply N.eq_dec | apply bytes_dec | apply opt_dec, bytes_dec | apply opt_dec, N.eq_dec].
Defined.
Definition ewr_dec : forall a b : Erc20WithdrawalRequest, {a = b} + {a <> b}.
Proof.
  decide equality; solve [apply N.eq_dec | apply bytes_dec | apply opt_dec, bytes_dec | apply opt_dec, N.eq_dec].
Defined.
Definition wr_dec : forall a b : WithdrawalRequest, {a = b} + {a <> b}.
Proof. decide equality; [apply nwr_dec | apply ewr_dec]. Defined.
Definition status_dec : forall a b : TransactionStatus, {a = b} + {a <> b}.
Proof. decide equality. Defined.

Definition tx_eqb (a b : Tx) : bool := if Tx_dec a b then true else false.
Definition price_eqb (a b : TransactionPrice) : bool := if price_dec a b then true else false.
Definition wr_eqb (a b : WithdrawalRequest) : bool := if wr_dec a b then true else false.
Definition network_eqb (a b : EvmNetwork) : bool := if network_dec a b then true else false.
Definition is_failure (s : TransactionStatus) : bool :=
  match s with TxFailure => true | TxSuccess => false end.

Lemma tx_eqb_eq a b : tx_eqb a b = true <-> a = b.
Proof. unfold tx_eqb. destruct (Tx_dec a b); split; congruence. Qed.
Lemma price_eqb_eq a b : price_eqb a b = true <-> a = b.
Proof. unfold price_eqb. destruct (price_dec a b); split; congruence. Qed.
Lemma wr_eqb_eq a b : wr_eqb a b = true <-> a = b.
Proof. unfold wr_eqb. destruct (wr_dec a b); split; congruence. Qed.
Lemma network_eqb_eq a b : network_eqb a b = true <-> a = b.
Proof. unfold network_eqb. destruct (network_dec a b); split; congruence. Qed.
