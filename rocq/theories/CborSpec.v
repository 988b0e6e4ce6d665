(** * Specification of C43, C44, C62 and C63: the values the Rust types can hold *)

From Verif Require Import Base BMap MultiKeyMap Bytes Types Amount Tx CallData Network Hex
  Transactions State Audit Ranges Rlp Parser Memo.

Definition u64 (n : N) : Prop := n < 2 ^ 64.
Definition u256 (n : N) : Prop := n < 2 ^ 256.
Definition address (a : Address) : Prop := a < 2 ^ 160.
Definition hash (h : Hash) : Prop := h < 2 ^ 256.
(** a byte string in memory *)
Definition bytes (b : list N) : Prop := Forall (fun x => x < 256) b /\ N.of_nat (List.length b) < 2 ^ 64.
Definition bytes_of (n : nat) (b : list N) : Prop := Forall (fun x => x < 256) b /\ List.length b = n.
Definition principal (p : Principal) : Prop := Forall (fun x => x < 256) p /\ (List.length p <= 29)%nat.
(** Unicode scalar values; a string takes fewer than 2^64 bytes (at most four per value) *)
Definition scalar (c : N) : Prop := c < 55296 \/ 57344 <= c < 1114112.
Definition string_of (t : text) : Prop := Forall scalar t /\ 4 * N.of_nat (List.length t) < 2 ^ 64.
(** a natural number that fits in memory *)
Definition natural (n : N) : Prop := N.size n < 2 ^ 64.
Definition optional {A} (P : A -> Prop) (o : option A) : Prop := match o with Some v => P v | None => True end.

Definition ok_source (s : EventSource) : Prop := hash (fst s) /\ u256 (snd s).
Definition ok_native_event (e : ReceivedNativeEvent) : Prop :=
  hash (ne_transaction_hash e) /\ u256 (ne_block_number e) /\ u256 (ne_log_index e) /\ address (ne_from_address e) /\
  u256 (ne_value e) /\ principal (ne_principal e) /\ optional u256 (ne_subaccount e).
Definition ok_erc20_event (e : ReceivedErc20Event) : Prop :=
  hash (ee_transaction_hash e) /\ u256 (ee_block_number e) /\ u256 (ee_log_index e) /\ address (ee_from_address e) /\
  u256 (ee_value e) /\ principal (ee_principal e) /\ address (ee_erc20_contract_address e) /\ optional u256 (ee_subaccount e).
Definition ok_token (t : ERC20Token) : Prop := address (et_contract_address t) /\ string_of (et_symbol t) /\ principal (et_ledger_id t).
Definition ok_access_list (l : AccessList) : Prop :=
  N.of_nat (List.length l) < 2 ^ 64 /\
  Forall (fun x => address (fst x) /\ N.of_nat (List.length (snd x)) < 2 ^ 64 /\ Forall hash (snd x)) l.
Definition ok_tx (t : Tx) : Prop :=
  u64 (tx_chain_id t) /\ u256 (tx_nonce t) /\ u256 (tx_max_priority_fee_per_gas t) /\ u256 (tx_max_fee_per_gas t) /\
  u256 (tx_gas_limit t) /\ address (tx_destination t) /\ u256 (tx_amount t) /\ bytes (tx_data t) /\ ok_access_list (tx_access_list t).
(** the hash kept in a signed transaction is that of its bytes *)
Definition ok_signed (keccak : list N -> Hash) (t : SignedTx) : Prop :=
  ok_tx (st_tx t) /\ u256 (sg_r (st_sig t)) /\ u256 (sg_s (st_sig t)) /\ t = signed_tx keccak (st_tx t) (st_sig t).
Definition ok_receipt (r : Receipt) : Prop :=
  hash (rc_block_hash r) /\ u256 (rc_block_number r) /\ u256 (rc_effective_gas_price r) /\ u256 (rc_gas_used r) /\
  hash (rc_transaction_hash r).
Definition ok_native_request (r : NativeWithdrawalRequest) : Prop :=
  u256 (nw_withdrawal_amount r) /\ address (nw_destination r) /\ u64 (nw_ledger_burn_index r) /\ principal (nw_from r) /\
  optional (bytes_of 32) (nw_from_subaccount r) /\ optional u64 (nw_created_at r).
Definition ok_erc20_request (r : Erc20WithdrawalRequest) : Prop :=
  u256 (ew_max_transaction_fee r) /\ u256 (ew_withdrawal_amount r) /\ address (ew_destination r) /\
  u64 (ew_native_ledger_burn_index r) /\ address (ew_erc20_contract_address r) /\ principal (ew_erc20_ledger_id r) /\
  u64 (ew_erc20_ledger_burn_index r) /\ principal (ew_from r) /\ optional (bytes_of 32) (ew_from_subaccount r) /\ u64 (ew_created_at r).
Definition ok_index (i : ReimbursementIndex) : Prop :=
  match i with RINative b => u64 b | RIErc20 b l e => u64 b /\ principal l /\ u64 e end.
Definition ok_reimbursement (r : ReimbursementRequest) : Prop :=
  u64 (rr_ledger_burn_index r) /\ u256 (rr_reimbursed_amount r) /\ principal (rr_to r) /\
  optional (bytes_of 32) (rr_to_subaccount r) /\ optional hash (rr_transaction_hash r).
Definition ok_reimbursed (r : Reimbursed) : Prop :=
  u64 (rd_reimbursed_in_block r) /\ u64 (rd_burn_in_block r) /\ u256 (rd_reimbursed_amount r) /\ optional hash (rd_transaction_hash r).
Definition ok_init (a : InitArg) : Prop :=
  string_of (ia_ecdsa_key_name a) /\ optional string_of (ia_helper_contract_address a) /\ principal (ia_native_ledger_id a) /\
  principal (ia_native_index_id a) /\ string_of (ia_native_symbol a) /\ natural (ia_native_minimum_withdrawal_amount a) /\
  natural (ia_native_ledger_transfer_fee a) /\ natural (ia_next_transaction_nonce a) /\ natural (ia_last_scraped_block_number a) /\
  natural (ia_min_max_priority_fee_per_gas a) /\ principal (ia_ledger_suite_manager_id a) /\ natural (ia_deposit_native_fee a) /\
  natural (ia_withdrawal_native_fee a).
Definition ok_upgrade (a : UpgradeArg) : Prop :=
  optional natural (ua_next_transaction_nonce a) /\ optional natural (ua_native_minimum_withdrawal_amount a) /\
  optional string_of (ua_helper_contract_address a) /\ optional natural (ua_last_scraped_block_number a) /\
  optional principal (ua_evm_rpc_id a) /\ optional natural (ua_native_ledger_transfer_fee a) /\
  optional natural (ua_min_max_priority_fee_per_gas a) /\ optional natural (ua_deposit_native_fee a) /\
  optional natural (ua_withdrawal_native_fee a).

Definition ok_payload (keccak : list N -> Hash) (e : EventType) : Prop :=
  match e with
  | EvInit a => ok_init a
  | EvUpgrade a => ok_upgrade a
  | EvAcceptedDeposit e => ok_native_event e
  | EvInvalidDeposit s t => ok_source s /\ string_of t
  | EvMintedNative s b => ok_source s /\ u64 b
  | EvSyncedToBlock b => u256 b
  | EvAcceptedNativeWithdrawalRequest r => ok_native_request r
  | EvCreatedTransaction i t => u64 i /\ ok_tx t
  | EvSignedTransaction i t => u64 i /\ ok_signed keccak t
  | EvReplacedTransaction i t => u64 i /\ ok_tx t
  | EvFinalizedTransaction i r => u64 i /\ ok_receipt r
  | EvReimbursedNativeWithdrawal r => ok_reimbursed r
  | EvAddedErc20Token t => ok_token t
  | EvAcceptedErc20Deposit e => ok_erc20_event e
  | EvAcceptedErc20WithdrawalRequest r => ok_erc20_request r
  | EvMintedErc20 s b t a => ok_source s /\ u64 b /\ string_of t /\ address a
  | EvReimbursedErc20Withdrawal b l r => u64 b /\ principal l /\ ok_reimbursed r
  | EvFailedErc20WithdrawalRequest r => ok_reimbursement r
  | EvQuarantinedDeposit s => ok_source s
  | EvQuarantinedReimbursement i => ok_index i
  | EvSkippedBlock b => u256 b
  end.
Definition ok_event (keccak : list N -> Hash) (e : Event) : Prop := u64 (ev_timestamp e) /\ ok_payload keccak (ev_payload e).

Definition ok_mint_memo (m : MintMemo) : Prop :=
  match m with
  | MintConvert a h i => address a /\ hash h /\ u256 i
  | ReimburseTransaction i h => u64 i /\ hash h
  | ReimburseWithdrawal i => u64 i
  end.
Definition ok_burn_memo (m : BurnMemo) : Prop :=
  match m with
  | BurnConvert a => address a
  | BurnErc20GasFee t v a => string_of t /\ u256 v /\ address a
  | BurnErc20Convert i a => u64 i /\ address a
  end.
(** the symbols that can be registered: at most 20 ASCII characters (erc20.rs 45-56) *)
Definition symbol (t : text) : Prop := (List.length t <= 20)%nat /\ Forall (fun c => c < 128) t.
