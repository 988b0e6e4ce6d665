(** * PublicEvents: the event list as clients see it.

    Model of /repo/minter/src/main.rs 727-1013 [get_events] (with the types of
    endpoints.rs 319-509): addresses, hashes and signed transactions are shown as text. *)

From Verif Require Import Base Bytes Types Network Hex Rlp Audit.

(** rpc_declrations.rs 98-112 [Display for Hash] *)
Definition hash_to_text (h : Hash) : text := [48; 120] ++ hex_encode (be_bytes 32 h).
(** tx.rs 439-442 [raw_transaction_hex] *)
Definition raw_transaction_hex (t : SignedTx) : text := [48; 120] ++ hex_encode (raw_bytes (st_tx t) (st_sig t)).

(** endpoints.rs 339-343 [EventSource] *)
Record PubSource := { ps_transaction_hash : text; ps_log_index : N }.
(** endpoints.rs 345-355 [ReimbursementIndex] *)
Inductive PubIndex :=
| PINative (ledger_burn_index : N)
| PIErc20 (native_ledger_burn_index : N) (ledger_id : Principal) (erc20_ledger_burn_index : N).
(** endpoints.rs 357-361 [AccessListItem] *)
Record PubAccess := { pa_address : text; pa_storage_keys : list (list N) }.
(** endpoints.rs 363-374 [UnsignedTransaction] *)
Record PubTx := {
  px_chain_id : N; px_nonce : N; px_max_priority_fee_per_gas : N; px_max_fee_per_gas : N; px_gas_limit : N;
  px_destination : text; px_value : N; px_data : list N; px_access_list : list PubAccess }.
(** endpoints.rs 382-390 [TransactionReceipt] *)
Record PubReceipt := {
  pr_block_hash : text; pr_block_number : N; pr_effective_gas_price : N; pr_gas_used : N;
  pr_status : TransactionStatus; pr_transaction_hash : text }.

(** endpoints.rs 392-507 [EventPayload] *)
Inductive PubPayload :=
| PInit (a : InitArg)
| PUpgrade (a : UpgradeArg)
| PAcceptedDeposit (transaction_hash : text) (block_number log_index : N) (from_address : text) (value : N)
    (principal : Principal) (subaccount : option (list N))
| PAcceptedErc20Deposit (transaction_hash : text) (block_number log_index : N) (from_address : text) (value : N)
    (principal : Principal) (erc20_contract_address : text) (subaccount : option (list N))
| PInvalidDeposit (event_source : PubSource) (reason : text)
| PMintedNative (event_source : PubSource) (mint_block_index : N)
| PSyncedToBlock (block_number : N)
| PAcceptedNativeWithdrawalRequest (withdrawal_amount : N) (destination : text) (ledger_burn_index : N)
    (from : Principal) (from_subaccount : option (list N)) (created_at : option N)
| PCreatedTransaction (withdrawal_id : N) (transaction : PubTx)
| PSignedTransaction (withdrawal_id : N) (raw_transaction : text)
| PReplacedTransaction (withdrawal_id : N) (transaction : PubTx)
| PFinalizedTransaction (withdrawal_id : N) (transaction_receipt : PubReceipt)
| PReimbursedNativeWithdrawal (reimbursed_in_block withdrawal_id reimbursed_amount : N) (transaction_hash : option text)
| PReimbursedErc20Withdrawal (withdrawal_id burn_in_block reimbursed_in_block : N) (ledger_id : Principal)
    (reimbursed_amount : N) (transaction_hash : option text)
| PSkippedBlock (block_number : N)
| PAddedErc20Token (chain_id : N) (address : text) (erc20_token_symbol : text) (erc20_ledger_id : Principal)
| PAcceptedErc20WithdrawalRequest (max_transaction_fee withdrawal_amount : N) (erc20_contract_address destination : text)
    (native_ledger_burn_index : N) (erc20_ledger_id : Principal) (erc20_ledger_burn_index : N) (from : Principal)
    (from_subaccount : option (list N)) (created_at : N)
| PFailedErc20WithdrawalRequest (withdrawal_id reimbursed_amount : N) (to : Principal) (to_subaccount : option (list N))
| PMintedErc20 (event_source : PubSource) (mint_block_index : N) (erc20_token_symbol erc20_contract_address : text)
| PQuarantinedDeposit (event_source : PubSource)
| PQuarantinedReimbursement (index : PubIndex).

(** endpoints.rs 333-337 [Event] *)
Record PubEvent := { pe_timestamp : N; pe_payload : PubPayload }.

Section Public.
(** the hash function of the checksum in an address (EIP-55) *)
Variable keccak : list N -> list N.

(** main.rs 740-750 [map_event_source] *)
Definition public_source (s : EventSource) : PubSource :=
  {| ps_transaction_hash := hash_to_text (fst s); ps_log_index := snd s |}.
(** main.rs 752-767 [map_reimbursement_index] *)
Definition public_index (i : ReimbursementIndex) : PubIndex :=
  match i with RINative b => PINative b | RIErc20 b l e => PIErc20 b l e end.
(** main.rs 769-792 [map_unsigned_transaction] *)
Definition public_tx (t : Tx) : PubTx :=
  {| px_chain_id := tx_chain_id t; px_nonce := tx_nonce t;
     px_max_priority_fee_per_gas := tx_max_priority_fee_per_gas t;
     px_max_fee_per_gas := tx_max_fee_per_gas t; px_gas_limit := tx_gas_limit t;
     px_destination := address_to_text keccak (tx_destination t); px_value := tx_amount t;
     px_data := tx_data t;
     px_access_list := map (fun i => {| pa_address := address_to_text keccak (fst i);
                                        pa_storage_keys := map (be_bytes 32) (snd i) |}) (tx_access_list t) |}.
(** main.rs 794-807 [map_transaction_receipt] *)
Definition public_receipt (r : Receipt) : PubReceipt :=
  {| pr_block_hash := hash_to_text (rc_block_hash r); pr_block_number := rc_block_number r;
     pr_effective_gas_price := rc_effective_gas_price r; pr_gas_used := rc_gas_used r;
     pr_status := rc_status r; pr_transaction_hash := hash_to_text (rc_transaction_hash r) |}.

(** main.rs 809-997 [map_event] *)
Definition public_payload (e : EventType) : PubPayload :=
  match e with
  | EvInit a => PInit a
  | EvUpgrade a => PUpgrade a
  | EvAcceptedDeposit e =>
      PAcceptedDeposit (hash_to_text (ne_transaction_hash e)) (ne_block_number e) (ne_log_index e)
        (address_to_text keccak (ne_from_address e)) (ne_value e) (ne_principal e)
        (option_map (be_bytes 32) (ne_subaccount e))
  | EvAcceptedErc20Deposit e =>
      PAcceptedErc20Deposit (hash_to_text (ee_transaction_hash e)) (ee_block_number e) (ee_log_index e)
        (address_to_text keccak (ee_from_address e)) (ee_value e) (ee_principal e)
        (address_to_text keccak (ee_erc20_contract_address e)) (option_map (be_bytes 32) (ee_subaccount e))
  | EvInvalidDeposit s t => PInvalidDeposit (public_source s) t
  | EvMintedNative s b => PMintedNative (public_source s) b
  | EvSyncedToBlock b => PSyncedToBlock b
  | EvAcceptedNativeWithdrawalRequest r =>
      PAcceptedNativeWithdrawalRequest (nw_withdrawal_amount r) (address_to_text keccak (nw_destination r))
        (nw_ledger_burn_index r) (nw_from r) (nw_from_subaccount r) (nw_created_at r)
  | EvCreatedTransaction i t => PCreatedTransaction i (public_tx t)
  | EvSignedTransaction i t => PSignedTransaction i (raw_transaction_hex t)
  | EvReplacedTransaction i t => PReplacedTransaction i (public_tx t)
  | EvFinalizedTransaction i r => PFinalizedTransaction i (public_receipt r)
  | EvReimbursedNativeWithdrawal r =>
      PReimbursedNativeWithdrawal (rd_reimbursed_in_block r) (rd_burn_in_block r) (rd_reimbursed_amount r)
        (option_map hash_to_text (rd_transaction_hash r))
  | EvReimbursedErc20Withdrawal b l r =>
      PReimbursedErc20Withdrawal b (rd_burn_in_block r) (rd_reimbursed_in_block r) l (rd_reimbursed_amount r)
        (option_map hash_to_text (rd_transaction_hash r))
  | EvSkippedBlock b => PSkippedBlock b
  | EvAddedErc20Token t =>
      PAddedErc20Token (chain_id (et_chain_id t)) (address_to_text keccak (et_contract_address t)) (et_symbol t) (et_ledger_id t)
  | EvAcceptedErc20WithdrawalRequest r =>
      PAcceptedErc20WithdrawalRequest (ew_max_transaction_fee r) (ew_withdrawal_amount r)
        (address_to_text keccak (ew_erc20_contract_address r)) (address_to_text keccak (ew_destination r))
        (ew_native_ledger_burn_index r) (ew_erc20_ledger_id r) (ew_erc20_ledger_burn_index r) (ew_from r)
        (ew_from_subaccount r) (ew_created_at r)
  | EvMintedErc20 s b t a => PMintedErc20 (public_source s) b t (address_to_text keccak a)
  | EvFailedErc20WithdrawalRequest r =>
      PFailedErc20WithdrawalRequest (rr_ledger_burn_index r) (rr_reimbursed_amount r) (rr_to r) (rr_to_subaccount r)
  | EvQuarantinedDeposit s => PQuarantinedDeposit (public_source s)
  | EvQuarantinedReimbursement i => PQuarantinedReimbursement (public_index i)
  end.
Definition public_event (e : Event) : PubEvent :=
  {| pe_timestamp := ev_timestamp e; pe_payload := public_payload (ev_payload e) |}.

(** main.rs 999-1012: the answer to a client. A page of events and their total number
    ([get_events], Audit.v), in public form *)
Definition get_public_events (start length : N) (log : list Event) : list PubEvent * N :=
  let (page, total) := get_events start length log in (map public_event page, total).

End Public.
