(** * State: the minter's state and its transitions.

    Model of /repo/minter/src/state.rs. *)

From Verif Require Import Base BMap MultiKeyMap Bytes Types Amount Tx CallData Network Hex
  Transactions.

(** state.rs 609-624 [NativeBalance] *)
Record NativeBalance := {
  nb_balance : N;
  nb_total_effective_tx_fees : N;
  nb_total_unspent_tx_fees : N
}.
(** state.rs 626-634 [Default] *)
Definition native_balance_default : NativeBalance :=
  {| nb_balance := 0; nb_total_effective_tx_fees := 0; nb_total_unspent_tx_fees := 0 |}.

(** state.rs 99-166 [State]. [ecdsa_public_key] (a cache of the management canister's
    answer) is left out; [block_height] is the constant-per-upgrade tag. *)
Record State := {
  evm_network : EvmNetwork;
  ecdsa_key_name : text;
  native_ledger_id : Principal;
  native_index_id : Principal;
  native_symbol : text;
  helper_contract_address : option Address;
  evm_canister_id : Principal;
  native_ledger_transfer_fee : N;
  native_minimum_withdrawal_amount : N;
  block_height : BlockTag;
  first_scraped_block_number : N;
  last_scraped_block_number : N;
  last_observed_block_number : option N;
  last_observed_block_time : option N;
  events_to_mint : bmap EventSource ReceivedDepositEvent;
  minted_events : bmap EventSource MintedEvent;
  invalid_events : bmap EventSource InvalidEventReason;
  withdrawals : WT;
  skipped_blocks : bset N;
  native_balance : NativeBalance;
  erc20_balances : bmap Address N;
  pending_withdrawal_principals : bset Principal;
  active_tasks : bset TaskType;
  last_transaction_price_estimate : option (N * GasFeeEstimate);
  deposit_native_fee : option N;
  withdrawal_native_fee : option N;
  ledger_suite_manager_id : option Principal;
  erc20_tokens : dmkm Principal Address text;
  min_max_priority_fee_per_gas : N;
  swap_canister_id : option Principal
}.

(** Field updates ([state.field = x]). *)
Definition set_evm_network x s :=
  {|
     evm_network := x; ecdsa_key_name := ecdsa_key_name s; native_ledger_id := native_ledger_id
     s; native_index_id := native_index_id s; native_symbol := native_symbol s;
     helper_contract_address := helper_contract_address s; evm_canister_id := evm_canister_id s;
     native_ledger_transfer_fee := native_ledger_transfer_fee s;
     native_minimum_withdrawal_amount := native_minimum_withdrawal_amount s; block_height :=
     block_height s; first_scraped_block_number := first_scraped_block_number s;
     last_scraped_block_number := last_scraped_block_number s; last_observed_block_number :=
     last_observed_block_number s; last_observed_block_time := last_observed_block_time s;
     events_to_mint := events_to_mint s; minted_events := minted_events s; invalid_events :=
     invalid_events s; withdrawals := withdrawals s; skipped_blocks := skipped_blocks s;
     native_balance := native_balance s; erc20_balances := erc20_balances s;
     pending_withdrawal_principals := pending_withdrawal_principals s; active_tasks :=
     active_tasks s; last_transaction_price_estimate := last_transaction_price_estimate s;
     deposit_native_fee := deposit_native_fee s; withdrawal_native_fee := withdrawal_native_fee
     s; ledger_suite_manager_id := ledger_suite_manager_id s; erc20_tokens := erc20_tokens s;
     min_max_priority_fee_per_gas := min_max_priority_fee_per_gas s; swap_canister_id :=
     swap_canister_id s |}.
Definition set_ecdsa_key_name x s :=
  {|
     evm_network := evm_network s; ecdsa_key_name := x; native_ledger_id := native_ledger_id s;
     native_index_id := native_index_id s; native_symbol := native_symbol s;
     helper_contract_address := helper_contract_address s; evm_canister_id := evm_canister_id s;
     native_ledger_transfer_fee := native_ledger_transfer_fee s;
     native_minimum_withdrawal_amount := native_minimum_withdrawal_amount s; block_height :=
     block_height s; first_scraped_block_number := first_scraped_block_number s;
     last_scraped_block_number := last_scraped_block_number s; last_observed_block_number :=
     last_observed_block_number s; last_observed_block_time := last_observed_block_time s;
     events_to_mint := events_to_mint s; minted_events := minted_events s; invalid_events :=
     invalid_events s; withdrawals := withdrawals s; skipped_blocks := skipped_blocks s;
     native_balance := native_balance s; erc20_balances := erc20_balances s;
     pending_withdrawal_principals := pending_withdrawal_principals s; active_tasks :=
     active_tasks s; last_transaction_price_estimate := last_transaction_price_estimate s;
     deposit_native_fee := deposit_native_fee s; withdrawal_native_fee := withdrawal_native_fee
     s; ledger_suite_manager_id := ledger_suite_manager_id s; erc20_tokens := erc20_tokens s;
     min_max_priority_fee_per_gas := min_max_priority_fee_per_gas s; swap_canister_id :=
     swap_canister_id s |}.
Definition set_native_ledger_id x s :=
  {|
     evm_network := evm_network s; ecdsa_key_name := ecdsa_key_name s; native_ledger_id := x;
     native_index_id := native_index_id s; native_symbol := native_symbol s;
     helper_contract_address := helper_contract_address s; evm_canister_id := evm_canister_id s;
     native_ledger_transfer_fee := native_ledger_transfer_fee s;
     native_minimum_withdrawal_amount := native_minimum_withdrawal_amount s; block_height :=
     block_height s; first_scraped_block_number := first_scraped_block_number s;
     last_scraped_block_number := last_scraped_block_number s; last_observed_block_number :=
     last_observed_block_number s; last_observed_block_time := last_observed_block_time s;
     events_to_mint := events_to_mint s; minted_events := minted_events s; invalid_events :=
     invalid_events s; withdrawals := withdrawals s; skipped_blocks := skipped_blocks s;
     native_balance := native_balance s; erc20_balances := erc20_balances s;
     pending_withdrawal_principals := pending_withdrawal_principals s; active_tasks :=
     active_tasks s; last_transaction_price_estimate := last_transaction_price_estimate s;
     deposit_native_fee := deposit_native_fee s; withdrawal_native_fee := withdrawal_native_fee
     s; ledger_suite_manager_id := ledger_suite_manager_id s; erc20_tokens := erc20_tokens s;
     min_max_priority_fee_per_gas := min_max_priority_fee_per_gas s; swap_canister_id :=
     swap_canister_id s |}.
Definition set_native_index_id x s :=
  {|
     evm_network := evm_network s; ecdsa_key_name := ecdsa_key_name s; native_ledger_id :=
     native_ledger_id s; native_index_id := x; native_symbol := native_symbol s;
     helper_contract_address := helper_contract_address s; evm_canister_id := evm_canister_id s;
     native_ledger_transfer_fee := native_ledger_transfer_fee s;
     native_minimum_withdrawal_amount := native_minimum_withdrawal_amount s; block_height :=
     block_height s; first_scraped_block_number := first_scraped_block_number s;
     last_scraped_block_number := last_scraped_block_number s; last_observed_block_number :=
     last_observed_block_number s; last_observed_block_time := last_observed_block_time s;
     events_to_mint := events_to_mint s; minted_events := minted_events s; invalid_events :=
     invalid_events s; withdrawals := withdrawals s; skipped_blocks := skipped_blocks s;
     native_balance := native_balance s; erc20_balances := erc20_balances s;
     pending_withdrawal_principals := pending_withdrawal_principals s; active_tasks :=
     active_tasks s; last_transaction_price_estimate := last_transaction_price_estimate s;
     deposit_native_fee := deposit_native_fee s; withdrawal_native_fee := withdrawal_native_fee
     s; ledger_suite_manager_id := ledger_suite_manager_id s; erc20_tokens := erc20_tokens s;
     min_max_priority_fee_per_gas := min_max_priority_fee_per_gas s; swap_canister_id :=
     swap_canister_id s |}.
Definition set_native_symbol x s :=
  {|
     evm_network := evm_network s; ecdsa_key_name := ecdsa_key_name s; native_ledger_id :=
     native_ledger_id s; native_index_id := native_index_id s; native_symbol := x;
     helper_contract_address := helper_contract_address s; evm_canister_id := evm_canister_id s;
     native_ledger_transfer_fee := native_ledger_transfer_fee s;
     native_minimum_withdrawal_amount := native_minimum_withdrawal_amount s; block_height :=
     block_height s; first_scraped_block_number := first_scraped_block_number s;
     last_scraped_block_number := last_scraped_block_number s; last_observed_block_number :=
     last_observed_block_number s; last_observed_block_time := last_observed_block_time s;
     events_to_mint := events_to_mint s; minted_events := minted_events s; invalid_events :=
     invalid_events s; withdrawals := withdrawals s; skipped_blocks := skipped_blocks s;
     native_balance := native_balance s; erc20_balances := erc20_balances s;
     pending_withdrawal_principals := pending_withdrawal_principals s; active_tasks :=
     active_tasks s; last_transaction_price_estimate := last_transaction_price_estimate s;
     deposit_native_fee := deposit_native_fee s; withdrawal_native_fee := withdrawal_native_fee
     s; ledger_suite_manager_id := ledger_suite_manager_id s; erc20_tokens := erc20_tokens s;
     min_max_priority_fee_per_gas := min_max_priority_fee_per_gas s; swap_canister_id :=
     swap_canister_id s |}.
Definition set_helper_contract_address x s :=
  {|
     evm_network := evm_network s; ecdsa_key_name := ecdsa_key_name s; native_ledger_id :=
     native_ledger_id s; native_index_id := native_index_id s; native_symbol := native_symbol s;
     helper_contract_address := x; evm_canister_id := evm_canister_id s;
     native_ledger_transfer_fee := native_ledger_transfer_fee s;
     native_minimum_withdrawal_amount := native_minimum_withdrawal_amount s; block_height :=
     block_height s; first_scraped_block_number := first_scraped_block_number s;
     last_scraped_block_number := last_scraped_block_number s; last_observed_block_number :=
     last_observed_block_number s; last_observed_block_time := last_observed_block_time s;
     events_to_mint := events_to_mint s; minted_events := minted_events s; invalid_events :=
     invalid_events s; withdrawals := withdrawals s; skipped_blocks := skipped_blocks s;
     native_balance := native_balance s; erc20_balances := erc20_balances s;
     pending_withdrawal_principals := pending_withdrawal_principals s; active_tasks :=
     active_tasks s; last_transaction_price_estimate := last_transaction_price_estimate s;
     deposit_native_fee := deposit_native_fee s; withdrawal_native_fee := withdrawal_native_fee
     s; ledger_suite_manager_id := ledger_suite_manager_id s; erc20_tokens := erc20_tokens s;
     min_max_priority_fee_per_gas := min_max_priority_fee_per_gas s; swap_canister_id :=
     swap_canister_id s |}.
Definition set_evm_canister_id x s :=
  {|
     evm_network := evm_network s; ecdsa_key_name := ecdsa_key_name s; native_ledger_id :=
     native_ledger_id s; native_index_id := native_index_id s; native_symbol := native_symbol s;
     helper_contract_address := helper_contract_address s; evm_canister_id := x;
     native_ledger_transfer_fee := native_ledger_transfer_fee s;
     native_minimum_withdrawal_amount := native_minimum_withdrawal_amount s; block_height :=
     block_height s; first_scraped_block_number := first_scraped_block_number s;
     last_scraped_block_number := last_scraped_block_number s; last_observed_block_number :=
     last_observed_block_number s; last_observed_block_time := last_observed_block_time s;
     events_to_mint := events_to_mint s; minted_events := minted_events s; invalid_events :=
     invalid_events s; withdrawals := withdrawals s; skipped_blocks := skipped_blocks s;
     native_balance := native_balance s; erc20_balances := erc20_balances s;
     pending_withdrawal_principals := pending_withdrawal_principals s; active_tasks :=
     active_tasks s; last_transaction_price_estimate := last_transaction_price_estimate s;
     deposit_native_fee := deposit_native_fee s; withdrawal_native_fee := withdrawal_native_fee
     s; ledger_suite_manager_id := ledger_suite_manager_id s; erc20_tokens := erc20_tokens s;
     min_max_priority_fee_per_gas := min_max_priority_fee_per_gas s; swap_canister_id :=
     swap_canister_id s |}.
Definition set_native_ledger_transfer_fee x s :=
  {|
     evm_network := evm_network s; ecdsa_key_name := ecdsa_key_name s; native_ledger_id :=
     native_ledger_id s; native_index_id := native_index_id s; native_symbol := native_symbol s;
     helper_contract_address := helper_contract_address s; evm_canister_id := evm_canister_id s;
     native_ledger_transfer_fee := x; native_minimum_withdrawal_amount :=
     native_minimum_withdrawal_amount s; block_height := block_height s;
     first_scraped_block_number := first_scraped_block_number s; last_scraped_block_number :=
     last_scraped_block_number s; last_observed_block_number := last_observed_block_number s;
     last_observed_block_time := last_observed_block_time s; events_to_mint := events_to_mint s;
     minted_events := minted_events s; invalid_events := invalid_events s; withdrawals :=
     withdrawals s; skipped_blocks := skipped_blocks s; native_balance := native_balance s;
     erc20_balances := erc20_balances s; pending_withdrawal_principals :=
     pending_withdrawal_principals s; active_tasks := active_tasks s;
     last_transaction_price_estimate := last_transaction_price_estimate s; deposit_native_fee :=
     deposit_native_fee s; withdrawal_native_fee := withdrawal_native_fee s;
     ledger_suite_manager_id := ledger_suite_manager_id s; erc20_tokens := erc20_tokens s;
     min_max_priority_fee_per_gas := min_max_priority_fee_per_gas s; swap_canister_id :=
     swap_canister_id s |}.
Definition set_native_minimum_withdrawal_amount x s :=
  {|
     evm_network := evm_network s; ecdsa_key_name := ecdsa_key_name s; native_ledger_id :=
     native_ledger_id s; native_index_id := native_index_id s; native_symbol := native_symbol s;
     helper_contract_address := helper_contract_address s; evm_canister_id := evm_canister_id s;
     native_ledger_transfer_fee := native_ledger_transfer_fee s;
     native_minimum_withdrawal_amount := x; block_height := block_height s;
     first_scraped_block_number := first_scraped_block_number s; last_scraped_block_number :=
     last_scraped_block_number s; last_observed_block_number := last_observed_block_number s;
     last_observed_block_time := last_observed_block_time s; events_to_mint := events_to_mint s;
     minted_events := minted_events s; invalid_events := invalid_events s; withdrawals :=
     withdrawals s; skipped_blocks := skipped_blocks s; native_balance := native_balance s;
     erc20_balances := erc20_balances s; pending_withdrawal_principals :=
     pending_withdrawal_principals s; active_tasks := active_tasks s;
     last_transaction_price_estimate := last_transaction_price_estimate s; deposit_native_fee :=
     deposit_native_fee s; withdrawal_native_fee := withdrawal_native_fee s;
     ledger_suite_manager_id := ledger_suite_manager_id s; erc20_tokens := erc20_tokens s;
     min_max_priority_fee_per_gas := min_max_priority_fee_per_gas s; swap_canister_id :=
     swap_canister_id s |}.
Definition set_block_height x s :=
  {|
     evm_network := evm_network s; ecdsa_key_name := ecdsa_key_name s; native_ledger_id :=
     native_ledger_id s; native_index_id := native_index_id s; native_symbol := native_symbol s;
     helper_contract_address := helper_contract_address s; evm_canister_id := evm_canister_id s;
     native_ledger_transfer_fee := native_ledger_transfer_fee s;
     native_minimum_withdrawal_amount := native_minimum_withdrawal_amount s; block_height := x;
     first_scraped_block_number := first_scraped_block_number s; last_scraped_block_number :=
     last_scraped_block_number s; last_observed_block_number := last_observed_block_number s;
     last_observed_block_time := last_observed_block_time s; events_to_mint := events_to_mint s;
     minted_events := minted_events s; invalid_events := invalid_events s; withdrawals :=
     withdrawals s; skipped_blocks := skipped_blocks s; native_balance := native_balance s;
     erc20_balances := erc20_balances s; pending_withdrawal_principals :=
     pending_withdrawal_principals s; active_tasks := active_tasks s;
     last_transaction_price_estimate := last_transaction_price_estimate s; deposit_native_fee :=
     deposit_native_fee s; withdrawal_native_fee := withdrawal_native_fee s;
     ledger_suite_manager_id := ledger_suite_manager_id s; erc20_tokens := erc20_tokens s;
     min_max_priority_fee_per_gas := min_max_priority_fee_per_gas s; swap_canister_id :=
     swap_canister_id s |}.
Definition set_first_scraped_block_number x s :=
  {|
     evm_network := evm_network s; ecdsa_key_name := ecdsa_key_name s; native_ledger_id :=
     native_ledger_id s; native_index_id := native_index_id s; native_symbol := native_symbol s;
     helper_contract_address := helper_contract_address s; evm_canister_id := evm_canister_id s;
     native_ledger_transfer_fee := native_ledger_transfer_fee s;
     native_minimum_withdrawal_amount := native_minimum_withdrawal_amount s; block_height :=
     block_height s; first_scraped_block_number := x; last_scraped_block_number :=
     last_scraped_block_number s; last_observed_block_number := last_observed_block_number s;
     last_observed_block_time := last_observed_block_time s; events_to_mint := events_to_mint s;
     minted_events := minted_events s; invalid_events := invalid_events s; withdrawals :=
     withdrawals s; skipped_blocks := skipped_blocks s; native_balance := native_balance s;
     erc20_balances := erc20_balances s; pending_withdrawal_principals :=
     pending_withdrawal_principals s; active_tasks := active_tasks s;
     last_transaction_price_estimate := last_transaction_price_estimate s; deposit_native_fee :=
     deposit_native_fee s; withdrawal_native_fee := withdrawal_native_fee s;
     ledger_suite_manager_id := ledger_suite_manager_id s; erc20_tokens := erc20_tokens s;
     min_max_priority_fee_per_gas := min_max_priority_fee_per_gas s; swap_canister_id :=
     swap_canister_id s |}.
Definition set_last_scraped_block_number x s :=
  {|
     evm_network := evm_network s; ecdsa_key_name := ecdsa_key_name s; native_ledger_id :=
     native_ledger_id s; native_index_id := native_index_id s; native_symbol := native_symbol s;
     helper_contract_address := helper_contract_address s; evm_canister_id := evm_canister_id s;
     native_ledger_transfer_fee := native_ledger_transfer_fee s;
     native_minimum_withdrawal_amount := native_minimum_withdrawal_amount s; block_height :=
     block_height s; first_scraped_block_number := first_scraped_block_number s;
     last_scraped_block_number := x; last_observed_block_number := last_observed_block_number s;
     last_observed_block_time := last_observed_block_time s; events_to_mint := events_to_mint s;
     minted_events := minted_events s; invalid_events := invalid_events s; withdrawals :=
     withdrawals s; skipped_blocks := skipped_blocks s; native_balance := native_balance s;
     erc20_balances := erc20_balances s; pending_withdrawal_principals :=
     pending_withdrawal_principals s; active_tasks := active_tasks s;
     last_transaction_price_estimate := last_transaction_price_estimate s; deposit_native_fee :=
     deposit_native_fee s; withdrawal_native_fee := withdrawal_native_fee s;
     ledger_suite_manager_id := ledger_suite_manager_id s; erc20_tokens := erc20_tokens s;
     min_max_priority_fee_per_gas := min_max_priority_fee_per_gas s; swap_canister_id :=
     swap_canister_id s |}.
Definition set_last_observed_block_number x s :=
  {|
     evm_network := evm_network s; ecdsa_key_name := ecdsa_key_name s; native_ledger_id :=
     native_ledger_id s; native_index_id := native_index_id s; native_symbol := native_symbol s;
     helper_contract_address := helper_contract_address s; evm_canister_id := evm_canister_id s;
     native_ledger_transfer_fee := native_ledger_transfer_fee s;
     native_minimum_withdrawal_amount := native_minimum_withdrawal_amount s; block_height :=
     block_height s; first_scraped_block_number := first_scraped_block_number s;
     last_scraped_block_number := last_scraped_block_number s; last_observed_block_number := x;
     last_observed_block_time := last_observed_block_time s; events_to_mint := events_to_mint s;
     minted_events := minted_events s; invalid_events := invalid_events s; withdrawals :=
     withdrawals s; skipped_blocks := skipped_blocks s; native_balance := native_balance s;
     erc20_balances := erc20_balances s; pending_withdrawal_principals :=
     pending_withdrawal_principals s; active_tasks := active_tasks s;
     last_transaction_price_estimate := last_transaction_price_estimate s; deposit_native_fee :=
     deposit_native_fee s; withdrawal_native_fee := withdrawal_native_fee s;
     ledger_suite_manager_id := ledger_suite_manager_id s; erc20_tokens := erc20_tokens s;
     min_max_priority_fee_per_gas := min_max_priority_fee_per_gas s; swap_canister_id :=
     swap_canister_id s |}.
Definition set_last_observed_block_time x s :=
  {|
     evm_network := evm_network s; ecdsa_key_name := ecdsa_key_name s; native_ledger_id :=
     native_ledger_id s; native_index_id := native_index_id s; native_symbol := native_symbol s;
     helper_contract_address := helper_contract_address s; evm_canister_id := evm_canister_id s;
     native_ledger_transfer_fee := native_ledger_transfer_fee s;
     native_minimum_withdrawal_amount := native_minimum_withdrawal_amount s; block_height :=
     block_height s; first_scraped_block_number := first_scraped_block_number s;
     last_scraped_block_number := last_scraped_block_number s; last_observed_block_number :=
     last_observed_block_number s; last_observed_block_time := x; events_to_mint :=
     events_to_mint s; minted_events := minted_events s; invalid_events := invalid_events s;
     withdrawals := withdrawals s; skipped_blocks := skipped_blocks s; native_balance :=
     native_balance s; erc20_balances := erc20_balances s; pending_withdrawal_principals :=
     pending_withdrawal_principals s; active_tasks := active_tasks s;
     last_transaction_price_estimate := last_transaction_price_estimate s; deposit_native_fee :=
     deposit_native_fee s; withdrawal_native_fee := withdrawal_native_fee s;
     ledger_suite_manager_id := ledger_suite_manager_id s; erc20_tokens := erc20_tokens s;
     min_max_priority_fee_per_gas := min_max_priority_fee_per_gas s; swap_canister_id :=
     swap_canister_id s |}.
Definition set_events_to_mint x s :=
  {|
     evm_network := evm_network s; ecdsa_key_name := ecdsa_key_name s; native_ledger_id :=
     native_ledger_id s; native_index_id := native_index_id s; native_symbol := native_symbol s;
     helper_contract_address := helper_contract_address s; evm_canister_id := evm_canister_id s;
     native_ledger_transfer_fee := native_ledger_transfer_fee s;
     native_minimum_withdrawal_amount := native_minimum_withdrawal_amount s; block_height :=
     block_height s; first_scraped_block_number := first_scraped_block_number s;
     last_scraped_block_number := last_scraped_block_number s; last_observed_block_number :=
     last_observed_block_number s; last_observed_block_time := last_observed_block_time s;
     events_to_mint := x; minted_events := minted_events s; invalid_events := invalid_events s;
     withdrawals := withdrawals s; skipped_blocks := skipped_blocks s; native_balance :=
     native_balance s; erc20_balances := erc20_balances s; pending_withdrawal_principals :=
     pending_withdrawal_principals s; active_tasks := active_tasks s;
     last_transaction_price_estimate := last_transaction_price_estimate s; deposit_native_fee :=
     deposit_native_fee s; withdrawal_native_fee := withdrawal_native_fee s;
     ledger_suite_manager_id := ledger_suite_manager_id s; erc20_tokens := erc20_tokens s;
     min_max_priority_fee_per_gas := min_max_priority_fee_per_gas s; swap_canister_id :=
     swap_canister_id s |}.
Definition set_minted_events x s :=
  {|
     evm_network := evm_network s; ecdsa_key_name := ecdsa_key_name s; native_ledger_id :=
     native_ledger_id s; native_index_id := native_index_id s; native_symbol := native_symbol s;
     helper_contract_address := helper_contract_address s; evm_canister_id := evm_canister_id s;
     native_ledger_transfer_fee := native_ledger_transfer_fee s;
     native_minimum_withdrawal_amount := native_minimum_withdrawal_amount s; block_height :=
     block_height s; first_scraped_block_number := first_scraped_block_number s;
     last_scraped_block_number := last_scraped_block_number s; last_observed_block_number :=
     last_observed_block_number s; last_observed_block_time := last_observed_block_time s;
     events_to_mint := events_to_mint s; minted_events := x; invalid_events := invalid_events s;
     withdrawals := withdrawals s; skipped_blocks := skipped_blocks s; native_balance :=
     native_balance s; erc20_balances := erc20_balances s; pending_withdrawal_principals :=
     pending_withdrawal_principals s; active_tasks := active_tasks s;
     last_transaction_price_estimate := last_transaction_price_estimate s; deposit_native_fee :=
     deposit_native_fee s; withdrawal_native_fee := withdrawal_native_fee s;
     ledger_suite_manager_id := ledger_suite_manager_id s; erc20_tokens := erc20_tokens s;
     min_max_priority_fee_per_gas := min_max_priority_fee_per_gas s; swap_canister_id :=
     swap_canister_id s |}.
Definition set_invalid_events x s :=
  {|
     evm_network := evm_network s; ecdsa_key_name := ecdsa_key_name s; native_ledger_id :=
     native_ledger_id s; native_index_id := native_index_id s; native_symbol := native_symbol s;
     helper_contract_address := helper_contract_address s; evm_canister_id := evm_canister_id s;
     native_ledger_transfer_fee := native_ledger_transfer_fee s;
     native_minimum_withdrawal_amount := native_minimum_withdrawal_amount s; block_height :=
     block_height s; first_scraped_block_number := first_scraped_block_number s;
     last_scraped_block_number := last_scraped_block_number s; last_observed_block_number :=
     last_observed_block_number s; last_observed_block_time := last_observed_block_time s;
     events_to_mint := events_to_mint s; minted_events := minted_events s; invalid_events := x;
     withdrawals := withdrawals s; skipped_blocks := skipped_blocks s; native_balance :=
     native_balance s; erc20_balances := erc20_balances s; pending_withdrawal_principals :=
     pending_withdrawal_principals s; active_tasks := active_tasks s;
     last_transaction_price_estimate := last_transaction_price_estimate s; deposit_native_fee :=
     deposit_native_fee s; withdrawal_native_fee := withdrawal_native_fee s;
     ledger_suite_manager_id := ledger_suite_manager_id s; erc20_tokens := erc20_tokens s;
     min_max_priority_fee_per_gas := min_max_priority_fee_per_gas s; swap_canister_id :=
     swap_canister_id s |}.
Definition set_withdrawals x s :=
  {|
     evm_network := evm_network s; ecdsa_key_name := ecdsa_key_name s; native_ledger_id :=
     native_ledger_id s; native_index_id := native_index_id s; native_symbol := native_symbol s;
     helper_contract_address := helper_contract_address s; evm_canister_id := evm_canister_id s;
     native_ledger_transfer_fee := native_ledger_transfer_fee s;
     native_minimum_withdrawal_amount := native_minimum_withdrawal_amount s; block_height :=
     block_height s; first_scraped_block_number := first_scraped_block_number s;
     last_scraped_block_number := last_scraped_block_number s; last_observed_block_number :=
     last_observed_block_number s; last_observed_block_time := last_observed_block_time s;
     events_to_mint := events_to_mint s; minted_events := minted_events s; invalid_events :=
     invalid_events s; withdrawals := x; skipped_blocks := skipped_blocks s; native_balance :=
     native_balance s; erc20_balances := erc20_balances s; pending_withdrawal_principals :=
     pending_withdrawal_principals s; active_tasks := active_tasks s;
     last_transaction_price_estimate := last_transaction_price_estimate s; deposit_native_fee :=
     deposit_native_fee s; withdrawal_native_fee := withdrawal_native_fee s;
     ledger_suite_manager_id := ledger_suite_manager_id s; erc20_tokens := erc20_tokens s;
     min_max_priority_fee_per_gas := min_max_priority_fee_per_gas s; swap_canister_id :=
     swap_canister_id s |}.
Definition set_skipped_blocks x s :=
  {|
     evm_network := evm_network s; ecdsa_key_name := ecdsa_key_name s; native_ledger_id :=
     native_ledger_id s; native_index_id := native_index_id s; native_symbol := native_symbol s;
     helper_contract_address := helper_contract_address s; evm_canister_id := evm_canister_id s;
     native_ledger_transfer_fee := native_ledger_transfer_fee s;
     native_minimum_withdrawal_amount := native_minimum_withdrawal_amount s; block_height :=
     block_height s; first_scraped_block_number := first_scraped_block_number s;
     last_scraped_block_number := last_scraped_block_number s; last_observed_block_number :=
     last_observed_block_number s; last_observed_block_time := last_observed_block_time s;
     events_to_mint := events_to_mint s; minted_events := minted_events s; invalid_events :=
     invalid_events s; withdrawals := withdrawals s; skipped_blocks := x; native_balance :=
     native_balance s; erc20_balances := erc20_balances s; pending_withdrawal_principals :=
     pending_withdrawal_principals s; active_tasks := active_tasks s;
     last_transaction_price_estimate := last_transaction_price_estimate s; deposit_native_fee :=
     deposit_native_fee s; withdrawal_native_fee := withdrawal_native_fee s;
     ledger_suite_manager_id := ledger_suite_manager_id s; erc20_tokens := erc20_tokens s;
     min_max_priority_fee_per_gas := min_max_priority_fee_per_gas s; swap_canister_id :=
     swap_canister_id s |}.
Definition set_native_balance x s :=
  {|
     evm_network := evm_network s; ecdsa_key_name := ecdsa_key_name s; native_ledger_id :=
     native_ledger_id s; native_index_id := native_index_id s; native_symbol := native_symbol s;
     helper_contract_address := helper_contract_address s; evm_canister_id := evm_canister_id s;
     native_ledger_transfer_fee := native_ledger_transfer_fee s;
     native_minimum_withdrawal_amount := native_minimum_withdrawal_amount s; block_height :=
     block_height s; first_scraped_block_number := first_scraped_block_number s;
     last_scraped_block_number := last_scraped_block_number s; last_observed_block_number :=
     last_observed_block_number s; last_observed_block_time := last_observed_block_time s;
     events_to_mint := events_to_mint s; minted_events := minted_events s; invalid_events :=
     invalid_events s; withdrawals := withdrawals s; skipped_blocks := skipped_blocks s;
     native_balance := x; erc20_balances := erc20_balances s; pending_withdrawal_principals :=
     pending_withdrawal_principals s; active_tasks := active_tasks s;
     last_transaction_price_estimate := last_transaction_price_estimate s; deposit_native_fee :=
     deposit_native_fee s; withdrawal_native_fee := withdrawal_native_fee s;
     ledger_suite_manager_id := ledger_suite_manager_id s; erc20_tokens := erc20_tokens s;
     min_max_priority_fee_per_gas := min_max_priority_fee_per_gas s; swap_canister_id :=
     swap_canister_id s |}.
Definition set_erc20_balances x s :=
  {|
     evm_network := evm_network s; ecdsa_key_name := ecdsa_key_name s; native_ledger_id :=
     native_ledger_id s; native_index_id := native_index_id s; native_symbol := native_symbol s;
     helper_contract_address := helper_contract_address s; evm_canister_id := evm_canister_id s;
     native_ledger_transfer_fee := native_ledger_transfer_fee s;
     native_minimum_withdrawal_amount := native_minimum_withdrawal_amount s; block_height :=
     block_height s; first_scraped_block_number := first_scraped_block_number s;
     last_scraped_block_number := last_scraped_block_number s; last_observed_block_number :=
     last_observed_block_number s; last_observed_block_time := last_observed_block_time s;
     events_to_mint := events_to_mint s; minted_events := minted_events s; invalid_events :=
     invalid_events s; withdrawals := withdrawals s; skipped_blocks := skipped_blocks s;
     native_balance := native_balance s; erc20_balances := x; pending_withdrawal_principals :=
     pending_withdrawal_principals s; active_tasks := active_tasks s;
     last_transaction_price_estimate := last_transaction_price_estimate s; deposit_native_fee :=
     deposit_native_fee s; withdrawal_native_fee := withdrawal_native_fee s;
     ledger_suite_manager_id := ledger_suite_manager_id s; erc20_tokens := erc20_tokens s;
     min_max_priority_fee_per_gas := min_max_priority_fee_per_gas s; swap_canister_id :=
     swap_canister_id s |}.
Definition set_pending_withdrawal_principals x s :=
  {|
     evm_network := evm_network s; ecdsa_key_name := ecdsa_key_name s; native_ledger_id :=
     native_ledger_id s; native_index_id := native_index_id s; native_symbol := native_symbol s;
     helper_contract_address := helper_contract_address s; evm_canister_id := evm_canister_id s;
     native_ledger_transfer_fee := native_ledger_transfer_fee s;
     native_minimum_withdrawal_amount := native_minimum_withdrawal_amount s; block_height :=
     block_height s; first_scraped_block_number := first_scraped_block_number s;
     last_scraped_block_number := last_scraped_block_number s; last_observed_block_number :=
     last_observed_block_number s; last_observed_block_time := last_observed_block_time s;
     events_to_mint := events_to_mint s; minted_events := minted_events s; invalid_events :=
     invalid_events s; withdrawals := withdrawals s; skipped_blocks := skipped_blocks s;
     native_balance := native_balance s; erc20_balances := erc20_balances s;
     pending_withdrawal_principals := x; active_tasks := active_tasks s;
     last_transaction_price_estimate := last_transaction_price_estimate s; deposit_native_fee :=
     deposit_native_fee s; withdrawal_native_fee := withdrawal_native_fee s;
     ledger_suite_manager_id := ledger_suite_manager_id s; erc20_tokens := erc20_tokens s;
     min_max_priority_fee_per_gas := min_max_priority_fee_per_gas s; swap_canister_id :=
     swap_canister_id s |}.
Definition set_active_tasks x s :=
  {|
     evm_network := evm_network s; ecdsa_key_name := ecdsa_key_name s; native_ledger_id :=
     native_ledger_id s; native_index_id := native_index_id s; native_symbol := native_symbol s;
     helper_contract_address := helper_contract_address s; evm_canister_id := evm_canister_id s;
     native_ledger_transfer_fee := native_ledger_transfer_fee s;
     native_minimum_withdrawal_amount := native_minimum_withdrawal_amount s; block_height :=
     block_height s; first_scraped_block_number := first_scraped_block_number s;
     last_scraped_block_number := last_scraped_block_number s; last_observed_block_number :=
     last_observed_block_number s; last_observed_block_time := last_observed_block_time s;
     events_to_mint := events_to_mint s; minted_events := minted_events s; invalid_events :=
     invalid_events s; withdrawals := withdrawals s; skipped_blocks := skipped_blocks s;
     native_balance := native_balance s; erc20_balances := erc20_balances s;
     pending_withdrawal_principals := pending_withdrawal_principals s; active_tasks := x;
     last_transaction_price_estimate := last_transaction_price_estimate s; deposit_native_fee :=
     deposit_native_fee s; withdrawal_native_fee := withdrawal_native_fee s;
     ledger_suite_manager_id := ledger_suite_manager_id s; erc20_tokens := erc20_tokens s;
     min_max_priority_fee_per_gas := min_max_priority_fee_per_gas s; swap_canister_id :=
     swap_canister_id s |}.
Definition set_last_transaction_price_estimate x s :=
  {|
     evm_network := evm_network s; ecdsa_key_name := ecdsa_key_name s; native_ledger_id :=
     native_ledger_id s; native_index_id := native_index_id s; native_symbol := native_symbol s;
     helper_contract_address := helper_contract_address s; evm_canister_id := evm_canister_id s;
     native_ledger_transfer_fee := native_ledger_transfer_fee s;
     native_minimum_withdrawal_amount := native_minimum_withdrawal_amount s; block_height :=
     block_height s; first_scraped_block_number := first_scraped_block_number s;
     last_scraped_block_number := last_scraped_block_number s; last_observed_block_number :=
     last_observed_block_number s; last_observed_block_time := last_observed_block_time s;
     events_to_mint := events_to_mint s; minted_events := minted_events s; invalid_events :=
     invalid_events s; withdrawals := withdrawals s; skipped_blocks := skipped_blocks s;
     native_balance := native_balance s; erc20_balances := erc20_balances s;
     pending_withdrawal_principals := pending_withdrawal_principals s; active_tasks :=
     active_tasks s; last_transaction_price_estimate := x; deposit_native_fee :=
     deposit_native_fee s; withdrawal_native_fee := withdrawal_native_fee s;
     ledger_suite_manager_id := ledger_suite_manager_id s; erc20_tokens := erc20_tokens s;
     min_max_priority_fee_per_gas := min_max_priority_fee_per_gas s; swap_canister_id :=
     swap_canister_id s |}.
Definition set_deposit_native_fee x s :=
  {|
     evm_network := evm_network s; ecdsa_key_name := ecdsa_key_name s; native_ledger_id :=
     native_ledger_id s; native_index_id := native_index_id s; native_symbol := native_symbol s;
     helper_contract_address := helper_contract_address s; evm_canister_id := evm_canister_id s;
     native_ledger_transfer_fee := native_ledger_transfer_fee s;
     native_minimum_withdrawal_amount := native_minimum_withdrawal_amount s; block_height :=
     block_height s; first_scraped_block_number := first_scraped_block_number s;
     last_scraped_block_number := last_scraped_block_number s; last_observed_block_number :=
     last_observed_block_number s; last_observed_block_time := last_observed_block_time s;
     events_to_mint := events_to_mint s; minted_events := minted_events s; invalid_events :=
     invalid_events s; withdrawals := withdrawals s; skipped_blocks := skipped_blocks s;
     native_balance := native_balance s; erc20_balances := erc20_balances s;
     pending_withdrawal_principals := pending_withdrawal_principals s; active_tasks :=
     active_tasks s; last_transaction_price_estimate := last_transaction_price_estimate s;
     deposit_native_fee := x; withdrawal_native_fee := withdrawal_native_fee s;
     ledger_suite_manager_id := ledger_suite_manager_id s; erc20_tokens := erc20_tokens s;
     min_max_priority_fee_per_gas := min_max_priority_fee_per_gas s; swap_canister_id :=
     swap_canister_id s |}.
Definition set_withdrawal_native_fee x s :=
  {|
     evm_network := evm_network s; ecdsa_key_name := ecdsa_key_name s; native_ledger_id :=
     native_ledger_id s; native_index_id := native_index_id s; native_symbol := native_symbol s;
     helper_contract_address := helper_contract_address s; evm_canister_id := evm_canister_id s;
     native_ledger_transfer_fee := native_ledger_transfer_fee s;
     native_minimum_withdrawal_amount := native_minimum_withdrawal_amount s; block_height :=
     block_height s; first_scraped_block_number := first_scraped_block_number s;
     last_scraped_block_number := last_scraped_block_number s; last_observed_block_number :=
     last_observed_block_number s; last_observed_block_time := last_observed_block_time s;
     events_to_mint := events_to_mint s; minted_events := minted_events s; invalid_events :=
     invalid_events s; withdrawals := withdrawals s; skipped_blocks := skipped_blocks s;
     native_balance := native_balance s; erc20_balances := erc20_balances s;
     pending_withdrawal_principals := pending_withdrawal_principals s; active_tasks :=
     active_tasks s; last_transaction_price_estimate := last_transaction_price_estimate s;
     deposit_native_fee := deposit_native_fee s; withdrawal_native_fee := x;
     ledger_suite_manager_id := ledger_suite_manager_id s; erc20_tokens := erc20_tokens s;
     min_max_priority_fee_per_gas := min_max_priority_fee_per_gas s; swap_canister_id :=
     swap_canister_id s |}.
Definition set_ledger_suite_manager_id x s :=
  {|
     evm_network := evm_network s; ecdsa_key_name := ecdsa_key_name s; native_ledger_id :=
     native_ledger_id s; native_index_id := native_index_id s; native_symbol := native_symbol s;
     helper_contract_address := helper_contract_address s; evm_canister_id := evm_canister_id s;
     native_ledger_transfer_fee := native_ledger_transfer_fee s;
     native_minimum_withdrawal_amount := native_minimum_withdrawal_amount s; block_height :=
     block_height s; first_scraped_block_number := first_scraped_block_number s;
     last_scraped_block_number := last_scraped_block_number s; last_observed_block_number :=
     last_observed_block_number s; last_observed_block_time := last_observed_block_time s;
     events_to_mint := events_to_mint s; minted_events := minted_events s; invalid_events :=
     invalid_events s; withdrawals := withdrawals s; skipped_blocks := skipped_blocks s;
     native_balance := native_balance s; erc20_balances := erc20_balances s;
     pending_withdrawal_principals := pending_withdrawal_principals s; active_tasks :=
     active_tasks s; last_transaction_price_estimate := last_transaction_price_estimate s;
     deposit_native_fee := deposit_native_fee s; withdrawal_native_fee := withdrawal_native_fee
     s; ledger_suite_manager_id := x; erc20_tokens := erc20_tokens s;
     min_max_priority_fee_per_gas := min_max_priority_fee_per_gas s; swap_canister_id :=
     swap_canister_id s |}.
Definition set_erc20_tokens x s :=
  {|
     evm_network := evm_network s; ecdsa_key_name := ecdsa_key_name s; native_ledger_id :=
     native_ledger_id s; native_index_id := native_index_id s; native_symbol := native_symbol s;
     helper_contract_address := helper_contract_address s; evm_canister_id := evm_canister_id s;
     native_ledger_transfer_fee := native_ledger_transfer_fee s;
     native_minimum_withdrawal_amount := native_minimum_withdrawal_amount s; block_height :=
     block_height s; first_scraped_block_number := first_scraped_block_number s;
     last_scraped_block_number := last_scraped_block_number s; last_observed_block_number :=
     last_observed_block_number s; last_observed_block_time := last_observed_block_time s;
     events_to_mint := events_to_mint s; minted_events := minted_events s; invalid_events :=
     invalid_events s; withdrawals := withdrawals s; skipped_blocks := skipped_blocks s;
     native_balance := native_balance s; erc20_balances := erc20_balances s;
     pending_withdrawal_principals := pending_withdrawal_principals s; active_tasks :=
     active_tasks s; last_transaction_price_estimate := last_transaction_price_estimate s;
     deposit_native_fee := deposit_native_fee s; withdrawal_native_fee := withdrawal_native_fee
     s; ledger_suite_manager_id := ledger_suite_manager_id s; erc20_tokens := x;
     min_max_priority_fee_per_gas := min_max_priority_fee_per_gas s; swap_canister_id :=
     swap_canister_id s |}.
Definition set_min_max_priority_fee_per_gas x s :=
  {|
     evm_network := evm_network s; ecdsa_key_name := ecdsa_key_name s; native_ledger_id :=
     native_ledger_id s; native_index_id := native_index_id s; native_symbol := native_symbol s;
     helper_contract_address := helper_contract_address s; evm_canister_id := evm_canister_id s;
     native_ledger_transfer_fee := native_ledger_transfer_fee s;
     native_minimum_withdrawal_amount := native_minimum_withdrawal_amount s; block_height :=
     block_height s; first_scraped_block_number := first_scraped_block_number s;
     last_scraped_block_number := last_scraped_block_number s; last_observed_block_number :=
     last_observed_block_number s; last_observed_block_time := last_observed_block_time s;
     events_to_mint := events_to_mint s; minted_events := minted_events s; invalid_events :=
     invalid_events s; withdrawals := withdrawals s; skipped_blocks := skipped_blocks s;
     native_balance := native_balance s; erc20_balances := erc20_balances s;
     pending_withdrawal_principals := pending_withdrawal_principals s; active_tasks :=
     active_tasks s; last_transaction_price_estimate := last_transaction_price_estimate s;
     deposit_native_fee := deposit_native_fee s; withdrawal_native_fee := withdrawal_native_fee
     s; ledger_suite_manager_id := ledger_suite_manager_id s; erc20_tokens := erc20_tokens s;
     min_max_priority_fee_per_gas := x; swap_canister_id := swap_canister_id s |}.
Definition set_swap_canister_id x s :=
  {|
     evm_network := evm_network s; ecdsa_key_name := ecdsa_key_name s; native_ledger_id :=
     native_ledger_id s; native_index_id := native_index_id s; native_symbol := native_symbol s;
     helper_contract_address := helper_contract_address s; evm_canister_id := evm_canister_id s;
     native_ledger_transfer_fee := native_ledger_transfer_fee s;
     native_minimum_withdrawal_amount := native_minimum_withdrawal_amount s; block_height :=
     block_height s; first_scraped_block_number := first_scraped_block_number s;
     last_scraped_block_number := last_scraped_block_number s; last_observed_block_number :=
     last_observed_block_number s; last_observed_block_time := last_observed_block_time s;
     events_to_mint := events_to_mint s; minted_events := minted_events s; invalid_events :=
     invalid_events s; withdrawals := withdrawals s; skipped_blocks := skipped_blocks s;
     native_balance := native_balance s; erc20_balances := erc20_balances s;
     pending_withdrawal_principals := pending_withdrawal_principals s; active_tasks :=
     active_tasks s; last_transaction_price_estimate := last_transaction_price_estimate s;
     deposit_native_fee := deposit_native_fee s; withdrawal_native_fee := withdrawal_native_fee
     s; ledger_suite_manager_id := ledger_suite_manager_id s; erc20_tokens := erc20_tokens s;
     min_max_priority_fee_per_gas := min_max_priority_fee_per_gas s; swap_canister_id := x |}.

(** state.rs 73-84 [InvalidStateError] (messages dropped) *)
Inductive InvalidStateError :=
| InvalidTransactionNonce | InvalidEcdsaKeyName | InvalidLedgerId
| InvalidHelperContractAddress | InvalidMinimumWithdrawalAmount
| InvalidMinimumLedgerTransferFee | InvalidLastScrapedBlockNumber
| InvalidMinimumMaximumPriorityFeePerGas | InvalidFeeInput.

(** Rust [char::is_whitespace] (Unicode White_Space) *)
Definition is_whitespace (c : N) : bool :=
  ((9 <=? c) && (c <=? 13)) || (c =? 32) || (c =? 133) || (c =? 160) || (c =? 5760)
  || ((8192 <=? c) && (c <=? 8202)) || (c =? 8232) || (c =? 8233) || (c =? 8239)
  || (c =? 8287) || (c =? 12288).
(** [s.trim().is_empty()] *)
Definition is_blank (s : text) : bool := forallb is_whitespace s.

(** state.rs 177-211 [validate_config]; [None] is [Ok(())] *)
Definition validate_config (s : State) : option InvalidStateError :=
  if is_blank (ecdsa_key_name s) then Some InvalidEcdsaKeyName
  else if bytes_eqb (native_ledger_id s) ANONYMOUS then Some InvalidLedgerId
  else if (match helper_contract_address s with
           | Some a => a =? ADDRESS_ZERO | None => false end)
  then Some InvalidHelperContractAddress
  else if native_minimum_withdrawal_amount s =? 0 then Some InvalidMinimumWithdrawalAmount
  else if native_minimum_withdrawal_amount s <? native_ledger_transfer_fee s
  then Some InvalidMinimumWithdrawalAmount
  else None.

(** state.rs 222-226 [max_block_spread_for_logs_scraping] *)
Definition MAX_BLOCK_SPREAD : N := 1000.

(** state.rs 228-230 [events_to_mint()] *)
Definition events_to_mint_list (s : State) : list ReceivedDepositEvent := bvals (events_to_mint s).
(** state.rs 232-234 [has_events_to_mint] *)
Definition has_events_to_mint (s : State) : bool :=
  match events_to_mint s with [] => false | _ => true end.

(** ** Balances *)

(** state.rs 636-644 [eth_balance_add] *)
Definition eth_balance_add (v : N) (b : NativeBalance) : res NativeBalance :=
  x <- expect (checked_add (nb_balance b) v) "BUG: overflow when adding" ;;
  Done {| nb_balance := x;
          nb_total_effective_tx_fees := nb_total_effective_tx_fees b;
          nb_total_unspent_tx_fees := nb_total_unspent_tx_fees b |}.
(** state.rs 646-653 [eth_balance_sub] *)
Definition eth_balance_sub (v : N) (b : NativeBalance) : res NativeBalance :=
  x <- expect (checked_sub (nb_balance b) v) "BUG: underflow when subtracting" ;;
  Done {| nb_balance := x;
          nb_total_effective_tx_fees := nb_total_effective_tx_fees b;
          nb_total_unspent_tx_fees := nb_total_unspent_tx_fees b |}.
(** state.rs 655-665 [total_effective_tx_fees_add] *)
Definition total_effective_tx_fees_add (v : N) (b : NativeBalance) : res NativeBalance :=
  x <- expect (checked_add (nb_total_effective_tx_fees b) v) "BUG: overflow when adding" ;;
  Done {| nb_balance := nb_balance b;
          nb_total_effective_tx_fees := x;
          nb_total_unspent_tx_fees := nb_total_unspent_tx_fees b |}.
(** state.rs 667-677 [total_unspent_tx_fees_add] *)
Definition total_unspent_tx_fees_add (v : N) (b : NativeBalance) : res NativeBalance :=
  x <- expect (checked_add (nb_total_unspent_tx_fees b) v) "BUG: overflow when adding" ;;
  Done {| nb_balance := nb_balance b;
          nb_total_effective_tx_fees := nb_total_effective_tx_fees b;
          nb_total_unspent_tx_fees := x |}.

(** state.rs 697-702 [balance_of] *)
Definition erc20_balance_of (c : Address) (b : bmap Address N) : N :=
  match bget c b with Some v => v | None => 0 end.
(** state.rs 704-721 [erc20_add] *)
Definition erc20_add (c : Address) (v : N) (b : bmap Address N) : res (bmap Address N) :=
  match bget c b with
  | Some p =>
      x <- expect (checked_add p v) "BUG: overflow when adding" ;; Done (binsert c x b)
  | None => Done (binsert c v b)
  end.
(** state.rs 723-738 [erc20_sub] *)
Definition erc20_sub (c : Address) (v : N) (b : bmap Address N) : res (bmap Address N) :=
  p <- expect (bget c b) "BUG: Cannot subtract from a missing ERC-20 balance" ;;
  x <- expect (checked_sub p v) "BUG: underflow when subtracting" ;;
  Done (binsert c x b).

(** ** Deposits *)

(** state.rs 349-356 [update_balance_upon_deposit] *)
Definition update_balance_upon_deposit (e : ReceivedDepositEvent) (s : State) : res State :=
  match e with
  | DepNative e =>
      b <- eth_balance_add (ne_value e) (native_balance s) ;; Done (set_native_balance b s)
  | DepErc20 e =>
      b <- erc20_add (ee_erc20_contract_address e) (ee_value e) (erc20_balances s) ;;
      Done (set_erc20_balances b s)
  end.

(** state.rs 239-248 [record_quarantined_deposit] (the returned flag is unused) *)
Definition record_quarantined_deposit (src : EventSource) (s : State) : State :=
  let s1 := set_events_to_mint (bremove src (events_to_mint s)) s in
  if bmem src (invalid_events s1) then s1
  else set_invalid_events (binsert src QuarantinedDepositReason (invalid_events s1)) s1.

(** state.rs 250-269 [record_event_to_mint] *)
Definition record_event_to_mint (e : ReceivedDepositEvent) (s : State) : res State :=
  let src := dep_source e in
  _ <- rassert (negb (bmem src (events_to_mint s)))
         "there must be no two different events with the same source" ;;
  _ <- rassert (negb (bmem src (minted_events s))) "state.rs:256" ;;
  _ <- rassert (negb (bmem src (invalid_events s))) "state.rs:257" ;;
  _ <- match e with
       | DepErc20 x => rassert (dmkm_contains_alt (ee_erc20_contract_address x) (erc20_tokens s))
                         "BUG: unsupported ERC-20 contract address in event"
       | DepNative _ => Done tt
       end ;;
  update_balance_upon_deposit e (set_events_to_mint (binsert src e (events_to_mint s)) s).

(** state.rs 271-277 [record_skipped_block] *)
Definition record_skipped_block (b : N) (s : State) : res State :=
  _ <- rassert (negb (bmem b (skipped_blocks s))) "BUG: block was already skipped" ;;
  Done (set_skipped_blocks (binsert b tt (skipped_blocks s)) s).

(** state.rs 279-296 [record_invalid_deposit] *)
Definition record_invalid_deposit (src : EventSource) (reason : text) (s : State) : res State :=
  _ <- rassert (negb (bmem src (events_to_mint s)))
         "attempted to mark an accepted event as invalid" ;;
  _ <- rassert (negb (bmem src (minted_events s)))
         "attempted to mark a minted event as invalid" ;;
  if bmem src (invalid_events s) then Done s
  else Done (set_invalid_events (binsert src (InvalidDepositReason reason) (invalid_events s)) s).

(** state.rs 298-326 [record_successful_mint] *)
Definition record_successful_mint (src : EventSource) (symbol : text) (block : N)
  (contract : option Address) (s : State) : res State :=
  _ <- rassert (negb (bmem src (invalid_events s)))
         "attempted to mint an event previously marked as invalid" ;;
  e <- expect (bget src (events_to_mint s)) "attempted to mint Twin tokens for an unknown event" ;;
  let s1 := set_events_to_mint (bremove src (events_to_mint s)) s in
  _ <- rassert (negb (bmem src (minted_events s1)))
         "attempted to mint native twice for the same event" ;;
  Done (set_minted_events
          (binsert src {| me_deposit_event := e; me_mint_block_index := block;
                          me_token_symbol := symbol; me_erc20_contract_address := contract |}
             (minted_events s1)) s1).

(** ** Withdrawals *)

(** state.rs 328-337 [record_erc20_withdrawal_request] *)
Definition record_erc20_withdrawal_request (r : Erc20WithdrawalRequest) (s : State) : res State :=
  _ <- rassert (dmkm_contains_alt (ew_erc20_contract_address r) (erc20_tokens s))
         "BUG: unsupported ERC-20 token" ;;
  w <- record_withdrawal_request (WErc20 r) (withdrawals s) ;;
  Done (set_withdrawals w s).

(** state.rs 371-378: the fee charged for a finalized transaction *)
Definition charged_tx_fee (r : WithdrawalRequest) (t : Tx) : res N :=
  match r with
  | WNative n => expect (checked_sub (nw_withdrawal_amount n) (tx_amount t))
      "BUG: withdrawal amount MUST always be at least the transaction amount"
  | WErc20 e => Done (ew_max_transaction_fee e)
  end.

(** state.rs 358-402 [update_balance_upon_withdrawal] *)
Definition update_balance_upon_withdrawal (b : N) (r : Receipt) (s : State) : res State :=
  tx_fee <- effective_transaction_fee r ;;
  f <- expect (mkm_get_alt b (finalized (withdrawals s))) "BUG: missing finalized transaction" ;;
  let t := st_tx (ft_tx f) in
  req <- expect (bget b (processed (withdrawals s))) "BUG: missing withdrawal request" ;;
  charged <- charged_tx_fee req t ;;
  unspent <- expect (checked_sub charged tx_fee)
    "BUG: charged transaction fee MUST always be at least the effective transaction fee" ;;
  debited <- match rc_status r with
             | TxSuccess => expect (checked_add (tx_amount t) tx_fee)
                              "BUG: debited amount always fits into U256"
             | TxFailure => Done tx_fee
             end ;;
  nb1 <- eth_balance_sub debited (native_balance s) ;;
  nb2 <- total_effective_tx_fees_add tx_fee nb1 ;;
  nb3 <- total_unspent_tx_fees_add unspent nb2 ;;
  let s1 := set_native_balance nb3 s in
  match rc_status r, tx_data t with
  | TxSuccess, _ :: _ =>
      d <- calldata_decode (tx_data t) ;;
      match d with
      | RErr _ => Panic "BUG: failed to decode transaction data from transaction issued by minter"
      | ROk (_, value) =>
          eb <- erc20_sub (tx_destination t) value (erc20_balances s1) ;;
          Done (set_erc20_balances eb s1)
      end
  | _, _ => Done s1
  end.

(** state.rs 339-347 [record_finalized_transaction] *)
Definition state_record_finalized_transaction (b : N) (r : Receipt) (s : State) : res State :=
  w <- record_finalized_transaction b r (withdrawals s) ;;
  update_balance_upon_withdrawal b r (set_withdrawals w s).

(** ** Tokens *)

(** state.rs 404-413 [find_erc20_token_by_ledger_id] *)
Definition find_erc20_token_by_ledger_id (l : Principal) (s : State) : option ERC20Token :=
  option_map (fun x => {| et_chain_id := evm_network s; et_contract_address := fst x;
                          et_symbol := snd x; et_ledger_id := l |})
    (dmkm_get_entry l (erc20_tokens s)).

(** state.rs 415-424 [supported_erc20_tokens] *)
Definition supported_erc20_tokens (s : State) : res (list ERC20Token) :=
  l <- dmkm_iter (erc20_tokens s) ;;
  Done (map (fun x => {| et_chain_id := evm_network s; et_contract_address := snd (fst x);
                         et_symbol := snd x; et_ledger_id := fst (fst x) |}) l).

(** state.rs 426-452 [record_add_erc20_token] *)
Definition record_add_erc20_token (t : ERC20Token) (s : State) : res State :=
  _ <- rassert (network_eqb (evm_network s) (et_chain_id t)) "ERROR: Expected network" ;;
  l <- supported_erc20_tokens s ;;
  _ <- rassert (match filter (fun x => bytes_eqb (et_symbol x) (et_symbol t)) l with
                | [] => true | _ => false end)
         "ERROR: ERC20 token symbol is already used" ;;
  m <- expect_inserted
         (dmkm_try_insert (et_ledger_id t) (et_contract_address t) (et_symbol t) (erc20_tokens s))
         "ERROR: some ERC20 tokens use the same ERC20 ledger ID or ERC-20 address" ;;
  Done (set_erc20_tokens m s).

(** ** Upgrade *)

(** Run [f] on a converted optional [Nat]; [e] when the conversion fails. *)
Definition upd_nat (o : option N) (e : InvalidStateError) (f : N -> State -> State)
  (r : result State InvalidStateError) : result State InvalidStateError :=
  match r with
  | RErr x => RErr x
  | ROk s =>
      match o with
      | None => ROk s
      | Some n => match amount_of_nat n with
                  | Some v => ROk (f v s)
                  | None => RErr e
                  end
      end
  end.
Definition upd_opt {A} (o : option A) (f : A -> State -> State)
  (r : result State InvalidStateError) : result State InvalidStateError :=
  match r, o with ROk s, Some a => ROk (f a s) | _, _ => r end.

(** "If fee is set to zero it should be remapped to None" (state.rs 559-563, 574-578,
    lifecycle.rs 112-116, 123-127) *)
Definition fee_option (n : N) : option N := if n =? 0 then None else Some n.

(** state.rs 492-588 [upgrade] *)
Definition upgrade (a : UpgradeArg) (s : State) : result State InvalidStateError :=
  let r := ROk s in
  let r := upd_nat (ua_next_transaction_nonce a) InvalidTransactionNonce
             (fun v s => set_withdrawals (update_next_transaction_nonce v (withdrawals s)) s) r in
  let r := upd_nat (ua_native_minimum_withdrawal_amount a) InvalidMinimumWithdrawalAmount
             set_native_minimum_withdrawal_amount r in
  let r := upd_nat (ua_native_ledger_transfer_fee a) InvalidMinimumLedgerTransferFee
             set_native_ledger_transfer_fee r in
  let r := upd_nat (ua_min_max_priority_fee_per_gas a) InvalidMinimumMaximumPriorityFeePerGas
             set_min_max_priority_fee_per_gas r in
  let r := match r, ua_helper_contract_address a with
           | ROk s, Some txt => match address_of_text txt with
                                | Some x => ROk (set_helper_contract_address (Some x) s)
                                | None => RErr InvalidHelperContractAddress
                                end
           | _, _ => r
           end in
  let r := upd_nat (ua_last_scraped_block_number a) InvalidLastScrapedBlockNumber
             set_last_scraped_block_number r in
  let r := upd_opt (ua_block_height a) set_block_height r in
  let r := upd_opt (ua_evm_rpc_id a) set_evm_canister_id r in
  let r := upd_nat (ua_deposit_native_fee a) InvalidFeeInput
             (fun v => set_deposit_native_fee (fee_option v)) r in
  let r := upd_nat (ua_withdrawal_native_fee a) InvalidFeeInput
             (fun v => set_withdrawal_native_fee (fee_option v)) r in
  match r with
  | RErr e => RErr e
  | ROk s' => match validate_config s' with Some e => RErr e | None => ROk s' end
  end.
