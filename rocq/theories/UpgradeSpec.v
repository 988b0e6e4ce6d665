(** * What upgrades and initialisation must do (specification). *)

From Verif Require Import Base BMap MultiKeyMap Bytes Types Amount Hex Transactions State Audit.

(** The parts of the state that an upgrade must restore: every field except the
    order of the queue of waiting withdrawals and the run-time bookkeeping listed in
    [no_runtime]. *)
Record restored (s s' : State) : Prop := {
  r_evm_network : evm_network s' = evm_network s;
  r_ecdsa_key_name : ecdsa_key_name s' = ecdsa_key_name s;
  r_native_ledger_id : native_ledger_id s' = native_ledger_id s;
  r_native_index_id : native_index_id s' = native_index_id s;
  r_native_symbol : native_symbol s' = native_symbol s;
  r_helper_contract_address : helper_contract_address s' = helper_contract_address s;
  r_evm_canister_id : evm_canister_id s' = evm_canister_id s;
  r_native_ledger_transfer_fee : native_ledger_transfer_fee s' = native_ledger_transfer_fee s;
  r_native_minimum_withdrawal_amount :
    native_minimum_withdrawal_amount s' = native_minimum_withdrawal_amount s;
  r_block_height : block_height s' = block_height s;
  r_first_scraped_block_number : first_scraped_block_number s' = first_scraped_block_number s;
  r_last_scraped_block_number : last_scraped_block_number s' = last_scraped_block_number s;
  r_events_to_mint : events_to_mint s' = events_to_mint s;
  r_minted_events : minted_events s' = minted_events s;
  r_invalid_events : invalid_events s' = invalid_events s;
  r_skipped_blocks : skipped_blocks s' = skipped_blocks s;
  r_native_balance : native_balance s' = native_balance s;
  r_erc20_balances : erc20_balances s' = erc20_balances s;
  r_deposit_native_fee : deposit_native_fee s' = deposit_native_fee s;
  r_withdrawal_native_fee : withdrawal_native_fee s' = withdrawal_native_fee s;
  r_ledger_suite_manager_id : ledger_suite_manager_id s' = ledger_suite_manager_id s;
  r_erc20_tokens : erc20_tokens s' = erc20_tokens s;
  r_min_max_priority_fee_per_gas :
    min_max_priority_fee_per_gas s' = min_max_priority_fee_per_gas s;
  r_swap_canister_id : swap_canister_id s' = swap_canister_id s;
  r_pending : Permutation (pending (withdrawals s')) (pending (withdrawals s));
  r_processed : processed (withdrawals s') = processed (withdrawals s);
  r_created : created (withdrawals s') = created (withdrawals s);
  r_sent : sent (withdrawals s') = sent (withdrawals s);
  r_finalized : finalized (withdrawals s') = finalized (withdrawals s);
  r_next_nonce : next_nonce (withdrawals s') = next_nonce (withdrawals s);
  r_maybe_reimburse : maybe_reimburse (withdrawals s') = maybe_reimburse (withdrawals s);
  r_reimb_requests : reimb_requests (withdrawals s') = reimb_requests (withdrawals s);
  r_reimbursed : reimbursed (withdrawals s') = reimbursed (withdrawals s)
}.

(** No guard is held and nothing has been observed yet *)
Definition no_runtime (s : State) : Prop :=
  last_observed_block_number s = None /\ last_observed_block_time s = None /\
  pending_withdrawal_principals s = [] /\ active_tasks s = [] /\
  last_transaction_price_estimate s = None.

(** A valid configuration *)
Definition valid_settings (s : State) : Prop :=
  (exists ch, In ch (ecdsa_key_name s) /\ is_whitespace ch = false) /\
  native_ledger_id s <> ANONYMOUS /\
  helper_contract_address s <> Some ADDRESS_ZERO /\
  0 < native_minimum_withdrawal_amount s /\
  native_ledger_transfer_fee s <= native_minimum_withdrawal_amount s.

(** The value of a setting after an argument that may or may not be supplied *)
Definition supplied {A} (o : option A) (old : A) : A := match o with Some x => x | None => old end.
(** A fee of zero means no fee *)
Definition fee_setting (n : N) : option N := if n =? 0 then None else Some n.
