(** * Info: what the minter tells about itself.

    Model of /repo/minter/src/main.rs 149-160 and 199-243 (types: endpoints.rs 48-95) and of
    the endpoint for the swap canister, main.rs 713-725. The address of the minter is
    derived from its public key (Key.v) and is a parameter here. *)

From Verif Require Import Base BMap MultiKeyMap Bytes Types Amount Tx CallData Network Hex
  Transactions State Audit Ranges Rlp Parser Memo Driver Sys Queries.

(** endpoints.rs 48-63 [Erc20Token] *)
Record InfoToken := { it_symbol : text; it_contract_address : text; it_ledger_id : Principal }.
(** endpoints.rs 65-69 [Erc20Balance] *)
Record InfoBalance := { ib_contract_address : text; ib_balance : N }.
(** endpoints.rs 90-95 [GasFeeEstimate] *)
Record InfoEstimate := { ie_max_fee_per_gas : N; ie_max_priority_fee_per_gas : N; ie_timestamp : N }.
(** endpoints.rs 71-88 [MinterInfo] *)
Record MinterInfo := {
  mi_minter_address : option text;
  mi_helper_smart_contract_address : option text;
  mi_supported_erc20_tokens : option (list InfoToken);
  mi_minimum_withdrawal_amount : option N;
  mi_deposit_native_fee : option N;
  mi_withdrawal_native_fee : option N;
  mi_block_height : option BlockTag;
  mi_last_observed_block_number : option N;
  mi_native_balance : option N;
  mi_last_gas_fee_estimate : option InfoEstimate;
  mi_erc20_balances : option (list InfoBalance);
  mi_last_scraped_block_number : option N;
  mi_native_twin_token_ledger_id : option Principal;
  mi_swap_canister_id : option Principal;
  mi_ledger_suite_manager_id : option Principal
}.

(** main.rs 154-159 [smart_contract_address] ("N/A" without a contract) *)
Definition smart_contract_address (keccak : list N -> list N) (s : State) : text :=
  match option_map (address_to_text keccak) (helper_contract_address s) with
  | Some t => t
  | None => [78; 47; 65]
  end.

(** main.rs 199-243 [get_minter_info] *)
Definition get_minter_info (keccak : list N -> list N) (minter_address : option Address) (s : State) : res MinterInfo :=
  tokens <- supported_erc20_tokens s ;;
  let erc20_balances :=
    Some (map (fun t => {| ib_contract_address := address_to_text keccak (et_contract_address t);
                           ib_balance := erc20_balance_of (et_contract_address t) (erc20_balances s) |}) tokens) in
  let supported_erc20_tokens :=
    Some (map (fun t => {| it_symbol := et_symbol t;
                           it_contract_address := address_to_text keccak (et_contract_address t);
                           it_ledger_id := et_ledger_id t |}) tokens) in
  Done {| mi_minter_address := option_map (address_to_text keccak) minter_address;
          mi_helper_smart_contract_address := option_map (address_to_text keccak) (helper_contract_address s);
          mi_supported_erc20_tokens := supported_erc20_tokens;
          mi_minimum_withdrawal_amount := Some (native_minimum_withdrawal_amount s);
          mi_deposit_native_fee := deposit_native_fee s;
          mi_withdrawal_native_fee := withdrawal_native_fee s;
          mi_block_height := Some (block_height s);
          mi_last_observed_block_number := last_observed_block_number s;
          mi_native_balance := Some (nb_balance (native_balance s));
          mi_last_gas_fee_estimate :=
            option_map (fun x => {| ie_max_fee_per_gas := estimate_max_fee_per_gas (snd x);
                                    ie_max_priority_fee_per_gas := gf_max_priority_fee_per_gas (snd x);
                                    ie_timestamp := fst x |}) (last_transaction_price_estimate s);
          mi_erc20_balances := erc20_balances;
          mi_last_scraped_block_number := Some (last_scraped_block_number s);
          mi_native_twin_token_ledger_id := Some (native_ledger_id s);
          mi_swap_canister_id := swap_canister_id s;
          mi_ledger_suite_manager_id := ledger_suite_manager_id s |}.

(** main.rs 713-725 [check_new_deposits]: who may ask for an early look for deposits. When
    it does not panic, the function goes on as the scraping timer does. *)
Definition check_new_deposits (caller : Principal) (s : State) : res unit :=
  swap <- expect (swap_canister_id s) "ERROR: swap feature not activated" ;;
  rassert (bytes_eqb swap caller) "ERROR: only the swap canister id can add request for early deposit check".
