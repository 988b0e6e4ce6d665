(** * Audit: initialisation, the event log and replay.

    Model of /repo/minter/src/lifecycle.rs and state/audit.rs, storage.rs. *)

From Verif Require Import Base BMap MultiKeyMap Bytes Types Amount Tx Hex Transactions State.

(** lifecycle.rs 159: "sosge-5iaaa-aaaag-alcla-cai" *)
Definition EVM_RPC_CANISTER : Principal := [0; 0; 0; 0; 0; 192; 88; 150; 1; 1].

Definition or_err {A} (o : option A) (e : InvalidStateError) : result A InvalidStateError :=
  match o with Some a => ROk a | None => RErr e end.
Definition ebind {A B E} (r : result A E) (f : A -> result B E) : result B E :=
  match r with ROk a => f a | RErr e => RErr e end.

(** lifecycle.rs 53-168 [TryFrom<InitArg> for State] *)
Definition state_of_init (a : InitArg) : result State InvalidStateError :=
  ebind (or_err (amount_of_nat (ia_next_transaction_nonce a)) InvalidTransactionNonce) (fun nonce =>
  ebind (or_err (amount_of_nat (ia_native_minimum_withdrawal_amount a))
           InvalidMinimumWithdrawalAmount) (fun min_amount =>
  ebind (or_err (amount_of_nat (ia_native_ledger_transfer_fee a))
           InvalidMinimumLedgerTransferFee) (fun transfer_fee =>
  ebind (match ia_helper_contract_address a with
         | None => ROk None
         | Some t => ebind (or_err (address_of_text t) InvalidHelperContractAddress)
                       (fun x => ROk (Some x))
         end) (fun helper =>
  ebind (or_err (amount_of_nat (ia_last_scraped_block_number a))
           InvalidLastScrapedBlockNumber) (fun last_scraped =>
  ebind (or_err (amount_of_nat (ia_min_max_priority_fee_per_gas a))
           InvalidMinimumMaximumPriorityFeePerGas) (fun min_prio =>
  ebind (or_err (checked_increment last_scraped) InvalidLastScrapedBlockNumber) (fun first_scraped =>
  ebind (or_err (amount_of_nat (ia_deposit_native_fee a)) InvalidFeeInput) (fun dep_fee =>
  ebind (or_err (amount_of_nat (ia_withdrawal_native_fee a)) InvalidFeeInput) (fun wd_fee =>
  let s :=
    {| evm_network := ia_evm_network a;
       ecdsa_key_name := ia_ecdsa_key_name a;
       native_ledger_id := ia_native_ledger_id a;
       native_index_id := ia_native_index_id a;
       native_symbol := ia_native_symbol a;
       helper_contract_address := helper;
       evm_canister_id := EVM_RPC_CANISTER;
       native_ledger_transfer_fee := transfer_fee;
       native_minimum_withdrawal_amount := min_amount;
       block_height := ia_block_height a;
       first_scraped_block_number := first_scraped;
       last_scraped_block_number := last_scraped;
       last_observed_block_number := None;
       last_observed_block_time := None;
       events_to_mint := [];
       minted_events := [];
       invalid_events := [];
       withdrawals := wt_new nonce;
       skipped_blocks := [];
       native_balance := native_balance_default;
       erc20_balances := [];
       pending_withdrawal_principals := [];
       active_tasks := [];
       last_transaction_price_estimate := None;
       deposit_native_fee := fee_option dep_fee;
       withdrawal_native_fee := fee_option wd_fee;
       ledger_suite_manager_id := Some (ia_ledger_suite_manager_id a);
       erc20_tokens := mkm_new;
       min_max_priority_fee_per_gas := min_prio;
       swap_canister_id := None |} in
  match validate_config s with Some e => RErr e | None => ROk s end))))))))).

(** Lift a transition of the withdrawal tables to the state. *)
Definition on_withdrawals (f : WT -> res WT) (s : State) : res State :=
  w <- f (withdrawals s) ;; Done (set_withdrawals w s).

(** state/audit.rs 11-152 [apply_state_transition] *)
Definition apply_state_transition (s : State) (e : EventType) : res State :=
  match e with
  | EvInit _ => Panic "state re-initialization is not allowed"
  | EvUpgrade a =>
      match upgrade a s with
      | ROk s' => Done s'
      | RErr _ => Panic "applying upgrade event should succeed"
      end
  | EvAcceptedDeposit d => record_event_to_mint (DepNative d) s
  | EvAcceptedErc20Deposit d => record_event_to_mint (DepErc20 d) s
  | EvInvalidDeposit src reason => record_invalid_deposit src reason s
  | EvMintedNative src block => record_successful_mint src (native_symbol s) block None s
  | EvMintedErc20 src block symbol contract =>
      record_successful_mint src symbol block (Some contract) s
  | EvSyncedToBlock b => Done (set_last_scraped_block_number b s)
  | EvAcceptedNativeWithdrawalRequest r =>
      on_withdrawals (record_withdrawal_request (WNative r)) s
  | EvCreatedTransaction id t => on_withdrawals (record_created_transaction id t) s
  | EvSignedTransaction _ t => on_withdrawals (record_signed_transaction t) s
  | EvReplacedTransaction _ t => on_withdrawals (record_resubmit_transaction t) s
  | EvFinalizedTransaction id r => state_record_finalized_transaction id r s
  | EvReimbursedNativeWithdrawal r =>
      on_withdrawals
        (record_finalized_reimbursement (RINative (rd_burn_in_block r)) (rd_reimbursed_in_block r)) s
  | EvSkippedBlock b => record_skipped_block b s
  | EvAddedErc20Token t => record_add_erc20_token t s
  | EvAcceptedErc20WithdrawalRequest r => record_erc20_withdrawal_request r s
  | EvReimbursedErc20Withdrawal b l r =>
      on_withdrawals
        (record_finalized_reimbursement (RIErc20 b l (rd_burn_in_block r))
           (rd_reimbursed_in_block r)) s
  | EvFailedErc20WithdrawalRequest r =>
      on_withdrawals (record_reimbursement_request (RINative (rr_ledger_burn_index r)) r) s
  | EvQuarantinedDeposit src => Done (record_quarantined_deposit src s)
  | EvQuarantinedReimbursement i =>
      Done (set_withdrawals (record_quarantined_reimbursement i (withdrawals s)) s)
  end.

(** The state together with the stable event log (storage.rs 40-70). *)
Definition Core : Type := State * list Event.

(** storage.rs 84-93 [record_event] at time [now]; stable-memory exhaustion (the
    [expect]) is not modelled. *)
Definition record_event (now : N) (e : EventType) (log : list Event) : list Event :=
  log ++ [{| ev_timestamp := now; ev_payload := e |}].

(** state/audit.rs 155-158 [process_event] *)
Definition process_event (now : N) (e : EventType) (c : Core) : res Core :=
  s' <- apply_state_transition (fst c) e ;;
  Done (s', record_event now e (snd c)).

(** A run of consecutive [process_event]s of one message. *)
Definition process_events (now : N) (es : list EventType) (c : Core) : res Core :=
  rfold (fun c e => process_event now e c) c es.

(** state/audit.rs 172-188 [replay_events_internal] *)
Definition replay_events (log : list Event) : res State :=
  match log with
  | [] => Panic "the event log should not be empty"
  | e :: log' =>
      match ev_payload e with
      | EvInit a =>
          match state_of_init a with
          | RErr _ => Panic "state initialization should succeed"
          | ROk s => rfold (fun s e => apply_state_transition s (ev_payload e)) s log'
          end
      | _ => Panic "the first event must be an Init event"
      end
  end.

(** main.rs 91-107 [init] with an [InitArg] *)
Definition canister_init (now : N) (a : InitArg) : res Core :=
  match state_of_init a with
  | ROk s => Done (s, record_event now (EvInit a) [])
  | RErr _ => Panic "BUG: failed to initialize minter"
  end.

(** main.rs 123-134 [pre_upgrade] *)
Definition pre_upgrade (now : N) (c : Core) : list Event :=
  record_event now (EvSyncedToBlock (last_scraped_block_number (fst c))) (snd c).

(** lifecycle.rs 194-202 [post_upgrade] *)
Definition post_upgrade (now : N) (a : option UpgradeArg) (log : list Event) : res Core :=
  s <- replay_events log ;;
  match a with
  | None => Done (s, log)
  | Some x => process_event now (EvUpgrade x) (s, log)
  end.

(** A canister upgrade: [pre_upgrade] by the old code, then [post_upgrade] by the new
    code; a trap in either leaves the canister as it was (platform semantics). *)
Definition canister_upgrade (now : N) (a : option UpgradeArg) (c : Core) : res Core :=
  post_upgrade now a (pre_upgrade now c).

(** main.rs 728-1013 [get_events]: [MAX_EVENTS_PER_RESPONSE] = 100. The argument
    [arg.start as usize] is truncated to 32 bits, the width of [usize] on the wasm32
    target of canisters. The mapping of each event to its candid form is not modelled. *)
Definition MAX_EVENTS_PER_RESPONSE : N := 100.
Definition USIZE_MODULUS : N := 2 ^ 32.
Definition get_events (start length : N) (log : list Event) : list Event * N :=
  (firstn (N.to_nat (N.min length MAX_EVENTS_PER_RESPONSE))
     (skipn (N.to_nat (start mod USIZE_MODULUS)) log),
   N.of_nat (List.length log)).
