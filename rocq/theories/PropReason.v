(** * C81: the reasons given to callers *)

From Verif Require Import Base BMap MultiKeyMap Bytes Types Amount Tx Transactions State Audit Ranges Parser Memo
  Driver Sys SysSpec GuardSpec CallSpec Tasks SysFacts Scenario PropGuards PropCalls ReasonSpec ReasonFacts.

(** Whenever a withdrawal call ends with an error that blames a ledger, this ledger refused, for
    this reason, the transfer of the caller's tokens that the error names. *)
Theorem C81_reason self keccak now a s0 ls id o :
  sys_init now a = Done s0 -> In (id, o) (sys_outcomes (run self keccak s0 ls)) ->
  explained self keccak s0 ls id o.
Proof. intros Hi. exact (re_out _ _ _ _ (reasons_run self keccak s0 now a Hi ls) id o). Qed.
Print Assumptions C81_reason.

(** ** A native withdrawal is never told that its burn is too small

    The withdrawal fee is 20000, the ledger's transfer fee 10, and 20005 are withdrawn. The 5 that
    remain are less than what the ledger burns, and it refuses: the call traps after the withdrawal
    fee was taken and partly refunded, without a trap injected by the environment. *)
Definition too_small0 : list Label :=
  ledger_ok 3 2 41 ++ ans 3 (ReLedger (LedgerErr BadBurn)) 42 ++ ledger_ok 3 3 43.
Theorem C81_too_small_refuted :
  exists s0 ls memo, reach self0 keccak0 any_env s0 /\ sys_clock s0 <= 40 /\
    native_minimum_withdrawal_amount (sys_state s0) <= 20005 /\ 5 < native_ledger_transfer_fee (sys_state s0) /\
    let id := sys_next s0 in
    let ls' := LCall (CallWithdrawNative user0 20005 payee0) 40 :: ls in
    forallb no_injected_trap ls = true /\
    told self0 keccak0 s0 ls' id
      (TransferFrom native_ledger0 (default_account user0) (default_account self0) 5 memo) (LedgerErr BadBurn) /\
    reason (LedgerErr BadBurn) = Some LeAmountTooLow /\
    In (id, OutTrap) (sys_outcomes (run self0 keccak0 s0 ls')).
Proof.
  destruct (run_from init_fee (register0 ++ scrape0 ++ mint0)) as [s|] eqn:E; [|vm_compute in E; discriminate].
  assert (Hr : reach self0 keccak0 any_env s).
  { eapply reach_run_from; [exact E|vm_compute; reflexivity|]. intros; exact Logic.I. }
  vm_compute in E. injection E as <-. eexists _, too_small0, _. split; [exact Hr|].
  split; [vm_compute; discriminate|]. split; [vm_compute; discriminate|]. split; [vm_compute; reflexivity|].
  cbn zeta. split; [reflexivity|]. split; [|split; [reflexivity|]].
  - exists (LCall (CallWithdrawNative user0 20005 payee0) 40 :: ledger_ok 3 2 41).
    eexists. eexists. split; [cbn; reflexivity|]. split; vm_compute; reflexivity.
  - eapply nth_error_In with (n := 3%nat). vm_compute. reflexivity.
Qed.
Print Assumptions C81_too_small_refuted.

(** In fact no native withdrawal ever ends with that error *)
Theorem C81_never_too_small self keccak env s id :
  reach self keccak env s -> ~ In (id, OutNative (RErr (WeBurn LeAmountTooLow))) (sys_outcomes s).
Proof. intros Hr. exact (never_too_small self keccak env s Hr id). Qed.
Print Assumptions C81_never_too_small.

(** Without a withdrawal fee, a burn that is waiting at the ledger is never below the ledger's
    transfer fee: a ledger that refuses as too small only less than its fee does not refuse it. *)
Theorem C81_large_enough self keccak env s id fl p ledger amount d :
  reach self keccak env s -> bget id (sys_tasks s) = Some fl -> withdrawal_native_fee (sys_state s) = None ->
  task_call self (fl_task fl) =
    Some (TransferFrom ledger (default_account p) (default_account self) amount (Some (MemoBurn (BurnConvert d)))) ->
  native_ledger_transfer_fee (sys_state s) <= amount.
Proof. exact (burn_large_enough self keccak env s id fl p ledger amount d). Qed.
Print Assumptions C81_large_enough.

(** ** Withdrawal fees below the transfer fee

    Then no native withdrawal is possible: every call traps at once, unless it is refused for its
    arguments. No ledger is called and nothing changes but the list of calls and their results. *)
Theorem C81_low_fee self keccak env s p amount recipient now fee :
  reach self keccak env s -> sys_clock s <= now ->
  withdrawal_native_fee (sys_state s) = Some fee -> fee < native_ledger_transfer_fee (sys_state s) ->
  let s' := step self keccak s (LCall (CallWithdrawNative p amount recipient) now) in
  sys_core s' = sys_core s /\ sys_tasks s' = sys_tasks s /\ sys_ops s' = sys_ops s /\
  exists o, sys_outcomes s' = sys_outcomes s ++ [(sys_next s, o)] /\
    (o = OutTrap \/ o = OutNative (RErr WeInvalidDestination) \/
     o = OutNative (RErr (WeAmountTooLow (native_minimum_withdrawal_amount (sys_state s))))).
Proof. exact (low_fee self keccak env s p amount recipient now fee). Qed.
Print Assumptions C81_low_fee.

(** ** The hypotheses are met *)

(** The caller has allowed too little *)
Definition refused0 : list Label :=
  register0 ++ scrape0 ++ mint0 ++ LCall (CallWithdrawNative user0 50000000 payee0) 40 ::
  ledger_ok 3 2 41 ++ ans 3 (ReLedger (LedgerErr InsufficientAllowance)) 42 ++ ledger_ok 3 3 43.
Example C81_witness :
  exists s, run0 refused0 = Done s /\ In (3, OutNative (RErr (WeBurn LeInsufficientAllowance))) (sys_outcomes s).
Proof.
  destruct (run0 refused0) as [s|] eqn:E; [|vm_compute in E; discriminate E].
  vm_compute in E. injection E as <-. eexists. split; [reflexivity|].
  eapply nth_error_In with (n := 3%nat). vm_compute. reflexivity.
Qed.

(** An installation with a withdrawal fee of 5 and a transfer fee of 10: a valid call traps *)
Definition init_low : InitArg :=
  {| ia_evm_network := ia_evm_network init0; ia_ecdsa_key_name := ia_ecdsa_key_name init0;
     ia_helper_contract_address := ia_helper_contract_address init0;
     ia_native_ledger_id := ia_native_ledger_id init0; ia_native_index_id := ia_native_index_id init0;
     ia_native_symbol := ia_native_symbol init0; ia_block_height := ia_block_height init0;
     ia_native_minimum_withdrawal_amount := 10000; ia_native_ledger_transfer_fee := 10;
     ia_next_transaction_nonce := 7; ia_last_scraped_block_number := 100;
     ia_min_max_priority_fee_per_gas := 2; ia_ledger_suite_manager_id := manager0;
     ia_deposit_native_fee := 1000; ia_withdrawal_native_fee := 5 |}.
Example C81_low_fee_witness :
  exists s, reach self0 keccak0 any_env s /\ sys_clock s <= 40 /\
    withdrawal_native_fee (sys_state s) = Some 5 /\ 5 < native_ledger_transfer_fee (sys_state s) /\
    sys_outcomes (step self0 keccak0 s (LCall (CallWithdrawNative user0 50000000 payee0) 40)) = [(0, OutTrap)].
Proof.
  destruct (run_from init_low []) as [s|] eqn:E; [|vm_compute in E; discriminate].
  assert (Hr : reach self0 keccak0 any_env s).
  { eapply reach_run_from; [exact E|vm_compute; reflexivity|]. intros; exact Logic.I. }
  vm_compute in E. injection E as <-. eexists. split; [exact Hr|].
  split; [vm_compute; discriminate|]. split; [reflexivity|]. split; vm_compute; reflexivity.
Qed.

(** An installation without a withdrawal fee: the least amount that can be withdrawn waits for its burn *)
Definition init_free : InitArg :=
  {| ia_evm_network := ia_evm_network init0; ia_ecdsa_key_name := ia_ecdsa_key_name init0;
     ia_helper_contract_address := ia_helper_contract_address init0;
     ia_native_ledger_id := ia_native_ledger_id init0; ia_native_index_id := ia_native_index_id init0;
     ia_native_symbol := ia_native_symbol init0; ia_block_height := ia_block_height init0;
     ia_native_minimum_withdrawal_amount := 10000; ia_native_ledger_transfer_fee := 10;
     ia_next_transaction_nonce := 7; ia_last_scraped_block_number := 100;
     ia_min_max_priority_fee_per_gas := 2; ia_ledger_suite_manager_id := manager0;
     ia_deposit_native_fee := 1000; ia_withdrawal_native_fee := 0 |}.
Example C81_large_enough_witness :
  exists s fl d, reach self0 keccak0 any_env s /\ bget 0 (sys_tasks s) = Some fl /\
    withdrawal_native_fee (sys_state s) = None /\ native_ledger_transfer_fee (sys_state s) = 10 /\
    task_call self0 (fl_task fl) =
      Some (TransferFrom native_ledger0 (default_account user0) (default_account self0) 10000 (Some (MemoBurn (BurnConvert d)))).
Proof.
  destruct (run_from init_free [LCall (CallWithdrawNative user0 10000 payee0) 40]) as [s|] eqn:E; [|vm_compute in E; discriminate].
  assert (Hr : reach self0 keccak0 any_env s).
  { eapply reach_run_from; [exact E|vm_compute; reflexivity|]. intros; exact Logic.I. }
  vm_compute in E. injection E as <-. do 3 eexists. split; [exact Hr|].
  split; [vm_compute; reflexivity|]. split; [reflexivity|]. split; [reflexivity|]. vm_compute. reflexivity.
Qed.
