(** * C67: what the minter tells about itself.

    [keccak32] is the hash used for the checksum in the spelling of addresses, [m] the
    address of the minter, if it is known. *)

From Verif Require Import Base BMap MultiKeyMap Bytes Types Amount Tx CallData Network Hex
  Transactions State Audit Ranges Rlp Parser Memo Driver Sys SysSpec WithdrawSpec BalanceSpec Queries Info InfoSpec UpgradeSpec InfoFacts
  Scenario PropWithdraw.

(** The question is always answered. *)
Theorem C67_answered :
  forall self keccak keccak32 m s, reach self keccak any_env s ->
    exists i, get_minter_info keccak32 m (sys_state s) = Done i.
Proof. intros self keccak. exact (info_total self keccak any_env). Qed.
Print Assumptions C67_answered.

(** The settings told are those of the installation, as changed by the upgrades. *)
Theorem C67_settings :
  forall self keccak keccak32 m s i, reach self keccak any_env s ->
    get_minter_info keccak32 m (sys_state s) = Done i ->
    exists c, configured (history (sys_log s)) = Some c /\
      mi_helper_smart_contract_address i = option_map (address_to_text keccak32) (cf_helper c) /\
      mi_minimum_withdrawal_amount i = Some (cf_minimum c) /\
      mi_deposit_native_fee i = shown_fee (cf_deposit_fee c) /\
      mi_withdrawal_native_fee i = shown_fee (cf_withdrawal_fee c) /\
      mi_block_height i = Some (cf_height c) /\
      mi_native_twin_token_ledger_id i = Some (cf_native_ledger c) /\
      mi_ledger_suite_manager_id i = Some (cf_manager c) /\
      smart_contract_address keccak32 (sys_state s) = or_old (mi_helper_smart_contract_address i) [78; 47; 65].
Proof. intros self keccak. exact (info_settings self keccak any_env). Qed.
Print Assumptions C67_settings.

(** The tokens told are exactly the registered ones, each once. *)
Theorem C67_tokens :
  forall self keccak keccak32 m s i, reach self keccak any_env s ->
    get_minter_info keccak32 m (sys_state s) = Done i ->
    exists l, mi_supported_erc20_tokens i = Some l /\ NoDup (map it_ledger_id l) /\
      forall x, In x l <->
        exists t, In (EvAddedErc20Token t) (history (sys_log s)) /\ it_symbol x = et_symbol t /\
          it_ledger_id x = et_ledger_id t /\ it_contract_address x = address_to_text keccak32 (et_contract_address t).
Proof. intros self keccak. exact (info_tokens_listed self keccak any_env). Qed.
Print Assumptions C67_tokens.

(** The balances told are what was deposited less what finalized withdrawals took, for the
    native token and for every registered token. *)
Theorem C67_balances :
  forall self keccak keccak32 m s i, reach self keccak nonce_kept s ->
    get_minter_info keccak32 m (sys_state s) = Done i ->
    let h := history (sys_log s) in
    (exists b, mi_native_balance i = Some b /\ b + sum_of spent (settlements h) = native_deposits h) /\
    (exists l, mi_erc20_balances i = Some l /\
      (forall x, In x l -> exists t, In (EvAddedErc20Token t) h /\
         ib_contract_address x = address_to_text keccak32 (et_contract_address t) /\
         ib_balance x + sum_of (spent_erc20 (et_contract_address t)) (settlements h) = erc20_deposits (et_contract_address t) h) /\
      (forall t, In (EvAddedErc20Token t) h -> exists x, In x l /\
         ib_contract_address x = address_to_text keccak32 (et_contract_address t) /\
         ib_balance x + sum_of (spent_erc20 (et_contract_address t)) (settlements h) = erc20_deposits (et_contract_address t) h)).
Proof. intros self keccak k m s i. exact (info_balances self keccak nonce_kept k m s i (fun _ _ H => H)). Qed.
Print Assumptions C67_balances.

(** The gas fees told are those quoted for a withdrawal, with the same time. *)
Theorem C67_estimate :
  forall keccak32 m s i e, get_minter_info keccak32 m s = Done i ->
    (mi_last_gas_fee_estimate i = Some e <->
     exists p, quoted_price None s = Done p /\ qp_max_fee_per_gas p = ie_max_fee_per_gas e /\
       qp_max_priority_fee_per_gas p = ie_max_priority_fee_per_gas e /\ qp_timestamp p = Some (ie_timestamp e)).
Proof. exact info_estimate. Qed.
Print Assumptions C67_estimate.

(** The block numbers told are those the minter works with (they are the subject of C07, C10 and
    C69): the next look for deposits begins right after the scraped block told. *)
Theorem C67_position :
  forall keccak32 m c i, get_minter_info keccak32 m (fst c) = Done i ->
    mi_last_observed_block_number i = last_observed_block_number (fst c) /\
    exists n, mi_last_scraped_block_number i = Some n /\ n = last_scraped_block_number (fst c) /\
      forall last c' j, scrape_until_block last c = Done (c', Await (TScrapeLogs j)) ->
        fst (sj_current j) = N.min (n + 1) U256_MAX.
Proof.
  intros k m c i H. destruct (info_position k m (fst c) i H) as (E1 & E2 & _). split; [exact E2|].
  eexists. split; [exact E1|]. split; [reflexivity|].
  intros last c' j. exact (scrape_goes_on k m c i _ last c' j H E1).
Qed.
Print Assumptions C67_position.

(** Only the swap canister may ask for an early look for deposits. *)
Theorem C67_only_swap_canister :
  forall caller s, check_new_deposits caller s = Done tt -> swap_canister_id s = Some caller.
Proof. exact only_swap. Qed.
Print Assumptions C67_only_swap_canister.

(** Finding: the swap canister is meant to be able to ask for an early look for deposits, but
    nothing ever makes a canister the swap canister: everyone is refused, in every state. *)
Theorem C67_swap_canister_refuted :
  forall self keccak s caller, reach self keccak any_env s ->
    swap_canister_id (sys_state s) = None /\ exists why, check_new_deposits caller (sys_state s) = Panic why.
Proof. intros self keccak s c H. exact (swap_never self keccak any_env s c H). Qed.
Print Assumptions C67_swap_canister_refuted.

(** The settings in force are valid in every state that the minter can be in: a key name that is not
    blank, a ledger that is not the anonymous principal, a helper contract that is not the zero
    address, and a minimum for withdrawals that is positive and covers the ledger's transfer fee. *)
Theorem C36_always_valid :
  forall self keccak s, reach self keccak any_env s -> valid_settings (sys_state s).
Proof. intros self keccak. exact (valid_reach self keccak any_env). Qed.
Print Assumptions C36_always_valid.

(** ** The hypotheses are met *)

(** Deposits and withdrawals, then an upgrade that changes the minimum and sets a deposit fee *)
Definition new_fees : UpgradeArg :=
  {| ua_next_transaction_nonce := None; ua_native_minimum_withdrawal_amount := Some 77;
     ua_helper_contract_address := None; ua_block_height := None; ua_last_scraped_block_number := None;
     ua_evm_rpc_id := None; ua_native_ledger_transfer_fee := None; ua_min_max_priority_fee_per_gas := None;
     ua_deposit_native_fee := Some 3; ua_withdrawal_native_fee := None |}.
Example C67_witness :
  exists s, reach self0 keccak0 nonce_kept s /\
    exists i c, get_minter_info (fun _ => repeat 0 32) (Some 5) (sys_state s) = Done i /\
      configured (history (sys_log s)) = Some c /\
      (cf_minimum c, cf_deposit_fee c) = (77, 3) /\
      mi_native_balance i = Some 49511500 /\
      option_map (@List.length _) (mi_supported_erc20_tokens i) = Some 1%nat /\
      option_map (map ib_balance) (mi_erc20_balances i) = Some [5000] /\
      mi_minimum_withdrawal_amount i = Some 77 /\ mi_deposit_native_fee i = Some 3.
Proof.
  destruct (run0 (all0 ++ [LUpgrade (Some new_fees) 90])) as [s|] eqn:E; [|vm_compute in E; discriminate].
  assert (Hr : reach self0 keccak0 nonce_kept s).
  { eapply reach_run0; [exact E|]. intros x l Hin. apply in_app_iff in Hin as [Hin|[<-|[]]].
    - assert (Hu : forallb no_upgrade all0 = true) by (vm_compute; reflexivity). rewrite forallb_forall in Hu. specialize (Hu _ Hin).
      destruct l; try exact Logic.I. discriminate.
    - intros n H. discriminate H. }
  vm_compute in E. injection E as <-. eexists. split; [exact Hr|]. do 2 eexists.
  split; [vm_compute; reflexivity|]. do 6 (split; [vm_compute; reflexivity|]). vm_compute; reflexivity.
Qed.
