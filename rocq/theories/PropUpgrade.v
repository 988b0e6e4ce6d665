(** * C33, C34, C36, C37: upgrades, replay, the event log and initialisation. *)

From Verif Require Import Base BMap MultiKeyMap Bytes Types Amount Tx CallData Network Hex
  Transactions State Audit Ranges Rlp Parser Memo Driver Sys SysSpec MultiKeyMapFacts ArithFacts CoreInv LogFacts UpgradeSpec
  UpgradeFacts Scenario.

(** ** C33 *)

(** After every history (whose upgrades never lower the nonce, see C55), an upgrade
    without arguments of the stopped canister succeeds and restores every durable
    part of the state exactly, up to the order of waiting withdrawals; the run-time
    bookkeeping is reset; the log is the old log followed by one sync event. *)
Theorem C33_upgrade_restores_state :
  forall self keccak s now,
    reach self keccak nonce_kept s -> sys_tasks s = [] -> sys_clock s <= now ->
    let s' := step self keccak s (LUpgrade None now) in
    restored (sys_state s) (sys_state s') /\ no_runtime (sys_state s') /\
    sys_log s' = sys_log s ++
      [{| ev_timestamp := now;
          ev_payload := EvSyncedToBlock (last_scraped_block_number (sys_state s)) |}].
Proof. intros. eapply upgrade_restores; eauto. Qed.
Print Assumptions C33_upgrade_restores_state.

(** At any moment of a history, also in the middle of calls, the log (with the sync
    event of [pre_upgrade]) replays to the live state. *)
Theorem C33_replay_restores_state :
  forall self keccak s now,
    reach self keccak nonce_kept s ->
    exists s', replay_events (pre_upgrade now (sys_core s)) = Done s' /\
      restored (sys_state s) s' /\ no_runtime s'.
Proof. intros. eapply replay_restores; eauto. Qed.
Print Assumptions C33_replay_restores_state.

(** The concrete history meets the hypotheses: it is reachable, ends with no suspended
    function, and its state has finalized withdrawals and a reimbursement. *)
Example C33_witness :
  exists s, reach self0 keccak0 nonce_kept s /\ sys_tasks s = [] /\ sys_clock s <= 100 /\
    List.length (sys_log s) = 15%nat /\ List.length (reimbursed (withdrawals (sys_state s))) = 1%nat /\
    nb_balance (native_balance (sys_state s)) = 49511500.
Proof.
  destruct (run0 all0) as [s|] eqn:E; [|vm_compute in E; discriminate].
  exists s. split.
  - eapply reach_run0_quiet; [exact E|vm_compute; reflexivity|]. intros x [] H; try exact I. discriminate.
  - vm_compute in E. injection E as <-. vm_compute. repeat split; discriminate.
Qed.

(** ** C34 *)

(** Every step of the system leaves the log as it is or appends to it. *)
Theorem C34_log_is_append_only :
  forall self keccak s ls, exists es,
    sys_log (run self keccak s ls) = sys_log s ++ es /\
    forall e a, In e es -> ev_payload e <> EvInit a.
Proof. intros. apply run_grows. Qed.
Print Assumptions C34_log_is_append_only.

(** In every history, whatever the operator does, the first event of the log is an
    Init event and no other event is. *)
Theorem C34_single_init_first :
  forall self keccak s, reach self keccak any_env s ->
    exists e a es, sys_log s = e :: es /\ ev_payload e = EvInit a /\
      forall e' a', In e' es -> ev_payload e' <> EvInit a'.
Proof.
  intros self keccak s H. apply log_init_first in H as (now & a & es & -> & Hn).
  exists {| ev_timestamp := now; ev_payload := EvInit a |}, a, es. auto.
Qed.
Print Assumptions C34_single_init_first.

(** Replay rejects the empty log, a log starting with another event and a log with a
    second Init event anywhere. *)
Theorem C34_replay_rejects_bad_logs :
  forall log,
    (log = [] \/ (exists e es, log = e :: es /\ forall a, ev_payload e <> EvInit a) \/
     (exists l1 e a l2, log = l1 ++ e :: l2 /\ l1 <> [] /\ ev_payload e = EvInit a)) ->
    exists msg, replay_events log = Panic msg.
Proof.
  intros log [->|[(e & es & -> & H)|(l1 & e & a & l2 & -> & H1 & H2)]].
  - eexists; reflexivity.
  - cbn. destruct (ev_payload e); eauto. edestruct H; reflexivity.
  - eapply replay_rejects_reinit; eauto.
Qed.
Print Assumptions C34_replay_rejects_bad_logs.

(** An event is recorded exactly when its state change is applied: processing an event
    either changes the state by it and appends it, or does neither. *)
Theorem C34_recorded_iff_applied :
  forall now e c,
    (exists s', apply_state_transition (fst c) e = Done s' /\
       process_event now e c = Done (s', snd c ++ [{| ev_timestamp := now; ev_payload := e |}])) \/
    (exists m m', apply_state_transition (fst c) e = Panic m /\ process_event now e c = Panic m').
Proof.
  intros now e c. unfold process_event. destruct (apply_state_transition (fst c) e); cbn; eauto.
Qed.
Print Assumptions C34_recorded_iff_applied.

Example C34_witness :
  exists s s', run0 register0 = Done s /\ run0 all0 = Done s' /\
    List.length (sys_log s) = 2%nat /\ List.length (sys_log s') = 15%nat /\
    firstn 2 (sys_log s') = sys_log s.
Proof. do 2 eexists. split; [vm_compute; reflexivity|]. split; vm_compute; auto. Qed.

(** ** C36 *)

(** What the settings are after an upgrade with argument [a] *)
Record upgraded_settings (a : UpgradeArg) (s s' : State) : Prop := {
  u_nonce : next_nonce (withdrawals s') =
    supplied (ua_next_transaction_nonce a) (next_nonce (withdrawals s));
  u_minimum : native_minimum_withdrawal_amount s' =
    supplied (ua_native_minimum_withdrawal_amount a) (native_minimum_withdrawal_amount s);
  u_transfer_fee : native_ledger_transfer_fee s' =
    supplied (ua_native_ledger_transfer_fee a) (native_ledger_transfer_fee s);
  u_priority : min_max_priority_fee_per_gas s' =
    supplied (ua_min_max_priority_fee_per_gas a) (min_max_priority_fee_per_gas s);
  u_helper : match ua_helper_contract_address a with
             | None => helper_contract_address s' = helper_contract_address s
             | Some t => exists x, address_of_text t = Some x /\ helper_contract_address s' = Some x
             end;
  u_scraped : last_scraped_block_number s' =
    supplied (ua_last_scraped_block_number a) (last_scraped_block_number s);
  u_height : block_height s' = supplied (ua_block_height a) (block_height s);
  u_rpc : evm_canister_id s' = supplied (ua_evm_rpc_id a) (evm_canister_id s);
  u_deposit_fee : deposit_native_fee s' =
    supplied (option_map fee_setting (ua_deposit_native_fee a)) (deposit_native_fee s);
  u_withdrawal_fee : withdrawal_native_fee s' =
    supplied (option_map fee_setting (ua_withdrawal_native_fee a)) (withdrawal_native_fee s)
}.
(** Everything else is the same *)
Record others_unchanged (s s' : State) : Prop := {
  o_network : evm_network s' = evm_network s;
  o_key : ecdsa_key_name s' = ecdsa_key_name s;
  o_ledger : native_ledger_id s' = native_ledger_id s;
  o_index : native_index_id s' = native_index_id s;
  o_symbol : native_symbol s' = native_symbol s;
  o_first : first_scraped_block_number s' = first_scraped_block_number s;
  o_to_mint : events_to_mint s' = events_to_mint s;
  o_minted : minted_events s' = minted_events s;
  o_invalid : invalid_events s' = invalid_events s;
  o_tables : forall n, set_next_nonce n (withdrawals s') = set_next_nonce n (withdrawals s);
  o_skipped : skipped_blocks s' = skipped_blocks s;
  o_balance : native_balance s' = native_balance s;
  o_balances : erc20_balances s' = erc20_balances s;
  o_manager : ledger_suite_manager_id s' = ledger_suite_manager_id s;
  o_tokens : erc20_tokens s' = erc20_tokens s;
  o_swap : swap_canister_id s' = swap_canister_id s
}.

(** An accepted upgrade argument changes exactly the settings it supplies and leaves a
    valid configuration. *)
Theorem C36_upgrade_changes_what_it_names :
  forall a s s', upgrade a s = ROk s' ->
    upgraded_settings a s s' /\ others_unchanged s s' /\ valid_settings s'.
Proof.
  intros a s s' H. apply upgrade_spec in H as (Ha & Hv & ->). apply validate_config_spec in Hv.
  split; [|split]; auto; constructor; try reflexivity; cbn.
  - destruct Ha as (_ & _ & _ & _ & Hh & _). unfold opt_address_ok in Hh.
    destruct (ua_helper_contract_address a) as [t|]; auto.
    destruct (Hh t eq_refl) as (x & Hx). eauto.
Qed.
Print Assumptions C36_upgrade_changes_what_it_names.

(** It is accepted exactly when all supplied numbers fit into 256 bits and there is a
    valid configuration with the supplied settings (in particular a supplied helper
    address is well formed). *)
Theorem C36_upgrade_accepted_iff :
  forall a s,
    (exists s', upgrade a s = ROk s') <->
    (forall n, In (Some n) [ua_next_transaction_nonce a; ua_native_minimum_withdrawal_amount a;
                            ua_native_ledger_transfer_fee a; ua_min_max_priority_fee_per_gas a;
                            ua_last_scraped_block_number a; ua_deposit_native_fee a;
                            ua_withdrawal_native_fee a] -> n < 2 ^ 256) /\
    (exists s', upgraded_settings a s s' /\ others_unchanged s s' /\ valid_settings s').
Proof.
  intros a s.
  assert (Hm : forall n, n <= U256_MAX <-> n < 2 ^ 256).
  { intros n. rewrite <- U256_MAX_val. lia. }
  split.
  - intros (s' & H). pose proof (C36_upgrade_changes_what_it_names _ _ _ H) as Hs.
    apply upgrade_spec in H as ((H1 & H2 & H3 & H4 & H5 & H6 & H7 & H8) & _).
    split; [|eauto]. unfold fits_opt in *.
    intros n Hin. apply Hm. cbn in Hin. intuition eauto.
  - intros (Hn & s' & Hu & Ho & Hk & Hl & Hh & H4 & H5). apply upgrade_accepts. split.
    + unfold upgrade_args_ok, fits_opt, opt_address_ok.
      repeat split; try (intros n Hx; apply Hm, Hn; cbn; rewrite Hx; tauto).
      intros t Ht. pose proof (u_helper _ _ _ Hu) as Hx. rewrite Ht in Hx. destruct Hx as (x & ? & _). eauto.
    + unfold valid_settings. rewrite (o_key _ _ Ho) in Hk. rewrite (o_ledger _ _ Ho) in Hl.
      rewrite (u_minimum _ _ _ Hu) in H4, H5. rewrite (u_transfer_fee _ _ _ Hu) in H5.
      repeat split; auto.
      pose proof (u_helper _ _ _ Hu) as Hx. cbn. destruct (ua_helper_contract_address a) as [t|].
      * destruct Hx as (x & -> & Hx). congruence.
      * congruence.
Qed.
Print Assumptions C36_upgrade_accepted_iff.

(** For the running minter: an accepted argument takes effect on the live state as
    described above; the log gains a sync event and the upgrade event. *)
Theorem C36_upgrade_of_the_canister :
  forall self keccak s a now s1,
    reach self keccak nonce_kept s -> sys_tasks s = [] -> sys_clock s <= now ->
    upgrade a (sys_state s) = ROk s1 ->
    let s' := step self keccak s (LUpgrade (Some a) now) in
    restored s1 (sys_state s') /\ no_runtime (sys_state s') /\
    sys_log s' = sys_log s ++
      [{| ev_timestamp := now;
          ev_payload := EvSyncedToBlock (last_scraped_block_number (sys_state s)) |};
       {| ev_timestamp := now; ev_payload := EvUpgrade a |}].
Proof. intros. eapply upgrade_with_arg; eauto. Qed.
Print Assumptions C36_upgrade_of_the_canister.

(** A rejected argument leaves the whole system, including the log, as it was. *)
Theorem C36_rejected_upgrade_changes_nothing :
  forall self keccak s a now,
    reach self keccak nonce_kept s -> (forall s1, upgrade a (sys_state s) <> ROk s1) ->
    step self keccak s (LUpgrade (Some a) now) = s.
Proof. intros. eapply upgrade_rejected; eauto. Qed.
Print Assumptions C36_rejected_upgrade_changes_nothing.

(** An argument with a fee cleared, a new minimum and a higher nonce is accepted in the
    concrete history; one whose minimum is below the ledger fee is rejected. *)
Definition upgrade0 (minimum : N) : UpgradeArg :=
  {| ua_next_transaction_nonce := Some 20; ua_native_minimum_withdrawal_amount := Some minimum;
     ua_native_ledger_transfer_fee := None; ua_min_max_priority_fee_per_gas := None;
     ua_helper_contract_address := None; ua_last_scraped_block_number := None;
     ua_block_height := None; ua_evm_rpc_id := None;
     ua_deposit_native_fee := Some 0; ua_withdrawal_native_fee := None |}.
Example C36_witness :
  exists s s1, run0 all0 = Done s /\ sys_tasks s = [] /\ upgrade (upgrade0 77) (sys_state s) = ROk s1 /\
    native_minimum_withdrawal_amount s1 = 77 /\ deposit_native_fee s1 = None /\
    next_nonce (withdrawals s1) = 20 /\ withdrawal_native_fee s1 = Some 500 /\
    exists e, upgrade (upgrade0 3) (sys_state s) = RErr e.
Proof. do 2 eexists. split; [vm_compute; reflexivity|]. vm_compute. repeat split. eauto. Qed.

(** ** C37 *)

(** What the minter is right after an initialisation with [a] *)
Record initial (a : InitArg) (s : State) : Prop := {
  n_network : evm_network s = ia_evm_network a;
  n_key : ecdsa_key_name s = ia_ecdsa_key_name a;
  n_ledger : native_ledger_id s = ia_native_ledger_id a;
  n_index : native_index_id s = ia_native_index_id a;
  n_symbol : native_symbol s = ia_native_symbol a;
  n_helper : match ia_helper_contract_address a with
             | None => helper_contract_address s = None
             | Some t => exists x, address_of_text t = Some x /\ helper_contract_address s = Some x
             end;
  n_transfer_fee : native_ledger_transfer_fee s = ia_native_ledger_transfer_fee a;
  n_minimum : native_minimum_withdrawal_amount s = ia_native_minimum_withdrawal_amount a;
  n_priority : min_max_priority_fee_per_gas s = ia_min_max_priority_fee_per_gas a;
  n_height : block_height s = ia_block_height a;
  n_deposit_fee : deposit_native_fee s = fee_setting (ia_deposit_native_fee a);
  n_withdrawal_fee : withdrawal_native_fee s = fee_setting (ia_withdrawal_native_fee a);
  n_manager : ledger_suite_manager_id s = Some (ia_ledger_suite_manager_id a);
  n_scraped : last_scraped_block_number s = ia_last_scraped_block_number a;
  n_first : first_scraped_block_number s = ia_last_scraped_block_number a + 1;
  n_to_mint : events_to_mint s = [];
  n_minted : minted_events s = [];
  n_invalid : invalid_events s = [];
  n_skipped : skipped_blocks s = [];
  n_balance : nb_balance (native_balance s) = 0;
  n_balances : erc20_balances s = [];
  n_tokens : forall k b v, ~ row (erc20_tokens s) k b v;
  n_nonce : next_nonce (withdrawals s) = ia_next_transaction_nonce a;
  n_pending : pending (withdrawals s) = [];
  n_processed : processed (withdrawals s) = [];
  n_created : forall k b v, ~ row (created (withdrawals s)) k b v;
  n_sent : forall k b v, ~ row (sent (withdrawals s)) k b v;
  n_finalized : forall k b v, ~ row (finalized (withdrawals s)) k b v;
  n_maybe : maybe_reimburse (withdrawals s) = [];
  n_requests : reimb_requests (withdrawals s) = [];
  n_reimbursed : reimbursed (withdrawals s) = []
}.

Theorem C37_init_gives_valid_empty_minter :
  forall a s, state_of_init a = ROk s -> initial a s /\ valid_settings s /\ no_runtime s.
Proof.
  intros a s H. apply state_of_init_spec in H as (_ & h & Hh & -> & Hv).
  split; [|split; [exact Hv|repeat split]].
  constructor; try reflexivity; try (intros k b v [Hx _]; discriminate Hx).
  unfold init_helper in Hh. cbn. destruct (ia_helper_contract_address a) as [t|]; [|congruence].
  destruct (address_of_text t) as [x|]; [|discriminate]. injection Hh as <-. eauto.
Qed.
Print Assumptions C37_init_gives_valid_empty_minter.

(** It succeeds exactly when the numbers fit (the first block to scrape too), the helper
    address is well formed, and the configuration is valid. *)
Theorem C37_init_accepted_iff :
  forall a,
    (exists s, state_of_init a = ROk s) <->
    (forall n, In n [ia_next_transaction_nonce a; ia_native_minimum_withdrawal_amount a;
                     ia_native_ledger_transfer_fee a; ia_last_scraped_block_number a + 1;
                     ia_min_max_priority_fee_per_gas a; ia_deposit_native_fee a;
                     ia_withdrawal_native_fee a] -> n < 2 ^ 256) /\
    (forall t, ia_helper_contract_address a = Some t ->
       exists x, address_of_text t = Some x /\ x <> ADDRESS_ZERO) /\
    (exists ch, In ch (ia_ecdsa_key_name a) /\ is_whitespace ch = false) /\
    ia_native_ledger_id a <> ANONYMOUS /\
    0 < ia_native_minimum_withdrawal_amount a /\
    ia_native_ledger_transfer_fee a <= ia_native_minimum_withdrawal_amount a.
Proof.
  intros a. assert (Hm : forall n, n < 2 ^ 256 <-> n <= U256_MAX).
  { intros n. rewrite <- U256_MAX_val. lia. }
  split.
  - intros (s & H). apply state_of_init_spec in H as (Ha & h & Hh & -> & H1 & H2 & H3 & H4 & H5).
    split; [|split; [|repeat split; auto]].
    + intros n Hin. apply Hm. unfold init_args_ok in Ha. cbn in Hin.
      intuition (subst; auto; lia).
    + intros t Ht. unfold init_helper in Hh. rewrite Ht in Hh.
      destruct (address_of_text t) as [x|]; [|discriminate]. injection Hh as <-.
      exists x. split; auto. cbn in H3. congruence.
  - intros (Hn & Ht & Hk & Hl & H4 & H5).
    assert (Ha : init_args_ok a).
    { assert (Hq : ia_last_scraped_block_number a + 1 <= U256_MAX)
        by (apply Hm, Hn; cbn; tauto).
      unfold init_args_ok. repeat split; try (apply Hm, Hn; cbn; tauto). lia. }
    destruct (ia_helper_contract_address a) as [t|] eqn:E.
    + destruct (Ht t eq_refl) as (x & Hx & Hz). exists (init_state a (Some x)).
      apply state_of_init_spec. split; auto. exists (Some x).
      unfold init_helper. rewrite E, Hx. repeat split; auto. cbn. congruence.
    + exists (init_state a None). apply state_of_init_spec. split; auto. exists None.
      unfold init_helper. rewrite E. repeat split; auto. cbn. congruence.
Qed.
Print Assumptions C37_init_accepted_iff.

Example C37_witness :
  exists s, state_of_init init0 = ROk s /\ first_scraped_block_number s = 101 /\
            deposit_native_fee s = Some 1000.
Proof. eexists. split; [vm_compute; reflexivity|]. vm_compute. auto. Qed.
