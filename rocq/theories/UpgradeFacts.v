(** * Proofs about upgrades and initialisation. *)

From Verif Require Import Base BMap MultiKeyMap MultiKeyMapFacts Bytes Types Amount ArithFacts Tx CallData
  Network Hex Transactions State Audit Ranges Rlp Parser Memo Driver Sys SysSpec WtInv StateEquiv
  TxSpec WtContent Segments SysFacts CoreInv LogFacts UpgradeSpec.

Lemma validate_config_spec s : validate_config s = None <-> valid_settings s.
Proof.
  unfold validate_config, valid_settings. split.
  - destruct (is_blank (ecdsa_key_name s)) eqn:E1; [discriminate|].
    destruct (bytes_eqb (native_ledger_id s) ANONYMOUS) eqn:E2; [discriminate|].
    destruct (match helper_contract_address s with Some a => a =? ADDRESS_ZERO | None => false end) eqn:E3;
      [discriminate|].
    destruct (N.eqb_spec (native_minimum_withdrawal_amount s) 0); [discriminate|].
    destruct (N.ltb_spec (native_minimum_withdrawal_amount s) (native_ledger_transfer_fee s)); [discriminate|].
    intros _. repeat split; try lia.
    + unfold is_blank in E1. induction (ecdsa_key_name s) as [|c l IH]; cbn in *; [discriminate|].
      destruct (is_whitespace c) eqn:Ec; [|eauto]. destruct IH as (ch & H1 & H2); eauto.
    + intros He. rewrite He in E2. rewrite (proj2 (bytes_eqb_eq _ _) eq_refl) in E2. discriminate.
    + intros He. rewrite He in E3. discriminate.
  - intros ((ch & H1 & H2) & H3 & H4 & H5 & H6).
    destruct (is_blank (ecdsa_key_name s)) eqn:E1.
    { unfold is_blank in E1. rewrite forallb_forall in E1. rewrite E1 in H2; [discriminate|auto]. }
    destruct (bytes_eqb (native_ledger_id s) ANONYMOUS) eqn:E2.
    { apply bytes_eqb_eq in E2. contradiction. }
    destruct (helper_contract_address s) as [a|].
    { destruct (N.eqb_spec a ADDRESS_ZERO); [subst; contradiction|].
      destruct (N.eqb_spec (native_minimum_withdrawal_amount s) 0); [lia|].
      destruct (N.ltb_spec (native_minimum_withdrawal_amount s) (native_ledger_transfer_fee s)); auto; lia. }
    destruct (N.eqb_spec (native_minimum_withdrawal_amount s) 0); [lia|].
    destruct (N.ltb_spec (native_minimum_withdrawal_amount s) (native_ledger_transfer_fee s)); auto; lia.
Qed.

Lemma sim_restored s s' :
  sim s s' -> last_scraped_block_number s' = last_scraped_block_number s -> restored s s'.
Proof. intros (v & p & Hp & ->) H. constructor; cbn in *; auto. Qed.

Section Sys.
Variable self : Principal.
Variable keccak : list N -> Hash.

Lemma upgrade_restores (env : Sys -> Label -> Prop) s now :
  (forall s l, env s l -> nonce_kept s l) ->
  reach self keccak env s -> sys_tasks s = [] -> sys_clock s <= now ->
  let s' := step self keccak s (LUpgrade None now) in
  restored (sys_state s) (sys_state s') /\ no_runtime (sys_state s') /\
  sys_log s' = sys_log s ++ [{| ev_timestamp := now;
                                ev_payload := EvSyncedToBlock (last_scraped_block_number (sys_state s)) |}].
Proof.
  intros He Hr Ht Hn. cbn. destruct (N.ltb_spec now (sys_clock s)); [lia|]. rewrite Ht.
  pose proof (core_replay _ _ (core_reach _ _ _ _ He Hr)) as Hrep.
  destruct (pre_upgrade_replay now _ Hrep) as (s1 & H1 & H2 & H3).
  unfold canister_upgrade, post_upgrade. rewrite H1. cbn [rbind].
  unfold sys_state, sys_log. cbn. split; [|split].
  - apply sim_restored; [apply sim_sym; auto|auto].
  - apply replay_volatile in H1. exact H1.
  - reflexivity.
Qed.

Lemma replay_restores (env : Sys -> Label -> Prop) s now :
  (forall s l, env s l -> nonce_kept s l) ->
  reach self keccak env s ->
  exists s', replay_events (pre_upgrade now (sys_core s)) = Done s' /\
    restored (sys_state s) s' /\ no_runtime s'.
Proof.
  intros He Hr. pose proof (core_replay _ _ (core_reach _ _ _ _ He Hr)) as Hrep.
  destruct (pre_upgrade_replay now _ Hrep) as (s1 & H1 & H2 & H3).
  exists s1. split; [auto|]. split.
  - apply sim_restored; [apply sim_sym; auto|auto].
  - apply replay_volatile in H1. exact H1.
Qed.

Lemma upgrade_with_arg (env : Sys -> Label -> Prop) s a now s1 :
  (forall s l, env s l -> nonce_kept s l) ->
  reach self keccak env s -> sys_tasks s = [] -> sys_clock s <= now ->
  upgrade a (sys_state s) = ROk s1 ->
  let s' := step self keccak s (LUpgrade (Some a) now) in
  restored s1 (sys_state s') /\ no_runtime (sys_state s') /\
  sys_log s' = sys_log s ++
    [{| ev_timestamp := now;
        ev_payload := EvSyncedToBlock (last_scraped_block_number (sys_state s)) |};
     {| ev_timestamp := now; ev_payload := EvUpgrade a |}].
Proof.
  intros He Hr Ht Hn Hu. cbn. destruct (N.ltb_spec now (sys_clock s)); [lia|]. rewrite Ht.
  pose proof (core_replay _ _ (core_reach _ _ _ _ He Hr)) as Hrep.
  destruct (pre_upgrade_replay now _ Hrep) as (x & H1 & H2 & H3).
  unfold canister_upgrade, post_upgrade. rewrite H1. cbn [rbind].
  destruct (upgrade_sim a _ _ _ (sim_sym _ _ H2) Hu) as (y & Hy & Hs).
  unfold process_event. cbn [apply_state_transition fst snd]. rewrite Hy. cbn [rbind].
  unfold sys_state, sys_log. cbn [with_core sys_core fst snd]. split; [|split].
  - apply sim_restored; auto.
    apply upgrade_spec in Hy as (_ & _ & ->). apply upgrade_spec in Hu as (_ & _ & ->).
    cbn. unfold sys_state. rewrite H3. reflexivity.
  - apply replay_volatile in H1. apply upgrade_spec in Hy as (_ & _ & ->). exact H1.
  - unfold record_event, pre_upgrade, record_event. rewrite <- app_assoc. reflexivity.
Qed.

Lemma upgrade_rejected (env : Sys -> Label -> Prop) s a now :
  (forall s l, env s l -> nonce_kept s l) ->
  reach self keccak env s -> (forall s1, upgrade a (sys_state s) <> ROk s1) ->
  step self keccak s (LUpgrade (Some a) now) = s.
Proof.
  intros He Hr Hno. cbn. destruct (now <? sys_clock s); auto. destruct (sys_tasks s); auto.
  destruct (canister_upgrade now (Some a) (sys_core s)) as [c|] eqn:E; auto. exfalso.
  pose proof (core_replay _ _ (core_reach _ _ _ _ He Hr)) as Hrep.
  destruct (canister_upgrade_inv _ _ _ _ Hrep E) as (x & _ & H2 & _ & y & H4 & _).
  cbn [apply_state_transition] in H4. destruct (upgrade a x) as [z|] eqn:Ez; [|discriminate].
  destruct (upgrade_sim _ _ _ _ H2 Ez) as (z' & Hz & _). exact (Hno _ Hz).
Qed.

End Sys.

(** ** Upgrade arguments *)

Lemma upgrade_accepts a s :
  (exists s', upgrade a s = ROk s') <-> upgrade_args_ok a /\ valid_settings (upgraded a s).
Proof.
  split.
  - intros (s' & H). apply upgrade_spec in H as (H1 & H2 & _). split; auto. apply validate_config_spec; auto.
  - intros [H1 H2]. exists (upgraded a s). apply upgrade_spec. split; [|split]; auto.
    apply validate_config_spec; auto.
Qed.

Lemma amount_of_nat_case n : (amount_of_nat n = Some n /\ n <= U256_MAX) \/ (amount_of_nat n = None /\ U256_MAX < n).
Proof. rewrite amount_of_nat_spec. destruct (N.leb_spec n U256_MAX); auto. Qed.

Definition init_state (a : InitArg) (helper : option Address) : State :=
  {| evm_network := ia_evm_network a;
     ecdsa_key_name := ia_ecdsa_key_name a;
     native_ledger_id := ia_native_ledger_id a;
     native_index_id := ia_native_index_id a;
     native_symbol := ia_native_symbol a;
     helper_contract_address := helper;
     evm_canister_id := EVM_RPC_CANISTER;
     native_ledger_transfer_fee := ia_native_ledger_transfer_fee a;
     native_minimum_withdrawal_amount := ia_native_minimum_withdrawal_amount a;
     block_height := ia_block_height a;
     first_scraped_block_number := ia_last_scraped_block_number a + 1;
     last_scraped_block_number := ia_last_scraped_block_number a;
     last_observed_block_number := None;
     last_observed_block_time := None;
     events_to_mint := [];
     minted_events := [];
     invalid_events := [];
     withdrawals := wt_new (ia_next_transaction_nonce a);
     skipped_blocks := [];
     native_balance := native_balance_default;
     erc20_balances := [];
     pending_withdrawal_principals := [];
     active_tasks := [];
     last_transaction_price_estimate := None;
     deposit_native_fee := fee_option (ia_deposit_native_fee a);
     withdrawal_native_fee := fee_option (ia_withdrawal_native_fee a);
     ledger_suite_manager_id := Some (ia_ledger_suite_manager_id a);
     erc20_tokens := mkm_new;
     min_max_priority_fee_per_gas := ia_min_max_priority_fee_per_gas a;
     swap_canister_id := None |}.

(** The helper contract address denoted by the argument; [None]: malformed *)
Definition init_helper (a : InitArg) : option (option Address) :=
  match ia_helper_contract_address a with
  | None => Some None
  | Some t => match address_of_text t with Some x => Some (Some x) | None => None end
  end.

Definition init_args_ok (a : InitArg) : Prop :=
  ia_next_transaction_nonce a <= U256_MAX /\
  ia_native_minimum_withdrawal_amount a <= U256_MAX /\
  ia_native_ledger_transfer_fee a <= U256_MAX /\
  ia_last_scraped_block_number a < U256_MAX /\
  ia_min_max_priority_fee_per_gas a <= U256_MAX /\
  ia_deposit_native_fee a <= U256_MAX /\ ia_withdrawal_native_fee a <= U256_MAX.

Lemma state_of_init_spec a s :
  state_of_init a = ROk s <->
  init_args_ok a /\ exists h, init_helper a = Some h /\
    s = init_state a h /\ valid_settings s.
Proof.
  unfold state_of_init, ebind, or_err, init_args_ok, init_helper.
  destruct (amount_of_nat_case (ia_next_transaction_nonce a)) as [[-> Ha]|[-> Ha]];
    [|split; [discriminate|intros (? & _); lia]].
  destruct (amount_of_nat_case (ia_native_minimum_withdrawal_amount a)) as [[-> Hb]|[-> Hb]];
    [|split; [discriminate|intros (? & _); lia]].
  destruct (amount_of_nat_case (ia_native_ledger_transfer_fee a)) as [[-> Hc]|[-> Hc]];
    [|split; [discriminate|intros (? & _); lia]].
  assert (Hrest : forall h,
    match match amount_of_nat (ia_last_scraped_block_number a) with
          | Some a0 => ROk a0 | None => RErr InvalidLastScrapedBlockNumber end with
    | ROk last_scraped =>
        match match amount_of_nat (ia_min_max_priority_fee_per_gas a) with
              | Some a0 => ROk a0 | None => RErr InvalidMinimumMaximumPriorityFeePerGas end with
        | ROk min_prio =>
            match match checked_increment last_scraped with
                  | Some a0 => ROk a0 | None => RErr InvalidLastScrapedBlockNumber end with
            | ROk first_scraped =>
                match match amount_of_nat (ia_deposit_native_fee a) with
                      | Some a0 => ROk a0 | None => RErr InvalidFeeInput end with
                | ROk dep_fee =>
                    match match amount_of_nat (ia_withdrawal_native_fee a) with
                          | Some a0 => ROk a0 | None => RErr InvalidFeeInput end with
                    | ROk wd_fee =>
                        let s0 := {| evm_network := ia_evm_network a;
                           ecdsa_key_name := ia_ecdsa_key_name a;
                           native_ledger_id := ia_native_ledger_id a;
                           native_index_id := ia_native_index_id a;
                           native_symbol := ia_native_symbol a;
                           helper_contract_address := h;
                           evm_canister_id := EVM_RPC_CANISTER;
                           native_ledger_transfer_fee := ia_native_ledger_transfer_fee a;
                           native_minimum_withdrawal_amount := ia_native_minimum_withdrawal_amount a;
                           block_height := ia_block_height a;
                           first_scraped_block_number := first_scraped;
                           last_scraped_block_number := last_scraped;
                           last_observed_block_number := None;
                           last_observed_block_time := None;
                           events_to_mint := []; minted_events := []; invalid_events := [];
                           withdrawals := wt_new (ia_next_transaction_nonce a);
                           skipped_blocks := [];
                           native_balance := native_balance_default;
                           erc20_balances := [];
                           pending_withdrawal_principals := []; active_tasks := [];
                           last_transaction_price_estimate := None;
                           deposit_native_fee := fee_option dep_fee;
                           withdrawal_native_fee := fee_option wd_fee;
                           ledger_suite_manager_id := Some (ia_ledger_suite_manager_id a);
                           erc20_tokens := mkm_new;
                           min_max_priority_fee_per_gas := min_prio;
                           swap_canister_id := None |} in
                        match validate_config s0 with Some e => RErr e | None => ROk s0 end
                    | RErr e => RErr e
                    end
                | RErr e => RErr e
                end
            | RErr e => RErr e
            end
        | RErr e => RErr e
        end
    | RErr e => RErr e
    end = ROk s <->
    (ia_last_scraped_block_number a < U256_MAX /\
     ia_min_max_priority_fee_per_gas a <= U256_MAX /\
     ia_deposit_native_fee a <= U256_MAX /\ ia_withdrawal_native_fee a <= U256_MAX) /\
    s = init_state a h /\ valid_settings s).
  { intros h.
    destruct (amount_of_nat_case (ia_last_scraped_block_number a)) as [[-> Hd]|[-> Hd]];
      [|split; [discriminate|intros (? & _); lia]].
    destruct (amount_of_nat_case (ia_min_max_priority_fee_per_gas a)) as [[-> He]|[-> He]];
      [|split; [discriminate|intros (? & _); lia]].
    destruct (checked_increment (ia_last_scraped_block_number a)) as [f|] eqn:Ef.
    2:{ split; [discriminate|]. intros ((Hl & _) & _). unfold checked_increment in Ef.
        assert (checked_add (ia_last_scraped_block_number a) 1 = Some (ia_last_scraped_block_number a + 1))
          by (apply checked_add_some; split; [auto|lia]). congruence. }
    unfold checked_increment in Ef. apply checked_add_some in Ef as [-> Ef].
    destruct (amount_of_nat_case (ia_deposit_native_fee a)) as [[-> Hf]|[-> Hf]];
      [|split; [discriminate|intros (? & _); lia]].
    destruct (amount_of_nat_case (ia_withdrawal_native_fee a)) as [[-> Hg]|[-> Hg]];
      [|split; [discriminate|intros (? & _); lia]].
    cbv zeta. fold (init_state a h).
    destruct (validate_config (init_state a h)) eqn:Ev.
    - split; [discriminate|]. intros (_ & -> & Hv). apply validate_config_spec in Hv. congruence.
    - apply validate_config_spec in Ev. split.
      + injection 1 as <-. repeat split; auto; try lia; apply Ev.
      + intros (_ & -> & _). auto. }
  destruct (ia_helper_contract_address a) as [t|]; [destruct (address_of_text t) as [x|]|].
  - rewrite (Hrest (Some x)). split.
    + intros ((? & ? & ? & ?) & ? & ?). split; [lia|]. eauto.
    + intros (? & h & [= <-] & ? & ?). (split; [lia|]; auto).
  - split; [discriminate|]. intros (_ & h & ? & _). discriminate.
  - rewrite (Hrest None). split.
    + intros ((? & ? & ? & ?) & ? & ?). split; [lia|]. eauto.
    + intros (? & h & [= <-] & ? & ?). (split; [lia|]; auto).
Qed.
