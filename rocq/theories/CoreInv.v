(** * Invariants of the state that need no knowledge of the suspended functions:
    the withdrawal tables are well formed, their transactions serve their requests,
    and the event log replays to the state. *)

From Verif Require Import Base BMap MultiKeyMap MultiKeyMapFacts Bytes Types Amount Tx CallData
  Network Hex Transactions State Audit Ranges Rlp Parser Memo Driver Sys SysSpec WtInv StateEquiv
  TxSpec WtContent Segments SysFacts.

(** ** What an upgrade changes *)

Definition keep {A} (o : option A) (a : A) : A := match o with Some x => x | None => a end.

Definition upgraded (a : UpgradeArg) (s : State) : State :=
  {| evm_network := evm_network s;
     ecdsa_key_name := ecdsa_key_name s;
     native_ledger_id := native_ledger_id s;
     native_index_id := native_index_id s;
     native_symbol := native_symbol s;
     helper_contract_address :=
       match ua_helper_contract_address a with
       | Some t => address_of_text t
       | None => helper_contract_address s
       end;
     evm_canister_id := keep (ua_evm_rpc_id a) (evm_canister_id s);
     native_ledger_transfer_fee :=
       keep (ua_native_ledger_transfer_fee a) (native_ledger_transfer_fee s);
     native_minimum_withdrawal_amount :=
       keep (ua_native_minimum_withdrawal_amount a) (native_minimum_withdrawal_amount s);
     block_height := keep (ua_block_height a) (block_height s);
     first_scraped_block_number := first_scraped_block_number s;
     last_scraped_block_number := keep (ua_last_scraped_block_number a) (last_scraped_block_number s);
     last_observed_block_number := last_observed_block_number s;
     last_observed_block_time := last_observed_block_time s;
     events_to_mint := events_to_mint s;
     minted_events := minted_events s;
     invalid_events := invalid_events s;
     withdrawals := set_next_nonce (keep (ua_next_transaction_nonce a) (next_nonce (withdrawals s)))
                      (withdrawals s);
     skipped_blocks := skipped_blocks s;
     native_balance := native_balance s;
     erc20_balances := erc20_balances s;
     pending_withdrawal_principals := pending_withdrawal_principals s;
     active_tasks := active_tasks s;
     last_transaction_price_estimate := last_transaction_price_estimate s;
     deposit_native_fee := keep (option_map fee_option (ua_deposit_native_fee a)) (deposit_native_fee s);
     withdrawal_native_fee :=
       keep (option_map fee_option (ua_withdrawal_native_fee a)) (withdrawal_native_fee s);
     ledger_suite_manager_id := ledger_suite_manager_id s;
     erc20_tokens := erc20_tokens s;
     min_max_priority_fee_per_gas :=
       keep (ua_min_max_priority_fee_per_gas a) (min_max_priority_fee_per_gas s);
     swap_canister_id := swap_canister_id s |}.

Definition fits_opt (o : option N) : Prop := forall n, o = Some n -> n <= U256_MAX.
Definition opt_address_ok (o : option text) : Prop :=
  forall t, o = Some t -> exists x, address_of_text t = Some x.

Definition upgrade_args_ok (a : UpgradeArg) : Prop :=
  fits_opt (ua_next_transaction_nonce a) /\
  fits_opt (ua_native_minimum_withdrawal_amount a) /\
  fits_opt (ua_native_ledger_transfer_fee a) /\
  fits_opt (ua_min_max_priority_fee_per_gas a) /\
  opt_address_ok (ua_helper_contract_address a) /\
  fits_opt (ua_last_scraped_block_number a) /\
  fits_opt (ua_deposit_native_fee a) /\
  fits_opt (ua_withdrawal_native_fee a).

Lemma upd_nat_ok o e f r s' :
  upd_nat o e f r = ROk s' <->
  exists s, r = ROk s /\ fits_opt o /\ s' = match o with Some n => f n s | None => s end.
Proof.
  unfold upd_nat, fits_opt. destruct r as [s|x]; [|split; [discriminate|intros (s & H & _); discriminate]].
  destruct o as [n|].
  - rewrite amount_of_nat_spec. destruct (N.leb_spec n U256_MAX) as [E|E].
    + split.
      * injection 1 as <-. exists s. repeat split; auto. intros ? [= <-]; auto.
      * intros (s0 & H & _ & ->). congruence.
    + split; [discriminate|]. intros (s0 & H & Hf & ->). specialize (Hf n eq_refl). lia.
  - split.
    + injection 1 as <-. exists s. repeat split; auto. discriminate.
    + intros (s0 & H & _ & ->). auto.
Qed.
Lemma upd_opt_ok {A} (o : option A) f r s' :
  upd_opt o f r = ROk s' <-> exists s, r = ROk s /\ s' = match o with Some n => f n s | None => s end.
Proof.
  unfold upd_opt. destruct r as [s|x]; [|split; [discriminate|intros (s & H & _); discriminate]].
  destruct o; split; try (injection 1 as <-; eauto); intros (s0 & [= ->] & ->); auto.
Qed.

Lemma upgrade_spec a s s' :
  upgrade a s = ROk s' <->
  upgrade_args_ok a /\ validate_config (upgraded a s) = None /\ s' = upgraded a s.
Proof.
  unfold upgrade.
  match goal with |- match ?R with ROk _ => _ | RErr _ => _ end = _ <-> _ => set (r10 := R) end.
  assert (H10 : forall x, r10 = ROk x <-> upgrade_args_ok a /\ x = upgraded a s).
  { subst r10. intros x. rewrite upd_nat_ok.
    setoid_rewrite upd_nat_ok. setoid_rewrite upd_opt_ok. setoid_rewrite upd_opt_ok.
    setoid_rewrite upd_nat_ok.
    match goal with |- context [match ?R with ROk _ => _ | RErr _ => _ end] => set (r4 := R) end.
    assert (H4 : forall x, r4 = ROk x <->
      fits_opt (ua_next_transaction_nonce a) /\ fits_opt (ua_native_minimum_withdrawal_amount a) /\
      fits_opt (ua_native_ledger_transfer_fee a) /\ fits_opt (ua_min_max_priority_fee_per_gas a) /\
      x = set_min_max_priority_fee_per_gas
           (keep (ua_min_max_priority_fee_per_gas a) (min_max_priority_fee_per_gas s))
         (set_native_ledger_transfer_fee
           (keep (ua_native_ledger_transfer_fee a) (native_ledger_transfer_fee s))
         (set_native_minimum_withdrawal_amount
           (keep (ua_native_minimum_withdrawal_amount a) (native_minimum_withdrawal_amount s))
         (set_withdrawals (set_next_nonce
            (keep (ua_next_transaction_nonce a) (next_nonce (withdrawals s))) (withdrawals s)) s)))).
    { subst r4. intros y. rewrite upd_nat_ok. setoid_rewrite upd_nat_ok. setoid_rewrite upd_nat_ok.
      setoid_rewrite upd_nat_ok. split.
      - intros (s1 & (s2 & (s3 & (s4 & [= <-] & F4 & ->) & F3 & ->) & F2 & ->) & F1 & ->).
        repeat (split; auto). unfold keep, update_next_transaction_nonce.
        destruct s as [? ? ? ? ? ? ? ? ? ? ? ? ? ? ? ? ? [] ? ? ? ? ? ? ? ? ? ? ? ?].
        destruct (ua_min_max_priority_fee_per_gas a), (ua_native_ledger_transfer_fee a),
          (ua_native_minimum_withdrawal_amount a), (ua_next_transaction_nonce a); reflexivity.
      - intros (F1 & F2 & F3 & F4 & ->).
        eexists. split; [|split; [exact F4|]].
        + eexists. split; [|split; [exact F3|reflexivity]]. eexists. split; [|split; [exact F2|reflexivity]].
          eexists. split; [reflexivity|]. split; [exact F1|reflexivity].
        + unfold keep, update_next_transaction_nonce.
          destruct s as [? ? ? ? ? ? ? ? ? ? ? ? ? ? ? ? ? [] ? ? ? ? ? ? ? ? ? ? ? ?].
          destruct (ua_min_max_priority_fee_per_gas a), (ua_native_ledger_transfer_fee a),
            (ua_native_minimum_withdrawal_amount a), (ua_next_transaction_nonce a); reflexivity. }
    set (r5 := match r4 with ROk s0 => _ | RErr e => r4 end).
    assert (H5 : forall x, r5 = ROk x <->
      exists y, r4 = ROk y /\ opt_address_ok (ua_helper_contract_address a) /\
      x = set_helper_contract_address
            (match ua_helper_contract_address a with
             | Some t => address_of_text t | None => helper_contract_address y end) y).
    { subst r5. intros z. destruct r4 as [y|]; [|split; [discriminate|intros (? & ? & _); discriminate]].
      unfold opt_address_ok. destruct (ua_helper_contract_address a) as [t|].
      - destruct (address_of_text t) as [v|] eqn:E; split; try discriminate.
        + injection 1 as <-. exists y. repeat split; auto. intros ? [= <-]; eauto.
        + intros (y0 & [= <-] & _ & ->). auto.
        + intros (y0 & [= <-] & Hx & _). destruct (Hx t eq_refl); congruence.
      - split.
        + injection 1 as <-. exists y. repeat split; auto. discriminate.
          destruct y; reflexivity.
        + intros (y0 & [= <-] & _ & ->). destruct y; reflexivity. }
    clearbody r5. clearbody r4. unfold upgrade_args_ok.
    split.
    - intros (s9 & (s8 & (s7 & (s6 & (s5 & Hs5 & F6 & ->) & ->) & ->) & F9 & ->) & F10 & ->).
      apply H5 in Hs5 as (y & Hy & Fa & ->). apply H4 in Hy as (? & ? & ? & ? & ->).
      repeat (split; auto). unfold upgraded, keep, option_map.
      destruct (ua_withdrawal_native_fee a), (ua_deposit_native_fee a), (ua_evm_rpc_id a),
        (ua_block_height a), (ua_last_scraped_block_number a); reflexivity.
    - intros ((F1 & F2 & F3 & F4 & Fa & F6 & F9 & F10) & ->).
      eexists. split; [|split; [exact F10|]].
      + eexists. split; [|split; [exact F9|reflexivity]].
        eexists. split; [|reflexivity]. eexists. split; [|reflexivity].
        eexists. split; [|split; [exact F6|reflexivity]].
        apply H5. eexists. split; [|split; [exact Fa|reflexivity]].
        apply H4. repeat (split; [eassumption|]). reflexivity.
      + unfold upgraded, keep, option_map.
        destruct (ua_withdrawal_native_fee a), (ua_deposit_native_fee a), (ua_evm_rpc_id a),
          (ua_block_height a), (ua_last_scraped_block_number a); reflexivity. }
  clearbody r10. destruct r10 as [x|e].
  - destruct (proj1 (H10 x) eq_refl) as [Ha ->].
    destruct (validate_config (upgraded a s)); split; try discriminate.
    + intros (_ & ? & _). discriminate.
    + injection 1 as <-. auto.
    + intros (_ & _ & ->). auto.
  - split; [discriminate|]. intros (Ha & Hv & ->).
    assert (RErr e = ROk (upgraded a s)) by (apply H10; auto). discriminate.
Qed.

(** ** What no event changes *)

Definition same_const (s s' : State) : Prop :=
  evm_network s' = evm_network s /\ native_ledger_id s' = native_ledger_id s /\
  native_symbol s' = native_symbol s /\ ledger_suite_manager_id s' = ledger_suite_manager_id s /\
  first_scraped_block_number s' = first_scraped_block_number s /\
  native_index_id s' = native_index_id s /\ ecdsa_key_name s' = ecdsa_key_name s.

Definition same_volatile (s s' : State) : Prop :=
  last_observed_block_number s' = last_observed_block_number s /\
  last_observed_block_time s' = last_observed_block_time s /\
  pending_withdrawal_principals s' = pending_withdrawal_principals s /\
  active_tasks s' = active_tasks s /\
  last_transaction_price_estimate s' = last_transaction_price_estimate s.

Lemma update_balance_shape b r s s' :
  update_balance_upon_withdrawal b r s = Done s' ->
  exists nb eb, s' = set_erc20_balances eb (set_native_balance nb s).
Proof.
  assert (Hid : forall nb s, set_native_balance nb s =
    set_erc20_balances (erc20_balances s) (set_native_balance nb s)) by (intros ? []; reflexivity).
  unfold update_balance_upon_withdrawal. intros H. inv_res.
  destruct (rc_status r); inv_res; [|eauto].
  destruct (tx_data (st_tx (ft_tx x0))); inv_res; eauto.
  match goal with H : match ?x with _ => _ end = _ |- _ => destruct x as [[? ?]|] end; inv_res; eauto.
Qed.

Lemma apply_same s e s' :
  apply_state_transition s e = Done s' -> same_const s s' /\ same_volatile s s'.
Proof.
  intros H. destruct e; cbn [apply_state_transition] in H; try discriminate;
    try (apply on_withdrawals_inv in H as (w & _ & ->); repeat split; fail);
    try (injection H as <-; repeat split; fail).
  - destruct (upgrade a s) as [x|] eqn:E; [|discriminate]. injection H as <-.
    apply upgrade_spec in E as (_ & _ & ->). repeat split.
  - unfold record_event_to_mint, update_balance_upon_deposit in H. inv_res; repeat split.
  - unfold record_invalid_deposit in H. inv_res.
    destruct (bmem _ (invalid_events s)); inv_res; repeat split.
  - unfold record_successful_mint in H. inv_res. repeat split.
  - unfold state_record_finalized_transaction in H. inv_res.
    apply update_balance_shape in H as (nb & eb & ->). repeat split.
  - unfold record_add_erc20_token in H. inv_res. repeat split.
  - unfold record_event_to_mint, update_balance_upon_deposit in H. inv_res; repeat split.
  - unfold record_erc20_withdrawal_request in H. inv_res. repeat split.
  - unfold record_successful_mint in H. inv_res. repeat split.
  - injection H as <-. unfold record_quarantined_deposit. destruct (bmem _ _); repeat split.
  - unfold record_skipped_block in H. inv_res. repeat split.
Qed.

(** ** The withdrawal tables *)

(** How an event changes the withdrawal tables *)
Definition wt_event (e : EventType) (w : WT) : res WT :=
  match e with
  | EvUpgrade a => Done (set_next_nonce (keep (ua_next_transaction_nonce a) (next_nonce w)) w)
  | EvAcceptedNativeWithdrawalRequest r => record_withdrawal_request (WNative r) w
  | EvAcceptedErc20WithdrawalRequest r => record_withdrawal_request (WErc20 r) w
  | EvCreatedTransaction id t => record_created_transaction id t w
  | EvSignedTransaction _ t => record_signed_transaction t w
  | EvReplacedTransaction _ t => record_resubmit_transaction t w
  | EvFinalizedTransaction id r => record_finalized_transaction id r w
  | EvReimbursedNativeWithdrawal r =>
      record_finalized_reimbursement (RINative (rd_burn_in_block r)) (rd_reimbursed_in_block r) w
  | EvReimbursedErc20Withdrawal b l r =>
      record_finalized_reimbursement (RIErc20 b l (rd_burn_in_block r)) (rd_reimbursed_in_block r) w
  | EvFailedErc20WithdrawalRequest r =>
      record_reimbursement_request (RINative (rr_ledger_burn_index r)) r w
  | EvQuarantinedReimbursement i => Done (record_quarantined_reimbursement i w)
  | _ => Done w
  end.

Lemma apply_wt s e s' :
  apply_state_transition s e = Done s' -> wt_event e (withdrawals s) = Done (withdrawals s').
Proof.
  intros H. destruct e; cbn [apply_state_transition wt_event] in *; try discriminate;
    try (apply on_withdrawals_inv in H as (w & Hw & ->); exact Hw);
    try (injection H as <-; reflexivity).
  - destruct (upgrade a s) as [x|] eqn:E; [|discriminate]. injection H as <-.
    apply upgrade_spec in E as (_ & _ & ->). reflexivity.
  - apply wt_record_event_to_mint in H. congruence.
  - apply wt_record_invalid_deposit in H. congruence.
  - apply wt_record_successful_mint in H. congruence.
  - unfold state_record_finalized_transaction in H. inv_res.
    apply wt_update_balance in H. cbn in H. congruence.
  - apply wt_record_add_erc20_token in H. congruence.
  - apply wt_record_event_to_mint in H. congruence.
  - unfold record_erc20_withdrawal_request in H. inv_res. assumption.
  - apply wt_record_successful_mint in H. congruence.
  - injection H as <-. unfold record_quarantined_deposit. destruct (bmem _ _); reflexivity.
  - apply wt_record_skipped_block in H. congruence.
Qed.

(** An upgrade event that does not lower the nonce *)
Definition nonce_up (w : WT) (e : EventType) : Prop :=
  match e with
  | EvUpgrade a => forall n, ua_next_transaction_nonce a = Some n -> next_nonce w <= n
  | _ => True
  end.

Lemma wt_event_inv e w w' : wt_inv w -> nonce_up w e -> wt_event e w = Done w' -> wt_inv w'.
Proof.
  intros Hi Hn H. destruct e; cbn [wt_event] in H; try (injection H as <-; exact Hi);
    eauto using inv_record_withdrawal_request, inv_record_created, inv_record_signed,
      inv_record_resubmit, inv_record_finalized, inv_record_finalized_reimbursement,
      inv_record_reimbursement_request.
  - injection H as <-. apply inv_set_next_nonce; auto. cbn in Hn.
    destruct (ua_next_transaction_nonce a); cbn; [eauto|lia].
  - injection H as <-. apply inv_record_quarantined_reimbursement; auto.
Qed.

Lemma apply_wt_inv s e s' :
  wt_inv (withdrawals s) -> nonce_up (withdrawals s) e ->
  apply_state_transition s e = Done s' -> wt_inv (withdrawals s').
Proof. intros. eapply wt_event_inv; eauto using apply_wt. Qed.

(** ** Transactions serve their requests *)

Section Content.
Variable keccak : list N -> Hash.

(** A signed transaction carries the hash of its raw bytes *)
Definition signed_ok (s : SignedTx) : Prop := exists t sg, s = signed_tx keccak t sg.

Definition content (s : State) : Prop :=
  wt_content (tx_serves (evm_network s)) signed_ok (withdrawals s).

(** What [content] needs to know about an event *)
Definition event_content (s : State) (e : EventType) : Prop :=
  let w := withdrawals s in
  match e with
  | EvCreatedTransaction id t =>
      forall r, In r (pending w) -> wr_burn_index r = id -> tx_serves (evm_network s) r t
  | EvReplacedTransaction _ t =>
      forall b l r, row_sent w (tx_nonce t) b l -> bget b (processed w) = Some r ->
        tx_serves (evm_network s) r t
  | EvSignedTransaction _ t => signed_ok t
  | _ => True
  end.

Lemma apply_content s e s' :
  wt_inv (withdrawals s) -> content s -> event_content s e ->
  apply_state_transition s e = Done s' -> content s'.
Proof.
  intros Hi Hc He H. unfold content. destruct (apply_same _ _ _ H) as ((-> & _) & _).
  apply apply_wt in H. unfold content in Hc.
  destruct e; cbn [wt_event event_content] in *; try (injection H as <-; exact Hc);
    eauto using content_request, content_created, content_signed,
      content_resubmit, content_finalized, content_finalized_reimbursement,
      content_reimbursement_request.
  - injection H as <-. apply content_next_nonce; auto.
  - injection H as <-. apply content_quarantine; auto.
Qed.

(** Which callback processes which event *)
Definition minted_by (t : Task) (r : Reply) (e : EventType) : Prop :=
  exists j b, e = minted_event j b /\
    ((t = TMint j /\ r = ReLedger (LedgerOk b) /\ is_native (mj_event j) && is_some (mj_fee j) = false)
     \/ (t = TMintFee j b /\ exists a, r = ReLedger a)).

Definition emits_of (t : Task) (r : Reply) (s : State) (e : EventType) : Prop :=
  match e with
  | EvInit _ | EvUpgrade _ | EvSyncedToBlock _ | EvAddedErc20Token _ | EvQuarantinedDeposit _
  | EvQuarantinedReimbursement _ => False
  | EvAcceptedDeposit _ | EvAcceptedErc20Deposit _ | EvInvalidDeposit _ _ =>
      exists j logs ds es, t = TScrapeLogs j /\ r = ReLogs (LogsOk logs) /\
        parse_all_logs logs = Done (ds, es) /\ In e (register_events ds es)
  | EvSkippedBlock b =>
      exists j, t = TScrapeLogs j /\ r = ReLogs LogsTooLarge /\ sj_current j = (b, b)
  | EvMintedNative _ _ | EvMintedErc20 _ _ _ _ => minted_by t r e
  | EvReimbursedNativeWithdrawal _ | EvReimbursedErc20Withdrawal _ _ _ =>
      exists l i q rest b, t = TReimburse l i q rest /\ r = ReLedger (LedgerOk b) /\
        e = reimbursed_event i q b
  | EvAcceptedNativeWithdrawalRequest q =>
      exists j b, t = TNativeBurn j /\ r = ReLedger (LedgerOk b) /\ q = native_request j b
  | EvAcceptedErc20WithdrawalRequest q =>
      exists j i b, t = TErc20Burn j i /\ r = ReLedger (LedgerOk b) /\ q = erc20_request j i b
  | EvFailedErc20WithdrawalRequest q =>
      exists j i a amount, t = TErc20Burn j i /\ r = ReLedger a /\ (forall b, a <> LedgerOk b) /\
        0 < amount /\ amount <= ej_tx_fee j /\ q = failed_request j i amount
  | EvReplacedTransaction b t' =>
      exists g x k l last, t = TRetrieveCount g /\ r = ReCount x /\
        row_sent (withdrawals s) k b l /\ last_opt l = Some last /\
        resubmit (st_tx (rs_tx last)) (rs_strategy last) g = Done (ROk (Some t'))
  | EvCreatedTransaction b t' =>
      exists g x q, t = TRetrieveCount g /\ r = ReCount x /\
        In q (pending (withdrawals s)) /\ b = wr_burn_index q /\
        create_transaction q (next_nonce (withdrawals s)) g (estimate_gas_limit q) (evm_network s)
           = Done (ROk t')
  | EvSignedTransaction b t' =>
      exists c batch x tx sg, t = TRetrieveSign c batch /\ r = ReSigs x /\
        In (b, tx) batch /\ t' = signed_tx keccak tx sg
  | EvFinalizedTransaction b x =>
      exists h l, t = TRetrieveReceipts h /\ r = ReReceipts l /\ In b (bvals h) /\ In (ReceiptOk x) l
  end.

Lemma emits_inv t r s e : emits keccak t r s e -> emits_of t r s e.
Proof.
  intros H. destruct t; try (destruct H; fail); destruct r; cbn in H; try (destruct H; fail).
  - destruct r as [block| |]; try (destruct H; fail). destruct H as [-> H].
    unfold minted_event. destruct (mj_event j) eqn:E; cbn; exists j, block; unfold minted_event;
      rewrite E; split; auto; left; repeat split; auto; rewrite E; auto.
  - subst. unfold minted_event. destruct (mj_event j) eqn:E; cbn; exists j, block; unfold minted_event;
      rewrite E; split; auto; right; eauto.
  - destruct r; try (destruct H; fail). subst. destruct i; cbn;
      do 5 eexists; repeat split; eauto.
  - destruct r as [logs| |]; try (destruct H; fail).
    + destruct H as (ds & es & Hp & Hin). 
      assert (He : exists j' logs' ds es, TScrapeLogs j = TScrapeLogs j' /\
        ReLogs (LogsOk logs) = ReLogs (LogsOk logs') /\
        parse_all_logs logs' = Done (ds, es) /\ In e (register_events ds es)) by eauto 10.
      unfold register_events in Hin. apply in_app_iff in Hin as [Hin|Hin].
      * apply in_map_iff in Hin as (d & <- & _). destruct d; exact He.
      * apply in_flat_map in Hin as (d & _ & Hd). destruct d; cbn in Hd; [tauto|].
        destruct Hd as [<-|[]]. exact He.
    + destruct H as [-> H]. cbn. exists j. repeat split; auto.
      destruct (sj_current j); cbn in *; congruence.
  - destruct H as [(k & b & l & last & t' & H1 & H2 & H3 & ->)|(q & t' & H1 & H2 & ->)]; cbn; eauto 10.
  - destruct H as (id & t' & sg & Hin & ->). cbn. eauto 10.
  - destruct H as (id & x & H1 & H2 & ->). cbn. eauto 10.
  - destruct r; try (destruct H; fail). subst. cbn. eauto 10.
  - destruct r as [b|a|]; [subst; cbn; eauto 10| |];
      destruct H as (amount & H1 & H2 & ->); cbn; do 4 eexists; repeat split; eauto; discriminate.
Qed.

(** The events of a callback have the right content *)
Lemma estimate_gas_limit_eq q :
  estimate_gas_limit q = match q with WNative _ => 21000 | WErc20 _ => 65000 end.
Proof. destruct q; reflexivity. Qed.

Lemma emits_content t r s e :
  wt_inv (withdrawals s) -> content s -> emits keccak t r s e -> event_content s e.
Proof.
  intros Hi Hc H. apply emits_inv in H. destruct e; cbn in *; auto.
  - destruct H as (g & x & q & -> & -> & Hin & -> & Ht). intros r Hr Hb.
    assert (r = q) by (eapply nodup_burn_unique; eauto using i_pend_nodup). subst r.
    rewrite estimate_gas_limit_eq in Ht. apply create_transaction_serves in Ht. tauto.
  - destruct H as (c & batch & x & tx & sg & -> & -> & _ & ->). unfold signed_ok. eauto.
  - destruct H as (g & x & k & l & last & -> & -> & Hrow & Hl & Ht).
    intros b l' r Hrow' Hr.
    destruct (i_sent_tx _ Hi _ _ _ Hrow) as (_ & r1 & Hr1 & Hall).
    destruct (Hall _ (last_opt_in _ _ Hl)) as [Hn Hst].
    destruct (c_sent _ _ _ Hc _ _ _ Hrow) as (r2 & Hr2 & Hall2).
    destruct (Hall2 _ (last_opt_in _ _ Hl)) as [Hs _].
    assert (r2 = r1) by congruence. subst r2.
    rewrite Hst in Ht. destruct (resubmit_serves _ _ _ _ _ Hs Ht) as [Hs' Hn'].
    rewrite Hn' in Hrow'. rewrite Hn in Hrow'.
    destruct (row_fun_key _ _ _ _ _ _ Hrow Hrow') as [<- _]. congruence.
Qed.

(** ** Replay *)

Definition replayable (c : Core) : Prop :=
  exists s, replay_events (snd c) = Done s /\ sim s (fst c).

Lemma replay_snoc log now e s s' :
  replay_events log = Done s -> apply_state_transition s e = Done s' ->
  replay_events (record_event now e log) = Done s'.
Proof.
  unfold record_event, replay_events. destruct log as [|e0 log]; cbn; [discriminate|].
  destruct (ev_payload e0); try discriminate. destruct (state_of_init a); [|discriminate].
  intros H1 H2. rewrite rfold_app, H1. cbn. rewrite H2. reflexivity.
Qed.

Record core_ok (c : Core) : Prop := {
  core_wt : wt_inv (withdrawals (fst c));
  core_content : content (fst c);
  core_replay : replayable c
}.

Lemma sim_wt_inv s s' : sim s s' -> wt_inv (withdrawals s) -> wt_inv (withdrawals s').
Proof.
  intros (v & p & Hp & ->) Hi. cbn. apply wt_inv_pending; auto.
  - eapply Permutation_NoDup; [apply Permutation_map; symmetry; eassumption|]. apply i_pend_nodup; auto.
  - intros r Hr. apply i_pend_fresh; auto. eapply Permutation_in; eauto.
Qed.
Lemma sim_content s s' : sim s s' -> content s -> content s'.
Proof. intros (v & p & Hp & ->) Hc. unfold content in *. cbn. apply content_pending; auto. Qed.

Lemma queue_sim s r w' :
  wt_inv (withdrawals s) -> In r (pending (withdrawals s)) ->
  reschedule_withdrawal_request r (withdrawals s) = Done w' -> sim s (set_withdrawals w' s).
Proof.
  intros Hi Hin H. rewrite reschedule_present in H by auto. injection H as <-.
  exists (vol_of s). eexists. split.
  - apply filter_remove_perm; eauto. apply i_pend_nodup; auto.
  - destruct s; reflexivity.
Qed.

Lemma core_sim s s' log : sim s s' -> core_ok (s, log) -> core_ok (s', log).
Proof.
  intros Hs [H1 H2 (s0 & H3 & H4)]. constructor; cbn in *.
  - eapply sim_wt_inv; eauto.
  - eapply sim_content; eauto.
  - exists s0. split; auto. eapply sim_trans; eauto.
Qed.

(** Events that keep [core_ok] *)
Definition good_event (s : State) (e : EventType) : Prop :=
  wt_inv (withdrawals s) -> content s -> nonce_up (withdrawals s) e /\ event_content s e.

Lemma core_event now s e s' log :
  good_event s e -> core_ok (s, log) -> apply_state_transition s e = Done s' ->
  core_ok (s', record_event now e log).
Proof.
  intros Hg [H1 H2 (s0 & H3 & H4)] H. cbn in *. destruct (Hg H1 H2) as [Hn He].
  constructor; cbn.
  - eapply apply_wt_inv; eauto.
  - eapply apply_content; eauto.
  - destruct (apply_sim _ _ _ _ H1 (sim_sym _ _ H4) H) as (s0' & Ha & Hs).
    exists s0'. split; [eapply replay_snoc; eauto|apply sim_sym; auto].
Qed.

Lemma core_micros now c c' : micros good_event now c c' -> core_ok c -> core_ok c'.
Proof.
  intros H. eapply micros_inv; eauto. clear. intros c c' Hc H. inversion H; subst.
  - eapply core_sim; eauto using vstep_sim.
  - eapply core_event; eauto.
  - eapply core_sim; eauto. eapply queue_sim; eauto. destruct Hc; auto.
Qed.

Lemma good_emits t r s e : emits keccak t r s e -> good_event s e.
Proof.
  intros H Hi Hc. split; [|eapply emits_content; eauto].
  apply emits_inv in H. destruct e; cbn in *; tauto.
Qed.
Lemma good_call u s e : call_emits u s e -> good_event s e.
Proof.
  intros H Hi Hc. destruct u; cbn in H; try tauto. destruct H as (_ & t & _ & ->). cbn. auto.
Qed.
Lemma good_quarantine t s e : In e (task_quarantine t) -> good_event s e.
Proof. intros H Hi Hc. destruct t; cbn in H; try tauto; destruct H as [<-|[]]; cbn; auto. Qed.

(** ** Upgrades *)

(** What an upgrade without arguments makes of the state *)
Lemma pre_upgrade_replay now c : replayable c ->
  exists s, replay_events (pre_upgrade now c) = Done s /\ sim s (fst c) /\
    last_scraped_block_number s = last_scraped_block_number (fst c).
Proof.
  intros (s0 & H & Hs). eexists. split; [|split].
  - unfold pre_upgrade. eapply replay_snoc; eauto. reflexivity.
  - eapply sim_trans; [|exact Hs]. apply sim_sym, vstep_sim, vstep_scraped.
  - reflexivity.
Qed.

Lemma canister_upgrade_inv now a c c' :
  replayable c -> canister_upgrade now a c = Done c' ->
  exists s, replay_events (pre_upgrade now c) = Done s /\ sim s (fst c) /\
    last_scraped_block_number s = last_scraped_block_number (fst c) /\
    match a with
    | None => c' = (s, pre_upgrade now c)
    | Some x => exists s', apply_state_transition s (EvUpgrade x) = Done s' /\
                  c' = (s', record_event now (EvUpgrade x) (pre_upgrade now c))
    end.
Proof.
  intros Hr H. destruct (pre_upgrade_replay now _ Hr) as (s & H1 & H2 & H3).
  exists s. repeat split; auto. unfold canister_upgrade, post_upgrade in H. rewrite H1 in H. cbn [rbind] in H.
  destruct a; [|congruence]. apply process_event_inv in H as (s' & Ha & ->). eauto.
Qed.

Lemma core_upgrade now a c c' :
  core_ok c ->
  (forall x, a = Some x -> forall n, ua_next_transaction_nonce x = Some n -> next_nonce (withdrawals (fst c)) <= n) ->
  canister_upgrade now a c = Done c' -> core_ok c'.
Proof.
  intros Hc Hn H. destruct (canister_upgrade_inv _ _ _ _ (core_replay _ Hc) H) as (s & H1 & H2 & H3 & H4).
  assert (Hs : core_ok (s, pre_upgrade now c)).
  { apply sim_sym in H2. destruct c as [s0 log]. destruct (core_sim _ _ log H2 Hc) as [Ha Hb _].
    constructor; auto. exists s. split; auto. apply sim_refl. }
  destruct a as [x|]; [|subst; auto]. destruct H4 as (s' & Ha & ->).
  eapply core_event; eauto. intros _ _. cbn. split; auto. intros n Hnn.
  apply (Hn x eq_refl) in Hnn. destruct H2 as (v & p & _ & Hv). rewrite Hv in Hnn. exact Hnn.
Qed.

(** ** Lifting to the system *)

Variable self : Principal.

Definition any_emits (s : State) (e : EventType) : Prop :=
  (exists t r, emits keccak t r s e) \/ (exists u, call_emits u s e) \/
  (exists t, In e (task_quarantine t)).

Lemma good_any s e : any_emits s e -> good_event s e.
Proof.
  intros [(t & r & H)|[(u & H)|(t & H)]]; eauto using good_emits, good_call, good_quarantine.
Qed.

Lemma trans_core s l s' :
  wt_inv (withdrawals (sys_state s)) -> Trans self keccak s l s' ->
  (exists now, micros any_emits now (sys_core s) (sys_core s')) \/
  (exists a now, l = LUpgrade a now /\ sys_tasks s = [] /\
     canister_upgrade now a (sys_core s) = Done (sys_core s')).
Proof.
  intros Hi H. destruct H; cbn; rewrite ?install_core; cbn; try (left; exists 0; apply MNil).
  - left. exists now. apply timer_micros in H0 as [Hv Hl]. destruct c. cbn in *. subst. apply micros_vol; auto.
  - left. exists now. eapply micros_mono; [|eapply call_micros; eauto]. unfold any_emits; eauto.
  - left. exists now. eapply micros_mono; [|eapply resume_micros; eauto]. unfold any_emits; eauto.
  - left. exists now. destruct (cleanup_micros now t (sys_core s)) as (c' & Hc & Hm).
    assert (c' = c) by congruence. subst. eapply micros_mono; [|eauto]. unfold any_emits; eauto.
  - right. eauto.
Qed.

Lemma core_trans s l s' :
  core_ok (sys_core s) -> nonce_kept s l -> Trans self keccak s l s' -> core_ok (sys_core s').
Proof.
  intros Hc Hn H. apply trans_core in H as [(now & Hm)|(a & now & -> & _ & Hu)].
  - eapply core_micros; [|exact Hc]. eapply micros_mono; [|exact Hm]. apply good_any.
  - eapply core_upgrade; eauto. intros x ->. exact Hn.
  - apply (core_wt _ Hc).
Qed.

Lemma state_of_init_wt a s : state_of_init a = ROk s -> exists n, withdrawals s = wt_new n.
Proof.
  unfold state_of_init, ebind. intros H.
  repeat match type of H with match ?x with _ => _ end = _ => destruct x; try discriminate end.
  injection H as <-. cbn. eauto.
Qed.

Lemma core_init now a s : sys_init now a = Done s -> core_ok (sys_core s).
Proof.
  intros H. apply sys_init_inv in H as (st & Hst & Hc & _). rewrite Hc.
  destruct (state_of_init_wt _ _ Hst) as (n & Hw). constructor; cbn.
  - rewrite Hw. apply wt_inv_new.
  - unfold content. rewrite Hw. apply content_new.
  - exists st. cbn. rewrite Hst. split; auto. apply sim_refl.
Qed.

Lemma core_reach (env : Sys -> Label -> Prop) s :
  (forall s l, env s l -> nonce_kept s l) -> reach self keccak env s -> core_ok (sys_core s).
Proof.
  intros He. apply (reach_inv self keccak env (fun s => core_ok (sys_core s))); [apply core_init|].
  intros. eapply core_trans; eauto.
Qed.

End Content.
