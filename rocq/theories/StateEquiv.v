(** * States that differ only in what the event log does not determine.

    [vol v p s] is [s] with other volatile fields [v] and the waiting withdrawal
    requests in another order [p]. *)

From Verif Require Import Base BMap MultiKeyMap MultiKeyMapFacts Bytes Types Amount Tx CallData
  Network Hex Transactions State Audit WtInv.

Record Vol := {
  v_scraped : N;
  v_obs_number : option N;
  v_obs_time : option N;
  v_principals : bset Principal;
  v_active : bset TaskType;
  v_price : option (N * GasFeeEstimate)
}.

Definition vol (v : Vol) (p : list WithdrawalRequest) (s : State) : State :=
  {| evm_network := evm_network s;
     ecdsa_key_name := ecdsa_key_name s;
     native_ledger_id := native_ledger_id s;
     native_index_id := native_index_id s;
     native_symbol := native_symbol s;
     helper_contract_address := helper_contract_address s;
     evm_canister_id := evm_canister_id s;
     native_ledger_transfer_fee := native_ledger_transfer_fee s;
     native_minimum_withdrawal_amount := native_minimum_withdrawal_amount s;
     block_height := block_height s;
     first_scraped_block_number := first_scraped_block_number s;
     last_scraped_block_number := v_scraped v;
     last_observed_block_number := v_obs_number v;
     last_observed_block_time := v_obs_time v;
     events_to_mint := events_to_mint s;
     minted_events := minted_events s;
     invalid_events := invalid_events s;
     withdrawals := set_pending p (withdrawals s);
     skipped_blocks := skipped_blocks s;
     native_balance := native_balance s;
     erc20_balances := erc20_balances s;
     pending_withdrawal_principals := v_principals v;
     active_tasks := v_active v;
     last_transaction_price_estimate := v_price v;
     deposit_native_fee := deposit_native_fee s;
     withdrawal_native_fee := withdrawal_native_fee s;
     ledger_suite_manager_id := ledger_suite_manager_id s;
     erc20_tokens := erc20_tokens s;
     min_max_priority_fee_per_gas := min_max_priority_fee_per_gas s;
     swap_canister_id := swap_canister_id s |}.

Definition vol_of (s : State) : Vol :=
  {| v_scraped := last_scraped_block_number s;
     v_obs_number := last_observed_block_number s;
     v_obs_time := last_observed_block_time s;
     v_principals := pending_withdrawal_principals s;
     v_active := active_tasks s;
     v_price := last_transaction_price_estimate s |}.

Definition sim (s1 s2 : State) : Prop :=
  exists v p, Permutation p (pending (withdrawals s1)) /\ s2 = vol v p s1.

Lemma vol_id s : vol (vol_of s) (pending (withdrawals s)) s = s.
Proof. destruct s as [? ? ? ? ? ? ? ? ? ? ? ? ? ? ? ? ? []]. reflexivity. Qed.
Lemma vol_vol v p v' p' s : vol v' p' (vol v p s) = vol v' p' s.
Proof. reflexivity. Qed.

Lemma sim_refl s : sim s s.
Proof. exists (vol_of s), (pending (withdrawals s)). split; auto. rewrite vol_id. auto. Qed.
Lemma sim_sym s1 s2 : sim s1 s2 -> sim s2 s1.
Proof.
  intros (v & p & Hp & ->). exists (vol_of s1), (pending (withdrawals s1)). split.
  - cbn. symmetry; auto.
  - rewrite vol_vol, vol_id. auto.
Qed.
Lemma sim_trans s1 s2 s3 : sim s1 s2 -> sim s2 s3 -> sim s1 s3.
Proof.
  intros (v & p & Hp & ->) (v' & p' & Hp' & ->). exists v', p'. split; [|rewrite vol_vol; auto].
  cbn in Hp'. etransitivity; eauto.
Qed.

Lemma perm_find l1 l2 b :
  Permutation l1 l2 -> NoDup (map wr_burn_index l1) ->
  find (has_burn_index b) l1 = find (has_burn_index b) l2.
Proof.
  intros Hp Hnd.
  assert (Hnd2 : NoDup (map wr_burn_index l2)).
  { eapply Permutation_NoDup; [apply Permutation_map; exact Hp|auto]. }
  destruct (find (has_burn_index b) l1) as [r|] eqn:E.
  - apply find_burn_index in E as [Hin <-]. symmetry. apply find_burn_index_in; auto.
    eapply Permutation_in; eauto.
  - destruct (find (has_burn_index b) l2) as [r|] eqn:E2; auto.
    apply find_burn_index in E2 as [Hin <-].
    assert (In r l1) by (eapply Permutation_in; [symmetry|]; eauto).
    rewrite find_burn_index_in in E; auto; discriminate.
Qed.
Lemma perm_existsb {A} (f : A -> bool) l1 l2 :
  Permutation l1 l2 -> existsb f l1 = existsb f l2.
Proof.
  induction 1; cbn; auto.
  - congruence.
  - destruct (f x), (f y); auto.
  - congruence.
Qed.
Lemma perm_filter {A} (f : A -> bool) l1 l2 :
  Permutation l1 l2 -> Permutation (filter f l1) (filter f l2).
Proof.
  induction 1; cbn; auto.
  - destruct (f x); auto.
  - destruct (f x), (f y); auto. apply perm_swap.
  - etransitivity; eauto.
Qed.

(** ** Withdrawal table transitions *)
Definition wres (p : list WithdrawalRequest) (r : res WT) : res WT :=
  w' <- r ;; Done (set_pending p w').

Ltac split_matches :=
  repeat (cbn; auto;
    match goal with
    | |- context [match ?x with _ => _ end] =>
        match x with
        | context [match _ with _ => _ end] => fail 1
        | _ => destruct x
        end
    end).

Lemma vol_record_request r p w w' :
  Permutation p (pending w) -> record_withdrawal_request r w = Done w' ->
  exists p', record_withdrawal_request r (set_pending p w) = Done (set_pending p' w') /\
             Permutation p' (pending w').
Proof.
  intros Hp H. unfold record_withdrawal_request in *. inv_res. cbn.
  rewrite (perm_existsb _ _ _ Hp). cbn in H0. rewrite H0. cbn.
  exists (p ++ [r]). split; auto. apply Permutation_app_tail. auto.
Qed.

Lemma vol_record_created id t p w w' :
  wt_inv w -> Permutation p (pending w) -> record_created_transaction id t w = Done w' ->
  exists p', record_created_transaction id t (set_pending p w) = Done (set_pending p' w') /\
             Permutation p' (pending w').
Proof.
  intros Hi Hp H.
  assert (Hf : find (has_burn_index id) p = find (has_burn_index id) (pending w)).
  { symmetry. apply perm_find; [symmetry; auto|apply i_pend_nodup; auto]. }
  unfold record_created_transaction in *. cbn. rewrite Hf.
  destruct (find (has_burn_index id) (pending w)) as [req|] eqn:E; cbn in *; [|discriminate].
  rewrite (perm_existsb _ _ _ Hp).
  destruct (existsb (wr_eqb req) (pending w)); cbn in *; [|discriminate].
  destruct (wr_destination req =? tx_destination t); cbn in *; [|discriminate].
  match type of H with rbind ?x _ = _ => destruct x eqn:E1; cbn in H |- *; [|discriminate] end.
  destruct (tx_nonce t =? next_nonce w); cbn in *; [|discriminate].
  destruct (checked_increment (next_nonce w)); cbn in *; [|discriminate].
  match type of H with rbind ?x _ = _ => destruct x eqn:E2; cbn in H |- *; [|discriminate] end.
  destruct (negb (bmem id (processed w))); cbn in *; [|discriminate].
  destruct (negb (bmem id (maybe_reimburse w))); cbn in *; [|discriminate].
  injection H as <-. cbn.
  eexists. split; [reflexivity|]. apply perm_filter; auto.
Qed.

Lemma vol_record_signed s p w :
  record_signed_transaction s (set_pending p w) = wres p (record_signed_transaction s w).
Proof.
  unfold record_signed_transaction, wres. cbn.
  destruct (mkm_get _ _); cbn; auto. destruct (tx_eqb _ _); cbn; auto.
  destruct (mkm_remove_entry _ _) as [[? [[[? ?] ?]|]]|]; cbn; auto.
  destruct (mkm_modify _ _ _); cbn; auto.
  destruct (expect_inserted _ _); cbn; auto.
Qed.

Lemma vol_record_resubmit t p w :
  record_resubmit_transaction t (set_pending p w) = wres p (record_resubmit_transaction t w).
Proof.
  unfold record_resubmit_transaction, wres. cbn.
  destruct (expect_last_sent_tx_entry _ _) as [[? ?]|]; cbn; auto.
  destruct (equal_ignoring_fee_and_amount _ _); cbn; auto.
  destruct (cleanup_created _ _); cbn; auto.
  destruct (expect_inserted _ _); cbn; auto.
Qed.

Lemma vol_record_reimbursement_request i r p w :
  record_reimbursement_request i r (set_pending p w) =
  wres p (record_reimbursement_request i r w).
Proof.
  unfold record_reimbursement_request, wres. cbn.
  destruct (negb _); cbn; auto. destruct (negb _); cbn; auto. destruct (negb _); cbn; auto.
Qed.

Lemma vol_record_finalized b r p w :
  record_finalized_transaction b r (set_pending p w) = wres p (record_finalized_transaction b r w).
Proof.
  unfold record_finalized_transaction, wres. cbn.
  destruct (mkm_get_alt _ _); cbn; auto. destruct (find _ _); cbn; auto.
  destruct (try_finalize _ _); cbn; auto. destruct (mkm_remove_entry _ _) as [[? ?]|]; cbn; auto.
  destruct (cleanup_created _ _); cbn; auto. destruct (expect_inserted _ _); cbn; auto.
  destruct (bmem _ _); cbn; auto. destruct (bget _ _); cbn; auto.
  destruct (is_failure _); cbn; auto.
  symmetry. etransitivity; [symmetry; apply (vol_record_reimbursement_request _ _ p)|]. reflexivity.
Qed.

Lemma vol_record_finalized_reimbursement i b p w :
  record_finalized_reimbursement i b (set_pending p w) =
  wres p (record_finalized_reimbursement i b w).
Proof.
  unfold record_finalized_reimbursement, wres. cbn.
  destruct (bget _ _); cbn; auto. destruct (negb _); cbn; auto.
Qed.

(** ** State transitions *)
Lemma sim_on_withdrawals_eq f s1 s2 s1' :
  (forall p w, f (set_pending p w) = wres p (f w)) ->
  (forall w w', f w = Done w' -> pending w' = pending w) ->
  sim s1 s2 -> on_withdrawals f s1 = Done s1' ->
  exists s2', on_withdrawals f s2 = Done s2' /\ sim s1' s2'.
Proof.
  intros Hf Hpend (v & p & Hp & ->) H. unfold on_withdrawals in *. cbn. rewrite Hf.
  destruct (f (withdrawals s1)) as [w|] eqn:E; cbn in *; [|discriminate].
  injection H as <-. eexists; split; [reflexivity|].
  exists v, p. split; [|reflexivity]. cbn. rewrite (Hpend _ _ E). auto.
Qed.

Lemma sim_on_withdrawals f s1 s2 s1' :
  (forall p w w', wt_inv w -> Permutation p (pending w) -> f w = Done w' ->
     exists p', f (set_pending p w) = Done (set_pending p' w') /\ Permutation p' (pending w')) ->
  wt_inv (withdrawals s1) ->
  sim s1 s2 -> on_withdrawals f s1 = Done s1' ->
  exists s2', on_withdrawals f s2 = Done s2' /\ sim s1' s2'.
Proof.
  intros Hf Hi (v & p & Hp & ->) H. unfold on_withdrawals in *. cbn.
  destruct (f (withdrawals s1)) as [w|] eqn:E; cbn in *; [|discriminate].
  injection H as <-. destruct (Hf _ _ _ Hi Hp E) as (p' & -> & Hp'). cbn.
  eexists; split; [reflexivity|]. exists v, p'. split; [|reflexivity]. auto.
Qed.

Lemma pending_record_signed s w w' :
  record_signed_transaction s w = Done w' -> pending w' = pending w.
Proof.
  unfold record_signed_transaction. intros H. inv_res.
  destruct x1 as [? ?]. inv_res. destruct x1 as [[? ?] ?]. inv_res. reflexivity.
Qed.
Lemma pending_record_resubmit s w w' :
  record_resubmit_transaction s w = Done w' -> pending w' = pending w.
Proof.
  unfold record_resubmit_transaction. intros H. inv_res. destruct x. inv_res. reflexivity.
Qed.
Lemma pending_record_reimbursement_request i r w w' :
  record_reimbursement_request i r w = Done w' -> pending w' = pending w.
Proof. unfold record_reimbursement_request. intros H. inv_res. reflexivity. Qed.
Lemma pending_record_finalized b r w w' :
  record_finalized_transaction b r w = Done w' -> pending w' = pending w.
Proof.
  unfold record_finalized_transaction. intros H. inv_res. destruct x2. inv_res.
  destruct (is_failure _).
  - apply pending_record_reimbursement_request in H. auto.
  - inv_res. reflexivity.
Qed.
Lemma pending_record_finalized_reimbursement i b w w' :
  record_finalized_reimbursement i b w = Done w' -> pending w' = pending w.
Proof. unfold record_finalized_reimbursement. intros H. inv_res. reflexivity. Qed.

(** The state transitions that do not involve the withdrawal tables *)
Definition sres (v : Vol) (p : list WithdrawalRequest) (r : res State) : res State :=
  s' <- r ;; Done (vol v p s').

Lemma sim_sres f s1 s2 s1' :
  (forall v p s, f (vol v p s) = sres v p (f s)) ->
  (forall s s', f s = Done s' -> pending (withdrawals s') = pending (withdrawals s)) ->
  sim s1 s2 -> f s1 = Done s1' -> exists s2', f s2 = Done s2' /\ sim s1' s2'.
Proof.
  intros Hf Hpend (v & p & Hp & ->) H. rewrite Hf, H. cbn.
  eexists; split; [reflexivity|]. exists v, p. split; auto. rewrite (Hpend _ _ H). auto.
Qed.

Lemma vol_record_event_to_mint e v p s :
  record_event_to_mint e (vol v p s) = sres v p (record_event_to_mint e s).
Proof.
  unfold record_event_to_mint, update_balance_upon_deposit, sres. cbn.
  destruct (negb _); cbn; auto. destruct (negb _); cbn; auto. destruct (negb _); cbn; auto.
  destruct e; cbn.
  - destruct (eth_balance_add _ _); cbn; auto.
  - destruct (dmkm_contains_alt _ _); cbn; auto. destruct (erc20_add _ _ _); cbn; auto.
Qed.
Lemma wt_record_event_to_mint e s s' :
  record_event_to_mint e s = Done s' -> withdrawals s' = withdrawals s.
Proof.
  unfold record_event_to_mint, update_balance_upon_deposit. intros H. inv_res.
  destruct e; inv_res; auto.
Qed.

Lemma vol_record_skipped_block b v p s :
  record_skipped_block b (vol v p s) = sres v p (record_skipped_block b s).
Proof. unfold record_skipped_block, sres. cbn. destruct (negb _); cbn; auto. Qed.
Lemma wt_record_skipped_block b s s' :
  record_skipped_block b s = Done s' -> withdrawals s' = withdrawals s.
Proof. unfold record_skipped_block. intros H. inv_res. auto. Qed.

Lemma vol_record_invalid_deposit x y v p s :
  record_invalid_deposit x y (vol v p s) = sres v p (record_invalid_deposit x y s).
Proof.
  unfold record_invalid_deposit, sres. cbn. destruct (negb _); cbn; auto. destruct (negb _); cbn; auto.
  destruct (bmem _ _); cbn; auto.
Qed.
Lemma wt_record_invalid_deposit x y s s' :
  record_invalid_deposit x y s = Done s' -> withdrawals s' = withdrawals s.
Proof. unfold record_invalid_deposit. intros H. inv_res. destruct (bmem x (invalid_events s)); inv_res; auto. Qed.

Lemma vol_record_successful_mint x y b k v p s :
  record_successful_mint x y b k (vol v p s) = sres v p (record_successful_mint x y b k s).
Proof.
  unfold record_successful_mint, sres. cbn. destruct (negb _); cbn; auto.
  destruct (bget _ _); cbn; auto. destruct (negb _); cbn; auto.
Qed.
Lemma wt_record_successful_mint x y b k s s' :
  record_successful_mint x y b k s = Done s' -> withdrawals s' = withdrawals s.
Proof. unfold record_successful_mint. intros H. inv_res. auto. Qed.

Lemma vol_record_add_erc20_token t v p s :
  record_add_erc20_token t (vol v p s) = sres v p (record_add_erc20_token t s).
Proof.
  unfold record_add_erc20_token, supported_erc20_tokens, sres. cbn.
  destruct (network_eqb _ _); cbn; auto. destruct (dmkm_iter _); cbn; auto.
  destruct (filter _ _); cbn; auto. destruct (expect_inserted _ _); cbn; auto.
Qed.
Lemma wt_record_add_erc20_token t s s' :
  record_add_erc20_token t s = Done s' -> withdrawals s' = withdrawals s.
Proof. unfold record_add_erc20_token. intros H. inv_res. auto. Qed.

Lemma vol_update_balance b r v p s :
  update_balance_upon_withdrawal b r (vol v p s) = sres v p (update_balance_upon_withdrawal b r s).
Proof.
  unfold update_balance_upon_withdrawal, sres. cbn.
  destruct (effective_transaction_fee r); cbn; auto. destruct (mkm_get_alt _ _); cbn; auto.
  destruct (bget _ _); cbn; auto. destruct (charged_tx_fee _ _); cbn; auto.
  destruct (checked_sub _ _); cbn; auto.
  match goal with |- rbind ?x _ = _ => destruct x; cbn; auto end.
  destruct (eth_balance_sub _ _); cbn; auto. destruct (total_effective_tx_fees_add _ _); cbn; auto.
  destruct (total_unspent_tx_fees_add _ _); cbn; auto.
  destruct (rc_status r); cbn; auto. destruct (tx_data (st_tx (ft_tx f))); cbn; auto. destruct (calldata_decode _) as [[[? ?]|]|]; cbn; auto.
  destruct (erc20_sub _ _ _); cbn; auto.
Qed.
Lemma wt_update_balance b r s s' :
  update_balance_upon_withdrawal b r s = Done s' -> withdrawals s' = withdrawals s.
Proof.
  unfold update_balance_upon_withdrawal. intros H. inv_res.
  destruct (rc_status r); inv_res; auto. destruct (tx_data (st_tx (ft_tx x0))); inv_res; auto.
  match goal with H : match ?x with _ => _ end = _ |- _ => destruct x as [[? ?]|] end; inv_res; auto.
Qed.

(** The upgrade changes fields independently of the volatile ones *)
Definition rsim (r1 r2 : result State InvalidStateError) : Prop :=
  match r1, r2 with
  | ROk s1, ROk s2 => sim s1 s2
  | RErr e1, RErr e2 => e1 = e2
  | _, _ => False
  end.
Lemma upd_nat_sim o e f r1 r2 :
  (forall n s1 s2, sim s1 s2 -> sim (f n s1) (f n s2)) ->
  rsim r1 r2 -> rsim (upd_nat o e f r1) (upd_nat o e f r2).
Proof.
  intros Hf. unfold upd_nat. destruct r1, r2; cbn; try tauto. intros H.
  destruct o; cbn; auto. destruct (amount_of_nat _); cbn; auto.
Qed.
Lemma upd_opt_sim {A} (o : option A) f r1 r2 :
  (forall n s1 s2, sim s1 s2 -> sim (f n s1) (f n s2)) ->
  rsim r1 r2 -> rsim (upd_opt o f r1) (upd_opt o f r2).
Proof. intros Hf. unfold upd_opt. destruct r1, r2, o; cbn; try tauto. auto. Qed.

Ltac solve_sim_upd :=
  intros ? ? ? (v & p & Hp & ->);
  first [ exists v, p; split; [exact Hp|reflexivity]
        | match goal with n : N |- _ =>
            exists {| v_scraped := n; v_obs_number := v_obs_number v; v_obs_time := v_obs_time v;
                      v_principals := v_principals v; v_active := v_active v;
                      v_price := v_price v |}, p; split; [exact Hp|reflexivity] end ].

Lemma upgrade_rsim a s1 s2 : sim s1 s2 -> rsim (upgrade a s1) (upgrade a s2).
Proof.
  intros Hs. unfold upgrade.
  match goal with |- rsim (match ?r1 with _ => _ end) (match ?r2 with _ => _ end) =>
    assert (H : rsim r1 r2) end.
  { apply upd_nat_sim; [solve_sim_upd|]. apply upd_nat_sim; [solve_sim_upd|].
    apply upd_opt_sim; [solve_sim_upd|]. apply upd_opt_sim; [solve_sim_upd|].
    apply upd_nat_sim; [solve_sim_upd|].
    match goal with |- rsim (match ?r1 with _ => _ end) (match ?r2 with _ => _ end) =>
      assert (H : rsim r1 r2) end.
    { apply upd_nat_sim; [solve_sim_upd|]. apply upd_nat_sim; [solve_sim_upd|].
      apply upd_nat_sim; [solve_sim_upd|]. apply upd_nat_sim; [solve_sim_upd|]. exact Hs. }
    match type of H with rsim ?r1 ?r2 => destruct r1, r2; cbn in H; try tauto end; cbn; auto.
    destruct (ua_helper_contract_address a); cbn; auto.
    destruct (address_of_text _); cbn; auto.
    destruct H as (v & p & Hp & ->). exists v, p; split; [exact Hp|reflexivity]. }
  match type of H with rsim ?r1 ?r2 => destruct r1 as [x1|], r2 as [x2|]; cbn in H; try tauto end;
    cbn; auto.
  destruct H as (v & p & Hp & ->).
  change (validate_config (vol v p x1)) with (validate_config x1).
  destruct (validate_config x1); cbn; auto. exists v, p; auto.
Qed.

Lemma upgrade_sim a s1 s2 s1' :
  sim s1 s2 -> upgrade a s1 = ROk s1' -> exists s2', upgrade a s2 = ROk s2' /\ sim s1' s2'.
Proof.
  intros Hs H. pose proof (upgrade_rsim a _ _ Hs) as Hr. rewrite H in Hr.
  destruct (upgrade a s2) as [s2'|]; cbn in Hr; [eauto|tauto].
Qed.

(** ** Every event *)
Theorem apply_sim e s1 s2 s1' :
  wt_inv (withdrawals s1) -> sim s1 s2 -> apply_state_transition s1 e = Done s1' ->
  exists s2', apply_state_transition s2 e = Done s2' /\ sim s1' s2'.
Proof.
  intros Hi Hs H. destruct e; cbn [apply_state_transition] in *.
  - discriminate.
  - destruct (upgrade a s1) as [x|] eqn:E; [|discriminate]. injection H as <-.
    destruct (upgrade_sim _ _ _ _ Hs E) as (s2' & -> & Hs'). eauto.
  - eapply sim_sres in H; eauto using vol_record_event_to_mint.
    intros ? ? Hx; rewrite (wt_record_event_to_mint _ _ _ Hx); auto.
  - eapply sim_sres in H; eauto using vol_record_invalid_deposit.
    intros ? ? Hx; rewrite (wt_record_invalid_deposit _ _ _ _ Hx); auto.
  - assert (Hn : native_symbol s2 = native_symbol s1) by (destruct Hs as (v & p & _ & ->); auto).
    rewrite Hn.
    eapply sim_sres in H; eauto.
    + intros; apply vol_record_successful_mint.
    + intros ? ? Hx; rewrite (wt_record_successful_mint _ _ _ _ _ _ Hx); auto.
  - injection H as <-. eexists; split; [reflexivity|].
    destruct Hs as (v & p & Hp & ->).
    exists {| v_scraped := block_number; v_obs_number := v_obs_number v; v_obs_time := v_obs_time v;
              v_principals := v_principals v; v_active := v_active v; v_price := v_price v |}, p.
    split; auto.
  - eapply sim_on_withdrawals in H; eauto. intros; eapply vol_record_request; eauto.
  - eapply sim_on_withdrawals in H; eauto. intros; eapply vol_record_created; eauto.
  - eapply sim_on_withdrawals_eq in H; eauto using vol_record_signed, pending_record_signed.
  - eapply sim_on_withdrawals_eq in H; eauto using vol_record_resubmit, pending_record_resubmit.
  - destruct Hs as (v & p & Hp & ->). unfold state_record_finalized_transaction in *. cbn.
    rewrite vol_record_finalized.
    destruct (record_finalized_transaction withdrawal_id receipt (withdrawals s1)) as [w|] eqn:E;
      cbn in *; [|discriminate].
    change (set_withdrawals (set_pending p w) (vol v p s1)) with (vol v p (set_withdrawals w s1)).
    rewrite vol_update_balance, H. cbn. eexists; split; [reflexivity|]. exists v, p. split; auto.
    rewrite (wt_update_balance _ _ _ _ H). cbn. rewrite (pending_record_finalized _ _ _ _ E). auto.
  - eapply sim_on_withdrawals_eq in H;
      eauto using vol_record_finalized_reimbursement, pending_record_finalized_reimbursement.
  - eapply sim_sres in H; eauto using vol_record_add_erc20_token.
    intros ? ? Hx; rewrite (wt_record_add_erc20_token _ _ _ Hx); auto.
  - eapply sim_sres in H; eauto using vol_record_event_to_mint.
    intros ? ? Hx; rewrite (wt_record_event_to_mint _ _ _ Hx); auto.
  - unfold record_erc20_withdrawal_request in *.
    assert (Hn : erc20_tokens s2 = erc20_tokens s1) by (destruct Hs as (v & p & _ & ->); auto).
    rewrite Hn. destruct (dmkm_contains_alt _ _); cbn in *; [|discriminate].
    eapply sim_on_withdrawals in H; eauto. intros; eapply vol_record_request; eauto.
  - eapply sim_sres in H; eauto.
    + intros; apply vol_record_successful_mint.
    + intros ? ? Hx; rewrite (wt_record_successful_mint _ _ _ _ _ _ Hx); auto.
  - eapply sim_on_withdrawals_eq in H;
      eauto using vol_record_finalized_reimbursement, pending_record_finalized_reimbursement.
  - eapply sim_on_withdrawals_eq in H;
      eauto using vol_record_reimbursement_request, pending_record_reimbursement_request.
  - injection H as <-. eexists; split; [reflexivity|].
    destruct Hs as (v & p & Hp & ->). exists v, p. unfold record_quarantined_deposit. cbn.
    destruct (bmem _ _); split; auto.
  - injection H as <-. eexists; split; [reflexivity|].
    destruct Hs as (v & p & Hp & ->). exists v, p. split; auto.
  - eapply sim_sres in H; eauto using vol_record_skipped_block.
    intros ? ? Hx; rewrite (wt_record_skipped_block _ _ _ Hx); auto.
Qed.
