(** * C01-C04, C51, C56: deposits *)

From Verif Require Import Base BMap MultiKeyMap Bytes Types Amount Tx Transactions State Audit Ranges Parser Memo
  Driver Sys SysSpec GuardSpec DepositSpec Deposits MintFacts Scenario PropGuards.

(** ** C01 *)

(** Whatever the history, the ledgers have executed at most one transfer for a deposit. *)
Theorem C01_minted_at_most_once :
  forall self keccak s, reach self keccak any_env s ->
    forall src, (List.length (mints_for src (sys_ops s)) <= 1)%nat.
Proof. intros self keccak s H. exact (mo_once _ (mints_reach self keccak any_env s H)). Qed.
Print Assumptions C01_minted_at_most_once.

Definition deposits0 : list Label := register0 ++ scrape0.
Example C01_witness :
  exists s, reach self0 keccak0 any_env s /\
    List.length (mints_for (11, 1) (sys_ops s)) = 1%nat /\ List.length (mints_for (22, 2) (sys_ops s)) = 1%nat.
Proof.
  destruct (run0 (deposits0 ++ mint0)) as [s|] eqn:E; [|vm_compute in E; discriminate].
  exists s. split; [eapply any_reach; exact E|]. vm_compute in E. injection E as <-. vm_compute. auto.
Qed.
(** A trap after the ledger has minted: the deposit is quarantined and not minted again. *)
Example C01_trap_witness :
  exists s, reach self0 keccak0 any_env s /\
    List.length (mints_for (11, 1) (sys_ops s)) = 1%nat /\ rejected (sys_state s) (11, 1) QuarantinedDepositReason.
Proof.
  destruct (run0 (deposits0 ++ [LTimer TimerMint 30; LAnswer 2 (ReLedger (LedgerOk 0)); LDeliver 2 true 31;
     LTimer TimerMint 32; LAnswer 3 (ReLedger (LedgerOk 1)); LDeliver 3 false 33])) as [s|] eqn:E;
    [|vm_compute in E; discriminate].
  exists s. split; [eapply any_reach; exact E|]. vm_compute in E. injection E as <-. vm_compute. auto.
Qed.

(** ** C02 *)

(** Every transfer that a ledger executes for a deposit is made while that deposit, accepted
    before, is waiting, and it pays what the deposit says. *)
Theorem C02_pays_the_depositor :
  forall self keccak s, reach self keccak any_env s ->
    forall l c block src, sys_ops (step self keccak s l) = sys_ops s ++ [(c, block)] -> mint_source c = Some src ->
      exists e, dep_source e = src /\ waiting (sys_state s) src e /\ deposit_accepted (sys_log s) e /\
        pays (sys_log s) (sys_state s) e c.
Proof. intros self keccak s H l c block src. exact (mint_pays self keccak any_env s l c block src H). Qed.
Print Assumptions C02_pays_the_depositor.

(** The only other transfers without a memo are deposit fees: the configured amount, on the
    native ledger, to the minter's fee account, for a native deposit that has just been paid. *)
Theorem C02_fee_transfer :
  forall self keccak s, reach self keccak any_env s ->
    forall l ledger to amount block,
      sys_ops (step self keccak s l) = sys_ops s ++ [(Transfer ledger to amount None, block)] ->
      ledger = native_ledger_id (sys_state s) /\
      to = {| ac_owner := self; ac_subaccount := Some FEES_SUBACCOUNT |} /\
      deposit_native_fee (sys_state s) = Some amount /\
      exists x c' b', In (c', b') (sys_ops s) /\
        waiting (sys_state s) (dep_source (DepNative x)) (DepNative x) /\
        pays (sys_log s) (sys_state s) (DepNative x) c'.
Proof. intros self keccak s H l ledger to amount b. exact (fee_mint self keccak any_env s l ledger to amount b H). Qed.
Print Assumptions C02_fee_transfer.

Example C02_witness :
  exists s, reach self0 keccak0 any_env s /\
    sys_ops s = [(Transfer native_ledger0 {| ac_owner := user0; ac_subaccount := None |} 99999000
                    (Some (MemoMint (MintConvert 221 11 1))), 0);
                 (Transfer native_ledger0 {| ac_owner := self0; ac_subaccount := Some FEES_SUBACCOUNT |} 1000 None, 1)] /\
    sys_ops (step self0 keccak0 s (LAnswer 2 (ReLedger (LedgerOk 7)))) =
      sys_ops s ++ [(Transfer token_ledger0 {| ac_owner := user0; ac_subaccount := None |} 5000
                       (Some (MemoMint (MintConvert 221 22 2))), 7)].
Proof.
  destruct (run0 (deposits0 ++ LTimer TimerMint 30 :: ledger_ok 2 0 31 ++ ledger_ok 2 1 32)) as [s|] eqn:E;
    [|vm_compute in E; discriminate].
  exists s. split; [eapply any_reach; exact E|]. vm_compute in E. injection E as <-. vm_compute. auto.
Qed.

(** ** C03 *)
Theorem C03_one_fate :
  forall self keccak s, reach self keccak any_env s ->
    forall src,
      (forall e m, waiting (sys_state s) src e -> ~ minted (sys_state s) src m) /\
      (forall e r, waiting (sys_state s) src e -> ~ rejected (sys_state s) src r) /\
      (forall m r, minted (sys_state s) src m -> ~ rejected (sys_state s) src r).
Proof. intros self keccak s H src. exact (fates_exclusive self keccak any_env s src H). Qed.
Print Assumptions C03_one_fate.
Theorem C03_final :
  forall self keccak s, reach self keccak any_env s ->
    forall src ls,
      (forall m, minted (sys_state s) src m -> minted (sys_state (run self keccak s ls)) src m) /\
      (forall r, rejected (sys_state s) src r -> rejected (sys_state (run self keccak s ls)) src r).
Proof. intros self keccak s H src ls. exact (fates_final self keccak any_env s src ls H). Qed.
Print Assumptions C03_final.

(** One deposit is minted, one is quarantined, one is invalid and one waits. *)
Definition logs1 : list LogEntry :=
  logs0 ++ [deposit_log 33 3 104 187 7000 221 user0; deposit_log 44 4 104 0 100000000 221 [4]].
Definition fates : list Label :=
  register0 ++ LTimer TimerScrape 20 :: ans 1 (ReBlock (Some 105)) 21 ++ ans 1 (ReLogs (LogsOk logs1)) 22 ++
  LTimer TimerMint 30 :: ledger_ok 2 0 31 ++ ledger_ok 2 1 32 ++
  [LAnswer 2 (ReLedger (LedgerOk 0)); LDeliver 2 true 33].
Example C03_witness :
  exists s, reach self0 keccak0 any_env s /\
    (exists m, minted (sys_state s) (11, 1) m) /\
    rejected (sys_state s) (22, 2) QuarantinedDepositReason /\
    (exists e, waiting (sys_state s) (33, 3) e) /\ (exists r, rejected (sys_state s) (44, 4) r).
Proof.
  destruct (run0 fates) as [s|] eqn:E; [|vm_compute in E; discriminate].
  exists s. split; [eapply any_reach; exact E|]. vm_compute in E. injection E as <-.
  vm_compute. repeat split; eauto.
Qed.

(** ** C04 *)

(** An accepted deposit is waiting, minted or quarantined; the first two with its content
    as it was accepted. *)
Theorem C04_never_lost :
  forall self keccak s, reach self keccak any_env s ->
    forall e, deposit_accepted (sys_log s) e ->
      waiting (sys_state s) (dep_source e) e \/
      (exists m, minted (sys_state s) (dep_source e) m /\ me_deposit_event m = e) \/
      rejected (sys_state s) (dep_source e) QuarantinedDepositReason.
Proof. intros self keccak s H e. exact (never_lost self keccak any_env s e H). Qed.
Print Assumptions C04_never_lost.
(** Acceptance is itself never undone. *)
Theorem C04_stays_accepted :
  forall self keccak s ls e, deposit_accepted (sys_log s) e -> deposit_accepted (sys_log (run self keccak s ls)) e.
Proof. intros self keccak s ls e. exact (accepted_run self keccak s ls e). Qed.
Print Assumptions C04_stays_accepted.
(** Conversely nothing waits or is minted that was not accepted. *)
Theorem C04_only_accepted :
  forall self keccak s, reach self keccak any_env s ->
    forall src,
      (forall e, waiting (sys_state s) src e -> dep_source e = src /\ deposit_accepted (sys_log s) e) /\
      (forall m, minted (sys_state s) src m ->
         dep_source (me_deposit_event m) = src /\ deposit_accepted (sys_log s) (me_deposit_event m)).
Proof. intros self keccak s H src. exact (only_accepted self keccak any_env s src H). Qed.
Print Assumptions C04_only_accepted.
Example C04_witness :
  exists s e1 e2 e3, reach self0 keccak0 any_env s /\
    deposit_accepted (sys_log s) e1 /\ (exists m, minted (sys_state s) (dep_source e1) m) /\
    deposit_accepted (sys_log s) e2 /\ rejected (sys_state s) (dep_source e2) QuarantinedDepositReason /\
    deposit_accepted (sys_log s) e3 /\ waiting (sys_state s) (dep_source e3) e3.
Proof.
  destruct (run0 fates) as [s|] eqn:E; [|vm_compute in E; discriminate].
  exists s,
    (DepNative {| ne_transaction_hash := 11; ne_block_number := 103; ne_log_index := 1; ne_from_address := 221;
                  ne_value := 100000000; ne_principal := user0; ne_subaccount := None |}),
    (DepErc20 {| ee_transaction_hash := 22; ee_block_number := 104; ee_log_index := 2; ee_from_address := 221;
                 ee_value := 5000; ee_principal := user0; ee_erc20_contract_address := 187; ee_subaccount := None |}),
    (DepErc20 {| ee_transaction_hash := 33; ee_block_number := 104; ee_log_index := 3; ee_from_address := 221;
                 ee_value := 7000; ee_principal := user0; ee_erc20_contract_address := 187; ee_subaccount := None |}).
  split; [eapply any_reach; exact E|]. vm_compute in E. injection E as <-.
  split; [vm_compute; tauto|]. split; [vm_compute; eauto|]. split; [vm_compute; tauto|].
  split; [vm_compute; auto|]. split; [vm_compute; tauto|]. vm_compute. auto.
Qed.

(** ** C56 *)

(** A deposit recorded as minted was minted: the ledger executed, in the recorded block, a
    transfer crediting the depositor. *)
Theorem C56_minted_is_real :
  forall self keccak s, reach self keccak any_env s ->
    forall src m, minted (sys_state s) src m ->
      exists c, In (c, me_mint_block_index m) (sys_ops s) /\ mint_source c = Some src /\
        credits (sys_log s) (sys_state s) (me_deposit_event m) c.
Proof. intros self keccak s H src m. exact (minted_real self keccak any_env s src m H). Qed.
Print Assumptions C56_minted_is_real.
Example C56_witness :
  exists s m, reach self0 keccak0 any_env s /\ minted (sys_state s) (22, 2) m /\ me_mint_block_index m = 9.
Proof.
  destruct (run0 (deposits0 ++ LTimer TimerMint 30 :: ledger_ok 2 0 31 ++ ledger_ok 2 1 32 ++ ledger_ok 2 9 33))
    as [s|] eqn:E; [|vm_compute in E; discriminate].
  exists s. eexists. split; [eapply any_reach; exact E|]. vm_compute in E. injection E as <-.
  split; vm_compute; reflexivity.
Qed.

(** ** C51 *)

(** The full statement is false. First, while an unaffordable native deposit comes first in
    the table, every run of the minting task traps and leaves everything as it was, although
    another deposit is waiting that could be minted. *)
Definition small_first : list Label :=
  register0 ++ LTimer TimerScrape 20 :: ans 1 (ReBlock (Some 105)) 21 ++
  ans 1 (ReLogs (LogsOk (deposit_log 10 1 103 0 500 221 user0 :: logs0))) 22.
Theorem C51_blocked_refuted :
  exists self keccak s e, reach self keccak any_env s /\ waiting (sys_state s) (dep_source e) e /\
    5000 <= dep_value e /\
    forall now, sys_clock s <= now ->
      let s' := step self keccak s (LTimer TimerMint now) in
      In (sys_next s, OutTrap) (sys_outcomes s') /\ sys_core s' = sys_core s /\
      sys_ops s' = sys_ops s /\ sys_tasks s' = sys_tasks s.
Proof.
  destruct (run0 small_first) as [s|] eqn:E; [|vm_compute in E; discriminate].
  exists self0, keccak0, s,
    (DepErc20 {| ee_transaction_hash := 22; ee_block_number := 104; ee_log_index := 2; ee_from_address := 221;
                 ee_value := 5000; ee_principal := user0; ee_erc20_contract_address := 187; ee_subaccount := None |}).
  split; [eapply any_reach; exact E|]. vm_compute in E. injection E as <-.
  split; [vm_compute; reflexivity|]. split; [vm_compute; discriminate|].
  intros now Hn. apply N.ltb_ge in Hn. unfold step. rewrite Hn. vm_compute. auto.
Qed.
Print Assumptions C51_blocked_refuted.

(** Second, when it comes later, the deposit before it is quarantined although the ledger has
    minted it: its record is undone. *)
Definition small_second : list Label :=
  register0 ++ LTimer TimerScrape 20 :: ans 1 (ReBlock (Some 105)) 21 ++
  ans 1 (ReLogs (LogsOk (deposit_log 12 1 103 0 500 221 user0 :: logs0))) 22 ++
  LTimer TimerMint 30 :: ledger_ok 2 0 31 ++ ledger_ok 2 1 32.
Theorem C51_corrupted_refuted :
  exists self keccak s src c block, reach self keccak any_env s /\
    In (c, block) (sys_ops s) /\ mint_source c = Some src /\
    rejected (sys_state s) src QuarantinedDepositReason /\ forall m, ~ minted (sys_state s) src m.
Proof.
  destruct (run0 small_second) as [s|] eqn:E; [|vm_compute in E; discriminate].
  exists self0, keccak0, s, (11, 1). do 2 eexists. split; [eapply any_reach; exact E|].
  vm_compute in E. injection E as <-. split; [left; reflexivity|]. split; [reflexivity|].
  split; [vm_compute; reflexivity|]. intros m. vm_compute. discriminate.
Qed.
Print Assumptions C51_corrupted_refuted.

(** What holds: while every waiting native deposit covers the fee, the minting task starts
    with all waiting deposits in order, *)
Theorem C51_mint_starts_partial :
  forall self keccak s, reach self keccak any_env s ->
    forall now, sys_clock s <= now -> covered (sys_state s) ->
      (forall id, ~ running_activity s id Minting) ->
      moves_on (step self keccak s (LTimer TimerMint now)) (sys_next s) (bvals (events_to_mint (sys_state s))).
Proof. intros self keccak s H now. exact (mint_starts self keccak any_env s now H). Qed.
Print Assumptions C51_mint_starts_partial.

(** and each answer of a ledger, good or bad, takes it to the next deposit: a successful mint
    is recorded (for a native deposit with a fee, after the fee has been minted too), a failed
    one leaves the deposit waiting. *)
Theorem C51_mint_moves_on_partial :
  forall self keccak s, reach self keccak any_env s ->
    forall id now r fl, sys_clock s <= now -> covered (sys_state s) ->
      bget id (sys_tasks s) = Some fl -> fl_reply fl = Some (ReLedger r) ->
      (forall b, r = LedgerOk b -> b <= U64_MAX) ->
      let s' := step self keccak s (LDeliver id false now) in
      let recorded e b := exists m, minted (sys_state s') (dep_source e) m /\
                            me_mint_block_index m = b /\ me_deposit_event m = e in
      (forall j, fl_task fl = TMint j ->
         match r with
         | LedgerOk b =>
             bget id (sys_tasks s') = Some {| fl_task := TMintFee j b; fl_reply := None |} \/
             (moves_on s' id (mj_rest j) /\ recorded (mj_event j) b)
         | _ => moves_on s' id (mj_rest j) /\ waiting (sys_state s') (dep_source (mj_event j)) (mj_event j)
         end) /\
      (forall j b, fl_task fl = TMintFee j b -> moves_on s' id (mj_rest j) /\ recorded (mj_event j) b).
Proof.
  intros self keccak s H id now r [t o] Hn Hc Hg Hr Hb. cbn in Hr. subst o. split.
  - intros j Hj. cbn in Hj. subst t. exact (mint_progress self keccak any_env s id j r now H Hn Hc Hg Hb).
  - intros j b Hj. cbn in Hj. subst t. exact (mint_fee_progress self keccak any_env s id j b r now H Hn Hc Hg).
Qed.
Print Assumptions C51_mint_moves_on_partial.

(** With the deposits of [logs0] the first mint fails and the second succeeds. *)
Example C51_witness :
  exists s, reach self0 keccak0 any_env s /\ covered (sys_state s) /\
    (forall id, ~ running_activity s id Minting) /\
    exists s', run self0 keccak0 s (LTimer TimerMint 30 :: ans 2 (ReLedger (LedgerErr TemporarilyUnavailable)) 31 ++
                                   ledger_ok 2 0 32) = s' /\
      (exists e, waiting (sys_state s') (11, 1) e) /\ (exists m, minted (sys_state s') (22, 2) m) /\
      In (2, OutTimer) (sys_outcomes s').
Proof.
  destruct (run0 deposits0) as [s|] eqn:E; [|vm_compute in E; discriminate].
  exists s. split; [eapply any_reach; exact E|]. vm_compute in E. injection E as <-. split; [|split].
  - intros src x. unfold waiting, covered. cbn -[N.leb]. intros H.
    repeat match type of H with (if ?b then _ else _) = _ => destruct b end; try discriminate.
    injection H as <-. cbn. discriminate.
  - intros id (t & r & H & _). vm_compute in H. discriminate.
  - eexists. split; [reflexivity|]. vm_compute. split; [eauto|]. split; [eauto|]. auto.
Qed.
