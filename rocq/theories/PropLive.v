(** * C64 and C65: what is owed can always still be paid *)

From Verif Require Import Base BMap MultiKeyMap Bytes Types Amount Tx CallData Network Transactions State
  Audit Rlp Memo Driver Sys SysSpec DepositSpec ReimburseSpec LiveSpec LiveFacts LiveRepay Scenario PropWithdraw PropDeposit.

(** ** C64 *)

(** Whatever has happened so far (failed transfers, traps, upgrades, half-finished rounds of
    minting), the deposits that wait can all be minted: timers that fire and ledgers that
    accept are enough. Every one of them is then on record with the event it was accepted
    with, and none is left waiting. The native deposits must be worth the deposit fee
    (otherwise see C51_refuted), and the ledgers need block numbers below 2^64. *)
Theorem C64_deposits_can_be_minted :
  forall self keccak s, reach self keccak any_env s -> covered (sys_state s) ->
    room s (4 * N.of_nat (List.length (events_to_mint (sys_state s)))) ->
    exists ls, Forall accepting ls /\
      (forall src e, waiting (sys_state s) src e ->
         exists m, minted (sys_state (run self keccak s ls)) src m /\ me_deposit_event m = e) /\
      events_to_mint (sys_state (run self keccak s ls)) = [].
Proof. exact deposits_live. Qed.
Print Assumptions C64_deposits_can_be_minted.

(** ** C65 *)

(** Whatever has happened so far, what is owed for failed withdrawals can all be paid back:
    each debt is then on record as repaid, with its amount, and none is left owing. *)
Theorem C65_debts_can_be_repaid :
  forall self keccak s, reach self keccak nonce_kept s ->
    room s (2 * N.of_nat (List.length (reimb_requests (withdrawals (sys_state s))))) ->
    exists ls, Forall accepting ls /\
      (forall i q, owing (sys_state s) i q ->
         exists d, repaid (sys_state (run self keccak s ls)) i d /\
           rd_burn_in_block d = rr_ledger_burn_index q /\ rd_reimbursed_amount d = rr_reimbursed_amount q /\
           rd_transaction_hash d = rr_transaction_hash q) /\
      reimb_requests (withdrawals (sys_state (run self keccak s ls))) = [].
Proof. exact repayments_live. Qed.
Print Assumptions C65_debts_can_be_repaid.

(** ** The hypotheses are met *)

(** A round of minting is under way: the ledger has answered that it is unavailable for the
    first deposit; the second, for which it has not yet been asked, waits too. *)
Definition mint_broken : list Label :=
  register0 ++ scrape0 ++ [LTimer TimerMint 30; LAnswer 2 (ReLedger LedgerReject)].
Ltac small_room n :=
  exists n; split; [|vm_compute; discriminate];
  let c := fresh "c" in let b := fresh "b" in let H := fresh "H" in
  intros c b H; cbv in H;
  repeat (destruct H as [H|H]; [injection H as <- <-; reflexivity|]); destruct H.
Example C64_witness :
  exists s, reach self0 keccak0 any_env s /\ covered (sys_state s) /\
    room s (4 * N.of_nat (List.length (events_to_mint (sys_state s)))) /\
    List.length (events_to_mint (sys_state s)) = 2%nat /\ sys_tasks s <> [].
Proof.
  destruct (run0 mint_broken) as [s|] eqn:E; [|vm_compute in E; discriminate].
  assert (Hr : reach self0 keccak0 any_env s).
  { eapply reach_run0_quiet; [exact E|vm_compute; reflexivity|]. intros; exact Logic.I. }
  vm_compute in E. injection E as <-. eexists. split; [exact Hr|]. split; [|split; [|split; [vm_compute; reflexivity|discriminate]]].
  - intros src x H. apply bget_In in H. cbv in H. destruct H as [H|[H|[]]]; [|discriminate]. injection H as _ <-. vm_compute. discriminate.
  - small_room 0.
Qed.

(** The second withdrawal has failed; its tokens are owed. *)
Example C65_witness :
  exists s i q, reach self0 keccak0 nonce_kept s /\
    room s (2 * N.of_nat (List.length (reimb_requests (withdrawals (sys_state s))))) /\
    owing (sys_state s) i q /\ rr_reimbursed_amount q = 3000.
Proof.
  destruct (run0 (up_to_sent ++ finalize0 ++ fail0)) as [s|] eqn:E; [|vm_compute in E; discriminate].
  assert (Hr : reach self0 keccak0 nonce_kept s) by (eapply scenario_reach; [exact E|vm_compute; reflexivity]).
  vm_compute in E. injection E as <-. eexists. exists (RIErc20 5 token_ledger0 1). eexists. split; [exact Hr|]. split; [small_room 10|].
  split; [vm_compute; reflexivity|vm_compute; reflexivity].
Qed.
