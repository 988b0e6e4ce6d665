(** * C18: what is reimbursed, and at most once; C19: to whom and how much *)

From Verif Require Import Base BMap MultiKeyMap Bytes Types Amount Tx CallData Network Transactions State
  Audit Rlp Memo Driver Sys SysSpec WithdrawSpec WtInv CoreInv ReimburseSpec ReimburseFacts BurnSpec BurnFacts
  Scenario PropWithdraw.

(** ** C18 *)

(** No burn is paid back twice: the blocks that the executed reimbursements name differ. *)
Theorem C18_once :
  forall self keccak s, reach self keccak nonce_kept s ->
    NoDup (map (fun o => named (fst o)) (reimbursements (sys_ops s))).
Proof. intros self keccak. exact (reimbursed_once self keccak nonce_kept (fun _ _ H => H)). Qed.
Print Assumptions C18_once.

(** Every reimbursement executed by a ledger answers a recorded failure, and is on record as
    paid in that block, or was quarantined, or its answer is on the way back. *)
Theorem C18_only_failures :
  forall self keccak s c b, reach self keccak nonce_kept s ->
    In (c, b) (sys_ops s) -> is_reimbursement c = true ->
    exists i q, owed (history (sys_log s)) i q /\ c = payment (native_ledger_id (sys_state s)) i q /\
      (repaid (sys_state s) i {| rd_reimbursed_in_block := b; rd_burn_in_block := rr_ledger_burn_index q;
                                 rd_reimbursed_amount := rr_reimbursed_amount q;
                                 rd_transaction_hash := rr_transaction_hash q |} \/
       quarantined (sys_state s) i \/
       exists id l rest, bget id (sys_tasks s) =
         Some {| fl_task := TReimburse l i q rest; fl_reply := Some (ReLedger (LedgerOk b)) |}).
Proof. intros self keccak. exact (reimbursed_failure self keccak nonce_kept (fun _ _ H => H)). Qed.
Print Assumptions C18_only_failures.

(** A withdrawal that was not finalized with a failure has none of its burns paid back. *)
Theorem C18_never_otherwise :
  forall self keccak s r c b block, reach self keccak nonce_kept s ->
    In r (accepted (history (sys_log s))) ->
    (forall rc, In (wr_burn_index r, rc) (finalizations (history (sys_log s))) -> rc_status rc <> TxFailure) ->
    In block (match r with
              | WNative q => [(native_ledger_id (sys_state s), nw_ledger_burn_index q)]
              | WErc20 q => [(native_ledger_id (sys_state s), ew_native_ledger_burn_index q);
                             (ew_erc20_ledger_id q, ew_erc20_ledger_burn_index q)]
              end) ->
    In (c, b) (sys_ops s) -> named c <> Some block.
Proof. intros self keccak. exact (never_otherwise self keccak nonce_kept (fun _ _ H => H)). Qed.
Print Assumptions C18_never_otherwise.

(** Each recorded failure is owing, repaid or quarantined, and nothing else is. *)
Theorem C18_fate :
  forall self keccak s i, reach self keccak nonce_kept s ->
    (failed (history (sys_log s)) i <->
     (exists q, owing (sys_state s) i q) \/ (exists d, repaid (sys_state s) i d) \/ quarantined (sys_state s) i) /\
    (forall q d, owing (sys_state s) i q -> ~ repaid (sys_state s) i d /\ ~ quarantined (sys_state s) i) /\
    (forall d, repaid (sys_state s) i d -> ~ quarantined (sys_state s) i).
Proof. intros self keccak. exact (reimbursement_fate self keccak nonce_kept (fun _ _ H => H)). Qed.
Print Assumptions C18_fate.

(** What is reported as repaid has been paid by the ledger, in the reported block. *)
Theorem C18_repaid_is_paid :
  forall self keccak s i d, reach self keccak nonce_kept s -> repaid (sys_state s) i d ->
    exists q, owed (history (sys_log s)) i q /\
      In (payment (native_ledger_id (sys_state s)) i q, rd_reimbursed_in_block d) (sys_ops s).
Proof. intros self keccak. exact (repaid_paid self keccak nonce_kept (fun _ _ H => H)). Qed.
Print Assumptions C18_repaid_is_paid.

(** ** C19 *)

(** Every reimbursement returns tokens to the account that burned them, on the same ledger,
    and not more than that account burned in the block that it names. *)
Theorem C19_account :
  forall self keccak s c b, reach self keccak nonce_kept s ->
    In (c, b) (sys_ops s) -> is_reimbursement c = true ->
    exists amount m block, named c = Some (call_ledger c, block) /\
      In (burn_of self (call_ledger c) (recipient c) amount m, block) (sys_ops s) /\ call_amount c <= amount.
Proof. intros self keccak. exact (same_account self keccak nonce_kept (fun _ _ H => H)). Qed.
Print Assumptions C19_account.

(** The exact amounts. *)
Theorem C19_amount :
  forall self keccak s c b, reach self keccak nonce_kept s ->
    In (c, b) (sys_ops s) -> is_reimbursement c = true ->
    repays self (native_ledger_id (sys_state s)) (history (sys_log s)) (sys_ops s) c.
Proof. intros self keccak. exact (repays_reach self keccak nonce_kept (fun _ _ H => H)). Qed.
Print Assumptions C19_amount.

(** ** The hypotheses are met *)

(** The failed ERC20 withdrawal of the scenario is repaid in block 2 of the ledger of the
    token; the successful native withdrawal (burned in block 3) is not. *)
Example C18_witness :
  exists s r c d, reach self0 keccak0 nonce_kept s /\
    reimbursements (sys_ops s) = [(c, 2)] /\ named c = Some (token_ledger0, 1) /\ call_amount c = 3000 /\
    recipient c = {| ac_owner := user0; ac_subaccount := None |} /\
    repaid (sys_state s) (RIErc20 5 token_ledger0 1) d /\
    In (WNative r) (accepted (history (sys_log s))) /\
    nw_ledger_burn_index r = 3 /\
    map (fun x => (fst x, rc_status (snd x))) (finalizations (history (sys_log s))) =
      [(3, TxSuccess); (5, TxFailure)].
Proof.
  destruct (run0 all0) as [s|] eqn:E; [|vm_compute in E; discriminate].
  assert (Hr : reach self0 keccak0 nonce_kept s) by (eapply scenario_reach; [exact E|vm_compute; reflexivity]).
  vm_compute in E. injection E as <-. do 4 eexists. split; [exact Hr|].
  split; [vm_compute; reflexivity|]. split; [vm_compute; reflexivity|]. split; [vm_compute; reflexivity|].
  split; [vm_compute; reflexivity|]. split; [vm_compute; reflexivity|].
  split; [eapply nth_error_In with (n := 0%nat); vm_compute; reflexivity|].
  split; vm_compute; reflexivity.
Qed.

(** A native withdrawal of 49999500 fails; what its transaction would have sent is returned. *)
Definition native_fails : list Label :=
  up_to_sent ++ ans 5 (ReCount (Some 8)) 64 ++ ans 5 (ReReceipts [ReceiptOk (receipt0 7 21000 TxFailure)]) 65 ++
  LTimer TimerReimburse 80 :: ledger_ok 6 6 81.
Example C19_witness_native :
  exists s c, reach self0 keccak0 nonce_kept s /\
    reimbursements (sys_ops s) = [(c, 6)] /\ named c = Some (native_ledger0, 3) /\ call_amount c = 49516500 /\
    recipient c = {| ac_owner := user0; ac_subaccount := None |} /\
    In (burn_of self0 native_ledger0 (recipient c) 49999500 (BurnConvert 204), 3) (sys_ops s).
Proof.
  destruct (run0 native_fails) as [s|] eqn:E; [|vm_compute in E; discriminate].
  assert (Hr : reach self0 keccak0 nonce_kept s) by (eapply scenario_reach; [exact E|vm_compute; reflexivity]).
  vm_compute in E. injection E as <-. do 2 eexists. split; [exact Hr|].
  split; [vm_compute; reflexivity|]. split; [vm_compute; reflexivity|]. split; [vm_compute; reflexivity|].
  split; [vm_compute; reflexivity|]. eapply nth_error_In with (n := 4%nat); vm_compute; reflexivity.
Qed.

(** The burn of the gas fee succeeds and the burn of the token fails; the burned 1495000 are
    returned less the transfer fee of the ledger. *)
Definition fee_fails : list Label :=
  register0 ++ scrape0 ++ mint0 ++
  LCall (CallWithdrawErc20 user0 3000 token_ledger0 payee0) 50 ::
  ans 3 (ReFees (Some history0)) 51 ++ ledger_ok 3 2 52 ++ ledger_ok 3 3 53 ++
  ans 3 (ReLedger (LedgerErr InsufficientFunds)) 54 ++ ledger_ok 3 4 55 ++
  LTimer TimerReimburse 80 :: ledger_ok 4 5 81.
Example C19_witness_fee :
  exists s c m, reach self0 keccak0 nonce_kept s /\
    reimbursements (sys_ops s) = [(c, 5)] /\ named c = Some (native_ledger0, 3) /\ call_amount c = 1494990 /\
    recipient c = {| ac_owner := user0; ac_subaccount := None |} /\
    In (burn_of self0 native_ledger0 (recipient c) 1495000 m, 3) (sys_ops s).
Proof.
  destruct (run0 fee_fails) as [s|] eqn:E; [|vm_compute in E; discriminate].
  assert (Hr : reach self0 keccak0 nonce_kept s) by (eapply scenario_reach; [exact E|vm_compute; reflexivity]).
  vm_compute in E. injection E as <-. do 3 eexists. split; [exact Hr|].
  split; [vm_compute; reflexivity|]. split; [vm_compute; reflexivity|]. split; [vm_compute; reflexivity|].
  split; [vm_compute; reflexivity|]. eapply nth_error_In with (n := 4%nat); vm_compute; reflexivity.
Qed.
