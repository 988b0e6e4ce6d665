(** * Specification of C18 and C19: reimbursements.

    Computed from the payloads of the recorded events, oldest first. *)

From Verif Require Import Base BMap MultiKeyMap Bytes Types Amount Tx CallData Network Hex
  Transactions State Audit Ranges Rlp Parser Memo Driver Sys SysSpec WithdrawSpec.

(** The failures recorded in [h]: a withdrawal whose transaction was finalized with
    status "failure", or a burned gas fee whose token burn failed *)
Inductive failed (h : list EventType) : ReimbursementIndex -> Prop :=
| FailedNative r rc : In (WNative r) (accepted h) ->
    In (nw_ledger_burn_index r, rc) (finalizations h) -> rc_status rc = TxFailure ->
    failed h (RINative (nw_ledger_burn_index r))
| FailedErc20 r rc : In (WErc20 r) (accepted h) ->
    In (ew_native_ledger_burn_index r, rc) (finalizations h) -> rc_status rc = TxFailure ->
    failed h (RIErc20 (ew_native_ledger_burn_index r) (ew_erc20_ledger_id r)
                (ew_erc20_ledger_burn_index r))
| FailedFee q : In (EvFailedErc20WithdrawalRequest q) h ->
    failed h (RINative (rr_ledger_burn_index q)).

(** What is owed for a failure. A native withdrawal: the amount that the failed transaction
    would have sent, to the account that burned it. An ERC20 withdrawal: the whole amount
    withdrawn. A fee: what the recorded failure says. *)
Inductive owed (h : list EventType) : ReimbursementIndex -> ReimbursementRequest -> Prop :=
| OwedNative r rc x : In (WNative r) (accepted h) ->
    In (nw_ledger_burn_index r, rc) (finalizations h) -> rc_status rc = TxFailure ->
    In x (attempts h (nw_ledger_burn_index r)) -> st_hash x = rc_transaction_hash rc ->
    owed h (RINative (nw_ledger_burn_index r))
      {| rr_ledger_burn_index := nw_ledger_burn_index r;
         rr_reimbursed_amount := tx_amount (st_tx x);
         rr_to := nw_from r; rr_to_subaccount := nw_from_subaccount r;
         rr_transaction_hash := Some (rc_transaction_hash rc) |}
| OwedErc20 r rc x : In (WErc20 r) (accepted h) ->
    In (ew_native_ledger_burn_index r, rc) (finalizations h) -> rc_status rc = TxFailure ->
    In x (attempts h (ew_native_ledger_burn_index r)) -> st_hash x = rc_transaction_hash rc ->
    owed h (RIErc20 (ew_native_ledger_burn_index r) (ew_erc20_ledger_id r)
              (ew_erc20_ledger_burn_index r))
      {| rr_ledger_burn_index := ew_erc20_ledger_burn_index r;
         rr_reimbursed_amount := ew_withdrawal_amount r;
         rr_to := ew_from r; rr_to_subaccount := ew_from_subaccount r;
         rr_transaction_hash := Some (rc_transaction_hash rc) |}
| OwedFee q : In (EvFailedErc20WithdrawalRequest q) h -> owed h (RINative (rr_ledger_burn_index q)) q.

(** The ledger transfer that pays it: native tokens on the native ledger, tokens on
    their own ledger; the memo names the burn block and the failed transaction. *)
Definition pay_ledger (native : Principal) (i : ReimbursementIndex) : Principal :=
  match i with RINative _ => native | RIErc20 _ ledger _ => ledger end.
Definition payment (native : Principal) (i : ReimbursementIndex) (q : ReimbursementRequest) : LedgerCall :=
  Transfer (pay_ledger native i)
    {| ac_owner := rr_to q; ac_subaccount := rr_to_subaccount q |}
    (rr_reimbursed_amount q)
    (Some (MemoMint
       match rr_transaction_hash q with
       | Some h => ReimburseTransaction (rr_ledger_burn_index q) h
       | None => ReimburseWithdrawal (rr_ledger_burn_index q)
       end)).

(** The reimbursements among the operations of the ledgers *)
Definition is_reimbursement (c : LedgerCall) : bool :=
  match c with
  | Transfer _ _ _ (Some (MemoMint (ReimburseTransaction _ _)))
  | Transfer _ _ _ (Some (MemoMint (ReimburseWithdrawal _))) => true
  | _ => false
  end.
Definition reimbursements (ops : list Op) : list Op := filter (fun o => is_reimbursement (fst o)) ops.

(** The fates of a failure *)
Definition owing (s : State) (i : ReimbursementIndex) (q : ReimbursementRequest) : Prop :=
  bget i (reimb_requests (withdrawals s)) = Some q.
Definition repaid (s : State) (i : ReimbursementIndex) (d : Reimbursed) : Prop :=
  bget i (reimbursed (withdrawals s)) = Some (ReimbursedOk d).
Definition quarantined (s : State) (i : ReimbursementIndex) : Prop :=
  bget i (reimbursed (withdrawals s)) = Some ReimbursedQuarantined.
