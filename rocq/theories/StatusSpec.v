(** * Specification of C23: the status of a withdrawal, computed from the recorded events. *)

From Verif Require Import Base BMap MultiKeyMap Bytes Types Amount Tx CallData Network Hex
  Transactions State Audit Ranges Rlp Parser Memo Driver Sys SysSpec WithdrawSpec TokenSpec Queries.

Definition was_accepted (h : list EventType) (b : N) : Prop := In b (map wr_burn_index (accepted h)).
Definition was_created (h : list EventType) (b : N) : Prop := In b (map fst (creations h)).
Definition was_finalized (h : list EventType) (b : N) : Prop := In b (map fst (finalizations h)).

(** The recorded repayment of the failed withdrawal [r] *)
Definition repayment_of (h : list EventType) (r : WithdrawalRequest) (d : Reimbursed) : Prop :=
  match r with
  | WNative q => In (EvReimbursedNativeWithdrawal d) h /\ rd_burn_in_block d = nw_ledger_burn_index q
  | WErc20 q => In (EvReimbursedErc20Withdrawal (ew_native_ledger_burn_index q) (ew_erc20_ledger_id q) d) h /\
      rd_burn_in_block d = ew_erc20_ledger_burn_index q
  end.

(** What has to be answered for the withdrawal with burn index [b]: the status and the
    transaction that serves it now *)
Inductive stage_is (h : list EventType) (b : N) : WithdrawalStatus -> option Tx -> Prop :=
| IsUnknown : ~ was_accepted h b -> stage_is h b StNotFound None
| IsPending : was_accepted h b -> ~ was_created h b -> stage_is h b StPending None
| IsCreated t : was_accepted h b -> ~ was_finalized h b -> unsigned h b = Some t ->
    stage_is h b StTxCreated (Some t)
| IsSent s : was_accepted h b -> ~ was_finalized h b -> unsigned h b = None ->
    last_opt (attempts h b) = Some s -> stage_is h b (StTxSent (st_hash s)) (Some (st_tx s))
| IsSuccess rc s : was_accepted h b -> In (b, rc) (finalizations h) -> rc_status rc = TxSuccess ->
    In s (attempts h b) -> st_hash s = rc_transaction_hash rc ->
    stage_is h b (StTxFinalized (FinSuccess (rc_transaction_hash rc)
                                   (rc_effective_gas_price rc * rc_gas_used rc))) (Some (st_tx s))
| IsFailed rc s r : In r (accepted h) -> wr_burn_index r = b ->
    In (b, rc) (finalizations h) -> rc_status rc = TxFailure -> (forall d, ~ repayment_of h r d) ->
    In s (attempts h b) -> st_hash s = rc_transaction_hash rc ->
    stage_is h b (StTxFinalized (FinPendingReimbursement (rc_transaction_hash rc))) (Some (st_tx s))
| IsRepaid rc s r d : In r (accepted h) -> wr_burn_index r = b ->
    In (b, rc) (finalizations h) -> rc_status rc = TxFailure -> repayment_of h r d ->
    In s (attempts h b) -> st_hash s = rc_transaction_hash rc ->
    stage_is h b (StTxFinalized (FinReimbursed (rc_transaction_hash rc)
                                   (rd_reimbursed_amount d) (rd_reimbursed_in_block d))) (Some (st_tx s)).

(** Searching *)
Definition matches (p : SearchParameter) (r : WithdrawalRequest) : Prop :=
  match p with
  | ByWithdrawalId b => wr_burn_index r = b
  | ByRecipient a => wr_payee r = a
  | BySenderAccount o sub => wr_from r = o /\ wr_from_subaccount r = sub
  end.

(** What a search, as it is sent by a user, looks for: a burn index, the text of an address
    or an account. Only a text that is not an address cannot be looked for. *)
Definition askable (p : CandidSearch) : Prop :=
  match p with SearchRecipient a => exists x, address_of_text a = Some x | _ => True end.
Definition sought (p : CandidSearch) (r : WithdrawalRequest) : Prop :=
  match p with
  | SearchId b => wr_burn_index r = b
  | SearchRecipient a => address_of_text a = Some (wr_payee r)
  | SearchAccount o sub => wr_from r = o /\ wr_from_subaccount r = sub
  end.

(** What is shown for a withdrawal in the given stage *)
Definition detail_is (s : State) (r : WithdrawalRequest) (st : WithdrawalStatus) (t : option Tx)
  (d : WithdrawalDetail) : Prop :=
  wd_withdrawal_id d = wr_burn_index r /\ wd_recipient_address d = wr_payee r /\
  wd_from d = wr_from r /\ wd_from_subaccount d = wr_from_subaccount r /\ wd_status d = st /\
  match r with
  | WNative q => wd_token_symbol d = native_symbol s /\ wd_withdrawal_amount d = nw_withdrawal_amount q /\
      match t with
      | None => wd_max_transaction_fee d = None
      | Some t => exists fee, wd_max_transaction_fee d = Some fee /\ tx_amount t + fee = nw_withdrawal_amount q
      end
  | WErc20 q => listed s (ew_erc20_ledger_id q) (ew_erc20_contract_address q) (wd_token_symbol d) /\
      wd_withdrawal_amount d = ew_withdrawal_amount q /\
      wd_max_transaction_fee d = Some (ew_max_transaction_fee q)
  end.

(** How far a withdrawal has come *)
Definition progress (st : WithdrawalStatus) : N :=
  match st with
  | StNotFound => 0
  | StPending => 1
  | StTxCreated | StTxSent _ => 2
  | StTxFinalized (FinPendingReimbursement _) => 3
  | StTxFinalized _ => 4
  end.
