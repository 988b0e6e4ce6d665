(** * Specification for C18, C19, C24-C26: the burns behind the recorded requests.

    Computed from the recorded events and the operations executed by the ledgers. *)

From Verif Require Import Base BMap MultiKeyMap Bytes Types Amount Tx CallData Network Hex
  Transactions State Audit Ranges Rlp Parser Memo Driver Sys TxSpec.

(** A block of a ledger *)
Definition Block : Type := Principal * N.
Definition op_block (o : Op) : Block := (call_ledger (fst o), snd o).

(** The blocks that an event says it is based on *)
Definition claims_of (native : Principal) (e : EventType) : list Block :=
  match e with
  | EvAcceptedNativeWithdrawalRequest r => [(native, nw_ledger_burn_index r)]
  | EvAcceptedErc20WithdrawalRequest r =>
      [(native, ew_native_ledger_burn_index r); (ew_erc20_ledger_id r, ew_erc20_ledger_burn_index r)]
  | EvFailedErc20WithdrawalRequest q => [(native, rr_ledger_burn_index q)]
  | _ => []
  end.
Definition claims (native : Principal) (h : list EventType) : list Block :=
  flat_map (claims_of native) h.

Section Spec.
Variable self : Principal.

(** The minter burns tokens of an account: it moves them to its own default account,
    the minting account of the ledger *)
Definition burn_of (ledger : Principal) (from : Account) (amount : N) (m : BurnMemo) : LedgerCall :=
  TransferFrom ledger from (default_account self) amount (Some (MemoBurn m)).

(** What the operations of the ledgers must contain for an event to be right: the burn
    of the recorded amount from the recorded account, in the recorded block *)
Definition funded (native : Principal) (ops : list Op) (e : EventType) : Prop :=
  match e with
  | EvAcceptedNativeWithdrawalRequest r =>
      In (burn_of native {| ac_owner := nw_from r; ac_subaccount := nw_from_subaccount r |}
            (nw_withdrawal_amount r) (BurnConvert (nw_destination r)), nw_ledger_burn_index r) ops
  | EvAcceptedErc20WithdrawalRequest r =>
      let from := {| ac_owner := ew_from r; ac_subaccount := ew_from_subaccount r |} in
      In (burn_of (ew_erc20_ledger_id r) from (ew_withdrawal_amount r)
            (BurnErc20Convert (ew_native_ledger_burn_index r) (ew_destination r)),
          ew_erc20_ledger_burn_index r) ops /\
      exists symbol,
      In (burn_of native from (ew_max_transaction_fee r)
            (BurnErc20GasFee symbol (ew_withdrawal_amount r) (ew_destination r)),
          ew_native_ledger_burn_index r) ops
  | EvFailedErc20WithdrawalRequest q =>
      exists burned penalty symbol amount destination,
      In (burn_of native {| ac_owner := rr_to q; ac_subaccount := rr_to_subaccount q |} burned
            (BurnErc20GasFee symbol amount destination), rr_ledger_burn_index q) ops /\
      rr_reimbursed_amount q + penalty = burned /\ rr_transaction_hash q = None
  | _ => True
  end.

End Spec.

(** The burn that a reimbursement says it pays back: the ledger of the transfer and the
    block in its memo *)
Definition named (c : LedgerCall) : option Block :=
  match c with
  | Transfer l _ _ (Some (MemoMint (ReimburseTransaction b _)))
  | Transfer l _ _ (Some (MemoMint (ReimburseWithdrawal b))) => Some (l, b)
  | _ => None
  end.
(** The block of the burn that a failure is about *)
Definition index_block (native : Principal) (i : ReimbursementIndex) : Block :=
  match i with RINative b => (native, b) | RIErc20 _ l b => (l, b) end.
Definition recipient (c : LedgerCall) : Account :=
  match c with Transfer _ to _ _ => to | TransferFrom _ _ to _ _ => to end.

(** What a reimbursement [c] may be, given the recorded events [h] and the operations [ops]
    of the ledgers: the return of
    - the part of a failed native withdrawal that was not set aside for gas,
    - the whole amount of a failed ERC20 withdrawal, on the ledger of the token,
    - the gas fee of an ERC20 withdrawal whose token burn failed, less a penalty,
    in each case to the account that burned, naming the block of that burn. *)
Inductive repays (self native : Principal) (h : list EventType) (ops : list Op) : LedgerCall -> Prop :=
| RepaysNative r rc t :
    In (EvAcceptedNativeWithdrawalRequest r) h ->
    In (EvFinalizedTransaction (nw_ledger_burn_index r) rc) h -> rc_status rc = TxFailure ->
    In (EvSignedTransaction (nw_ledger_burn_index r) t) h -> st_hash t = rc_transaction_hash rc ->
    In (burn_of self native {| ac_owner := nw_from r; ac_subaccount := nw_from_subaccount r |}
          (nw_withdrawal_amount r) (BurnConvert (nw_destination r)), nw_ledger_burn_index r) ops ->
    tx_amount (st_tx t) + tx_fee_cap (st_tx t) = nw_withdrawal_amount r ->
    repays self native h ops
      (Transfer native {| ac_owner := nw_from r; ac_subaccount := nw_from_subaccount r |}
         (tx_amount (st_tx t))
         (Some (MemoMint (ReimburseTransaction (nw_ledger_burn_index r) (rc_transaction_hash rc)))))
| RepaysErc20 r rc :
    In (EvAcceptedErc20WithdrawalRequest r) h ->
    In (EvFinalizedTransaction (ew_native_ledger_burn_index r) rc) h -> rc_status rc = TxFailure ->
    In (burn_of self (ew_erc20_ledger_id r)
          {| ac_owner := ew_from r; ac_subaccount := ew_from_subaccount r |} (ew_withdrawal_amount r)
          (BurnErc20Convert (ew_native_ledger_burn_index r) (ew_destination r)),
        ew_erc20_ledger_burn_index r) ops ->
    repays self native h ops
      (Transfer (ew_erc20_ledger_id r) {| ac_owner := ew_from r; ac_subaccount := ew_from_subaccount r |}
         (ew_withdrawal_amount r)
         (Some (MemoMint (ReimburseTransaction (ew_erc20_ledger_burn_index r) (rc_transaction_hash rc)))))
| RepaysFee block amount penalty from symbol x destination :
    In (burn_of self native from (amount + penalty) (BurnErc20GasFee symbol x destination), block) ops ->
    (exists q, In (EvFailedErc20WithdrawalRequest q) h /\ rr_ledger_burn_index q = block) ->
    repays self native h ops
      (Transfer native from amount (Some (MemoMint (ReimburseWithdrawal block)))).
