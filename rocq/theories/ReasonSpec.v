(** * The reasons given to callers (specification) *)

From Verif Require Import Base BMap MultiKeyMap Bytes Types Amount Tx CallData Network Hex
  Transactions State Audit Ranges Rlp Parser Memo Driver Sys SysSpec GuardSpec.

Section Reason.
Variable self : Principal.
Variable keccak : list N -> Hash.

(** What a ledger's refusal is called towards the caller. The other refusals (a wrong fee, a wrong
    time, a duplicate) are not passed on. *)
Definition reason (r : LedgerReply) : option LedgerError :=
  match r with
  | LedgerErr InsufficientFunds => Some LeInsufficientFunds
  | LedgerErr InsufficientAllowance => Some LeInsufficientAllowance
  | LedgerErr BadBurn => Some LeAmountTooLow
  | LedgerErr TemporarilyUnavailable | LedgerErr GenericError | LedgerReject => Some LeTemporarilyUnavailable
  | LedgerOk _ | LedgerErr BadFee | LedgerErr TooOld | LedgerErr CreatedInFuture | LedgerErr Duplicate => None
  end.

(** In the run [ls] from [s0], a ledger answered [r] when call number [id] waited for [c] *)
Definition told (s0 : Sys) (ls : list Label) (id : N) (c : LedgerCall) (r : LedgerReply) : Prop :=
  exists pre post t,
    ls = pre ++ LAnswer id (ReLedger r) :: post /\
    bget id (sys_tasks (run self keccak s0 pre)) = Some {| fl_task := t; fl_reply := None |} /\
    task_call self t = Some c.

(** The ledger refused, for the reason [e], a transfer of the caller's tokens to [to] with this memo *)
Definition refused_by_ledger (s0 : Sys) (ls : list Label) (id : N) (to : Account) (is_memo : option Memo -> Prop)
  (e : LedgerError) : Prop :=
  exists u p ledger amount memo r,
    In (id, u) (sys_calls (run self keccak s0 ls)) /\ withdrawing u = Some p /\
    told s0 ls id (TransferFrom ledger (default_account p) to amount memo) r /\ is_memo memo /\ reason r = Some e.

(** An error that blames a ledger is that ledger's: for the fee, for the burn, for the gas, for the
    burn of the token *)
Definition explained (s0 : Sys) (ls : list Label) (id : N) (o : Outcome) : Prop :=
  match o with
  | OutNative (RErr (WeFeeTransfer e)) | OutErc20 (RErr (EeFeeTransfer e)) =>
      refused_by_ledger s0 ls id (fees_account self) (fun m => m = None) e
  | OutNative (RErr (WeBurn e)) =>
      refused_by_ledger s0 ls id (default_account self) (fun m => exists d, m = Some (MemoBurn (BurnConvert d))) e
  | OutErc20 (RErr (EeNativeLedger e)) =>
      refused_by_ledger s0 ls id (default_account self)
        (fun m => exists sy a d, m = Some (MemoBurn (BurnErc20GasFee sy a d))) e
  | OutErc20 (RErr (EeErc20Ledger i e)) =>
      refused_by_ledger s0 ls id (default_account self)
        (fun m => exists d, m = Some (MemoBurn (BurnErc20Convert i d))) e
  | _ => True
  end.

End Reason.
