(** * Specification of C26, C57 and C58: burns and the requests recorded for them. *)

From Verif Require Import Base BMap MultiKeyMap Bytes Types Amount Tx CallData Network Hex
  Transactions State Audit Ranges Rlp Parser Memo Driver Sys SysSpec BurnSpec.

(** The function [id] waits for the ledger call [c], and the ledger has given the answer [a] *)
Definition got (self : Principal) (s : Sys) (id : N) (c : LedgerCall) (a : LedgerReply) : Prop :=
  exists t, bget id (sys_tasks s) = Some {| fl_task := t; fl_reply := Some (ReLedger a) |} /\
            task_call self t = Some c.

(** The function [id] waits for the ledger call [c], not answered yet *)
Definition asks (self : Principal) (s : Sys) (id : N) (c : LedgerCall) : Prop :=
  exists t, bget id (sys_tasks s) = Some {| fl_task := t; fl_reply := None |} /\ task_call self t = Some c.

(** The event that records the withdrawal paid for by the burn [c], executed in block [b]:
    same account, amount, destination and block *)
Inductive records (self native : Principal) (c : LedgerCall) (b : N) : EventType -> Prop :=
| RecordsNative q :
    c = burn_of self native {| ac_owner := nw_from q; ac_subaccount := nw_from_subaccount q |}
          (nw_withdrawal_amount q) (BurnConvert (nw_destination q)) ->
    nw_ledger_burn_index q = b ->
    records self native c b (EvAcceptedNativeWithdrawalRequest q)
| RecordsErc20 q :
    c = burn_of self (ew_erc20_ledger_id q) {| ac_owner := ew_from q; ac_subaccount := ew_from_subaccount q |}
          (ew_withdrawal_amount q) (BurnErc20Convert (ew_native_ledger_burn_index q) (ew_destination q)) ->
    ew_erc20_ledger_burn_index q = b ->
    records self native c b (EvAcceptedErc20WithdrawalRequest q).

(** The burns that pay for a withdrawal (the other burn is that of the gas fee) *)
Definition is_conversion (c : LedgerCall) : bool :=
  match c with
  | TransferFrom _ _ _ _ (Some (MemoBurn (BurnConvert _)))
  | TransferFrom _ _ _ _ (Some (MemoBurn (BurnErc20Convert _ _))) => true
  | _ => false
  end.

(** No callback traps for an outside reason (instruction limit, memory), and the block
    numbers given by the ledgers fit in 64 bits *)
Definition smooth (s : Sys) (l : Label) : Prop :=
  nonce_kept s l /\
  match l with
  | LDeliver _ trap _ => trap = false
  | LAnswer _ (ReLedger (LedgerOk b)) => b <= U64_MAX
  | _ => True
  end.
