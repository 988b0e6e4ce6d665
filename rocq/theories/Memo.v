(** * Memo: the memos put on ledger transactions (structure; bytes are in Cbor.v).

    Model of /repo/minter/src/memo.rs. *)

From Verif Require Import Base Types.

(** memo.rs 20-51 [MintMemo] *)
Inductive MintMemo :=
| MintConvert (from_address : Address) (tx_hash : Hash) (log_index : N)
| ReimburseTransaction (withdrawal_id : N) (tx_hash : Hash)
| ReimburseWithdrawal (withdrawal_id : N).

(** memo.rs 59-95 [BurnMemo] *)
Inductive BurnMemo :=
| BurnConvert (to_address : Address)
| BurnErc20GasFee (erc20_token_symbol : text) (erc20_withdrawal_amount : N) (to_address : Address)
| BurnErc20Convert (erc20_withdrawal_id : N) (to_address : Address).

Inductive Memo := MemoMint (m : MintMemo) | MemoBurn (m : BurnMemo).

(** memo.rs 103-111 [From<&ReceivedDepositEvent>] *)
Definition memo_of_deposit (e : ReceivedDepositEvent) : MintMemo :=
  MintConvert (dep_from_address e) (dep_transaction_hash e) (dep_log_index e).

(** memo.rs 113-125 [From<ReimbursementRequest>] *)
Definition memo_of_reimbursement (r : ReimbursementRequest) : MintMemo :=
  match rr_transaction_hash r with
  | Some h => ReimburseTransaction (rr_ledger_burn_index r) h
  | None => ReimburseWithdrawal (rr_ledger_burn_index r)
  end.
