(** * Specification of C32: what the minter owes and what it holds. *)

From Verif Require Import Base BMap MultiKeyMap Bytes Types Amount Tx CallData Network Hex
  Transactions State Audit Ranges Rlp Parser Memo Driver Sys SysSpec WithdrawSpec DepositSpec
  TokenSpec ReimburseSpec BurnSpec BalanceSpec.

(** The native token, or the tokens of a contract with the ledger of their twin *)
Inductive Asset :=
| Native
| Token (contract : Address) (ledger : Principal).
Definition asset_ledger (native : Principal) (a : Asset) : Principal :=
  match a with Native => native | Token _ l => l end.

(** What the minter's address holds according to its books *)
Definition held (a : Asset) (s : State) : N :=
  match a with
  | Native => nb_balance (native_balance s)
  | Token c _ => erc20_balance_of c (erc20_balances s)
  end.
(** Fees that users paid and that the network did not take *)
Definition unspent (a : Asset) (s : State) : N :=
  match a with Native => nb_total_unspent_tx_fees (native_balance s) | Token _ _ => 0 end.

(** The value of a deposit, of a withdrawal and of a reimbursement in an asset. Withdrawing
    a token takes the token and the gas fee. *)
Definition deposit_part (a : Asset) (e : ReceivedDepositEvent) : N :=
  match a, e with
  | Native, DepNative x => ne_value x
  | Token c _, DepErc20 x => if ee_erc20_contract_address x =? c then ee_value x else 0
  | _, _ => 0
  end.
Definition request_part (a : Asset) (r : WithdrawalRequest) : N :=
  match a, r with
  | Native, WNative q => nw_withdrawal_amount q
  | Native, WErc20 q => ew_max_transaction_fee q
  | Token c _, WErc20 q => if ew_erc20_contract_address q =? c then ew_withdrawal_amount q else 0
  | Token _ _, WNative _ => 0
  end.
Definition on_ledger (native : Principal) (a : Asset) (l : Principal) (n : N) : N :=
  if bytes_eqb l (asset_ledger native a) then n else 0.
Definition repay_part (native : Principal) (a : Asset) (i : ReimbursementIndex) (q : ReimbursementRequest) : N :=
  on_ledger native a (pay_ledger native i) (rr_reimbursed_amount q).

(** What is owed to users besides the tokens that they have on the ledgers *)

(** deposits whose tokens were not minted *)
Definition to_mint (a : Asset) (s : Sys) : N :=
  sum_of (fun x => deposit_part a (snd x))
    (filter (fun x => match mints_for (fst x) (sys_ops s) with [] => true | _ => false end)
       (events_to_mint (sys_state s))).
(** burned for withdrawals that are not finalized *)
Definition open_request (h : list EventType) (r : WithdrawalRequest) : bool :=
  negb (existsb (fun x => fst x =? wr_burn_index r) (finalizations h)).
Definition outstanding (a : Asset) (h : list EventType) : N :=
  sum_of (request_part a) (filter (open_request h) (accepted h)).
(** reimbursements that were not paid *)
Definition unpaid (native : Principal) (ops : list Op) (i : ReimbursementIndex) : bool :=
  negb (existsb (fun o => match named (fst o) with
                          | Some b => bytes_eqb (fst b) (fst (index_block native i)) &&
                                      (snd b =? snd (index_block native i))
                          | None => false
                          end) ops).
Definition to_repay (a : Asset) (s : Sys) : N :=
  let native := native_ledger_id (sys_state s) in
  sum_of (fun x => repay_part native a (fst x) (snd x))
    (filter (fun x => unpaid native (sys_ops s) (fst x)) (reimb_requests (withdrawals (sys_state s)))).
(** burned by a call that has not recorded its request yet *)
Definition burned_by (native : Principal) (a : Asset) (fl : Flight) : N :=
  let ok n := match fl_reply fl with Some (ReLedger (LedgerOk _)) => n | _ => 0 end in
  match fl_task fl with
  | TNativeBurn j => ok (on_ledger native a (nj_ledger j) (nj_amount j))
  | TErc20GasBurn j => ok (on_ledger native a (ej_native_ledger j) (ej_tx_fee j))
  | TErc20Burn j _ => on_ledger native a (ej_native_ledger j) (ej_tx_fee j) +
      ok (on_ledger native a (et_ledger_id (ej_token j)) (ej_amount j))
  | _ => 0
  end.
Definition in_flight (a : Asset) (s : Sys) : N :=
  sum_of (fun x => burned_by (native_ledger_id (sys_state s)) a (snd x)) (sys_tasks s).

(** No registered token has the native ledger as its twin's ledger *)
Definition native_apart (s : State) : Prop :=
  forall l c sy, listed s l c sy -> l <> native_ledger_id s.

Section Solvent.
Variable self : Principal.

(** The tokens that exist on a ledger *)
Definition supply (ledger : Principal) (ops : list Op) : N :=
  minted_total ledger ops - burned_total self ledger ops.

Definition solvent (a : Asset) (s : Sys) : Prop :=
  let l := asset_ledger (native_ledger_id (sys_state s)) a in
  burned_total self l (sys_ops s) <= minted_total l (sys_ops s) /\
  supply l (sys_ops s) + to_mint a s + outstanding a (history (sys_log s)) + to_repay a s + in_flight a s +
    unspent a (sys_state s) <= held a (sys_state s).
End Solvent.
