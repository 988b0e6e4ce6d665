(** * Specification of C29 and C30: the books, computed from the recorded events. *)

From Verif Require Import Base BMap MultiKeyMap Bytes Types Amount Tx CallData Network Hex
  Transactions State Audit Ranges Rlp Parser Memo Driver Sys SysSpec WithdrawSpec.

Definition sum (l : list N) : N := fold_right N.add 0 l.
Definition sum_of {A : Type} (f : A -> N) (l : list A) : N := sum (map f l).

(** What was deposited *)
Definition native_deposit (e : EventType) : N :=
  match e with EvAcceptedDeposit x => ne_value x | _ => 0 end.
Definition erc20_deposit (contract : Address) (e : EventType) : N :=
  match e with
  | EvAcceptedErc20Deposit x => if ee_erc20_contract_address x =? contract then ee_value x else 0
  | _ => 0
  end.
Definition native_deposits (h : list EventType) : N := sum_of native_deposit h.
Definition erc20_deposits (contract : Address) (h : list EventType) : N := sum_of (erc20_deposit contract) h.

(** A finalized withdrawal: the request that was accepted, the signed transaction that was
    mined and its receipt *)
Record Settlement := { se_request : WithdrawalRequest; se_signed : SignedTx; se_receipt : Receipt }.

Definition settlement (h : list EventType) (x : N * Receipt) : list Settlement :=
  match find (fun r => wr_burn_index r =? fst x) (accepted h),
        find (fun s => st_hash s =? rc_transaction_hash (snd x)) (attempts h (fst x)) with
  | Some r, Some s => [{| se_request := r; se_signed := s; se_receipt := snd x |}]
  | _, _ => []
  end.
Definition settlements (h : list EventType) : list Settlement := flat_map (settlement h) (finalizations h).

(** What the network took for executing the transaction *)
Definition gas_fee (x : Settlement) : N := rc_effective_gas_price (se_receipt x) * rc_gas_used (se_receipt x).
Definition mined_ok (x : Settlement) : bool :=
  match rc_status (se_receipt x) with TxSuccess => true | TxFailure => false end.
(** What left the minter's address in native tokens *)
Definition spent (x : Settlement) : N :=
  (if mined_ok x then tx_amount (st_tx (se_signed x)) else 0) + gas_fee x.
(** What the user was charged for gas *)
Definition charged (x : Settlement) : N :=
  match se_request x with
  | WNative r => nw_withdrawal_amount r - tx_amount (st_tx (se_signed x))
  | WErc20 r => ew_max_transaction_fee r
  end.
(** What left the minter's address in tokens of a contract *)
Definition spent_erc20 (contract : Address) (x : Settlement) : N :=
  match se_request x with
  | WErc20 r => if mined_ok x && (ew_erc20_contract_address r =? contract) then ew_withdrawal_amount r else 0
  | WNative _ => 0
  end.
