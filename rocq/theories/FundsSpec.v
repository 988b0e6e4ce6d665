(** * Specification of C75: the minter's address and the transactions it sends *)

From Verif Require Import Base BMap MultiKeyMap Bytes Types Amount Tx CallData Network Hex
  Transactions State Audit Ranges Rlp Parser Memo Driver Sys SysSpec WithdrawSpec DepositSpec
  TokenSpec ReimburseSpec BurnSpec BalanceSpec SolvencySpec ParserSpec Contract ContractSpec.

(** A transaction of the minter that was mined: whether it succeeded and what the network
    took for the gas *)
Record Execution := { xn_tx : SignedTx; xn_ok : bool; xn_gas : N }.

(** What it took from the minter's address. Tokens are moved by calling
    [transfer(address,uint256)] of their contract; the amount is the second argument. *)
Definition calls_transfer (data : list N) : bool := bytes_eqb (firstn 4 data) [169; 5; 156; 187].
Definition cost (a : Asset) (x : Execution) : N :=
  let t := st_tx (xn_tx x) in
  match a with
  | Native => (if xn_ok x then tx_amount t else 0) + xn_gas x
  | Token c _ => if xn_ok x && (tx_destination t =? c) && calls_transfer (tx_data t)
                 then of_be (firstn 32 (skipn 36 (tx_data t))) else 0
  end.

(** What the chain guarantees about the mined transactions [xs] of the minter's address *)
Record executed (h : list EventType) (xs : list Execution) : Prop := {
  (* only the minter can sign them *)
  xd_signed : forall x, In x xs -> exists b, In (xn_tx x) (attempts h b);
  (* every nonce is used once *)
  xd_once : NoDup (map (fun x => tx_nonce (st_tx (xn_tx x))) xs);
  (* gas costs at most the limit times the maximal price *)
  xd_gas : forall x, In x xs -> xn_gas x <= tx_gas_limit (st_tx (xn_tx x)) * tx_max_fee_per_gas (st_tx (xn_tx x));
  (* receipts that providers showed are true *)
  xd_receipts : forall x, In x (settlements h) ->
    In {| xn_tx := se_signed x; xn_ok := mined_ok x; xn_gas := gas_fee x |} xs
}.

(** Only its own transactions take tokens from the minter's address: [took v a w hs xs now]
    says that the happenings [hs] lead from [w] to [now], that the transactions [xs] were
    mined among them, that none takes more than it costs and that nothing else takes any. *)
Inductive took (v : Evm) (a : Asset) : World -> list Happening -> list Execution -> World -> Prop :=
| took_end w : took v a w [] [] w
| took_call w p b c w' l hs xs now : deposit v c w = Some (w', l) -> holds v a w <= holds v a w' ->
    took v a w' hs xs now -> took v a w (ByHelper p b c :: hs) xs now
| took_failed w p b c hs xs now : deposit v c w = None ->
    took v a w hs xs now -> took v a w (ByHelper p b c :: hs) xs now
| took_own w w' x hs xs now : holds v a w <= holds v a w' + cost a x ->
    took v a w' hs xs now -> took v a w (Elsewhere w' :: hs) (x :: xs) now
| took_other w w' hs xs now : holds v a w <= holds v a w' ->
    took v a w' hs xs now -> took v a w (Elsewhere w' :: hs) xs now.

(** A transaction of the withdrawal was mined *)
Definition on_chain (h : list EventType) (xs : list Execution) (r : WithdrawalRequest) : bool :=
  existsb (fun x => existsb (fun t => tx_nonce (st_tx t) =? tx_nonce (st_tx (xn_tx x))) (attempts h (wr_burn_index r))) xs.
(** The withdrawals that are still to be paid *)
Definition to_pay (h : list EventType) (xs : list Execution) : list WithdrawalRequest :=
  filter (fun r => negb (on_chain h xs r)) (accepted h).

(** What is owed in an asset when the withdrawals that were mined are left out *)
Definition still_owed (self : Principal) (a : Asset) (xs : list Execution) (s : Sys) : N :=
  supply self (asset_ledger (native_ledger_id (sys_state s)) a) (sys_ops s) + to_mint a s +
  sum_of (request_part a) (to_pay (history (sys_log s)) xs) + to_repay a s + in_flight a s +
  unspent a (sys_state s).

(** A transaction that is mined next costs at most this *)
Definition in_full (t : SignedTx) : Execution :=
  {| xn_tx := t; xn_ok := true; xn_gas := tx_gas_limit (st_tx t) * tx_max_fee_per_gas (st_tx t) |}.
(** Signed transactions that may be mined next: of withdrawals without a mined transaction,
    and one for each nonce *)
Definition can_follow (h : list EventType) (xs : list Execution) (ts : list SignedTx) : Prop :=
  NoDup (map (fun t => tx_nonce (st_tx t)) ts) /\
  forall t, In t ts -> exists r, In r (to_pay h xs) /\ In t (attempts h (wr_burn_index r)).
