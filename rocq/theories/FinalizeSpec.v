(** * Specification of C31: receipts that the network can return. *)

From Verif Require Import Base BMap MultiKeyMap Bytes Types Amount Tx CallData Network Hex
  Transactions State Audit Ranges Rlp Parser Memo Driver Sys SysSpec WithdrawSpec.

(** A receipt for the withdrawal [b]: it is the receipt of a transaction that the minter
    signed for [b], and the network charged no more per unit of gas and used no more gas
    than this transaction allows. *)
Definition honest (h : list EventType) (b : N) (rc : Receipt) : Prop :=
  (exists x, In x (attempts h b) /\ st_hash x = rc_transaction_hash rc) /\
  forall x, In x (attempts h b) -> st_hash x = rc_transaction_hash rc ->
    rc_effective_gas_price rc <= tx_max_fee_per_gas (st_tx x) /\ rc_gas_used rc <= tx_gas_limit (st_tx x).

Definition not_finalized (h : list EventType) (b : N) : Prop := ~ In b (map fst (finalizations h)).

(** Withdrawals of no tokens at all are excluded *)
Definition positive (r : WithdrawalRequest) : Prop :=
  match r with WNative _ => True | WErc20 q => 0 < ew_withdrawal_amount q end.

(** What the nodes answered for the transactions asked about *)
Definition answered (hashes : list (Hash * N)) (rs : list ReceiptReply) (b : N) (rc : Receipt) : Prop :=
  In (b, ReceiptOk rc) (combine (map snd hashes) rs).
(** The receipts are honest, and there is one for each withdrawal asked about *)
Definition fair (h : list EventType) (hashes : list (Hash * N)) (rs : list ReceiptReply) : Prop :=
  (forall b rc, answered hashes rs b rc -> honest h b rc) /\
  (forall b, In b (map snd hashes) -> exists rc, answered hashes rs b rc).
(** No question failed, and only one of the transactions of a withdrawal was mined *)
Definition complete (hashes : list (Hash * N)) (rs : list ReceiptReply) : Prop :=
  ~ In ReceiptErr rs /\
  forall i j b rc rc', nth_error (combine (map snd hashes) rs) i = Some (b, ReceiptOk rc) ->
    nth_error (combine (map snd hashes) rs) j = Some (b, ReceiptOk rc') -> i = j.
