(** * What the transaction of a withdrawal must look like (specification). *)

From Verif Require Import Base BMap MultiKeyMap MultiKeyMapFacts Bytes Types Amount Network CallData Transactions.

(** The largest fee the transaction can cost, as the 256-bit code sees it *)
Definition tx_fee_cap (t : Tx) : N := N.min (tx_gas_limit t * tx_max_fee_per_gas t) U256_MAX.

(** [t] carries out the withdrawal [r] on network [net] *)
Definition tx_serves (net : EvmNetwork) (r : WithdrawalRequest) (t : Tx) : Prop :=
  tx_chain_id t = chain_id net /\
  tx_access_list t = [] /\
  match r with
  | WNative n =>
      tx_destination t = nw_destination n /\ tx_data t = [] /\ tx_gas_limit t = 21000 /\
      tx_amount t + tx_fee_cap t = nw_withdrawal_amount n
  | WErc20 e =>
      tx_destination t = ew_erc20_contract_address e /\ tx_amount t = 0 /\
      tx_data t = calldata_encode (ew_destination e) (ew_withdrawal_amount e) /\
      tx_gas_limit t = 65000 /\
      tx_fee_cap t <= ew_max_transaction_fee e /\
      ew_max_transaction_fee e < tx_gas_limit t * (tx_max_fee_per_gas t + 1)
  end.

(** Every transaction kept for a processed request [r] satisfies [P r] *)
Record wt_content (P : WithdrawalRequest -> Tx -> Prop) (Q : SignedTx -> Prop) (w : WT) : Prop := {
  c_created : forall k b t, row (created w) k b t ->
    exists r, bget b (processed w) = Some r /\ P r (rs_tx t);
  c_sent : forall k b l, row (sent w) k b l ->
    exists r, bget b (processed w) = Some r /\
      forall t, In t l -> P r (st_tx (rs_tx t)) /\ Q (rs_tx t);
  c_fin : forall k b f, row (finalized w) k b f ->
    exists r, bget b (processed w) = Some r /\ P r (st_tx (ft_tx f)) /\ Q (ft_tx f)
}.

