(** * What the event log says about withdrawals (specification).

    Everything here is computed from the payloads of the recorded events, oldest first. *)

From Verif Require Import Base BMap MultiKeyMap Bytes Types Amount Tx CallData Network Hex
  Transactions State Audit Ranges Rlp Parser Memo Driver Sys SysSpec.

Definition history (log : list Event) : list EventType := map ev_payload log.

(** The withdrawals accepted so far *)
Definition accepted_by (e : EventType) : list WithdrawalRequest :=
  match e with
  | EvAcceptedNativeWithdrawalRequest r => [WNative r]
  | EvAcceptedErc20WithdrawalRequest r => [WErc20 r]
  | _ => []
  end.
Definition accepted (h : list EventType) : list WithdrawalRequest := flat_map accepted_by h.

(** First transactions, with the withdrawal they are for *)
Definition created_by (e : EventType) : list (N * Tx) :=
  match e with EvCreatedTransaction b t => [(b, t)] | _ => [] end.
Definition creations (h : list EventType) : list (N * Tx) := flat_map created_by h.

(** All transactions ever made (created, replaced or signed), with their withdrawal *)
Definition made_by (e : EventType) : list (N * Tx) :=
  match e with
  | EvCreatedTransaction b t | EvReplacedTransaction b t => [(b, t)]
  | EvSignedTransaction b s => [(b, st_tx s)]
  | _ => []
  end.
Definition transactions_made (h : list EventType) : list (N * Tx) := flat_map made_by h.

(** The signed transactions of withdrawal [b], in order *)
Definition signed_by (b : N) (e : EventType) : list SignedTx :=
  match e with EvSignedTransaction b' s => if b' =? b then [s] else [] | _ => [] end.
Definition attempts (h : list EventType) (b : N) : list SignedTx := flat_map (signed_by b) h.

(** The transaction of withdrawal [b] that waits for a signature *)
Definition unsigned_after (b : N) (o : option Tx) (e : EventType) : option Tx :=
  match e with
  | EvCreatedTransaction b' t | EvReplacedTransaction b' t => if b' =? b then Some t else o
  | EvSignedTransaction b' _ | EvFinalizedTransaction b' _ => if b' =? b then None else o
  | _ => o
  end.
Definition unsigned (h : list EventType) (b : N) : option Tx := fold_left (unsigned_after b) h None.

(** Finalized withdrawals and the receipts *)
Definition finalized_by (e : EventType) : list (N * Receipt) :=
  match e with EvFinalizedTransaction b r => [(b, r)] | _ => [] end.
Definition finalizations (h : list EventType) : list (N * Receipt) := flat_map finalized_by h.

(** The nonce of the next new transaction: what the installation or the last override
    said, plus the number of transactions created since *)
Definition nonce_after (n : N) (e : EventType) : N :=
  match e with
  | EvInit a => ia_next_transaction_nonce a
  | EvUpgrade a => match ua_next_transaction_nonce a with Some m => m | None => n end
  | EvCreatedTransaction _ _ => n + 1
  | _ => n
  end.
Definition expected_nonce (h : list EventType) : N := fold_left nonce_after h 0.

(** An upgrade that sets the nonce *)
Definition overrides_nonce (e : EventType) : bool :=
  match e with EvUpgrade a => is_some (ua_next_transaction_nonce a) | _ => false end.

(** [new] differs from [old] only in fees and amount: the priority fee is at least 10%
    higher (or the largest 256-bit number) and the maximal fee is not lower *)
Definition fee_bump (old new : Tx) : Prop :=
  tx_nonce new = tx_nonce old /\ tx_chain_id new = tx_chain_id old /\
  tx_gas_limit new = tx_gas_limit old /\ tx_destination new = tx_destination old /\
  tx_data new = tx_data old /\ tx_access_list new = tx_access_list old /\
  (11 * tx_max_priority_fee_per_gas old <= 10 * tx_max_priority_fee_per_gas new \/
   U256_MAX <= tx_max_priority_fee_per_gas new) /\
  tx_max_fee_per_gas old <= tx_max_fee_per_gas new.

(** What the recorded history [h] must look like for [e] to be recorded next *)
Definition may_follow (h : list EventType) (e : EventType) : Prop :=
  match e with
  | EvAcceptedNativeWithdrawalRequest _ | EvAcceptedErc20WithdrawalRequest _ =>
      (* no earlier withdrawal with the same burn index *)
      forall r, In r (accepted_by e) -> ~ In (wr_burn_index r) (map wr_burn_index (accepted h))
  | EvCreatedTransaction b t =>
      (* for an accepted withdrawal without transaction, with the next nonce *)
      In b (map wr_burn_index (accepted h)) /\ ~ In b (map fst (creations h)) /\
      tx_nonce t = expected_nonce h
  | EvReplacedTransaction b t =>
      (* replaces the last signed transaction of a withdrawal that is not finalized *)
      ~ In b (map fst (finalizations h)) /\
      exists s, last_opt (attempts h b) = Some s /\ fee_bump (st_tx s) t
  | EvSignedTransaction b s =>
      (* signs exactly the transaction that waits for a signature *)
      unsigned h b = Some (st_tx s)
  | EvFinalizedTransaction b r =>
      (* with the receipt of one of the signed transactions, and only once *)
      ~ In b (map fst (finalizations h)) /\
      exists s, In s (attempts h b) /\ st_hash s = rc_transaction_hash r
  | _ => True
  end.

(** ** The stages of a withdrawal, in the tables *)

Inductive Stage := Waiting | Prepared | Sent | Finalized.

Definition at_stage (w : WT) (r : WithdrawalRequest) (st : Stage) : Prop :=
  let b := wr_burn_index r in
  match st with
  | Waiting => In r (pending w)
  | Prepared => bget b (processed w) = Some r /\
      mkm_get_alt b (created w) <> None /\ mkm_get_alt b (sent w) = None
  | Sent => bget b (processed w) = Some r /\ mkm_get_alt b (sent w) <> None
  | Finalized => bget b (processed w) = Some r /\ mkm_get_alt b (finalized w) <> None
  end.
Definition rank (st : Stage) : N :=
  match st with Waiting => 0 | Prepared => 1 | Sent => 2 | Finalized => 3 end.

(** The replacement of the row [x] (nonce, burn index, signed transactions) in a round of
    resubmissions at estimate [g], if one is made; [unaffordable]: it would cost more
    than may be spent *)
Definition replacement (g : GasFeeEstimate) (x : N * N * list SignedTxRequest) : list (N * Tx) :=
  match @last_opt SignedTxRequest (snd x) with
  | Some last => match resubmit (st_tx (rs_tx last)) (rs_strategy last) g with
                 | Done (ROk (Some t)) => [(snd (fst x), t)]
                 | _ => []
                 end
  | None => []
  end.
Definition unaffordable (g : GasFeeEstimate) (x : N * N * list SignedTxRequest) : Prop :=
  exists last e, @last_opt SignedTxRequest (snd x) = Some last /\
    resubmit (st_tx (rs_tx last)) (rs_strategy last) g = Done (RErr e).

(** The [k] numbers from [n] on *)
Fixpoint consecutive (n : N) (k : nat) : list N :=
  match k with O => [] | S k => n :: consecutive (n + 1) k end.
