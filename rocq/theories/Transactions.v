(** * Transactions: the withdrawal state machine.

    Model of /repo/minter/src/state/transactions/mod.rs. *)

From Verif Require Import Base BMap MultiKeyMap Bytes Types Amount Tx CallData Network.

Definition TxRequest := Resubmittable Tx.
Definition SignedTxRequest := Resubmittable SignedTx.

(** state/transactions/mod.rs 364-380 [WithdrawalTransactions] *)
Record WT := {
  pending : list WithdrawalRequest;
  processed : bmap N WithdrawalRequest;
  created : mkm N N TxRequest;
  sent : mkm N N (list SignedTxRequest);
  finalized : mkm N N FinalizedTx;
  next_nonce : N;
  maybe_reimburse : bset N;
  reimb_requests : bmap ReimbursementIndex ReimbursementRequest;
  reimbursed : bmap ReimbursementIndex ReimbursedResult
}.

Definition set_pending x w :=
  {| pending := x; processed := processed w; created := created w; sent := sent w;
     finalized := finalized w; next_nonce := next_nonce w; maybe_reimburse := maybe_reimburse w;
     reimb_requests := reimb_requests w; reimbursed := reimbursed w |}.
Definition set_processed x w :=
  {| pending := pending w; processed := x; created := created w; sent := sent w;
     finalized := finalized w; next_nonce := next_nonce w; maybe_reimburse := maybe_reimburse w;
     reimb_requests := reimb_requests w; reimbursed := reimbursed w |}.
Definition set_created x w :=
  {| pending := pending w; processed := processed w; created := x; sent := sent w;
     finalized := finalized w; next_nonce := next_nonce w; maybe_reimburse := maybe_reimburse w;
     reimb_requests := reimb_requests w; reimbursed := reimbursed w |}.
Definition set_sent x w :=
  {| pending := pending w; processed := processed w; created := created w; sent := x;
     finalized := finalized w; next_nonce := next_nonce w; maybe_reimburse := maybe_reimburse w;
     reimb_requests := reimb_requests w; reimbursed := reimbursed w |}.
Definition set_finalized x w :=
  {| pending := pending w; processed := processed w; created := created w; sent := sent w;
     finalized := x; next_nonce := next_nonce w; maybe_reimburse := maybe_reimburse w;
     reimb_requests := reimb_requests w; reimbursed := reimbursed w |}.
Definition set_next_nonce x w :=
  {| pending := pending w; processed := processed w; created := created w; sent := sent w;
     finalized := finalized w; next_nonce := x; maybe_reimburse := maybe_reimburse w;
     reimb_requests := reimb_requests w; reimbursed := reimbursed w |}.
Definition set_maybe_reimburse x w :=
  {| pending := pending w; processed := processed w; created := created w; sent := sent w;
     finalized := finalized w; next_nonce := next_nonce w; maybe_reimburse := x;
     reimb_requests := reimb_requests w; reimbursed := reimbursed w |}.
Definition set_reimb_requests x w :=
  {| pending := pending w; processed := processed w; created := created w; sent := sent w;
     finalized := finalized w; next_nonce := next_nonce w; maybe_reimburse := maybe_reimburse w;
     reimb_requests := x; reimbursed := reimbursed w |}.
Definition set_reimbursed x w :=
  {| pending := pending w; processed := processed w; created := created w; sent := sent w;
     finalized := finalized w; next_nonce := next_nonce w; maybe_reimburse := maybe_reimburse w;
     reimb_requests := reimb_requests w; reimbursed := x |}.

(** state/transactions/mod.rs 402-414 [new] *)
Definition wt_new (nonce : N) : WT :=
  {| pending := []; processed := []; created := mkm_new; sent := mkm_new;
     finalized := mkm_new; next_nonce := nonce; maybe_reimburse := [];
     reimb_requests := []; reimbursed := [] |}.

(** state/transactions/mod.rs 420-422 [update_next_transaction_nonce] *)
Definition update_next_transaction_nonce (n : N) (w : WT) : WT := set_next_nonce n w.

(** state/transactions/mod.rs 436-454
    [find_reimbursed_transaction_by_native_token_ledger_burn_index]: the first entry,
    in index order, for this native burn index. *)
Definition find_reimbursed (b : N) (w : WT) : option ReimbursedResult :=
  option_map snd (find (fun x => ri_withdrawal_id (fst x) =? b) (reimbursed w)).

Definition has_burn_index (b : N) (r : WithdrawalRequest) : bool := wr_burn_index r =? b.

(** state/transactions/mod.rs 456-470 [record_withdrawal_request] *)
Definition record_withdrawal_request (r : WithdrawalRequest) (w : WT) : res WT :=
  let b := wr_burn_index r in
  _ <- rassert (negb (existsb (has_burn_index b) (pending w)
                      || mkm_contains_alt b (created w)
                      || mkm_contains_alt b (sent w)
                      || mkm_contains_alt b (finalized w)))
         "BUG: duplicate Native ledger burn index" ;;
  Done (set_pending (pending w ++ [r]) w).

(** state/transactions/mod.rs 1035-1037 [remove_withdrawal_request] *)
Definition remove_withdrawal_request (r : WithdrawalRequest) (w : WT) : WT :=
  set_pending (filter (fun x => negb (wr_eqb x r)) (pending w)) w.

(** state/transactions/mod.rs 473-486 [reschedule_withdrawal_request] *)
Definition reschedule_withdrawal_request (r : WithdrawalRequest) (w : WT) : res WT :=
  _ <- rassert (Nat.eqb (List.length (filter (has_burn_index (wr_burn_index r)) (pending w))) 1)
         "BUG: expected exactly one withdrawal request" ;;
  record_withdrawal_request r (remove_withdrawal_request r w).

(** state/transactions/mod.rs 533-540: the resubmission strategy of a request *)
Definition strategy_of (r : WithdrawalRequest) : Resubmission :=
  match r with
  | WNative n => ReduceEthAmount (nw_withdrawal_amount n)
  | WErc20 e => GuaranteeEthAmount (ew_max_transaction_fee e)
  end.

(** [assert_eq!(map.try_insert(..), Ok(()))] *)
Definition expect_inserted {K A V} (r : res (result (mkm K A V) (occupied K A))) (msg : string)
  : res (mkm K A V) :=
  x <- r ;; match x with ROk m => Done m | RErr _ => Panic msg end.

(** state/transactions/mod.rs 488-556 [record_created_transaction] *)
Definition record_created_transaction (id : N) (t : Tx) (w : WT) : res WT :=
  req <- expect (find (has_burn_index id) (pending w)) "BUG: withdrawal request not found" ;;
  _ <- rassert (existsb (wr_eqb req) (pending w)) "BUG: withdrawal request not found" ;;
  _ <- rassert (wr_destination req =? tx_destination t)
         "BUG: withdrawal request and transaction destination mismatch" ;;
  _ <- match req with
       | WNative n => rassert (tx_amount t <? nw_withdrawal_amount n)
           "BUG: transaction amount should be the withdrawal amount deducted from transaction fees"
       | WErc20 _ => rassert (tx_amount t =? 0) "BUG: ERC-20 transaction amount should be zero"
       end ;;
  let nonce := next_nonce w in
  _ <- rassert (tx_nonce t =? nonce) "BUG: transaction nonce mismatch" ;;
  n' <- expect (checked_increment nonce) "Transaction nonce overflow" ;;
  let w1 := remove_withdrawal_request req (set_next_nonce n' w) in
  let tr := Build_Resubmittable t (strategy_of req) in
  c' <- expect_inserted (mkm_try_insert nonce (wr_burn_index req) tr (created w1))
          "transactions/mod.rs:542" ;;
  _ <- rassert (negb (bmem id (processed w1))) "transactions/mod.rs:550" ;;
  _ <- rassert (negb (bmem id (maybe_reimburse w1))) "transactions/mod.rs:555" ;;
  Done (set_maybe_reimburse (binsert id tt (maybe_reimburse w1))
       (set_processed (binsert id req (processed w1))
       (set_created c' w1))).

(** state/transactions/mod.rs 558-585 [record_signed_transaction] *)
Definition record_signed_transaction (s : SignedTx) (w : WT) : res WT :=
  c <- expect (mkm_get (tx_nonce (st_tx s)) (created w)) "BUG: missing created transaction" ;;
  _ <- rassert (tx_eqb (rs_tx c) (st_tx s))
         "BUG: mismatch between sent transaction and created transaction" ;;
  let signed := Build_Resubmittable s (rs_strategy c) in
  '(created', removed) <- mkm_remove_entry (tx_nonce (st_tx s)) (created w) ;;
  '(nonce, b, _) <- expect removed "BUG: missing created transaction" ;;
  sent' <- match mkm_modify nonce (fun l => l ++ [signed]) (sent w) with
           | Some m => Done m
           | None => expect_inserted (mkm_try_insert nonce b [signed] (sent w))
                       "transactions/mod.rs:579"
           end ;;
  Done (set_sent sent' (set_created created' w)).

(** state/transactions/mod.rs 393-400 [ResubmitTransactionError] *)
Record ResubmitTransactionError := {
  rte_ledger_burn_index : N;
  rte_transaction_nonce : N;
  rte_allowed_max_transaction_fee : N;
  rte_max_transaction_fee : N
}.

(** state/transactions/mod.rs 606-637: the loop of [create_resubmit_transactions] *)
Fixpoint resubmit_loop (g : GasFeeEstimate) (l : list (N * N * list SignedTxRequest))
  : res (list (result (N * Tx) ResubmitTransactionError)) :=
  match l with
  | [] => Done []
  | (nonce, b, txs) :: l' =>
      last <- expect (last_opt txs) "BUG: empty sent transactions list" ;;
      r <- resubmit (st_tx (rs_tx last)) (rs_strategy last) g ;;
      match r with
      | ROk (Some t) => rest <- resubmit_loop g l' ;; Done (ROk (b, t) :: rest)
      | ROk None => resubmit_loop g l'
      | RErr e => Done [RErr {| rte_ledger_burn_index := b; rte_transaction_nonce := nonce;
                                rte_allowed_max_transaction_fee := re_allowed e;
                                rte_max_transaction_fee := re_actual e |}]
      end
  end.

(** state/transactions/mod.rs 596-638 [create_resubmit_transactions] *)
Definition create_resubmit_transactions (count : N) (g : GasFeeEstimate) (w : WT)
  : res (list (result (N * Tx) ResubmitTransactionError)) :=
  l <- mkm_iter (sent w) ;;
  resubmit_loop g (filter (fun x => count <=? fst (fst x)) l).

(** state/transactions/mod.rs 1234-1244 [equal_ignoring_fee_and_amount] *)
Definition equal_ignoring_fee_and_amount (lhs rhs : Tx) : bool :=
  tx_eqb lhs
    {| tx_chain_id := tx_chain_id rhs; tx_nonce := tx_nonce rhs;
       tx_max_priority_fee_per_gas := tx_max_priority_fee_per_gas lhs;
       tx_max_fee_per_gas := tx_max_fee_per_gas lhs;
       tx_gas_limit := tx_gas_limit rhs; tx_destination := tx_destination rhs;
       tx_amount := tx_amount lhs; tx_data := tx_data rhs;
       tx_access_list := tx_access_list rhs |}.

(** state/transactions/mod.rs 1039-1048 [expect_last_sent_tx_entry] *)
Definition expect_last_sent_tx_entry (s : mkm N N (list SignedTxRequest)) (nonce : N)
  : res (N * SignedTxRequest) :=
  '(b, txs) <- expect (mkm_get_entry nonce s) "BUG: sent transaction not found" ;;
  last <- expect (last_opt txs) "BUG: empty sent transactions list" ;;
  Done (b, last).

(** state/transactions/mod.rs 1050-1060 [cleanup_failed_resubmitted_transactions] *)
Definition cleanup_created (nonce : N) (c : mkm N N TxRequest) : res (mkm N N TxRequest) :=
  '(c', _) <- mkm_remove_entry nonce c ;; Done c'.

(** state/transactions/mod.rs 640-653 [record_resubmit_transaction] *)
Definition record_resubmit_transaction (t : Tx) (w : WT) : res WT :=
  let nonce := tx_nonce t in
  '(b, last) <- expect_last_sent_tx_entry (sent w) nonce ;;
  _ <- rassert (equal_ignoring_fee_and_amount (st_tx (rs_tx last)) t)
         "BUG: mismatch between last sent transaction and the transaction to resubmit" ;;
  c' <- cleanup_created nonce (created w) ;;
  c'' <- expect_inserted (mkm_try_insert nonce b (Build_Resubmittable t (rs_strategy last)) c')
           "transactions/mod.rs:648" ;;
  Done (set_created c'' w).

(** state/transactions/mod.rs 655-675 [sent_transactions_to_finalize] *)
Definition add_hash_index (m : bmap N N) (hb : N * N) : res (bmap N N) :=
  let '(h, b) := hb in
  _ <- match bget h m with
       | Some prev => rassert (prev =? b) "BUG: duplicate transaction hash"
       | None => Done tt
       end ;;
  Done (binsert h b m).
Definition sent_transactions_to_finalize (count : N) (w : WT) : res (bmap N N) :=
  l <- mkm_iter (sent w) ;;
  rfold add_hash_index []
    (flat_map (fun x => map (fun t => (st_hash (rs_tx t), snd (fst x))) (snd x))
       (filter (fun x => fst (fst x) <? count) l)).

(** state/transactions/mod.rs 747-767 [record_reimbursement_request] *)
Definition record_reimbursement_request (i : ReimbursementIndex) (r : ReimbursementRequest)
  (w : WT) : res WT :=
  _ <- rassert (negb (bmem (ri_withdrawal_id i) (maybe_reimburse w)))
         "BUG: withdrawal request still in maybe_reimburse could lead to double minting!" ;;
  _ <- rassert (negb (bmem i (reimbursed w))) "BUG: reimbursement request was already processed" ;;
  _ <- rassert (negb (bmem i (reimb_requests w))) "BUG: reimbursement request already exists" ;;
  Done (set_reimb_requests (binsert i r (reimb_requests w)) w).

(** state/transactions/mod.rs 714-744: the reimbursement of a failed transaction *)
Definition reimbursement_of (req : WithdrawalRequest) (b : N) (f : FinalizedTx) (r : Receipt)
  : ReimbursementRequest :=
  match req with
  | WNative n =>
      {| rr_ledger_burn_index := b;
         rr_reimbursed_amount := tx_amount (st_tx (ft_tx f));
         rr_to := nw_from n;
         rr_to_subaccount := nw_from_subaccount n;
         rr_transaction_hash := Some (rc_transaction_hash r) |}
  | WErc20 e =>
      {| rr_ledger_burn_index := ew_erc20_ledger_burn_index e;
         rr_reimbursed_amount := ew_withdrawal_amount e;
         rr_to := ew_from e;
         rr_to_subaccount := ew_from_subaccount e;
         rr_transaction_hash := Some (rc_transaction_hash r) |}
  end.

(** state/transactions/mod.rs 677-745 [record_finalized_transaction] *)
Definition record_finalized_transaction (b : N) (r : Receipt) (w : WT) : res WT :=
  txs <- expect (mkm_get_alt b (sent w)) "BUG: missing sent transactions" ;;
  s <- expect (find (fun t => st_hash (rs_tx t) =? rc_transaction_hash r) txs)
         "ERROR: no transaction matching receipt" ;;
  f <- expect (try_finalize (rs_tx s) r) "ERROR: invalid transaction receipt" ;;
  let nonce := tx_nonce (st_tx (rs_tx s)) in
  '(sent', _) <- mkm_remove_entry nonce (sent w) ;;
  created' <- cleanup_created nonce (created w) ;;
  fin' <- expect_inserted (mkm_try_insert nonce b f (finalized w)) "transactions/mod.rs:700" ;;
  _ <- rassert (bmem b (maybe_reimburse w)) "failed to remove entry from maybe_reimburse" ;;
  let w1 := set_maybe_reimburse (bremove b (maybe_reimburse w))
           (set_finalized fin' (set_created created' (set_sent sent' w))) in
  req <- expect (bget b (processed w1)) "failed to find entry from processed_withdrawal_requests" ;;
  if is_failure (rc_status r)
  then record_reimbursement_request (ri_of_request req) (reimbursement_of req b f r) w1
  else Done w1.

(** state/transactions/mod.rs 772-776 [record_quarantined_reimbursement] *)
Definition record_quarantined_reimbursement (i : ReimbursementIndex) (w : WT) : WT :=
  set_reimbursed (binsert i ReimbursedQuarantined (reimbursed w))
    (set_reimb_requests (bremove i (reimb_requests w)) w).

(** state/transactions/mod.rs 778-800 [record_finalized_reimbursement] *)
Definition record_finalized_reimbursement (i : ReimbursementIndex) (in_block : N) (w : WT)
  : res WT :=
  req <- expect (bget i (reimb_requests w)) "BUG: missing reimbursement request" ;;
  _ <- rassert (negb (bmem i (reimbursed w))) "transactions/mod.rs:788" ;;
  Done (set_reimbursed
          (binsert i
             (ReimbursedOk
                {| rd_reimbursed_in_block := in_block;
                   rd_burn_in_block := ri_burn_in_block i;
                   rd_reimbursed_amount := rr_reimbursed_amount req;
                   rd_transaction_hash := rr_transaction_hash req |})
             (reimbursed w))
          (set_reimb_requests (bremove i (reimb_requests w)) w)).

(** endpoints.rs 153-173 [RetrieveWithdrawalStatus]; hashes are the 32 bytes, not
    their hexadecimal rendering *)
Inductive TxFinalizedStatus :=
| FinSuccess (transaction_hash : Hash) (effective_transaction_fee : N)
| FinPendingReimbursement (transaction_hash : Hash)
| FinReimbursed (transaction_hash : Hash) (reimbursed_amount : N) (reimbursed_in_block : N).
Inductive WithdrawalStatus :=
| StNotFound
| StPending
| StTxCreated
| StTxSent (transaction_hash : Hash)
| StTxFinalized (s : TxFinalizedStatus).

(** state/transactions/mod.rs 852-901 [processed_transaction_status] *)
Definition processed_transaction_status (b : N) (w : WT)
  : res (WithdrawalStatus * option Tx) :=
  match mkm_get_alt b (created w) with
  | Some t => Done (StTxCreated, Some (rs_tx t))
  | None =>
  match obind (mkm_get_alt b (sent w)) last_opt with
  | Some t => Done (StTxSent (st_hash (rs_tx t)), Some (st_tx (rs_tx t)))
  | None =>
  match mkm_get_alt b (finalized w) with
  | Some f =>
      let h := rc_transaction_hash (ft_receipt f) in
      let t := st_tx (ft_tx f) in
      match find_reimbursed b w with
      | Some (ReimbursedOk r) =>
          Done (StTxFinalized (FinReimbursed h (rd_reimbursed_amount r) (rd_reimbursed_in_block r)),
                Some t)
      | _ =>
          if is_failure (rc_status (ft_receipt f))
          then Done (StTxFinalized (FinPendingReimbursement h), Some t)
          else
            fee <- effective_transaction_fee (ft_receipt f) ;;
            Done (StTxFinalized (FinSuccess h fee), Some t)
      end
  | None => Done (StNotFound, None)
  end end end.

(** state/transactions/mod.rs 841-850 [transaction_status] *)
Definition transaction_status (b : N) (w : WT) : res WithdrawalStatus :=
  if existsb (has_burn_index b) (pending w) then Done StPending
  else x <- processed_transaction_status b w ;; Done (fst x).

(** state/transactions/mod.rs 154-159 [WithdrawalSearchParameter] *)
Inductive SearchParameter :=
| ByWithdrawalId (b : N)
| ByRecipient (a : Address)
| BySenderAccount (owner : Principal) (subaccount : option Subaccount).

(** state/transactions/mod.rs 221-230 [match_parameter] *)
Definition match_parameter (p : SearchParameter) (r : WithdrawalRequest) : bool :=
  match p with
  | ByWithdrawalId b => wr_burn_index r =? b
  | ByRecipient a => wr_payee r =? a
  | BySenderAccount o s =>
      bytes_eqb (wr_from r) o
      && (if opt_dec bytes_dec (wr_from_subaccount r) s then true else false)
  end.

(** state/transactions/mod.rs 802-839 [withdrawal_status] *)
Definition status_row (w : WT) (r : WithdrawalRequest)
  : res (WithdrawalRequest * WithdrawalStatus * option Tx) :=
  x <- processed_transaction_status (wr_burn_index r) w ;;
  match x with
  | (StTxCreated, Some t) => Done (r, StTxCreated, Some t)
  | (StTxSent h, Some t) => Done (r, StTxSent h, Some t)
  | (StTxFinalized s, Some t) => Done (r, StTxFinalized s, Some t)
  | _ => Panic "Status of processed request is not found"
  end.
Fixpoint rmap {A B} (f : A -> res B) (l : list A) : res (list B) :=
  match l with
  | [] => Done []
  | a :: l' => b <- f a ;; bs <- rmap f l' ;; Done (b :: bs)
  end.
Definition withdrawal_status (p : SearchParameter) (w : WT)
  : res (list (WithdrawalRequest * WithdrawalStatus * option Tx)) :=
  rows <- rmap (status_row w) (filter (match_parameter p) (bvals (processed w))) ;;
  Done (map (fun r => (r, StPending, None)) (filter (match_parameter p) (pending w)) ++ rows).

(** state/transactions/mod.rs 908 *)
Definition MAX_NUM_PENDING_TRANSACTION_NONCES : N := 1000.

(** state/transactions/mod.rs 909-910: distinct nonces of created and sent transactions *)
Definition pending_nonces (w : WT) : list N :=
  nodup N.eq_dec (mkm_keys (created w) ++ mkm_keys (sent w)).

(** state/transactions/mod.rs 903-920 [withdrawal_requests_batch] *)
Definition withdrawal_requests_batch (requested : N) (w : WT) : list WithdrawalRequest :=
  let size := N.min (MAX_NUM_PENDING_TRANSACTION_NONCES - N.of_nat (List.length (pending_nonces w)))
                    requested in
  firstn (N.to_nat size) (pending w).

(** state/transactions/mod.rs 930-940 [maybe_reimburse_requests_iter] *)
Definition maybe_reimburse_requests (w : WT) : list WithdrawalRequest :=
  map snd (filter (fun x => bmem (fst x) (maybe_reimburse w)) (processed w)).

(** state/transactions/mod.rs 942-964 [transactions_to_sign_batch] *)
Definition transactions_to_sign_batch (size : N) (w : WT) : res (list (N * Tx)) :=
  l <- mkm_iter (created w) ;;
  Done (map (fun x => (snd (fst x), rs_tx (snd x))) (firstn (N.to_nat size) l)).

(** state/transactions/mod.rs 966-983 [transactions_to_send_batch] *)
Definition transactions_to_send_batch (count size : N) (w : WT) : res (list SignedTx) :=
  l <- mkm_iter (sent w) ;;
  Done (map (fun t => rs_tx t)
    (firstn (N.to_nat size)
      (flat_map (fun x => match last_opt (snd x) with
                          | Some t => if count <=? fst (fst x) then [t] else []
                          | None => []
                          end) l))).

(** state/transactions/mod.rs 1029-1033 [has_pending_requests] *)
Definition has_pending_requests (w : WT) : bool :=
  negb (match pending w with [] => true | _ => false end)
  || negb (mkm_is_empty (created w)) || negb (mkm_is_empty (sent w)).

(** state/transactions/mod.rs 1090-1095 [oldest_incomplete_withdrawal_timestamp] *)
Definition min_opt (l : list N) : option N :=
  match l with [] => None | x :: l' => Some (fold_left N.min l' x) end.
Definition oldest_incomplete_withdrawal_timestamp (w : WT) : option N :=
  min_opt (flat_map (fun r => match wr_created_at r with Some t => [t] | None => [] end)
             (pending w ++ maybe_reimburse_requests w)).

(** ** Creating a transaction *)

(** state/transactions/mod.rs 382-389 [CreateTransactionError] *)
Record CreateTransactionError := {
  cte_native_ledger_burn_index : N;
  cte_allowed_max_transaction_fee : N;
  cte_actual_max_transaction_fee : N
}.

(** state/transactions/mod.rs 1104-1180 [create_transaction] *)
Definition create_transaction (req : WithdrawalRequest) (nonce : N) (g : GasFeeEstimate)
  (gas_limit : N) (net : EvmNetwork) : res (result Tx CreateTransactionError) :=
  _ <- rassert (0 <? gas_limit) "BUG: gas limit should be non-zero" ;;
  match req with
  | WNative r =>
      let p := to_price g gas_limit in
      let fee := max_transaction_fee p in
      match checked_sub (nw_withdrawal_amount r) fee with
      | None => Done (RErr {| cte_native_ledger_burn_index := nw_ledger_burn_index r;
                              cte_allowed_max_transaction_fee := nw_withdrawal_amount r;
                              cte_actual_max_transaction_fee := fee |})
      | Some amount =>
          Done (ROk {| tx_chain_id := chain_id net;
                       tx_nonce := nonce;
                       tx_max_priority_fee_per_gas := tp_max_priority_fee_per_gas p;
                       tx_max_fee_per_gas := tp_max_fee_per_gas p;
                       tx_gas_limit := tp_gas_limit p;
                       tx_destination := nw_destination r;
                       tx_amount := amount;
                       tx_data := [];
                       tx_access_list := [] |})
      end
  | WErc20 r =>
      request_max <- expect (into_wei_per_gas (ew_max_transaction_fee r) gas_limit)
                       "BUG: gas_limit should be non-zero" ;;
      let actual := min_max_fee_per_gas g in
      if request_max <? actual
      then Done (RErr {| cte_native_ledger_burn_index := ew_native_ledger_burn_index r;
                         cte_allowed_max_transaction_fee := ew_max_transaction_fee r;
                         cte_actual_max_transaction_fee := or_max (transaction_cost actual gas_limit) |})
      else
        Done (ROk {| tx_chain_id := chain_id net;
                     tx_nonce := nonce;
                     tx_max_priority_fee_per_gas := gf_max_priority_fee_per_gas g;
                     tx_max_fee_per_gas := request_max;
                     tx_gas_limit := gas_limit;
                     tx_destination := ew_erc20_contract_address r;
                     tx_amount := 0;
                     tx_data := calldata_encode (ew_destination r) (ew_withdrawal_amount r);
                     tx_access_list := [] |})
  end.
