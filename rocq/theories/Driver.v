(** * Driver: the asynchronous code as message segments.

    Model of /repo/minter/src/deposit.rs, withdraw.rs, ledger_client.rs, guard/mod.rs,
    the update endpoints of main.rs and [lazy_refresh_gas_fee_estimate] of tx.rs.

    On the Internet Computer an [async] function runs in segments: a segment is the
    code from one [await] to the next and is executed atomically. A function
    suspended at an [await] is represented by a value of type [Task] (the local
    variables that are still needed). Each function below is one segment: it gets
    the state and the answer to the awaited call and returns the new state and
    either the next suspended task or the outcome of the whole call; a panic is a
    [Panic]. Timers that are (re)scheduled are not represented: every timer task may
    be started at any time (Sys.v).

    Simplifications common to all segments: [join_all] of several calls is one
    [await] for the list of answers; the [await] for the minter's public key
    (state.rs [minter_address], tx.rs [compute_recovery_id]) is merged with the call
    that follows it; log output is dropped. *)

From Verif Require Import Base BMap MultiKeyMap Bytes Types Amount Tx CallData Network Hex
  Transactions State Audit Ranges Rlp Parser Memo.

(** ** Ledger calls *)

(** icrc1 [Account] *)
Record Account := { ac_owner : Principal; ac_subaccount : option Subaccount }.

(** The two ledger methods used: [icrc1_transfer] from the minter's default account
    ([from_subaccount: None]) and [icrc2_transfer_from]. In all calls [fee] and
    [created_at_time] are [None]. *)
Inductive LedgerCall :=
| Transfer (ledger : Principal) (to : Account) (amount : N) (memo : option Memo)
| TransferFrom (ledger : Principal) (from to : Account) (amount : N) (memo : option Memo).

(** icrc1 [TransferError] and icrc2 [TransferFromError] *)
Inductive TransferError :=
| BadFee | BadBurn | InsufficientFunds | InsufficientAllowance | TooOld | CreatedInFuture
| Duplicate | TemporarilyUnavailable | GenericError.

(** The answer of a ledger call: [Ok(Ok(block_index))], [Ok(Err(e))], [Err(reject)].
    The block index is a candid [Nat]. *)
Inductive LedgerReply :=
| LedgerOk (block_index : N)
| LedgerErr (e : TransferError)
| LedgerReject.

(** ledger_client.rs 28-72 [LedgerBurnError], [FeeTransferError] (details dropped) *)
Inductive LedgerError := LeTemporarilyUnavailable | LeAmountTooLow | LeInsufficientFunds
| LeInsufficientAllowance.

(** [block_index.0.to_u64().expect(..)] *)
Definition block_u64 (b : N) : res N :=
  _ <- rassert (b <=? U64_MAX) "nat does not fit into u64" ;; Done b.

(** ledger_client.rs 95-191 [burn_from]: from the answer to the result *)
Definition burn_result (r : LedgerReply) : res (result N LedgerError) :=
  match r with
  | LedgerOk b => i <- block_u64 b ;; Done (ROk i)
  | LedgerErr BadFee => Panic "BUG: bad fee"
  | LedgerErr BadBurn => Done (RErr LeAmountTooLow)
  | LedgerErr InsufficientFunds => Done (RErr LeInsufficientFunds)
  | LedgerErr InsufficientAllowance => Done (RErr LeInsufficientAllowance)
  | LedgerErr TooOld => Panic "BUG: transfer too old"
  | LedgerErr CreatedInFuture => Panic "BUG: created in future"
  | LedgerErr Duplicate => Panic "BUG: duplicate transfer"
  | LedgerErr TemporarilyUnavailable => Done (RErr LeTemporarilyUnavailable)
  | LedgerErr GenericError => Done (RErr LeTemporarilyUnavailable)
  | LedgerReject => Done (RErr LeTemporarilyUnavailable)
  end.

(** ledger_client.rs 193-288 [trasnfer_withdrawal_fee] and 290-385
    [refund_withdrawal_fee]: from the answer to the result *)
Definition fee_transfer_result (r : LedgerReply) : res (result N LedgerError) :=
  match r with
  | LedgerErr BadBurn => Panic "BUG: expected transfer"
  | _ => burn_result r
  end.

(** lib.rs 40-43 [FEES_SUBACCOUNT] *)
Definition FEES_SUBACCOUNT : Subaccount := repeat 0 30 ++ [15; 238].

(** ** Guards: guard/mod.rs *)

(** guard/mod.rs 10-11 *)
Definition MAX_CONCURRENT : N := 100.
Definition MAX_PENDING : N := 100.

Inductive GuardError := AlreadyProcessing | TooManyConcurrentRequests | TooManyPendingRequests.

(** guard/mod.rs 51-71 [Guard::new] (33-35: the pending count is the length of the
    withdrawal queue) *)
Definition guard_new (p : Principal) (s : State) : result State GuardError :=
  if MAX_PENDING <=? N.of_nat (List.length (pending (withdrawals s)))
  then RErr TooManyPendingRequests
  else if bmem p (pending_withdrawal_principals s) then RErr AlreadyProcessing
  else if MAX_CONCURRENT <=? N.of_nat (List.length (pending_withdrawal_principals s))
  then RErr TooManyConcurrentRequests
  else ROk (set_pending_withdrawal_principals
              (binsert p tt (pending_withdrawal_principals s)) s).
(** guard/mod.rs 74-78 [Drop for Guard] *)
Definition guard_drop (p : Principal) (s : State) : State :=
  set_pending_withdrawal_principals (bremove p (pending_withdrawal_principals s)) s.
(** guard/mod.rs 96-103 [TimerGuard::new]; [None] is [AlreadyProcessing] *)
Definition timer_guard_new (t : TaskType) (s : State) : option State :=
  if bmem t (active_tasks s) then None
  else Some (set_active_tasks (binsert t tt (active_tasks s)) s).
(** guard/mod.rs 106-112 [Drop for TimerGuard] *)
Definition timer_guard_drop (t : TaskType) (s : State) : State :=
  set_active_tasks (bremove t (active_tasks s)) s.

(** ** Suspended functions *)

(** Locals of [mint] (deposit.rs 29-208) at the [await] of a transfer *)
Record MintJob := {
  mj_fee : option N;
  mj_native_ledger : Principal;
  mj_event : ReceivedDepositEvent;
  mj_symbol : text;
  mj_ledger : Principal;
  mj_amount : N;
  mj_rest : list ReceivedDepositEvent
}.

(** Locals of [scrape_until_block]/[scrape_block_range] (deposit.rs 333-445) at the
    [await] of [get_logs] *)
Record ScrapeJob := {
  sj_contract : Address;
  sj_topics : list Topic;
  sj_current : Range;
  sj_subranges : list Range;
  sj_chunks : Chunks
}.

(** Locals of [withdraw_native_token] (main.rs 277-409) *)
Record NativeJob := {
  nj_caller : Principal;
  nj_destination : Address;
  nj_amount : N;
  nj_fee : option N;
  nj_transfer_fee : N;
  nj_ledger : Principal;
  nj_now : N
}.

(** Locals of [withdraw_erc20] (main.rs 462-674) *)
Record Erc20Job := {
  ej_caller : Principal;
  ej_destination : Address;
  ej_amount : N;
  ej_token : ERC20Token;
  ej_transfer_fee : N;
  ej_native_ledger : Principal;
  ej_tx_fee : N;
  ej_fee : option N;
  ej_now : N
}.

Inductive Task :=
(** deposit.rs 91-103: user mint; 134-146: fee mint (the user mint gave [block]) *)
| TMint (j : MintJob)
| TMintFee (j : MintJob) (block : N)
(** withdraw.rs 84 *)
| TReimburse (ledger : Principal) (i : ReimbursementIndex) (r : ReimbursementRequest)
    (rest : list (ReimbursementIndex * ReimbursementRequest))
(** deposit.rs 222 *)
| TScrapeBlock (attempts : N)
(** deposit.rs 397-400 *)
| TScrapeLogs (j : ScrapeJob)
(** withdraw.rs 158, 169, 294-299, 339-344, 374, 383-388 *)
| TRetrieveFee
| TRetrieveCount (g : GasFeeEstimate)
| TRetrieveSign (count : option N) (batch : list (N * Tx))
| TRetrieveSend (txs : list SignedTx)
| TRetrieveFinalizedCount
| TRetrieveReceipts (hashes : bmap Hash N)
(** main.rs 326-328, 352-360, 399-401 *)
| TNativeFee (j : NativeJob)
| TNativeBurn (j : NativeJob)
| TNativeRefund (caller : Principal) (ledger : Principal) (amount : N) (e : LedgerError)
(** main.rs 498, 518-520, 541-551, 560-569, 635-637 and 662-664 *)
| TErc20Estimate (j : Erc20Job)
| TErc20Fee (j : Erc20Job)
| TErc20GasBurn (j : Erc20Job)
| TErc20Burn (j : Erc20Job) (native_index : N)
| TErc20Refund (caller : Principal) (ledger : Principal) (amount : N)
    (native_index : option N) (e : LedgerError)
(** tx.rs 749 *)
| TRefresh.

Inductive WithdrawalError :=
| WeInvalidDestination
| WeAmountTooLow (min_withdrawal_amount : N)
| WeFeeTransfer (e : LedgerError)
| WeBurn (e : LedgerError).

Inductive WithdrawErc20Error :=
| EeInvalidDestination
| EeTokenNotSupported
| EeTemporarilyUnavailable
| EeFeeTransfer (e : LedgerError)
| EeNativeLedger (e : LedgerError)
| EeErc20Ledger (native_block_index : N) (e : LedgerError).

Inductive RequestScrapingError := InvalidBlockNumber | BlockAlreadyObserved | CalledTooManyTimes.

(** What a finished call returns *)
Inductive Outcome :=
| OutTimer
| OutNative (r : result NativeWithdrawalRequest WithdrawalError)
| OutErc20 (r : result Erc20WithdrawalRequest WithdrawErc20Error)
| OutScraping (r : result unit RequestScrapingError)
| OutAdded
| OutTrap.

Inductive Next := Await (t : Task) | Finish (o : Outcome).

(** The timer guards and the principal guard held by a suspended function *)
Definition task_timers (t : Task) : list TaskType :=
  match t with
  | TMint _ | TMintFee _ _ => [TaskMint]
  | TReimburse _ _ _ _ => [TaskReimbursement]
  | TScrapeBlock _ | TScrapeLogs _ => [TaskScrapLogs]
  | TRetrieveFee => [TaskRetrieveEth; TaskRefreshGasFeeEstimate]
  | TRetrieveCount _ | TRetrieveSign _ _ | TRetrieveSend _ | TRetrieveFinalizedCount
  | TRetrieveReceipts _ => [TaskRetrieveEth]
  | TErc20Estimate _ | TRefresh => [TaskRefreshGasFeeEstimate]
  | _ => []
  end.
Definition task_principal (t : Task) : option Principal :=
  match t with
  | TNativeFee j | TNativeBurn j => Some (nj_caller j)
  | TNativeRefund c _ _ _ => Some c
  | TErc20Estimate j | TErc20Fee j | TErc20GasBurn j | TErc20Burn j _ => Some (ej_caller j)
  | TErc20Refund c _ _ _ _ => Some c
  | _ => None
  end.

(** Dropping the guards of a function that ends (or is dropped) *)
Definition release (timers : list TaskType) (p : option Principal) (s : State) : State :=
  let s1 := fold_left (fun s t => timer_guard_drop t s) timers s in
  match p with Some c => guard_drop c s1 | None => s1 end.
Definition on_state (f : State -> State) (c : Core) : Core := (f (fst c), snd c).
Definition end_timer (t : TaskType) (c : Core) : res (Core * Next) :=
  Done (on_state (timer_guard_drop t) c, Finish OutTimer).
Definition end_call (p : Principal) (o : Outcome) (c : Core) : res (Core * Next) :=
  Done (on_state (guard_drop p) c, Finish o).

(** ** Minting: deposit.rs 29-208 *)

(** deposit.rs 505-520 [calculate_deposit_amount_deducting_fee]; subtraction of
    candid [Nat]s panics on underflow *)
Definition calculate_deposit_amount (amount : N) (fee : option N) (is_native : bool) : res N :=
  if is_native
  then match fee with
       | Some f => _ <- rassert (f <=? amount) "Cannot subtract b from a because b is larger than a" ;;
                   Done (amount - f)
       | None => Done amount
       end
  else Done amount.

Definition is_native (e : ReceivedDepositEvent) : bool :=
  match e with DepNative _ => true | DepErc20 _ => false end.

(** deposit.rs 45-103: the loop up to the [await] of the user mint, 199-207: the end *)
Definition mint_next (fee : option N) (native_ledger : Principal)
  (events : list ReceivedDepositEvent) (c : Core) : res (Core * Next) :=
  match events with
  | [] => end_timer TaskMint c
  | e :: rest =>
      '(symbol, ledger) <-
        match e with
        | DepNative _ => Done (text_of "Native", native_ledger)
        | DepErc20 x =>
            '(l, sy) <- expect (dmkm_get_entry_alt (ee_erc20_contract_address x)
                                  (erc20_tokens (fst c)))
                          "Failed to mint ERC20: Unsupported ERC20 contract address" ;;
            Done (sy, l)
        end ;;
      amount <- calculate_deposit_amount (dep_value e) fee (is_native e) ;;
      Done (c, Await (TMint {| mj_fee := fee; mj_native_ledger := native_ledger;
                               mj_event := e; mj_symbol := symbol; mj_ledger := ledger;
                               mj_amount := amount; mj_rest := rest |}))
  end.

(** deposit.rs 33-44 *)
Definition mint_start (c : Core) : res (Core * Next) :=
  match timer_guard_new TaskMint (fst c) with
  | None => Done (c, Finish OutTimer)
  | Some s =>
      mint_next (deposit_native_fee s) (native_ledger_id s) (events_to_mint_list s) (s, snd c)
  end.

(** deposit.rs 172-198: record the mint *)
Definition minted_event (j : MintJob) (block : N) : EventType :=
  match mj_event j with
  | DepNative _ => EvMintedNative (dep_source (mj_event j)) block
  | DepErc20 x => EvMintedErc20 (dep_source (mj_event j)) block (mj_symbol j)
                    (ee_erc20_contract_address x)
  end.
Definition mint_record (now : N) (j : MintJob) (block : N) (c : Core) : res (Core * Next) :=
  c' <- process_event now (minted_event j block) c ;;
  mint_next (mj_fee j) (mj_native_ledger j) (mj_rest j) c'.

(** deposit.rs 104-146: after the user mint *)
Definition mint_reply (now : N) (j : MintJob) (r : LedgerReply) (c : Core) : res (Core * Next) :=
  match r with
  | LedgerOk b =>
      block <- block_u64 b ;;
      if is_native (mj_event j) && is_some (mj_fee j)
      then Done (c, Await (TMintFee j block))
      else mint_record now j block c
  | _ => mint_next (mj_fee j) (mj_native_ledger j) (mj_rest j) c
  end.

(** ** Scraping: deposit.rs 210-478 *)

(** deposit.rs 210-216 *)
Definition scrape_start (now : N) (c : Core) : res (Core * Next) :=
  match timer_guard_new TaskScrapLogs (fst c) with
  | None => Done (c, Finish OutTimer)
  | Some s => Done ((set_last_observed_block_time (Some now) s, snd c), Await (TScrapeBlock 0))
  end.

(** deposit.rs 257-319: the safety distance to the provider's block *)
Definition safety_margin (n : EvmNetwork) : option N :=
  match n with
  | BSC => Some 20
  | ArbitrumOne | Base_ | Optimism | Avalanche | Fantom => Some 12
  | _ => None
  end.
Definition observed_block (n : EvmNetwork) (number : N) : option N :=
  match safety_margin n with
  | Some m => checked_sub number m
  | None => Some number
  end.

(** deposit.rs 356-375: the next chunk *)
Definition scrape_next_chunk (contract : Address) (topics : list Topic) (ck : Chunks) (c : Core)
  : res (Core * Next) :=
  '(o, ck') <- chunks_next ck ;;
  match o with
  | None => end_timer TaskScrapLogs c
  | Some r => Done (c, Await (TScrapeLogs {| sj_contract := contract; sj_topics := topics;
                                             sj_current := r; sj_subranges := [];
                                             sj_chunks := ck' |}))
  end.

(** deposit.rs 333-356 [scrape_until_block] *)
Definition scrape_until_block (last : N) (c : Core) : res (Core * Next) :=
  sc <- next_scrape (fst c) ;;
  let start := or_max (checked_increment (sc_last_scraped_block_number sc)) in
  ck <- into_chunks (start, last) MAX_BLOCK_SPREAD ;;
  scrape_next_chunk (sc_contract_address sc) (sc_topics sc) ck c.

(** deposit.rs 218-219 *)
Definition MAX_ATTEMPTS : N := 3.

(** deposit.rs 221-246 and 250-330; [None] is an RPC error *)
Definition scrape_block_reply (attempts : N) (r : option N) (c : Core) : res (Core * Next) :=
  let s := fst c in
  let c' := match r with
            | Some number =>
                (set_last_observed_block_number (observed_block (evm_network s) number) s, snd c)
            | None => c
            end in
  match last_observed_block_number (fst c') with
  | Some last => scrape_until_block last c'
  | None =>
      if MAX_ATTEMPTS <=? attempts + 1 then end_timer TaskScrapLogs c'
      else Done (c', Await (TScrapeBlock (attempts + 1)))
  end.

(** Answer of [get_logs]: the logs, a "response too large" error, another error *)
Inductive LogsReply :=
| LogsOk (logs : list LogEntry)
| LogsTooLarge
| LogsErr.

(** deposit.rs 447-478 [register_deposit_events]: the events it processes *)
Definition register_events (deposits : list ReceivedDepositEvent) (errors : list DepositError)
  : list EventType :=
  map into_deposit deposits ++
  flat_map (fun e => match e with
                     | InvalidEventSource src x => [EvInvalidDeposit src (error_text x)]
                     | PendingLogEntry => []
                     end) errors.

(** deposit.rs 383-396 and 356: the next subrange, or the next chunk *)
Definition scrape_next (j : ScrapeJob) (subranges : list Range) (c : Core) : res (Core * Next) :=
  match subranges with
  | r :: rest => Done (c, Await (TScrapeLogs {| sj_contract := sj_contract j;
                                                sj_topics := sj_topics j;
                                                sj_current := r; sj_subranges := rest;
                                                sj_chunks := sj_chunks j |}))
  | [] => scrape_next_chunk (sj_contract j) (sj_topics j) (sj_chunks j) c
  end.

(** deposit.rs 421-431: the queue after splitting the current range *)
Definition split_queue (r : Range) (q : list Range) : res (list Range) :=
  '(left_half, right_half) <- partition_into_halves r ;;
  let q1 := match right_half with
            | Some h => match q with
                        | nx :: q' => join_with h nx :: q'
                        | [] => [h]
                        end
            | None => q
            end in
  Done (match left_half with Some h => h :: q1 | None => q1 end).

(** deposit.rs 397-444 *)
Definition scrape_logs_reply (now : N) (j : ScrapeJob) (r : LogsReply) (c : Core)
  : res (Core * Next) :=
  let '(from_block, to_block) := sj_current j in
  match r with
  | LogsOk logs =>
      '(deposits, errors) <- parse_all_logs logs ;;
      c' <- process_events now (register_events deposits errors) c ;;
      scrape_next j (sj_subranges j) (on_state (set_last_scraped_block_number to_block) c')
  | LogsTooLarge =>
      if from_block =? to_block
      then
        c' <- process_event now (EvSkippedBlock to_block) c ;;
        scrape_next j (sj_subranges j) (on_state (set_last_scraped_block_number to_block) c')
      else
        q <- split_queue (sj_current j) (sj_subranges j) ;;
        scrape_next j q c
  | LogsErr => end_timer TaskScrapLogs c
  end.

(** ** Gas fee estimate: tx.rs 734-803 [lazy_refresh_gas_fee_estimate] *)

Definition MAX_AGE_NS : N := 30000000000.

Inductive Refresh :=
| RefreshCached (g : GasFeeEstimate)
| RefreshBusy
| RefreshWait (s : State).

Definition refresh_start (now : N) (s : State) : Refresh :=
  let go := match timer_guard_new TaskRefreshGasFeeEstimate s with
            | None => RefreshBusy
            | Some s' => RefreshWait s'
            end in
  match last_transaction_price_estimate s with
  | Some (ts, g) => if now <? u64_saturating_add ts MAX_AGE_NS then RefreshCached g else go
  | None => go
  end.

(** tx.rs 749-782: after the fee history ([None] is an RPC error); the guard is dropped *)
Definition refresh_reply (now : N) (r : option FeeHistory) (s : State) : State * option GasFeeEstimate :=
  match r with
  | None => (timer_guard_drop TaskRefreshGasFeeEstimate s, None)
  | Some h =>
      match estimate_transaction_fee (min_max_priority_fee_per_gas s) h with
      | RErr _ => (timer_guard_drop TaskRefreshGasFeeEstimate s, None)
      | ROk g =>
          (timer_guard_drop TaskRefreshGasFeeEstimate
             (set_last_transaction_price_estimate (Some (now, g)) s), Some g)
      end
  end.

(** main.rs 71-76 and tx.rs 794-802: the refresh started by [setup_timers] *)
Definition refresh_task_start (now : N) (c : Core) : res (Core * Next) :=
  match refresh_start now (fst c) with
  | RefreshWait s => Done ((s, snd c), Await TRefresh)
  | _ => Done (c, Finish OutTimer)
  end.

(** ** Processing withdrawals: withdraw.rs 142-455 *)

(** withdraw.rs 31-33, 450-455 [estimate_gas_limit] *)
Definition NATIVE_GAS_LIMIT : N := 21000.
Definition ERC20_GAS_LIMIT : N := 65000.
Definition estimate_gas_limit (r : WithdrawalRequest) : N :=
  match r with WNative _ => NATIVE_GAS_LIMIT | WErc20 _ => ERC20_GAS_LIMIT end.

(** withdraw.rs 26-28 *)
Definition WITHDRAWAL_BATCH : N := 5.
Definition SIGN_BATCH : N := 5.
Definition SEND_BATCH : N := 5.

(** withdraw.rs 197-236 [resubmit_transactions_batch] *)
Definition resubmit_batch (now : N) (count : option N) (g : GasFeeEstimate) (c : Core) : res Core :=
  let w := withdrawals (fst c) in
  if mkm_is_empty (sent w) then Done c
  else match count with
       | None => Done c
       | Some n =>
           l <- create_resubmit_transactions n g w ;;
           process_events now
             (flat_map (fun r => match r with
                                 | ROk (id, t) => [EvReplacedTransaction id t]
                                 | RErr _ => []
                                 end) l) c
       end.

(** withdraw.rs 243-284: one iteration of [create_transactions_batch] *)
Definition create_one (now : N) (g : GasFeeEstimate) (c : Core) (r : WithdrawalRequest) : res Core :=
  let s := fst c in
  x <- create_transaction r (next_nonce (withdrawals s)) g (estimate_gas_limit r) (evm_network s) ;;
  match x with
  | ROk t => process_event now (EvCreatedTransaction (wr_burn_index r) t) c
  | RErr _ =>
      w <- reschedule_withdrawal_request r (withdrawals s) ;;
      Done (set_withdrawals w s, snd c)
  end.
(** withdraw.rs 238-286 [create_transactions_batch] *)
Definition create_batch (now : N) (g : GasFeeEstimate) (c : Core) : res Core :=
  rfold (create_one now g) c (withdrawal_requests_batch WITHDRAWAL_BATCH (withdrawals (fst c))).

(** withdraw.rs 369-374: start of [finalize_transactions_batch] *)
Definition finalize_start (c : Core) : res (Core * Next) :=
  if mkm_is_empty (sent (withdrawals (fst c))) then end_timer TaskRetrieveEth c
  else Done (c, Await TRetrieveFinalizedCount).

(** withdraw.rs 326-344: start of [send_transactions_batch] *)
Definition send_start (count : option N) (c : Core) : res (Core * Next) :=
  match count with
  | None => finalize_start c
  | Some n =>
      txs <- transactions_to_send_batch n SEND_BATCH (withdrawals (fst c)) ;;
      match txs with
      | [] => finalize_start c
      | _ => Done (c, Await (TRetrieveSend txs))
      end
  end.

(** withdraw.rs 288-299: start of [sign_transactions_batch] *)
Definition sign_start (count : option N) (c : Core) : res (Core * Next) :=
  batch <- transactions_to_sign_batch SIGN_BATCH (withdrawals (fst c)) ;;
  match batch with
  | [] => send_start count c
  | _ => Done (c, Await (TRetrieveSign count batch))
  end.

(** withdraw.rs 142-158 *)
Definition retrieve_start (now : N) (c : Core) : res (Core * Next) :=
  match timer_guard_new TaskRetrieveEth (fst c) with
  | None => Done (c, Finish OutTimer)
  | Some s =>
      if negb (has_pending_requests (withdrawals s)) then end_timer TaskRetrieveEth (s, snd c)
      else
        match refresh_start now s with
        | RefreshCached g => Done ((s, snd c), Await (TRetrieveCount g))
        | RefreshBusy => end_timer TaskRetrieveEth (s, snd c)
        | RefreshWait s' => Done ((s', snd c), Await TRetrieveFee)
        end
  end.

(** withdraw.rs 158-167 *)
Definition retrieve_fee_reply (now : N) (r : option FeeHistory) (c : Core) : res (Core * Next) :=
  let '(s, o) := refresh_reply now r (fst c) in
  match o with
  | Some g => Done ((s, snd c), Await (TRetrieveCount g))
  | None => end_timer TaskRetrieveEth (s, snd c)
  end.

(** withdraw.rs 169-172 *)
Definition retrieve_count_reply (now : N) (g : GasFeeEstimate) (count : option N) (c : Core)
  : res (Core * Next) :=
  c1 <- resubmit_batch now count g c ;;
  c2 <- create_batch now g c1 ;;
  sign_start count c2.

(** withdraw.rs 300-314: one answer per transaction of the batch; [None] is a
    signing error. The hash is computed from transaction and signature. *)
Fixpoint signed_events (keccak : list N -> Hash) (batch : list (N * Tx))
  (sigs : list (option Signature)) : list EventType :=
  match batch, sigs with
  | (id, t) :: batch', o :: sigs' =>
      match o with
      | Some sg => EvSignedTransaction id (signed_tx keccak t sg) :: signed_events keccak batch' sigs'
      | None => signed_events keccak batch' sigs'
      end
  | _, _ => []
  end.
Definition retrieve_sign_reply (keccak : list N -> Hash) (now : N) (count : option N)
  (batch : list (N * Tx)) (sigs : list (option Signature)) (c : Core) : res (Core * Next) :=
  c' <- process_events now (signed_events keccak batch sigs) c ;;
  send_start count c'.

(** withdraw.rs 374-388, 438-440: after the finalized transaction count *)
Definition retrieve_finalized_count_reply (r : option N) (c : Core) : res (Core * Next) :=
  match r with
  | None => end_timer TaskRetrieveEth c
  | Some n =>
      hashes <- sent_transactions_to_finalize n (withdrawals (fst c)) ;;
      match hashes with
      | [] => end_timer TaskRetrieveEth c
      | _ => Done (c, Await (TRetrieveReceipts hashes))
      end
  end.

(** Answer of [get_transaction_receipt] *)
Inductive ReceiptReply :=
| ReceiptOk (r : Receipt)
| ReceiptMissing
| ReceiptErr.

(** withdraw.rs 389-419: collecting the receipts; [None] when the function returns early *)
Fixpoint collect_receipts (hashes : list (Hash * N)) (rs : list ReceiptReply)
  (acc : bmap N Receipt) : option (bmap N Receipt) :=
  match hashes, rs with
  | (_, id) :: hashes', r :: rs' =>
      match r with
      | ReceiptOk x =>
          if bmem id acc then None else collect_receipts hashes' rs' (binsert id x acc)
      | ReceiptMissing => collect_receipts hashes' rs' acc
      | ReceiptErr => None
      end
  | _, _ => Some acc
  end.

(** withdraw.rs 380-381: the expected ids (a [BTreeSet]) *)
Definition expected_ids (hashes : bmap Hash N) : bset N :=
  fold_left (fun acc x => binsert (snd x) tt acc) hashes [].

(** withdraw.rs 389-436 *)
Definition retrieve_receipts_reply (now : N) (hashes : bmap Hash N) (rs : list ReceiptReply)
  (c : Core) : res (Core * Next) :=
  match collect_receipts hashes rs [] with
  | None => end_timer TaskRetrieveEth c
  | Some receipts =>
      _ <- rassert (bytes_eqb (bkeys (expected_ids hashes)) (bkeys receipts))
             "ERROR: unexpected transaction receipts for some withdrawal IDs" ;;
      c' <- process_events now (map (fun x => EvFinalizedTransaction (fst x) (snd x)) receipts) c ;;
      end_timer TaskRetrieveEth c'
  end.

(** ** Reimbursements: withdraw.rs 35-140 *)

(** withdraw.rs 56-84: up to the [await] of the transfer; 133-140: the end *)
Definition reimburse_next (l : list (ReimbursementIndex * ReimbursementRequest)) (c : Core)
  : res (Core * Next) :=
  match l with
  | [] => end_timer TaskReimbursement c
  | (i, r) :: rest =>
      let ledger := match i with
                    | RINative _ => native_ledger_id (fst c)
                    | RIErc20 _ ledger_id _ => ledger_id
                    end in
      Done (c, Await (TReimburse ledger i r rest))
  end.

(** withdraw.rs 36-53 *)
Definition reimburse_start (c : Core) : res (Core * Next) :=
  match timer_guard_new TaskReimbursement (fst c) with
  | None => Done (c, Finish OutTimer)
  | Some s => reimburse_next (reimb_requests (withdrawals s)) (s, snd c)
  end.

(** withdraw.rs 110-129: the recorded event *)
Definition reimbursed_event (i : ReimbursementIndex) (r : ReimbursementRequest) (block : N)
  : EventType :=
  let reimbursed := {| rd_reimbursed_in_block := block;
                       rd_burn_in_block := rr_ledger_burn_index r;
                       rd_reimbursed_amount := rr_reimbursed_amount r;
                       rd_transaction_hash := rr_transaction_hash r |} in
  match i with
  | RINative _ => EvReimbursedNativeWithdrawal reimbursed
  | RIErc20 b l _ => EvReimbursedErc20Withdrawal b l reimbursed
  end.

(** withdraw.rs 84-132 *)
Definition reimburse_reply (now : N) (i : ReimbursementIndex) (r : ReimbursementRequest)
  (rest : list (ReimbursementIndex * ReimbursementRequest)) (a : LedgerReply) (c : Core)
  : res (Core * Next) :=
  match a with
  | LedgerOk b =>
      block <- block_u64 b ;;
      c' <- process_event now (reimbursed_event i r block) c ;;
      reimburse_next rest c'
  | _ => reimburse_next rest c
  end.

(** ** Native withdrawal: main.rs 277-409 [withdraw_native_token] *)

(** main.rs 349-360: up to the [await] of the burn *)
Definition native_burn_start (now : N) (j : NativeJob) (amount : N) (c : Core)
  : res (Core * Next) :=
  Done (c, Await (TNativeBurn {| nj_caller := nj_caller j; nj_destination := nj_destination j;
                                 nj_amount := amount; nj_fee := nj_fee j;
                                 nj_transfer_fee := nj_transfer_fee j;
                                 nj_ledger := native_ledger_id (fst c); nj_now := now |})).

(** main.rs 277-328 *)
Definition withdraw_native_start (now : N) (caller : Principal) (amount : N) (recipient : text)
  (c : Core) : res (Core * Next) :=
  _ <- rassert (negb (bytes_eqb caller ANONYMOUS)) "anonymous principal is not allowed" ;;
  match guard_new caller (fst c) with
  | RErr _ => Panic "Failed retrieving guard for principal"
  | ROk s =>
      let c1 := (s, snd c) in
      match validate_address_as_destination recipient with
      | RErr _ => end_call caller (OutNative (RErr WeInvalidDestination)) c1
      | ROk destination =>
          amount <- expect (amount_of_nat amount) "failed to convert Nat to u256" ;;
          if amount <? native_minimum_withdrawal_amount s
          then end_call caller
                 (OutNative (RErr (WeAmountTooLow (native_minimum_withdrawal_amount s)))) c1
          else
            let j := {| nj_caller := caller; nj_destination := destination; nj_amount := amount;
                        nj_fee := withdrawal_native_fee s;
                        nj_transfer_fee := native_ledger_transfer_fee s;
                        nj_ledger := native_ledger_id s; nj_now := now |} in
            match withdrawal_native_fee s with
            | Some fee =>
                _ <- expect (checked_sub fee (native_ledger_transfer_fee s))
                       "Failed to calculate withdrawal fee" ;;
                Done (c1, Await (TNativeFee j))
            | None => native_burn_start now j amount c1
            end
      end
  end.

(** main.rs 329-347: after the fee transfer *)
Definition native_fee_reply (now : N) (j : NativeJob) (r : LedgerReply) (c : Core)
  : res (Core * Next) :=
  x <- fee_transfer_result r ;;
  match x with
  | RErr e => end_call (nj_caller j) (OutNative (RErr (WeFeeTransfer e))) c
  | ROk _ =>
      fee <- expect (nj_fee j) "no withdrawal fee" ;;
      amount <- expect (checked_sub (nj_amount j) fee) "Failed calculating witdrawal amount" ;;
      native_burn_start now j amount c
  end.

(** main.rs 392-398 / 628-634 / 655-661: the amount to refund *)
Definition refund_amount (fee transfer_fee : N) : N :=
  let penalty := match checked_mul transfer_fee 2 with Some x => x | None => fee end in
  match checked_sub fee penalty with Some x => x | None => 0 end.

(** endpoints.rs 218-240 [From<LedgerBurnError> for WithdrawalError]: it panics when the
    ledger refused the burn as too small *)
Definition burn_error (e : LedgerError) : res WithdrawalError :=
  match e with
  | LeAmountTooLow => Panic "BUG: withdrawal amount should always be higher than the ledger transaction fee"
  | _ => Done (WeBurn e)
  end.

(** main.rs 361-409: after the burn *)
Definition native_burn_reply (now : N) (j : NativeJob) (r : LedgerReply) (c : Core)
  : res (Core * Next) :=
  x <- burn_result r ;;
  match x with
  | ROk index =>
      let req := {| nw_withdrawal_amount := nj_amount j; nw_destination := nj_destination j;
                    nw_ledger_burn_index := index; nw_from := nj_caller j;
                    nw_from_subaccount := None; nw_created_at := Some (nj_now j) |} in
      c' <- process_event now (EvAcceptedNativeWithdrawalRequest req) c ;;
      end_call (nj_caller j) (OutNative (ROk req)) c'
  | RErr e =>
      match nj_fee j with
      | Some fee =>
          Done (c, Await (TNativeRefund (nj_caller j) (nj_ledger j)
                            (refund_amount fee (nj_transfer_fee j)) e))
      | None => w <- burn_error e ;; end_call (nj_caller j) (OutNative (RErr w)) c
      end
  end.

(** main.rs 399-407: after the refund, whose result is ignored *)
Definition native_refund_reply (caller : Principal) (e : LedgerError) (r : LedgerReply) (c : Core)
  : res (Core * Next) :=
  _ <- fee_transfer_result r ;;
  w <- burn_error e ;;
  end_call caller (OutNative (RErr w)) c.

(** ** ERC-20 withdrawal: main.rs 462-674 [withdraw_erc20] *)

(** main.rs 539-551: up to the [await] of the burn of the gas fee *)
Definition erc20_gas_burn_start (now : N) (j : Erc20Job) (c : Core) : res (Core * Next) :=
  Done (c, Await (TErc20GasBurn
    {| ej_caller := ej_caller j; ej_destination := ej_destination j; ej_amount := ej_amount j;
       ej_token := ej_token j; ej_transfer_fee := ej_transfer_fee j;
       ej_native_ledger := ej_native_ledger j; ej_tx_fee := ej_tx_fee j; ej_fee := ej_fee j;
       ej_now := now |})).

(** main.rs 498-520: after the gas estimate; 676-684 [estimate_erc20_transaction_fee] *)
Definition erc20_estimated (now : N) (j : Erc20Job) (g : GasFeeEstimate) (c : Core)
  : res (Core * Next) :=
  let fee := withdrawal_native_fee (fst c) in
  let j' := {| ej_caller := ej_caller j; ej_destination := ej_destination j;
               ej_amount := ej_amount j; ej_token := ej_token j;
               ej_transfer_fee := ej_transfer_fee j; ej_native_ledger := ej_native_ledger j;
               ej_tx_fee := max_transaction_fee (to_price g ERC20_GAS_LIMIT);
               ej_fee := fee; ej_now := now |} in
  match fee with
  | Some f =>
      _ <- expect (checked_sub f (ej_transfer_fee j)) "Failed to calculate withdrawal fee" ;;
      Done (c, Await (TErc20Fee j'))
  | None => erc20_gas_burn_start now j' c
  end.

(** main.rs 462-498 *)
Definition withdraw_erc20_start (now : N) (caller : Principal) (amount : N) (ledger : Principal)
  (recipient : text) (c : Core) : res (Core * Next) :=
  _ <- rassert (negb (bytes_eqb caller ANONYMOUS)) "anonymous principal is not allowed" ;;
  match guard_new caller (fst c) with
  | RErr _ => Panic "Failed retrieving guard for principal"
  | ROk s =>
      let c1 := (s, snd c) in
      match validate_address_as_destination recipient with
      | RErr _ => end_call caller (OutErc20 (RErr EeInvalidDestination)) c1
      | ROk destination =>
          amount <- expect (amount_of_nat amount) "ERROR: failed to convert Nat to u256" ;;
          match find_erc20_token_by_ledger_id ledger s with
          | None => 
              _ <- supported_erc20_tokens s ;;
              end_call caller (OutErc20 (RErr EeTokenNotSupported)) c1
          | Some token =>
              let j := {| ej_caller := caller; ej_destination := destination; ej_amount := amount;
                          ej_token := token; ej_transfer_fee := native_ledger_transfer_fee s;
                          ej_native_ledger := native_ledger_id s;
                          ej_tx_fee := 0; ej_fee := None; ej_now := now |} in
              match refresh_start now s with
              | RefreshCached g => erc20_estimated now j g c1
              | RefreshBusy => end_call caller (OutErc20 (RErr EeTemporarilyUnavailable)) c1
              | RefreshWait s' => Done ((s', snd c), Await (TErc20Estimate j))
              end
          end
      end
  end.

(** main.rs 498-500: after the fee history *)
Definition erc20_estimate_reply (now : N) (j : Erc20Job) (r : option FeeHistory) (c : Core)
  : res (Core * Next) :=
  let '(s, o) := refresh_reply now r (fst c) in
  match o with
  | Some g => erc20_estimated now j g (s, snd c)
  | None => end_call (ej_caller j) (OutErc20 (RErr EeTemporarilyUnavailable)) (s, snd c)
  end.

(** main.rs 521-537: after the fee transfer *)
Definition erc20_fee_reply (now : N) (j : Erc20Job) (r : LedgerReply) (c : Core)
  : res (Core * Next) :=
  x <- fee_transfer_result r ;;
  match x with
  | RErr e => end_call (ej_caller j) (OutErc20 (RErr (EeFeeTransfer e))) c
  | ROk _ => erc20_gas_burn_start now j c
  end.

(** main.rs 623-645 / 649-671: refund of the withdrawal fee, then the error *)
Definition erc20_error (index : option N) (e : LedgerError) : Outcome :=
  OutErc20 (RErr (match index with Some i => EeErc20Ledger i e | None => EeNativeLedger e end)).
Definition erc20_refund_start (j : Erc20Job) (index : option N) (e : LedgerError) (c : Core)
  : res (Core * Next) :=
  match ej_fee j with
  | Some fee => Done (c, Await (TErc20Refund (ej_caller j) (ej_native_ledger j)
                                 (refund_amount fee (ej_transfer_fee j)) index e))
  | None => end_call (ej_caller j) (erc20_error index e) c
  end.

(** main.rs 552-569 and 649-671: after the burn of the gas fee *)
Definition erc20_gas_burn_reply (j : Erc20Job) (r : LedgerReply) (c : Core) : res (Core * Next) :=
  x <- burn_result r ;;
  match x with
  | ROk index => Done (c, Await (TErc20Burn j index))
  | RErr e => erc20_refund_start j None e c
  end.

(** main.rs 598-605: the gas fee handed back when the token burn fails *)
Definition failed_burn_reimbursement (j : Erc20Job) (e : LedgerError) : N :=
  match e with
  | LeTemporarilyUnavailable => ej_tx_fee j
  | _ => match checked_sub (ej_tx_fee j) (ej_transfer_fee j) with Some x => x | None => 0 end
  end.

(** main.rs 570-646: after the token burn *)
Definition erc20_burn_reply (now : N) (j : Erc20Job) (native_index : N) (r : LedgerReply)
  (c : Core) : res (Core * Next) :=
  x <- burn_result r ;;
  match x with
  | ROk index =>
      let req := {| ew_max_transaction_fee := ej_tx_fee j;
                    ew_withdrawal_amount := ej_amount j;
                    ew_destination := ej_destination j;
                    ew_native_ledger_burn_index := native_index;
                    ew_erc20_contract_address := et_contract_address (ej_token j);
                    ew_erc20_ledger_id := et_ledger_id (ej_token j);
                    ew_erc20_ledger_burn_index := index;
                    ew_from := ej_caller j;
                    ew_from_subaccount := None;
                    ew_created_at := ej_now j |} in
      c' <- process_event now (EvAcceptedErc20WithdrawalRequest req) c ;;
      end_call (ej_caller j) (OutErc20 (ROk req)) c'
  | RErr e =>
      let amount := failed_burn_reimbursement j e in
      c' <- (if 0 <? amount
             then process_event now
                    (EvFailedErc20WithdrawalRequest
                       {| rr_ledger_burn_index := native_index; rr_reimbursed_amount := amount;
                          rr_to := ej_caller j; rr_to_subaccount := None;
                          rr_transaction_hash := None |}) c
             else Done c) ;;
      erc20_refund_start j (Some native_index) e c'
  end.

(** main.rs 635-645 / 662-671: after the refund *)
Definition erc20_refund_reply (caller : Principal) (index : option N) (e : LedgerError)
  (r : LedgerReply) (c : Core) : res (Core * Next) :=
  _ <- fee_transfer_result r ;;
  end_call caller (erc20_error index e) c.

(** ** Token registration: main.rs 686-699 [add_erc20_token] *)

(** endpoints.rs [AddErc20Token] *)
Record AddErc20Token := {
  at_chain_id : N;
  at_address : text;
  at_symbol : text;
  at_ledger_id : Principal
}.

(** erc20.rs 11, 41-57 [FromStr for ERC20TokenSymbol]; for an ASCII text the number of
    bytes is the number of characters (a longer non-ASCII text is rejected either way) *)
Definition parse_symbol (t : text) : option text :=
  if 20 <? N.of_nat (List.length t) then None
  else if forallb (fun ch => ch <? 128) t then Some t else None.

(** erc20.rs 59-79 [TryFrom<AddErc20Token>] *)
Definition erc20_token_of (a : AddErc20Token) : option ERC20Token :=
  if U64_MAX <? at_chain_id a then None
  else
    match network_of_chain_id (at_chain_id a), address_of_text (at_address a),
          parse_symbol (at_symbol a) with
    | Some n, Some c, Some sy =>
        Some {| et_chain_id := n; et_contract_address := c; et_symbol := sy;
                et_ledger_id := at_ledger_id a |}
    | _, _, _ => None
    end.

(** main.rs 686-699 *)
Definition add_erc20_token (now : N) (caller : Principal) (a : AddErc20Token) (c : Core)
  : res (Core * Next) :=
  manager <- expect (ledger_suite_manager_id (fst c)) "ERROR: ERC-20 feature is not activated" ;;
  _ <- rassert (bytes_eqb manager caller) "ERROR: only the orchestrator can add ERC-20 tokens" ;;
  t <- expect (erc20_token_of a) "ERROR" ;;
  c' <- process_event now (EvAddedErc20Token t) c ;;
  Done (c', Finish OutAdded).

(** ** Scraping on request: main.rs 251-274, deposit.rs 485-503 *)

Definition ONE_MIN_NS : N := 60000000000.

(** deposit.rs 485-503 [validate_log_scraping_request] *)
Definition validate_log_scraping_request (observed_number observed_time block now : N)
  : result unit RequestScrapingError :=
  if block <=? observed_number then RErr BlockAlreadyObserved
  else if now <? u64_saturating_add observed_time ONE_MIN_NS then RErr CalledTooManyTimes
  else ROk tt.

(** main.rs 251-274 [request_scraping_logs] (the timer it sets may fire at any time) *)
Definition request_scraping_logs (now : N) (block : N) (c : Core) : res (Core * Next) :=
  number <- expect (last_observed_block_number (fst c))
              "The block number should not be null at the time of this function call" ;;
  time <- expect (last_observed_block_time (fst c))
            "The block time should not be null at the time of this function call" ;;
  match amount_of_nat block with
  | None => Done (c, Finish (OutScraping (RErr InvalidBlockNumber)))
  | Some b =>
      Done (c, Finish (OutScraping (validate_log_scraping_request number time b now)))
  end.

(** ** Cleanup: what is dropped with a suspended function whose callback trapped *)

(** deposit.rs 46-57, withdraw.rs 57-61: the scope guards *)
Definition task_quarantine (t : Task) : list EventType :=
  match t with
  | TMint j | TMintFee j _ => [EvQuarantinedDeposit (dep_source (mj_event j))]
  | TReimburse _ i _ _ => [EvQuarantinedReimbursement i]
  | _ => []
  end.
Definition cleanup (now : N) (t : Task) (c : Core) : res Core :=
  c' <- process_events now (task_quarantine t) c ;;
  Done (on_state (release (task_timers t) (task_principal t)) c').
