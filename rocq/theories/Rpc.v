(** * Answers of several RPC providers: reductions and retries.

    Model of /repo/minter/src/rpc_client/mod.rs 278-890 and of
    /repo/evm_rpc_client/src/lib.rs 147-234. Providers are numbers (ordered like the keys
    of the code's maps), error messages are kept as they are or symbolic. Log lines are left
    out. *)

From Verif Require Import Base BMap MultiKeyMap Bytes Types Amount Tx CallData Network Hex
  Transactions State Audit Ranges Rlp Parser Memo Driver.

(** ** Answers of the EVM RPC canister (crate evm_rpc_types) *)
Definition Service := N.
(** a rejection of a call, by code (1 is SysFatal) and message, or a malformed answer *)
Inductive HttpOutcallError :=
| IcError (code : N) (message : text)
| InvalidHttpJsonRpcResponse (status : N) (body : text).
Inductive ProviderError :=
| TooFewCycles (expected received : N)
| OtherProviderError (message : text).
Inductive RpcError :=
| ProviderErr (e : ProviderError)
| HttpErr (e : HttpOutcallError)
| JsonErr (code : Z) (message : text)
| ValidationErr (message : text).
Definition RpcResult (T : Type) := result T RpcError.
Inductive MultiRpc (T : Type) :=
| Consistent (r : RpcResult T)
| Inconsistent (rs : list (Service * RpcResult T)).
Arguments Consistent {T} r.
Arguments Inconsistent {T} rs.

(** ** rpc_client/mod.rs 279-306: errors; the messages of [EvmRpcError] are the rendering of
    a provider error, a validation error or a failed conversion *)
Inductive RpcMessage :=
| FromProvider (e : ProviderError)
| FromText (m : text).
Inductive SingleCallError :=
| SingleHttp (e : HttpOutcallError)
| SingleJson (code : Z) (message : text)
| SingleEvm (m : RpcMessage).
Inductive MultiCallError (T : Type) :=
| ConsistentHttp (e : HttpOutcallError)
| ConsistentJson (code : Z) (message : text)
| ConsistentEvm (m : RpcMessage)
| InconsistentResults (rs : list (Service * result T SingleCallError)).
Arguments ConsistentHttp {T} e.
Arguments ConsistentJson {T} code message.
Arguments ConsistentEvm {T} m.
Arguments InconsistentResults {T} rs.
(** 376-388 [ReducedResult] *)
Definition Reduced (T : Type) := result T (MultiCallError T).

(** 286-299 *)
Definition single_of (e : RpcError) : SingleCallError :=
  match e with
  | ProviderErr e => SingleEvm (FromProvider e)
  | HttpErr e => SingleHttp e
  | JsonErr c m => SingleJson c m
  | ValidationErr m => SingleEvm (FromText m)
  end.

(** 309-330 [has_http_outcall_error_matching] *)
Definition has_http_error {T} (p : HttpOutcallError -> bool) (e : MultiCallError T) : bool :=
  match e with
  | ConsistentHttp e => p e
  | ConsistentJson _ _ => false
  | InconsistentResults rs =>
      existsb (fun x => match snd x with RErr (SingleHttp e) => p e | _ => false end) rs
  | ConsistentEvm _ => false
  end.

(** 858-865 [filter_inconsistent_ok_results] *)
Definition ok_results {T} (rs : list (Service * result T SingleCallError)) : list (Service * T) :=
  flat_map (fun x => match snd x with ROk v => [(fst x, v)] | RErr _ => [] end) rs.

(** 334-348 [at_least_one_ok] *)
Definition at_least_one_ok {T} (e : MultiCallError T) : result (Service * T) (MultiCallError T) :=
  match e with
  | InconsistentResults rs =>
      match ok_results rs with
      | [] => RErr (InconsistentResults rs)
      | x :: _ => ROk x
      end
  | _ => RErr e
  end.

(** 355-373 [at_least_two_ok] *)
Definition at_least_two_ok {T} (e : MultiCallError T) : result (list (Service * T)) (MultiCallError T) :=
  match e with
  | InconsistentResults rs =>
      match ok_results rs with
      | [] | [_] => RErr (InconsistentResults rs)
      | oks => ROk oks
      end
  | _ => RErr e
  end.

(** 397-433 [map_reduce]; the conversion may panic or fail with a message *)
Definition map_reduce {T U} (op : T -> res (result U text)) (r : Reduced T) : res (Reduced U) :=
  match r with
  | ROk t => x <- op t ;;
      Done (match x with ROk u => ROk u | RErr m => RErr (ConsistentEvm (FromText m)) end)
  | RErr (ConsistentHttp e) => Done (RErr (ConsistentHttp e))
  | RErr (ConsistentJson c m) => Done (RErr (ConsistentJson c m))
  | RErr (ConsistentEvm m) => Done (RErr (ConsistentEvm m))
  | RErr (InconsistentResults rs) =>
      rs' <- rmap (fun x : Service * result T SingleCallError =>
               match snd x with
               | ROk t => y <- op t ;;
                   Done (fst x, match y with ROk u => ROk u | RErr m => RErr (SingleEvm (FromText m)) end)
               | RErr e => Done (fst x, RErr e)
               end) rs ;;
      Done (RErr (InconsistentResults rs'))
  end.

(** 435-473 [from_multi_result] *)
Definition from_multi {T} (m : MultiRpc T) : Reduced T :=
  match m with
  | Consistent (ROk t) => ROk t
  | Consistent (RErr e) =>
      RErr (match e with
            | ProviderErr e => ConsistentEvm (FromProvider e)
            | HttpErr e => ConsistentHttp e
            | JsonErr c m => ConsistentJson c m
            | ValidationErr m => ConsistentEvm (FromText m)
            end)
  | Inconsistent rs =>
      RErr (InconsistentResults
        (map (fun x : Service * RpcResult T =>
                (fst x, match snd x with ROk t => ROk t | RErr e => RErr (single_of e) end)) rs))
  end.

Section Reductions.
Context {T : Type}.
(** [PartialEq] of the answers *)
Variable eq_dec : forall a b : T, {a = b} + {a <> b}.

(** 477-519 [reduce_with_equality] *)
Definition reduce_with_equality (r : Reduced T) : Reduced T :=
  match r with
  | ROk _ => r
  | RErr e =>
      match at_least_two_ok e with
      | ROk oks =>
          match oks with
          | (_, base) :: _ =>
              match filter (fun x => if eq_dec base (snd x) then false else true) oks with
              | [] => ROk base
              | _ => RErr e
              end
          | [] => RErr e
          end
      | RErr e' => RErr e'
      end
  end.

(** *** 525-607 [reduce_with_strict_majority_by_key] *)
Variable key : T -> N.
Definition Ballot := bmap Service T.

(** 556-562, 593-599: an error made of answers *)
Definition conflict (l : list (Service * T)) : MultiCallError T :=
  InconsistentResults (map (fun x => (fst x, ROk (snd x))) l).

(** 532-558: the answers by key and provider; an error as soon as two answers with the same
    key differ (the last one of the ballot, by provider, is compared) *)
Fixpoint tally (l : list (Service * T)) (votes : bmap N Ballot) : res (result (bmap N Ballot) (MultiCallError T)) :=
  match l with
  | [] => Done (ROk votes)
  | (p, v) :: l' =>
      match bget (key v) votes with
      | Some ballot =>
          o <- expect (last_opt ballot) "BUG: results_with_same_key is non-empty" ;;
          if eq_dec v (snd o)
          then tally l' (binsert (key v) (binsert p v ballot) (bremove (key v) votes))
          else Done (RErr (conflict (ballot ++ [(p, v)])))
      | None => tally l' (binsert (key v) [(p, v)] votes)
      end
  end.

(** 563-567 [sort_unstable_by] the number of votes; ballots with the same number are left in
    the order of their keys here (the order only shows in the error for a tie) *)
Fixpoint place (x : N * Ballot) (l : list (N * Ballot)) : list (N * Ballot) :=
  match l with
  | [] => [x]
  | y :: l' => if Nat.leb (List.length (snd x)) (List.length (snd y)) then x :: y :: l' else y :: place x l'
  end.
Definition by_votes (l : list (N * Ballot)) : list (N * Ballot) := fold_right place [] l.

(** [pop_last] of a ballot *)
Definition winner (b : Ballot) (msg : string) : res T :=
  x <- expect (last_opt b) msg ;; Done (snd x).

Definition reduce_with_strict_majority (r : Reduced T) : res (Reduced T) :=
  match r with
  | ROk _ => Done r
  | RErr e =>
      match at_least_two_ok e with
      | RErr e' => Done (RErr e')
      | ROk oks =>
          t <- tally oks [] ;;
          match t with
          | RErr e' => Done (RErr e')
          | ROk votes =>
              match rev (by_votes votes) with
              | [] => Panic "BUG: tally should be non-empty"
              | [(_, b)] => v <- winner b "BUG: tally is non-empty" ;; Done (ROk v)
              | (_, first) :: (_, second) :: _ =>
                  if Nat.ltb (List.length second) (List.length first)
                  then v <- winner first "BUG: tally should be non-empty" ;; Done (ROk v)
                  else Done (RErr (conflict (first ++ second)))
              end
          end
      end
  end.

(** 610-622 [reduce_with_only_one_key] *)
Definition reduce_with_only_one (r : Reduced T) : Reduced T :=
  match r with
  | ROk _ => r
  | RErr e => match at_least_one_ok e with ROk x => ROk (snd x) | RErr e' => RErr e' end
  end.

(** [Iterator::min_by_key]: the first of the least elements *)
Definition min_by_key (l : list T) : option T :=
  match l with
  | [] => None
  | x :: l' => Some (fold_left (fun m y => if key m <=? key y then m else y) l' x)
  end.

(** 625-644 [reduce_with_min_by_key] *)
Definition reduce_with_min (r : Reduced T) : res (Reduced T) :=
  match r with
  | ROk _ => Done r
  | RErr e =>
      match at_least_two_ok e with
      | ROk oks => v <- expect (min_by_key (map snd oks)) "BUG: ok_results is guaranteed to be non-empty" ;;
          Done (ROk v)
      | RErr e' => Done (RErr e')
      end
  end.
End Reductions.

(** ** The reductions used for each call *)

(** Blocks as the RPC canister gives them; the fields that are only compared are one number *)
Record EvmBlock := { eb_number : N; eb_base_fee_per_gas : option N; eb_other : N }.
Record Block := { bk_number : N; bk_base_fee_per_gas : N }.
Definition block_dec : forall a b : EvmBlock, {a = b} + {a <> b}.
Proof. decide equality; try apply N.eq_dec. destruct (opt_dec N.eq_dec eb_base_fee_per_gas0 eb_base_fee_per_gas1); auto. Defined.

(** 660-666 *)
Definition map_block (b : EvmBlock) : res (result Block text) :=
  fee <- expect (eb_base_fee_per_gas b) "BUG: must be present in blocks after the London Upgrade / EIP-1559" ;;
  Done (ROk {| bk_number := eb_number b; bk_base_fee_per_gas := fee |}).
(** 654-668, 165-180 [get_block_by_number] *)
Definition get_block (m : MultiRpc EvmBlock) : res (Reduced Block) :=
  map_reduce map_block (reduce_with_equality block_dec (from_multi m)).

(** 678-710, 139-163 [get_logs]; the conversion renames fields only *)
Definition log_dec : forall a b : LogEntry, {a = b} + {a <> b}.
Proof.
  intros [] []. 
  decide equality; try apply N.eq_dec; try apply bool_dec; try apply Types.bytes_dec;
    try apply (opt_dec N.eq_dec); apply (list_eq_dec Types.bytes_dec).
Defined.
Definition get_logs (m : MultiRpc (list LogEntry)) : Reduced (list LogEntry) :=
  reduce_with_equality (list_eq_dec log_dec) (from_multi m).

(** Receipts as the RPC canister gives them *)
Record EvmReceipt := {
  er_block_hash : Hash; er_block_number : N; er_effective_gas_price : N; er_gas_used : N;
  er_status : option N; er_transaction_hash : Hash; er_other : N
}.
Definition evm_receipt_dec : forall a b : EvmReceipt, {a = b} + {a <> b}.
Proof. decide equality; try apply N.eq_dec. apply (opt_dec N.eq_dec). Defined.

(** rpc_declrations.rs 379-389 *)
Definition status_of (n : N) : result TransactionStatus text :=
  if n =? 0 then ROk TxFailure else if n =? 1 then ROk TxSuccess
  else RErr (text_of "invalid transaction status").
(** 725-746 [map_transaction_receipt] *)
Definition map_receipt (o : option EvmReceipt) : res (result (option Receipt) text) :=
  match o with
  | None => Done (ROk None)
  | Some r =>
      Done (match er_status r with
            | None => RErr (text_of "invalid transaction status")
            | Some n =>
                if 255 <? n then RErr (text_of "invalid transaction status")
                else match status_of n with
                     | RErr m => RErr m
                     | ROk st => ROk (Some {| rc_block_hash := er_block_hash r; rc_block_number := er_block_number r;
                                              rc_effective_gas_price := er_effective_gas_price r;
                                              rc_gas_used := er_gas_used r; rc_status := st;
                                              rc_transaction_hash := er_transaction_hash r |})
                     end
            end)
  end.
(** 721-752, 182-197 [get_transaction_receipt] *)
Definition get_receipt (m : MultiRpc (option EvmReceipt)) : res (Reduced (option Receipt)) :=
  map_reduce map_receipt (reduce_with_equality (opt_dec evm_receipt_dec) (from_multi m)).

(** 768-783 [map_fee_history] *)
Definition map_fee_history (o : option FeeHistory) : res (result FeeHistory text) :=
  Done (match o with Some h => ROk h | None => RErr (text_of "No fee history available") end).
Definition fee_history_dec : forall a b : FeeHistory, {a = b} + {a <> b}.
Proof. decide equality; try apply N.eq_dec; [apply (list_eq_dec Types.bytes_dec)|apply Types.bytes_dec]. Defined.
(** 764-790, 199-218 [fee_history] *)
Definition get_fee_history (m : MultiRpc (option FeeHistory)) : res (Reduced FeeHistory) :=
  r <- map_reduce map_fee_history (from_multi m) ;;
  reduce_with_strict_majority fee_history_dec fh_oldest_block r.

(** 807-824 and 220-259: transaction counts (a [Nat256] always fits) *)
Definition count_of (m : MultiRpc N) : res (Reduced N) :=
  map_reduce (fun n => Done (ROk n)) (from_multi m).
Definition get_finalized_count (m : MultiRpc N) : res (Reduced N) :=
  r <- count_of m ;; Done (reduce_with_equality N.eq_dec r).
Definition get_latest_count (m : MultiRpc N) : res (Reduced N) :=
  r <- count_of m ;; reduce_with_min (fun n => n) r.

(** rpc_declrations.rs 452-471 *)
Inductive SendResult := SendOk | SendInsufficientFunds | SendNonceTooLow | SendNonceTooHigh.
Inductive EvmSendStatus := EvmSendOk (hash : option Hash) | EvmInsufficientFunds | EvmNonceTooLow | EvmNonceTooHigh.
Definition send_of (s : EvmSendStatus) : SendResult :=
  match s with
  | EvmSendOk _ => SendOk
  | EvmInsufficientFunds => SendInsufficientFunds
  | EvmNonceTooLow => SendNonceTooLow
  | EvmNonceTooHigh => SendNonceTooHigh
  end.
(** 792-805, 261-276 [send_raw_transaction] *)
Definition get_send (m : MultiRpc EvmSendStatus) : res (Reduced SendResult) :=
  r <- map_reduce (fun s => Done (ROk (send_of s))) (from_multi m) ;; Done (reduce_with_only_one r).

(** ** 849-856 [is_response_too_large]; [String::contains] *)
Fixpoint starts_with (p l : text) : bool :=
  match p, l with
  | [], _ => true
  | a :: p', b :: l' => (a =? b) && starts_with p' l'
  | _ :: _, [] => false
  end.
Fixpoint contains (p l : text) : bool :=
  starts_with p l || match l with [] => false | _ :: l' => contains p l' end.
Definition SYS_FATAL : N := 1.
Definition is_response_too_large (e : HttpOutcallError) : bool :=
  match e with
  | IcError code m => (code =? SYS_FATAL) && contains (text_of "size limit") m
  | _ => false
  end.

(** deposit.rs 397-409 and 436-439: what the scraping task makes of the answers *)
Definition logs_reply (m : MultiRpc (list LogEntry)) : LogsReply :=
  match get_logs m with
  | ROk l => LogsOk l
  | RErr e => if has_http_error is_response_too_large e then LogsTooLarge else LogsErr
  end.
(** withdraw.rs 391-418 *)
Definition receipt_reply (m : MultiRpc (option EvmReceipt)) : res ReceiptReply :=
  r <- get_receipt m ;;
  Done (match r with
        | ROk (Some x) => ReceiptOk x
        | ROk None => ReceiptMissing
        | RErr _ => ReceiptErr
        end).

(** ** /repo/evm_rpc_client/src/lib.rs: retries *)

(** 224-234 [multi_rpc_result_iter] *)
Definition all_results {T} (m : MultiRpc T) : list (RpcResult T) :=
  match m with Consistent r => [r] | Inconsistent rs => map snd rs end.
(** 212-222 [max_expected_too_few_cycles_error] *)
Definition expected_cycles {T} (m : MultiRpc T) : option N :=
  fold_left (fun a r => match r with
                        | RErr (ProviderErr (TooFewCycles e _)) =>
                            Some (match a with Some x => N.max x e | None => e end)
                        | _ => a
                        end) (all_results m) None.
(** 147-209 [call_internal]: [ask n c] is the answer to attempt [n] with [c] cycles (a
    rejection is the consistent error [IcError], 177-181); [left] retries remain. The attempts
    made and the answer returned. *)
Fixpoint call_loop {T} (ask : nat -> N -> MultiRpc T) (n left : nat) (cycles : N) : list (N * MultiRpc T) * MultiRpc T :=
  let answer := ask n cycles in
  match expected_cycles answer, left with
  | Some e, S left' =>
      let '(more, r) := call_loop ask (S n) left' (N.max (N.min (2 * cycles) U128_MAX) e) in
      ((cycles, answer) :: more, r)
  | _, _ => ([(cycles, answer)], answer)
  end.
(** 248 [DEFAULT_MAX_NUM_RETRIES], rpc_client/mod.rs 57, 86, 115 [MIN_ATTACHED_CYCLES] *)
Definition MAX_NUM_RETRIES : nat := 10.
Definition MIN_ATTACHED_CYCLES : N := 30000000000.
Definition rpc_call {T} (ask : nat -> N -> MultiRpc T) : list (N * MultiRpc T) * MultiRpc T :=
  call_loop ask 0 MAX_NUM_RETRIES MIN_ATTACHED_CYCLES.
