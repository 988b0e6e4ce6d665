(** * Tx: transaction prices, resubmission and finalization of one transaction.

    Model of /repo/minter/src/tx.rs (serialization is in Rlp.v). *)

From Verif Require Import Base Bytes Types Amount.

(** tx.rs 621-628 [checked_estimate_max_fee_per_gas] *)
Definition checked_estimate_max_fee_per_gas (g : GasFeeEstimate) : option N :=
  obind (checked_mul (gf_base_fee_per_gas g) 2)
        (fun b => checked_add b (gf_max_priority_fee_per_gas g)).
(** tx.rs 634-637 [estimate_max_fee_per_gas] *)
Definition estimate_max_fee_per_gas (g : GasFeeEstimate) : N :=
  or_max (checked_estimate_max_fee_per_gas g).
(** tx.rs 646-652 [to_price] *)
Definition to_price (g : GasFeeEstimate) (gas_limit : N) : TransactionPrice :=
  {| tp_gas_limit := gas_limit;
     tp_max_fee_per_gas := estimate_max_fee_per_gas g;
     tp_max_priority_fee_per_gas := gf_max_priority_fee_per_gas g |}.
(** tx.rs 659-663 [min_max_fee_per_gas] *)
Definition min_max_fee_per_gas (g : GasFeeEstimate) : N :=
  or_max (checked_add (gf_base_fee_per_gas g) (gf_max_priority_fee_per_gas g)).

(** tx.rs 678-682 [max_transaction_fee] *)
Definition max_transaction_fee (p : TransactionPrice) : N :=
  or_max (transaction_cost (tp_max_fee_per_gas p) (tp_gas_limit p)).

(** tx.rs 695-703 [plus_10_percent]; the [expect] cannot fail as the divisor is 10
    (the [None] branch of [checked_div_ceil] is still mapped to a panic). *)
Definition plus_10_percent (amount : N) : res N :=
  d <- expect (checked_div_ceil amount 10) "BUG: must be Some() because divisor is non-zero" ;;
  Done (or_max (checked_add amount d)).

(** tx.rs 694-725 [resubmit_transaction_price] *)
Definition resubmit_transaction_price (p : TransactionPrice) (g : GasFeeEstimate)
  : res TransactionPrice :=
  if (min_max_fee_per_gas g <=? tp_max_fee_per_gas p)
     && (gf_max_priority_fee_per_gas g <=? tp_max_priority_fee_per_gas p)
  then Done p
  else
    p10 <- plus_10_percent (tp_max_priority_fee_per_gas p) ;;
    let prio := N.max p10 (gf_max_priority_fee_per_gas g) in
    let g' := {| gf_base_fee_per_gas := gf_base_fee_per_gas g;
                 gf_max_priority_fee_per_gas := prio |} in
    Done {| tp_gas_limit := tp_gas_limit p;
            tp_max_fee_per_gas := N.max (min_max_fee_per_gas g') (tp_max_fee_per_gas p);
            tp_max_priority_fee_per_gas := prio |}.

(** tx.rs 529-535 [transaction_price] *)
Definition tx_price (t : Tx) : TransactionPrice :=
  {| tp_gas_limit := tx_gas_limit t;
     tp_max_fee_per_gas := tx_max_fee_per_gas t;
     tp_max_priority_fee_per_gas := tx_max_priority_fee_per_gas t |}.

(** tx.rs 166-175 [allowed_max_transaction_fee] *)
Definition allowed_max_transaction_fee (s : Resubmission) : N :=
  match s with ReduceEthAmount w => w | GuaranteeEthAmount f => f end.

(** tx.rs 178-184 [ResubmitTransactionError] *)
Record ResubmitError := { re_allowed : N; re_actual : N }.

(** tx.rs 187-231 [resubmit]; the request is the transaction of a signed
    transaction together with the strategy. *)
Definition resubmit (t : Tx) (s : Resubmission) (g : GasFeeEstimate)
  : res (result (option Tx) ResubmitError) :=
  let last := tx_price t in
  new <- resubmit_transaction_price last g ;;
  if price_eqb new last then Done (ROk None)
  else if allowed_max_transaction_fee s <? max_transaction_fee new
  then Done (RErr {| re_allowed := allowed_max_transaction_fee s;
                     re_actual := max_transaction_fee new |})
  else
    amount <- match s with
              | ReduceEthAmount w =>
                  expect (checked_sub w (max_transaction_fee new))
                    "BUG: withdrawal_amount covers new transaction fee because it was checked before"
              | GuaranteeEthAmount _ => Done (tx_amount t)
              end ;;
    Done (ROk (Some
      {| tx_chain_id := tx_chain_id t;
         tx_nonce := tx_nonce t;
         tx_max_priority_fee_per_gas := tp_max_priority_fee_per_gas new;
         tx_max_fee_per_gas := tp_max_fee_per_gas new;
         tx_gas_limit := tp_gas_limit new;
         tx_destination := tx_destination t;
         tx_amount := amount;
         tx_data := tx_data t;
         tx_access_list := tx_access_list t |})).

(** tx.rs 461-490 [try_finalize] (error strings dropped) *)
Definition try_finalize (t : SignedTx) (r : Receipt) : option FinalizedTx :=
  if negb (st_hash t =? rc_transaction_hash r) then None
  else if tx_max_fee_per_gas (st_tx t) <? rc_effective_gas_price r then None
  else if tx_gas_limit (st_tx t) <? rc_gas_used r then None
  else Some {| ft_tx := t; ft_receipt := r |}.

(** rpc_declrations.rs 345-351 [effective_transaction_fee] *)
Definition effective_transaction_fee (r : Receipt) : res N :=
  expect (transaction_cost (rc_effective_gas_price r) (rc_gas_used r))
    "ERROR: overflow during transaction fee calculation".

(** rpc_declrations.rs [FeeHistory] *)
Record FeeHistory := {
  fh_oldest_block : N;
  fh_base_fee_per_gas : list N;
  fh_reward : list (list N)
}.

(** tx.rs 870-876 [median]: the element of rank [len/2]. [select_nth_unstable]
    returns the element that would be at that index after sorting. *)
Fixpoint insert_sorted (x : N) (l : list N) : list N :=
  match l with
  | [] => [x]
  | y :: l' => if x <=? y then x :: l else y :: insert_sorted x l'
  end.
Definition sort_N (l : list N) : list N := fold_right insert_sorted [] l.
Definition median (l : list N) : option N :=
  nth_error (sort_N l) (Nat.div (List.length l) 2).

Inductive FeeEstimationError := InvalidFeeHistory | FeeOverflow.

Definition last_opt {A} (l : list A) : option A :=
  match rev l with [] => None | x :: _ => Some x end.

(** tx.rs 824-861 [estimate_transaction_fee] *)
Definition estimate_transaction_fee (min_prio : N) (h : FeeHistory)
  : result GasFeeEstimate FeeEstimationError :=
  match last_opt (fh_base_fee_per_gas h) with
  | None => RErr InvalidFeeHistory
  | Some base =>
      match median (List.concat (fh_reward h)) with
      | None => RErr InvalidFeeHistory
      | Some m =>
          let g := {| gf_base_fee_per_gas := base;
                      gf_max_priority_fee_per_gas := N.max m min_prio |} in
          match checked_estimate_max_fee_per_gas g with
          | None => RErr FeeOverflow
          | Some _ => ROk g
          end
      end
  end.
