(** * Specification of C21 and C54: the queue of waiting withdrawals *)

From Verif Require Import Base BMap MultiKeyMap Bytes Types Amount Tx Transactions State Driver Sys
  SysSpec WithdrawSpec FeeSpec.

(** The request can pay for its transaction under the estimate [g]: a native withdrawal
    covers the largest fee of a transfer of 21000 gas, a token withdrawal paid for at least
    the current price of each of 65000 units. *)
Definition affordable (g : GasFeeEstimate) (r : WithdrawalRequest) : bool :=
  match r with
  | WNative n => N.min (21000 * max_price g) U256_MAX <=? nw_withdrawal_amount n
  | WErc20 e => N.min (gf_base_fee_per_gas g + gf_max_priority_fee_per_gas g) U256_MAX
                <=? ew_max_transaction_fee e / 65000
  end.

(** Nonces of transactions that are created or sent and not finalized *)
Definition flying (w : WT) (k : N) : Prop :=
  bget k (by_key (created w)) <> None \/ bget k (by_key (sent w)) <> None.
(** There are at most [n] of them *)
Definition at_most_flying (n : nat) (w : WT) : Prop :=
  forall l, NoDup l -> (forall k, In k l -> flying w k) -> (List.length l <= n)%nat.
Definition flying_list (w : WT) (l : list N) : Prop := NoDup l /\ forall k, In k l <-> flying w k.

(** [a] stands before [b] in [l] *)
Definition before {A} (a b : A) (l : list A) : Prop := exists l1 l2 l3, l = l1 ++ a :: l2 ++ b :: l3.

(** The requests that wait for their first transaction, in order *)
Definition queue (s : Sys) : list WithdrawalRequest := pending (withdrawals (sys_state s)).
Definition accepted_so_far (s : Sys) : list WithdrawalRequest := accepted (history (sys_log s)).
Definition created_so_far (s : Sys) : list (N * Tx) := creations (history (sys_log s)).

(** What the step [l] from [s] to [s'] does to the queue. *)
Inductive queue_step (s : Sys) (l : Label) (s' : Sys) : Prop :=
(** New requests join at the end; no transaction is created. *)
| QS_join new :
    queue s' = queue s ++ new -> accepted_so_far s' = accepted_so_far s ++ new ->
    created_so_far s' = created_so_far s ->
    (forall k, flying (withdrawals (sys_state s')) k -> flying (withdrawals (sys_state s)) k) ->
    queue_step s l s'
(** The first requests of the queue are examined, at most five and no more than the nonces
    that may still be in flight. Those that can pay get transactions, in the order of the
    queue and with consecutive nonces. The others go to the end of the queue. *)
| QS_serve g id n now fl batch rest cs :
    l = LDeliver id false now ->
    bget id (sys_tasks s) = Some {| fl_task := TRetrieveCount g; fl_reply := Some (ReCount n) |} ->
    flying_list (withdrawals (sys_state s)) fl ->
    queue s = batch ++ rest ->
    List.length batch = Nat.min (Nat.min 5 (1000 - List.length fl)) (List.length (queue s)) ->
    queue s' = rest ++ filter (fun r => negb (affordable g r)) batch ->
    accepted_so_far s' = accepted_so_far s ->
    created_so_far s' = created_so_far s ++ cs ->
    map fst cs = map wr_burn_index (filter (affordable g) batch) ->
    map (fun x => tx_nonce (snd x)) cs =
      consecutive (next_nonce (withdrawals (sys_state s))) (List.length cs) ->
    (forall k, flying (withdrawals (sys_state s')) k <->
       flying (withdrawals (sys_state s)) k \/ In k (map (fun x => tx_nonce (snd x)) cs)) ->
    queue_step s l s'
(** An upgrade keeps the waiting requests, possibly in another order. *)
| QS_upgrade a now :
    l = LUpgrade a now -> Permutation (queue s') (queue s) ->
    accepted_so_far s' = accepted_so_far s -> created_so_far s' = created_so_far s ->
    (forall k, flying (withdrawals (sys_state s')) k <-> flying (withdrawals (sys_state s)) k) ->
    queue_step s l s'.
