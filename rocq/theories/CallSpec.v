(** * Specification of C24 and C25: what one withdrawal call does.

    A run is observed from outside: the operations that the ledgers executed for the call,
    the events that its callbacks recorded and the answers it was given. *)

From Verif Require Import Base BMap MultiKeyMap Bytes Types Amount Tx CallData Network Hex
  Transactions State Audit Ranges Rlp Parser Memo Driver Sys SysSpec TxSpec FeeSpec TokenSpec BurnSpec.

Section Trace.
Variable self : Principal.
Variable keccak : list N -> Hash.

(** the operations executed when the call of function [id] is answered *)
Definition ops_by (id : N) (s : Sys) (l : Label) : list Op :=
  match l with
  | LAnswer i _ => if i =? id then skipn (List.length (sys_ops s)) (sys_ops (step self keccak s l)) else []
  | _ => []
  end.
(** the events recorded by function [id]: when it is called and in its callbacks *)
Definition new_events (s : Sys) (l : Label) : list EventType :=
  map ev_payload (skipn (List.length (sys_log s)) (sys_log (step self keccak s l))).
Definition events_by (id : N) (s : Sys) (l : Label) : list EventType :=
  match l with
  | LCall _ _ => if sys_next s =? id then new_events s l else []
  | LDeliver i _ _ => if i =? id then new_events s l else []
  | _ => []
  end.
(** the fee histories that function [id] was given *)
Definition fees_by (id : N) (s : Sys) (l : Label) : list FeeHistory :=
  match l, bget id (sys_tasks s) with
  | LAnswer i (ReFees (Some h)), Some {| fl_task := t; fl_reply := None |} =>
      if (i =? id) && reply_fits self t (ReFees (Some h)) then [h] else []
  | _, _ => []
  end.
Fixpoint gather {A} (f : Sys -> Label -> list A) (s : Sys) (ls : list Label) : list A :=
  match ls with
  | [] => []
  | l :: ls => f s l ++ gather f (step self keccak s l) ls
  end.

(** ** The results of a withdrawal call made in state [st] *)
Variable st : State.

Definition prefix {A} (l m : list A) : Prop := exists r, m = l ++ r.

(** The withdrawal fee: taken from the caller to the minter's fee account; the caller pays
    the ledger's transfer fee out of it *)
Definition fee : N := match withdrawal_native_fee st with Some f => f | None => 0 end.
Definition fee_calls (p : Principal) : list LedgerCall :=
  match withdrawal_native_fee st with
  | Some f => [TransferFrom (native_ledger_id st) (default_account p) (fees_account self)
                 (f - native_ledger_transfer_fee st) None]
  | None => []
  end.
(** ... and its refund, less two transfer fees *)
Definition refund_calls (p : Principal) : list LedgerCall :=
  match withdrawal_native_fee st with
  | Some f => [TransferFrom (native_ledger_id st) (fees_account self) (default_account p)
                 (f - 2 * native_ledger_transfer_fee st) None]
  | None => []
  end.

(** *** withdraw_native_token *)
Definition native_burn (p : Principal) (a : N) (d : Address) : LedgerCall :=
  burn_of self (native_ledger_id st) (default_account p) (a - fee) (BurnConvert d).

(** a request that passes the checks *)
Definition native_valid (p : Principal) (a : N) (r : text) (d : Address) : Prop :=
  p <> ANONYMOUS /\ validate_address_as_destination r = ROk d /\
  native_minimum_withdrawal_amount st <= a /\ a <= U256_MAX.

Inductive native_result (p : Principal) (a : N) (r : text) :
  list Op -> list EventType -> Outcome -> Prop :=
(** refused: no ledger was touched, nothing was recorded *)
| NrDestination e : p <> ANONYMOUS -> validate_address_as_destination r = RErr e ->
    native_result p a r [] [] (OutNative (RErr WeInvalidDestination))
| NrTooLow d : p <> ANONYMOUS -> validate_address_as_destination r = ROk d -> a < native_minimum_withdrawal_amount st ->
    native_result p a r [] [] (OutNative (RErr (WeAmountTooLow (native_minimum_withdrawal_amount st))))
| NrFee d e : native_valid p a r d -> withdrawal_native_fee st <> None ->
    native_result p a r [] [] (OutNative (RErr (WeFeeTransfer e)))
(** done: the fee was taken, the rest was burned and recorded *)
| NrDone d paid b t : native_valid p a r d -> fee <= a -> map fst paid = fee_calls p ->
    let q := {| nw_withdrawal_amount := a - fee; nw_destination := d; nw_ledger_burn_index := b;
                nw_from := p; nw_from_subaccount := None; nw_created_at := Some t |} in
    native_result p a r (paid ++ [(native_burn p a d, b)]) [EvAcceptedNativeWithdrawalRequest q]
      (OutNative (ROk q))
(** the burn was refused: the fee may have been refunded *)
| NrBurn d e paid back : native_valid p a r d -> e <> LeAmountTooLow -> fee <= a -> map fst paid = fee_calls p ->
    prefix (map fst back) (refund_calls p) ->
    native_result p a r (paid ++ back) [] (OutNative (RErr (WeBurn e)))
(** the call trapped before it took anything *)
| NrNothing : native_result p a r [] [] OutTrap
(** the call trapped later: some of this happened, nothing was recorded *)
| NrTrap d ops : native_valid p a r d ->
    prefix (map fst ops) (fee_calls p ++ refund_calls p) \/
    (fee <= a /\ map fst ops = fee_calls p ++ [native_burn p a d]) ->
    native_result p a r ops [] OutTrap.

(** *** withdraw_erc20 *)

(** The gas fee: for 65000 gas, from an estimate at most half a minute old, or else from the
    fee history obtained for the call *)
Definition quoted (now : N) (fees : list FeeHistory) (g : N) : Prop :=
  exists e, g = erc20_charge e /\
    ((fees = [] /\ exists t, last_transaction_price_estimate st = Some (t, e) /\ now < half_minute_after t) \/
     (exists h, fees = [h] /\ read_history (min_max_priority_fee_per_gas st) h e)).

Definition gas_burn (p : Principal) (a g : N) (tk : ERC20Token) (d : Address) : LedgerCall :=
  burn_of self (native_ledger_id st) (default_account p) g (BurnErc20GasFee (et_symbol tk) a d).
Definition token_burn (p : Principal) (a : N) (tk : ERC20Token) (i : N) (d : Address) : LedgerCall :=
  burn_of self (et_ledger_id tk) (default_account p) a (BurnErc20Convert i d).
(** The gas fee burned in block [i] is owed to the caller when the token burn fails, less
    the ledger's transfer fee unless the ledger was unavailable *)
Definition fee_owed (p : Principal) (g i : N) (e : LedgerError) : list EventType :=
  let amount := match e with LeTemporarilyUnavailable => g | _ => g - native_ledger_transfer_fee st end in
  if amount =? 0 then []
  else [EvFailedErc20WithdrawalRequest
          {| rr_ledger_burn_index := i; rr_reimbursed_amount := amount; rr_to := p;
             rr_to_subaccount := None; rr_transaction_hash := None |}].
(** the token served by a ledger *)
Definition token_of (l : Principal) (tk : ERC20Token) : Prop :=
  et_ledger_id tk = l /\ listed st l (et_contract_address tk) (et_symbol tk).

(** a request that passes the checks, for token [tk] and with gas fee [g] *)
Definition erc20_valid (p : Principal) (a : N) (l : Principal) (r : text) (d : Address) (tk : ERC20Token) : Prop :=
  p <> ANONYMOUS /\ validate_address_as_destination r = ROk d /\ token_of l tk /\ a <= U256_MAX.

Inductive erc20_result (now : N) (p : Principal) (a : N) (l : Principal) (r : text)
  (fees : list FeeHistory) : list Op -> list EventType -> Outcome -> Prop :=
(** refused: no ledger was touched, nothing was recorded *)
| ErDestination e : p <> ANONYMOUS -> validate_address_as_destination r = RErr e ->
    erc20_result now p a l r fees [] [] (OutErc20 (RErr EeInvalidDestination))
| ErUnsupported d : p <> ANONYMOUS -> validate_address_as_destination r = ROk d -> (forall c y, ~ listed st l c y) ->
    erc20_result now p a l r fees [] [] (OutErc20 (RErr EeTokenNotSupported))
| ErUnavailable d tk : erc20_valid p a l r d tk ->
    erc20_result now p a l r fees [] [] (OutErc20 (RErr EeTemporarilyUnavailable))
| ErFee d tk g e : erc20_valid p a l r d tk -> quoted now fees g -> withdrawal_native_fee st <> None ->
    erc20_result now p a l r fees [] [] (OutErc20 (RErr (EeFeeTransfer e)))
(** done: the fee was taken, the gas fee and the tokens were burned and recorded *)
| ErDone d tk g paid i b t : erc20_valid p a l r d tk -> quoted now fees g -> map fst paid = fee_calls p ->
    let q := {| ew_max_transaction_fee := g; ew_withdrawal_amount := a; ew_destination := d;
                ew_native_ledger_burn_index := i; ew_erc20_contract_address := et_contract_address tk;
                ew_erc20_ledger_id := l; ew_erc20_ledger_burn_index := b;
                ew_from := p; ew_from_subaccount := None; ew_created_at := t |} in
    erc20_result now p a l r fees
      (paid ++ [(gas_burn p a g tk d, i); (token_burn p a tk i d, b)])
      [EvAcceptedErc20WithdrawalRequest q] (OutErc20 (ROk q))
(** the burn of the gas fee was refused: the fee may have been refunded *)
| ErGas d tk g e paid back : erc20_valid p a l r d tk -> quoted now fees g ->
    map fst paid = fee_calls p -> prefix (map fst back) (refund_calls p) ->
    erc20_result now p a l r fees (paid ++ back) [] (OutErc20 (RErr (EeNativeLedger e)))
(** the burn of the tokens was refused: the gas fee is owed to the caller, the fee may have
    been refunded; or the call trapped after that *)
| ErToken d tk g paid i e back o : erc20_valid p a l r d tk -> quoted now fees g ->
    map fst paid = fee_calls p -> prefix (map fst back) (refund_calls p) ->
    o = OutErc20 (RErr (EeErc20Ledger i e)) \/ o = OutTrap ->
    erc20_result now p a l r fees (paid ++ (gas_burn p a g tk d, i) :: back) (fee_owed p g i e) o
(** the call trapped before it took anything *)
| ErNothing : erc20_result now p a l r fees [] [] OutTrap
(** the call trapped later: some of this happened, nothing was recorded *)
| ErTrap d tk g ops : erc20_valid p a l r d tk -> quoted now fees g ->
    prefix (map fst ops) (fee_calls p ++ refund_calls p) ->
    erc20_result now p a l r fees ops [] OutTrap
| ErTrapBurned d tk g paid i more : erc20_valid p a l r d tk -> quoted now fees g ->
    map fst paid = fee_calls p -> prefix (map fst more) [token_burn p a tk i d] ->
    erc20_result now p a l r fees (paid ++ (gas_burn p a g tk d, i) :: more) [] OutTrap.

End Trace.
