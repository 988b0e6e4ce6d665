(** * Specification of C01-C04: deposits. *)

From Verif Require Import Base BMap MultiKeyMap Bytes Types Amount State Audit Memo Driver Sys SysSpec.

(** The deposit (transaction hash and log index) a ledger transfer is made for *)
Definition mint_source (c : LedgerCall) : option EventSource :=
  match c with
  | Transfer _ _ _ (Some (MemoMint (MintConvert _ h i))) =>
      Some (h, i)
  | _ => None
  end.
Definition mints_for (src : EventSource) (ops : list Op) : list Op :=
  filter (fun o => match mint_source (fst o) with Some x => keqb x src | None => false end) ops.

(** The fates of a deposit *)
Definition waiting (s : State) (src : EventSource) (e : ReceivedDepositEvent) : Prop :=
  bget src (events_to_mint s) = Some e.
Definition minted (s : State) (src : EventSource) (m : MintedEvent) : Prop :=
  bget src (minted_events s) = Some m.
Definition rejected (s : State) (src : EventSource) (r : InvalidEventReason) : Prop :=
  bget src (invalid_events s) = Some r.

(** The deposit was accepted: an event of the log says so. *)
Definition deposit_accepted (log : list Event) (e : ReceivedDepositEvent) : Prop :=
  In (match e with DepNative x => EvAcceptedDeposit x | DepErc20 x => EvAcceptedErc20Deposit x end)
     (map ev_payload log).
Definition registered (log : list Event) (contract : Address) (ledger : Principal) (symbol : text) : Prop :=
  exists t, In (EvAddedErc20Token t) (map ev_payload log) /\
    et_contract_address t = contract /\ et_ledger_id t = ledger /\ et_symbol t = symbol.

(** [c] is the transfer that pays the depositor of [e] what they are owed in state [s]. A
    subaccount is kept as a number and written as its 32 big-endian bytes. *)
Definition pays (log : list Event) (s : State) (e : ReceivedDepositEvent) (c : LedgerCall) : Prop :=
  match e with
  | DepNative x =>
      let fee := match deposit_native_fee s with Some f => f | None => 0 end in
      fee <= ne_value x /\
      c = Transfer (native_ledger_id s)
            {| ac_owner := ne_principal x; ac_subaccount := option_map (be_bytes 32) (ne_subaccount x) |}
            (ne_value x - fee)
            (Some (MemoMint (MintConvert (ne_from_address x) (ne_transaction_hash x) (ne_log_index x))))
  | DepErc20 x =>
      exists ledger symbol, registered log (ee_erc20_contract_address x) ledger symbol /\
      c = Transfer ledger
            {| ac_owner := ee_principal x; ac_subaccount := option_map (be_bytes 32) (ee_subaccount x) |}
            (ee_value x)
            (Some (MemoMint (MintConvert (ee_from_address x) (ee_transaction_hash x) (ee_log_index x))))
  end.

(** Independently of the fee in force at the time: [c] credits the account named in the
    deposit [e], on the right ledger, with the memo of [e]; an ERC20 deposit in full, a
    native deposit with at most its value. *)
Definition credits (log : list Event) (s : State) (e : ReceivedDepositEvent) (c : LedgerCall) : Prop :=
  match e with
  | DepNative x =>
      exists amount, amount <= ne_value x /\
      c = Transfer (native_ledger_id s)
            {| ac_owner := ne_principal x; ac_subaccount := option_map (be_bytes 32) (ne_subaccount x) |}
            amount
            (Some (MemoMint (MintConvert (ne_from_address x) (ne_transaction_hash x) (ne_log_index x))))
  | DepErc20 _ => pays log s e c
  end.

(** Every native deposit waiting to be minted is worth at least the deposit fee. *)
Definition covered (s : State) : Prop :=
  forall src x, waiting s src (DepNative x) ->
    match deposit_native_fee s with Some f => f <= ne_value x | None => True end.

(** Function [id] of [s] works on the first of the deposits [es], with the others still to
    come; if there are none it has ended normally. *)
Definition moves_on (s : Sys) (id : N) (es : list ReceivedDepositEvent) : Prop :=
  match es with
  | [] => In (id, OutTimer) (sys_outcomes s)
  | e :: es => exists j, bget id (sys_tasks s) = Some {| fl_task := TMint j; fl_reply := None |} /\
      mj_event j = e /\ mj_rest j = es
  end.
