(** * The read-only endpoints of the canister.

    Model of /repo/minter/src/main.rs 163-243 and 411-459 and of the types in endpoints.rs.
    Amounts are numbers instead of candid naturals, addresses and hashes are not rendered
    as text (rendering: [address_to_text] in Hex.v). *)

From Verif Require Import Base BMap MultiKeyMap Bytes Types Amount Tx CallData Network Hex
  Transactions State Audit Ranges Rlp Parser Memo Driver.

(** main.rs 411-418 [retrieve_witdrawal_status] *)
Definition retrieve_withdrawal_status (block_index : N) (s : State) : res WithdrawalStatus :=
  transaction_status block_index (withdrawals s).

(** endpoints.rs 264-269 [WithdrawalSearchParameter] *)
Inductive CandidSearch :=
| SearchId (b : N)
| SearchRecipient (a : text)
| SearchAccount (owner : Principal) (subaccount : option Subaccount).

(** endpoints.rs 271-282 *)
Definition search_of (p : CandidSearch) : option SearchParameter :=
  match p with
  | SearchId b => Some (ByWithdrawalId b)
  | SearchRecipient a => option_map ByRecipient (address_of_text a)
  | SearchAccount o s => Some (BySenderAccount o s)
  end.

(** endpoints.rs 284-294 [WithdrawalDetail] *)
Record WithdrawalDetail := {
  wd_withdrawal_id : N;
  wd_recipient_address : Address;
  wd_from : Principal;
  wd_from_subaccount : option Subaccount;
  wd_token_symbol : text;
  wd_withdrawal_amount : N;
  wd_max_transaction_fee : option N;
  wd_status : WithdrawalStatus
}.

(** main.rs 428-456 *)
Definition detail_of (s : State) (x : WithdrawalRequest * WithdrawalStatus * option Tx)
  : res WithdrawalDetail :=
  let '(r, st, tx) := x in
  symbol <- match r with
            | WNative _ => Done (native_symbol s)
            | WErc20 q => expect (dmkm_get_alt (ew_erc20_contract_address q) (erc20_tokens s))
                            "called `Option::unwrap()` on a `None` value"
            end ;;
  Done {| wd_withdrawal_id := wr_burn_index r;
          wd_recipient_address := wr_payee r;
          wd_from := wr_from r;
          wd_from_subaccount := wr_from_subaccount r;
          wd_token_symbol := symbol;
          wd_withdrawal_amount := match r with
                                  | WNative q => nw_withdrawal_amount q
                                  | WErc20 q => ew_withdrawal_amount q
                                  end;
          wd_max_transaction_fee := match r, tx with
                                    | WNative _, None => None
                                    | WNative q, Some t => checked_sub (nw_withdrawal_amount q) (tx_amount t)
                                    | WErc20 q, _ => Some (ew_max_transaction_fee q)
                                    end;
          wd_status := st |}.

(** main.rs 420-459 [withdrawal_status] *)
Definition withdrawal_details (p : CandidSearch) (s : State) : res (list WithdrawalDetail) :=
  q <- expect (search_of p) "called `Result::unwrap()` on an `Err` value" ;;
  rows <- withdrawal_status q (withdrawals s) ;;
  rmap (detail_of s) rows.

(** endpoints.rs 27-46 [Eip1559TransactionPrice] *)
Record QuotedPrice := {
  qp_gas_limit : N;
  qp_max_fee_per_gas : N;
  qp_max_priority_fee_per_gas : N;
  qp_max_transaction_fee : N;
  qp_timestamp : option N
}.

(** main.rs 163-193 [eip_1559_transaction_price]; a trap is a panic *)
Definition quoted_price (token : option Principal) (s : State) : res QuotedPrice :=
  gas_limit <- match token with
               | None => Done NATIVE_GAS_LIMIT
               | Some l =>
                   match find_erc20_token_by_ledger_id l s with
                   | Some _ => Done ERC20_GAS_LIMIT
                   | None => if bytes_eqb l (native_ledger_id s)
                             then Done NATIVE_GAS_LIMIT
                             else Panic "ERROR: Unsupported ckERC20 token ledger"
                   end
               end ;;
  match last_transaction_price_estimate s with
  | Some (ts, g) =>
      let p := to_price g gas_limit in
      Done {| qp_gas_limit := tp_gas_limit p; qp_max_fee_per_gas := tp_max_fee_per_gas p;
              qp_max_priority_fee_per_gas := tp_max_priority_fee_per_gas p;
              qp_max_transaction_fee := max_transaction_fee p; qp_timestamp := Some ts |}
  | None => Panic "ERROR: last transaction price estimate is not available"
  end.
