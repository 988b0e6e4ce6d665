(** * Specification of C73 and C74: deposits from the helper contract to the ledgers *)

From Verif Require Import Base BMap MultiKeyMap Bytes Types Amount Tx CallData Network Hex
  Transactions State Audit Ranges Rlp Parser Memo Driver Sys SysSpec WithdrawSpec DepositSpec
  TokenSpec ReimburseSpec BurnSpec BalanceSpec SolvencySpec ParserSpec Contract.

(** ** The chain *)

(** What happens on the chain, in order: calls of the contract, each with the place of its
    log, and anything else. A token that calls the contract while it is called from there is
    seen as two calls of the contract, the inner one first. *)
Inductive Happening :=
| ByHelper (place : EventSource) (block : N) (c : DepositCall)
| Elsewhere (w : World).

(** A log of the contract with its place *)
Record Mined := { mi_source : EventSource; mi_block : N; mi_log : EvmLog }.

Fixpoint emitted (v : Evm) (w : World) (hs : list Happening) : list Mined :=
  match hs with
  | [] => []
  | Elsewhere w' :: hs => emitted v w' hs
  | ByHelper p b c :: hs =>
      match deposit v c w with
      | Some (w', l) => {| mi_source := p; mi_block := b; mi_log := l |} :: emitted v w' hs
      | None => emitted v w hs
      end
  end.

(** What the minter's address holds *)
Definition holds (v : Evm) (a : Asset) (w : World) : N :=
  match a with
  | Native => w_native w (evm_minter v)
  | Token c _ => w_tokens w c (evm_minter v)
  end.
(** What came in by calls of the contract *)
Fixpoint arrived (v : Evm) (a : Asset) (w : World) (hs : list Happening) : N :=
  match hs with
  | [] => 0
  | Elsewhere w' :: hs => arrived v a w' hs
  | ByHelper p b c :: hs =>
      match deposit v c w with
      | Some (w', _) => (holds v a w' - holds v a w) + arrived v a w' hs
      | None => arrived v a w hs
      end
  end.

(** The call is one that the EVM can make, by somebody else than the minter and the contract *)
Record proper (v : Evm) (c : DepositCall) : Prop := {
  pr_sender : dc_sender c < 2 ^ 160;
  pr_token : dc_token c < 2 ^ 160;
  pr_value : dc_value c < 2 ^ 256;
  pr_amount : dc_amount c < 2 ^ 256;
  pr_principal : List.length (dc_principal c) = 32%nat /\ byte_list (dc_principal c);
  pr_subaccount : List.length (dc_subaccount c) = 32%nat /\ byte_list (dc_subaccount c);
  pr_not_minter : dc_sender c <> evm_minter v;
  pr_not_helper : dc_sender c <> evm_helper v
}.
Definition all_proper (v : Evm) (hs : list Happening) : Prop :=
  forall p b c, In (ByHelper p b c) hs -> proper v c.

(** The contract and the minter have different addresses; nobody has code at address 0 *)
Definition lawful (v : Evm) : Prop :=
  evm_helper v <> evm_minter v /\ forall w, evm_code v w 0 = false.
(** The token pays out what it is asked to *)
Definition standard (v : Evm) (a : Asset) : Prop :=
  match a with
  | Native => True
  | Token t _ => forall w from to n w', evm_transfer_from v w t from to n = Some w' -> from <> to ->
      w_tokens w' t to = w_tokens w t to + n
  end.

(** What a call that goes through deposits, for the principal [p]: the value of the call, or
    else tokens *)
Definition call_deposit (c : DepositCall) (p : list N) : DepositLog :=
  {| dl_from := dc_sender c;
     dl_token := if 0 <? dc_value c then 0 else dc_token c;
     dl_amount := if 0 <? dc_value c then dc_value c else dc_amount c;
     dl_principal := p; dl_subaccount := of_be (dc_subaccount c) |}.

(** ** What providers say about it *)

(** [e] is a provider's description of the log [m] *)
Definition renders (m : Mined) (e : LogEntry) : Prop :=
  le_address e = el_address (mi_log m) /\ le_topics e = el_topics (mi_log m) /\
  le_data e = el_data (mi_log m) /\ mined e (mi_block m) (fst (mi_source m)) (snd (mi_source m)) /\
  le_removed e = false.
(** Providers report only logs that the contract emitted. *)
Definition reports (ms : list Mined) (l : Label) : Prop :=
  match l with
  | LAnswer _ (ReLogs (LogsOk logs)) => forall e, In e logs -> exists m, In m ms /\ renders m e
  | _ => True
  end.

(** ** What the minter says about it *)

(** What was accepted in an asset, and what left again with finalized withdrawals *)
Definition accepted_value (a : Asset) (h : list EventType) : N :=
  match a with Native => native_deposits h | Token c _ => erc20_deposits c h end.
Definition paid_out (a : Asset) (h : list EventType) : N :=
  match a with
  | Native => sum_of spent (settlements h)
  | Token c _ => sum_of (spent_erc20 c) (settlements h)
  end.

(** What the minter owes in an asset: the tokens on the ledger and everything to come *)
Definition owed (self : Principal) (a : Asset) (s : Sys) : N :=
  supply self (asset_ledger (native_ledger_id (sys_state s)) a) (sys_ops s) + to_mint a s +
  outstanding a (history (sys_log s)) + to_repay a s + in_flight a s.
