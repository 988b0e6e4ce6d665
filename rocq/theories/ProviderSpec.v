(** * Specification of C79: providers of which one may lie *)

From Coq Require Import Permutation.
From Verif Require Import Base BMap MultiKeyMap Bytes Types Amount Tx CallData Network Hex
  Transactions State Audit Ranges Rlp Parser Memo Driver Rpc Sys SysSpec WithdrawSpec BalanceSpec
  Contract ContractSpec FundsSpec.

(** The providers, as the EVM RPC canister names them *)
Definition service (p : Provider) : Service :=
  match p with LlamaNodes => 0 | Ankr => 1 | PublicNode => 2 end.

(** The EVM RPC canister (not part of the project) asked the providers [ps], and they said
    [said]: it gives one value only if all gave it, and otherwise what each of them said; or
    it fails itself. *)
Definition gathered {T} (ps : list Provider) (said : Provider -> RpcResult T) (m : MultiRpc T) : Prop :=
  match m with
  | Consistent (ROk v) => forall p, In p ps -> said p = ROk v
  | Consistent (RErr _) => True
  | Inconsistent rs => Permutation rs (map (fun p => (service p, said p)) ps)
  end.

(** Whatever value the providers gave is true, except that one of them may say anything. *)
Definition one_may_lie {T} (ps : list Provider) (said : Provider -> RpcResult T) (is_true : T -> Prop) : Prop :=
  exists liar, forall p v, In p ps -> p <> liar -> said p = ROk v -> is_true v.

(** An answer to a question that was put to all providers of the network *)
Definition asked_all {T} (net : EvmNetwork) (is_true : T -> Prop) (m : MultiRpc T) : Prop :=
  exists said, gathered (get_providers net) said m /\ one_may_lie (get_providers net) said is_true.

(** True logs: the contract emitted them *)
Definition true_logs (ms : list Mined) (logs : list LogEntry) : Prop :=
  forall e, In e logs -> exists m, In m ms /\ renders m e.
(** A true receipt: of a mined transaction, with how it ended and what the gas cost *)
Definition true_receipt (xs : list Execution) (o : option EvmReceipt) : Prop :=
  match o with
  | None => True
  | Some e => exists x, In x xs /\ st_hash (xn_tx x) = er_transaction_hash e /\
      er_status e = Some (if xn_ok x then 1 else 0) /\ er_effective_gas_price e * er_gas_used e = xn_gas x
  end.

(** Questions for logs and receipts are put to all providers, of which one may lie, possibly
    a different one each time. *)
Definition one_liar (ms : list Mined) (xs : list Execution) (s : Sys) (l : Label) : Prop :=
  let net := evm_network (sys_state s) in
  match l with
  | LAnswer _ (ReLogs r) => exists m, asked_all net (true_logs ms) m /\ logs_reply m = r
  | LAnswer _ (ReReceipts rs) => forall r, In r rs -> exists m, asked_all net (true_receipt xs) m /\ receipt_reply m = Done r
  | _ => True
  end.
(** ... and upgrades do not set the nonce back. *)
Definition one_liar_env (ms : list Mined) (xs : list Execution) (s : Sys) (l : Label) : Prop :=
  nonce_kept s l /\ one_liar ms xs s l.

(** No two transactions that the minter signed have the same hash. *)
Definition hashes_differ (h : list EventType) : Prop :=
  forall b b' t t', In t (attempts h b) -> In t' (attempts h b') -> st_hash t = st_hash t' -> t = t'.

(** What the chain guarantees about the mined transactions of the minter's address, without
    anything about receipts (see [executed]) *)
Record on_the_chain (h : list EventType) (xs : list Execution) : Prop := {
  oc_signed : forall x, In x xs -> exists b, In (xn_tx x) (attempts h b);
  oc_once : NoDup (map (fun x => tx_nonce (st_tx (xn_tx x))) xs);
  oc_gas : forall x, In x xs -> xn_gas x <= tx_gas_limit (st_tx (xn_tx x)) * tx_max_fee_per_gas (st_tx (xn_tx x))
}.
