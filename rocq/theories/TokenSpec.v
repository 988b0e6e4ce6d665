(** * Specification of C38: registered tokens *)

From Verif Require Import Base Bytes Types State Network Hex Driver.

(** The minter lists the token: it is in the answer of the query for supported tokens. *)
Definition listed (s : State) (ledger : Principal) (contract : Address) (symbol : text) : Prop :=
  exists l, supported_erc20_tokens s = Done l /\
    In {| et_chain_id := evm_network s; et_contract_address := contract; et_symbol := symbol;
          et_ledger_id := ledger |} l.

(** The arguments of a registration call denote this token of the minter's chain: the symbol
    has at most 20 ASCII characters *)
Definition denotes (s : State) (a : AddErc20Token) (ledger : Principal) (contract : Address) (symbol : text) : Prop :=
  at_chain_id a = chain_id (evm_network s) /\ address_of_text (at_address a) = Some contract /\
  at_symbol a = symbol /\ (List.length symbol <= 20)%nat /\ Forall (fun ch => ch < 128) symbol /\
  at_ledger_id a = ledger.

(** Its ledger, contract address or symbol is taken *)
Definition clashes (s : State) (ledger : Principal) (contract : Address) (symbol : text) : Prop :=
  exists l c sy, listed s l c sy /\ (l = ledger \/ c = contract \/ sy = symbol).
