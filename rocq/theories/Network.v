(** * Network: supported networks. Model of /repo/minter/src/evm_config.rs. *)

From Verif Require Import Base Types.

(** evm_config.rs 48-61 [chain_id] *)
Definition chain_id (n : EvmNetwork) : N :=
  match n with
  | Ethereum => 1
  | Sepolia => 11155111
  | ArbitrumOne => 42161
  | BSC => 56
  | BSCTestnet => 97
  | Polygon => 137
  | Optimism => 10
  | Base_ => 8453
  | Avalanche => 43114
  | Fantom => 250
  end.

(** evm_config.rs 67-81 [TryFrom<u64>] *)
Definition network_of_chain_id (id : N) : option EvmNetwork :=
  if id =? 1 then Some Ethereum
  else if id =? 11155111 then Some Sepolia
  else if id =? 42161 then Some ArbitrumOne
  else if id =? 56 then Some BSC
  else if id =? 97 then Some BSCTestnet
  else if id =? 137 then Some Polygon
  else if id =? 10 then Some Optimism
  else if id =? 8453 then Some Base_
  else if id =? 43114 then Some Avalanche
  else if id =? 250 then Some Fantom
  else None.

(** rpc_client/providers.rs 8-16 [Provider] *)
Inductive Provider := Ankr | LlamaNodes | PublicNode.

(** rpc_client/providers.rs 185-354 [get_providers] (URLs and API keys dropped) *)
Definition get_providers (n : EvmNetwork) : list Provider :=
  match n with
  | Ethereum | ArbitrumOne | BSC | Polygon | Optimism | Base_ => [LlamaNodes; Ankr; PublicNode]
  | Sepolia | Avalanche | Fantom | BSCTestnet => [Ankr; PublicNode]
  end.
