(** * Ask: what the minter asks the EVM RPC canister, and of whom. Model of
    /repo/minter/src/rpc_client/providers.rs and /repo/minter/src/rpc_client/mod.rs 46-276. *)

From Coq Require Import String.
From Verif Require Import Base BMap MultiKeyMap Bytes Types Amount Tx Network Hex Transactions State
  Ranges Parser Driver PublicEvents.
From Coq Require Import List.
Import ListNotations.
Local Open Scope N_scope.

(** storage.rs 20, 67-72 [RPC_API_KEYS]: a map in stable memory *)
Definition Keys := Provider -> option text.
Definition provider_eqb (p q : Provider) : bool :=
  match p, q with Ankr, Ankr | LlamaNodes, LlamaNodes | PublicNode, PublicNode => true | _, _ => false end.
(** storage.rs 76-78 [set_rpc_api_key] *)
Definition set_rpc_api_key (p : Provider) (key : text) (keys : Keys) : Keys :=
  fun q => if provider_eqb q p then Some key else keys q.
(** main.rs 108-111: the keys given at compile time are stored at installation. Nothing else
    stores any. *)
Definition init_keys (ankr llama : text) : Keys :=
  set_rpc_api_key LlamaNodes llama (set_rpc_api_key Ankr ankr (fun _ => None)).

(** rpc_client/providers.rs 17-24 [get_url_with_api_key] *)
Definition get_url_with_api_key (keys : Keys) (p : Provider) (url : string) : text :=
  match keys p with
  | Some key => text_of url ++ text_of "/" ++ key
  | None => text_of url
  end.

(** evm_rpc_types [RpcServices::Custom]; no provider has headers *)
Record RpcServices := { rs_chain_id : N; rs_urls : list text }.
Definition custom (n : EvmNetwork) (urls : list text) : RpcServices :=
  {| rs_chain_id := chain_id n; rs_urls := urls |}.

(** rpc_client/providers.rs 26-100 [get_one_provider_ankr] *)
Definition get_one_provider_ankr (keys : Keys) (n : EvmNetwork) : RpcServices :=
  custom n
    match n with
    | Ethereum => [get_url_with_api_key keys Ankr "https://rpc.ankr.com/eth"]
    | Sepolia => [get_url_with_api_key keys Ankr "https://rpc.ankr.com/eth_sepolia"]
    | ArbitrumOne => [get_url_with_api_key keys Ankr "https://rpc.ankr.com/arbitrum"]
    | BSC => [get_url_with_api_key keys Ankr "https://rpc.ankr.com/bsc"]
    | BSCTestnet => [get_url_with_api_key keys Ankr "https://rpc.ankr.com/bsc_testnet_chapel"]
    | Polygon => [get_url_with_api_key keys Ankr "https://rpc.ankr.com/polygon"]
    | Optimism => [get_url_with_api_key keys Ankr "https://rpc.ankr.com/optimism"]
    | Base_ => [get_url_with_api_key keys Ankr "https://rpc.ankr.com/base"]
    | Avalanche => [get_url_with_api_key keys Ankr "https://rpc.ankr.com/avalanche"]
    | Fantom => [get_url_with_api_key keys Ankr "https://rpc.ankr.com/fantom"]
    end.

(** rpc_client/providers.rs 102-183 [get_one_provider_public_node] *)
Definition get_one_provider_public_node (keys : Keys) (n : EvmNetwork) : RpcServices :=
  custom n
    match n with
    | Ethereum => [get_url_with_api_key keys PublicNode "https://ethereum-rpc.publicnode.com"]
    | Sepolia => [get_url_with_api_key keys PublicNode "https://ethereum-sepolia-rpc.publicnode.com"]
    | ArbitrumOne => [get_url_with_api_key keys PublicNode "https://arbitrum-one-rpc.publicnode.com"]
    | BSC => [get_url_with_api_key keys PublicNode "https://bsc-rpc.publicnode.com"]
    | BSCTestnet => [get_url_with_api_key keys PublicNode "https://bsc-testnet-rpc.publicnode.com"]
    | Polygon => [get_url_with_api_key keys PublicNode "https://polygon-bor-rpc.publicnode.com"]
    | Optimism => [get_url_with_api_key keys PublicNode "https://optimism-rpc.publicnode.com"]
    | Base_ => [get_url_with_api_key keys PublicNode "https://base-rpc.publicnode.com"]
    | Avalanche => [get_url_with_api_key keys PublicNode "https://avalanche-c-chain-rpc.publicnode.com"]
    | Fantom => [get_url_with_api_key keys PublicNode "https://fantom-rpc.publicnode.com"]
    end.

(** rpc_client/providers.rs 185-354 [get_providers] *)
Definition all_providers (keys : Keys) (n : EvmNetwork) : RpcServices :=
  custom n
    match n with
    | Ethereum =>
        [get_url_with_api_key keys LlamaNodes "https://eth.llamarpc.com";
         get_url_with_api_key keys Ankr "https://rpc.ankr.com/eth";
         get_url_with_api_key keys PublicNode "https://ethereum-rpc.publicnode.com"]
    | Sepolia =>
        [get_url_with_api_key keys Ankr "https://rpc.ankr.com/eth_sepolia";
         get_url_with_api_key keys PublicNode "https://ethereum-sepolia-rpc.publicnode.com"]
    | ArbitrumOne =>
        [get_url_with_api_key keys LlamaNodes "https://arbitrum.llamarpc.com";
         get_url_with_api_key keys Ankr "https://rpc.ankr.com/arbitrum";
         get_url_with_api_key keys PublicNode "https://arbitrum-one-rpc.publicnode.com"]
    | BSC =>
        [get_url_with_api_key keys LlamaNodes "https://binance.llamarpc.com";
         get_url_with_api_key keys Ankr "https://rpc.ankr.com/bsc";
         get_url_with_api_key keys PublicNode "https://bsc-rpc.publicnode.com"]
    | Polygon =>
        [get_url_with_api_key keys LlamaNodes "https://polygon.llamarpc.com";
         get_url_with_api_key keys Ankr "https://rpc.ankr.com/polygon";
         get_url_with_api_key keys PublicNode "https://polygon-bor-rpc.publicnode.com"]
    | Optimism =>
        [get_url_with_api_key keys LlamaNodes "https://optimism.llamarpc.com";
         get_url_with_api_key keys Ankr "https://rpc.ankr.com/optimism";
         get_url_with_api_key keys PublicNode "https://optimism-rpc.publicnode.com"]
    | Base_ =>
        [get_url_with_api_key keys LlamaNodes "https://base.llamarpc.com";
         get_url_with_api_key keys Ankr "https://rpc.ankr.com/base";
         get_url_with_api_key keys PublicNode "https://base-rpc.publicnode.com"]
    | Avalanche =>
        [get_url_with_api_key keys Ankr "https://rpc.ankr.com/avalanche";
         get_url_with_api_key keys PublicNode "https://avalanche-c-chain-rpc.publicnode.com"]
    | Fantom =>
        [get_url_with_api_key keys Ankr "https://rpc.ankr.com/fantom";
         get_url_with_api_key keys PublicNode "https://fantom-rpc.publicnode.com"]
    | BSCTestnet =>
        [get_url_with_api_key keys Ankr "https://rpc.ankr.com/bsc_testnet_chapel";
         get_url_with_api_key keys PublicNode "https://bsc-testnet-rpc.publicnode.com"]
    end.

(** rpc_declrations.rs [BlockSpec], rpc_client/mod.rs 826-833 [into_evm_block_tag] *)
Inductive BlockSpec := AtNumber (n : N) | AtTag (t : BlockTag).

(** evm_rpc_client/src/lib.rs 79-145: the methods and their arguments *)
Inductive Question :=
| GetBlockByNumber (b : BlockSpec)
| GetLogs (from to : BlockSpec) (addresses : list Address) (topics : list (list (list N)))
| FeeHistoryOf (block_count : N) (newest : BlockSpec) (reward_percentiles : list N)
| GetTransactionReceipt (hash : text)
| GetTransactionCount (a : Address) (b : BlockTag)
| SendRawTransaction (raw : text).

Record Request := {
  rq_canister : Principal;
  rq_services : RpcServices;
  rq_size_estimate : option N;
  rq_question : Question
}.

(** rpc_client/mod.rs 37, 44; 66-73, 95-102, 124-131: only queries for logs have an estimate *)
Definition size_estimate (q : Question) : option N :=
  match q with GetLogs _ _ _ _ => Some (100 + 2 * 1024) | _ => None end.

(** rpc_client/mod.rs 52-79 [from_state_all_providers], 81-108
    [from_state_one_provider_public_node], 110-137 [from_state_one_provider_ankr], and the
    methods 139-276, which pass on their arguments *)
Definition ask (services : Keys -> EvmNetwork -> RpcServices) (keys : Keys) (s : State) (q : Question) : Request :=
  {| rq_canister := evm_canister_id s; rq_services := services keys (evm_network s);
     rq_size_estimate := size_estimate q; rq_question := q |}.

(** rpc_client/mod.rs 835-847 [into_evm_topic] *)
Definition into_evm_topic (topics : list Topic) : list (list (list N)) :=
  map (fun t => match t with TopicSingle w => [w] | TopicMultiple l => l end) topics.

(** What a waiting function has asked: deposit.rs 250-254 [update_last_observed_block_number];
    deposit.rs 355, 390-400 [scrape_block_range]; tx.rs 784-792 [get_fee_history]; withdraw.rs
    184-187 [latest_transaction_count]; 338-344 [send_transactions_batch]; 382-388
    [finalize_transactions_batch]; 443-448 [finalized_transaction_count]. The other functions
    wait for a ledger or for the management canister. [minter]: the minter's address. *)
Definition requests (keys : Keys) (minter : Address) (s : State) (t : Task) : list Request :=
  match t with
  | TScrapeBlock _ => [ask get_one_provider_public_node keys s (GetBlockByNumber (AtTag (block_height s)))]
  | TScrapeLogs j =>
      [ask all_providers keys s
         (GetLogs (AtNumber (fst (sj_current j))) (AtNumber (snd (sj_current j))) [sj_contract j]
                  (into_evm_topic (sj_topics j)))]
  | TRetrieveFee | TErc20Estimate _ | TRefresh =>
      [ask get_one_provider_public_node keys s (FeeHistoryOf 5 (AtTag TagLatest) [20])]
  | TRetrieveCount _ => [ask get_one_provider_ankr keys s (GetTransactionCount minter TagLatest)]
  | TRetrieveSend txs => map (fun x => ask all_providers keys s (SendRawTransaction (raw_transaction_hex x))) txs
  | TRetrieveFinalizedCount => [ask get_one_provider_public_node keys s (GetTransactionCount minter TagFinalized)]
  | TRetrieveReceipts hashes =>
      map (fun h => ask all_providers keys s (GetTransactionReceipt (hash_to_text h))) (bkeys hashes)
  | _ => []
  end.
