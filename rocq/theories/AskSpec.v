(** * Specification of C85: what the minter may ask about the chain, and of whom *)

From Coq Require Import String.
From Verif Require Import Base BMap Bytes Types Hex Network Rlp Tx Parser State Driver Sys SysSpec WithdrawSpec ScrapeSpec
  TokenSpec InfoSpec Lifting Ask.

(** The canister that providers are reached through: the one of the last upgrade that names
    one, at first the one with the id sosge-5iaaa-aaaag-alcla-cai. *)
Definition rpc_canister (h : list EventType) : option Principal :=
  fold_left (fun o e =>
    match e with
    | EvInit _ => Some [0; 0; 0; 0; 0; 192; 88; 150; 1; 1]
    | EvUpgrade a => match ua_evm_rpc_id a with Some p => Some p | None => o end
    | _ => o
    end) h None.

(** No upgrade lowers the nonce, and block numbers are below 2^256 - 1 *)
Definition asking_env (s : Sys) (l : Label) : Prop := nonce_kept s l /\ real_blocks s l.

(** The question is about the minter's own matters: the height at which it looks at the chain,
    the logs of its own contract in the blocks that follow those it has looked at, of tokens
    that are registered; its own account; the transactions it has signed. *)
Definition own_question (minter : Address) (s : Sys) (q : Question) : Prop :=
  exists c, configured (history (sys_log s)) = Some c /\
  match q with
  | GetBlockByNumber b => b = AtTag (cf_height c)
  | GetLogs from to addresses topics =>
      exists f t helper tokens,
        from = AtNumber f /\ to = AtNumber t /\ cf_helper c = Some helper /\ addresses = [helper] /\
        f = last_scraped_block_number (sys_state s) + 1 /\ f <= t < f + 1000 /\
        topics = [[DEPOSIT_TOPIC]; map (fun a => repeat 0 12 ++ be_bytes 20 a) tokens] /\
        (forall a, In a tokens -> exists ledger symbol, listed (sys_state s) ledger a symbol)
  | FeeHistoryOf n b p => n = 5 /\ b = AtTag TagLatest /\ p = [20]
  | GetTransactionReceipt h =>
      exists b x, In (EvSignedTransaction b x) (history (sys_log s)) /\ h = [48; 120] ++ hex_encode (be_bytes 32 (st_hash x))
  | GetTransactionCount a b => a = minter /\ b <> TagSafe
  | SendRawTransaction r =>
      exists b x, In (EvSignedTransaction b x) (history (sys_log s)) /\
        r = [48; 120] ++ hex_encode (raw_bytes (st_tx x) (st_sig x))
  end.

(** Some text begins like another *)
Definition begins (p t : text) : Prop := exists r, t = p ++ r.

(** What the minter relies on more than one provider for *)
Definition shared (q : Question) : bool :=
  match q with GetLogs _ _ _ _ | GetTransactionReceipt _ | SendRawTransaction _ => true | _ => false end.

(** The URLs at a provider's own host. In [name] there is no slash. *)
Definition host_of (p : Provider) (name : text) : text :=
  match p with
  | Ankr => text_of "https://rpc.ankr.com/" ++ name
  | LlamaNodes => text_of "https://" ++ name ++ text_of ".llamarpc.com"
  | PublicNode => text_of "https://" ++ name ++ text_of "-rpc.publicnode.com"
  end.
Definition own_url (keys : Keys) (p : Provider) (u : text) : Prop :=
  exists name, ~ In 47 name /\
    u = host_of p name ++ match keys p with Some key => text_of "/" ++ key | None => [] end.

(** What a request for logs names: contracts and topics *)
Definition filter_of (q : Question) : option (list Address * list (list (list N))) :=
  match q with GetLogs _ _ addresses topics => Some (addresses, topics) | _ => None end.
