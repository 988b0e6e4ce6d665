(** * Specification of C05, C06, C52: deposit logs *)

From Verif Require Import Base Bytes Types Parser.

(** What the helper contract writes (evm_helper_contract/src/Deposit.sol 19-25):
    [DepositLog(address from, address indexed token, uint256 indexed amount,
                bytes32 indexed principal, bytes32 subaccount)] *)
Record DepositLog := {
  dl_from : N; dl_token : N; dl_amount : N; dl_principal : list N; dl_subaccount : N
}.
(** A 32-byte word holding a number *)
Definition num_word (n : N) (w : list N) : Prop := List.length w = 32%nat /\ byte_list w /\ of_be w = n.

(** A principal that can own tokens: 1 to 29 bytes, not the anonymous principal [4] *)
Definition owner_principal (p : list N) : Prop :=
  (1 <= List.length p <= 29)%nat /\ p <> [4].
(** A byte string holding a principal: its length, its bytes, and zeros *)
Definition holds_principal (w p : list N) : Prop :=
  exists k, w = N.of_nat (List.length p) :: p ++ repeat 0 k.

(** The entry is mined: it names its block, transaction and position *)
Definition mined (e : LogEntry) (block : N) (tx : Hash) (index : N) : Prop :=
  le_block_number e = Some block /\ le_transaction_hash e = Some tx /\ le_log_index e = Some index /\
  le_block_hash e <> None /\ le_transaction_index e <> None.

(** The entry's topics and data are those of [DepositLog] with the parameters [x]; the
    addresses are below 2^160 and the principal is one that can own tokens *)
Definition encodes (e : LogEntry) (x : DepositLog) : Prop :=
  dl_from x < 2 ^ 160 /\ dl_token x < 2 ^ 160 /\ owner_principal (dl_principal x) /\
  (exists token amount principal,
     le_topics e = [DEPOSIT_TOPIC; token; amount; principal] /\
     num_word (dl_token x) token /\ num_word (dl_amount x) amount /\
     holds_principal principal (dl_principal x)) /\
  (exists from sub, le_data e = from ++ sub /\
     num_word (dl_from x) from /\ num_word (dl_subaccount x) sub).

(** The deposit it stands for; token 0 is the native token, subaccount 0 the default *)
Definition deposit_of (x : DepositLog) (block : N) (tx : Hash) (index : N) : ReceivedDepositEvent :=
  let sub := if dl_subaccount x =? 0 then None else Some (dl_subaccount x) in
  if dl_token x =? 0
  then DepNative {| ne_transaction_hash := tx; ne_block_number := block; ne_log_index := index;
                    ne_from_address := dl_from x; ne_value := dl_amount x;
                    ne_principal := dl_principal x; ne_subaccount := sub |}
  else DepErc20 {| ee_transaction_hash := tx; ee_block_number := block; ee_log_index := index;
                   ee_from_address := dl_from x; ee_value := dl_amount x;
                   ee_principal := dl_principal x; ee_erc20_contract_address := dl_token x;
                   ee_subaccount := sub |}.

(** What a provider can send: topics are 32-byte words, data is bytes *)
Definition wire (e : LogEntry) : Prop :=
  Forall (fun w => List.length w = 32%nat /\ byte_list w) (le_topics e) /\ byte_list (le_data e).

(** eth_getLogs: position by position, a topic matches a single value if it is that value and
    a list of values if the list is empty or contains it; missing positions match nothing *)
Fixpoint topics_match (filter : list Topic) (topics : list (list N)) : Prop :=
  match filter, topics with
  | [], _ => True
  | f :: fs, t :: ts =>
      match f with TopicSingle w => t = w | TopicMultiple ws => ws = [] \/ In t ws end /\
      topics_match fs ts
  | _ :: _, [] => False
  end.
